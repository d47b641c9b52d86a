(** * Proofs for C57: how values are spread over cells *)
From Verif Require Import Err BitsProofs IntModel CellModel ChunkModel ChunkSpec ChunkProofs DictModel AbiModel AbiSpec AbiProofs.
Local Open Scope N_scope.

Definition unit_c := (size * list chunk)%type.
Definition usum (us : list unit_c) : size := ssum (map fst us).
Definition atoms (us : list unit_c) : list chunk := concat (map snd us).
Record unit_ok (u : unit_c) : Prop := {
  u_bits : z_bits (fst u) <= 1023; u_refs : z_refs (fst u) <= 3; u_ne : snd u <> []; u_atoms : Forall atom_ok (snd u);
  u_first : forall a, snd u = [a] -> fst a = [] -> fst u = Size 0 1 }.
Lemma usum_app a b : usum (a ++ b) = sadd (usum a) (usum b).
Proof.
  unfold usum, ssum. induction a as [|x l IH]; cbn [app map fold_right].
  - generalize (fold_right sadd zero_size (map fst b)). intros [? ?]. reflexivity.
  - rewrite IH. unfold sadd. cbn [z_bits z_refs]. f_equal; lia.
Qed.
Lemma usum_cons u us : usum (u :: us) = sadd (fst u) (usum us).
Proof. reflexivity. Qed.
Lemma atoms_app a b : atoms (a ++ b) = atoms a ++ atoms b.
Proof. unfold atoms. rewrite map_app, concat_app. reflexivity. Qed.
Lemma atoms_cons u us : atoms (u :: us) = snd u ++ atoms us.
Proof. reflexivity. Qed.

Section Ser.
Context (fin : list bool -> list cell -> res unit) (v : version) (Hv : 2 <= v_major v).

Inductive emits : list unit_c -> ser -> ser -> Prop :=
| emits_nil s : emits [] s s
| emits_cons z l us s s1 b r s' :
    require v z s = Ok s1 -> r_stack s1 = b :: r -> builder_ok (capp b (cats l)) ->
    emits us (Ser (r_cur s1) (r_left s1) (capp b (cats l) :: r)) s' -> emits ((z, l) :: us) s s'.
Lemma emits_app a b s s1 s' : emits a s s1 -> emits b s1 s' -> emits (a ++ b) s s'.
Proof. induction 1; intros E; [exact E|]. cbn [app]. econstructor; eauto. Qed.

Lemma require_stack z s s1 : require v z s = Ok s1 -> Forall builder_ok (r_stack s) -> Forall builder_ok (r_stack s1).
Proof.
  clear Hv. assert (Em : builder_ok empty_b) by (split; cbn; lia).
  unfold require. cbv zeta. destruct (_ || _); [discriminate|]. intros [= <-] H. destruct (if _ || _ then _ else _); cbn [r_stack]; destruct (r_stack s); auto.
Qed.
Lemma emit_emits z f l s s' : appends f (cats l) -> Forall builder_ok (r_stack s) -> emit v z f s = Ok s' ->
  emits [(z, l)] s s' /\ Forall builder_ok (r_stack s').
Proof.
  clear Hv. intros A H. unfold emit. destruct (require v z s) as [s1|] eqn:E; cbn [rbind]; [|discriminate].
  pose proof (require_stack _ _ _ E H) as H1. destruct (r_stack s1) as [|b r] eqn:Es; [discriminate|].
  inversion_clear H1 as [|? ? Hb Hr]. rewrite (A b Hb).
  destruct (_ || _) eqn:Ov; cbn [rbind]; [discriminate|]. intros [= <-].
  assert (B : builder_ok (capp b (cats l))).
  { apply orb_false_iff in Ov. rewrite !Nat.ltb_ge in Ov. unfold builder_ok, capp. cbn [fst snd]. rewrite !app_length. lia. }
  split; [|constructor; assumption]. econstructor; [exact E|exact Es|exact B|constructor].
Qed.

(** ** Where units go *)
Record placed (s : ser) (st : list (list chunk)) (rest : list unit_c) : Prop := {
  p_stack : r_stack s = map cats st;
  p_ne : Forall (fun g => g <> []) st;
  p_top : forall a p st', st = [a] :: p :: st' -> fst a = [] -> rest <> [];
  p_lrefs : z_refs (r_left s) = z_refs (usum rest);
  p_lbits : z_bits (r_left s) <= z_bits (usum rest);
  p_cbits : z_bits (r_cur s) <= 1023;
  p_crefs : z_refs (r_cur s) <= 4;
  p_full : z_refs (r_cur s) = 4 -> z_refs (usum rest) = 0;
  p_units : Forall unit_ok rest;
  p_empty : st = [] -> r_cur s = zero_size }.

Lemma place_one z l us s s' st : placed s st ((z, l) :: us) -> emits [(z, l)] s s' ->
  exists st', placed s' st' us /\ concat (rev st') = concat (rev st) ++ l.
Proof.
  intros P E. inversion E as [|z' l' us' sx s1 b r sy R Es B E2]; subst. inversion E2; subst. clear E E2.
  destruct P as [P1 P2 P3 P4 P5 P6 P7 P8 P9 P10]. inversion_clear P9 as [|? ? U Us]. destruct U as [U1 U2 U3 U4 U5]. cbn [fst snd] in *.
  rewrite usum_cons in P4, P5, P8. cbn [fst sadd z_bits z_refs] in P4, P5, P8.
  unfold require in R. cbv zeta in R. destruct (N.ltb_spec 1023 (z_bits (r_cur s))) as [|_]; [lia|]. destruct (N.ltb_spec 4 (z_refs (r_cur s))) as [|_]; [lia|].
  cbn [orb z_bits z_refs] in R. set (inline := if _ || _ then false else _) in R. injection R as <-.
  destruct st as [|g st].
  - specialize (P10 eq_refl). assert (I : inline = true).
    { subst inline. rewrite P10. cbn [z_bits z_refs zero_size]. destruct (N.ltb_spec (1023 - 0) (z_bits z)); [lia|]. destruct (N.ltb_spec (4 - 0) (z_refs z)); [lia|]. cbn [orb].
      destruct (N.eqb_spec (z_refs z) (4 - 0)); [lia|]. rewrite andb_false_r. reflexivity. }
    rewrite I in *. clear I inline. cbn [r_stack r_cur r_left] in *. rewrite P1 in Es. cbn [map] in Es. injection Es as <- <-.
    exists [l]. cbn [rev app concat]. rewrite app_nil_r. split; [|reflexivity]. rewrite P10 in *. constructor; cbn [r_stack r_cur r_left sadd ssub zero_size z_bits z_refs map] in *; try assumption; try lia.
    + unfold empty_b. rewrite nil_capp. reflexivity.
    + constructor; [exact U3|constructor].
    + intros a p st' X. inversion X.
    + discriminate.
  - rewrite P1 in Es. cbn [map] in Es. inversion_clear P2 as [|? ? Pg Pst].
    destruct inline eqn:I; cbn [r_stack r_cur r_left] in *.
    + injection Es as <- <-. exists ((g ++ l) :: st). cbn [rev concat]. rewrite !concat_app. cbn [concat]. rewrite !app_nil_r, <- app_assoc. split; [|reflexivity].
      subst inline. destruct (N.ltb_spec (1023 - z_bits (r_cur s)) (z_bits z)) as [|G1]; [discriminate|]. destruct (N.ltb_spec (4 - z_refs (r_cur s)) (z_refs z)) as [|G2]; [discriminate|]. cbn [orb] in I.
      constructor; cbn [r_stack r_cur r_left sadd ssub z_bits z_refs map]; try assumption; try lia.
      * rewrite cats_app. reflexivity.
      * constructor; [|exact Pst]. destruct g; [congruence|discriminate].
      * intros a p st' X _. exfalso. injection X as X _. destruct g as [|g0 [|g1 g]]; [congruence| |discriminate]. cbn [app] in X. injection X as _ X. congruence.
      * intros F. destruct (N.ltb_spec 0 (z_refs z)) as [G3|G3]; cbn [andb] in I.
        -- destruct (N.eqb_spec (z_refs z) (4 - z_refs (r_cur s))) as [G4|G4]; [|lia].
           rewrite !andb_true_iff, N.eqb_eq in I. destruct I as [[_ I] _]. cbn [ssub z_refs] in I. lia.
        -- lia.
      * discriminate.
    + injection Es as <- <-. exists (l :: g :: st). cbn [rev concat]. rewrite !concat_app. cbn [concat]. rewrite !app_nil_r. split; [|reflexivity].
      constructor; cbn [r_stack r_cur r_left sadd ssub z_bits z_refs map]; try assumption; try lia.
      * unfold empty_b. rewrite nil_capp. reflexivity.
      * constructor; [exact U3|constructor; assumption].
      * intros a p st' X Ha. injection X as X _ _. specialize (U5 a X Ha). intros ->. subst z. subst inline. cbn [z_bits z_refs] in *.
        destruct (N.ltb_spec (1023 - z_bits (r_cur s)) 0) as [|_]; [lia|].
        change (z_refs (usum [])) with 0 in *. change (z_bits (usum [])) with 0 in *.
        destruct (N.ltb_spec (4 - z_refs (r_cur s)) 1) as [G|G]; [lia|]. cbn [orb] in I.
        destruct (N.ltb_spec 0 1) as [_|]; [|lia]. cbn [andb] in I. destruct (N.eqb_spec 1 (4 - z_refs (r_cur s))) as [_|]; [|discriminate].
        unfold ssub in I. cbn [z_bits z_refs] in I. rewrite !andb_false_iff in I. rewrite negb_false_iff, !N.eqb_eq, N.eqb_neq, N.leb_gt in I. lia.
      * discriminate.
Qed.
Lemma place_all us : forall s s' st, placed s st us -> emits us s s' ->
  exists st', placed s' st' [] /\ concat (rev st') = concat (rev st) ++ atoms us.
Proof.
  induction us as [|[z l] us IH]; intros s s' st P E.
  - inversion E; subst. exists st. unfold atoms. cbn [map concat]. rewrite app_nil_r. auto.
  - inversion E as [|z' l' us' sx s1 b r sy R Es B E2]; subst.
    destruct (place_one z l us s _ st P (emits_cons z l [] s s1 b r _ R Es B (emits_nil _))) as (st1 & P1 & C1).
    destruct (IH _ _ _ P1 E2) as (st2 & P2 & C2). exists st2. split; [exact P2|]. rewrite C2, C1, atoms_cons. cbn [snd]. rewrite app_assoc. reflexivity.
Qed.

Definition pos_chunk (b : chunk) (l : list chunk) : Prop :=
  exists g gs, holds (g :: gs) (fst b) (snd b) /\ later gs /\ g ++ concat gs = l /\ (l <> [] -> g <> []).
Lemma pos_chunk_pos b l c : pos_chunk b l -> pos (Sl c (fst b) (snd b)) l.
Proof. intros (g & gs & H & L & E & _). exists g, gs. auto. Qed.
Lemma join_pos st0 : forall g gs b b', holds (g :: gs) (fst b) (snd b) -> later gs -> (st0 <> [] -> later (g :: gs)) -> Forall (fun g => g <> []) st0 -> g <> [] ->
  join fin b (map cats st0) = Ok b' -> pos_chunk b' (concat (rev st0) ++ g ++ concat gs).
Proof.
  induction st0 as [|p st0 IH]; intros g gs b b' H L L1 N G; cbn [map join].
  - intros [= <-]. exists g, gs. cbn [rev concat app]. auto.
  - destruct (build fin b) as [c|] eqn:Eb; cbn [rbind]; [|discriminate]. apply build_ok in Eb. subst c.
    destruct (store_ref (chunk_cell b) (cats p)) as [b1|] eqn:E1; cbn [rbind]; [|discriminate]. apply store_ref_ok in E1. destruct E1 as [-> _].
    inversion_clear N as [|? ? Np N']. intros J. specialize (L1 ltac:(discriminate)).
    cbn [rev]. rewrite concat_app. cbn [concat]. rewrite app_nil_r, <- app_assoc. change (g ++ concat gs) with (concat (g :: gs)).
    eapply IH; [ |exact L1| |exact N'|exact Np|exact J].
    + cbn [holds]. unfold capp. cbn [fst snd]. rewrite app_nil_r. split; [reflexivity|]. exists [chunk_cell b]. split; [reflexivity|]. exists (chunk_cell b). split; [reflexivity|]. split; [reflexivity|]. exact H.
    + intros _. cbn [later]. split; [|exact L1]. destruct p; [congruence|]. intros _. right. discriminate.
Qed.
Lemma finalize_pos s st b : placed s st [] -> finalize fin s = Ok b -> pos_chunk b (concat (rev st)).
Proof.
  intros [P1 P2 P3 _ _ _ _ _ _ _]. unfold finalize. destruct (negb _); [discriminate|]. rewrite P1. destruct st as [|g st]; cbn [map].
  - intros [= <-]. exists [], []. split; [|split; [exact Logic.I|split; [reflexivity|intros X; destruct (X eq_refl)]]]. cbn [holds]. split; [reflexivity|]. exists []. auto.
  - intros J. inversion_clear P2 as [|? ? Pg Pst]. cbn [rev]. rewrite concat_app. cbn [concat].
    refine (join_pos st g [] (cats g) b _ _ _ Pst Pg J); [|exact Logic.I|].
    + cbn [holds]. split; [reflexivity|]. exists []. rewrite app_nil_r. auto.
    + intros N. cbn [later]. split; [|exact Logic.I]. destruct g as [|a g]; [congruence|]. intros Ha. destruct g as [|a2 g]; [|left; discriminate].
      destruct st as [|p st]; [congruence|]. exfalso. exact (P3 a p st eq_refl Ha eq_refl).
Qed.

(** Nothing is split when everything fits. *)
Definition top_is (s : ser) (b : chunk) : Prop := r_stack s = [b] \/ r_stack s = [] /\ b = empty_b.
Lemma no_split us : forall s s' b, top_is s b -> emits us s s' ->
  z_bits (r_cur s) + z_bits (usum us) <= 1023 -> z_refs (r_cur s) + z_refs (usum us) <= 3 ->
  top_is s' (capp b (cats (atoms us))).
Proof.
  induction us as [|[z l] us IH]; intros s s' b T E Hb Hr.
  - inversion E; subst. change (cats (atoms [])) with (([], []) : chunk). rewrite capp_nil. exact T.
  - rewrite usum_cons in Hb, Hr. cbn [fst sadd z_bits z_refs] in Hb, Hr.
    inversion E as [|z' l' us' sx s1 b1 r sy R Es B E2]; subst. rewrite atoms_cons, cats_app, capp_assoc. cbn [snd].
    unfold require in R. cbv zeta in R. destruct (N.ltb_spec 1023 (z_bits (r_cur s))) as [|_]; [lia|]. destruct (N.ltb_spec 4 (z_refs (r_cur s))) as [|_]; [lia|].
    cbn [orb z_bits z_refs] in R. destruct (N.ltb_spec (1023 - z_bits (r_cur s)) (z_bits z)) as [|_]; [lia|]. destruct (N.ltb_spec (4 - z_refs (r_cur s)) (z_refs z)) as [|_]; [lia|].
    cbn [orb] in R. destruct (N.eqb_spec (z_refs z) (4 - z_refs (r_cur s))) as [|_]; [lia|]. rewrite andb_false_r in R. injection R as <-. cbn [r_stack r_cur r_left] in *.
    assert (b1 = b /\ r = []) as [-> ->].
    { destruct T as [T|[T ->]]; rewrite T in Es; injection Es as <- <-; auto. }
    eapply IH; [|exact E2| |]; cbn [r_cur sadd z_bits z_refs]; [left; reflexivity|lia|lia].
Qed.
End Ser.
