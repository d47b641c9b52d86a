(** * Augmented dictionaries: representation, insertion, removal. *)
From Verif Require Import Err BitsProofs CellModel LabelModel LabelSpec LabelProofs DictModel DictSpec DictTree DictProofs DictProofs2 DictProofs3.
From Verif Require Import ChunkSpec AugModel AugSpec.
Local Open Scope nat_scope.

(** ** The tree of an augmented dictionary; the extras are not part of it *)
Section Rep.
Context (comb : chunk -> chunk -> res chunk) (R : rules).
Inductive ARep : nat -> cell -> chunk -> pt -> Prop :=
| ARep_leaf n bits l v :
    r_label R n bits l (fst v) -> length l = n -> r_cell R bits (snd v) ->
    ARep n (Cell false bits (snd v)) v (Leaf l v)
| ARep_fork n m bits l x cl cr xa xb a b :
    r_label R n bits l (fst x) -> n = length l + S m -> comb xa xb = Ok x ->
    r_cell R bits (cl :: cr :: snd x) ->
    ARep m cl xa a -> ARep m cr xb b ->
    ARep n (Cell false bits (cl :: cr :: snd x)) x (Fork l ([], []) a b).

Lemma aug_rep n c x es : aug_hashmap comb R n c x es <-> exists t, ARep n c x t /\ es = entries t.
Proof.
  split.
  - induction 1 as [n bits l v H1 H2 H3|n m bits l x cl cr xl xr el er H1 H2 H3 H4 HL (ta & IHL & ->) HR (tb & IHR & ->)].
    + exists (Leaf l v). split; [constructor; assumption|reflexivity].
    + exists (Fork l ([], []) ta tb). split; [econstructor; eassumption|reflexivity].
  - intros (t & H & ->). induction H as [n bits l v H1 H2 H3|n m bits l x cl cr xa xb a b H1 H2 H3 H4 HL IHL HR IHR]; cbn [entries].
    + constructor; assumption.
    + econstructor; eassumption.
Qed.

Lemma ARep_wft n c x t : ARep n c x t -> wft n t.
Proof. induction 1; cbn [wft]; [assumption|]. exists m. auto. Qed.
Lemma ARep_plain n c x t : ARep n c x t -> plain t.
Proof. induction 1; cbn [plain]; auto. Qed.
End Rep.

(** Forgetting the extras: an augmented dictionary can be read like any other. *)
Lemma aug_hashmap_any comb R n c x es : (forall n bits l rest, r_label R n bits l rest -> any_label n bits l rest) ->
  aug_hashmap comb R n c x es -> hashmap any_dict n c es.
Proof.
  intros HL. induction 1 as [n bits l v H1 H2 H3|n m bits l x cl cr xl xr el er H1 H2 H3 H4 HA IHA HB IHB].
  - constructor; [apply HL, H1|exact H2|exact I].
  - apply (hm_fork any_dict n m bits l x cl cr el er); [apply HL, H1|exact H2|exact I|exact I|exact IHA|exact IHB].
Qed.

(** What the writers guarantee. *)
Definition awrites (fin : list bool -> list cell -> res unit) (R : rules) : Prop :=
  (forall n l rest, length l <= n -> r_label R n (label_bits n l ++ rest) l rest) /\
  (forall bits refs, cell_ok fin bits refs -> r_cell R bits refs).
Lemma awrites_any fin : awrites fin any_dict.
Proof. split; [|intros; exact I]. intros n l rest H. exists (label_bits n l). split; [reflexivity|apply label_bits_hml, H]. Qed.
Lemma awrites_canonical fin : awrites fin (canonical_dict fin).
Proof.
  destruct (writes_canonical fin) as (W1 & _ & _ & W2). split; [exact W1|]. intros bits refs (H1 & H2 & H3). apply W2; assumption.
Qed.

Section W.
Context (fin : list bool -> list cell -> res unit) (comb : chunk -> chunk -> res chunk).
Notation CR := (canonical_dict fin).
Notation cell_ok := (cell_ok fin).

(** ** Canonical ones are determined by the tree *)
Lemma ARep_canon_leaf n c x l v : ARep comb CR n c x (Leaf l v) ->
  x = v /\ c = Cell false (label_bits n l ++ fst v) (snd v) /\ cell_ok (label_bits n l ++ fst v) (snd v) /\ length l = n.
Proof.
  intros H. inversion H as [n' bits' l' v' H1 H2 H3|]; subst. apply canonical_label_eq in H1. destruct H1 as [-> _].
  split; [reflexivity|]. split; [reflexivity|]. split; [exact H3|reflexivity].
Qed.
Lemma ARep_canon_fork n c x l y a b : ARep comb CR n c x (Fork l y a b) ->
  exists m cl cr xa xb, c = Cell false (label_bits n l ++ fst x) (cl :: cr :: snd x) /\
    cell_ok (label_bits n l ++ fst x) (cl :: cr :: snd x) /\ y = ([], []) /\ comb xa xb = Ok x /\
    n = length l + S m /\ ARep comb CR m cl xa a /\ ARep comb CR m cr xb b.
Proof.
  intros H. inversion H as [|n' m bits l' x' cl cr xa xb a' b' H1 H2 H3 H4 HL HRR]; subst.
  apply canonical_label_eq in H1. destruct H1 as [-> _].
  exists m, cl, cr, xa, xb. split; [reflexivity|]. split; [exact H4|]. auto 10.
Qed.
Lemma ARep_det n c c' x x' t : ARep comb CR n c x t -> ARep comb CR n c' x' t -> c = c' /\ x = x'.
Proof.
  intros H. revert c' x'. induction H as [n bits l v H1 H2 H3|n m bits l x cl cr xa xb a b H1 H2 H3 H4 HL IHL HR IHR]; intros c' x' H'.
  - apply ARep_canon_leaf in H'. destruct H' as (-> & -> & _). apply canonical_label_eq in H1. destruct H1 as [-> _]. auto.
  - apply ARep_canon_fork in H'. destruct H' as (m' & cl' & cr' & xa' & xb' & -> & _ & _ & E & Hm & Ha & Hb).
    assert (m' = m) as -> by lia.
    apply canonical_label_eq in H1. destruct H1 as [-> _].
    destruct (IHL _ _ Ha) as [-> ->], (IHR _ _ Hb) as [-> ->]. rewrite H3 in E. injection E as <-. auto.
Qed.

(** ** Reading a node *)
Context (R : rules) (HR : reads R) (HW : awrites fin R).
Notation ARp := (ARep comb R).
Definition acont (t : pt) (ch x : chunk) : Prop :=
  match t with
  | Leaf l v => ch = v /\ x = v
  | Fork l y a b => y = ([], []) /\ exists m cl cr xa xb, ARp m cl xa a /\ ARp m cr xb b /\ comb xa xb = Ok x /\
      ch = (fst x, cl :: cr :: snd x)
  end.
Lemma ARep_inv n c x t : n <= 1023 -> ARp n c x t ->
  exists bits refs rest, c = Cell false bits refs /\ as_slice c = Ok (Sl c bits refs) /\
    read_label n bits = Ok (lbl t, rest) /\ acont t (rest, refs) x /\
    match t with
    | Leaf l v => length l = n /\ v = (rest, refs)
    | Fork l y a b => exists m cl cr xa xb, n = length l + S m /\ refs = cl :: cr :: snd x /\ rest = fst x /\
        ARp m cl xa a /\ ARp m cr xb b /\ comb xa xb = Ok x
    end.
Proof.
  intros Hn H. destruct H as [n bits l v H1 H2 H3|n m bits l x cl cr xa xb a b H1 H2 H3 H4 HL HRR].
  - exists bits, (snd v), (fst v). split; [reflexivity|]. split; [reflexivity|]. split; [apply HR; assumption|].
    cbn [acont]. destruct v; auto.
  - exists bits, (cl :: cr :: snd x), (fst x). split; [reflexivity|]. split; [reflexivity|]. split; [apply HR; assumption|].
    cbn [acont]. split; [split; [reflexivity|]; exists m, cl, cr, xa, xb; auto 10|]. exists m, cl, cr, xa, xb. auto 10.
Qed.
Lemma ARep_slice n c x t : n <= 1023 -> ARp n c x t -> exists s, slice_of c = Ok s /\ skip_label_full s n = Ok x /\
  exists rest refs, read_label n (fst s) = Ok (lbl t, rest) /\
  (if negb (length (lbl t) =? n) then skip_refs 2 (snd s) else Ok (snd s)) = Ok refs /\ x = (rest, refs).
Proof.
  intros Hn H. pose proof (ARep_wft _ _ _ _ _ _ H) as Hw.
  destruct (ARep_inv n c x t Hn H) as (bits & refs & rest & -> & Es & El & Hc & Ht).
  exists (bits, refs). split; [unfold slice_of; rewrite Es; reflexivity|].
  unfold skip_label_full. cbn [fst snd]. rewrite El. cbn [rbind].
  destruct t as [l v|l y a b]; cbn [lbl acont wft] in *.
  - destruct Ht as [Hl Hv]. destruct Hc as [<- ->]. rewrite Hl, Nat.ltb_irrefl, Nat.eqb_refl. cbn [negb].
    split; [reflexivity|]. exists rest, refs. auto.
  - destruct Ht as (m & cl & cr & xa & xb & Hm & -> & -> & _). rewrite (proj2 (Nat.ltb_lt _ _)) by lia.
    rewrite (proj2 (Nat.eqb_neq _ _)) by lia. cbn [negb].
    unfold skip_refs. cbn [length]. rewrite (proj2 (Nat.ltb_ge _ _)) by lia. cbn [rbind drop].
    split; [destruct x; reflexivity|]. exists (fst x), (snd x). rewrite drop_0. destruct x; auto.
Qed.

(** ** Building nodes *)
(** The outcome of building the cell of [t]: right if it succeeds; on canonical dictionaries it
    fails only if there is no such cell. *)
Definition out (n : nat) (r : res cell) (t : pt) : Prop :=
  match r with
  | Ok c => exists x, ARp n c x t
  | Err _ => R = CR -> forall c x, ~ ARp n c x t
  end.
Definition outx (n : nat) (r : res cell) (x : chunk) (t : pt) : Prop :=
  match r with
  | Ok c => ARp n c x t
  | Err _ => R = CR -> forall c x, ~ ARp n c x t
  end.
Lemma outx_out n r x t : outx n r x t -> out n r t.
Proof. destruct r; cbn; eauto. Qed.

Lemma ARep_relabel n t ch x l : acont t ch x -> wft n (relabel l t) -> n <= 1023 ->
  cell_ok (label_bits n l ++ fst ch) (snd ch) ->
  ARp n (Cell false (label_bits n l ++ fst ch) (snd ch)) x (relabel l t).
Proof.
  destruct HW as (W1 & W4). intros Hc Hw Hn Hok. pose proof (lbl_le _ _ Hw) as Hl.
  destruct t as [l0 v|l0 y a b]; cbn [relabel acont lbl] in *.
  - destruct Hc as [-> ->]. constructor; [apply W1, Hl|exact Hw|apply W4; assumption].
  - destruct Hc as (-> & m & cl & cr & xa & xb & Ha & Hb & Hx & ->). destruct Hw as (m' & Hm & Hwa' & Hwb).
    assert (m' = m) as -> by (eapply wft_unique; [eapply ARep_wft, Ha|exact Hwa']).
    cbn [fst snd] in *. econstructor; [apply W1, Hl|exact Hm|exact Hx|apply W4; assumption|exact Ha|exact Hb].
Qed.
Lemma ARep_relabel_inv m c1 b t ch x x' : R = CR -> acont t ch x -> ARp m c1 x' (relabel b t) ->
  x' = x /\ c1 = Cell false (label_bits m b ++ fst ch) (snd ch) /\ cell_ok (label_bits m b ++ fst ch) (snd ch).
Proof.
  intros E. destruct t as [l v|l y ta tb]; cbn [acont relabel]; rewrite E.
  - intros [-> ->]. intros H. apply ARep_canon_leaf in H. tauto.
  - intros (-> & m' & cl & cr & xa & xb & Ha & Hb & Hx & ->) H. apply ARep_canon_fork in H.
    destruct H as (m2 & cl' & cr' & xa' & xb' & -> & Hok & _ & Hx' & Hm & Ha' & Hb').
    assert (m2 = m') as -> by (eapply wft_unique; [eapply ARep_wft, Ha|eapply ARep_wft; exact Ha']).
    destruct (ARep_det _ _ _ _ _ _ Ha Ha') as [<- <-], (ARep_det _ _ _ _ _ _ Hb Hb') as [<- <-].
    rewrite Hx in Hx'. injection Hx' as <-. auto.
Qed.
Lemma leaf_out n t ch x l : acont t ch x -> wft n (relabel l t) -> n <= 1023 ->
  outx n (make_leaf fin l n ch) x (relabel l t).
Proof.
  intros Hc Hw Hn.
  assert (Hl : length l <= n). { pose proof (lbl_le _ _ Hw) as L. destruct t; exact L. }
  destruct (make_leaf fin l n ch) as [c|e] eqn:E; cbn [outx].
  - apply make_leaf_iff in E; [|exact Hl|exact Hn]. destruct E as [-> Hok]. apply ARep_relabel; assumption.
  - intros EC c x' H. destruct (ARep_relabel_inv _ _ _ _ _ _ _ EC Hc H) as (-> & -> & Hok).
    rewrite (proj2 (make_leaf_iff fin l n ch _ Hl Hn) (conj eq_refl Hok)) in E. discriminate.
Qed.

Lemma aug_fork_iff l n cl cr xa xb c : length l <= n -> n <= 1023 ->
  aug_fork fin comb l n cl cr xa xb = Ok c <->
  exists x, comb xa xb = Ok x /\ c = Cell false (label_bits n l ++ fst x) (cl :: cr :: snd x) /\
    cell_ok (label_bits n l ++ fst x) (cl :: cr :: snd x).
Proof.
  intros Hl Hn. unfold aug_fork. rewrite write_label_spec by assumption. unfold DictProofs.cell_ok.
  destruct (Nat.leb_spec (length (label_bits n l)) 1023) as [L|L]; cbn [rbind].
  2:{ split; [discriminate|]. intros (x & _ & _ & H & _). rewrite app_length in H. lia. }
  rewrite (putr_ok fin) by (cbn; lia). cbn [rbind app]. rewrite (putr_ok fin) by (cbn; lia). cbn [rbind app].
  destruct (comb xa xb) as [x|] eqn:Ex; cbn [rbind].
  2:{ split; [discriminate|]. intros (x & H & _). discriminate. }
  unfold putc. cbn [fst snd]. split.
  - destruct (put (fst x) (label_bits n l)) as [b|] eqn:E1; cbn [rbind]; [|discriminate].
    destruct (putr (snd x) [cl; cr]) as [r|] eqn:E2; cbn [rbind]; [|discriminate].
    apply put_inv in E1. apply (putr_inv fin) in E2. destruct E1 as [-> E1], E2 as [-> E2].
    intros H. apply build_iff in H. cbn [fst snd app] in *. destruct H as [-> H].
    exists x. split; [reflexivity|]. split; [reflexivity|]. split; [lia|]. split; [exact E2|exact H].
  - intros (x0 & [= <-] & -> & H1 & H2 & H3). rewrite app_length in H1. cbn [length] in H2.
    rewrite put_ok by lia. cbn [rbind]. rewrite (putr_ok fin) by (cbn [length]; lia). cbn [rbind].
    apply build_iff. cbn [fst snd app]. auto.
Qed.
Lemma fork_out n l m cl cr xa xb a b : n <= 1023 -> n = length l + S m -> ARp m cl xa a -> ARp m cr xb b ->
  out n (aug_fork fin comb l n cl cr xa xb) (Fork l ([], []) a b).
Proof.
  intros Hn Hm Ha Hb. destruct (aug_fork fin comb l n cl cr xa xb) as [c|e] eqn:E; cbn [out].
  - apply aug_fork_iff in E; [|lia|exact Hn]. destruct E as (x & Hx & -> & Hok). exists x.
    destruct HW as [W1 W4]. econstructor; [apply W1; lia|exact Hm|exact Hx|apply W4, Hok|exact Ha|exact Hb].
  - intros EC c x H. rewrite EC in *. apply ARep_canon_fork in H.
    destruct H as (m2 & cl' & cr' & xa' & xb' & -> & Hok & _ & Hx' & Hm' & Ha' & Hb').
    assert (m2 = m) as -> by lia.
    destruct (ARep_det _ _ _ _ _ _ Ha Ha') as [<- <-], (ARep_det _ _ _ _ _ _ Hb Hb') as [<- <-].
    assert (F : aug_fork fin comb l n cl cr xa xb = Ok (Cell false (label_bits n l ++ fst x) (cl :: cr :: snd x))).
    { apply aug_fork_iff; [lia|exact Hn|]. eauto. }
    congruence.
Qed.
(** If a branch has no cell, the fork has none. *)
Lemma no_left n l y a b : (R = CR -> forall m c x, n = length l + S m -> ~ ARp m c x a) ->
  R = CR -> forall c x, ~ ARp n c x (Fork l y a b).
Proof.
  intros K EC c x H. inversion H as [|n' m bits l' x' cl cr xa xb a' b' H1 H2 H3 H4 HL HRR]; subst n' l' x' a' b'.
  eapply (K EC m); eassumption.
Qed.
Lemma no_right n l y a b : (R = CR -> forall m c x, n = length l + S m -> ~ ARp m c x b) ->
  R = CR -> forall c x, ~ ARp n c x (Fork l y a b).
Proof.
  intros K EC c x H. inversion H as [|n' m bits l' x' cl cr xa xb a' b' H1 H2 H3 H4 HL HRR]; subst n' l' x' a' b'.
  eapply (K EC m); eassumption.
Qed.

(** One step of [aug_rebuild]. *)
Lemma aug_rebuild_step n m l bits x cl cr xa xb a b (br : bool) st leaf x' t' : n <= 1023 ->
  read_label n bits = Ok (l, fst x) -> n = length l + S m ->
  ARp m cl xa a -> ARp m cr xb b -> ARp m leaf x' t' ->
  aug_rebuild fin comb (Seg (Cell false bits (cl :: cr :: snd x)) br n :: st) leaf =
  (let? c := aug_fork fin comb l n (if br then cl else leaf) (if br then leaf else cr)
               (if br then xa else x') (if br then x' else xb) in aug_rebuild fin comb st c).
Proof.
  intros Hn El Hm Ha Hb Ht. cbn [aug_rebuild g_branch g_data g_len].
  destruct (ARep_slice m cl xa a ltac:(lia) Ha) as (sa & Ea & Ea' & _).
  destruct (ARep_slice m cr xb b ltac:(lia) Hb) as (sb & Eb & Eb' & _).
  destruct (ARep_slice m leaf x' t' ltac:(lia) Ht) as (sl & Es & Es' & _).
  assert (F : n - length l - 1 = m) by lia.
  destruct br; cbn [ref_at c_refs lookup list_lookup rbind slice_of as_slice c_exotic s_chunk s_bits s_refs c_bits fst snd];
    rewrite El; cbn [rbind]; rewrite (proj2 (Nat.ltb_ge _ _)) by lia; rewrite F, ?Ea, ?Eb, Es; cbn [rbind];
    rewrite ?Ea', ?Eb', Es'; cbn [rbind]; rewrite ?Ea', ?Eb', ?Es'; cbn [rbind]; reflexivity.
Qed.

(** ** Insertion *)
Lemma leaf_extra_iff l n ex v c : length l <= n -> n <= 1023 ->
  make_leaf_with_extra fin l n (Ok ex) v = Ok c <-> make_leaf fin l n (capp ex v) = Ok c.
Proof.
  intros Hl Hn. rewrite make_leaf_iff by assumption. unfold make_leaf_with_extra, DictProofs.cell_ok, capp. cbn [fst snd].
  rewrite write_label_spec by assumption. rewrite !app_length.
  destruct (Nat.leb_spec (length (label_bits n l)) 1023) as [L|L]; cbn [rbind].
  2:{ split; [discriminate|]. intros (_ & H & _). lia. }
  unfold putc. cbn [fst snd]. split.
  - destruct (put (fst ex) (label_bits n l)) as [b|] eqn:E1; cbn [rbind]; [|discriminate].
    destruct (putr (snd ex) []) as [r|] eqn:E2; cbn [rbind fst snd]; [|discriminate].
    apply put_inv in E1. apply (putr_inv fin) in E2. destruct E1 as [-> E1], E2 as [-> E2]. cbn [app] in *.
    destruct (put (fst v) _) as [b|] eqn:E3; cbn [rbind]; [|discriminate].
    destruct (putr (snd v) _) as [r|] eqn:E4; cbn [rbind]; [|discriminate].
    apply put_inv in E3. apply (putr_inv fin) in E4. destruct E3 as [-> E3], E4 as [-> E4].
    rewrite !app_length in *. intros H. apply build_iff in H. cbn [fst snd] in H. destruct H as [-> H].
    rewrite <- app_assoc in *. split; [reflexivity|]. split; [lia|]. split; [lia|exact H].
  - intros (-> & H1 & H2 & H3). rewrite put_ok by lia. cbn [rbind]. rewrite (putr_ok fin) by (cbn [length]; lia). cbn [rbind fst snd app].
    rewrite put_ok by (rewrite app_length; lia). cbn [rbind]. rewrite (putr_ok fin) by lia. cbn [rbind].
    apply build_iff. cbn [fst snd]. rewrite <- app_assoc. auto.
Qed.
Lemma leaf_extra_out n k ex v : length k = n -> n <= 1023 ->
  outx n (make_leaf_with_extra fin k n (Ok ex) v) (capp ex v) (Leaf k (capp ex v)).
Proof.
  intros Hk Hn. pose proof (leaf_out n (Leaf [] (capp ex v)) (capp ex v) (capp ex v) k (conj eq_refl eq_refl) Hk Hn) as H.
  cbn [relabel] in H. destruct (make_leaf_with_extra fin k n (Ok ex) v) as [c|] eqn:E.
  - apply leaf_extra_iff in E; [|lia|lia]. rewrite E in H. exact H.
  - destruct (make_leaf fin k n (capp ex v)) as [c|] eqn:E'; [|exact H].
    apply leaf_extra_iff in E'; [congruence|lia|lia].
Qed.

Lemma split_out n t k ch x0 ex v p x a b : n <= 1023 -> wft n t -> acont t ch x0 ->
  k = p ++ x :: a -> lbl t = p ++ negb x :: b -> length k = n ->
  out n (split_aug_edge fin comb ch (lbl t) p k (Ok ex) v) (t_split p t k (capp ex v)).
Proof.
  intros Hn Hw Hc Ek El Hk. subst k. unfold split_aug_edge. rewrite El. cbv zeta.
  pose proof Hk as Hk'. rewrite app_length in Hk'. cbn [length] in Hk'.
  unfold skip_bits at 1. rewrite app_length. cbn [length]. rewrite (proj2 (Nat.ltb_ge _ _)) by lia. cbn [rbind].
  unfold skip_bits. rewrite app_length. cbn [length]. rewrite (proj2 (Nat.ltb_ge _ _)) by lia.
  rewrite drop_app. cbn [load_bit rbind].
  replace (length p + 1) with (S (length p)) by lia. destruct (diverge_shape p x a) as [-> _].
  assert (W : wft (length a) (relabel b t)).
  { eapply relabel_wft; [exact Hw|]. rewrite El, app_length. cbn [length]. lia. }
  assert (Lb : length b <= length a).
  { pose proof (lbl_le _ _ W) as L. destruct t; exact L. }
  rewrite (t_split_shape p x a b t (capp ex v) El). rewrite Hk'.
  pose proof (leaf_out (length a) t ch x0 b Hc W ltac:(lia)) as O1.
  pose proof (leaf_extra_out (length a) a ex v eq_refl ltac:(lia)) as O2.
  destruct (make_leaf fin b (length a) ch) as [lf|] eqn:E1; cbn [rbind outx] in *.
  2:{ cbn [out]; destruct x; [refine (no_left _ _ _ _ _ _)|refine (no_right _ _ _ _ _ _)]; intros EC m c y Hm; assert (m = length a) as -> by lia; apply O1, EC. }
  destruct (make_leaf_with_extra fin a (length a) (Ok ex) v) as [rt|] eqn:E2; cbn [rbind outx] in *.
  2:{ cbn [out]; destruct x; [refine (no_right _ _ _ _ _ _)|refine (no_left _ _ _ _ _ _)]; intros EC m c y Hm; assert (m = length a) as -> by lia; apply O2, EC. }
  destruct (ARep_slice (length a) _ _ _ ltac:(lia) O1) as (s1 & S1 & S1' & _).
  destruct (ARep_slice (length a) _ _ _ ltac:(lia) O2) as (s2 & S2 & S2' & _).
  destruct x; cbn [negb rbind]; rewrite ?S1, ?S2; cbn [rbind]; rewrite ?S1, ?S2; cbn [rbind]; rewrite ?S1', ?S2'; cbn [rbind]; rewrite ?S1', ?S2'; cbn [rbind];
    (eapply fork_out; [exact Hn|symmetry; exact Hk'|eassumption|eassumption]).
Qed.

Definition ains_rebuild (o : res (option (cell * list seg))) : res (option cell) :=
  let? o := o in
  match o with
  | None => Ok None
  | Some (leaf, st) => let? c := aug_rebuild fin comb st leaf in Ok (Some c)
  end.

Lemma aug_insert_loop_spec n c x t key ex v mode fuel stack :
  n <= 1023 -> ARp n c x t -> length key = n -> n < fuel ->
  if refused mode (bool_decide (is_Some (t_get t key)))
  then aug_insert_loop fin comb fuel c key (Ok ex) v mode stack = Ok None
  else exists r,
    ains_rebuild (aug_insert_loop fin comb fuel c key (Ok ex) v mode stack) =
      (let? c' := r in let? c2 := aug_rebuild fin comb stack c' in Ok (Some c2)) /\
    out n r (t_ins t key (capp ex v)).
Proof.
  revert n c x t key stack. induction fuel as [|f IH]; intros n c x t key stack Hn H Hk Hf; [lia|].
  pose proof (ARep_wft _ _ _ _ _ _ H) as Hw.
  destruct (ARep_inv n c x t Hn H) as (bits & refs & rest & Ec & Es & El & Hc & Ht).
  cbn [aug_insert_loop]. rewrite Es. cbn [rbind s_bits s_refs]. rewrite Hk, El. cbn [rbind].
  pose proof (lbl_le _ _ Hw) as Ll.
  destruct (key_label_cases key (lbl t) ltac:(lia)) as [[r Er]|(p & z & ka & lb & Ek & Elb)].
  - rewrite Er, cpfx_self_l. rewrite <- Er.
    destruct t as [l w|l y a b]; cbn [lbl t_get t_ins] in *.
    + destruct Ht as [Hl Hv]. assert (r = []) as ->.
      { destruct r; [reflexivity|]. subst key. rewrite app_length in Hk. cbn in Hk. lia. }
      rewrite app_nil_r in Er. subst key. rewrite strip_self in *.
      rewrite bool_decide_eq_true_2 by (eexists; reflexivity).
      rewrite Hl, Nat.eqb_refl. unfold refused. destruct (negb (can_replace mode)); [reflexivity|].
      exists (make_leaf_with_extra fin l n (Ok ex) v). split; [|eapply outx_out, leaf_extra_out; assumption].
      destruct (make_leaf_with_extra fin l n (Ok ex) v); reflexivity.
    + destruct Ht as (m & cl & cr & xa & xb & Hm & Hrefs & Hrest & Ha & Hb & Hx). subst refs rest.
      destruct r as [|c0 r]; [subst key; rewrite app_nil_r in Hk; lia|].
      pose proof Hk as Hk'. rewrite Er, app_length in Hk'. cbn [length] in Hk'.
      rewrite (proj2 (Nat.eqb_neq _ _)) by lia. rewrite Nat.ltb_irrefl.
      subst c. cbn [c_refs length]. rewrite (proj2 (Nat.ltb_ge _ _)) by lia.
      unfold skip_bits. rewrite Hk, (proj2 (Nat.ltb_ge _ _)) by lia. cbn [rbind]. rewrite Er, drop_app. cbn [load_bit rbind].
      rewrite strip_app. destruct Hc as (-> & _).
      destruct c0; cbn [ref_at c_refs lookup list_lookup rbind].
      * specialize (IH m cr xb b r (Seg (Cell false bits (cl :: cr :: snd x)) true n :: stack) ltac:(lia) Hb ltac:(lia) ltac:(lia)).
        destruct (refused mode (bool_decide (is_Some (t_get b r)))); [exact IH|].
        destruct IH as (r1 & E1 & O1). rewrite E1. destruct r1 as [c1|e1]; cbn [rbind out] in *.
        -- destruct O1 as (x1 & O1). exists (aug_fork fin comb l n cl c1 xa x1).
           rewrite (aug_rebuild_step n m l bits x cl cr xa xb a b true stack c1 x1 _ Hn El Hm Ha Hb O1).
           split; [destruct (aug_fork _ _ _ _ _ _ _ _); reflexivity|]. eapply fork_out; eassumption.
        -- exists (Err e1). split; [reflexivity|]. cbn [out]. refine (no_right _ _ _ _ _ _). intros EC m' c y Hm'.
           assert (m' = m) as -> by lia. apply O1, EC.
      * specialize (IH m cl xa a r (Seg (Cell false bits (cl :: cr :: snd x)) false n :: stack) ltac:(lia) Ha ltac:(lia) ltac:(lia)).
        destruct (refused mode (bool_decide (is_Some (t_get a r)))); [exact IH|].
        destruct IH as (r1 & E1 & O1). rewrite E1. destruct r1 as [c1|e1]; cbn [rbind out] in *.
        -- destruct O1 as (x1 & O1). exists (aug_fork fin comb l n c1 cr x1 xb).
           rewrite (aug_rebuild_step n m l bits x cl cr xa xb a b false stack c1 x1 _ Hn El Hm Ha Hb O1).
           split; [destruct (aug_fork _ _ _ _ _ _ _ _); reflexivity|]. eapply fork_out; eassumption.
        -- exists (Err e1). split; [reflexivity|]. cbn [out]. refine (no_left _ _ _ _ _ _). intros EC m' c y Hm'.
           assert (m' = m) as -> by lia. apply O1, EC.
  - assert (cpfx key (lbl t) = p) as -> by (rewrite Ek, Elb; apply cpfx_diverge).
    assert (L2 : length p < length (lbl t)) by (rewrite Elb, app_length; cbn [length]; lia).
    assert (t_get t key = None) as Hg.
    { apply get_strip. rewrite Ek, Elb, strip_app_l, strip_app. cbn [strip]. destruct z; reflexivity. }
    rewrite Hg. rewrite bool_decide_eq_false_2 by (intros [? ?]; discriminate).
    pose proof Hk as Hk'. rewrite Ek, app_length in Hk'. cbn [length] in Hk'.
    rewrite (proj2 (Nat.eqb_neq _ _)) by lia.
    rewrite (proj2 (Nat.ltb_lt _ _)) by lia.
    unfold refused. destruct (negb (can_add mode)); [reflexivity|].
    assert (Et : t_ins t key (capp ex v) = t_split p t key (capp ex v)).
    { assert (S : strip (lbl t) key = None) by (rewrite Ek, Elb, strip_app_l, strip_app; cbn [strip]; destruct z; reflexivity).
      destruct t as [l w|l y a b]; cbn [t_ins lbl] in *; rewrite S; rewrite Ek, Elb, cpfx_diverge; reflexivity. }
    rewrite Et. exists (split_aug_edge fin comb (rest, refs) (lbl t) p key (Ok ex) v).
    split; [destruct (split_aug_edge _ _ _ _ _ _ _ _); reflexivity|].
    eapply split_out; eassumption.
Qed.

(** ** Removal *)
Lemma aug_removed_spec n bits x l a b (br : bool) m len cl cr xa xb : n <= 1023 ->
  read_label n bits = Ok (l, fst x) -> n = length l + S m ->
  ARp m cl xa a -> ARp m cr xb b ->
  let o := (if br then a else b) in
  match rebuild_as_removed fin (Seg (Cell false bits (cl :: cr :: snd x)) br len) m n with
  | Ok (leaf, value) => value = (if br then cr else cl) /\ ARp n leaf (if br then xa else xb) (relabel (l ++ negb br :: lbl o) o)
  | Err _ => R = CR -> forall c' x', ~ ARp n c' x' (relabel (l ++ negb br :: lbl o) o)
  end.
Proof.
  intros Hn El Hm Ha Hb. set (o := if br then a else b). set (oc := if br then cl else cr). set (ox := if br then xa else xb). cbv zeta.
  assert (Ho : ARp m oc ox o) by (subst o oc ox; destruct br; assumption).
  unfold rebuild_as_removed. cbn [g_branch g_data].
  assert (E1 : ref_at br (Cell false bits (cl :: cr :: snd x)) = Ok (if br then cr else cl)) by (destruct br; reflexivity).
  assert (E2 : ref_at (negb br) (Cell false bits (cl :: cr :: snd x)) = Ok oc) by (subst oc; destruct br; reflexivity).
  rewrite E1. cbn [rbind as_slice_allow_exotic s_bits c_bits]. rewrite El. cbn [rbind]. rewrite E2. cbn [rbind].
  destruct (ARep_inv m oc ox o ltac:(lia) Ho) as (ob & orf & orest & Ec & Es & Elo & Hc & _).
  rewrite Es. cbn [rbind s_bits s_refs]. rewrite Elo. cbn [rbind].
  pose proof (ARep_wft _ _ _ _ _ _ Ho) as Hw. pose proof (lbl_le _ _ Hw) as Hl.
  pose proof (relink fin n l (negb br) o orest orf Hn ltac:(lia)) as K.
  assert (W : wft n (relabel (l ++ negb br :: lbl o) o)).
  { eapply relabel_wft; [exact Hw|]. rewrite app_length. cbn [length]. lia. }
  match goal with |- match (let? b := ?A in let? ch := @?B b in let? leaf := @?D ch in _) with _ => _ end =>
    set (X := let? b := A in let? ch := B b in D ch) in *;
    replace (let? b := A in let? ch := B b in let? leaf := D ch in Ok (leaf, if br then cr else cl))
      with (let? leaf := X in Ok (leaf, if br then cr else cl))
      by (subst X; destruct A as [b0|]; cbn [rbind]; [destruct (B b0); reflexivity|reflexivity])
  end.
  destruct X as [leaf|]; cbn [rbind].
  - split; [reflexivity|]. destruct (proj1 (K leaf) eq_refl) as [-> Hok].
    exact (ARep_relabel n o (orest, orf) _ _ Hc W Hn Hok).
  - intros EC c' x' H'. apply (ARep_relabel_inv _ _ _ _ _ _ _ EC Hc) in H'. cbn [fst snd] in H'.
    destruct H' as [_ H']. apply (proj2 (K c')) in H'. discriminate.
Qed.

Definition arem_out (o : res (option (list seg * range * nat * list bool))) : res (option (range * cell * cell)) :=
  let? o := o in
  match o with
  | Some (last :: stack, r, plen, k') =>
    let? (leaf, value) := rebuild_as_removed fin last (length k') plen in
    let? c := aug_rebuild fin comb stack leaf in Ok (Some (r, value, c))
  | _ => Ok None
  end.

Lemma aug_find_remove_spec n c x t key fuel plen stack :
  n <= 1023 -> ARp n c x t -> length key = n -> n < fuel ->
  match t_get t key with
  | None => find_remove_loop fuel c key plen stack = Ok None
  | Some v =>
    match t_rem t key with
    | None => exists r, find_remove_loop fuel c key plen stack = Ok (Some (stack, r, plen, key)) /\ r_apply r c = v
    | Some t' => exists r res,
        arem_out (find_remove_loop fuel c key plen stack) =
          (let? (value, c1) := res in let? c2 := aug_rebuild fin comb stack c1 in Ok (Some (r, value, c2))) /\
        (forall value c1, res = Ok (value, c1) -> r_apply r value = v) /\
        out n (let? (_, c1) := res in Ok c1) t'
    end
  end.
Proof.
  revert n c x t key plen stack. induction fuel as [|f IH]; intros n c x t key plen stack Hn H Hk Hf; [lia|].
  pose proof (ARep_wft _ _ _ _ _ _ H) as Hw.
  destruct (ARep_inv n c x t Hn H) as (bits & refs & rest & Ec & Es & El & Hc & Ht).
  destruct (read_label_suffix _ _ _ _ Hn El) as [e He].
  cbn [find_remove_loop]. rewrite Es. cbn [rbind s_bits s_refs]. rewrite Hk, El. cbn [rbind].
  pose proof (lbl_le _ _ Hw) as Ll.
  destruct (key_label_cases key (lbl t) ltac:(lia)) as [[r Er]|(p & z & ka & lb & Ek & Elb)].
  - rewrite Er, cpfx_self_l. rewrite <- Er.
    destruct t as [l w|l y a b]; cbn [lbl t_get t_rem] in *.
    + destruct Ht as [Hl Hv]. assert (r = []) as ->.
      { destruct r; [reflexivity|]. subst key. rewrite app_length in Hk. cbn in Hk. lia. }
      rewrite app_nil_r in Er. subst key. rewrite strip_self, Hl, Nat.eqb_refl.
      eexists. split; [reflexivity|]. rewrite Hv. apply (range_apply c e); subst c; [exact He|reflexivity].
    + destruct Ht as (m & cl & cr & xa & xb & Hm & Hrefs & Hrest & Ha & Hb & Hx). subst refs rest. destruct Hc as (-> & _).
      destruct r as [|c0 r]; [subst key; rewrite app_nil_r in Hk; lia|].
      pose proof Hk as Hk'. rewrite Er, app_length in Hk'. cbn [length] in Hk'.
      rewrite (proj2 (Nat.eqb_neq _ _)) by lia. rewrite Nat.ltb_irrefl.
      subst c. cbn [c_refs length]. rewrite (proj2 (Nat.ltb_ge _ _)) by lia.
      unfold skip_bits. rewrite Hk, (proj2 (Nat.ltb_ge _ _)) by lia. cbn [rbind]. rewrite Er, drop_app. cbn [load_bit rbind].
      rewrite strip_app.
      set (ct := if c0 then cr else cl). set (xt := if c0 then xb else xa). set (tt := if c0 then b else a).
      assert (G1 : ref_at c0 (Cell false bits (cl :: cr :: snd x)) = Ok ct) by (subst ct; destruct c0; reflexivity).
      assert (G2 : ARp m ct xt tt) by (subst ct xt tt; destruct c0; assumption).
      rewrite G1. cbn [rbind].
      specialize (IH m ct xt tt r n (Seg (Cell false bits (cl :: cr :: snd x)) c0 n :: stack) ltac:(lia) G2 ltac:(lia) ltac:(lia)).
      replace (match c0 with true => t_get b r | false => t_get a r end) with (t_get tt r) by (subst tt; destruct c0; reflexivity).
      destruct (t_get tt r) as [v|] eqn:Eg; [|exact IH].
      destruct (t_rem tt r) as [t'|] eqn:Et.
      * assert (ET : (if c0 then match t_rem b r with None => Some (relabel (l ++ false :: lbl a) a) | Some b' => Some (Fork l ([], []) a b') end
                     else match t_rem a r with None => Some (relabel (l ++ true :: lbl b) b) | Some a' => Some (Fork l ([], []) a' b) end)
                     = Some (Fork l ([], []) (if c0 then a else t') (if c0 then t' else b))).
        { subst tt; destruct c0; rewrite Et; reflexivity. }
        replace (match c0 with true => _ | false => _ end) with (Some (Fork l ([], []) (if c0 then a else t') (if c0 then t' else b))) by (rewrite <- ET; destruct c0; reflexivity).
        destruct IH as (rr & res & E1 & E2 & E3). exists rr.
        destruct res as [[value c1]|e1]; cbn [rbind out] in E1, E3.
        -- destruct E3 as (x1 & O1).
           exists (let? c2 := aug_fork fin comb l n (if c0 then cl else c1) (if c0 then c1 else cr) (if c0 then xa else x1) (if c0 then x1 else xb) in Ok (value, c2)).
           split; [|split].
           { rewrite E1. rewrite (aug_rebuild_step n m l bits x cl cr xa xb a b c0 stack c1 x1 t' Hn El Hm Ha Hb O1).
             destruct (aug_fork _ _ _ _ _ _ _ _); reflexivity. }
           { intros value0 c3 E. destruct (aug_fork _ _ _ _ _ _ _ _); [|discriminate]. injection E as -> ->. eapply E2. reflexivity. }
           { assert (K : out n (aug_fork fin comb l n (if c0 then cl else c1) (if c0 then c1 else cr) (if c0 then xa else x1) (if c0 then x1 else xb))
                (Fork l ([], []) (if c0 then a else t') (if c0 then t' else b))).
             { eapply fork_out; [exact Hn|exact Hm| |]; destruct c0; assumption. }
             destruct (aug_fork _ _ _ _ _ _ _ _); exact K. }
        -- exists (Err e1). split; [rewrite E1; reflexivity|]. split; [discriminate|]. cbn [rbind out].
           destruct c0; [refine (no_right _ _ _ _ _ _)|refine (no_left _ _ _ _ _ _)]; intros EC m' c y Hm'; assert (m' = m) as -> by lia; apply E3, EC.
      * assert (ET : (if c0 then match t_rem b r with None => Some (relabel (l ++ false :: lbl a) a) | Some b' => Some (Fork l ([], []) a b') end
                     else match t_rem a r with None => Some (relabel (l ++ true :: lbl b) b) | Some a' => Some (Fork l ([], []) a' b) end)
                     = Some (relabel (l ++ negb c0 :: lbl (if c0 then a else b)) (if c0 then a else b))).
        { subst tt; destruct c0; rewrite Et; reflexivity. }
        replace (match c0 with true => _ | false => _ end) with (Some (relabel (l ++ negb c0 :: lbl (if c0 then a else b)) (if c0 then a else b))) by (rewrite <- ET; destruct c0; reflexivity).
        destruct IH as (rr & E1 & E2). exists rr. rewrite E1. unfold arem_out. cbn [rbind].
        assert (length r = m) as -> by lia.
        set (S := Seg (Cell false bits (cl :: cr :: snd x)) c0 n).
        exists (let? (leaf, value) := rebuild_as_removed fin S m n in Ok (value, leaf)).
        pose proof (aug_removed_spec n bits x l a b c0 m n cl cr xa xb Hn El Hm Ha Hb) as K. cbv zeta in K. fold S in K.
        split; [|split].
        -- destruct (rebuild_as_removed fin S m n) as [[leaf value]|]; reflexivity.
        -- intros value c1 E. destruct (rebuild_as_removed fin S m n) as [[leaf value']|]; [|discriminate].
           cbn [rbind] in E. injection E as <- <-. destruct K as [-> _]. exact E2.
        -- destruct (rebuild_as_removed fin S m n) as [[leaf value']|]; cbn [rbind out]; [|exact K]. destruct K as [_ K]. eauto.
  - assert (cpfx key (lbl t) = p) as -> by (rewrite Ek, Elb; apply cpfx_diverge).
    assert (L2 : length p < length (lbl t)) by (rewrite Elb, app_length; cbn [length]; lia).
    assert (t_get t key = None) as Hg.
    { apply get_strip. rewrite Ek, Elb, strip_app_l, strip_app. cbn [strip]. destruct z; reflexivity. }
    rewrite Hg. pose proof Hk as Hk'. rewrite Ek, app_length in Hk'. cbn [length] in Hk'.
    rewrite (proj2 (Nat.eqb_neq _ _)) by lia.
    rewrite (proj2 (Nat.ltb_lt _ _)) by lia. reflexivity.
Qed.
End W.
