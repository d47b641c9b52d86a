(** * What creation keeps, and what application finds and rebuilds. *)
From Verif Require Import Err BuilderModel CellBuilderModel SliceModel SliceSpec BuilderSpec CellModel HashSpec HashModel FcellSpec MerkleModel MerkleSpec StatSpec UpdateModel UpdateSpec
  BitsProofs HashProofs HashProofs2 HashProofs3 MerkleProofs MerkleProofs2 MerkleProofs3 MerkleProofs4 StatProofs HashProps UpdateProofs.
Local Open Scope nat_scope.

Section Sha.
Context (sha : list N -> list N) (Hsha : sha_like sha).
Notation H x := (t_hash sha x).
Notation plain := (plain sha).
Definition differ (t : cell) : Prop := forall x y, reach x t -> reach y t -> H x = H y -> x = y.
Lemma occurs_reach d x c : occurs d x c -> reach x c.
Proof. induction 1 as [x c I|d x y c I O IH]; eapply reach_child; eauto. constructor. Qed.

(** ** Trees of proofs *)
Section Proof.
Context (check : list N -> action) (NS : forall h, check h <> IncludeSubtree).
Notation treat := (treat sha check false).
Notation keep := (keep sha check false).
Notation treated := (treated sha check false).
Notation visible := (visible sha check false).
Lemma prunable0 x : plain x -> prunable sha 0 x.
Proof. intros (_ & _ & M & _). split; [lia|]. rewrite M. reflexivity. Qed.
Lemma cuts_ok0 x : plain x -> cuts_ok sha check false 0 x.
Proof.
  intros P d y V _. pose proof (visible_occurs _ _ _ _ _ _ V) as O. destruct (occurs_merkle_free _ _ _ O (proj1 (proj2 P))) as (-> & _).
  apply prunable0. eapply plain_occurs; eassumption.
Qed.
Lemma keep_hash x : plain x -> i_hash (info_of sha (keep 0 x)) 0 = H x /\ i_depth (info_of sha (keep 0 x)) 0 = t_depth sha x /\ valid_tree (keep 0 x).
Proof.
  intros P. destruct (keep_faithful sha Hsha check false x 0 (proj1 P) (proj2 (proj2 (proj2 P))) (cuts_ok0 x P)) as (V & (_ & S) & _).
  rewrite (plain_merkle sha x P) in *. change (0 + 0) with 0 in *. destruct (S 0 (le_n 0)) as (E & E').
  split; [rewrite <- E; apply (plain_hash sha Hsha x 0 P)|]. split; [|exact V]. rewrite <- E'. unfold t_depth.
  destruct P as (Vx & _ & M & _). destruct (level0 sha Hsha x Vx M 3) as (_ & ->). reflexivity.
Qed.
Lemma treat_not_whole x : treat x <> Whole.
Proof. unfold MerkleSpec.treat. pose proof (NS (H x)) as NSx. destruct (check _); try discriminate; [|congruence]. destruct (c_refs x); discriminate. Qed.
Lemma treated_hash x : plain x -> i_hash (info_of sha (treated 0 x)) 0 = H x.
Proof.
  intros P. unfold MerkleProofs.treated. pose proof (treat_not_whole x) as NW. destruct (treat x) eqn:T; [|rewrite (plain_merkle sha x P); apply keep_hash; exact P|congruence].
  destruct (pruned_info sha Hsha x 0 (proj1 P) (prunable0 x P) (proj1 (proj2 (proj2 (proj2 P))))) as (_ & (_ & S) & _).
  destruct (S 0 (le_n 0)) as (<- & _). apply (plain_hash sha Hsha x 0 P).
Qed.
Lemma cut_kind x : plain x -> kind_of true (c_bits (pruned_tree sha 0 x)) = KPruned 1.
Proof.
  intros P. pose proof (pruned_kind sha Hsha x 0 (proj1 P) (prunable0 x P)) as K. unfold pruned_tree. cbn zeta. cbn [c_bits].
  destruct P as (_ & _ & M & D). rewrite M in *. apply K. apply D.
Qed.
Lemma keep_uncut x : plain x -> is_cut (keep 0 x) = false.
Proof. intros P. rewrite keep_eq. apply (plain_uncut sha x P). Qed.
Lemma treated_cut x : plain x -> is_cut (treated 0 x) = match treat x with Cut => true | _ => false end.
Proof.
  intros P. unfold MerkleProofs.treated. pose proof (treat_not_whole x) as NW. destruct (treat x) eqn:T; [|rewrite (plain_merkle sha x P); apply keep_uncut; exact P|congruence].
  unfold is_cut. change (c_exotic (pruned_tree sha 0 x)) with true. rewrite (cut_kind x P). reflexivity.
Qed.
Lemma treated_merkle x : plain x -> c_merkle (treated 0 x) = 0.
Proof.
  intros P. unfold MerkleProofs.treated. pose proof (treat_not_whole x) as NW. destruct (treat x) eqn:T; [| |congruence].
  - unfold c_merkle. change (c_exotic (pruned_tree sha 0 x)) with true. rewrite (cut_kind x P). reflexivity.
  - rewrite keep_eq. apply (plain_merkle sha x P).
Qed.
Lemma visible_plain d x c : visible d x c -> plain c -> plain x.
Proof. intros V P. eapply plain_occurs; [eapply visible_occurs; exact V|exact P]. Qed.
Lemma visible_snoc d x y c : visible d x c -> treat x = Keep -> In y (c_refs x) -> visible (d + c_merkle x) y c.
Proof.
  intros V. induction V as [x c I|d x z c I K V IH]; intros KX IY.
  - eapply visible_deep; [exact I|exact KX|constructor; exact IY].
  - rewrite <- Nat.add_assoc. eapply visible_deep; [exact I|exact K|apply IH; assumption].
Qed.
Definition uncut (q : cell) : bool := negb (is_cut q).
Lemma visible_dreach d x c : visible d x c -> plain c -> dreach uncut (treated 0 x) (keep 0 c).
Proof.
  induction 1 as [x c I|d x y c I K V IH]; intros P.
  - apply dr_child. rewrite keep_eq. cbn [c_refs]. apply in_map. exact I.
  - pose proof (plain_child sha c y P I) as Py. eapply (dreach_cons uncut _ (treated 0 y)).
    + rewrite keep_eq. cbn [c_refs]. apply in_map. exact I.
    + unfold uncut. rewrite (treated_cut y Py), K. reflexivity.
    + unfold MerkleProofs.treated at 2. rewrite K, (plain_merkle sha y Py). apply IH. exact Py.
Qed.

(** The cells of the tree of a proof. *)
Context (T : cell) (PT : plain T).
Definition in_proof (c : fcell) : Prop := finalized sha c /\ (tree_of c = keep 0 T \/ exists d x, visible d x T /\ tree_of c = treated 0 x).
Lemma in_proof_fin c : in_proof c -> finalized sha c /\ c_merkle (tree_of c) = 0.
Proof.
  intros (F & [E|(d & x & V & E)]); (split; [exact F|]); rewrite E.
  - rewrite keep_eq. apply (plain_merkle sha T PT).
  - apply treated_merkle. eapply visible_plain; eassumption.
Qed.
Lemma in_proof_child c y : in_proof c -> In y (f_refs c) -> in_proof y.
Proof.
  intros (F & C) I. pose proof (refs_tree sha c F) as R. assert (IT : In (tree_of y) (c_refs (tree_of c))) by (rewrite R; apply in_map; exact I).
  assert (Fy : finalized sha y). { destruct (fin_facts sha c F) as (bits & _ & _ & _ & _ & FR & _). rewrite List.Forall_forall in FR. apply FR, I. }
  split; [exact Fy|]. right. destruct C as [E|(d & x & V & E)]; rewrite E in IT.
  - rewrite keep_eq in IT. cbn [c_refs] in IT. apply in_map_iff in IT. destruct IT as (z & E' & IZ). exists (c_merkle T), z. split; [constructor; exact IZ|symmetry; exact E'].
  - unfold MerkleProofs.treated in IT. pose proof (treat_not_whole x) as NW. destruct (treat x) eqn:TX; [destruct IT| |congruence].
    pose proof (visible_plain _ _ _ V PT) as Px. rewrite (plain_merkle sha x Px), keep_eq in IT. cbn [c_refs] in IT. apply in_map_iff in IT. destruct IT as (z & E' & IZ).
    exists (d + c_merkle x), z. split; [eapply visible_snoc; eassumption|symmetry; exact E'].
Qed.
End Proof.

(** Building the tree of a proof. *)
Lemma build_raw_plain check root : finalized sha root -> plain (tree_of root) -> differ (tree_of root) ->
  exists p pruned, build_raw_ext sha check false true root = Ok (p, pruned) /\ finalized sha p /\ tree_of p = keep sha check false 0 (tree_of root) /\
    forall h, h ∈ pruned <-> In h (cuts sha check false (tree_of root)).
Proof.
  intros F P HD. unfold build_raw_ext. rewrite (fin_hash sha Hsha root F). cbn [rbind negb andb]. rewrite (fin_merkle sha Hsha root F).
  assert (ONE : one_place sha (tree_of root)).
  { intros d x d' x' O O' E. split; [apply HD; [eapply occurs_reach; exact O|eapply occurs_reach; exact O'|exact E]|]. left.
    destruct (occurs_merkle_free _ _ _ O (proj1 (proj2 P))) as (-> & _). destruct (occurs_merkle_free _ _ _ O' (proj1 (proj2 P))) as (-> & _). reflexivity. }
  pose proof (node_good sha Hsha check false (tree_of root) ONE root 0 (∅, ∅) F) as G. cbn [plus] in G. rewrite (plain_merkle sha _ P) in *.
  specialize (G ltac:(lia) ltac:(auto)).
  specialize (G ltac:(intros h p L; cbn [fst] in L; rewrite lookup_empty in L; discriminate)).
  destruct (build_node sha check false root _ _) as [[p st]|e]; cbn [rbind good] in G |- *.
  - destruct G as (CO & Fp & Tp & st1 & -> & _ & S). cbn [snd] in *. eexists _, _. split; [reflexivity|]. split; [exact Fp|]. split; [rewrite Tp, (plain_merkle sha _ P); reflexivity|].
    intros h. rewrite S, elem_of_union, elem_of_list_to_set, elem_of_list_In. split; [|auto]. intros [X|X]; [apply elem_of_empty in X; destruct X|exact X].
  - exfalso. destruct G as ((d & x & Vx & [(TX & NP)|(TX & B)]) & E).
    + apply NP. exact (cuts_ok0 check _ P d x Vx TX).
    + pose proof (visible_occurs _ _ _ _ _ _ Vx) as O. destruct (occurs_merkle_free _ _ _ O (proj1 (proj2 P))) as (-> & MF). inversion MF as [? Z _]; subst. rewrite Z in B. lia.
Qed.
Lemma cuts_visible check c h : In h (cuts sha check false c) <-> exists d x, visible sha check false d x c /\ treat sha check false x = Cut /\ H x = h.
Proof.
  induction c as [e bits refs IH] using cell_tree_ind. rewrite List.Forall_forall in IH. rewrite (cuts_eq sha check false). rewrite in_concat. cbn [c_refs]. split.
  - intros (l & IL & I). apply in_map_iff in IL. destruct IL as (x & <- & IX). unfold cut_here in I. destruct (treat _ _ _ x) eqn:TX; [|apply IH in I; [|exact IX]|destruct I].
    + destruct I as [<-|[]]. exists (c_merkle (Cell e bits refs)), x. split; [constructor; exact IX|]. auto.
    + destruct I as (d & y & V & TY & E). eexists _, y. split; [eapply visible_deep; [exact IX|exact TX|exact V]|]. auto.
  - intros (d & x & V & TX & E). inversion V as [? ? I|? ? y ? I K V']; subst; cbn [c_refs] in I.
    + exists [H x]. split; [|left; reflexivity]. apply in_map_iff. exists x. unfold cut_here. rewrite TX. auto.
    + exists (cuts sha check false y). split; [apply in_map_iff; exists y; unfold cut_here; rewrite K; auto|]. apply IH; [exact I|]. eauto.
Qed.

(** ** The changed cells of the old tree *)
Section Fill.
Context (check : list N -> action) (NS : forall h, check h <> IncludeSubtree) (pruned : gset (list N)).
Definition kept (c : cell) : bool := match check (H c) with Skip => false | _ => true end.
Fixpoint hit (c : cell) : bool :=
  let '(Cell e bits refs) := c in bool_decide (H (Cell e bits refs) ∈ pruned) || (kept (Cell e bits refs) && existsb hit refs).
Lemma hit_eq c : hit c = bool_decide (H c ∈ pruned) || (kept c && existsb hit (c_refs c)).
Proof. destruct c. reflexivity. Qed.
Notation touched := (touched sha check).
Definition covered (c : cell) (ch : gset (list N)) : Prop :=
  forall y, y = c \/ touched y c -> kept y = true -> existsb hit (c_refs y) = true -> H y ∈ ch.
Lemma covered_mono c ch ch' : covered c ch -> ch ⊆ ch' -> covered c ch'.
Proof. intros C S y Y K E. apply S, C; assumption. Qed.
Lemma kept_spec c : kept c = true <-> check (H c) <> Skip.
Proof. unfold kept. destruct (check (H c)); split; congruence. Qed.

Definition fill_loop (skip' : bool) :=
  fix go (rs : list fcell) (acc : bool) (st : fstate) {struct rs} : res (bool * fstate) :=
    match rs with
    | [] => Ok (acc, st)
    | child :: rs' => let? (r, st') := fill check pruned child skip' st in go rs' (acc || r) st'
    end.
Lemma fill_eq c skip st : fill check pruned c skip st =
  let? h := f_repr_hash c in
  match fst st !! h with
  | Some r => Ok (r, st)
  | None =>
    let is_pruned := bool_decide (h ∈ pruned) in
    let '(process_children, skip') :=
      if skip then (true, true)
      else match check h with Skip => (false, false) | Include => (true, false) | IncludeSubtree => (true, true) end in
    let? (r, st') := (if process_children then fill_loop skip' (f_refs c) false st else Ok (false, st)) in
    let changed := if r then {[h]} ∪ snd st' else snd st' in
    let r' := r || is_pruned in
    Ok (r', (<[h := r']> (fst st'), changed))
  end.
Proof. destruct c. reflexivity. Qed.

Context (T : cell) (HD : differ T).
Definition fill_ok (st : fstate) : Prop := forall h r, fst st !! h = Some r -> exists x, reach x T /\ H x = h /\ r = hit x /\ covered x (snd st).
Lemma fill_ok_mono m ch ch' : fill_ok (m, ch) -> ch ⊆ ch' -> fill_ok (m, ch').
Proof. intros O S h r E. destruct (O h r E) as (x & A & B & C & D). exists x. split; [exact A|]. split; [exact B|]. split; [exact C|]. eapply covered_mono; eassumption. Qed.
Lemma fill_spec c : forall st, finalized sha c -> reach (tree_of c) T -> fill_ok st ->
  exists st', fill check pruned c false st = Ok (hit (tree_of c), st') /\ fill_ok st' /\ snd st ⊆ snd st' /\ covered (tree_of c) (snd st').
Proof.
  induction c as [d1 d2 n data refs hs IH] using fcell_tree_ind. intros st F RT OK. rewrite fill_eq.
  set (c := FCell d1 d2 n data refs hs) in *. rewrite (fin_hash sha Hsha c F). cbn [rbind].
  destruct (fst st !! H (tree_of c)) as [r|] eqn:L.
  { destruct (OK _ _ L) as (x & A & B & -> & D). apply HD in B; [|exact A|exact RT]. subst x. exists st. auto. }
  pose proof (refs_tree sha c F) as RR. change (f_refs c) with refs in *.
  destruct (fin_facts sha c F) as (bits & _ & _ & _ & _ & FR & _). change (f_refs c) with refs in FR. rewrite List.Forall_forall in FR.
  assert (G : forall rs acc st, (forall x, In x rs -> In x refs) -> fill_ok st ->
    exists st', fill_loop false rs acc st = Ok (acc || existsb hit (map tree_of rs), st') /\ fill_ok st' /\ snd st ⊆ snd st' /\ (forall x, In x rs -> covered (tree_of x) (snd st'))).
  { induction rs as [|x rs IHr]; intros acc st1 SB OK1.
    - exists st1. cbn [map existsb fill_loop]. rewrite orb_false_r. split; [reflexivity|]. split; [exact OK1|]. split; [reflexivity|]. intros y [].
    - cbn [fill_loop map existsb]. assert (IX : In x refs) by (apply SB; left; reflexivity). rewrite List.Forall_forall in IH.
      destruct (IH x IX st1 (FR x IX)) as (st2 & -> & OK2 & S2 & C2); [|exact OK1|].
      { eapply reach_trans; [|exact RT]. eapply reach_child; [|constructor]. rewrite RR. apply in_map. exact IX. }
      cbn [rbind]. destruct (IHr (acc || hit (tree_of x)) st2) as (st3 & -> & OK3 & S3 & C3); [intros y Y; apply SB; right; exact Y|exact OK2|].
      exists st3. rewrite orb_assoc. split; [reflexivity|]. split; [exact OK3|]. split; [set_solver|]. intros y [<-|Y]; [eapply covered_mono; eassumption|apply C3, Y]. }
  assert (CK : check (H (tree_of c)) = Skip /\ kept (tree_of c) = false \/ check (H (tree_of c)) = Include /\ kept (tree_of c) = true).
  { unfold kept. pose proof (NS (H (tree_of c))) as NSc. destruct (check (H (tree_of c))); auto. congruence. }
  assert (FIN : forall r st1, fill_ok st1 -> snd st ⊆ snd st1 -> r = kept (tree_of c) && existsb hit (map tree_of refs) ->
    (kept (tree_of c) = true -> forall x, In x refs -> covered (tree_of x) (snd st1)) ->
    exists st', Ok (r || bool_decide (H (tree_of c) ∈ pruned), (<[H (tree_of c) := r || bool_decide (H (tree_of c) ∈ pruned)]> (fst st1), if r then {[H (tree_of c)]} ∪ snd st1 else snd st1)) =
      Ok (hit (tree_of c), st') /\ fill_ok st' /\ snd st ⊆ snd st' /\ covered (tree_of c) (snd st')).
  { intros r st1 OK1 S1 ER CV. set (ch := if r then _ else _). assert (SS : snd st1 ⊆ ch) by (unfold ch; destruct r; set_solver).
    assert (EH : r || bool_decide (H (tree_of c) ∈ pruned) = hit (tree_of c)) by (rewrite hit_eq, RR, ER; apply orb_comm).
    assert (CC : covered (tree_of c) ch).
    { intros y [->|TY] K E.
      - rewrite RR in E. rewrite K in ER. cbn in ER. rewrite <- ER in E. unfold ch. rewrite E. set_solver.
      - inversion TY as [? ? CK1 I1|? z ? CK1 I1 T1]; subst; apply kept_spec in CK1; rewrite RR in I1; apply in_map_iff in I1; destruct I1 as (w & <- & IW).
        + apply SS. apply (CV CK1 w IW); auto.
        + apply SS. apply (CV CK1 w IW); auto. }
    rewrite EH. eexists. split; [reflexivity|]. cbn [fst snd]. split; [|split; [set_solver|exact CC]].
    intros h b E. cbn [fst] in E. apply lookup_insert_Some in E. destruct E as [(<- & <-)|(_ & E)].
    - exists (tree_of c). auto.
    - destruct st1 as [m1 ch1]. apply (fill_ok_mono m1 ch1 ch OK1 SS h b E). }
  destruct CK as [(CK & K)|(CK & K)]; rewrite CK; cbn [rbind].
  - apply (FIN false st OK); [reflexivity|rewrite K; reflexivity|congruence].
  - destruct (G refs false st (fun x X => X) OK) as (st1 & -> & OK1 & S1 & C1). cbn [orb rbind]. apply FIN; [exact OK1|exact S1|rewrite K; reflexivity|intros _; exact C1].
Qed.
(** Pruned cells that were reached through kept cells are visible when the changed cells are. *)
Lemma touched_hit x c : touched x c -> hit x = true -> kept c = true /\ existsb hit (c_refs c) = true.
Proof.
  induction 1 as [x c K I|x y c K I T1 IH]; intros HX.
  - split; [apply kept_spec, K|]. apply existsb_exists. eauto.
  - destruct (IH HX) as (K1 & E1). split; [apply kept_spec, K|]. apply existsb_exists. exists y. split; [exact I|]. rewrite hit_eq, K1, E1. apply orb_true_r.
Qed.
Lemma touched_visible x c ch : touched x c -> hit x = true -> covered c ch -> exists d, visible sha (set_filter ch) false d x c.
Proof.
  intros TX HX. induction TX as [x c K I|x y c K I T1 IH]; intros C.
  - exists (c_merkle c). constructor. exact I.
  - assert (Cy : covered y ch).
    { intros z [->|Z] KZ E; apply C; auto; right; [constructor; assumption|eapply touched_deep; eassumption]. }
    destruct (IH HX Cy) as (d & V). exists (c_merkle c + d). eapply visible_deep; [exact I| |exact V].
    destruct (touched_hit x y T1 HX) as (K1 & E1). unfold treat, set_filter. rewrite bool_decide_true; [reflexivity|]. apply Cy; auto.
Qed.
End Fill.
End Sha.
