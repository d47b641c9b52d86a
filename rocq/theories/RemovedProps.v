(** * The references that an update removes (C50).

    [counter] (RemovedSpec.v) is what a store that counts references holds. *)
From Verif Require Import Err BuilderModel CellBuilderModel SliceModel SliceSpec BuilderSpec CellModel HashSpec HashModel FcellSpec MerkleModel MerkleSpec StatSpec UpdateModel UpdateSpec RemovedSpec
  BitsProofs HashProofs HashProofs2 HashProofs3 MerkleProofs MerkleProofs2 MerkleProofs3 MerkleProofs4 StatProofs BocProofs3 Sha256 HashProps MerkleProps UpdateProofs UpdateProofs2 UpdateProofs3 UpdateProofs4 UpdateProps RemovedProofs.
Local Open Scope nat_scope.

Section Sha.
Context (sha : list N -> list N) (Hsha : sha_like sha).

(** A cell of the new tree that the update shows, maybe as a pruned branch; the others are
    below pruned branches. *)
Definition shows_cell (check : list N -> action) (new x : cell) : Prop := x = new \/ exists d, visible sha (inverted check) false d x new.

(** For an update of trees without Merkle cells and pruned branches: if the update shows every
    remaining cell with references that a removed cell refers to, then subtracting the computed numbers from
    the counters of a store with both trees leaves the counters of a store with the new tree. *)
Theorem C50_counts_partial check old new u all kept : finalized sha old -> finalized sha new ->
  merkle_free (tree_of old) -> merkle_free (tree_of new) -> f_mask old = 0%N -> f_mask new = 0%N ->
  hashes_differ sha [tree_of old; tree_of new] -> remembers sha check (tree_of old) (tree_of new) ->
  tree_of old <> tree_of new -> create sha check old new = Ok u -> hashes_differ sha [tree_of (mu_new u)] ->
  (reach (tree_of old) (tree_of new) -> c_refs (tree_of old) <> [] -> shows_cell check (tree_of new) (tree_of old)) ->
  (forall y x, reach y (tree_of old) -> ~ reach y (tree_of new) -> In x (c_refs y) -> reach x (tree_of new) -> c_refs x <> [] -> shows_cell check (tree_of new) x) ->
  distinct [tree_of old; tree_of new] all -> distinct [tree_of new] kept ->
  exists r, compute_removed u old = Ok r /\ (forall h n, r !! h = Some n -> (0 < n)%N /\ exists x, reach x (tree_of old) /\ h = t_hash sha x) /\
    forall x, In x all -> counter [tree_of old; tree_of new] all x = counter [tree_of new] kept x + N.to_nat (default 0%N (r !! t_hash sha x)).
Proof.
  intros Fo Fn MFo MFn Mo Mn HD RM NT E HP S0 S1 DA DK.
  pose proof (fin_plain sha Hsha old Fo MFo Mo) as Po. pose proof (fin_plain sha Hsha new Fn MFn Mn) as Pn.
  pose proof (differ_of sha _ _ HD (or_introl eq_refl)) as Do. pose proof (differ_of sha _ _ HD (or_intror (or_introl eq_refl))) as Dn.
  assert (NE : t_hash sha (tree_of old) <> t_hash sha (tree_of new)).
  { intros X. apply NT. apply (HD _ _ (tree_of old) (tree_of new)); [left; reflexivity|right; left; reflexivity|constructor|constructor|exact X]. }
  destruct (create_made sha Hsha check old new Fo Fn Po Pn Do Dn NE RM) as (u' & ch & E' & M). rewrite E in E'. injection E' as <-.
  exact (store_spec sha Hsha check old new u ch Fo Po Pn HD (differ_of sha _ _ HP (or_introl eq_refl)) NE M S0 S1 all kept DA DK).
Qed.
(** In particular if no cell with references is referred to both by a cell of the old tree that remains and by
    one that is removed, for example if every cell of the old tree has one parent. *)
Theorem C50_unshared_partial check old new u all kept : finalized sha old -> finalized sha new ->
  merkle_free (tree_of old) -> merkle_free (tree_of new) -> f_mask old = 0%N -> f_mask new = 0%N ->
  hashes_differ sha [tree_of old; tree_of new] -> remembers sha check (tree_of old) (tree_of new) ->
  tree_of old <> tree_of new -> create sha check old new = Ok u -> hashes_differ sha [tree_of (mu_new u)] ->
  (forall y z x, reach y (tree_of old) -> reach z (tree_of old) -> In x (c_refs y) -> In x (c_refs z) -> c_refs x <> [] -> reach z (tree_of new) -> reach y (tree_of new)) ->
  distinct [tree_of old; tree_of new] all -> distinct [tree_of new] kept ->
  exists r, compute_removed u old = Ok r /\ (forall h n, r !! h = Some n -> (0 < n)%N /\ exists x, reach x (tree_of old) /\ h = t_hash sha x) /\
    forall x, In x all -> counter [tree_of old; tree_of new] all x = counter [tree_of new] kept x + N.to_nat (default 0%N (r !! t_hash sha x)).
Proof.
  intros Fo Fn MFo MFn Mo Mn HD RM NT E HP UM DA DK. destruct (unmixed_shown sha check _ _ RM UM) as (S0 & S1). eapply C50_counts_partial; eassumption.
Qed.
(** What is left are exactly the cells of the new tree. *)
Theorem C50_remaining new kept x : distinct [new] kept -> 0 < counter [new] kept x <-> reach x new.
Proof.
  intros (_ & IK). unfold counter. fold (total kept x). split.
  - intros P. destruct (decide (0 < total kept x)) as [T|T].
    + apply total_pos in T. destruct T as (y & Y & I). apply IK in Y. destruct Y as (t & [<- |[]] & Y). eapply reach_trans; [|exact Y]. eapply reach_child; [exact I|constructor].
    + cbn [count_occ] in P. destruct (cell_dec new x) as [<- |]; [constructor|lia].
  - intros R. destruct (reach_down x new R) as [->|D].
    + cbn [count_occ]. destruct (cell_dec new new); [lia|congruence].
    + destruct (dreach_last _ _ _ D) as (z & Z & I). enough (0 < total kept x) by lia. apply total_pos. exists z. split; [|exact I]. apply IK. exists new. split; [left; reflexivity|exact Z].
Qed.
(** An update between equal roots removes nothing; any other old root is rejected. *)
Theorem C50_roots u old h : f_repr_hash old = Ok h ->
  (h <> mu_old_hash u -> is_ok (f_hash (mu_old u) 0) = true -> compute_removed u old = Err InvalidData) /\
  (h = mu_old_hash u -> f_hash (mu_old u) 0 = Ok h -> mu_old_hash u = mu_new_hash u -> compute_removed u old = Ok ∅).
Proof.
  intros E. unfold compute_removed. rewrite E. cbn [rbind]. split.
  - intros N OK. destruct (f_hash (mu_old u) 0) as [h0|]; [|discriminate]. cbn [rbind]. rewrite bool_decide_false by exact N. reflexivity.
  - intros -> -> Q. cbn [rbind]. rewrite !bool_decide_true by reflexivity. cbn [negb orb]. rewrite bool_decide_true by exact Q. reflexivity.
Qed.
End Sha.
Print Assumptions C50_counts_partial.
Print Assumptions C50_unshared_partial.
Print Assumptions C50_remaining.
Print Assumptions C50_roots.

(** ** A concrete case: [ex_root] is replaced by [ex_root2] (UpdateProps.v). *)
Fixpoint nub (l : list cell) : list cell := match l with [] => [] | x :: l' => if in_dec cell_dec x l' then nub l' else x :: nub l' end.
Lemma nub_in l x : In x (nub l) <-> In x l.
Proof. induction l as [|y l IH]; [reflexivity|]. cbn [nub]. destruct (in_dec cell_dec y l) as [I|I]; cbn [In]; rewrite IH; [|reflexivity]. split; [auto|]. intros [<- |X]; auto. Qed.
Lemma nub_nodup l : List.NoDup (nub l).
Proof. induction l as [|y l IH]; [constructor|]. cbn [nub]. destruct (in_dec cell_dec y l); [exact IH|]. constructor; [rewrite nub_in; assumption|exact IH]. Qed.
Definition cells_of (roots : list cell) : list cell := nub (concat (map (fun r => r :: below r) roots)).
Lemma below_reach c : forall x, In x (below c) -> reach x c.
Proof.
  induction c as [e bits refs IH] using cell_tree_ind. intros x I. cbn [below] in I. rewrite List.Forall_forall in IH. apply in_app_or in I. destruct I as [I|I].
  - eapply reach_child; [exact I|constructor].
  - apply in_concat in I. destruct I as (l & L & I). apply in_map_iff in L. destruct L as (y & <- & Y). eapply reach_child; [exact Y|]. apply IH; assumption.
Qed.
Lemma cells_of_distinct roots : distinct roots (cells_of roots).
Proof.
  split; [apply NoDup_ListNoDup, nub_nodup|]. intros x. unfold cells_of. rewrite nub_in, in_concat. split.
  - intros (l & L & I). apply in_map_iff in L. destruct L as (r & <- & R). exists r. split; [exact R|]. destruct I as [<- |I]; [constructor|apply below_reach; exact I].
  - intros (r & R & X). exists (r :: below r). split; [apply (in_map (fun r => r :: below r)); exact R|apply reach_below; exact X].
Qed.
Lemma cell_eqb_refl a : cell_eqb a a = true.
Proof.
  induction a as [e bits refs IH] using cell_tree_ind. cbn [cell_eqb]. rewrite Bool.eqb_reflx, bool_decide_true by reflexivity. cbn [andb].
  induction refs as [|x xs IHx]; [reflexivity|]. inversion IH as [|? ? H1 H2]; subst. rewrite H1. apply IHx, H2.
Qed.
Definition ex_update2 : res merkle_update := Eval vm_compute in create sha256 ex_visited ex_root ex_root2.
Example C50_case : exists u, create sha256 ex_visited ex_root ex_root2 = Ok u /\ hashes_differ sha256 [tree_of (mu_new u)] /\ tree_of ex_root <> tree_of ex_root2 /\
  (forall y z x, reach y (tree_of ex_root) -> reach z (tree_of ex_root) -> In x (c_refs y) -> In x (c_refs z) -> c_refs x <> [] -> reach z (tree_of ex_root2) -> reach y (tree_of ex_root2)) /\
  match compute_removed u ex_root with
  | Ok r => r !! hash_of ex_root = Some 1%N /\ r !! hash_of ex_x = Some 1%N /\ r !! hash_of ex_node = Some 1%N /\ r !! hash_of ex_leaf = Some 2%N /\ r !! hash_of ex_y = None
  | Err _ => False
  end.
Proof.
  assert (E : create sha256 ex_visited ex_root ex_root2 = ex_update2) by (vm_compute; reflexivity). rewrite E. unfold ex_update2. eexists. split; [reflexivity|].
  split; [apply all_differ_ok; vm_compute; reflexivity|]. split; [intros X; assert (Y : cell_eqb (tree_of ex_root) (tree_of ex_root2) = false) by (vm_compute; reflexivity); rewrite X in Y; vm_compute in Y; discriminate|].
  split; [|vm_compute; repeat split].
  intros y z x RY RZ IY IZ NX R2.
  assert (Q : forallb (fun y => forallb (fun z => negb (existsb (fun x => match c_refs x with [] => false | _ => existsb (cell_eqb x) (c_refs z) end) (c_refs y)) || cell_eqb y z)
      (tree_of ex_root :: below (tree_of ex_root))) (tree_of ex_root :: below (tree_of ex_root)) = true) by (vm_compute; reflexivity).
  rewrite forallb_forall in Q. specialize (Q y (reach_below _ _ RY)). rewrite forallb_forall in Q. specialize (Q z (reach_below _ _ RZ)). apply orb_true_iff in Q. destruct Q as [Q|Q].
  - exfalso. apply negb_true_iff, not_true_iff_false in Q. apply Q. apply existsb_exists. exists x. split; [exact IY|]. destruct (c_refs x); [contradiction|]. apply existsb_exists. exists x. split; [exact IZ|apply cell_eqb_refl].
  - apply cell_eqb_eq in Q. subst. exact R2.
Qed.

(** The condition is needed: a cell that is shared between a removed cell and the inside of a
    pruned branch is taken for removed, and the references from it are subtracted although it
    remains.  Here the root refers to two cells that both refer to [ex_x]; one of them is
    replaced by a cell without references.  [ex_y], which only [ex_x] refers to, stays in the
    new tree but its counter becomes zero. *)
Definition ex_c : fcell := unwrap (build_ext sha256 false (bld_of [0xb1]%N 8) []).
Definition ex_ac : fcell := unwrap (build_ext sha256 false (bld_of [0xc0]%N 8) [ex_a; ex_c]).
Lemma ex_c_fin : is_fin ex_c. Proof. ex_tac. Qed.
Lemma ex_ac_fin : is_fin ex_ac. Proof. pose proof ex_a_fin. pose proof ex_c_fin. ex_tac. Qed.
Definition ex_visited5 : list N -> action := only [hash_of ex_ab; hash_of ex_a; hash_of ex_b].
Definition ex_update5 : res merkle_update := Eval vm_compute in create sha256 ex_visited5 ex_ab ex_ac.
Theorem C50_shared_refuted : exists check old new u r x,
  finalized sha256 old /\ finalized sha256 new /\ f_mask old = 0%N /\ f_mask new = 0%N /\ merkle_free (tree_of old) /\ merkle_free (tree_of new) /\
  hashes_differ sha256 [tree_of old; tree_of new] /\ remembers sha256 check (tree_of old) (tree_of new) /\
  create sha256 check old new = Ok u /\ hashes_differ sha256 [tree_of (mu_new u)] /\ compute_removed u old = Ok r /\
  reach x (tree_of new) /\ counter [tree_of old; tree_of new] (cells_of [tree_of old; tree_of new]) x = N.to_nat (default 0%N (r !! t_hash sha256 x)).
Proof.
  assert (E : create sha256 ex_visited5 ex_ab ex_ac = ex_update5) by (vm_compute; reflexivity).
  exists ex_visited5, ex_ab, ex_ac, (match ex_update5 with Ok u => u | Err _ => MUpdate [] [] 0 0 ex_leaf ex_leaf end).
  destruct (compute_removed (match ex_update5 with Ok u => u | Err _ => MUpdate [] [] 0 0 ex_leaf ex_leaf end) ex_ab) as [r|] eqn:C; [|vm_compute in C; discriminate].
  exists r, (tree_of ex_y). split; [exact ex_ab_fin|]. split; [exact ex_ac_fin|]. split; [vm_compute; reflexivity|]. split; [vm_compute; reflexivity|].
  pose proof ex_root_mf as MR. inversion MR as [? _ MR']; subst. change (c_refs (tree_of ex_root)) with [tree_of ex_x; tree_of ex_node] in MR'. inversion MR' as [|? ? X _]; subst.
  assert (A : merkle_free (tree_of ex_a)) by (constructor; [vm_compute; reflexivity|]; change (c_refs (tree_of ex_a)) with [tree_of ex_x]; constructor; [exact X|constructor]).
  assert (B : merkle_free (tree_of ex_b)) by (constructor; [vm_compute; reflexivity|]; change (c_refs (tree_of ex_b)) with [tree_of ex_x]; constructor; [exact X|constructor]).
  split; [constructor; [vm_compute; reflexivity|]; change (c_refs (tree_of ex_ab)) with [tree_of ex_a; tree_of ex_b]; repeat (constructor; [assumption|]); constructor|].
  split; [constructor; [vm_compute; reflexivity|]; change (c_refs (tree_of ex_ac)) with [tree_of ex_a; tree_of ex_c]; constructor; [assumption|]; constructor; [|constructor]; constructor; [vm_compute; reflexivity|constructor]|].
  split; [apply all_differ_ok; vm_compute; reflexivity|]. split.
  { split; [intros h; unfold ex_visited5, only; case_bool_decide; discriminate|]. intros d x O NE CK. apply occurs_below in O.
    assert (BL : below (tree_of ex_ac) = [tree_of ex_a; tree_of ex_c; tree_of ex_x; tree_of ex_y; tree_of ex_leaf]) by (vm_compute; reflexivity).
    rewrite BL in O. clear BL. revert NE CK. pattern x. revert x O. apply List.Forall_forall.
    assert (SK : forall P c, ex_visited5 (t_hash sha256 c) = Skip -> c_refs c <> [] -> ex_visited5 (t_hash sha256 c) <> Skip -> P) by (intros P c E' _ N; contradiction).
    constructor; [|constructor; [|constructor; [|constructor; [|constructor; [|constructor]]]]]; try (apply SK; vm_compute; reflexivity).
    intros _ _. right. constructor; [vm_compute; discriminate|]. vm_compute. left. reflexivity. }
  split; [rewrite E; vm_compute; reflexivity|]. split; [apply all_differ_ok; vm_compute; reflexivity|]. split; [reflexivity|]. split.
  { eapply reach_child with (y := tree_of ex_a); [vm_compute; left; reflexivity|]. eapply reach_child with (y := tree_of ex_x); [vm_compute; left; reflexivity|].
    eapply reach_child with (y := tree_of ex_y); [vm_compute; left; reflexivity|constructor]. }
  vm_compute in C. injection C as <-. vm_compute. reflexivity.
Qed.
Print Assumptions C50_shared_refuted.
