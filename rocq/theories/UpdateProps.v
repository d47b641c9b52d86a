(** * Merkle updates (C33).

    The trees that Merkle updates are made from are given by [finalized] cells (FcellSpec.v);
    what a filter has to remember of the old tree is [remembers] (UpdateSpec.v). *)
From Verif Require Import Err BuilderModel CellBuilderModel SliceModel SliceSpec BuilderSpec CellModel HashSpec HashModel FcellSpec MerkleModel MerkleSpec StatSpec UpdateModel UpdateSpec
  BitsProofs BufProofs BuilderProofs CellBuilderProofs BocProofs5 HashProofs HashProofs2 HashProofs3 MerkleProofs MerkleProofs2 MerkleProofs3 MerkleProofs4 MerkleProofs5 StatProofs
  Sha256 HashProps MerkleProps UpdateProofs UpdateProofs2 UpdateProofs3 UpdateProofs4.
Local Open Scope nat_scope.

Section Sha.
Context (sha : list N -> list N) (Hsha : sha_like sha).

(** Whatever the update and the cell are: if it can be applied, the cell has the old hash of
    the update and the result has its new hash; so the result is the new tree, up to collisions. *)
Theorem C33_apply_sound u old c : apply_update sha u old = Ok c ->
  f_repr_hash old = Ok (mu_old_hash u) /\ f_repr_hash c = Ok (mu_new_hash u) /\
  (forall new, finalized sha c -> finalized sha new -> f_repr_hash new = Ok (mu_new_hash u) -> hashes_differ sha [tree_of c; tree_of new] -> tree_of c = tree_of new).
Proof.
  intros E. destruct (apply_sound sha u old c E) as (A & B). split; [exact A|]. split; [exact B|]. intros new Fc Fn X HD.
  rewrite (fin_hash sha Hsha c Fc) in B. rewrite (fin_hash sha Hsha new Fn) in X.
  apply (HD _ _ (tree_of c) (tree_of new)); [left; reflexivity|right; left; reflexivity|constructor|constructor|congruence].
Qed.
(** It cannot be applied to any other root. *)
Theorem C33_wrong_root u old h : f_repr_hash old = Ok h -> h <> mu_old_hash u -> apply_update sha u old = Err InvalidData.
Proof. intros E N. unfold apply_update. rewrite E. cbn [rbind]. rewrite bool_decide_false by exact N. reflexivity. Qed.

Lemma differ_of l t : hashes_differ sha l -> In t l -> differ sha t.
Proof. intros HD I x y X Y E. eapply HD; eassumption. Qed.
Lemma zero_depth c check p : finalized sha p -> plain sha c -> tree_of p = keep sha check false 0 c -> f_hash p 0 = Ok (t_hash sha c) /\ f_depth p 0 = Ok (t_depth sha c) /\
  forall l : nat, exists d, f_depth p (N.of_nat l) = Ok d /\ (d <= t_depth sha c)%N.
Proof.
  intros F P T. destruct (keep_hash sha Hsha check c P) as (A & B & _). destruct (finalized_agrees sha Hsha p F) as (_ & Ap & _).
  pose proof (ag_hash _ _ Ap 0) as X. pose proof (ag_depth _ _ Ap 0) as Y. change (N.of_nat 0) with 0%N in X, Y. rewrite T in *. rewrite X, Y, A, B. split; [reflexivity|]. split; [reflexivity|].
  intros l. eexists. split; [apply (ag_depth _ _ Ap)|].
  destruct (keep_faithful sha Hsha check false c 0 (proj1 P) (proj2 (proj2 (proj2 P))) (cuts_ok0 sha check c P)) as (_ & _ & KD). specialize (KD l). rewrite (plain_merkle sha c P) in KD. change (0 + 0) with 0 in KD.
  destruct P as (V & _ & M & _). pose proof (proj2 (level0 sha Hsha c V M l)) as L1. pose proof (proj2 (level0 sha Hsha c V M 3)) as L3. unfold t_depth. rewrite L3, <- L1. exact KD.
Qed.

(** For trees without Merkle cells and pruned branches: an update made with a filter that
    remembers the visited cells of the old tree has the hashes and depths of the two roots,
    its cells show them at level 0, and applying it to the old root gives the new tree
    (given that neither the trees nor the update have collisions). *)
Theorem C33_create_apply_partial check old new : finalized sha old -> finalized sha new ->
  merkle_free (tree_of old) -> merkle_free (tree_of new) -> f_mask old = 0%N -> f_mask new = 0%N ->
  hashes_differ sha [tree_of old; tree_of new] -> remembers sha check (tree_of old) (tree_of new) ->
  exists u, create sha check old new = Ok u /\
    f_repr_hash old = Ok (mu_old_hash u) /\ f_repr_hash new = Ok (mu_new_hash u) /\ f_repr_depth old = Ok (mu_old_depth u) /\ f_repr_depth new = Ok (mu_new_depth u) /\
    f_hash (mu_old u) 0 = Ok (mu_old_hash u) /\ f_hash (mu_new u) 0 = Ok (mu_new_hash u) /\ f_depth (mu_old u) 0 = Ok (mu_old_depth u) /\ f_depth (mu_new u) 0 = Ok (mu_new_depth u) /\
    (hashes_differ sha [tree_of (mu_old u)] -> exists c, apply_update sha u old = Ok c /\ finalized sha c /\ tree_of c = tree_of new) /\
    ((mu_old_depth u < 65535)%N -> (mu_new_depth u < 65535)%N -> exists c, update_cell sha u = Ok c /\ finalized sha c /\ load_update c = Ok u).
Proof.
  intros Fo Fn MFo MFn Mo Mn HD RM.
  pose proof (fin_plain sha Hsha old Fo MFo Mo) as Po. pose proof (fin_plain sha Hsha new Fn MFn Mn) as Pn.
  pose proof (differ_of _ _ HD (or_introl eq_refl)) as Do. pose proof (differ_of _ _ HD (or_intror (or_introl eq_refl))) as Dn.
  assert (STORE : forall u, finalized sha (mu_old u) -> finalized sha (mu_new u) -> mu_old_hash u = t_hash sha (tree_of old) -> mu_new_hash u = t_hash sha (tree_of new) ->
    f_hash (mu_old u) 0 = Ok (mu_old_hash u) -> f_hash (mu_new u) 0 = Ok (mu_new_hash u) -> f_depth (mu_old u) 0 = Ok (mu_old_depth u) -> f_depth (mu_new u) 0 = Ok (mu_new_depth u) ->
    (forall l : nat, exists d, f_depth (mu_old u) (N.of_nat l) = Ok d /\ (d <= mu_old_depth u)%N) -> (forall l : nat, exists d, f_depth (mu_new u) (N.of_nat l) = Ok d /\ (d <= mu_new_depth u)%N) ->
    (mu_old_depth u < 65535)%N -> (mu_new_depth u < 65535)%N -> exists c, update_cell sha u = Ok c /\ finalized sha c /\ load_update c = Ok u).
  { intros u F1 F2 H1 H2 E1 E2 E3 E4 D1 D2 L1 L2.
    destruct (finalized_agrees sha Hsha old Fo) as (Vo & _). destruct (finalized_agrees sha Hsha new Fn) as (Vn & _).
    pose proof (info_regular sha (proj1 Hsha) _ Vo) as RGo. pose proof (info_regular sha (proj1 Hsha) _ Vn) as RGn.
    assert (OK : update_ok sha u).
    { unfold update_ok. rewrite H1, H2. repeat split; try assumption; try apply (rg_bytes _ RGo); try apply (rg_bytes _ RGn); try apply (rg_len _ RGo); try apply (rg_len _ RGn); lia. }
    destruct (update_cell_spec sha Hsha u OK) as [(_ & c & Ec & Fc & Tc & Rc)|((l & TD) & _)].
    - exists c. split; [exact Ec|]. split; [exact Fc|]. apply (load_update_ok sha c u Fc OK Tc Rc); assumption.
    - exfalso. destruct OK as (_ & _ & B1 & Q1 & B2 & Q2 & _). destruct (finalized_agrees sha Hsha _ F1) as (V1 & A1 & _). destruct (finalized_agrees sha Hsha _ F2) as (V2 & A2 & _).
      destruct (update_tree_valid (mu_old_hash u) (mu_new_hash u) (mu_old_depth u) (mu_new_depth u) _ _ B1 B2 Q1 Q2 V1 V2) as (_ & K).
      unfold update_tree in TD. cbn [info_of] in TD. unfold cell_info in TD. rewrite K in TD. cbn [i_depth k_merkle map sub_depths] in TD.
      destruct (D1 (l + 1)) as (d & X1 & X2). destruct (D2 (l + 1)) as (e & Y1 & Y2). rewrite (ag_depth _ _ A1) in X1. rewrite (ag_depth _ _ A2) in Y1. injection X1 as X1. injection Y1 as Y1.
      unfold sub_depths, max_all in TD. cbn [map fold_right] in TD. lia. }
  rewrite (fin_hash sha Hsha old Fo), (fin_hash sha Hsha new Fn), (fin_depth sha Hsha old Fo), (fin_depth sha Hsha new Fn).
  destruct (decide (t_hash sha (tree_of old) = t_hash sha (tree_of new))) as [EQ|NE].
  - assert (ET : tree_of old = tree_of new) by (apply (HD _ _ (tree_of old) (tree_of new)); [left; reflexivity|right; left; reflexivity|constructor|constructor|exact EQ]).
    unfold create. rewrite (fin_hash sha Hsha old Fo), (fin_hash sha Hsha new Fn), (fin_depth sha Hsha old Fo), (fin_depth sha Hsha new Fn). cbn [rbind]. rewrite bool_decide_true by exact EQ.
    destruct (make_pruned sha (Plain old) 0) as [p|] eqn:E.
    2:{ exfalso. destruct (C34_when sha Hsha old 0 Fo) as (W & _). destruct (proj2 W) as (p & X); [|change (N.of_nat 0) with 0%N in X; congruence]. split; [lia|]. intros l _. rewrite Mo. apply N.bits_0. }
    cbn [rbind]. change 0%N with (N.of_nat 0) in E. destruct (C34_pruned sha Hsha old 0 p Fo E) as (Fp & _ & _ & _ & LO & HI).
    destruct (LO 0 (le_n 0)) as (H0 & D0). change (N.of_nat 0) with 0%N in H0, D0.
    pose proof (fin_hash0 sha Hsha old Fo) as X0. rewrite (plain_hash sha Hsha _ 0 Po) in X0.
    assert (Y0 : f_depth old 0 = Ok (t_depth sha (tree_of old))).
    { destruct (finalized_agrees sha Hsha old Fo) as (V & A & _). change 0%N with (N.of_nat 0). rewrite (ag_depth _ _ A 0). destruct Po as (_ & _ & M & _). unfold t_depth. rewrite (proj2 (level0 sha Hsha _ V M 3)). reflexivity. }
    eexists. split; [reflexivity|]. cbn [mu_old_hash mu_new_hash mu_old_depth mu_new_depth mu_old mu_new].
    rewrite H0, D0, X0, Y0, <- ET. repeat (split; [reflexivity|]). split.
    + intros _. exists old. split; [|auto]. unfold apply_update. rewrite (fin_hash sha Hsha old Fo). cbn [rbind mu_old_hash mu_new_hash]. rewrite !bool_decide_true by reflexivity. reflexivity.
    + intros L1 L2.
      assert (DL : forall l : nat, exists d, f_depth p (N.of_nat l) = Ok d /\ (d <= t_depth sha (tree_of old))%N).
      { intros [|l]; [exists (t_depth sha (tree_of old)); split; [change (N.of_nat 0) with 0%N; congruence|lia]|]. exists 0%N. split; [apply (HI (S l)); lia|lia]. }
      apply STORE; cbn [mu_old_hash mu_new_hash mu_old_depth mu_new_depth mu_old mu_new]; try assumption; try congruence.
  - destruct (create_made sha Hsha check old new Fo Fn Po Pn Do Dn NE RM) as (u & ch & E & M). exists u. split; [exact E|].
    destruct (zero_depth _ _ _ (md_old_fin _ _ _ _ _ _ M) Po (md_old _ _ _ _ _ _ M)) as (A1 & A2 & A3).
    destruct (zero_depth _ _ _ (md_new_fin _ _ _ _ _ _ M) Pn (md_new _ _ _ _ _ _ M)) as (B1 & B2 & B3).
    pose proof (md_old_hash _ _ _ _ _ _ M) as E1. pose proof (md_new_hash _ _ _ _ _ _ M) as E2. pose proof (md_old_depth _ _ _ _ _ _ M) as E3. pose proof (md_new_depth _ _ _ _ _ _ M) as E4.
    rewrite A1, A2, B1, B2, E1, E2, E3, E4. repeat (split; [reflexivity|]). split.
    + intros HP. apply (apply_made sha Hsha check old new u ch); try assumption. apply (differ_of _ _ HP). left; reflexivity.
    + intros L1 L2. apply STORE; try assumption; try congruence; try apply M.
      * intros l. rewrite E3. apply A3.
      * intros l. rewrite E4. apply B3.
Qed.

(** What loading an update guarantees. *)
Theorem C33_load c u : load_update c = Ok u -> f_refs c = [mu_old u; mu_new u] /\
  f_hash (mu_old u) 0 = Ok (mu_old_hash u) /\ f_hash (mu_new u) 0 = Ok (mu_new_hash u) /\ f_depth (mu_old u) 0 = Ok (mu_old_depth u) /\ f_depth (mu_new u) 0 = Ok (mu_new_depth u).
Proof.
  unfold load_update. destruct (d_exotic (f_d1 c)); cbn [negb]; [|discriminate].
  destruct (f_bit_len c =? 552)%N; cbn [negb orb]; [|discriminate].
  destruct (N.eqb_spec (N.of_nat (length (f_refs c))) 2) as [RL|]; cbn [negb]; [|discriminate].
  destruct (rd (f_data c) 0) as [tag|]; cbn [of_opt rbind]; [|discriminate]. destruct (tag =? _)%N; cbn [negb]; [|discriminate].
  destruct (rdn (f_data c) 1 32); cbn [of_opt rbind]; [|discriminate]. destruct (rdn (f_data c) 33 32); cbn [of_opt rbind]; [|discriminate].
  destruct (rdn (f_data c) 65 2); cbn [of_opt rbind]; [|discriminate]. destruct (rdn (f_data c) 67 2); cbn [of_opt rbind]; [|discriminate].
  destruct (f_refs c) as [|x [|y [|]]]; try (cbn [length] in RL; lia). change ([x; y] !! 0) with (Some x). change ([x; y] !! 1) with (Some y). cbn [of_opt rbind].
  destruct (f_hash x 0) as [hx|] eqn:Q1; cbn [rbind]; [|discriminate]. destruct (f_depth x 0) as [dx|] eqn:Q2; cbn [rbind]; [|discriminate].
  destruct (f_hash y 0) as [hy|] eqn:Q3; cbn [rbind]; [|discriminate]. destruct (f_depth y 0) as [dy|] eqn:Q4; cbn [rbind]; [|discriminate].
  destruct (bool_decide_reflect (hx = l)) as [->|]; cbn [andb]; [|discriminate]. destruct (N.eqb_spec dx (from_be l1)) as [->|]; cbn [andb]; [|discriminate].
  destruct (bool_decide_reflect (hy = l0)) as [->|]; cbn [andb]; [|discriminate]. destruct (N.eqb_spec dy (from_be l2)) as [->|]; [|discriminate].
  intros E. injection E as <-. cbn [mu_old_hash mu_new_hash mu_old_depth mu_new_depth mu_old mu_new]. auto 8.
Qed.
End Sha.
Print Assumptions C33_apply_sound.
Print Assumptions C33_wrong_root.
Print Assumptions C33_create_apply_partial.
Print Assumptions C33_load.

(** ** Concrete cases *)
(** The cells below a cell. *)
Fixpoint below (c : cell) : list cell := let '(Cell _ _ refs) := c in refs ++ concat (map below refs).
Lemma occurs_below d x c : occurs d x c -> In x (below c).
Proof.
  induction 1 as [x c I|d x y c I O IH]; destruct c as [e bits refs]; cbn [below c_refs] in *; apply in_or_app; [left; exact I|right].
  apply in_concat. exists (below y). split; [apply in_map; exact I|exact IH].
Qed.
Lemma reach_below x c : reach x c -> In x (c :: below c).
Proof.
  induction 1 as [|x y c I R IH]; [left; reflexivity|right]. destruct c as [e bits refs]. cbn [below c_refs] in *. apply in_or_app.
  destruct IH as [<- |IH]; [left; exact I|right]. apply in_concat. exists (below y). split; [apply in_map; exact I|exact IH].
Qed.
Fixpoint cell_eqb (a b : cell) {struct a} : bool :=
  let '(Cell e1 b1 r1) := a in let '(Cell e2 b2 r2) := b in
  Bool.eqb e1 e2 && bool_decide (b1 = b2) &&
  (fix go (l1 l2 : list cell) : bool := match l1, l2 with [], [] => true | x :: xs, y :: ys => cell_eqb x y && go xs ys | _, _ => false end) r1 r2.
Lemma cell_eqb_eq a : forall b, cell_eqb a b = true -> a = b.
Proof.
  induction a as [e bits refs IH] using cell_tree_ind. intros [e2 bits2 refs2] E. cbn [cell_eqb] in E. rewrite !andb_true_iff in E. destruct E as ((E1 & E2) & E3).
  apply Bool.eqb_prop in E1. apply bool_decide_eq_true in E2. subst. f_equal. revert refs2 E3. induction refs as [|x xs IHx]; intros [|y ys] E3; try discriminate; [reflexivity|].
  inversion IH as [|? ? H1 H2]; subst. apply andb_true_iff in E3. destruct E3 as (E3 & E4). f_equal; [apply H1; exact E3|apply IHx; assumption].
Qed.
Definition all_differ (l : list cell) : bool :=
  let hs := map (fun x => (x, t_hash sha256 x)) l in
  forallb (fun x => forallb (fun y => negb (bool_decide (snd x = snd y)) || cell_eqb (fst x) (fst y)) hs) hs.
Lemma all_differ_ok roots : all_differ (concat (map (fun r => r :: below r) roots)) = true -> hashes_differ sha256 roots.
Proof.
  intros A x y r r' I I' R R' E. unfold all_differ in A. rewrite forallb_forall in A.
  assert (IN : forall z t, In t roots -> reach z t -> In z (concat (map (fun r => r :: below r) roots))).
  { intros z t IT RZ. apply in_concat. exists (t :: below t). split; [apply (in_map (fun r => r :: below r)); exact IT|apply reach_below; exact RZ]. }
  specialize (A _ (in_map (fun x => (x, t_hash sha256 x)) _ _ (IN x r I R))). cbn beta in A.
  rewrite forallb_forall in A. specialize (A _ (in_map (fun x => (x, t_hash sha256 x)) _ _ (IN y r' I' R'))). cbn [fst snd] in A.
  rewrite bool_decide_true in A by exact E. cbn [negb orb] in A. apply cell_eqb_eq in A. exact A.
Qed.

(** The root [ex_root] has the subtrees [ex_x] and [ex_node]; the new root keeps [ex_x]. *)
Definition ex_node2 : fcell := unwrap (build_ext sha256 false (bld_of [0x13]%N 8) [ex_leaf]).
Definition ex_root2 : fcell := unwrap (build_ext sha256 false (bld_of [0x02]%N 8) [ex_x; ex_node2]).
Lemma ex_node2_fin : is_fin ex_node2. Proof. pose proof ex_leaf_fin. ex_tac. Qed.
Lemma ex_root2_fin : is_fin ex_root2. Proof. pose proof ex_x_fin. pose proof ex_node2_fin. ex_tac. Qed.
Definition ex_visited : list N -> action := only [hash_of ex_root; hash_of ex_x; hash_of ex_node].
Lemma ex_remembers : remembers sha256 ex_visited (tree_of ex_root) (tree_of ex_root2).
Proof.
  split; [intros h; unfold ex_visited, only; case_bool_decide; discriminate|]. intros d x O NE CK. apply occurs_below in O.
  assert (B : below (tree_of ex_root2) = [tree_of ex_x; tree_of ex_node2; tree_of ex_y; tree_of ex_leaf; tree_of ex_leaf]) by (vm_compute; reflexivity).
  rewrite B in O. clear B. revert NE CK. pattern x. revert x O. apply List.Forall_forall.
  assert (SK : forall P c, ex_visited (t_hash sha256 c) = Skip -> c_refs c <> [] -> ex_visited (t_hash sha256 c) <> Skip -> P) by (intros P c E _ N; contradiction).
  constructor; [|constructor; [|constructor; [|constructor; [|constructor; [|constructor]]]]]; try (apply SK; vm_compute; reflexivity).
  intros _ _. right. constructor; [vm_compute; discriminate|]. vm_compute. left. reflexivity.
Qed.
Example C33_case :
  is_fin ex_root /\ is_fin ex_root2 /\ merkle_free (tree_of ex_root) /\ merkle_free (tree_of ex_root2) /\ f_mask ex_root = 0%N /\ f_mask ex_root2 = 0%N /\
  hashes_differ sha256 [tree_of ex_root; tree_of ex_root2] /\ remembers sha256 ex_visited (tree_of ex_root) (tree_of ex_root2) /\
  match create sha256 ex_visited ex_root ex_root2 with
  | Ok u => all_differ (tree_of (mu_old u) :: below (tree_of (mu_old u))) = true /\ f_mask (mu_new u) = 1%N /\ apply_update sha256 u ex_root = Ok ex_root2 /\ apply_update sha256 u ex_root2 = Err InvalidData /\
            match update_cell sha256 u with Ok c => load_update c = Ok u | Err _ => False end
  | Err _ => False
  end.
Proof.
  split; [exact ex_root_fin|]. split; [exact ex_root2_fin|]. split; [exact ex_root_mf|]. split.
  { pose proof ex_root_mf as M. inversion M as [? _ MR]; subst. change (c_refs (tree_of ex_root)) with [tree_of ex_x; tree_of ex_node] in MR. inversion MR as [|? ? X _]; subst.
    constructor; [vm_compute; reflexivity|]. change (c_refs (tree_of ex_root2)) with [tree_of ex_x; tree_of ex_node2]. constructor; [exact X|]. constructor; [|constructor].
    constructor; [vm_compute; reflexivity|]. change (c_refs (tree_of ex_node2)) with [tree_of ex_leaf]. repeat constructor. }
  split; [vm_compute; reflexivity|]. split; [vm_compute; reflexivity|]. split; [apply all_differ_ok; vm_compute; reflexivity|]. split; [exact ex_remembers|].
  vm_compute. repeat split.
Qed.

(** ** Updates that cannot be applied *)
(** A filter may ask for a whole subtree.  If that subtree shares a cell with a part of the
    tree where the cell is skipped, what is below the cell is lost: the update that is made
    cannot be applied. *)
Definition ex_shared_x : fcell := ex_x.  (* refers to ex_y *)
Definition ex_a : fcell := unwrap (build_ext sha256 false (bld_of [0xa0]%N 8) [ex_x]).
Definition ex_b : fcell := unwrap (build_ext sha256 false (bld_of [0xb0]%N 8) [ex_x]).
Definition ex_ab : fcell := unwrap (build_ext sha256 false (bld_of [0xc0]%N 8) [ex_a; ex_b]).
Definition ex_ab2 : fcell := unwrap (build_ext sha256 false (bld_of [0xd0]%N 8) [ex_y]).
Lemma ex_a_fin : is_fin ex_a. Proof. pose proof ex_x_fin. ex_tac. Qed.
Lemma ex_b_fin : is_fin ex_b. Proof. pose proof ex_x_fin. ex_tac. Qed.
Lemma ex_ab_fin : is_fin ex_ab. Proof. pose proof ex_a_fin. pose proof ex_b_fin. ex_tac. Qed.
Lemma ex_ab2_fin : is_fin ex_ab2. Proof. pose proof ex_y_fin. ex_tac. Qed.
Definition ex_subtree (h : list N) : action :=
  if bool_decide (h = hash_of ex_b) then IncludeSubtree else only [hash_of ex_ab; hash_of ex_a; hash_of ex_y] h.
Theorem C33_subtree_filter_refuted : exists check old new,
  finalized sha256 old /\ finalized sha256 new /\ f_mask old = 0%N /\ f_mask new = 0%N /\
  (* the only cell of the new tree that the filter includes is in the subtree it asks for *)
  (forall d x, occurs d x (tree_of new) -> check (t_hash sha256 x) <> Skip -> exists b d', check (t_hash sha256 b) = IncludeSubtree /\ In b (c_refs (tree_of old)) /\ occurs d' x b) /\
  check (t_hash sha256 (tree_of old)) = Include /\
  exists u, create sha256 check old new = Ok u /\ apply_update sha256 u old = Err InvalidData.
Proof.
  exists ex_subtree, ex_ab, ex_ab2. split; [exact ex_ab_fin|]. split; [exact ex_ab2_fin|]. split; [vm_compute; reflexivity|]. split; [vm_compute; reflexivity|]. split.
  { intros d x O CK. apply occurs_below in O. assert (B : below (tree_of ex_ab2) = [tree_of ex_y; tree_of ex_leaf]) by (vm_compute; reflexivity). rewrite B in O. clear B.
    revert CK. pattern x. revert x O. apply List.Forall_forall. constructor; [intros _|constructor; [intros CK; exfalso; apply CK; vm_compute; reflexivity|constructor]].
    exists (tree_of ex_b). eexists. split; [vm_compute; reflexivity|]. split; [vm_compute; right; left; reflexivity|].
    eapply occurs_deep with (y := tree_of ex_x); [vm_compute; left; reflexivity|]. constructor. vm_compute. left. reflexivity. }
  split; [vm_compute; reflexivity|].
  destruct (create sha256 ex_subtree ex_ab ex_ab2) as [u|] eqn:E; [|vm_compute in E; discriminate].
  exists u. split; [reflexivity|]. vm_compute in E. injection E as <-. vm_compute. reflexivity.
Qed.
Print Assumptions C33_subtree_filter_refuted.

(** A tree may contain Merkle cells.  Cells of the old tree are marked as visited by their
    representation hash alone, so a pruned branch met inside a Merkle cell hides the same
    pruned branch outside of it. *)
Definition merkle_over (c : fcell) : fcell :=
  match f_hash c 0, f_depth c 0 with
  | Ok h, Ok d => unwrap (build_ext sha256 true (bld_of ([3]%N ++ h ++ to_be 2 d) 280) [c])
  | _, _ => FCell 0 0 0 [] [] []
  end.
Lemma merkle_over_fin c : is_fin c -> forallb (fun x => x <? 256)%N (match f_hash c 0 with Ok h => h | Err _ => [256]%N end) = true -> is_ok (f_depth c 0) = true ->
  is_ok (match f_hash c 0, f_depth c 0 with Ok h, Ok d => build_ext sha256 true (bld_of ([3]%N ++ h ++ to_be 2 d) 280) [c] | _, _ => Err Panic end) = true -> is_fin (merkle_over c).
Proof.
  intros F B D OK. unfold merkle_over. destruct (f_hash c 0) as [h|]; [|discriminate]. destruct (f_depth c 0) as [d|]; [|discriminate].
  apply ex_fin; [|vm_compute; reflexivity|constructor; [exact F|constructor]|cbn; lia|exact OK].
  rewrite !forallb_app. rewrite B. change (forallb (fun x => x <? 256)%N [3%N]) with true. cbn [andb]. apply forallb_forall. intros x I.
  pose proof (to_be_ok 2 d) as T. rewrite List.Forall_forall in T. apply N.ltb_lt. apply T, I.
Qed.
Definition ex_px : fcell := unwrap (make_pruned sha256 (Plain ex_x) 0).
Definition ex_n : fcell := unwrap (build_ext sha256 false (bld_of [0xe0]%N 8) [ex_px; ex_node]).
Definition ex_m : fcell := merkle_over ex_n.
Definition ex_old3 : fcell := unwrap (build_ext sha256 false (bld_of [0xf0]%N 8) [ex_m; ex_x]).
Definition ex_new3 : fcell := unwrap (build_ext sha256 false (bld_of [0xf1]%N 8) [ex_x; ex_node]).
Lemma ex_px_fin : is_fin ex_px.
Proof. unfold ex_px. destruct (make_pruned sha256 (Plain ex_x) 0) as [p|] eqn:E; [|vm_compute in E; discriminate]. exact (proj1 (C34_pruned sha256 C12_sha256 ex_x 0 p ex_x_fin E)). Qed.
Lemma ex_n_fin : is_fin ex_n. Proof. pose proof ex_px_fin. pose proof ex_node_fin. ex_tac. Qed.
Lemma ex_m_fin : is_fin ex_m. Proof. apply merkle_over_fin; [exact ex_n_fin|vm_compute; reflexivity..]. Qed.
Lemma ex_old3_fin : is_fin ex_old3. Proof. pose proof ex_m_fin. pose proof ex_x_fin. ex_tac. Qed.
Lemma ex_new3_fin : is_fin ex_new3. Proof. pose proof ex_node_fin. pose proof ex_x_fin. ex_tac. Qed.
Definition ex_visited3 : list N -> action := only [hash_of ex_old3; hash_of ex_m; hash_of ex_n; hash_of ex_x; hash_of ex_node].
Theorem C33_embedded_proof_refuted : exists check old new,
  finalized sha256 old /\ finalized sha256 new /\ f_mask old = 0%N /\ f_mask new = 0%N /\ hashes_differ sha256 [tree_of old; tree_of new] /\
  remembers sha256 check (tree_of old) (tree_of new) /\
  exists u, create sha256 check old new = Ok u /\ apply_update sha256 u old = Err InvalidData.
Proof.
  exists ex_visited3, ex_old3, ex_new3. split; [exact ex_old3_fin|]. split; [exact ex_new3_fin|]. split; [vm_compute; reflexivity|]. split; [vm_compute; reflexivity|].
  split; [apply all_differ_ok; vm_compute; reflexivity|]. split.
  { split; [intros h; unfold ex_visited3, only; case_bool_decide; discriminate|]. intros d x O NE CK. apply occurs_below in O.
    assert (B : below (tree_of ex_new3) = [tree_of ex_x; tree_of ex_node; tree_of ex_y; tree_of ex_leaf; tree_of ex_leaf; tree_of ex_leaf]) by (vm_compute; reflexivity).
    rewrite B in O. clear B. revert NE CK. pattern x. revert x O. apply List.Forall_forall.
    assert (SK : forall P c, ex_visited3 (t_hash sha256 c) = Skip -> c_refs c <> [] -> ex_visited3 (t_hash sha256 c) <> Skip -> P) by (intros P c E _ N; contradiction).
    constructor; [|constructor; [|constructor; [|constructor; [|constructor; [|constructor; [|constructor]]]]]]; try (apply SK; vm_compute; reflexivity); intros _ _; right.
    - constructor; [vm_compute; discriminate|]. vm_compute. right. left. reflexivity.
    - eapply touched_deep with (y := tree_of ex_m); [vm_compute; discriminate|vm_compute; left; reflexivity|].
      eapply touched_deep with (y := tree_of ex_n); [vm_compute; discriminate|vm_compute; left; reflexivity|]. constructor; [vm_compute; discriminate|]. vm_compute. right. left. reflexivity. }
  destruct (create sha256 ex_visited3 ex_old3 ex_new3) as [u|] eqn:E; [|vm_compute in E; discriminate].
  exists u. split; [reflexivity|]. vm_compute in E. injection E as <-. vm_compute. reflexivity.
Qed.
Print Assumptions C33_embedded_proof_refuted.

(** Inside two Merkle cells a pruned branch of the new tree is looked up by the hash of the
    wrong level if the cell it stands for has a level itself: the number of levels is taken
    for the highest one. *)
Definition ex_p4 : fcell := unwrap (make_pruned sha256 (Plain ex_x) 1).
Definition ex_x4 : fcell := unwrap (build_ext sha256 false (bld_of [0x44]%N 8) [ex_p4]).
Definition ex_old4 (b : N) : fcell :=
  unwrap (build_ext sha256 false (bld_of [b]%N 8) [merkle_over (merkle_over (unwrap (build_ext sha256 false (bld_of [b]%N 8) [ex_x4])))]).
Lemma ex_p4_fin : is_fin ex_p4.
Proof. unfold ex_p4. destruct (make_pruned sha256 (Plain ex_x) 1) as [p|] eqn:E; [|vm_compute in E; discriminate]. exact (proj1 (C34_pruned sha256 C12_sha256 ex_x 1 p ex_x_fin E)). Qed.
Lemma ex_x4_fin : is_fin ex_x4. Proof. pose proof ex_p4_fin. ex_tac. Qed.
Lemma ex_old4_fin b : b = 1%N \/ b = 2%N -> is_fin (ex_old4 b).
Proof.
  intros B. assert (A : is_fin (unwrap (build_ext sha256 false (bld_of [b]%N 8) [ex_x4]))) by (pose proof ex_x4_fin; destruct B as [-> | ->]; ex_tac).
  assert (A1 : is_fin (merkle_over (unwrap (build_ext sha256 false (bld_of [b]%N 8) [ex_x4])))) by (apply merkle_over_fin; [exact A|..]; destruct B as [-> | ->]; vm_compute; reflexivity).
  assert (A2 : is_fin (merkle_over (merkle_over (unwrap (build_ext sha256 false (bld_of [b]%N 8) [ex_x4]))))) by (apply merkle_over_fin; [exact A1|..]; destruct B as [-> | ->]; vm_compute; reflexivity).
  destruct B as [-> | ->]; ex_tac.
Qed.
Definition ex_visited4 : list N -> action := only (map (t_hash sha256) (tree_of (ex_old4 1) :: below (tree_of (ex_old4 1)))).
Lemma only_spec l h : (only l h = Include <-> In h l) /\ (only l h = Include \/ only l h = Skip).
Proof. unfold only. rewrite <- elem_of_list_In. case_bool_decide; (split; [split|]); try tauto; discriminate. Qed.
Definition ex_update4 : res merkle_update := Eval vm_compute in create sha256 ex_visited4 (ex_old4 1) (ex_old4 2).
Lemma ex_update4_eq : create sha256 ex_visited4 (ex_old4 1) (ex_old4 2) = ex_update4.
Proof. vm_compute. reflexivity. Qed.
Theorem C33_two_levels_refuted : exists check old new,
  finalized sha256 old /\ finalized sha256 new /\ f_mask old = 0%N /\ f_mask new = 0%N /\ hashes_differ sha256 [tree_of old; tree_of new] /\
  (forall h, check h = Include <-> In h (map (t_hash sha256) (tree_of old :: below (tree_of old)))) /\ (forall h, check h = Include \/ check h = Skip) /\
  exists u, create sha256 check old new = Ok u /\ apply_update sha256 u old = Err InvalidData.
Proof.
  exists ex_visited4, (ex_old4 1), (ex_old4 2). split; [apply ex_old4_fin; auto|]. split; [apply ex_old4_fin; auto|]. split; [vm_compute; reflexivity|]. split; [vm_compute; reflexivity|].
  split; [apply all_differ_ok; vm_compute; reflexivity|]. split; [intros h; exact (proj1 (only_spec _ h))|]. split; [intros h; exact (proj2 (only_spec _ h))|].
  rewrite ex_update4_eq. unfold ex_update4. eexists. split; [reflexivity|]. vm_compute. reflexivity.
Qed.
Print Assumptions C33_two_levels_refuted.
