(** * Pruned branches (C34), Merkle proofs (C32) and virtual cells (C49).

    [finalized] cells are those builders and the decoder produce (FcellSpec.v); the trees
    that pruned branches and proofs should be are in MerkleSpec.v. *)
From Verif Require Import Err BuilderModel CellBuilderModel SliceModel SliceSpec BuilderSpec CellModel HashSpec HashModel FcellSpec MerkleModel MerkleSpec
  BitsProofs BufProofs BuilderProofs CellBuilderProofs HashProofs HashProofs2 HashProofs3 MerkleProofs MerkleProofs2 MerkleProofs3 MerkleProofs4 MerkleProofs5
  Sha256 HashProps.
Local Open Scope nat_scope.

Section Sha.
Context (sha : list N -> list N) (Hsha : sha_like sha).

(** ** C34: pruned branches *)
(** A pruned branch that is made reports the hashes and depths of the original at the levels
    up to the depth it was made for, and its own above. *)
Theorem C34_pruned c (d : nat) p : finalized sha c -> make_pruned sha (Plain c) (N.of_nat d) = Ok p ->
  finalized sha p /\ d_type (f_d1 p) = PrunedBranch /\ f_refs p = [] /\ f_mask p = N.lor (f_mask c) (2 ^ N.of_nat d) /\
  (forall l : nat, l <= d -> f_hash p (N.of_nat l) = f_hash c (N.of_nat l) /\ f_depth p (N.of_nat l) = f_depth c (N.of_nat l)) /\
  (forall l : nat, d < l -> f_hash p (N.of_nat l) = f_repr_hash p /\ f_depth p (N.of_nat l) = Ok 0%N).
Proof.
  intros F E. destruct (finalized_agrees sha Hsha c F) as (V & A & D).
  destruct (make_pruned_spec sha Hsha (Plain c) (tree_of c) d V D (ag_mask _ _ A)) as [(P & p' & E' & Fp & Tp)|(NP & E')].
  { intros l. split; [apply (ag_hash _ _ A)|apply (ag_depth _ _ A)]. }
  2:{ congruence. }
  rewrite E in E'. injection E' as <-.
  destruct (pruned_info sha Hsha (tree_of c) d V P D) as (PM & (_ & PS) & PA).
  destruct (finalized_agrees sha Hsha p Fp) as (Vp & Ap & _). pose proof (C14_type sha Hsha p Fp) as TY. rewrite Tp in *.
  split; [exact Fp|]. split; [|split; [|split; [|split]]].
  - rewrite TY. unfold pruned_tree. cbn [c_exotic c_bits]. rewrite (pruned_kind sha Hsha (tree_of c) d V P D). reflexivity.
  - destruct (fin_facts sha p Fp) as (bits & T & _). rewrite Tp in T. injection T as _ _ T. destruct (f_refs p); [reflexivity|discriminate].
  - rewrite (ag_mask _ _ Ap), (ag_mask _ _ A). exact PM.
  - intros l L. rewrite (ag_hash _ _ Ap), (ag_hash _ _ A), (ag_depth _ _ Ap), (ag_depth _ _ A). destruct (PS l L) as (-> & ->). auto.
  - intros l L. rewrite (ag_hash _ _ Ap), (ag_depth _ _ Ap). destruct (PA l L) as (-> & ->). split; [|reflexivity]. symmetry. apply (ag_hash _ _ Ap 3).
Qed.

(** It is made exactly if the depth is at most 2 and the cell has no level above that depth. *)
Theorem C34_when c (d : nat) : finalized sha c ->
  ((exists p, make_pruned sha (Plain c) (N.of_nat d) = Ok p) <-> d <= 2 /\ forall l, d < l -> N.testbit (f_mask c) (N.of_nat l) = false) /\
  ((forall p, make_pruned sha (Plain c) (N.of_nat d) <> Ok p) -> make_pruned sha (Plain c) (N.of_nat d) = Err (if d <? 8 then InvalidCell else Panic)).
Proof.
  intros F. destruct (finalized_agrees sha Hsha c F) as (V & A & D).
  assert (PR : prunable sha d (tree_of c) <-> d <= 2 /\ forall l, d < l -> N.testbit (f_mask c) (N.of_nat l) = false).
  { unfold prunable. rewrite (ag_mask _ _ A), lt_pow_bits. split; intros (H1 & H2); (split; [exact H1|]); intros l Hl; apply H2; lia. }
  destruct (make_pruned_spec sha Hsha (Plain c) (tree_of c) d V D (ag_mask _ _ A)) as [(P & p' & E' & Fp & Tp)|(NP & E')].
  { intros l. split; [apply (ag_hash _ _ A)|apply (ag_depth _ _ A)]. }
  - rewrite E'. split; [split; [tauto|eauto]|]. intros N. destruct (N p' eq_refl).
  - rewrite E'. split; [|tauto]. split; [intros (p & X); discriminate|tauto].
Qed.

(** ** C32: Merkle proofs *)
(** What is assumed of the tree: no collision of the hash function among the strings hashed
    for it, no cell with references at two Merkle depths, less than 256 nested Merkle cells. *)
Definition tree_ok (t : cell) : Prop :=
  no_collision sha t /\ one_depth t /\ forall d x, occurs d x t -> c_merkle t + d + c_merkle x < 256.

(** The builder fails exactly if some cell that has to be cut cannot be; otherwise it gives
    the specified tree and the set of the cells that were cut. *)
Theorem C32_build check big root : finalized sha root -> tree_ok (tree_of root) ->
  match build_raw_ext sha check big true root with
  | Ok (p, pruned) => cuts_ok sha check big 0 (tree_of root) /\ finalized sha p /\ tree_of p = proof_tree sha check big (tree_of root) /\
                      forall h, h ∈ pruned <-> In h (cuts sha check big (tree_of root))
  | Err e => ~ cuts_ok sha check big 0 (tree_of root) /\ (e = InvalidCell \/ e = Panic)
  end.
Proof.
  intros F (NC & OD & MD). unfold build_raw_ext. rewrite (fin_hash sha Hsha root F). cbn [rbind negb andb].
  pose proof (one_place_of sha Hsha _ (fin_valid sha Hsha _ F) NC OD) as ONE.
  rewrite (fin_merkle sha Hsha root F).
  pose proof (node_good sha Hsha check big (tree_of root) ONE root 0 (∅, ∅) F) as G. cbn [plus] in G.
  specialize (G ltac:(unfold c_merkle; destruct (kind_of _ _); cbn; lia) ltac:(auto)).
  specialize (G ltac:(intros h p L; cbn [fst] in L; rewrite lookup_empty in L; discriminate)).
  destruct (build_node sha check big root _ _) as [[p st]|e]; cbn [rbind good] in G |- *.
  - destruct G as (CO & Fp & Tp & st1 & -> & _ & S). cbn [snd] in *. split; [exact CO|]. split; [exact Fp|]. split; [exact Tp|].
    intros h. rewrite S, elem_of_union, elem_of_list_to_set, elem_of_list_In. split; [|auto]. intros [X|X]; [apply elem_of_empty in X; destruct X|exact X].
  - destruct G as ((d & x & Vx & [(T & NP)|(T & B)]) & E); (split; [|exact E]).
    + intros CO. apply NP. apply CO; assumption.
    + intros _. pose proof (MD d x (visible_occurs _ _ _ _ _ _ Vx)). lia.
Qed.

(** The root has to be accepted by the filter. *)
Theorem C32_root check big root : finalized sha root ->
  build_raw_ext sha check big false root =
  match check (t_hash sha (tree_of root)) with Skip => Err EmptyProof | _ => build_raw_ext sha check big true root end.
Proof.
  intros F. unfold build_raw_ext. rewrite (fin_hash sha Hsha root F). cbn [rbind negb andb]. destruct (check _); reflexivity.
Qed.

Lemma levels_cuts check big root : finalized sha root -> f_mask root = 0%N ->
  cuts_ok sha check big 0 (tree_of root) <-> forall d x, visible sha check big d x (tree_of root) -> treat sha check big x = Cut -> d <= 2.
Proof.
  intros F M. destruct (finalized_agrees sha Hsha root F) as (V & A & _). rewrite (ag_mask _ _ A) in M. split.
  - intros CO d x Vx T. apply (CO d x Vx T).
  - intros H d x Vx T. split; [apply (H d x Vx T)|]. cbn [plus].
    pose proof (occurs_mask sha d x _ (visible_occurs _ _ _ _ _ _ Vx) 0 V) as B. rewrite M in B. specialize (B ltac:(reflexivity)). cbn [plus] in B.
    eapply N.lt_trans; [exact B|]. apply N.pow_lt_mono_r; lia.
Qed.

(** For a root of level 0 and a filter that includes it: the proof is made unless a cell
    inside three or more Merkle cells has to be cut; it is for the root's hash and depth,
    its cell is the specified tree, and that tree has the hash and depth of the root at
    level 0. *)
Theorem C32_proof check big root : finalized sha root -> tree_ok (tree_of root) -> f_mask root = 0%N ->
  check (t_hash sha (tree_of root)) <> Skip ->
  (forall d x, visible sha check big d x (tree_of root) -> treat sha check big x = Cut -> d <= 2) ->
  exists p, build_proof sha check big false root = Ok p /\
    f_repr_hash root = Ok (mp_hash p) /\ f_repr_depth root = Ok (mp_depth p) /\
    finalized sha (mp_cell p) /\ tree_of (mp_cell p) = proof_tree sha check big (tree_of root) /\
    f_hash (mp_cell p) 0 = f_repr_hash root /\ f_depth (mp_cell p) 0 = f_repr_depth root /\
    (forall l : nat, exists d, f_depth (mp_cell p) (N.of_nat l) = Ok d /\ (d <= mp_depth p)%N).
Proof.
  intros F OK M CK D2. pose proof (proj2 (levels_cuts check big root F M) D2) as CO.
  pose proof (C32_build check big root F OK) as B. pose proof (C32_root check big root F) as R.
  assert (R' : build_raw_ext sha check big false root = build_raw_ext sha check big true root) by (rewrite R; destruct (check _); [contradiction|reflexivity..]).
  unfold build_proof. rewrite R'. destruct (build_raw_ext sha check big true root) as [[p pr]|e]; [|destruct B as (B & _); contradiction].
  cbn [rbind]. destruct B as (_ & Fp & Tp & _).
  destruct (finalized_agrees sha Hsha root F) as (V & A & D). destruct (finalized_agrees sha Hsha p Fp) as (Vp & Ap & Dp).
  pose proof (ag_hash _ _ A 3) as X3. pose proof (ag_depth _ _ A 3) as Y3. pose proof (ag_hash _ _ Ap 0) as X0. pose proof (ag_depth _ _ Ap 0) as Y0.
  change (N.of_nat 3) with 3%N in X3, Y3. change (N.of_nat 0) with 0%N in X0, Y0.
  unfold f_repr_hash, f_repr_depth. rewrite X3, Y3. cbn [rbind]. eexists. split; [reflexivity|]. cbn [mp_hash mp_depth mp_cell].
  pose proof (keep_faithful sha Hsha check big (tree_of root) 0 V (fin_depths sha Hsha root F) CO) as (_ & (_ & KS) & KD). cbn [plus] in KS, KD.
  rewrite (ag_mask _ _ A) in M. pose proof (level0 sha Hsha (tree_of root) V M) as L0.
  repeat (split; [assumption || reflexivity|]).
  rewrite X0, Y0, Tp. unfold proof_tree. destruct (KS 0 ltac:(lia)) as (<- & <-).
  destruct (L0 3) as (L03 & LD3). split; [rewrite L03; reflexivity|]. split; [rewrite LD3; reflexivity|].
  intros l. eexists. split; [apply (ag_depth _ _ Ap)|]. rewrite Tp, LD3, <- (proj2 (L0 l)). apply KD.
Qed.

(** Such a proof can be stored and loaded again; only a root of the greatest depth cannot be
    wrapped into one more cell. *)
Theorem C32_store_load check big root p : finalized sha root -> tree_ok (tree_of root) -> f_mask root = 0%N ->
  build_proof sha check big false root = Ok p -> (mp_depth p < 65535)%N ->
  exists c, proof_cell sha p = Ok c /\ finalized sha c /\ load_proof c = Ok p.
Proof.
  intros F OK M E DP.
  assert (CK : check (t_hash sha (tree_of root)) <> Skip).
  { intros S. unfold build_proof in E. rewrite (C32_root check big root F), S in E. discriminate. }
  assert (CO : cuts_ok sha check big 0 (tree_of root)).
  { unfold build_proof in E. rewrite (C32_root check big root F) in E. pose proof (C32_build check big root F OK) as B.
    destruct (check _); [contradiction|..]; destruct (build_raw_ext sha check big true root) as [[p' pr]|e]; try discriminate; apply B. }
  destruct (C32_proof check big root F OK M CK) as (p' & E' & H1 & H2 & Fp & _ & H0 & D0 & DL).
  { exact (proj1 (levels_cuts check big root F M) CO). }
  rewrite E in E'. injection E' as <-.
  destruct (finalized_agrees sha Hsha root F) as (V & A & D). pose proof (info_regular sha (proj1 Hsha) _ V) as RG.
  destruct (finalized_agrees sha Hsha (mp_cell p) Fp) as (Vp & Ap & Dp).
  unfold f_repr_hash in H1. unfold f_repr_depth in H2. pose proof (ag_hash _ _ A 3) as X. change (N.of_nat 3) with 3%N in X. rewrite X in H1. injection H1 as H1.
  assert (B : Forall byte_ok (mp_hash p)) by (rewrite <- H1; apply (rg_bytes _ RG)). assert (L : length (mp_hash p) = 32) by (rewrite <- H1; apply (rg_len _ RG)).
  destruct (proof_cell_spec sha Hsha p Fp B L ltac:(lia)) as [(_ & c & Ec & Fc & Tc & Rc)|((l & TD) & _)].
  - exists c. split; [exact Ec|]. split; [exact Fc|].
    rewrite (load_proof_ok sha c (mp_hash p) (mp_depth p) (mp_cell p) Fc B L ltac:(lia) Tc Rc).
    + destruct p; reflexivity.
    + rewrite H0. unfold f_repr_hash. rewrite X. congruence.
    + rewrite D0. exact H2.
  - exfalso. destruct (proof_tree_valid (mp_hash p) (mp_depth p) (tree_of (mp_cell p)) B L Vp) as (_ & K).
    unfold proof_tree_of in TD. cbn [info_of] in TD. unfold cell_info in TD. rewrite K in TD. cbn [i_depth k_merkle map sub_depths] in TD.
    destruct (DL (l + 1)) as (d & E1 & E2). rewrite (ag_depth _ _ Ap) in E1. injection E1 as E1.
    unfold sub_depths, max_all in TD. cbn [map fold_right] in TD. lia.
Qed.

(** What loading guarantees: the shown cell has the stored hash and depth at level 0 ... *)
Theorem C32_load c p : finalized sha c -> load_proof c = Ok p ->
  d_type (f_d1 c) = MerkleProof /\ f_refs c = [mp_cell p] /\ f_hash (mp_cell p) 0 = Ok (mp_hash p) /\ f_depth (mp_cell p) 0 = Ok (mp_depth p).
Proof.
  intros F E. destruct (load_proof_inv sha c p F E) as (Fp & R & H & D & T).
  split; [|auto]. rewrite (C14_type sha Hsha c F), T. unfold proof_tree_of. cbn [c_exotic c_bits].
  destruct (finalized_agrees sha Hsha (mp_cell p) Fp) as (Vp & Ap & _). pose proof (info_regular sha (proj1 Hsha) _ Vp) as RG.
  pose proof (ag_hash _ _ Ap 0) as X. change (N.of_nat 0) with 0%N in X. rewrite X in H. injection H as H.
  destruct (proof_tree_valid (mp_hash p) (mp_depth p) (tree_of (mp_cell p))) as (_ & ->); [rewrite <- H; apply (rg_bytes _ RG)|rewrite <- H; apply (rg_len _ RG)|exact Vp|reflexivity].
Qed.

(** ... so it is the tree with that hash and depth, with some subtrees replaced by pruned
    branches that have their hash and depth; or the hash function has a collision among the
    strings hashed for the two trees. *)
Theorem C32_commits c p root : finalized sha c -> load_proof c = Ok p ->
  finalized sha root -> complete (tree_of root) -> merkle_free (tree_of root) ->
  f_repr_hash root = Ok (mp_hash p) -> f_repr_depth root = Ok (mp_depth p) ->
  shows sha (tree_of (mp_cell p)) (tree_of root) \/
  exists x y, In x (hashed sha (tree_of (mp_cell p))) /\ In y (hashed sha (tree_of root)) /\ x <> y /\ sha x = sha y.
Proof.
  intros Fc E F CP MF HR DR. destruct (load_proof_inv sha c p Fc E) as (Fp & _ & H & D & _).
  destruct (finalized_agrees sha Hsha root F) as (V & A & _). destruct (finalized_agrees sha Hsha (mp_cell p) Fp) as (Vp & Ap & _).
  destruct (level0 sha Hsha (tree_of root) V (complete_mask sha _ CP) 3) as (L3 & LD3).
  pose proof (ag_hash _ _ Ap 0) as X0. pose proof (ag_depth _ _ Ap 0) as Y0. change (N.of_nat 0) with 0%N in X0, Y0. rewrite X0 in H. rewrite Y0 in D.
  pose proof (ag_hash _ _ A 3) as X3. pose proof (ag_depth _ _ A 3) as Y3. change (N.of_nat 3) with 3%N in X3, Y3.
  unfold f_repr_hash in HR. unfold f_repr_depth in DR. rewrite X3 in HR. rewrite Y3 in DR.
  destruct (decide (Exists (fun x => Exists (fun y => x <> y /\ sha x = sha y) (hashed sha (tree_of root))) (hashed sha (tree_of (mp_cell p))))) as [Q|Q].
  - right. apply List.Exists_exists in Q. destruct Q as (x & I & Q). apply List.Exists_exists in Q. destruct Q as (y & I' & N & Hxy). eauto 8.
  - left. apply shows_of_hash; try assumption; try apply fin_depths; try assumption.
    + intros x y I I' Hxy. destruct (decide (x = y)) as [W|W]; [exact W|]. exfalso. apply Q. apply List.Exists_exists. exists x. split; [exact I|]. apply List.Exists_exists. eauto.
    + congruence.
    + congruence.
Qed.

(** *** Proofs for one cell *)
(** If the cell is somewhere below the root, the proof contains it, with its data, at a place
    where the original tree has it. *)
Theorem C32_for_cell target root d x : finalized sha root -> tree_ok (tree_of root) -> f_mask root = 0%N -> merkle_free (tree_of root) ->
  occurs d x (tree_of root) -> t_hash sha x = target ->
  exists p path y y', proof_for_cell sha target root = Ok p /\
    at_path (tree_of root) path = Some y /\ t_hash sha y = target /\
    at_path (tree_of (mp_cell p)) path = Some y' /\ c_exotic y' = c_exotic y /\ c_bits y' = c_bits y.
Proof.
  intros F OK M MF O T. destruct (find_path_spec sha Hsha target root F) as [(cells & pi & z & E & Fcs & NE & P & HT & PC)|(_ & NX)].
  2:{ destruct (NX d x O T). }
  unfold proof_for_cell. rewrite E. cbn [rbind default].
  rewrite (mapR_ok _ (fun c => t_hash sha (tree_of c))) by (intros c I; apply fin_hash; [exact Hsha|rewrite List.Forall_forall in Fcs; apply Fcs; exact I]). cbn [rbind].
  set (flt := path_filter target (map (fun c => t_hash sha (tree_of c)) cells)).
  assert (IN : forall y, In y (tree_of root :: path_cells (tree_of root) pi) -> flt (t_hash sha y) = Include).
  { intros y I. rewrite PC in I. unfold flt, path_filter. apply in_app_or in I. destruct I as [I|[<- |[]]].
    - rewrite bool_decide_true; [reflexivity|]. apply in_map_iff in I. destruct I as (c & <- & I). apply elem_of_list_In, in_map_iff. eauto.
    - rewrite (bool_decide_true (t_hash sha z = target)) by exact HT. rewrite orb_true_r. reflexivity. }
  destruct (C32_proof flt false root F OK M) as (p & Ep & _ & _ & _ & Tp & _).
  { rewrite IN by (left; reflexivity). discriminate. }
  { intros d' y Vy _. rewrite (proj1 (occurs_merkle_free _ _ _ (visible_occurs _ _ _ _ _ _ Vy) MF)). lia. }
  destruct (keep_path sha flt false pi (c_merkle (tree_of root)) (tree_of root) z P) as (d' & KP).
  { apply List.Forall_forall. intros y I. unfold treat. rewrite IN by (right; exact I). reflexivity. }
  exists p, pi, z, (keep sha flt false d' z). split; [exact Ep|]. split; [exact P|]. split; [exact HT|]. rewrite Tp. split; [exact KP|].
  rewrite keep_eq. auto.
Qed.
(** If it is not there, and not the root itself, there is no proof. *)
Theorem C32_for_missing_cell target root : finalized sha root ->
  (forall d x, occurs d x (tree_of root) -> t_hash sha x <> target) -> t_hash sha (tree_of root) <> target ->
  proof_for_cell sha target root = Err EmptyProof.
Proof.
  intros F NO NR. destruct (find_path_spec sha Hsha target root F) as [(cells & pi & z & _ & _ & NE & P & HT & _)|(E & _)].
  - destruct (at_path_occurs pi (tree_of root) z NE P) as (d & O). destruct (NO d z O HT).
  - unfold proof_for_cell. rewrite E. cbn [rbind default mapR]. unfold build_proof, build_raw_ext. rewrite (fin_hash sha Hsha root F). cbn [rbind negb andb].
    unfold path_filter at 1. rewrite bool_decide_false by (intros X; inversion X). rewrite bool_decide_false by exact NR. reflexivity.
Qed.

(** ** C49: virtual cells *)
(** A walk through a handle: at each step, whether the reference is borrowed or cloned, and
    its index; and the same walk through a plain cell. *)
Fixpoint follow (h : handle) (path : list (bool * nat)) : option handle :=
  match path with
  | [] => Some h
  | (cloned, i) :: path' => match (if cloned then h_ref_cloned h i else h_ref h i) with Some h' => follow h' path' | None => None end
  end.
Fixpoint walk (c : fcell) (path : list nat) : option fcell :=
  match path with
  | [] => Some c
  | i :: path' => match f_refs c !! i with Some x => walk x path' | None => None end
  end.

Definition under (h : handle) (c : fcell) : Prop := h = Plain c \/ h = Virt (Plain c) \/ exists l, h = Wrap l c.
Lemma virtualize_under c : under (h_virtualize (Plain c)) c /\ under (c_virtualize (Plain c)) c.
Proof.
  unfold under, c_virtualize. cbn [h_virtualize h_d1]. split; [destruct (d_type (f_d1 c)); try (destruct (f_mask c =? 0)%N); eauto|destruct (d_mask (f_d1 c) =? 0)%N; eauto].
Qed.
Lemma under_ref h c (cl : bool) i : under h c ->
  match (if cl then h_ref_cloned h i else h_ref h i) with Some h' => exists x, f_refs c !! i = Some x /\ under h' x | None => f_refs c !! i = None end.
Proof.
  intros [-> |[-> |(l & ->)]]; destruct cl; cbn [h_ref h_ref_cloned]; destruct (f_refs c !! i) as [x|]; cbn; try reflexivity; exists x; (split; [reflexivity|]); try apply virtualize_under.
  - left. reflexivity.
  - left. reflexivity.
Qed.
Lemma under_follow path : forall h c, under h c ->
  match follow h path with Some h' => exists x, walk c (map snd path) = Some x /\ under h' x | None => walk c (map snd path) = None end.
Proof.
  induction path as [|(cl, i) path IH]; intros h c U; [exists c; auto|]. cbn [follow walk map snd].
  pose proof (under_ref h c cl i U) as R. destruct (if cl then _ else _) as [h'|]; [|rewrite R; reflexivity].
  destruct R as (x & -> & U'). apply IH. exact U'.
Qed.
(** Every walk through the virtual view of a cell goes where the same walk through the cell
    goes, and shows the same data and the same hash and depth at level 0. *)
Theorem C49_level0 c path :
  match follow (c_virtualize (Plain c)) path with
  | Some h => exists x, walk c (map snd path) = Some x /\ h_data h = (f_data x, f_bit_len x) /\ h_hash h 0 = f_hash x 0 /\ h_depth h 0 = f_depth x 0
  | None => walk c (map snd path) = None
  end.
Proof.
  pose proof (under_follow path _ c (proj2 (virtualize_under c))) as U. destruct (follow _ path) as [h|]; [|exact U].
  destruct U as (x & W & U). exists x. split; [exact W|].
  assert (Z : forall d1 o, virtual_hash_index d1 0 o = 0%N).
  { intros d1 o. unfold virtual_hash_index, lm_hash_index. cbn [lm_from_level]. change (lm_from_level 0) with 0%N. rewrite N.land_0_r. reflexivity. }
  destruct U as [-> |[-> |(l & ->)]]; cbn [h_data h_hash h_depth]; rewrite ?Z; auto.
Qed.

Definition low (h : handle) (c : fcell) : Prop := (h = Plain c /\ f_mask c = 0%N) \/ h = Virt (Plain c) \/ h = Wrap 0 c.
Lemma virtualize_low c : finalized sha c -> low (h_virtualize (Plain c)) c /\ low (c_virtualize (Plain c)) c.
Proof.
  intros F. unfold low, c_virtualize. cbn [h_virtualize h_d1]. fold (f_mask c). split.
  - destruct (d_type (f_d1 c)) eqn:T; try (destruct (N.eqb_spec (f_mask c) 0); auto); auto.
    left. split; [reflexivity|]. rewrite (C14_type sha Hsha c F) in T. destruct (finalized_agrees sha Hsha c F) as (_ & A & _).
    rewrite (ag_mask _ _ A). destruct (tree_of c) as [e bits refs]. cbn [c_exotic c_bits info_of] in *. unfold cell_info.
    destruct (kind_of e bits); try discriminate T. reflexivity.
  - destruct (N.eqb_spec (f_mask c) 0); auto.
Qed.
Lemma low_ref h c (cl : bool) i : low h c -> finalized sha c -> merkle_free (tree_of c) -> 
  match (if cl then h_ref_cloned h i else h_ref h i) with Some h' => exists x, f_refs c !! i = Some x /\ low h' x | None => f_refs c !! i = None end.
Proof.
  intros L F MF. destruct (fin_facts sha c F) as (bits & T & _ & _ & _ & FR & _).
  assert (FX : forall x, f_refs c !! i = Some x -> finalized sha x) by (intros x X; eapply Forall_lookup_1; eassumption).
  destruct L as [(-> & M)|[-> | ->]]; destruct cl; cbn [h_ref h_ref_cloned]; destruct (f_refs c !! i) as [x|] eqn:X; cbn; try reflexivity; exists x; (split; [reflexivity|]);
    try apply virtualize_low; try (apply FX; reflexivity).
  all: left; split; [reflexivity|]; pose proof (FX x eq_refl) as Fx;
    destruct (finalized_agrees sha Hsha c F) as (V & A & _); destruct (finalized_agrees sha Hsha x Fx) as (_ & Ax & _);
    rewrite (ag_mask _ _ A) in M; rewrite (ag_mask _ _ Ax);
    pose proof (child_mask sha (tree_of c) (tree_of x) 0 V) as CM; rewrite M in CM; inversion MF as [? Z _]; subst; rewrite Z in CM; cbn [plus] in CM;
    enough (i_mask (info_of sha (tree_of x)) < 1)%N by lia; apply CM; [|reflexivity];
    rewrite T; cbn [c_refs]; apply in_map; apply elem_of_list_In; eapply elem_of_list_lookup_2; eassumption.
Qed.
Lemma low_follow path : forall h c, low h c -> finalized sha c -> merkle_free (tree_of c) -> (f_mask c < 2)%N ->
  match follow h path with
  | Some h' => exists x, walk c (map snd path) = Some x /\ low h' x /\ finalized sha x /\ (f_mask x < 2)%N
  | None => walk c (map snd path) = None
  end.
Proof.
  induction path as [|(cl, i) path IH]; intros h c U F MF M; [exists c; auto|]. cbn [follow walk map snd].
  pose proof (low_ref h c cl i U F MF) as R. destruct (if cl then _ else _) as [h'|]; [|rewrite R; reflexivity].
  destruct R as (x & X & U'). rewrite X. destruct (fin_facts sha c F) as (bits & T & _ & _ & _ & FR & _).
  assert (Fx : finalized sha x) by (eapply Forall_lookup_1; eassumption).
  assert (I : In (tree_of x) (c_refs (tree_of c))) by (rewrite T; cbn [c_refs]; apply in_map, elem_of_list_In; eapply elem_of_list_lookup_2; eassumption).
  inversion MF as [? Z MFr]; subst. rewrite List.Forall_forall in MFr.
  apply IH; [exact U'|exact Fx|apply MFr; exact I|].
  destruct (finalized_agrees sha Hsha c F) as (V & A & _). destruct (finalized_agrees sha Hsha x Fx) as (_ & Ax & _).
  rewrite (ag_mask _ _ A) in M. rewrite (ag_mask _ _ Ax). pose proof (child_mask sha (tree_of c) (tree_of x) 1 V I M) as CM. rewrite Z in CM. exact CM.
Qed.
(** In trees without Merkle cells whose root has at most level 1, the view has the hashes
    and depths of level 0 at every level. *)
Theorem C49_view_partial c path : finalized sha c -> merkle_free (tree_of c) -> (f_mask c < 2)%N ->
  match follow (c_virtualize (Plain c)) path with
  | Some h => exists x, walk c (map snd path) = Some x /\ forall l : nat, h_hash h (N.of_nat l) = f_hash x 0 /\ h_depth h (N.of_nat l) = f_depth x 0
  | None => walk c (map snd path) = None
  end.
Proof.
  intros F MF M. pose proof (low_follow path _ c (proj2 (virtualize_low c F)) F MF M) as U. destruct (follow _ path) as [h|]; [|exact U].
  destruct U as (x & W & L & Fx & Mx). exists x. split; [exact W|]. intros l.
  assert (Z : virtual_hash_index (f_d1 x) (N.of_nat l) 0 = 0%N).
  { unfold virtual_hash_index, lm_virtualize. fold (f_mask x). replace (N.shiftr (f_mask x) (1 + 0)) with 0%N; [reflexivity|].
    symmetry. apply N.bits_inj_0. intros n. rewrite N.shiftr_spec by lia. pose proof (proj1 (lt_pow_bits (f_mask x) 1) Mx (N.to_nat (n + (1 + 0))) ltac:(lia)) as B. rewrite N2Nat.id in B. exact B. }
  destruct L as [(-> & M0)|[-> | ->]]; cbn [h_hash h_depth h_d1]; rewrite ?Z; auto.
  destruct (finalized_agrees sha Hsha x Fx) as (V & A & _). rewrite (ag_mask _ _ A) in M0. destruct (level0 sha Hsha _ V M0 l) as (E1 & E2).
  pose proof (ag_hash _ _ A 0) as H0. pose proof (ag_depth _ _ A 0) as D0. change (N.of_nat 0) with 0%N in H0, D0.
  rewrite H0, D0, (ag_hash _ _ A), (ag_depth _ _ A), E1, E2. auto.
Qed.

Lemma walk_tree path : forall c x, finalized sha c -> walk c path = Some x -> finalized sha x /\ at_path (tree_of c) path = Some (tree_of x).
Proof.
  induction path as [|i path IH]; intros c x F W; [injection W as <-; auto|]. cbn [walk at_path] in *.
  destruct (fin_facts sha c F) as (bits & T & _ & _ & _ & FR & _). rewrite T. cbn [c_refs]. rewrite list_lookup_fmap.
  destruct (f_refs c !! i) as [y|] eqn:X; [|discriminate]. cbn [fmap option_fmap option_map]. apply IH; [eapply Forall_lookup_1; eassumption|exact W].
Qed.
Lemma at_path_walk path : forall c x, finalized sha c -> at_path (tree_of c) path = Some x -> exists y, walk c path = Some y /\ finalized sha y /\ tree_of y = x.
Proof.
  induction path as [|i path IH]; intros c x F W; [injection W as <-; exists c; auto|]. cbn [walk at_path] in *.
  destruct (fin_facts sha c F) as (bits & T & _ & _ & _ & FR & _). rewrite T in W. cbn [c_refs] in W. rewrite list_lookup_fmap in W.
  destruct (f_refs c !! i) as [y|] eqn:X; [|discriminate]. cbn [fmap option_fmap option_map] in W. apply IH; [eapply Forall_lookup_1; eassumption|exact W].
Qed.
Lemma keep_merkle_free check big d c : merkle_free c -> d = 0 -> valid_tree c -> depths_fit sha c -> cuts_ok sha check big 0 c -> merkle_free (keep sha check big d c).
Proof.
  intros MF ->. induction c as [e bits refs IH] using cell_tree_ind. intros V D CO. rewrite keep_eq. cbn [c_exotic c_bits c_refs].
  inversion MF as [? Z MFr]; subst. cbn [c_refs] in MFr. constructor; [exact Z|]. cbn [c_refs]. apply List.Forall_map. rewrite List.Forall_forall in IH, MFr |- *. intros x I.
  unfold treated. pose proof (MFr x I) as MFx. inversion MFx as [? Zx _]; subst. pose proof (valid_child (Cell e bits refs) x V I) as Vx.
  pose proof (depths_fit_child sha (Cell e bits refs) x D I) as Dx. pose proof (cuts_ok_child sha check big 0 (Cell e bits refs) x CO I) as Cx. cbn [plus] in Cx.
  destruct (treat sha check big x) eqn:T.
  - assert (P : prunable sha 0 x) by (specialize (CO (c_merkle (Cell e bits refs)) x ltac:(constructor; exact I) T); rewrite Z in CO; exact CO).
    constructor; [|constructor]. unfold c_merkle, pruned_tree. cbn [c_exotic c_bits]. rewrite (pruned_kind sha Hsha x 0 Vx P (proj1 Dx)). reflexivity.
  - rewrite Zx. apply IH; try assumption. rewrite Z in Cx. exact (Cx eq_refl).
  - exact MFx.
Qed.
(** The view of a proof for a tree without Merkle cells: every walk through it is a walk
    through the original tree, and shows the hashes and depths of the original cells. *)
Theorem C49_proof_view check big root p path h : finalized sha root -> tree_ok (tree_of root) -> f_mask root = 0%N -> merkle_free (tree_of root) ->
  build_proof sha check big false root = Ok p ->
  follow (c_virtualize (Plain (mp_cell p))) path = Some h ->
  exists x, walk root (map snd path) = Some x /\
    forall l : nat, h_hash h (N.of_nat l) = f_repr_hash x /\ h_depth h (N.of_nat l) = f_repr_depth x.
Proof.
  intros F OK M MF E FL.
  assert (CK : check (t_hash sha (tree_of root)) <> Skip).
  { intros S. unfold build_proof in E. rewrite (C32_root check big root F), S in E. discriminate. }
  assert (D2 : forall d x, visible sha check big d x (tree_of root) -> treat sha check big x = Cut -> d <= 2).
  { intros d y Vy _. rewrite (proj1 (occurs_merkle_free _ _ _ (visible_occurs _ _ _ _ _ _ Vy) MF)). lia. }
  pose proof (proj2 (levels_cuts check big root F M) D2) as CO.
  destruct (C32_proof check big root F OK M CK D2) as (p' & E' & _ & _ & Fp & Tp & _). rewrite E in E'. injection E' as <-.
  destruct (finalized_agrees sha Hsha root F) as (V & A & D). destruct (finalized_agrees sha Hsha (mp_cell p) Fp) as (Vp & Ap & _).
  rewrite (ag_mask _ _ A) in M. inversion MF as [? Z _]; subst.
  assert (MFp : merkle_free (tree_of (mp_cell p))).
  { rewrite Tp. unfold proof_tree. apply keep_merkle_free; try assumption. apply fin_depths; assumption. }
  assert (Mp : (f_mask (mp_cell p) < 2)%N).
  { rewrite (ag_mask _ _ Ap), Tp. unfold proof_tree. rewrite Z. clear - Hsha V D F CO M MF.
    change 2%N with (2 ^ N.of_nat 1)%N. apply lt_pow_bits. intros n Hn.
    assert (G : forall c, valid_tree c -> depths_fit sha c -> merkle_free c -> i_mask (info_of sha c) = 0%N -> cuts_ok sha check big 0 c -> N.testbit (i_mask (info_of sha (keep sha check big 0 c))) (N.of_nat n) = false).
    2:{ apply G; try assumption. apply fin_depths; assumption. }
    induction c as [e bits refs IH] using cell_tree_ind. intros Vc Dc MFc Mc COc. rewrite keep_eq. cbn [c_exotic c_bits c_refs info_of]. unfold cell_info.
    inversion MFc as [? Z MFr]; subst. cbn [c_refs] in MFr. unfold c_merkle in Z. cbn [c_exotic c_bits] in Z.
    assert (OR : N.testbit (or_all (map i_mask (map (info_of sha) (map (treated sha check big 0) refs)))) (N.of_nat n) = false).
    { rewrite or_all_bits. apply not_true_iff_false. intros X. apply existsb_exists in X. destruct X as (m & I & B). rewrite !map_map in I. apply in_map_iff in I. destruct I as (x & <- & I).
      rewrite List.Forall_forall in IH, MFr. pose proof (valid_child (Cell e bits refs) x Vc I) as Vx. pose proof (depths_fit_child sha (Cell e bits refs) x Dc I) as Dx.
      pose proof (cuts_ok_child sha check big 0 (Cell e bits refs) x COc I) as Cx. cbn [plus] in Cx.
      pose proof (child_mask sha (Cell e bits refs) x 0 Vc I) as CM. rewrite Mc in CM. specialize (CM ltac:(reflexivity)). unfold c_merkle in CM, Cx. cbn [c_exotic c_bits] in CM, Cx. rewrite Z in CM, Cx.
      assert (M0 : i_mask (info_of sha x) = 0%N) by (cbn in CM; lia).
      pose proof (MFr x I) as MFx. inversion MFx as [? Zx _]; subst. unfold treated in B. destruct (treat sha check big x) eqn:T.
      - assert (P : prunable sha 0 x) by (specialize (COc (c_merkle (Cell e bits refs)) x ltac:(constructor; exact I) T); unfold c_merkle in COc; cbn [c_exotic c_bits] in COc; rewrite Z in COc; exact COc).
        destruct (pruned_info sha Hsha x 0 Vx P (proj1 Dx)) as (PM & _). rewrite PM, M0 in B. change (N.lor 0 (2 ^ N.of_nat 0)) with 1%N in B.
        rewrite (proj1 (lt_pow_bits 1 1) ltac:(reflexivity) n Hn) in B. discriminate.
      - rewrite Zx in B. cbn [plus] in B. rewrite (IH x I Vx Dx MFx M0 (Cx eq_refl)) in B. discriminate.
      - rewrite M0, N.bits_0 in B. discriminate. }
    cbn [info_of] in Mc. unfold cell_info in Mc.
    destruct (kind_of e bits); cbn [i_mask cell_mask k_merkle] in *; try discriminate Z; try exact OR; try apply N.bits_0. rewrite Mc. apply N.bits_0. }
  pose proof (C49_view_partial (mp_cell p) path Fp MFp Mp) as W. rewrite FL in W. destruct W as (q & W & HQ).
  destruct (walk_tree _ _ _ Fp W) as (Fq & WT). rewrite Tp in WT. unfold proof_tree in WT. rewrite Z in WT.
  pose proof (keep_path_back sha Hsha check big (map snd path) 0 (tree_of root) (tree_of q) V (fin_depths sha Hsha root F) CO) as KB. rewrite Z in KB. cbn [plus] in KB.
  destruct (KB WT) as (xt & AX & b' & _ & (_ & (_ & SM) & _)). destruct (at_path_walk _ _ _ F AX) as (x & WX & Fx & <-).
  exists x. split; [exact WX|]. intros l. destruct (HQ l) as (-> & ->).
  destruct (finalized_agrees sha Hsha q Fq) as (Vq & Aq & _). destruct (finalized_agrees sha Hsha x Fx) as (Vx & Ax & _).
  unfold f_repr_hash, f_repr_depth. change 0%N with (N.of_nat 0). change 3%N with (N.of_nat 3).
  rewrite (ag_hash _ _ Aq), (ag_depth _ _ Aq), (ag_hash _ _ Ax), (ag_depth _ _ Ax).
  assert (M0 : i_mask (info_of sha (tree_of x)) = 0%N).
  { destruct (map snd path) as [|i pi] eqn:EP; [injection AX as <-; exact M|]. destruct (at_path_occurs (i :: pi) _ _ ltac:(discriminate) AX) as (d & O).
    pose proof (occurs_mask sha d _ _ O 0 V) as B. rewrite M in B. specialize (B ltac:(reflexivity)). rewrite (proj1 (occurs_merkle_free _ _ _ O MF)) in B. cbn in B. lia. }
  destruct (level0 sha Hsha _ Vx M0 3) as (-> & ->). destruct (SM 0 ltac:(lia)) as (-> & ->). auto.
Qed.
End Sha.
Print Assumptions C34_pruned.
Print Assumptions C34_when.
Print Assumptions C32_build.
Print Assumptions C32_root.
Print Assumptions C32_proof.
Print Assumptions C32_store_load.
Print Assumptions C32_load.
Print Assumptions C32_commits.
Print Assumptions C32_for_cell.
Print Assumptions C32_for_missing_cell.
Print Assumptions C49_level0.
Print Assumptions C49_view_partial.
Print Assumptions C49_proof_view.

(** ** Concrete cases *)
Definition hash_of (c : fcell) : list N := match f_repr_hash c with Ok h => h | Err _ => [] end.
Definition ex_y : fcell := unwrap (build_ext sha256 false (bld_of [0x77]%N 8) [ex_leaf]).
Definition ex_x : fcell := unwrap (build_ext sha256 false (bld_of [0x55; 0x66]%N 16) [ex_y]).
Definition ex_root : fcell := unwrap (build_ext sha256 false (bld_of [0x01]%N 8) [ex_x; ex_node]).
Lemma ex_y_fin : is_fin ex_y. Proof. pose proof ex_leaf_fin. ex_tac. Qed.
Lemma ex_x_fin : is_fin ex_x. Proof. pose proof ex_y_fin. ex_tac. Qed.
Lemma ex_root_fin : is_fin ex_root. Proof. pose proof ex_x_fin. pose proof ex_node_fin. ex_tac. Qed.
Definition only (l : list (list N)) (h : list N) : action := if bool_decide (h ∈ l) then Include else Skip.
Definition no_coll (l : list (list N)) : bool :=
  let hs := map (fun x => (x, sha256 x)) l in
  forallb (fun x => forallb (fun y => negb (bool_decide (snd x = snd y)) || bool_decide (fst x = fst y)) hs) hs.
Lemma no_coll_ok t : no_coll (hashed sha256 t) = true -> no_collision sha256 t.
Proof.
  intros H x y Ix Iy E. unfold no_coll in H. rewrite forallb_forall in H. specialize (H _ (in_map (fun x => (x, sha256 x)) _ _ Ix)). cbn beta in H.
  rewrite forallb_forall in H. specialize (H _ (in_map (fun x => (x, sha256 x)) _ _ Iy)). cbn [fst snd] in H.
  rewrite bool_decide_true in H by exact E. cbn [negb orb] in H. apply bool_decide_eq_true in H. exact H.
Qed.
Lemma ex_root_mf : merkle_free (tree_of ex_root).
Proof.
  assert (L : merkle_free (tree_of ex_leaf)) by (constructor; [vm_compute; reflexivity|constructor]).
  assert (Y : merkle_free (tree_of ex_y)) by (constructor; [vm_compute; reflexivity|]; change (c_refs (tree_of ex_y)) with [tree_of ex_leaf]; repeat constructor; exact L).
  assert (X : merkle_free (tree_of ex_x)) by (constructor; [vm_compute; reflexivity|]; change (c_refs (tree_of ex_x)) with [tree_of ex_y]; repeat constructor; exact Y).
  assert (N : merkle_free (tree_of ex_node)) by (constructor; [vm_compute; reflexivity|]; change (c_refs (tree_of ex_node)) with [tree_of ex_leaf; tree_of ex_leaf]; repeat (constructor; [exact L|]); constructor).
  constructor; [vm_compute; reflexivity|]. change (c_refs (tree_of ex_root)) with [tree_of ex_x; tree_of ex_node]. constructor; [exact X|]. constructor; [exact N|constructor].
Qed.
Lemma ex_root_ok : tree_ok sha256 (tree_of ex_root).
Proof.
  split; [apply no_coll_ok; vm_compute; reflexivity|]. split; [apply merkle_free_one_depth, ex_root_mf|].
  intros d x O. destruct (occurs_merkle_free _ _ _ O ex_root_mf) as (-> & MF). inversion MF as [? Z _]; subst. rewrite Z.
  pose proof ex_root_mf as R. inversion R as [? Z' _]; subst. rewrite Z'. cbn. lia.
Qed.

Example C34_case :
  (exists p, make_pruned sha256 (Plain ex_node) 0 = Ok p /\ f_hash p 0 = f_repr_hash ex_node /\ f_hash p 1 <> f_hash p 0) /\
  f_mask ex_parent = 5%N /\ make_pruned sha256 (Plain ex_parent) 0 = Err InvalidCell /\ is_ok (make_pruned sha256 (Plain ex_parent) 2) = true /\
  make_pruned sha256 (Plain ex_node) 3 = Err InvalidCell.
Proof.
  split; [|vm_compute; repeat split]. destruct (make_pruned sha256 (Plain ex_node) 0) as [p|] eqn:E; [|vm_compute in E; discriminate].
  exists p. split; [reflexivity|]. vm_compute in E. injection E as <-. vm_compute. split; [reflexivity|discriminate].
Qed.
Example C32_case :
  is_fin ex_root /\ tree_ok sha256 (tree_of ex_root) /\ f_mask ex_root = 0%N /\
  only [hash_of ex_root; hash_of ex_x] (t_hash sha256 (tree_of ex_root)) = Include /\
  map (treat sha256 (only [hash_of ex_root; hash_of ex_x]) false) [tree_of ex_x; tree_of ex_y; tree_of ex_node] = [Keep; Cut; Cut] /\
  match build_proof sha256 (only [hash_of ex_root; hash_of ex_x]) false false ex_root with
  | Ok p => f_mask (mp_cell p) = 1%N /\ match proof_cell sha256 p with Ok c => load_proof c = Ok p | Err _ => False end
  | Err _ => False
  end /\
  match proof_for_cell sha256 (hash_of ex_y) ex_root with Ok p => match walk (mp_cell p) [0; 0] with Some c => f_data c = [0x77]%N /\ length (f_refs c) = 1 | None => False end | Err _ => False end /\
  proof_for_cell sha256 [] ex_root = Err EmptyProof.
Proof. split; [exact ex_root_fin|]. split; [exact ex_root_ok|]. vm_compute. repeat split. Qed.
Example C49_case :
  match build_proof sha256 (only [hash_of ex_root; hash_of ex_x]) false false ex_root with
  | Ok p => match follow (c_virtualize (Plain (mp_cell p))) [(true, 0); (false, 0)] with
            | Some h => h_hash h 3 = f_repr_hash ex_y /\ h_data h <> (f_data ex_y, f_bit_len ex_y)
            | None => False
            end
  | Err _ => False
  end.
Proof. vm_compute. split; [reflexivity|discriminate]. Qed.

(** The condition on Merkle depths is needed: a subtree that occurs both outside and inside a
    Merkle cell is processed once, with the depth of its first occurrence, and the proof that
    is built has the wrong hash and does not load. *)
Definition ex_merkle : fcell := unwrap (build_ext sha256 true (bld_of ([3]%N ++ repeat 9%N 34) 280) [ex_x]).
Definition ex_shared : fcell := unwrap (build_ext sha256 false (bld_of [0x02]%N 8) [ex_x; ex_merkle]).
Lemma ex_merkle_fin : is_fin ex_merkle. Proof. pose proof ex_x_fin. ex_tac. Qed.
Lemma ex_shared_fin : is_fin ex_shared. Proof. pose proof ex_x_fin. pose proof ex_merkle_fin. ex_tac. Qed.
Theorem C32_shared_subtree_refuted : exists root check,
  finalized sha256 root /\ f_mask root = 0%N /\ check (t_hash sha256 (tree_of root)) = Include /\ no_collision sha256 (tree_of root) /\
  exists p, build_proof sha256 check false false root = Ok p /\ f_repr_hash root = Ok (mp_hash p) /\ f_hash (mp_cell p) 0 <> Ok (mp_hash p) /\
    exists c, proof_cell sha256 p = Ok c /\ load_proof c = Err InvalidCell.
Proof.
  exists ex_shared, (only [hash_of ex_shared; hash_of ex_x; hash_of ex_merkle]).
  split; [exact ex_shared_fin|]. split; [vm_compute; reflexivity|]. split; [vm_compute; reflexivity|]. split; [apply no_coll_ok; vm_compute; reflexivity|].
  destruct (build_proof sha256 (only [hash_of ex_shared; hash_of ex_x; hash_of ex_merkle]) false false ex_shared) as [p|] eqn:E; [|vm_compute in E; discriminate].
  exists p. split; [reflexivity|]. vm_compute in E. injection E as <-. split; [vm_compute; reflexivity|]. split; [vm_compute; discriminate|].
  destruct (proof_cell sha256 _) as [c|] eqn:E; [|vm_compute in E; discriminate]. exists c. split; [reflexivity|]. vm_compute in E. injection E as <-. vm_compute. reflexivity.
Qed.
Print Assumptions C32_shared_subtree_refuted.
(** The condition on the level of the root is needed too: the proof is made for the root's
    representation hash, but its cell is compared at level 0. *)
Theorem C32_root_level_refuted : exists root,
  finalized sha256 root /\ tree_ok sha256 (tree_of root) /\
  exists p c, build_proof sha256 (fun _ => Include) false false root = Ok p /\ proof_cell sha256 p = Ok c /\ load_proof c = Err InvalidCell.
Proof.
  exists ex_parent. split; [exact ex_parent_fin|]. split.
  { assert (MF : merkle_free (tree_of ex_parent)).
    { constructor; [vm_compute; reflexivity|]. change (c_refs (tree_of ex_parent)) with [tree_of ex_pruned; tree_of ex_leaf].
      constructor; [|constructor; [|constructor]]; (constructor; [vm_compute; reflexivity|constructor]). }
    split; [apply no_coll_ok; vm_compute; reflexivity|]. split; [apply merkle_free_one_depth, MF|].
    intros d x O. destruct (occurs_merkle_free _ _ _ O MF) as (-> & MFx). inversion MFx as [? Z _]; subst. inversion MF as [? Z' _]; subst. rewrite Z, Z'. cbn. lia. }
  destruct (build_proof sha256 (fun _ => Include) false false ex_parent) as [p|] eqn:E; [|vm_compute in E; discriminate].
  destruct (proof_cell sha256 p) as [c|] eqn:E'; [|vm_compute in E; injection E as <-; vm_compute in E'; discriminate].
  exists p, c. split; [reflexivity|]. split; [exact E'|]. vm_compute in E. injection E as <-. vm_compute in E'. injection E' as <-. vm_compute. reflexivity.
Qed.
Print Assumptions C32_root_level_refuted.

(** The view does not have the descriptor of the level below, and the view of a view is not
    two levels below. *)
Theorem C49_descriptor_refuted : exists c, finalized sha256 c /\ f_mask c <> 0%N /\
  h_d1 (c_virtualize (Plain c)) = f_d1 c /\ d_mask (h_d1 (c_virtualize (Plain c))) <> lm_virtualize (f_mask c) 1.
Proof. exists ex_parent. split; [exact ex_parent_fin|]. vm_compute. split; [discriminate|]. split; [reflexivity|discriminate]. Qed.
Print Assumptions C49_descriptor_refuted.
Definition ex_pruned3 : fcell := unwrap (build_ext sha256 true (bld_of ([1; 3]%N ++ repeat 7%N 32 ++ repeat 8%N 32 ++ [0; 2; 0; 9]%N) 560) []).
Lemma ex_pruned3_fin : is_fin ex_pruned3. Proof. ex_tac. Qed.
Theorem C49_twice_refuted : exists c, finalized sha256 c /\ lm_virtualize (f_mask c) 2 = 0%N /\
  h_hash (c_virtualize (c_virtualize (Plain c))) 3 <> h_hash (c_virtualize (c_virtualize (Plain c))) 0.
Proof. exists ex_pruned3. split; [exact ex_pruned3_fin|]. vm_compute. split; [reflexivity|discriminate]. Qed.
Print Assumptions C49_twice_refuted.
