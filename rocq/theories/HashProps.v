(** * Descriptors, level masks, hashes, depths and exotic cells: C10-C14.

    [finalized] cells are those builders and the decoder produce (FcellSpec.v); what their
    hashes and depths should be is specified on plain trees in HashSpec.v. *)
From Verif Require Import Err BitsProofs BuilderModel BuilderSpec CellModel HashSpec HashModel FcellSpec HashProofs HashProofs2 HashProofs3 Sha256.
Local Open Scope nat_scope.

(** SHA-256 is such a function. *)
Theorem C12_sha256 : sha_like sha256.
Proof. split; [apply sha256_bytes|]. vm_compute. reflexivity. Qed.
Print Assumptions C12_sha256.

(** ** Concrete cells: a leaf, an ordinary cell, a pruned branch of level mask 5 and a Merkle proof over it. *)
Definition bld_of (bytes : list N) (n : N) : bld := mkB (take 128 (bytes ++ repeat 0%N 128)) n.
Definition unwrap (r : res fcell) : fcell := match r with Ok c => c | Err _ => FCell 0 0 0 [] [] [] end.
Definition ex_leaf : fcell := unwrap (build_ext sha256 false (bld_of [0xab; 0xc0]%N 11) []).
Definition ex_node : fcell := unwrap (build_ext sha256 false (bld_of [0x12]%N 8) [ex_leaf; ex_leaf]).
Definition ex_pruned : fcell := unwrap (build_ext sha256 true (bld_of ([1; 5]%N ++ repeat 7%N 64 ++ [0; 2; 0; 9]%N) 560) []).
Definition ex_parent : fcell := unwrap (build_ext sha256 false (bld_of [0xff]%N 3) [ex_pruned; ex_leaf]).
Definition ex_proof : fcell := unwrap (build_ext sha256 true (bld_of ([3]%N ++ repeat 9%N 34) 280) [ex_parent]).

Definition is_fin (c : fcell) := finalized sha256 c.
Lemma ex_holds bytes n : Forall byte_ok bytes -> (n <= 1023)%N -> holds_bits (bld_of bytes n) (data_bits (bld_of bytes n)).
Proof.
  intros H Hn. split; [|split; [|split; [exact Hn|reflexivity]]]; cbn [bd bld_of].
  - rewrite take_length, app_length, repeat_length. lia.
  - apply Forall_take, Forall_app. split; [exact H|]. apply List.Forall_forall. intros x I. apply repeat_spec in I. subst x. reflexivity.
Qed.
Lemma ex_fin exotic bytes n refs :
  forallb (fun x => x <? 256)%N bytes = true -> (n <=? 1023)%N = true -> Forall is_fin refs -> length refs <= 4 ->
  is_ok (build_ext sha256 exotic (bld_of bytes n) refs) = true -> is_fin (unwrap (build_ext sha256 exotic (bld_of bytes n) refs)).
Proof.
  intros H Hn F L E.
  assert (H' : Forall byte_ok bytes) by (apply List.Forall_forall; intros x I; apply N.ltb_lt; apply (proj1 (forallb_forall _ _) H x I)).
  apply N.leb_le in Hn.
  destruct (build_spec sha256 C12_sha256 exotic _ _ refs (ex_holds bytes n H' Hn) F L) as [(_ & _ & c' & E' & Fc & _)|[(_ & _ & E')|(_ & E')]]; rewrite E' in *; try discriminate.
  exact Fc.
Qed.
Ltac ex_tac := apply ex_fin; [vm_compute; reflexivity|vm_compute; reflexivity|repeat (constructor; [assumption|]); constructor|cbn; lia|vm_compute; reflexivity].
Lemma ex_leaf_fin : is_fin ex_leaf. Proof. ex_tac. Qed.
Lemma ex_node_fin : is_fin ex_node. Proof. pose proof ex_leaf_fin. ex_tac. Qed.
Lemma ex_pruned_fin : is_fin ex_pruned. Proof. ex_tac. Qed.
Lemma ex_parent_fin : is_fin ex_parent. Proof. pose proof ex_leaf_fin. pose proof ex_pruned_fin. ex_tac. Qed.
Lemma ex_proof_fin : is_fin ex_proof. Proof. pose proof ex_parent_fin. ex_tac. Qed.

Section Sha.
Context (sha : list N -> list N) (Hsha : sha_like sha).

(** ** C10: descriptors *)
Theorem C10_descriptor c : finalized sha c ->
  let '(Cell exotic bits refs) := tree_of c in
  d_exotic (f_d1 c) = exotic /\ d_refs (f_d1 c) = N.of_nat (length refs) /\
  d_mask (f_d1 c) = i_mask (info_of sha (tree_of c)) /\
  d_byte_len (f_d2 c) = N.of_nat (length (f_data c)) /\ d_aligned (f_d2 c) = (length bits mod 8 =? 0) /\
  f_bit_len c = N.of_nat (length bits) /\ f_data c = data_bytes bits /\
  (f_d1 c < 256)%N /\ (f_d2 c < 256)%N.
Proof.
  intros F. pose proof (finalized_agrees sha Hsha c F) as (_ & A & _).
  pose proof (ag_mask _ _ A) as AM. unfold f_mask in AM.
  destruct F as [d1 bits refs hashes F H4 Hb Hd Hr Hst HC]. cbn [tree_of f_d1 f_d2 f_bit_len f_data] in *.
  rewrite Nat2N.id, data_bits_take in *. rewrite map_length, length_data.
  destruct (d2_fields (length bits) Hb) as (D1 & D2 & D3).
  repeat split; assumption.
Qed.

(** The two bytes and the data determine shape and bits. *)
Theorem C10_determined c c' : finalized sha c -> finalized sha c' ->
  d_mask (f_d1 c) = d_mask (f_d1 c') -> d_exotic (f_d1 c) = d_exotic (f_d1 c') -> d_refs (f_d1 c) = d_refs (f_d1 c') ->
  f_d2 c = f_d2 c' -> f_data c = f_data c' -> c_bits (tree_of c) = c_bits (tree_of c').
Proof.
  intros F F' _ _ _. destruct F as [d1 bits refs hashes F H4 Hb Hd Hr Hst HC], F' as [d1' bits' refs' hashes' F' H4' Hb' Hd' Hr' Hst' HC'].
  cbn [tree_of f_d2 f_data c_bits]. rewrite !Nat2N.id, !data_bits_take. rewrite !compute_d2_val by assumption.
  intros E D. apply Nat2N.inj in E. apply data_bytes_inj2; assumption.
Qed.
End Sha.
Print Assumptions C10_descriptor.
Print Assumptions C10_determined.

(** Distinct shapes have distinct bytes. *)
Theorem C10_injective m e n k m' e' n' k' :
  (m < 8)%N -> (n <= 4)%N -> k <= 1023 -> (m' < 8)%N -> (n' <= 4)%N -> k' <= 1023 ->
  compute_d1 m e n = compute_d1 m' e' n' -> compute_d2 (N.of_nat k) = compute_d2 (N.of_nat k') ->
  m = m' /\ e = e' /\ n = n' /\ (k + 7) / 8 = (k' + 7) / 8 /\ (k mod 8 = 0 <-> k' mod 8 = 0).
Proof.
  intros Hm Hn Hk Hm' Hn' Hk' E1 E2.
  destruct (d1_fields m e n Hm ltac:(lia)) as (A1 & A2 & A3 & _ & _).
  destruct (d1_fields m' e' n' Hm' ltac:(lia)) as (B1 & B2 & B3 & _ & _).
  destruct (d2_fields k Hk) as (C1 & C2 & _). destruct (d2_fields k' Hk') as (D1 & D2 & _).
  rewrite E1 in *. rewrite E2 in *.
  split; [congruence|]. split; [congruence|]. split; [congruence|]. split; [lia|].
  rewrite C1 in D1. destruct (Nat.eqb_spec (k mod 8) 0), (Nat.eqb_spec (k' mod 8) 0); try discriminate; lia.
Qed.
Print Assumptions C10_injective.

Example C10_case :
  is_fin ex_pruned /\ d_type (f_d1 ex_pruned) = PrunedBranch /\ d_mask (f_d1 ex_pruned) = 5%N /\
  f_d1 ex_leaf = 0%N /\ f_d2 ex_leaf = 3%N /\ f_data ex_leaf = [0xab; 0xd0]%N.
Proof. split; [exact ex_pruned_fin|]. vm_compute. repeat split. Qed.

(** ** C11: level masks *)
(** The levels of a mask: level 0, and level [i+1] for each bit [i]. *)
Definition significant (m : N) (l : nat) : Prop := l = 0 \/ N.testbit m (N.of_nat (l - 1)) = true.

Theorem C11_contains m l : (m < 8)%N -> lm_contains m (N.of_nat l) = true <-> significant m l.
Proof.
  intros Hm. unfold significant. destruct l as [|l]; [cbn; tauto|].
  rewrite contains_of by exact Hm. replace (S l - 1) with l by lia. split; [auto|]. intros [H|H]; [lia|exact H].
Qed.
Print Assumptions C11_contains.

(** The index of the hash for a level counts the significant non-zero levels not above it. *)
Theorem C11_hash_index m (l : nat) : (m < 8)%N ->
  lm_hash_index m (N.of_nat l) = N.of_nat (length (List.filter (fun x => N.testbit m (N.of_nat (x - 1))) (seq 1 l))).
Proof.
  intros Hm. rewrite hash_index_of by exact Hm. f_equal.
  induction l as [|l IH]; [reflexivity|]. rewrite bits_in_S, seq_S, List.filter_app, app_length, IH. f_equal.
  cbn [List.filter plus]. replace (S l - 1) with l by lia. destruct (N.testbit _ _); reflexivity.
Qed.
Print Assumptions C11_hash_index.

(** Iteration enumerates the significant levels in increasing order. *)
Theorem C11_iter m : (m < 8)%N ->
  (forall l : nat, In (N.of_nat l) (lm_levels m) <-> significant m l) /\
  (forall i j x y, lm_levels m !! i = Some x -> lm_levels m !! j = Some y -> i < j -> (x < y)%N) /\
  N.of_nat (length (lm_levels m)) = (lm_level m + 1)%N.
Proof.
  intros Hm. split; [|split].
  - intros l. unfold significant. destruct (le_lt_dec 4 l) as [H|H].
    + rewrite mask_high by (assumption || lia). split; [|intros [?|?]; [lia|discriminate]].
      intros I. exfalso.
      assert (Q : Forall (fun x => (x <= 3)%N) (lm_levels m)).
      { apply List.Forall_forall. intros x. pattern m. apply (mask8 _ m Hm); vm_compute lm_levels; cbn; intros; destruct_or?; subst; try lia; contradiction. }
      pose proof (proj1 (List.Forall_forall _ _) Q _ I). cbn beta in *. lia.
    + destruct l as [|[|[|[|]]]]; try lia; pattern m; apply (mask8 _ m Hm); vm_compute lm_levels; vm_compute N.testbit; cbn; intuition (lia || discriminate || auto).
  - pattern m; apply (mask8 _ m Hm); vm_compute lm_levels; intros i j x y Hi Hj L;
      (destruct i as [|[|[|[|]]]]; try discriminate; destruct j as [|[|[|[|]]]]; try discriminate; try lia; injection Hi as <-; injection Hj as <-; lia).
  - pattern m; apply (mask8 _ m Hm); reflexivity.
Qed.
Print Assumptions C11_iter.

(** Virtualization drops the lowest levels, and composes. *)
Theorem C11_virtualize m a b (l : nat) :
  lm_virtualize (lm_virtualize m a) b = lm_virtualize m (a + b) /\
  N.testbit (lm_virtualize m a) (N.of_nat l) = N.testbit m (N.of_nat l + a) /\ ((m < 8)%N -> (lm_virtualize m a < 8)%N).
Proof.
  unfold lm_virtualize. split; [apply N.shiftr_shiftr|]. split; [apply N.shiftr_spec; lia|].
  intros H. rewrite N.shiftr_div_pow2. apply N.le_lt_trans with m; [|exact H]. apply N.div_le_upper_bound; [apply N.pow_nonzero; discriminate|].
  pose proof (N.pow_nonzero 2 a ltac:(discriminate)). nia.
Qed.
Print Assumptions C11_virtualize.

(** A level that is not in the mask of a cell has the hash and depth of the level below. *)
Theorem C11_insignificant sha c (l : nat) : sha_like sha -> finalized sha c -> ~ significant (f_mask c) (S l) ->
  f_hash c (N.of_nat (S l)) = f_hash c (N.of_nat l) /\ f_depth c (N.of_nat (S l)) = f_depth c (N.of_nat l).
Proof.
  intros Hsha F NS. destruct (finalized_agrees sha Hsha c F) as (V & A & _).
  pose proof (info_regular sha (proj1 Hsha) _ V) as RG.
  assert (B : N.testbit (i_mask (info_of sha (tree_of c))) (N.of_nat l) = false).
  { rewrite <- (ag_mask _ _ A). apply not_true_iff_false. intros E. apply NS. right. replace (S l - 1) with l by lia. exact E. }
  rewrite !(ag_hash _ _ A), !(ag_depth _ _ A), (rg_hash _ RG l B), (rg_depth _ RG l B). auto.
Qed.
Print Assumptions C11_insignificant.

Example C11_case : lm_levels 5 = [0; 1; 3]%N /\ lm_hash_index 5 2 = 1%N /\ lm_hash_index 5 3 = 2%N /\ lm_virtualize 5 1 = 2%N.
Proof. vm_compute. repeat split. Qed.

Section Sha2.
Context (sha : list N -> list N) (Hsha : sha_like sha).

(** ** C12: hashes *)
(** At every level, hash and depth are those of the tree; no access is out of bounds. *)
Theorem C12_hash_of_tree c : finalized sha c ->
  valid_tree (tree_of c) /\ f_mask c = i_mask (info_of sha (tree_of c)) /\
  (forall l : nat, f_hash c (N.of_nat l) = Ok (i_hash (info_of sha (tree_of c)) l) /\
                   f_depth c (N.of_nat l) = Ok (i_depth (info_of sha (tree_of c)) l)) /\
  f_repr_hash c = Ok (t_hash sha (tree_of c)) /\ f_repr_depth c = Ok (t_depth sha (tree_of c)).
Proof.
  intros F. destruct (finalized_agrees sha Hsha c F) as (V & A & _).
  split; [exact V|]. split; [apply (ag_mask _ _ A)|]. split.
  - intros l. split; [apply (ag_hash _ _ A)|apply (ag_depth _ _ A)].
  - split; [apply (ag_hash _ _ A 3)|apply (ag_depth _ _ A 3)].
Qed.

(** The same tree has the same mask, hashes and depths, however it was made. *)
Theorem C12_deterministic c c' : finalized sha c -> finalized sha c' -> tree_of c = tree_of c' ->
  f_mask c = f_mask c' /\ (forall l : nat, f_hash c (N.of_nat l) = f_hash c' (N.of_nat l) /\ f_depth c (N.of_nat l) = f_depth c' (N.of_nat l)).
Proof.
  intros F F' E. destruct (C12_hash_of_tree c F) as (_ & M & H & _). destruct (C12_hash_of_tree c' F') as (_ & M' & H' & _).
  rewrite M, M', E. split; [reflexivity|]. intros l. destruct (H l) as (-> & ->), (H' l) as (-> & ->). rewrite E. auto.
Qed.

(** The same representation hash means the same tree, or two different strings among those
    hashed for the two trees have the same hash. *)
Theorem C12_identifies c c' : finalized sha c -> finalized sha c' -> f_repr_hash c = f_repr_hash c' ->
  tree_of c = tree_of c' \/
  exists x y, In x (hashed sha (tree_of c)) /\ In y (hashed sha (tree_of c')) /\ x <> y /\ sha x = sha y.
Proof.
  intros F F' E. destruct (C12_hash_of_tree c F) as (V & _ & _ & H & _). destruct (C12_hash_of_tree c' F') as (V' & _ & _ & H' & _).
  rewrite H, H' in E. injection E as E. apply (hash_inj sha (proj1 Hsha)); assumption.
Qed.

(** ** C13: depths *)
(** Zero without references, otherwise one more than the deepest child at the same level
    (one level up inside Merkle cells); pruned branches report what they store. *)
Theorem C13_depth c : finalized sha c -> d_type (f_d1 c) <> PrunedBranch -> forall l : nat,
  exists ds, mapM (fun x => match f_depth x (N.of_nat (l + (if is_merkle (d_type (f_d1 c)) then 1 else 0))) with Ok d => Some d | Err _ => None end) (f_refs c) = Some ds /\
             f_depth c (N.of_nat l) = Ok (fold_right N.max 0 (map (fun d => d + 1) ds))%N.
Proof.
  intros F NP l. destruct (finalized_agrees sha Hsha c F) as (V & A & _).
  rewrite (ag_depth _ _ A l). inversion F as [d1 bits refs hashes FR H4 Hb Hd Hr Hst HC]; subst. cbn [f_d1 f_refs tree_of info_of] in *.
  rewrite Nat2N.id, data_bits_take in *.
  inversion V as [? ? ? V1 V2 V3 V4]; subst. rewrite map_length in V3.
  assert (M : d_mask d1 = cell_mask (kind_of (d_exotic d1) bits) (map (info_of sha) (map tree_of refs))).
  { pose proof (ag_mask _ _ A) as M. unfold f_mask, cell_info in M. cbn [f_d1] in M. rewrite M. destruct (kind_of (d_exotic d1) bits); reflexivity. }
  pose proof (d_type_of d1 bits (length refs) _ _ Hd Hr V3 M) as DT. rewrite DT in *.
  set (k := kind_of (d_exotic d1) bits) in *.
  exists (sub_depths (map (info_of sha) (map tree_of refs)) (l + k_merkle k)). split.
  - replace (if is_merkle (ty_of k) then 1 else 0) with (k_merkle k) by (destruct k; reflexivity).
    destruct (refs_agree sha Hsha refs FR) as (AR & _ & _). rewrite map_map in *. unfold sub_depths. rewrite map_map.
    clear - AR. induction refs as [|x refs IH]; [reflexivity|]. inversion AR as [|? ? ? ? A1 A2]; subst. cbn [mapM map]. rewrite (ag_depth _ _ A1). rewrite (IH A2). reflexivity.
  - unfold cell_info. fold k. destruct k as [|m| | |]; try reflexivity. destruct (NP eq_refl).
Qed.

(** Without pruned branches the depth is the height of the tree, at every level. *)
Theorem C13_height c : finalized sha c -> complete (tree_of c) -> forall l : nat,
  f_depth c (N.of_nat l) = Ok (height (tree_of c)) /\ (height (tree_of c) <= 65535)%N.
Proof.
  intros F C l. destruct (finalized_agrees sha Hsha c F) as (V & A & D).
  rewrite (ag_depth _ _ A l), (complete_depth sha _ l C V). split; [reflexivity|].
  rewrite <- (complete_depth sha _ l C V). apply D.
Qed.

(** Building a tree that is too high fails with [DepthOverflow], and nothing else does. *)
Theorem C13_overflow exotic b bits refs :
  holds_bits b bits -> Forall (finalized sha) refs -> length refs <= 4 ->
  let t := Cell exotic bits (map tree_of refs) in
  complete t -> valid_tree t ->
  (build_ext sha exotic b refs = Err DepthOverflow <-> (65535 < height t)%N).
Proof.
  intros Hb F H4 t C V. assert (D : too_deep sha t <-> (65535 < height t)%N).
  { unfold too_deep. split; [intros (l & H)|intros H; exists 0]; rewrite (complete_depth sha _ _ C V) in *; exact H. }
  rewrite <- D. destruct (build_spec sha Hsha exotic b bits refs Hb F H4) as [(_ & ND & c & E & _)|[(_ & TD & E)|(NV & E)]]; rewrite E.
  - split; [discriminate|contradiction].
  - tauto.
  - contradiction.
Qed.

(** ** C14: what can be built *)
(** Building succeeds exactly for trees whose cells have a layout and whose depths fit, and
    the cell that is built is that tree; other contents are [InvalidCell]. *)
Theorem C14_build exotic b bits refs :
  holds_bits b bits -> Forall (finalized sha) refs -> length refs <= 4 ->
  let t := Cell exotic bits (map tree_of refs) in
  (exists c, build_ext sha exotic b refs = Ok c /\ finalized sha c /\ tree_of c = t /\
             layout exotic bits (length refs) (kind_of exotic bits) /\
             f_mask c = cell_mask (kind_of exotic bits) (map (info_of sha) (map tree_of refs)) /\
             forall l, (i_depth (info_of sha t) l <= 65535)%N) \/
  (build_ext sha exotic b refs = Err DepthOverflow /\ layout exotic bits (length refs) (kind_of exotic bits) /\
             exists l, (65535 < i_depth (info_of sha t) l)%N) \/
  (build_ext sha exotic b refs = Err InvalidCell /\ forall k, ~ layout exotic bits (length refs) k).
Proof.
  intros Hb F H4. cbn zeta.
  destruct (build_spec sha Hsha exotic b bits refs Hb F H4) as [(V & ND & c & E & Fc & T & _)|[(V & TD & E)|(NV & E)]].
  - left. exists c. destruct (finalized_agrees sha Hsha c Fc) as (_ & A & D). rewrite T in A, D.
    inversion V as [? ? ? V1 V2 V3 V4]; subst. rewrite map_length in V3.
    split; [exact E|]. split; [exact Fc|]. split; [exact T|]. split; [exact V3|]. split; [|exact D].
    rewrite (ag_mask _ _ A). cbn [info_of]. unfold cell_info. destruct (kind_of exotic bits); reflexivity.
  - right; left. inversion V as [? ? ? V1 V2 V3 V4]; subst. rewrite map_length in V3. split; [exact E|]. split; [exact V3|exact TD].
  - right; right. split; [exact E|]. intros k L. apply NV.
    assert (K : k = kind_of exotic bits).
    { destruct exotic; [|destruct k as [|m| | |]; cbn [layout] in L; destruct_and?; try discriminate; reflexivity].
      rewrite kind_of_exotic. cbn zeta. destruct k as [|m| | |]; cbn [layout] in L; destruct_and?; try discriminate;
      match goal with H : byte_at 0 bits = _ |- _ => rewrite H end; try reflexivity. change (1 =? 1)%N with true. cbv iota. congruence. }
    pose proof Hb as (L128 & Hok & Hbl & E').
    constructor; rewrite ?map_length; [|exact H4|rewrite <- K; exact L|apply (refs_agree sha Hsha refs F)].
    rewrite <- E'. unfold data_bits. rewrite take_length. lia.
Qed.

(** The reported type is the one of the layout. *)
Theorem C14_type c : finalized sha c -> d_type (f_d1 c) = ty_of (kind_of (c_exotic (tree_of c)) (c_bits (tree_of c))).
Proof.
  intros F. destruct (finalized_agrees sha Hsha c F) as (V & A & _).
  inversion F as [d1 bits refs hashes FR H4 Hb Hd Hr Hst HC]; subst. cbn [f_d1 f_refs tree_of info_of c_exotic c_bits] in *.
  rewrite Nat2N.id, data_bits_take in *.
  inversion V as [? ? ? V1 V2 V3 V4]; subst. rewrite map_length in V3.
  apply (d_type_of d1 bits (length refs) _ (map (info_of sha) (map tree_of refs)) Hd Hr V3).
  pose proof (ag_mask _ _ A) as M. unfold f_mask, cell_info in M. cbn [f_d1] in M. rewrite M. destruct (kind_of (d_exotic d1) bits); reflexivity.
Qed.
End Sha2.
Print Assumptions C12_hash_of_tree.
Print Assumptions C12_deterministic.
Print Assumptions C12_identifies.
Print Assumptions C13_depth.
Print Assumptions C13_height.
Print Assumptions C13_overflow.
Print Assumptions C14_build.
Print Assumptions C14_type.

Example C12_case :
  is_fin ex_proof /\ f_mask ex_proof = 2%N /\ length (hashed sha256 (tree_of ex_proof)) = 7 /\
  f_hash ex_proof 0 <> f_hash ex_proof 2 /\ f_hash ex_parent 3 <> f_hash ex_parent 1.
Proof. split; [exact ex_proof_fin|]. vm_compute. repeat split; discriminate. Qed.
Example C13_case :
  is_fin ex_node /\ f_repr_depth ex_node = Ok 1%N /\ f_depth ex_proof 0 = Ok 11%N /\ f_depth ex_proof 3 = Ok 2%N.
Proof. split; [exact ex_node_fin|]. vm_compute. repeat split. Qed.
Example C14_case :
  build_ext sha256 true (bld_of ([3]%N ++ repeat 9%N 34) 280) [] = Err InvalidCell /\
  build_ext sha256 true (bld_of [2; 0]%N 16) [] = Err InvalidCell /\
  build_ext sha256 true (bld_of ([1; 5]%N ++ repeat 7%N 64 ++ [0; 2; 255; 255]%N) 560) [] <> Err InvalidCell /\
  (let deep := unwrap (build_ext sha256 true (bld_of ([1; 1]%N ++ repeat 7%N 32 ++ [255; 255]%N) 288) []) in
   build_ext sha256 false (bld_of [] 0) [deep] = Err DepthOverflow).
Proof. vm_compute. repeat split; discriminate. Qed.

(** The constant cells: cell_impl/mod.rs:187-226. *)
Theorem C12_constant_cells :
  t_hash sha256 (Cell false [] []) = EMPTY_CELL_HASH /\
  from_be (t_hash sha256 (Cell false (zeros 1023) [])) = 0xba038d924da0b42c447662e6b8a53f15889ebdf9d3b2f01dbf942c29bc489871%N /\
  from_be (t_hash sha256 (Cell false (repeat true 1023) [])) = 0x82970d4664b7683c3d14d49b1f9ff34966128170301a7becc27af1adbe6a31c9%N.
Proof. vm_compute. repeat split. Qed.
Print Assumptions C12_constant_cells.
