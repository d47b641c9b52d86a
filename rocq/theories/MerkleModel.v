(** * Pruned branches, virtual cells and Merkle proofs.

    src/merkle/pruned_branch.rs, src/merkle/proof.rs, src/cell/cell_impl/mod.rs:619-820.
    SHA-256 is a parameter.  Hash maps and sets keyed by hashes are finite maps and sets. *)
From stdpp Require Export gmap.
From Verif Require Import Err BuilderModel CellBuilderModel SliceModel HashModel.
Local Open Scope N_scope.

(** Items of a loop that may fail. *)
Fixpoint mapR {A B} (f : A -> res B) (l : list A) : res (list B) :=
  match l with
  | [] => Ok []
  | x :: l' => let? y := f x in let? ys := mapR f l' in Ok (y :: ys)
  end.

(** mod.rs:1190-1192 [CellDescriptor::is_pruned_branch] *)
Definition d_is_pruned (d1 : N) : bool := d_exotic d1 && (d_refs d1 =? 0) && negb (d_mask d1 =? 0).
(** mod.rs:1202-1204 [CellDescriptor::is_merkle] *)
Definition d_is_merkle (d1 : N) : bool := d_exotic d1 && negb (d_refs d1 =? 0).

(** ** Virtual cells: cell_impl/mod.rs:619-820, sync.rs:132-139
    A handle is a plain cell, a [VirtualCell<Cell>] over another handle, or a
    [VirtualCellWrapper<T, L>] over a plain cell. *)
Inductive handle := Plain (c : fcell) | Virt (h : handle) | Wrap (level : N) (c : fcell).

(** 633-635, 710-712 [descriptor] *)
Fixpoint h_d1 (h : handle) : N :=
  match h with Plain c | Wrap _ c => f_d1 c | Virt h' => h_d1 h' end.
(** 637-639, 714-716 [data], 641-643, 718-720 [bit_len] *)
Fixpoint h_data (h : handle) : list N * N :=
  match h with Plain c | Wrap _ c => (f_data c, f_bit_len c) | Virt h' => h_data h' end.
(** 811-816 [virtual_hash_index] *)
Definition virtual_hash_index (d1 level offset : N) : N := lm_hash_index (lm_virtualize (d_mask d1) (1 + offset)) level.
(** 657-660, 734-737 [hash] *)
Fixpoint h_hash (h : handle) (level : N) : res (list N) :=
  match h with
  | Plain c => f_hash c level
  | Virt h' => h_hash h' (virtual_hash_index (h_d1 h') level 0)
  | Wrap l c => f_hash c (virtual_hash_index (f_d1 c) level l)
  end.
(** 662-665, 739-742 [depth] *)
Fixpoint h_depth (h : handle) (level : N) : res N :=
  match h with
  | Plain c => f_depth c level
  | Virt h' => h_depth h' (virtual_hash_index (h_d1 h') level 0)
  | Wrap l c => f_depth c (virtual_hash_index (f_d1 c) level l)
  end.
(** [virtualize] of a reference: 69, 156, 421-427, 491, 568 for plain cells, 653-655
    [VirtualCell], 730-732 and 772-809 [VirtualCellWrapper]. *)
Fixpoint h_virtualize (h : handle) : handle :=
  match h with
  | Plain c =>
    match d_type (f_d1 c) with
    | PrunedBranch => Wrap 0 c
    | LibraryReference => Plain c
    | _ => if f_mask c =? 0 then Plain c else Wrap 0 c
    end
  | Virt h' => h_virtualize h'
  | Wrap l c => Wrap (if l =? 0 then 1 else 2) c
  end.
(** sync.rs:132-139 [Cell::virtualize] *)
Definition c_virtualize (h : handle) : handle := if d_mask (h_d1 h) =? 0 then h else Virt h.
(** 645-647, 722-724, 763-765 [reference] *)
Fixpoint h_ref (h : handle) (i : nat) : option handle :=
  match h with
  | Plain c => Plain <$> f_refs c !! i
  | Virt h' => h_virtualize <$> h_ref h' i
  | Wrap _ c => (fun x => h_virtualize (Plain x)) <$> f_refs c !! i
  end.
(** 649-651, 726-728, 768-770 [reference_cloned] *)
Fixpoint h_ref_cloned (h : handle) (i : nat) : option handle :=
  match h with
  | Plain c => Plain <$> f_refs c !! i
  | Virt h' => c_virtualize <$> h_ref_cloned h' i
  | Wrap _ c => (fun x => c_virtualize (Plain x)) <$> f_refs c !! i
  end.

Section Sha.
Context (sha : list N -> list N).

(** [CellBuilder::build_ext] on a builder with references. *)
Definition build_cb (b : cb fcell) : res fcell := build_ext sha (cb_exotic b) (cbd b) (cb_refs b).

(** ** Pruned branches: pruned_branch.rs:5-37 [make_pruned_branch]
    [1 << merkle_depth] is a shift of [u8]; from 8 on it panics or wraps. *)
Definition make_pruned (h : handle) (merkle_depth : N) : res fcell :=
  let m := d_mask (h_d1 h) in
  if 8 <=? merkle_depth then Err Panic
  else
    let new_level := shl 8 1 merkle_depth in
    let mask := lm_new (N.lor m new_level) in
    let levels := lm_levels (lm_new (N.land m (new_level - 1))) in
    let? hs := mapR (h_hash h) levels in
    let? ds := mapR (h_depth h) levels in
    build_cb (snd (run_ops (B_u16 (from_be [type_byte PrunedBranch; mask]) :: map B_u256 hs ++ map B_u16 ds) (set_exotic true cb_new))).

(** ** Merkle proofs *)
(** merkle/mod.rs:38-46 [FilterAction] *)
Inductive action := Skip | Include | IncludeSubtree.

(** proof.rs:832 *)
Definition PRUNED_BITS_THRESHOLD : N := 288.

(** proof.rs:528-540, 548: a cell with the data of [c] and other references;
    [CellRefsBuilder] takes at most four. *)
Definition push_ref (l : list fcell) (c : fcell) : list fcell := if (length l <? 4)%nat then l ++ [c] else l.
Definition rebuild (c : fcell) (children : list fcell) : res fcell :=
  build_cb (set_references children (snd (run_op (B_cell_data (mkCV (f_data c) (f_bit_len c) (f_refs c) (d_exotic (f_d1 c)))) (set_exotic (d_exotic (f_d1 c)) cb_new)))).

(** The processed cells and the hashes of the cells that were pruned. *)
Definition pstate : Type := gmap (list N) fcell * gset (list N).

Section Filter.
Context (check : list N -> action) (prune_big : bool).

(** proof.rs:456-562 [BuilderImpl::build], the loop: the explicit stack of nodes is the
    recursion; [md] is the [merkle_depth] of the node ([u8]; its increment panics or wraps
    from 256 on). *)
Fixpoint build_node (c : fcell) (md : N) (st : pstate) {struct c} : res (fcell * pstate) :=
  let '(FCell d1 d2 bit_len data refs hashes) := c in
  (fix go (rs : list fcell) (children : list fcell) (st : pstate) {struct rs} : res (fcell * pstate) :=
     match rs with
     | [] =>
       let? p := rebuild (FCell d1 d2 bit_len data refs hashes) children in
       let? h := f_repr_hash (FCell d1 d2 bit_len data refs hashes) in
       Ok (p, (<[h := p]> (fst st), snd st))
     | child :: rs' =>
       let? h := f_repr_hash child in
       match fst st !! h with
       | Some p => go rs' (push_ref children p) st
       | None =>
         let prune := (0 <? d_refs (f_d1 child)) || (prune_big && (PRUNED_BITS_THRESHOLD <? f_bit_len child)) in
         let descend :=
           let md' := md + (if d_is_merkle (f_d1 child) then 1 else 0) in
           if 256 <=? md' then Err Panic
           else let? (p, st') := build_node child md' st in go rs' (push_ref children p) st' in
         match check h with
         | IncludeSubtree => go rs' (push_ref children child) st
         | Skip =>
           if prune then
             let? p := make_pruned (Plain child) md in
             go rs' (push_ref children p) (fst st, {[h]} ∪ snd st)
           else descend
         | Include => descend
         end
       end
     end) refs [] st.

(** proof.rs:466-483: the check of the root, and the root node. *)
Definition build_raw_ext (allow_different_root : bool) (root : fcell) : res (fcell * gset (list N)) :=
  let? h := f_repr_hash root in
  if negb allow_different_root && (match check h with Skip => true | _ => false end) then Err EmptyProof
  else
    let? (p, st) := build_node root (if d_is_merkle (f_d1 root) then 1 else 0) (∅, ∅) in
    Ok (p, snd st).

(** proof.rs:85-91 [MerkleProof] *)
Record merkle_proof := MProof { mp_hash : list N; mp_depth : N; mp_cell : fcell }.
(** proof.rs:277-286 [MerkleProofBuilder::build_ext] *)
Definition build_proof (allow_different_root : bool) (root : fcell) : res merkle_proof :=
  let? (cell, _) := build_raw_ext allow_different_root root in
  let? h := f_repr_hash root in
  let? d := f_repr_depth root in
  Ok (MProof h d cell).
End Filter.

(** proof.rs:148-161 [Store for MerkleProof], into a new builder that is then finalized. *)
Definition proof_cell (p : merkle_proof) : res fcell :=
  build_cb (snd (run_ops [B_u8 (type_byte MerkleProof); B_u256 (mp_hash p); B_u16 (mp_depth p); B_ref (mp_cell p)] (set_exotic true cb_new))).
(** proof.rs:117-146 [LoadCell for MerkleProof]; the reads start at bit 0 of the cell, so
    they are reads of whole bytes. *)
Definition load_proof (c : fcell) : res merkle_proof :=
  if negb (d_exotic (f_d1 c)) then Err UnexpectedOrdinaryCell
  else if negb (f_bit_len c =? 280) || negb (N.of_nat (length (f_refs c)) =? 1) then Err CellUnderflow
  else
    let? tag := of_opt CellUnderflow (rd (f_data c) 0) in
    if negb (tag =? type_byte MerkleProof) then Err InvalidCell
    else
      let? hash := of_opt CellUnderflow (rdn (f_data c) 1 32) in
      let? depth := of_opt CellUnderflow (rdn (f_data c) 33 2) in
      let? cell := of_opt CellUnderflow (f_refs c !! 0%nat) in
      let? h0 := f_hash cell 0 in
      let? d0 := f_depth cell 0 in
      if bool_decide (h0 = hash) && (d0 =? from_be depth) then Ok (MProof hash (from_be depth) cell)
      else Err InvalidCell.

(** proof.rs:201-236 [create_for_cell]: the search for the first occurrence below the root;
    the cells on the stack when it is found.  The stack is the recursion. *)
Fixpoint find_path (target : list N) (c : fcell) : res (option (list fcell)) :=
  let '(FCell d1 d2 bit_len data refs hashes) := c in
  (fix go (rs : list fcell) : res (option (list fcell)) :=
     match rs with
     | [] => Ok None
     | child :: rs' =>
       let? h := f_repr_hash child in
       if bool_decide (h = target) then Ok (Some [FCell d1 d2 bit_len data refs hashes])
       else
         let? found := find_path target child in
         match found with
         | Some path => Ok (Some (FCell d1 d2 bit_len data refs hashes :: path))
         | None => go rs'
         end
     end) refs.
(** proof.rs:209-219 [RootOrChild], 238-244: the filter of the proof. *)
Definition path_filter (target : list N) (cells : list (list N)) (h : list N) : action :=
  if bool_decide (h ∈ cells) || bool_decide (h = target) then Include else Skip.
Definition proof_for_cell (target : list N) (root : fcell) : res merkle_proof :=
  let? found := find_path target root in
  let? cells := mapR f_repr_hash (default [] found) in
  build_proof (path_filter target cells) false false root.
End Sha.
