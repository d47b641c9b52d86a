(** * Merkle updates: src/merkle/update.rs

    Hash maps and sets keyed by hashes are finite maps and sets; explicit stacks are
    recursions over the references.  The parallel builder ([rayon]) is not modelled. *)
From stdpp Require Export gmap.
From Verif Require Import Err BuilderModel CellBuilderModel SliceModel HashModel MerkleModel.
Local Open Scope N_scope.

(** update.rs:9-28 [MerkleUpdate] *)
Record merkle_update := MUpdate { mu_old_hash : list N; mu_new_hash : list N; mu_old_depth : N; mu_new_depth : N; mu_old : fcell; mu_new : fcell }.

(** The shape of the four traversals that mark cells as visited by their representation
    hash (227-258, 295-331, 380-407, 420-447): an unvisited child is entered, which may fail,
    change the state [s] and ask to go on with its references.  [md] is the Merkle depth of
    the references of [c]; [merkle_depth] is a [u8], its increment panics or wraps from 256 on. *)
Section Walk.
Context {S : Type} (enter : fcell -> N -> S -> res (S * bool)).
Fixpoint walk (c : fcell) (md : N) (st : gset (list N) * S) {struct c} : res (gset (list N) * S) :=
  let '(FCell d1 d2 bit_len data refs hashes) := c in
  (fix go (rs : list fcell) (st : gset (list N) * S) {struct rs} : res (gset (list N) * S) :=
     match rs with
     | [] => Ok st
     | child :: rs' =>
       let? h := f_repr_hash child in
       if bool_decide (h ∈ fst st) then go rs' st
       else
         let? (s, deep) := enter child md (snd st) in
         let st' := ({[h]} ∪ fst st, s) in
         if deep then
           let md' := md + (if d_is_merkle (f_d1 child) then 1 else 0) in
           if 256 <=? md' then Err Panic
           else let? st'' := walk child md' st' in go rs' st''
         else go rs' st'
     end) refs st.
End Walk.
Definition merkle_inc (c : fcell) : N := if d_is_merkle (f_d1 c) then 1 else 0.

(** 382-396: a cell of [self.old] *)
Definition enter_old (c : fcell) (md : N) (s : gset (list N)) : res (gset (list N) * bool) :=
  let? h := f_hash c md in Ok ({[h]} ∪ s, negb (d_is_pruned (f_d1 c))).
(** 422-441: a cell of [self.new] *)
Definition enter_new (old_cells : gset (list N)) (c : fcell) (md : N) (s : unit) : res (unit * bool) :=
  if d_is_pruned (f_d1 c) then
    if lm_level (d_mask (f_d1 c)) =? md + 1 then
      let? h := f_hash c md in if bool_decide (h ∈ old_cells) then Ok (s, false) else Err InvalidData
    else Ok (s, false)
  else Ok (s, true).
(** 368-456 [find_old_cells] *)
Definition find_old_cells (u : merkle_update) : res (gset (list N)) :=
  let? r := f_repr_hash (mu_old u) in
  let? h := f_hash (mu_old u) 0 in
  let? (_, old_cells) := walk enter_old (mu_old u) (merkle_inc (mu_old u)) ({[r]}, {[h]}) in
  let? r' := f_repr_hash (mu_new u) in
  let? _ := walk (enter_new old_cells) (mu_new u) (merkle_inc (mu_new u)) ({[r']}, tt) in
  Ok old_cells.
(** 230-247: a cell of the original tree *)
Definition enter_original (hashes : gset (list N)) (c : fcell) (md : N) (s : gmap (list N) fcell) : res (gmap (list N) fcell * bool) :=
  let? h := f_hash c md in
  if bool_decide (h ∈ hashes) then Ok (<[h := c]> s, true) else Ok (s, false).
(** 212-259: the cells of the original tree that are in the old tree of the update *)
Definition collect_old (u : merkle_update) (old : fcell) : res (gmap (list N) fcell) :=
  let? hashes := find_old_cells u in
  let? r := f_repr_hash old in
  let? h := f_hash old 0 in
  let? (_, m) := walk (enter_original hashes) old (merkle_inc old) ({[r]}, {[h := old]}) in
  Ok m.

Section Sha.
Context (sha : list N -> list N).

(** 166-209 [Applier::run].  Data and references of the new cell are stored in the other order
    here, which makes no difference for a new builder. *)
Section Applier.
Context (old_cells : gmap (list N) fcell).
Fixpoint run (c : fcell) (md : N) (new_cells : gmap (list N) fcell) {struct c} : res (fcell * gmap (list N) fcell) :=
  let '(FCell d1 d2 bit_len data refs hashes) := c in
  let child_md := md + (if d_is_merkle d1 then 1 else 0) in
  if 8 <=? child_md then Err Panic
  else
  (fix go (rs : list fcell) (children : list fcell) (new_cells : gmap (list N) fcell) {struct rs} : res (fcell * gmap (list N) fcell) :=
     match rs with
     | [] => let? p := rebuild sha (FCell d1 d2 bit_len data refs hashes) children in Ok (p, new_cells)
     | child :: rs' =>
       if d_is_pruned (f_d1 child) then
         let mask := d_mask (f_d1 child) in
         if negb (N.land mask (shl 8 1 child_md) =? 0) then
           let? h := f_hash child (lm_level mask - 1) in
           match old_cells !! h with
           | Some cell => go rs' (push_ref children cell) new_cells
           | None => Err InvalidData
           end
         else go rs' (push_ref children child) new_cells
       else
         let? h := f_hash child child_md in
         match new_cells !! h with
         | Some cell => go rs' (push_ref children cell) new_cells
         | None => let? (p, new_cells') := run child child_md new_cells in go rs' (push_ref children p) (<[h := p]> new_cells')
         end
     end) refs [] new_cells.
End Applier.

(** 149-274 [apply_ext] with an empty cell context *)
Definition apply_update (u : merkle_update) (old : fcell) : res fcell :=
  let? h := f_repr_hash old in
  if negb (bool_decide (h = mu_old_hash u)) then Err InvalidData
  else if bool_decide (mu_old_hash u = mu_new_hash u) then Ok old
  else
    let? old_cells := collect_old u old in
    let? (new, _) := run old_cells (mu_new u) 0 ∅ in
    let? h' := f_repr_hash new in
    if bool_decide (h' = mu_new_hash u) then Ok new else Err InvalidData.

(** ** Building *)
Section Build.
Context (check : list N -> action).

(** 543-580 [Resolver::fill]: the results of visited cells, the changed cells. *)
Section Fill.
Context (pruned : gset (list N)).
Definition fstate : Type := gmap (list N) bool * gset (list N).
Fixpoint fill (c : fcell) (skip_filter : bool) (st : fstate) {struct c} : res (bool * fstate) :=
  let '(FCell d1 d2 bit_len data refs hashes) := c in
  let? h := f_repr_hash (FCell d1 d2 bit_len data refs hashes) in
  match fst st !! h with
  | Some r => Ok (r, st)
  | None =>
    let is_pruned := bool_decide (h ∈ pruned) in
    let '(process_children, skip') :=
      if skip_filter then (true, true)
      else match check h with Skip => (false, false) | Include => (true, false) | IncludeSubtree => (true, true) end in
    let? (r, st') :=
      (if process_children then
         (fix go (rs : list fcell) (acc : bool) (st : fstate) {struct rs} : res (bool * fstate) :=
            match rs with
            | [] => Ok (acc, st)
            | child :: rs' => let? (r, st') := fill child skip' st in go rs' (acc || r) st'
            end) refs false st
       else Ok (false, st)) in
    let changed := if r then {[h]} ∪ snd st' else snd st' in
    let r' := r || is_pruned in
    Ok (r', (<[h := r']> (fst st'), changed))
  end.
End Fill.

(** 583-596 [InvertedFilter] *)
Definition inverted (h : list N) : action := match check h with Skip => Include | _ => Skip end.
(** merkle/mod.rs:86-94: a set of hashes as a filter *)
Definition set_filter (s : gset (list N)) (h : list N) : action := if bool_decide (h ∈ s) then Include else Skip.

(** 537-662 [BuilderImpl::build] with an empty cell context *)
Definition create (old new : fcell) : res merkle_update :=
  let? old_hash := f_repr_hash old in
  let? old_depth := f_repr_depth old in
  let? new_hash := f_repr_hash new in
  let? new_depth := f_repr_depth new in
  if bool_decide (old_hash = new_hash) then
    let? p := make_pruned sha (Plain old) 0 in
    Ok (MUpdate old_hash old_hash old_depth old_depth p p)
  else
    let? (pn, pruned) := build_raw_ext sha inverted false true new in
    let? (r, st) := fill pruned old false (∅, ∅) in
    let changed := if r then {[old_hash]} ∪ snd st else snd st in
    let? (po, _) := build_raw_ext sha (set_filter changed) false true old in
    Ok (MUpdate old_hash new_hash old_depth new_depth po pn).
End Build.

(** ** Cells of updates *)
(** 92-107 [Store for MerkleUpdate], into a new builder that is then finalized *)
Definition update_cell (u : merkle_update) : res fcell :=
  build_cb sha (snd (run_ops [B_u8 (type_byte MerkleUpdate); B_u256 (mu_old_hash u); B_u256 (mu_new_hash u);
    B_u32 (N.lor (shl 32 (mu_old_depth u) 16) (mu_new_depth u)); B_ref (mu_old u); B_ref (mu_new u)] (set_exotic true cb_new))).
(** 56-90 [LoadCell for MerkleUpdate]; the reads start at bit 0 of the cell, so they are reads
    of whole bytes. *)
Definition load_update (c : fcell) : res merkle_update :=
  if negb (d_exotic (f_d1 c)) then Err UnexpectedOrdinaryCell
  else if negb (f_bit_len c =? 552) || negb (N.of_nat (length (f_refs c)) =? 2) then Err CellUnderflow
  else
    let? tag := of_opt CellUnderflow (rd (f_data c) 0) in
    if negb (tag =? type_byte MerkleUpdate) then Err InvalidCell
    else
      let? old_hash := of_opt CellUnderflow (rdn (f_data c) 1 32) in
      let? new_hash := of_opt CellUnderflow (rdn (f_data c) 33 32) in
      let? old_depth := of_opt CellUnderflow (rdn (f_data c) 65 2) in
      let? new_depth := of_opt CellUnderflow (rdn (f_data c) 67 2) in
      let? old := of_opt CellUnderflow (f_refs c !! 0%nat) in
      let? new := of_opt CellUnderflow (f_refs c !! 1%nat) in
      let? ho := f_hash old 0 in
      let? dold := f_depth old 0 in
      let? hn := f_hash new 0 in
      let? dnew := f_depth new 0 in
      if bool_decide (ho = old_hash) && (dold =? from_be old_depth) && bool_decide (hn = new_hash) && (dnew =? from_be new_depth)
      then Ok (MUpdate old_hash new_hash (from_be old_depth) (from_be new_depth) old new)
      else Err InvalidCell.
End Sha.

(** ** Removed cells: 276-366 [compute_removed_cells] *)
(** 298-318: a cell of [self.new] *)
Definition enter_hash (c : fcell) (md : N) (s : gset (list N)) : res (gset (list N) * bool) :=
  let? h := f_hash c md in Ok ({[h]} ∪ s, negb (d_is_pruned (f_d1 c))).
(** 341-363: references of removed cells are counted; the counters are [u32] (an overflow
    needs 2^32 references). *)
Section Count.
Context (new_cells : gset (list N)).
Fixpoint count_removed (c : fcell) (result : gmap (list N) N) {struct c} : res (gmap (list N) N) :=
  let '(FCell d1 d2 bit_len data refs hashes) := c in
  (fix go (rs : list fcell) (result : gmap (list N) N) {struct rs} : res (gmap (list N) N) :=
     match rs with
     | [] => Ok result
     | child :: rs' =>
       let? h := f_repr_hash child in
       match result !! h with
       | Some n => go rs' (<[h := n + 1]> result)
       | None =>
         let result' := <[h := 1]> result in
         if (d_refs (f_d1 child) =? 0) || bool_decide (h ∈ new_cells) then go rs' result'
         else let? result'' := count_removed child result' in go rs' result''
       end
     end) refs result.
End Count.
Definition compute_removed (u : merkle_update) (old : fcell) : res (gmap (list N) N) :=
  let? h := f_repr_hash old in
  let? h0 := f_hash (mu_old u) 0 in
  if negb (bool_decide (h = mu_old_hash u)) || negb (bool_decide (h0 = h)) then Err InvalidData
  else if bool_decide (mu_old_hash u = mu_new_hash u) then Ok ∅
  else
    let? r := f_repr_hash (mu_new u) in
    let? n0 := f_hash (mu_new u) 0 in
    let? (_, new_cells) := walk enter_hash (mu_new u) (merkle_inc (mu_new u)) ({[r]}, {[n0]}) in
    if bool_decide (h ∈ new_cells) then Ok {[h := 1]}
    else count_removed new_cells old {[h := 1]}.
