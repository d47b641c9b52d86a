(** * Cells, slices and builders at bit level.

    The byte-level models (BuilderModel, SliceModel, CellBuilderModel) are proved to
    behave as operations on lists of bits and references (C01-C08).  Everything above
    them (labels, dictionaries, bags of cells, proofs) is modelled on those lists. *)
From Verif Require Import Err.
Local Open Scope nat_scope.

(** A cell: src/cell/mod.rs:120-270 ([DynCell] as seen through [bit_len], [data],
    [descriptor().is_exotic()] and [reference]).  Simplified: hashes, depths and level
    masks are functions of the tree and are computed by the hashing model. *)
Inductive cell := Cell (exotic : bool) (bits : list bool) (refs : list cell).

Definition c_exotic (c : cell) : bool := let '(Cell e _ _) := c in e.
Definition c_bits (c : cell) : list bool := let '(Cell _ b _) := c in b.
Definition c_refs (c : cell) : list cell := let '(Cell _ _ r) := c in r.

(** Some bits and references: the contents of a builder, the contents of a slice, or
    what a value of type [Store] appends (src/cell/builder.rs:31-60). *)
Definition chunk := (list bool * list cell)%type.

(** src/cell/slice.rs:223-235 [CellSlice] restricted to the windows used by the
    dictionary code: they always extend to the end of the cell. *)
Record sl := Sl { s_cell : cell; s_bits : list bool; s_refs : list cell }.
Definition s_chunk (s : sl) : chunk := (s_bits s, s_refs s).

(** slice.rs:17-82 [CellSliceRange] of such a window: start offsets. *)
Definition range := (nat * nat)%type.
Definition s_range (s : sl) : range :=
  (length (c_bits (s_cell s)) - length (s_bits s), length (c_refs (s_cell s)) - length (s_refs s)).
(** slice.rs:307-322 [CellSliceRange::apply_allow_exotic]. *)
Definition r_apply (r : range) (c : cell) : chunk :=
  (drop (fst r) (c_bits c), drop (snd r) (c_refs c)).

(** src/cell/mod.rs:255-261 [as_slice], slice.rs:516-527 [CellSlice::new]. *)
Definition as_slice (c : cell) : res sl :=
  if c_exotic c then Err UnexpectedExoticCell else Ok (Sl c (c_bits c) (c_refs c)).
(** src/cell/mod.rs:263-266 [as_slice_allow_exotic]. *)
Definition as_slice_allow_exotic (c : cell) : sl := Sl c (c_bits c) (c_refs c).

(** Reading on bit lists: slice.rs [load_bit], [load_uint], [skip_first] (see C03-C05). *)
Definition load_bit (b : list bool) : res (bool * list bool) :=
  match b with [] => Err CellUnderflow | x :: r => Ok (x, r) end.
Definition load_uint (k : nat) (b : list bool) : res (N * list bool) :=
  if length b <? k then Err CellUnderflow else Ok (bval (take k b), drop k b).
Definition skip_bits (k : nat) (b : list bool) : res (list bool) :=
  if length b <? k then Err CellUnderflow else Ok (drop k b).
Definition skip_refs (k : nat) (r : list cell) : res (list cell) :=
  if length r <? k then Err CellUnderflow else Ok (drop k r).
(** src/cell/mod.rs:135-138 [reference]/[reference_cloned] with [None] turned into the
    [CellUnderflow] all callers return. *)
Definition ref_at (i : bool) (c : cell) : res cell :=
  match c_refs c !! (if i then 1 else 0) with Some x => Ok x | None => Err CellUnderflow end.

(** Appending on bit lists: builder.rs [store_*] (see C01, C02). *)
Definition MAX_BITS : nat := 1023.
Definition MAX_REFS : nat := 4.
Definition put (x : list bool) (b : list bool) : res (list bool) :=
  if MAX_BITS <? length b + length x then Err CellOverflow else Ok (b ++ x).
Definition putr (x : list cell) (r : list cell) : res (list cell) :=
  if MAX_REFS <? length r + length x then Err CellOverflow else Ok (r ++ x).
(** [store_slice] / [Store::store_into] of a chunk (builder.rs:473-480). *)
Definition putc (x : chunk) (b : chunk) : res chunk :=
  let? bits := put (fst x) (fst b) in
  let? refs := putr (snd x) (snd b) in
  Ok (bits, refs).

(** slice.rs:1097-1160 [test_uniform] (C07). *)
Definition uniform (l : list bool) : option bool :=
  match l with [] => None | b :: r => if forallb (Bool.eqb b) r then Some b else None end.

(** slice.rs:942-1034 [longest_common_data_prefix] (C06), as a prefix of [a]. *)
Fixpoint cpfx (a b : list bool) : list bool :=
  match a, b with
  | x :: a', y :: b' => if Bool.eqb x y then x :: cpfx a' b' else []
  | _, _ => []
  end.
(** slice.rs:898-940 [strip_data_prefix] (C06). *)
Fixpoint strip (p b : list bool) : option (list bool) :=
  match p, b with
  | [], _ => Some b
  | x :: p', y :: b' => if Bool.eqb x y then strip p' b' else None
  | _, [] => None
  end.
(** slice.rs:771-840 [lex_cmp] (C06). *)
Fixpoint lexcmp (a b : list bool) : comparison :=
  match a, b with
  | [], [] => Eq
  | [], _ => Lt
  | _, [] => Gt
  | x :: a', y :: b' => if Bool.eqb x y then lexcmp a' b' else if y then Lt else Gt
  end.
