(** * Merkle updates on plain trees. *)
From Verif Require Import Err CellModel HashSpec MerkleModel MerkleSpec StatSpec.
Local Open Scope nat_scope.

Section Sha.
Context (sha : list N -> list N).
Section Filter.
Context (check : list N -> action).
(** [touched x c]: [x] is reached from [c] through cells that the filter does not skip. *)
Inductive touched : cell -> cell -> Prop :=
| touched_child x c : check (t_hash sha c) <> Skip -> In x (c_refs c) -> touched x c
| touched_deep x y c : check (t_hash sha c) <> Skip -> In y (c_refs c) -> touched x y -> touched x c.
(** A filter that remembers visited cells of [old]: a cell below the root of [new] that it does
    not skip is [old] itself or was reached in [old] through cells that it does not skip
    (cells without references do not matter). *)
Definition remembers (old new : cell) : Prop :=
  (forall h, check h <> IncludeSubtree) /\
  (forall d x, occurs d x new -> c_refs x <> [] -> check (t_hash sha x) <> Skip -> x = old \/ touched x old).
End Filter.
End Sha.
