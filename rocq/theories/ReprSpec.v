(** * Trees that can be built, and bags that hold an object. *)
From Verif Require Import Err CellModel HashSpec BocSpec.
Local Open Scope nat_scope.

Section Sha.
Context (sha : list N -> list N).
(** No depth in the tree is above the limit. *)
Definition shallow (t : cell) : Prop := forall s, subtree [t] s -> forall l, (i_depth (info_of sha s) l <= 65535)%N.
(** A tree that can be built and put into a bag: its cells have layouts and depths within the limit,
    their hashes differ, and they can be counted. *)
Definition baggable (t : cell) : Prop := valid_tree t /\ shallow t /\ distinct_hashes sha [t] /\ countable_cells [t].
End Sha.
