(** * What storage statistics count, on plain trees. *)
From Verif Require Import Err CellModel HashSpec.
Local Open Scope nat_scope.

(** [reach x c]: [x] is [c] or a descendant of it. *)
Inductive reach : cell -> cell -> Prop :=
| reach_self c : reach c c
| reach_child x y c : In y (c_refs c) -> reach x y -> reach x c.

(** [distinct roots l]: [l] lists the different cells of the trees, each one once. *)
Definition distinct (roots l : list cell) : Prop :=
  NoDup l /\ forall x, In x l <-> exists r, In r roots /\ reach x r.
Definition total_bits (l : list cell) : N := fold_right (fun c n => N.of_nat (length (c_bits c)) + n)%N 0%N l.

(** Different cells of the trees have different representation hashes. *)
Definition hashes_differ (sha : list N -> list N) (roots : list cell) : Prop :=
  forall x y r r', In r roots -> In r' roots -> reach x r -> reach y r' -> t_hash sha x = t_hash sha y -> x = y.
