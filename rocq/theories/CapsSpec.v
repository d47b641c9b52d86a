(** * Capabilities: specification *)
From Verif Require Import Err.
Local Open Scope N_scope.

(** The offsets in use: 0 to 32, but 15 is reserved. *)
Definition known (o : N) : bool := (o <=? 32) && negb (o =? 15).
(** The capabilities of a set, in increasing order. *)
Definition members (x : N) : list N := List.filter (fun o => known o && N.testbit x o) (map N.of_nat (seq 0 64)).
