(** * Two's complement on any number of bits, and what "fits" means. *)
From Verif Require Import Err.

(** The low [w] bits of an integer, most significant first. *)
Definition zbits (w : nat) (x : Z) : list bool := nbits w (Z.to_N (x mod 2 ^ Z.of_nat w)).

(** [x] can be written in [bits] bits. *)
Definition fits_in (x : Z) (bits : N) (signed : bool) : Prop :=
  if signed then
    x = 0%Z \/ (0 < bits /\ (- 2 ^ (Z.of_N bits - 1) <= x < 2 ^ (Z.of_N bits - 1))%Z)
  else (0 <= x < 2 ^ Z.of_N bits)%Z.
