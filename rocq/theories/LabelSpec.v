(** * What an edge label encoding is (TL-B [HmLabel ~l m]).

<<
    hml_short$0  {m:#} {n:#} len:(Unary ~n) s:(n * Bit) = HmLabel ~n m;
    hml_long$10  {m:#} n:(#<= m) s:(n * Bit) = HmLabel ~n m;
    hml_same$11  {m:#} v:Bit n:(#<= m) = HmLabel ~n m;
>>
    [#<= m] is an integer in [0..m] stored in the least number of bits that holds [m]. *)
From Verif Require Import Err.
Local Open Scope nat_scope.

(** [w] is the least width that can store every number up to [m]. *)
Definition width_for (m w : nat) : Prop :=
  (N.of_nat m < 2 ^ N.of_nat w)%N /\
  forall w', (N.of_nat m < 2 ^ N.of_nat w')%N -> w <= w'.

Inductive hml (m : nat) : list bool -> list bool -> Prop :=
| hml_short s : length s <= m ->
    hml m ([false] ++ replicate (length s) true ++ [false] ++ s) s
| hml_long w s : width_for m w -> length s <= m ->
    hml m ([true; false] ++ nbits w (N.of_nat (length s)) ++ s) s
| hml_same w v n : width_for m w -> n <= m ->
    hml m ([true; true; v] ++ nbits w (N.of_nat n)) (replicate n v).

(** Order of the constructors: [0] before [10] before [11]. *)
Definition tag_rank (e : list bool) : nat :=
  match e with true :: true :: _ => 2 | true :: false :: _ => 1 | _ => 0 end.

(** [e] is the preferred encoding of [s]: no other encoding is shorter, and among the
    encodings of the same length it is the one whose constructor comes first. *)
Definition hml_canonical (m : nat) (e s : list bool) : Prop :=
  hml m e s /\
  forall e', hml m e' s ->
    length e < length e' \/ (length e = length e' /\ (e = e' \/ tag_rank e < tag_rank e')).
