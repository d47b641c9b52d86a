(** * Bits: bit strings, byte strings and their arithmetic.

    Shared vocabulary of the whole development: bit strings are [list bool]
    (first bit = most significant), bytes are [N] below 256, byte strings are
    [list N].  Nothing here is specific to the code under study. *)
From stdpp Require Import base list numbers.
From Coq Require Import NArith Lia ZifyBool ZifyNat ZifyN.

#[global] Arguments N.add : simpl never.
#[global] Arguments N.mul : simpl never.
#[global] Arguments N.sub : simpl never.
#[global] Arguments N.shiftl : simpl never.
#[global] Arguments N.shiftr : simpl never.
#[global] Arguments N.testbit : simpl never.
#[global] Arguments N.div : simpl never.
#[global] Arguments N.modulo : simpl never.
#[global] Arguments N.pow : simpl never.
#[global] Arguments N.of_nat : simpl never.
#[global] Arguments N.to_nat : simpl never.
#[global] Arguments N.lor : simpl never.
#[global] Arguments N.land : simpl never.

(** [w] low bits of [v], most significant first. *)
Fixpoint nbits (w : nat) (v : N) : list bool :=
  match w with
  | O => []
  | S w' => N.testbit v (N.of_nat w') :: nbits w' v
  end.

(** Value of a bit string read as a big-endian number. *)
Definition bval (l : list bool) : N :=
  fold_left (fun acc b => (2 * acc + N.b2n b)%N) l 0%N.

Definition zeros (n : nat) : list bool := replicate n false.

Definition byte_bits (b : N) : list bool := nbits 8 b.
Definition bytes_bits (bs : list N) : list bool := concat (map byte_bits bs).

(** Big-endian bytes of an [n]-byte integer (Rust [to_be_bytes]). *)
Definition to_be (n : nat) (v : N) : list N :=
  map (fun i => (N.shiftr v (8 * N.of_nat (n - 1 - i)) mod 256)%N) (seq 0 n).

(** Rust [from_be_bytes]. *)
Definition from_be (bs : list N) : N :=
  fold_left (fun acc b => (256 * acc + b)%N) bs 0%N.

(** Group a bit string into bytes, padding the last byte with zeros. *)
Fixpoint pack_fuel (fuel : nat) (l : list bool) : list N :=
  match fuel with
  | O => []
  | S f => match l with
           | [] => []
           | _ => bval (take 8 (l ++ zeros 7)) :: pack_fuel f (drop 8 l)
           end
  end.
Definition pack (l : list bool) : list N := pack_fuel (length l) l.

Definition byte_ok (b : N) : Prop := (b < 256)%N.
