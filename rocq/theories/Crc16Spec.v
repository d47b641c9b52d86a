(** * CRC-16/XMODEM as long division of binary polynomials.

    A bit string is a polynomial over GF(2), the first bit being the highest coefficient.
    The checksum of a message is the remainder of message * x^16 by
    x^16 + x^12 + x^5 + 1. *)
From Verif Require Import Err.
Local Open Scope N_scope.

(** x^16 + x^12 + x^5 + 1 *)
Definition poly : N := 2 ^ 16 + 2 ^ 12 + 2 ^ 5 + 1.
(** One step of the division: bring down the next coefficient, subtract (XOR) the divisor if
    the degree allows it. *)
Definition div_step (r : N) (b : bool) : N :=
  let x := 2 * r + N.b2n b in if 2 ^ 16 <=? x then N.lxor x poly else x.
Definition poly_rem (bits : list bool) : N := fold_left div_step bits 0.
Definition crc16_xmodem (data : list N) : N := poly_rem (bytes_bits data ++ zeros 16).

(** Two messages of the same length that differ, but only inside of a window of [n] bits. *)
Definition burst (n : nat) (a b : list bool) : Prop :=
  exists p x y s, a = p ++ x ++ s /\ b = p ++ y ++ s /\ length x = length y /\ (length x <= n)%nat /\ x <> y.
