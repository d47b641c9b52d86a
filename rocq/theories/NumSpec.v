(** * What the integer types promise, in terms of numbers and bits. *)
From Verif Require Import Err Var248Model.
Local Open Scope N_scope.

(** [n] is the least number of bytes that can hold [v]. *)
Definition shortest (v n : N) : Prop := v < 256 ^ n /\ forall m, v < 256 ^ m -> n <= m.
(** TL-B: var_uint$_ {n:#} len:(#< n) value:(uint (len * 8)) with the shortest length;
    [lb] is the width of the length field. *)
Definition var_uint_bits (lb : nat) (v : N) (bits : list bool) : Prop :=
  exists n, shortest v n /\ n < 2 ^ N.of_nat lb /\ bits = nbits lb n ++ nbits (N.to_nat (8 * n)) v.
(** The same with any length that can hold the value. *)
Definition loose_var_uint_bits (lb : nat) (v : N) (bits : list bool) : Prop :=
  exists n, v < 256 ^ n /\ n < 2 ^ N.of_nat lb /\ bits = nbits lb n ++ nbits (N.to_nat (8 * n)) v.
(** [o] is the number [z] if that lies between zero and [max], and nothing otherwise. *)
Definition exactly (max : N) (z : Z) (o : option N) : Prop :=
  match o with
  | Some r => Z.of_N r = z /\ (z <= Z.of_N max)%Z
  | None => (z < 0 \/ Z.of_N max < z)%Z
  end.
(** The closest number between zero and [max]. *)
Definition clamp (max : N) (z : Z) : Z := Z.max 0 (Z.min z (Z.of_N max)).
(** The number of a pair of words, and the pairs that exist. *)
Definition v248_val (a : v248) : N := v_hi a * 2 ^ 128 + v_lo a.
Definition v248_ok (a : v248) : Prop := v_hi a < 2 ^ 128 /\ v_lo a < 2 ^ 128.
(** The largest number that a [VarUint248] may hold. *)
Definition MAX248 : N := 2 ^ 248 - 1.
(** The value of a list of digits, most significant first. *)
Definition digits_val (radix : N) (ds : list N) : N := fold_left (fun a d => a * radix + d) ds 0.
(** [s] is the decimal notation of [v]: ASCII digits without superfluous zeros in front. *)
Definition decimal (v : N) (s : list N) : Prop :=
  exists ds, ds <> [] /\ Forall (fun d => d < 10) ds /\ (hd 0 ds = 0 -> length ds = 1%nat)
    /\ digits_val 10 ds = v /\ s = map (fun d => 48 + d) ds.
(** The characters for the digit [d], and the texts that denote [v]: an optional plus sign
    and at least one digit. *)
Definition digit_text (radix d c : N) : Prop :=
  d < radix /\ (d < 10 /\ c = 48 + d \/ 10 <= d < 36 /\ (c = 97 + (d - 10) \/ c = 65 + (d - 10))).
Definition number_text (radix v : N) (s : list N) : Prop :=
  exists ds cs, Forall2 (digit_text radix) ds cs /\ ds <> [] /\ digits_val radix ds = v /\ (s = cs \/ s = 43 :: cs).
