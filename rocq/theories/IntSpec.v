(** * Which values a caller may store: those that fit their type or the chosen width. *)
From Verif Require Import Err IntModel.

Definition in_i (w : Z) (v : Z) : Prop := (- 2 ^ (w - 1) <= v < 2 ^ (w - 1))%Z.

Definition ival_ok (v : ival) : Prop :=
  match v with
  | V_bool _ => True
  | V_u8 v => v < 2 ^ 8 | V_u16 v => v < 2 ^ 16 | V_u32 v => v < 2 ^ 32
  | V_u64 v => v < 2 ^ 64 | V_u128 v => v < 2 ^ 128
  | V_i8 v => in_i 8 v | V_i16 v => in_i 16 v | V_i32 v => in_i 32 v
  | V_i64 v => in_i 64 v | V_i128 v => in_i 128 v
  | V_hash bytes => Forall byte_ok bytes /\ length bytes = 32%nat
  | V_small v bits => bits <= 8 /\ v < 2 ^ bits
  | V_uint v bits => bits <= 64 /\ v < 2 ^ bits
  | V_raw bytes bits =>
      (* exactly the bytes needed, the unused low bits of the last one zero *)
      bits <= 1023 /\ exists X, length X = N.to_nat bits /\ bytes = pack X
  end.

(** Bits of a value on the wire: big-endian, two's complement. *)
Definition ival_bits (v : ival) : list bool :=
  match v with
  | V_bool b => [b]
  | V_u8 v => nbits 8 v | V_u16 v => nbits 16 v | V_u32 v => nbits 32 v
  | V_u64 v => nbits 64 v | V_u128 v => nbits 128 v
  | V_i8 v => nbits 8 (Z.to_N (v mod 2 ^ 8)) | V_i16 v => nbits 16 (Z.to_N (v mod 2 ^ 16))
  | V_i32 v => nbits 32 (Z.to_N (v mod 2 ^ 32)) | V_i64 v => nbits 64 (Z.to_N (v mod 2 ^ 64))
  | V_i128 v => nbits 128 (Z.to_N (v mod 2 ^ 128))
  | V_hash bytes => bytes_bits bytes
  | V_small v bits | V_uint v bits => nbits (N.to_nat bits) v
  | V_raw bytes bits => take (N.to_nat bits) (bytes_bits bytes)
  end.
