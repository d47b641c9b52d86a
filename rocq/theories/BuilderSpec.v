(** * What a cell builder means: a bit string of at most 1023 bits and at most 4 references.

    The specification works on plain lists; the only things taken from the model are
    the names of the operations and the reading of slices as windows (SliceSpec). *)
From Verif Require Import Err CellBuilderModel SliceSpec.
Local Open Scope nat_scope.

Section Spec.
Context {R : Type}.

Definition content := (list bool * list R)%type.

(** What is observable of a builder: the first [bit_len] bits of its buffer, and its references. *)
Definition data_bits (b : bld) : list bool := take (N.to_nat (bl b)) (bytes_bits (bd b)).
Definition obs (c : cb R) : content := (data_bits (cbd c), cb_refs c).

(** The first [bits] bits of [bytes]; if there are not enough, zeros in front. *)
Definition raw_value (bytes : list N) (bits : nat) : list bool :=
  zeros (bits - 8 * length bytes) ++ take bits (bytes_bits bytes).

(** The bits and references an operation adds at the end, if it is an appending one. *)
Definition appended (o : bop R) : option content :=
  match o with
  | B_zeros n => Some (zeros (N.to_nat n), [])
  | B_ones n => Some (replicate (N.to_nat n) true, [])
  | B_bit b => Some ([b], [])
  | B_bit_zero => Some ([false], [])
  | B_bit_one => Some ([true], [])
  | B_u8 v => Some (nbits 8 v, [])
  | B_u16 v => Some (nbits 16 v, [])
  | B_u32 v => Some (nbits 32 v, [])
  | B_u64 v => Some (nbits 64 v, [])
  | B_u128 v => Some (nbits 128 v, [])
  | B_u256 bytes => Some (bytes_bits bytes, [])
  | B_small v bits => Some (nbits (N.to_nat bits) v, [])
  | B_uint v bits => Some (nbits (N.to_nat bits) v, [])
  | B_raw bytes bits => Some (raw_value bytes (N.to_nat bits), [])
  | B_slice_data s => Some (sbits s, [])
  | B_cell_data c => Some (take (N.to_nat (cv_bits c)) (bytes_bits (cv_data c)), [])
  | B_ref r => Some ([], [r])
  | B_builder o => Some (obs o)
  | B_slice s => Some (sbits s, srefs s)
  | B_prepend _ _ | B_rewind _ | B_clear => None
  end.

Definition fits (c : content) : bool := (length (fst c) <=? 1023) && (length (snd c) <=? 4).

(** One call on the abstract content. *)
Definition spec_op (o : bop R) (c : content) : res unit * content :=
  match appended o with
  | Some (x, r) =>
    let c' := (fst c ++ x, snd c ++ r) in
    if fits c' then (Ok tt, c') else (Err CellOverflow, c)
  | None =>
    match o with
    | B_prepend bytes bits =>
      let c' := (raw_value bytes (N.to_nat bits) ++ fst c, snd c) in
      if fits c' then (Ok tt, c') else (Err CellOverflow, c)
    | B_rewind bits =>
      if N.to_nat bits <=? length (fst c)
      then (Ok tt, (take (length (fst c) - N.to_nat bits) (fst c), snd c))
      else (Err CellUnderflow, c)
    | _ => (Ok tt, ([], snd c))
    end
  end.

Fixpoint spec_ops (l : list (bop R)) (c : content) : list (res unit) * content :=
  match l with
  | [] => ([], c)
  | o :: l' =>
    let (r, c1) := spec_op o c in
    let (rs, c2) := spec_ops l' c1 in
    (r :: rs, c2)
  end.

(** Arguments a caller can pass: values in the range of their Rust type, slices and
    builders that exist, and bit counts that do not wrap the 16-bit counter when added
    to a bit length (at most 64512; byte slices shorter than 8 KiB).  Larger counts are
    the subject of [C02_wrap_refuted]. *)
Definition count_ok (n : N) : Prop := (n <= 64512)%N.
Definition bytes_arg (l : list N) : Prop := Forall byte_ok l /\ (N.of_nat (length l) <= 8191)%N.

Inductive reachable : cb R -> Prop :=
| reach_new : reachable cb_new
| reach_op o c r c' : reachable c -> op_ok o -> run_op o c = (r, c') -> reachable c'
with op_ok : bop R -> Prop :=
| ok_zeros n : count_ok n -> op_ok (B_zeros n)
| ok_ones n : count_ok n -> op_ok (B_ones n)
| ok_bit b : op_ok (B_bit b)
| ok_bit0 : op_ok B_bit_zero
| ok_bit1 : op_ok B_bit_one
| ok_u8 v : (v < 2 ^ 8)%N -> op_ok (B_u8 v)
| ok_u16 v : (v < 2 ^ 16)%N -> op_ok (B_u16 v)
| ok_u32 v : (v < 2 ^ 32)%N -> op_ok (B_u32 v)
| ok_u64 v : (v < 2 ^ 64)%N -> op_ok (B_u64 v)
| ok_u128 v : (v < 2 ^ 128)%N -> op_ok (B_u128 v)
| ok_u256 l : Forall byte_ok l -> length l = 32 -> op_ok (B_u256 l)
| ok_small v bits : (v < 2 ^ 8)%N -> count_ok bits -> op_ok (B_small v bits)
| ok_uint v bits : (v < 2 ^ 64)%N -> count_ok bits -> op_ok (B_uint v bits)
| ok_raw l bits : bytes_arg l -> count_ok bits -> op_ok (B_raw l bits)
| ok_sdata s : s_ok s -> op_ok (B_slice_data s)
| ok_cdata c : cv_ok c -> length (cv_data c) <= 128 -> op_ok (B_cell_data c)
| ok_prep l bits : bytes_arg l -> count_ok bits -> op_ok (B_prepend l bits)
| ok_rewind bits : op_ok (B_rewind bits)
| ok_clear : op_ok B_clear
| ok_ref r : op_ok (B_ref r)
| ok_builder o : reachable o -> op_ok (B_builder o)
| ok_slice s : s_ok s -> op_ok (B_slice s).

End Spec.
