(** * Big integers in cells (builder.rs:1154-1301, slice.rs:1566-1635, util.rs:21-60)

    [BigInt] is [Z], [BigUint] is [N]; the conversions of the num-bigint crate are
    modelled by what they are documented to return (trusted). *)
From Verif Require Export CellBuilderModel.

(** num-bigint [BigInt::bits]: bits of the magnitude *)
Definition zsize (x : Z) : N := N.size (Z.abs_N x).

(** util.rs:22-43 [BigInt::bitsize] ([bits() as u16], then 16-bit addition);
    the magnitude test scans the digits for "highest is a power of two and all others 0". *)
Definition bitsize (x : Z) (signed : bool) : N :=
  let bits := w16 (zsize x) in
  if signed then
    match x with
    | Z0 => bits
    | Zpos _ => w16 (bits + 1)
    | Zneg p => if N.pos p =? 2 ^ N.log2 (N.pos p) then bits else w16 (bits + 1)
    end
  else bits.
(** util.rs:52-55 [BigUint::bitsize] *)
Definition ubitsize (x : N) (signed : bool) : N :=
  let bits := w16 (N.size x) in
  if signed && negb (bits =? 0) then w16 (bits + 1) else bits.

(** num-traits [to_u64] *)
Definition to_u64 (x : Z) : option N := if (0 <=? x)%Z && (x <? 2 ^ 64)%Z then Some (Z.to_N x) else None.

(** num-bigint [to_signed_bytes_le]: the shortest non-empty two's complement form *)
Definition signed_len (x : Z) : nat :=
  N.to_nat (N.size (Z.to_N (if (0 <=? x)%Z then x else (- x - 1)%Z)) / 8 + 1).
Definition to_signed_bytes_le (x : Z) : list N :=
  let n := signed_len x in rev (to_be n (Z.to_N (x mod 2 ^ (8 * Z.of_nat n))%Z)).
(** num-bigint [to_bytes_le] of the magnitude: the shortest non-empty form *)
Definition to_bytes_le (x : N) : list N :=
  let n := N.to_nat (N.max 1 ((N.size x + 7) / 8)) in rev (to_be n x).

(** [Vec::resize] *)
Definition resize (m : nat) (p : N) (l : list N) : list N := take m l ++ replicate (m - length l) p.

(** builder.rs:1185-1190: shift so that the value ends at a byte boundary *)
Definition align_of (bits : N) : N := if bits mod 8 =? 0 then 0 else 8 - bits mod 8.

(** builder.rs:1172-1215 [store_bigint_truncate] *)
Definition store_bigint_truncate (x : Z) (bits : N) (signed : bool) : M unit :=
  match to_u64 x with
  | Some value => store_uint value bits
  | None =>
    let int := Z.shiftl x (Z.of_N (align_of bits)) in
    let minimal_bytes := N.to_nat ((bits + 7) / 8) in
    let '(prefix, bytes) :=
      if signed then
        let bytes := to_signed_bytes_le int in
        (match list.last bytes with Some b => N.shiftr b 7 * 255 | None => 0 end, bytes)
      else (0, to_bytes_le (Z.abs_N int)) in
    store_raw (rev (resize minimal_bytes prefix bytes)) bits
  end.
(** builder.rs:1154-1168 [store_bigint] *)
Definition store_bigint (x : Z) (bits : N) (signed : bool) : M unit :=
  if bits <? bitsize x signed then merr IntOverflow else store_bigint_truncate x bits signed.

(** builder.rs:1236-1266 [store_biguint_truncate] *)
Definition store_biguint_truncate (x : N) (bits : N) : M unit :=
  match to_u64 (Z.of_N x) with
  | Some value => store_uint value bits
  | None =>
    let int := N.shiftl x (align_of bits) in
    store_raw (rev (resize (N.to_nat ((bits + 7) / 8)) 0 (to_bytes_le int))) bits
  end.
(** builder.rs:1219-1233 [store_biguint] *)
Definition store_biguint (x : N) (bits : N) (signed : bool) : M unit :=
  if bits <? ubitsize x signed then merr IntOverflow else store_biguint_truncate x bits.

(** builder.rs:1270-1285 [store_var_bigint]; [1 << len_bits] is a u16 *)
Definition store_var_bigint (x : Z) (len_bits : N) (signed : bool) : M unit :=
  let bytes := (bitsize x signed + 7) / 8 in
  if w16 (N.shiftl 1 len_bits) <=? bytes then merr IntOverflow else
  store_small_uint (w8 bytes) len_bits ;;;
  store_bigint_truncate x (w16 (bytes * 8)) signed.
(** builder.rs:1289-1301 [store_var_biguint] *)
Definition store_var_biguint (x : N) (len_bits : N) : M unit :=
  let bytes := (w16 (N.size x) + 7) / 8 in
  if w16 (N.shiftl 1 len_bits) <=? bytes then merr IntOverflow else
  store_small_uint (w8 bytes) len_bits ;;;
  store_biguint_truncate x (w16 (bytes * 8)).

Section Load.
Context {R : Type}.

(** num-bigint [from_signed_bytes_be] *)
Definition from_signed_bytes_be (l : list N) : Z :=
  let v := Z.of_N (from_be l) in
  match l with
  | [] => 0%Z
  | b :: _ => if 128 <=? b then (v - 2 ^ (8 * Z.of_nat (length l)))%Z else v
  end.

(** [as i64] *)
Definition as_i64 (v : N) : Z := if v <? 2 ^ 63 then Z.of_N v else (Z.of_N v - 2 ^ 64)%Z.

(** slice.rs:1566-1592 [load_bigint] *)
Definition load_bigint (s : slice R) (bits : N) (signed : bool) : res Z * slice R :=
  if bits =? 0 then (Ok 0%Z, s)
  else if bits <=? 64 then
    let (r, s') := load_uint s bits in
    (let? v := r in
     if signed then
       let v := if bits <? 64
                then N.lor v (shl 64 (N.shiftr v (bits - 1) * (2 ^ 64 - 1) mod 2 ^ 64) (bits - 1))
                else v in
       Ok (as_i64 v)
     else Ok (Z.of_N v), s')
  else
    let (r, s') := load_raw s 128 bits in
    (let? buffer := r in
     let int := if signed then from_signed_bytes_be buffer else Z.of_N (from_be buffer) in
     Ok (if bits mod 8 =? 0 then int else Z.shiftr int (Z.of_N (8 - bits mod 8))), s').

(** slice.rs:1596-1616 [load_biguint] *)
Definition load_biguint (s : slice R) (bits : N) : res N * slice R :=
  if bits =? 0 then (Ok 0, s)
  else if bits <=? 64 then load_uint s bits
  else
    let (r, s') := load_raw s 128 bits in
    (let? buffer := r in
     let int := from_be buffer in
     Ok (if bits mod 8 =? 0 then int else N.shiftr int (8 - bits mod 8)), s').

(** slice.rs:1620-1628 [load_var_bigint], 1632-1635 [load_var_biguint] *)
Definition load_var_bigint (s : slice R) (len_bits : N) (signed : bool) : res Z * slice R :=
  match load_uint s len_bits with
  | (Ok len, s') => load_bigint s' (w16 (w16 len * 8)) signed
  | (Err e, s') => (Err e, s')
  end.
Definition load_var_biguint (s : slice R) (len_bits : N) : res N * slice R :=
  match load_uint s len_bits with
  | (Ok len, s') => load_biguint s' (w16 (w16 len * 8))
  | (Err e, s') => (Err e, s')
  end.
End Load.
