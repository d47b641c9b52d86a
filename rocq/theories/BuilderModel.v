(** * Byte-level model of [CellDataBuilder] (/repo/src/cell/builder.rs:704-1471).

    State = the 128-byte buffer and the bit length.  Every operation returns its
    result together with the builder it leaves behind, also when it fails.
    16-bit additions wrap explicitly (release build).  Pointer accesses go through
    [cpy]/[or_at]/[and_at]/[wr]; an access outside of the buffer gives [UB]. *)
From Verif Require Export Err.

(** builder.rs:704-709 *)
Record bld := mkB { bd : list N; bl : N }.

(** builder.rs:1 (MAX_BIT_LEN from /repo/src/cell/mod.rs) *)
Definition MAX_BIT_LEN : N := 1023.

(** State-and-error monad: an error keeps the state reached so far. *)
Definition M (A : Type) := bld -> res A * bld.
Definition mret {A} (a : A) : M A := fun s => (Ok a, s).
Definition merr {A} (e : err) : M A := fun s => (Err e, s).
Definition mbind {A B} (x : M A) (f : A -> M B) : M B :=
  fun s => match x s with (Ok a, s') => f a s' | (Err e, s') => (Err e, s') end.
Notation "'do' x '<-' a ';' b" := (mbind a (fun x => b))
  (at level 200, x pattern, a at level 100, b at level 200).
Notation "a ';;;' b" := (mbind a (fun _ => b)) (at level 199, b at level 200).

Definition get_bl : M N := fun s => (Ok (bl s), s).
Definition set_bl (n : N) : M unit := fun s => (Ok tt, mkB (bd s) n).
Definition upd (f : list N -> option (list N)) : M unit :=
  fun s => match f (bd s) with
           | Some d => (Ok tt, mkB d (bl s))
           | None => (Err UB, s)
           end.

(** builder.rs:795-800 [CellDataBuilder::new] *)
Definition b_new : bld := mkB (replicate 128 0) 0.

(** builder.rs:841-843 [spare_capacity_bits], 847-849 [has_capacity_bits] *)
Definition spare_capacity_bits (s : bld) : N := MAX_BIT_LEN - bl s.
Definition has_capacity_bits (s : bld) (bits : N) : bool :=
  w16 (bl s + bits) <=? MAX_BIT_LEN.

(** builder.rs:852-855 [clear_bits] *)
Definition clear_bits : M unit := fun _ => (Ok tt, b_new).

(** builder.rs:763-791 [impl_store_uint!] *)
Definition store_uintW (nbytes : nat) (bits : N) (value : N) : M unit :=
  do l <- get_bl;
  if w16 (l + bits) <=? MAX_BIT_LEN then
    let q := N.to_nat (l / 8) in
    let r := l mod 8 in
    (if r =? 0 then
       upd (fun d => cpy d q (to_be nbytes value))
     else
       upd (fun d => or_at d q (w8 (N.shiftr value (bits - 8 + r)))) ;;;
       upd (fun d => cpy d (q + 1) (to_be nbytes (shl bits value (8 - r))))) ;;;
    set_bl (w16 (l + bits))
  else merr CellOverflow.

(** builder.rs:974-996 *)
Definition store_u16 := store_uintW 2 16.
Definition store_u32 := store_uintW 4 32.
Definition store_u64 := store_uintW 8 64.
Definition store_u128 := store_uintW 16 128.

(** builder.rs:865-892 [rewind_bits] *)
Definition rewind_bits (bits : N) : M unit :=
  if bits =? 0 then mret tt else
  do l <- get_bl;
  if l <? bits then merr CellUnderflow else
  let n := l - bits in
  let q := N.to_nat (n / 8) in
  let r := n mod 8 in
  (if r =? 0 then
     upd (fun d => cpy d q (replicate (N.to_nat ((bits + 7) / 8)) 0))
   else
     let shift := 8 - r in
     upd (fun d => and_at d q (shl 8 255 shift)) ;;;
     upd (fun d => cpy d (q + 1) (replicate (N.to_nat (((bits - shift) + 7) / 8)) 0))) ;;;
  set_bl n.

(** builder.rs:896-903 [store_zeros] *)
Definition store_zeros (bits : N) : M unit :=
  do l <- get_bl;
  if w16 (l + bits) <=? MAX_BIT_LEN then set_bl (w16 (l + bits)) else merr CellOverflow.

(** builder.rs:913-921 [store_bit_zero] *)
Definition store_bit_zero : M unit :=
  do l <- get_bl;
  let fits := l <? MAX_BIT_LEN in
  set_bl (l + N.b2n fits) ;;;
  if fits then mret tt else merr CellOverflow.

(** builder.rs:924-934 [store_bit_one] *)
Definition store_bit_one : M unit :=
  do l <- get_bl;
  if l <? MAX_BIT_LEN then
    let q := N.to_nat (l / 8) in
    let r := l mod 8 in
    upd (fun d => or_at d q (shl 8 1 (7 - r))) ;;;
    set_bl (l + 1)
  else merr CellOverflow.

(** builder.rs:938-944 [store_bit] *)
Definition store_bit (b : bool) : M unit := if b then store_bit_one else store_bit_zero.

(** builder.rs:948-970 [store_u8] *)
Definition store_u8 (value : N) : M unit :=
  do l <- get_bl;
  if w16 (l + 8) <=? MAX_BIT_LEN then
    let q := N.to_nat (l / 8) in
    let r := l mod 8 in
    (if r =? 0 then upd (fun d => wr d q value)
     else
       upd (fun d => or_at d q (N.shiftr value r)) ;;;
       upd (fun d => wr d (q + 1) (shl 8 value (8 - r)))) ;;;
    set_bl (w16 (l + 8))
  else merr CellOverflow.

(** builder.rs:999-1045 [store_u256]; [value] is the 32-byte array. *)
Definition store_u256 (value : list N) : M unit :=
  do l <- get_bl;
  if w16 (l + 256) <=? MAX_BIT_LEN then
    let q := N.to_nat (l / 8) in
    let r := l mod 8 in
    (if r =? 0 then upd (fun d => cpy d q value)
     else
       let hi := from_be (take 16 value) in
       let lo := from_be (drop 16 value) in
       let shift := 8 - r in
       upd (fun d => or_at d q (w8 (N.shiftr hi (128 - shift)))) ;;;
       let hi' := to_be 16 (N.lor (shl 128 hi shift) (N.shiftr lo (128 - shift))) in
       let lo' := to_be 16 (shl 128 lo shift) in
       upd (fun d => cpy d (q + 1) hi') ;;;
       upd (fun d => cpy d (q + 17) lo')) ;;;
    set_bl (w16 (l + 256))
  else merr CellOverflow.

(** builder.rs:1050-1088 [store_small_uint] *)
Definition store_small_uint (value0 : N) (bits0 : N) : M unit :=
  if bits0 =? 0 then mret tt else
  do l0 <- get_bl;
  if w16 (l0 + bits0) <=? MAX_BIT_LEN then
    (if 8 <=? bits0 then set_bl (w16 (l0 + (bits0 - 8))) else mret tt) ;;;
    let bits := if 8 <=? bits0 then 8 else bits0 in
    let value := shl 8 value0 (8 - bits) in
    do l <- get_bl;
    let q := N.to_nat (l / 8) in
    let r := l mod 8 in
    (if r =? 0 then upd (fun d => wr d q value)
     else
       upd (fun d => or_at d q (N.shiftr value r)) ;;;
       if 8 <? bits + r then upd (fun d => wr d (q + 1) (shl 8 value (8 - r)))
       else mret tt) ;;;
    set_bl (w16 (l + bits))
  else merr CellOverflow.

(** builder.rs:1093-1150 [store_uint] *)
Definition store_uint (value0 : N) (bits0 : N) : M unit :=
  if bits0 =? 0 then mret tt else
  do l0 <- get_bl;
  if w16 (l0 + bits0) <=? MAX_BIT_LEN then
    (if 64 <=? bits0 then set_bl (w16 (l0 + (bits0 - 64))) else mret tt) ;;;
    let bits := if 64 <=? bits0 then 64 else bits0 in
    let value := shl 64 value0 (64 - bits) in
    do l <- get_bl;
    let q := N.to_nat (l / 8) in
    let r := l mod 8 in
    (if r =? 0 then
       upd (fun d => cpy d q (take (N.to_nat ((bits + 7) / 8)) (to_be 8 value)))
     else
       let shift := 8 - r in
       upd (fun d => or_at d q (w8 (N.shiftr value (64 - shift)))) ;;;
       if (shift <=? bits) && (0 <? bits - shift) then
         upd (fun d => cpy d (q + 1)
                (take (N.to_nat ((bits - shift + 7) / 8)) (to_be 8 (shl 64 value shift))))
       else mret tt) ;;;
    set_bl (w16 (l + bits))
  else merr CellOverflow.

(** The copy loop of builder.rs:1449-1454: [n] bytes of [value] from index [i],
    written at [q] shifted right by [r]. *)
Fixpoint raw_loop (n : nat) (value : list N) (i : nat) (r : N) (q : nat) (d : list N)
  : option (list N) :=
  match n with
  | O => Some d
  | S n' =>
    match rd value i with
    | None => None
    | Some v =>
      match or_at d q (N.shiftr v r) with
      | None => None
      | Some d1 =>
        match wr d1 (q + 1) (shl 8 v (8 - r)) with
        | None => None
        | Some d2 => raw_loop n' value (S i) r (S q) d2
        end
      end
    end
  end.

(** builder.rs:1404-1471, free function [store_raw]. *)
Definition store_raw (value : list N) (bits0 : N) : M unit :=
  do l0 <- get_bl;
  if w16 (l0 + bits0) <=? MAX_BIT_LEN then
    let maxb := w16 (N.of_nat (length value) * 8) in
    (if maxb <=? bits0 then set_bl (w16 (l0 + (bits0 - maxb))) else mret tt) ;;;
    let bits := if maxb <=? bits0 then maxb else bits0 in
    if bits =? 0 then mret tt else
    do l <- get_bl;
    let q := N.to_nat (l / 8) in
    let r := l mod 8 in
    (if r =? 0 then
       let byte_len := N.to_nat ((bits + 7) / 8) in
       upd (fun d => match rdn value 0 byte_len with
                     | Some bs => cpy d q bs
                     | None => None
                     end) ;;;
       let bits_r := bits mod 8 in
       if bits_r =? 0 then mret tt
       else upd (fun d => and_at d (q + byte_len - 1) (shl 8 255 (8 - bits_r)))
     else
       let byte_len := N.to_nat ((bits + r + 7) / 8 - 1) in
       let value_len := N.to_nat ((bits + 7) / 8) in
       upd (raw_loop byte_len value 0 r q) ;;;
       (if (byte_len <? value_len)%nat then
          upd (fun d => match rd value byte_len with
                        | Some v => or_at d (q + byte_len) (N.shiftr v r)
                        | None => None
                        end)
        else mret tt) ;;;
       let bits_r := (r + bits) mod 8 in
       if bits_r =? 0 then mret tt
       else upd (fun d => and_at d (q + byte_len) (shl 8 255 (8 - bits_r)))) ;;;
    set_bl (w16 (l + bits))
  else merr CellOverflow.

(** builder.rs:907-909 [store_ones]; [ALL_ONES_CELL.data()] is 128 bytes 0xff
    (/repo/src/cell/cell_impl/mod.rs:212-230). *)
Definition store_ones (bits : N) : M unit := store_raw (replicate 128 255) bits.

(** builder.rs:803-807 [from_raw_data] *)
Definition from_raw_data (value : list N) (bits : N) : res bld :=
  match store_raw value bits b_new with
  | (Ok _, s) => Ok s
  | (Err e, _) => Err e
  end.

(** builder.rs:1370-1401 [prepend_raw] *)
Definition prepend_raw (value : list N) (bits : N) : M unit :=
  if bits =? 0 then mret tt else
  do l <- get_bl;
  if w16 (l + bits) <=? MAX_BIT_LEN then
    fun s =>
      match (store_raw value bits ;;; store_raw (bd s) (bl s)) b_new with
      | (Ok _, s') => (Ok tt, s')
      | (Err e, _) => (Err e, s)
      end
  else merr CellOverflow.

(** builder.rs:1313-1331 [store_cell_data]; a cell is its bytes and bit length. *)
Definition store_cell_data (cdata : list N) (cbits : N) : M unit := store_raw cdata cbits.
