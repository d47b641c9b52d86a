(** * Byte-level model of [CellBuilder] (/repo/src/cell/builder.rs:178-581): data and references.

    The type [R] of references (Rust [Cell]) is a parameter. *)
From Verif Require Export BuilderModel SliceModel.

Section CB.
Context {R : Type}.

(** builder.rs:180-184; [ArrayVec<Cell, 4>] is a list. *)
Record cb := mkCB { cbd : bld; cb_exotic : bool; cb_refs : list R }.

(** /repo/src/cell/mod.rs:1080 *)
Definition MAX_REF_COUNT : nat := 4.

(** builder.rs:178 (derived [Default]) *)
Definition cb_new : cb := mkCB b_new false [].

(** builder.rs:268-282: a data operation through [DerefMut]. *)
Definition on_data (op : M unit) (c : cb) : res unit * cb :=
  let (r, b) := op (cbd c) in (r, mkCB b (cb_exotic c) (cb_refs c)).

(** builder.rs:439-447 [store_reference] *)
Definition store_reference (r : R) (c : cb) : res unit * cb :=
  if (length (cb_refs c) <? MAX_REF_COUNT)%nat
  then (Ok tt, mkCB (cbd c) (cb_exotic c) (cb_refs c ++ [r]))
  else (Err CellOverflow, c).

(** The loops [for cell in ..] of builder.rs:460-462 and 481-483. *)
Fixpoint store_references (l : list R) (c : cb) : res unit * cb :=
  match l with
  | [] => (Ok tt, c)
  | r :: l' =>
    match store_reference r c with
    | (Ok _, c') => store_references l' c'
    | (Err e, c') => (Err e, c')
    end
  end.

(** builder.rs:450-452 [set_references] *)
Definition set_references (l : list R) (c : cb) : cb := mkCB (cbd c) (cb_exotic c) l.

(** builder.rs:425-429 [set_exotic] *)
Definition set_exotic (b : bool) (c : cb) : cb := mkCB (cbd c) b (cb_refs c).

(** builder.rs:1335-1364 [store_slice_data] *)
Definition store_slice_data (s : slice R) : M unit :=
  let bits := size_bits_r (sr s) in
  do l <- get_bl;
  if w16 (l + bits) <=? MAX_BIT_LEN then
    match get_raw s 0 128 bits with
    | Ok bytes => store_raw bytes bits
    | Err e => merr e
    end
  else merr CellOverflow.

(** builder.rs:456-468 [store_builder] *)
Definition store_builder (o : cb) (c : cb) : res unit * cb :=
  if (w16 (bl (cbd c) + bl (cbd o)) <=? MAX_BIT_LEN) &&
     (length (cb_refs c) + length (cb_refs o) <=? MAX_REF_COUNT)%nat then
    match on_data (store_raw (bd (cbd o)) (bl (cbd o))) c with
    | (Ok _, c') => store_references (cb_refs o) c'
    | r => r
    end
  else (Err CellOverflow, c).

(** slice.rs [references]: the references inside of the window (1753-1760). *)
Definition slice_refs (s : slice R) : list R :=
  take (N.to_nat (re (sr s) - rs (sr s))) (drop (N.to_nat (rs (sr s))) (cv_refs (sc s))).

(** builder.rs:473-491 [store_slice] *)
Definition store_slice (s : slice R) (c : cb) : res unit * cb :=
  if (w16 (bl (cbd c) + size_bits_r (sr s)) <=? MAX_BIT_LEN) &&
     (length (cb_refs c) + N.to_nat (size_refs_r (sr s)) <=? MAX_REF_COUNT)%nat then
    match on_data (store_slice_data s) c with
    | (Ok _, c') => store_references (slice_refs s) c'
    | r => r
    end
  else (Err CellOverflow, c).

(** builder.rs:533-558, the data part of [build_ext]: completion tag and truncation to
    the used bytes.  [None] = the unchecked access would be out of bounds. *)
Definition build_data (b : bld) : option (list N) :=
  let rem := bl b mod 8 in
  let q := N.to_nat (bl b / 8) in
  match
    (if 0 <? rem then
       match rd (bd b) q with
       | None => None
       | Some x =>
         let tag := shl 8 1 (7 - rem) in
         let data_mask := 255 - (tag - 1) in
         wr (bd b) q (N.lor (N.land x data_mask) tag)
       end
     else Some (bd b)) with
  | None => None
  | Some d => Some (take (Nat.min (N.to_nat ((bl b + 7) / 8)) 128) d)
  end.

(** The cell that [build_ext] hands over (descriptor, hashes: see the cell model). *)
Definition build_view (c : cb) : option (cellv R) :=
  match build_data (cbd c) with
  | None => None
  | Some d => Some (mkCV d (bl (cbd c)) (cb_refs c) (cb_exotic c))
  end.

(** ** All operations of the builder as data, to speak about histories. *)
Inductive bop :=
| B_zeros (n : N) | B_ones (n : N)
| B_bit (b : bool) | B_bit_zero | B_bit_one
| B_u8 (v : N) | B_u16 (v : N) | B_u32 (v : N) | B_u64 (v : N) | B_u128 (v : N)
| B_u256 (bytes : list N)
| B_small (v bits : N) | B_uint (v bits : N)
| B_raw (bytes : list N) (bits : N)
| B_slice_data (s : slice R)
| B_cell_data (c : cellv R)
| B_prepend (bytes : list N) (bits : N)
| B_rewind (bits : N)
| B_clear
| B_ref (r : R)
| B_builder (o : cb)
| B_slice (s : slice R).

Definition run_op (o : bop) : cb -> res unit * cb :=
  match o with
  | B_zeros n => on_data (store_zeros n)
  | B_ones n => on_data (store_ones n)
  | B_bit b => on_data (store_bit b)
  | B_bit_zero => on_data store_bit_zero
  | B_bit_one => on_data store_bit_one
  | B_u8 v => on_data (store_u8 v)
  | B_u16 v => on_data (store_u16 v)
  | B_u32 v => on_data (store_u32 v)
  | B_u64 v => on_data (store_u64 v)
  | B_u128 v => on_data (store_u128 v)
  | B_u256 bytes => on_data (store_u256 bytes)
  | B_small v bits => on_data (store_small_uint v bits)
  | B_uint v bits => on_data (store_uint v bits)
  | B_raw bytes bits => on_data (store_raw bytes bits)
  | B_slice_data s => on_data (store_slice_data s)
  | B_cell_data c => on_data (store_cell_data (cv_data c) (cv_bits c))
  | B_prepend bytes bits => on_data (prepend_raw bytes bits)
  | B_rewind bits => on_data (rewind_bits bits)
  | B_clear => on_data clear_bits
  | B_ref r => store_reference r
  | B_builder o => store_builder o
  | B_slice s => store_slice s
  end.

(** Run a list of calls, collecting every result; a failed call does not stop the rest. *)
Fixpoint run_ops (l : list bop) (c : cb) : list (res unit) * cb :=
  match l with
  | [] => ([], c)
  | o :: l' =>
    let (r, c1) := run_op o c in
    let (rs, c2) := run_ops l' c1 in
    (r :: rs, c2)
  end.

End CB.
Arguments cb : clear implicits.
Arguments bop : clear implicits.
