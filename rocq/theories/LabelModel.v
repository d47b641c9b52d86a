(** * Dictionary edge labels (src/dict/mod.rs:584-728). *)
From Verif Require Import Err CellModel.
Local Open Scope nat_scope.

(** mod.rs:589, 627, 656: [16 - key_bit_len.leading_zeros()] on [u16]. *)
Definition bits_for_len (n : nat) : nat := N.to_nat (N.size (N.of_nat n)).

(** mod.rs:669-671 [write_hml_empty]. *)
Definition write_hml_empty (b : list bool) : res (list bool) := put [false; false] b.

(** mod.rs:673-685 [write_hml_short_tag].  Simplified: the run of ones, stored in pieces
    of 32 bits and a remainder, is stored at once (the same bits, the same error). *)
Definition write_hml_short_tag (len : nat) (b : list bool) : res (list bool) :=
  let? b := put [false] b in
  let? b := put (replicate len true) b in
  put [false] b.

(** mod.rs:697-701 [write_hml_long_tag]. *)
Definition write_hml_long_tag (len bl : nat) (b : list bool) : res (list bool) :=
  let? b := put [true] b in
  let? b := put [false] b in
  put (nbits bl (N.of_nat len)) b.

(** mod.rs:710-718 [write_hml_same]. *)
Definition write_hml_same (bit : bool) (len bl : nat) (b : list bool) : res (list bool) :=
  let? b := put (nbits 3 (N.lor 6 (N.b2n bit))) b in
  put (nbits bl (N.of_nat len)) b.

(** mod.rs:584-614 [write_label]. *)
Definition write_label (key : list bool) (key_bit_len : nat) (b : list bool) : res (list bool) :=
  if (key_bit_len =? 0) || (length key =? 0) then write_hml_empty b
  else
    let bl := bits_for_len key_bit_len in
    let r := length key in
    let short_len := 2 + 2 * r in
    let long_len := 2 + bl + r in
    let same_len := 3 + bl in
    let inline :=
      let? b :=
        if (short_len <=? MAX_BITS) && (short_len <=? long_len) then write_hml_short_tag r b
        else if long_len <=? MAX_BITS then write_hml_long_tag r bl b
        else Err InvalidData in
      put key b in
    if (same_len <? long_len) && (same_len <? short_len) then
      match uniform key with
      | Some bit => write_hml_same bit r bl b
      | None => inline
      end
    else inline.

Definition is_uniform (bit : bool) (l : list bool) : bool :=
  match uniform l with Some p => Bool.eqb p bit | None => false end.

(** mod.rs:616-653 [write_label_parts]. *)
Definition write_label_parts (pfx : list bool) (bit : bool) (rem : list bool)
    (key_bit_len : nat) (b : list bool) : res (list bool) :=
  if key_bit_len =? 0 then write_hml_empty b
  else
    let bl := bits_for_len key_bit_len in
    let r := length pfx + 1 + length rem in
    let short_len := 2 + 2 * r in
    let long_len := 2 + bl + r in
    let same_len := 3 + bl in
    if (same_len <? long_len) && (same_len <? short_len)
       && ((length pfx =? 0) || is_uniform bit pfx) && ((length rem =? 0) || is_uniform bit rem)
    then write_hml_same bit r bl b
    else
      let? b :=
        if (short_len <=? MAX_BITS) && (short_len <=? long_len) then write_hml_short_tag r b
        else if long_len <=? MAX_BITS then write_hml_long_tag r bl b
        else Err InvalidData in
      let? b := put pfx b in
      let? b := put [bit] b in
      put rem b.

(** mod.rs:688-691: the unary length of [read_hml_short]. *)
Fixpoint read_unary (l : list bool) : res (nat * list bool) :=
  match l with
  | [] => Err CellUnderflow
  | true :: r => let? (k, r') := read_unary r in Ok (S k, r')
  | false :: r => Ok (0, r)
  end.
(** [let result = *label; label.skip_first(len)?; result.get_prefix(len)]. *)
Definition take_label (len : nat) (l : list bool) : res (list bool * list bool) :=
  let? r := skip_bits len l in Ok (take len l, r).

(** mod.rs:687-695 [read_hml_short]. *)
Definition read_hml_short (l : list bool) : res (list bool * list bool) :=
  let? (len, l) := read_unary l in take_label len l.
(** mod.rs:703-708 [read_hml_long]; the [as u16] cast is [mod 2^16]. *)
Definition read_hml_long (bl : nat) (l : list bool) : res (list bool * list bool) :=
  let? (len, l) := load_uint bl l in take_label (N.to_nat (w16 len)) l.
(** mod.rs:720-728 [read_hml_same]; [get_prefix] of a 1023-bit cell (slice.rs:1250-1264). *)
Definition read_hml_same (bl : nat) (l : list bool) : res (list bool * list bool) :=
  let? (bit, l) := load_bit l in
  let? (len, l) := load_uint bl l in
  Ok (replicate (Nat.min (N.to_nat (w16 len)) MAX_BITS) bit, l).

(** mod.rs:655-667 [read_label]: the label and the bits after it. *)
Definition read_label (key_bit_len : nat) (l : list bool) : res (list bool * list bool) :=
  let bl := bits_for_len key_bit_len in
  if (bl =? 0) && (length l =? 0) then Ok ([], l)
  else
    let? (t1, l) := load_bit l in
    if negb t1 then read_hml_short l
    else
      let? (t2, l) := load_bit l in
      if negb t2 then read_hml_long bl l else read_hml_same bl l.
