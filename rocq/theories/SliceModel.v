(** * Byte-level model of [CellSlice] (/repo/src/cell/slice.rs).

    A cell is seen through [CellImpl]: its data bytes, bit length, references and
    exotic flag; the type [R] of references is a parameter.  16-bit and 8-bit window
    arithmetic wraps explicitly as in a release build.  Reads outside of the data
    bytes by unsafe code give [UB]. *)
From Verif Require Export Err.

Section Slice.
Context {R : Type}.

(** The part of [CellImpl] used by slices (/repo/src/cell/mod.rs:104-160). *)
Record cellv := mkCV {
  cv_data : list N;     (* data(), with completion tag *)
  cv_bits : N;          (* bit_len() *)
  cv_refs : list R;     (* references *)
  cv_exotic : bool      (* descriptor().is_exotic() *)
}.

(** slice.rs:233-240 *)
Record rng := mkR { bs : N; be : N; rs : N; re : N }.

(** slice.rs:486-490 *)
Record slice := mkS { sc : cellv; sr : rng }.

Definition size_bits_r (x : rng) : N := be x - bs x.     (* slice.rs:327-329 *)
Definition size_refs_r (x : rng) : N := re x - rs x.     (* slice.rs:332-334 *)

(** slice.rs:254-266 [CellSliceRange::full] *)
Definition rng_full (c : cellv) : rng := mkR 0 (cv_bits c) 0 (N.of_nat (length (cv_refs c))).

(** slice.rs:515-525 [CellSlice::new], 528-533 [new_allow_exotic] *)
Definition slice_new_allow_exotic (c : cellv) : slice := mkS c (rng_full c).
Definition slice_new (c : cellv) : res slice :=
  if cv_exotic c then Err UnexpectedExoticCell else Ok (slice_new_allow_exotic c).

(** slice.rs:272-296 [CellSliceRange::apply] *)
Definition rng_apply (x : rng) (c : cellv) : res slice :=
  if cv_exotic c then Err UnexpectedExoticCell
  else
    let bits_end := N.min (be x) (cv_bits c) in
    let refs_end := N.min (re x) (N.of_nat (length (cv_refs c))) in
    Ok (mkS c (mkR (N.min (bs x) bits_end) bits_end (N.min (rs x) refs_end) refs_end)).

(** The bound check shared by the window operations (slice.rs:374-376 and similar). *)
Definition rng_over (x : rng) (bits refs : N) : bool :=
  (be x <? w16 (bs x + bits)) || (re x <? w8 (rs x + refs)).

(** slice.rs:368-370 [has_remaining] *)
Definition has_remaining (x : rng) (bits refs : N) : bool :=
  (w16 (bs x + bits) <=? be x) && (w8 (rs x + refs) <=? re x).

(** slice.rs:373-383 *)
Definition skip_first (x : rng) (bits refs : N) : res rng :=
  if rng_over x bits refs then Err CellUnderflow
  else Ok (mkR (w16 (bs x + bits)) (be x) (w8 (rs x + refs)) (re x)).
(** slice.rs:386-396 *)
Definition only_first (x : rng) (bits refs : N) : res rng :=
  if rng_over x bits refs then Err CellUnderflow
  else Ok (mkR (bs x) (w16 (bs x + bits)) (rs x) (w8 (rs x + refs))).
(** slice.rs:399-409; the subtractions wrap modulo 2^16 / 2^8 *)
Definition skip_last (x : rng) (bits refs : N) : res rng :=
  if rng_over x bits refs then Err CellUnderflow
  else Ok (mkR (bs x) (w16 (be x + 65536 - bits)) (rs x) (w8 (re x + 256 - refs))).
(** slice.rs:412-422 *)
Definition only_last (x : rng) (bits refs : N) : res rng :=
  if rng_over x bits refs then Err CellUnderflow
  else Ok (mkR (w16 (be x + 65536 - bits)) (be x) (w8 (re x + 256 - refs)) (re x)).
(** slice.rs:427-440, result = (prefix, remaining) *)
Definition split_prefix (x : rng) (bits refs : N) : res (rng * rng) :=
  if rng_over x bits refs then Err CellUnderflow
  else
    let b := w16 (bs x + bits) in
    let r := w8 (rs x + refs) in
    Ok (mkR (bs x) b (rs x) r, mkR b (be x) r (re x)).
(** slice.rs:444-457, result = (suffix, remaining) *)
Definition split_suffix (x : rng) (bits refs : N) : res (rng * rng) :=
  if rng_over x bits refs then Err CellUnderflow
  else
    let b := w16 (be x + 65536 - bits) in
    let r := w8 (re x + 256 - refs) in
    Ok (mkR b (be x) r (re x), mkR (bs x) b (rs x) r).
(** slice.rs:461-468 *)
Definition get_prefix (x : rng) (bits refs : N) : rng :=
  mkR (bs x) (N.min (w16 (bs x + bits)) (be x)) (rs x) (N.min (w8 (rs x + refs)) (re x)).

(** slice.rs:1163-1171 [get_bit] *)
Definition get_bit (s : slice) (offset : N) : res bool :=
  let index := w16 (bs (sr s) + offset) in
  if index <? be (sr s) then
    match rd (cv_data (sc s)) (N.to_nat (index / 8)) with
    | Some byte => Ok (negb (N.land (N.shiftr byte (7 - index mod 8)) 1 =? 0))
    | None => Err CellUnderflow
    end
  else Err CellUnderflow.

(** slice.rs:1198-1230, 1248-1280, 1298-1327 [get_u16], [get_u32], [get_u64]:
    [n] is the number of bytes.  The intermediate wider integer is filled from
    its low end, which is [from_be] of the bytes copied. *)
Definition get_uW (n : nat) (s : slice) (offset : N) : res N :=
  if w16 (bs (sr s) + offset + 8 * N.of_nat n) <=? be (sr s) then
    let index := w16 (bs (sr s) + offset) in
    let data := cv_data (sc s) in
    let r := index mod 8 in
    let q := N.to_nat (index / 8) in
    if (r =? 0) && (q + n <=? length data)%nat then
      let? bytes := of_opt UB (rdn data q n) in Ok (from_be bytes)
    else if negb (r =? 0) && (q + (n + 1) <=? length data)%nat then
      let? bytes := of_opt UB (rdn data q (n + 1)) in
      Ok (N.shiftr (from_be bytes) (8 - r) mod 2 ^ (8 * N.of_nat n))
    else Err CellUnderflow
  else Err CellUnderflow.

(** slice.rs:1345-1378 [get_u128] *)
Definition get_u128 (s : slice) (offset : N) : res N :=
  if w16 (bs (sr s) + offset + 128) <=? be (sr s) then
    let index := w16 (bs (sr s) + offset) in
    let data := cv_data (sc s) in
    let r := index mod 8 in
    let q := N.to_nat (index / 8) in
    if (r =? 0) && (q + 16 <=? length data)%nat then
      let? bytes := of_opt UB (rdn data q 16) in Ok (from_be bytes)
    else if negb (r =? 0) && (q + 17 <=? length data)%nat then
      let? bytes := of_opt UB (rdn data q 17) in
      Ok (N.lor (shl 128 (default 0 (bytes !! 0%nat)) (120 + r))
                (N.shiftr (from_be (drop 1 bytes)) (8 - r)))
    else Err CellUnderflow
  else Err CellUnderflow.

(** slice.rs:1388-1438 [get_u256] (32 bytes) *)
Definition get_u256 (s : slice) (offset : N) : res (list N) :=
  if w16 (bs (sr s) + offset + 256) <=? be (sr s) then
    let index := w16 (bs (sr s) + offset) in
    let data := cv_data (sc s) in
    let r := index mod 8 in
    let q := N.to_nat (index / 8) in
    if (r =? 0) && (q + 32 <=? length data)%nat then
      of_opt UB (rdn data q 32)
    else if negb (r =? 0) && (q + 33 <=? length data)%nat then
      let? bytes := of_opt UB (rdn data q 33) in
      let ovf := default 0 (bytes !! 0%nat) in
      let hi := from_be (take 16 (drop 1 bytes)) in
      let lo := from_be (drop 17 bytes) in
      let shift := 8 - r in
      let rev_shift := 120 + r in
      Ok (to_be 16 (N.lor (N.shiftr hi shift) (shl 128 ovf rev_shift)) ++
          to_be 16 (N.lor (N.shiftr lo shift) (shl 128 hi rev_shift)))
    else Err CellUnderflow
  else Err CellUnderflow.

(** slice.rs:1450-1489 [get_small_uint] *)
Definition get_small_uint (s : slice) (offset bits : N) : res N :=
  if bits =? 0 then Ok 0 else
  if (bits <=? 8) && (w16 (bs (sr s) + offset + bits) <=? be (sr s)) then
    let index := w16 (bs (sr s) + offset) in
    let r := index mod 8 in
    let q := N.to_nat (index / 8) in
    match rd (cv_data (sc s)) q with
    | None => Err CellUnderflow
    | Some byte =>
      if r =? 0 then Ok (N.shiftr byte (8 - bits))
      else if bits <=? 8 - r then
        Ok (N.land (N.shiftr byte (8 - r - bits)) (shl 8 1 bits - 1))
      else
        match rd (cv_data (sc s)) (q + 1) with
        | None => Err CellUnderflow
        | Some next =>
          let res := N.lor (shl 16 byte 8) next in
          Ok (N.shiftr (w8 (N.shiftr res (8 - r))) (8 - bits))
        end
    end
  else Err CellUnderflow.

(** slice.rs:1504-1552 [get_uint] *)
Definition get_uint (s : slice) (offset bits0 : N) : res N :=
  if bits0 =? 0 then Ok 0 else
  if (bits0 <=? 64) && (w16 (bs (sr s) + offset + bits0) <=? be (sr s)) then
    let index := w16 (bs (sr s) + offset) in
    let data := cv_data (sc s) in
    if (length data <? N.to_nat ((be (sr s) + 7) / 8))%nat then Err CellUnderflow else
    let r := index mod 8 in
    let q := N.to_nat (index / 8) in
    let? b0 := of_opt UB (rd data q) in
    let first_byte := N.land b0 (N.shiftr 255 r) in
    let right_shift := (8 - (bits0 + r) mod 8) mod 8 in
    if r + bits0 <=? 8 then Ok (N.shiftr first_byte right_shift)
    else
      let bits := bits0 - (8 - r) in
      let n := N.to_nat ((bits + 7) / 8) in
      let? tl := of_opt UB (rdn data (q + 1) n) in
      let bytes := tl ++ replicate (8 - n)%nat 0 in
      Ok (N.lor (N.shiftr (from_be bytes) (64 - bits)) (shl 64 first_byte bits))
  else Err CellUnderflow.

(** The copy loop of slice.rs:1678-1683: bytes [q .. q+n) shifted left by [r]. *)
Fixpoint raw_read (n : nat) (data : list N) (q : nat) (r : N) : option (list N) :=
  match n with
  | O => Some []
  | S n' =>
    match rd data q, rd data (q + 1) with
    | Some a, Some b =>
      match raw_read n' data (S q) r with
      | Some l => Some (N.lor (shl 8 a r) (N.shiftr b (8 - r)) :: l)
      | None => None
      end
    | _, _ => None
    end
  end.

(** Mask the last byte (slice.rs:1692-1695). *)
Definition mask_last (bits_r : N) (l : list N) : option (list N) :=
  if bits_r =? 0 then Some l
  else and_at l (length l - 1) (shl 8 255 (8 - bits_r)).

(** slice.rs:1638-1702 [get_raw]; [tlen] is the length of the caller's buffer. *)
Definition get_raw (s : slice) (offset : N) (tlen : nat) (bits : N) : res (list N) :=
  if bits =? 0 then Ok [] else
  if w16 (bs (sr s) + bits) <=? be (sr s) then
    let index := w16 (bs (sr s) + offset) in
    let data := cv_data (sc s) in
    let target_len := N.to_nat ((bits + 7) / 8) in
    if (tlen <? target_len)%nat then Err CellUnderflow else
    let r := index mod 8 in
    let q := N.to_nat (index / 8) in
    let? t :=
      (if (r =? 0) && (q + target_len <=? length data)%nat then
         of_opt UB (rdn data q target_len)
       else if negb (r =? 0) then
         let byte_len := N.to_nat ((bits + r + 7) / 8 - 1) in
         if (length data <? q + byte_len)%nat then Err CellUnderflow else
         let? l := of_opt UB (raw_read byte_len data q r) in
         if (byte_len <? target_len)%nat then
           let? a := of_opt UB (rd data (q + byte_len)) in
           Ok (l ++ [shl 8 a r])
         else Ok l
       else Err CellUnderflow) in
    of_opt UB (mask_last (bits mod 8) t)
  else Err CellUnderflow.

(** The [load_*] family: read at offset 0, advance only on success
    (slice.rs:1174-1183, 1232-1236, ..., 1704-1712).  The Rust code adds
    [bits * is_ok], so nothing moves on failure. *)
Definition advance (s : slice) (bits : N) : slice :=
  mkS (sc s) (mkR (w16 (bs (sr s) + bits)) (be (sr s)) (rs (sr s)) (re (sr s))).
Definition load_with {A} (s : slice) (bits : N) (x : res A) : res A * slice :=
  match x with Ok a => (Ok a, advance s bits) | Err e => (Err e, s) end.

Definition load_bit (s : slice) : res bool * slice := load_with s 1 (get_bit s 0).
Definition load_u8 (s : slice) := load_with s 8 (get_small_uint s 0 8).
Definition load_u16 (s : slice) := load_with s 16 (get_uW 2 s 0).
Definition load_u32 (s : slice) := load_with s 32 (get_uW 4 s 0).
Definition load_u64 (s : slice) := load_with s 64 (get_uW 8 s 0).
Definition load_u128 (s : slice) := load_with s 128 (get_u128 s 0).
Definition load_u256 (s : slice) := load_with s 256 (get_u256 s 0).
Definition load_small_uint (s : slice) (bits : N) := load_with s bits (get_small_uint s 0 bits).
Definition load_uint (s : slice) (bits : N) := load_with s bits (get_uint s 0 bits).
Definition load_raw (s : slice) (tlen : nat) (bits : N) := load_with s bits (get_raw s 0 tlen bits).

(** slice.rs:1744-1751 [get_reference] *)
Definition get_reference (s : slice) (index : N) : res R :=
  let i := w8 (rs (sr s) + index) in
  if i <? re (sr s) then of_opt CellUnderflow (cv_refs (sc s) !! N.to_nat i) else Err CellUnderflow.

(** slice.rs:1799-1810 [load_reference] *)
Definition load_reference (s : slice) : res R * slice :=
  if rs (sr s) <? re (sr s) then
    match cv_refs (sc s) !! N.to_nat (rs (sr s)) with
    | Some c => (Ok c, mkS (sc s) (mkR (bs (sr s)) (be (sr s)) (rs (sr s) + 1) (re (sr s))))
    | None => (Err CellUnderflow, s)
    end
  else (Err CellUnderflow, s).

(** slice.rs:1715-1720 [load_remaining] *)
Definition load_remaining (s : slice) : slice * slice :=
  (s, mkS (sc s) (mkR (be (sr s)) (be (sr s)) (re (sr s)) (re (sr s)))).

(** slice.rs:1724-1741 [load_prefix], [load_suffix]: window part and rest *)
Definition load_prefix (s : slice) (bits refs : N) : res (slice * slice) :=
  let? p := split_prefix (sr s) bits refs in Ok (mkS (sc s) (fst p), mkS (sc s) (snd p)).
Definition load_suffix (s : slice) (bits refs : N) : res (slice * slice) :=
  let? p := split_suffix (sr s) bits refs in Ok (mkS (sc s) (fst p), mkS (sc s) (snd p)).

(** ** Comparison *)

(** slice.rs:791-797, the 32-bit loop of [lex_cmp]: [n] words from [offset]. *)
Fixpoint lex_words (n : nat) (a b : slice) (offset : N) : res comparison :=
  match n with
  | O => Ok Eq
  | S n' =>
    let? x := get_uW 4 a offset in
    let? y := get_uW 4 b offset in
    match N.compare x y with
    | Eq => lex_words n' a b (offset + 32)
    | o => Ok o
    end
  end.

(** slice.rs:771-804 [lex_cmp].  [same_ptr] tells whether both slices point to the
    same cell object ([ptr::addr_eq]). *)
Definition lex_cmp (same_ptr : bool) (a b : slice) : res comparison :=
  let lb := size_bits_r (sr a) in
  let rb := size_bits_r (sr b) in
  if same_ptr && (bs (sr a) =? bs (sr b)) then Ok (N.compare lb rb) else
  let bits := N.min lb rb in
  let rem := bits mod 32 in
  let? o := lex_words (N.to_nat (bits / 32)) a b 0 in
  match o with
  | Eq =>
    if 0 <? rem then
      let? x := get_uint a (bits - rem) rem in
      let? y := get_uint b (bits - rem) rem in
      match N.compare x y with
      | Eq => Ok (N.compare lb rb)
      | o => Ok o
      end
    else Ok (N.compare lb rb)
  | o => Ok o
  end.

(** slice.rs:842-853 [is_data_prefix_of], 856-867 [is_data_suffix_of].
    [only_first]/[only_last] failing would leave [other] unchanged. *)
Definition is_data_prefix_of (same_ptr : bool) (a other : slice) : res bool :=
  let bits := size_bits_r (sr a) in
  if size_bits_r (sr other) <? bits then Ok false else
  let o' := match only_first (sr other) bits 0 with Ok x => mkS (sc other) x | Err _ => other end in
  let? c := lex_cmp same_ptr a o' in
  Ok (match c with Eq => true | _ => false end).
Definition is_data_suffix_of (same_ptr : bool) (a other : slice) : res bool :=
  let bits := size_bits_r (sr a) in
  if size_bits_r (sr other) <? bits then Ok false else
  let o' := match only_last (sr other) bits 0 with Ok x => mkS (sc other) x | Err _ => other end in
  let? c := lex_cmp same_ptr a o' in
  Ok (match c with Eq => true | _ => false end).

(** Length of the longest prefix of [l] made of [b]. *)
Fixpoint lead (b : bool) (l : list bool) : nat :=
  match l with
  | [] => O
  | x :: l' => if Bool.eqb x b then S (lead b l') else O
  end.
(** [leading_zeros] / [trailing_zeros] of a [w]-bit unsigned integer. *)
Definition clz (w : nat) (v : N) : nat := lead false (nbits w v).
Definition ctz (w : nat) (v : N) : nat := lead false (rev (nbits w v)).

(** slice.rs:978-1005: the byte loop of [longest_common_data_prefix_impl] for
    [i .. i+n); [None] = out-of-bounds, [inl] = early return, [inr] = state after
    the loop (prefix_len, self_byte, other_byte).  Counters are [nat]: all values
    stay below 2^11. *)
Fixpoint lcp_loop (n i : nat) (d1 : list N) (q1 : nat) (r1 : N) (d2 : list N) (q2 : nat) (r2 : N)
    (maxb plen : nat) (b1 b2 : N) : option (nat + nat * N * N) :=
  match n with
  | O => Some (inr (plen, b1, b2))
  | S n' =>
    match rd d1 (q1 + i), rd d2 (q2 + i) with
    | Some n1, Some n2 =>
      let c1 := N.lor b1 (w8 (N.shiftr n1 (8 - r1))) in
      let c2 := N.lor b2 (w8 (N.shiftr n2 (8 - r2))) in
      let x := N.lxor c1 c2 in
      if x =? 0 then
        lcp_loop n' (S i) d1 q1 r1 d2 q2 r2 maxb (plen + 8) (shl 8 n1 r1) (shl 8 n2 r2)
      else Some (inl (Nat.min (plen + clz 8 x) maxb))
    | _, _ => None
    end
  end.

(** slice.rs:947-1029 [longest_common_data_prefix_impl] *)
Definition lcp_impl (a b : slice) (max_hint : N) : option nat :=
  if (be (sr a) <=? bs (sr a)) || (be (sr b) <=? bs (sr b)) then Some 0%nat else
  let d1 := cv_data (sc a) in
  let d2 := cv_data (sc b) in
  let maxb := N.to_nat (N.min (N.min (be (sr a) - bs (sr a)) (be (sr b) - bs (sr b))) max_hint) in
  let r1 := bs (sr a) mod 8 in
  let q1 := N.to_nat (bs (sr a) / 8) in
  let r2 := bs (sr b) mod 8 in
  let q2 := N.to_nat (bs (sr b) / 8) in
  let n1 := ((N.to_nat r1 + maxb + 7) / 8)%nat in
  let n2 := ((N.to_nat r2 + maxb + 7) / 8)%nat in
  let al := Nat.min n1 n2 in
  match rd d1 q1, rd d2 q2 with
  | Some x1, Some x2 =>
    match lcp_loop (al - 1) 1 d1 q1 r1 d2 q2 r2 maxb 0 (shl 8 x1 r1) (shl 8 x2 r2) with
    | None => None
    | Some (inl res) => Some res
    | Some (inr (plen, b1, b2)) =>
      let o1 := if (0 <? r1) && (al <? n1)%nat then
                  match rd d1 (q1 + al) with Some y => Some (N.lor b1 (N.shiftr y (8 - r1))) | None => None end
                else Some b1 in
      let o2 := if (0 <? r2) && (al <? n2)%nat then
                  match rd d2 (q2 + al) with Some y => Some (N.lor b2 (N.shiftr y (8 - r2))) | None => None end
                else Some b2 in
      match o1, o2 with
      | Some c1, Some c2 =>
        let mask := shl 8 255 (N.of_nat ((8 - maxb mod 8) mod 8)) in
        let x := N.lxor (N.land c1 mask) (N.land c2 mask) in
        Some (Nat.min (plen + clz 8 x) maxb)
      | _, _ => None
      end
    end
  | _, _ => None
  end.

(** slice.rs:942-945 [longest_common_data_prefix] *)
Definition longest_common_data_prefix (a b : slice) : res slice :=
  let? n := of_opt UB (lcp_impl a b 65535) in
  Ok (mkS (sc a) (get_prefix (sr a) (N.of_nat n) 0)).

(** slice.rs:898-912 [strip_data_prefix] *)
Definition strip_data_prefix (a p : slice) : res (option slice) :=
  let plen := size_bits_r (sr p) in
  if plen =? 0 then Ok (Some a)
  else if size_bits_r (sr a) <? plen then Ok None
  else
    let? n := of_opt UB (lcp_impl a p plen) in
    if plen <=? N.of_nat n then
      match skip_first (sr a) plen 0 with
      | Ok x => Ok (Some (mkS (sc a) x))
      | Err _ => Ok None
      end
    else Ok None.

(** ** Scans *)

(** slice.rs:1992-2064 [bits_memscan], byte loop used twice.  [stop i] is the extra
    loop condition (alignment of the address). *)
Fixpoint scan8 (fuel : nat) (aligned : nat -> bool) (d : list N) (xv : N) (p rem : nat)
  : option (nat + nat * nat) :=
  match fuel with
  | O => None
  | S f =>
    if ((8 <=? rem)%nat && negb (aligned p)) then
      match rd d p with
      | None => None
      | Some b =>
        let v := N.lxor b xv in
        if 0 <? v then Some (inl (clz 8 v)) (* relative to the bits already matched *)
        else match scan8 f aligned d xv (S p) (rem - 8) with
             | Some (inl c) => Some (inl (8 + c)%nat)
             | r => r
             end
      end
    else Some (inr (p, rem))
  end.
Fixpoint scan64 (fuel : nat) (d : list N) (xv : N) (p rem : nat) : option (nat + nat * nat) :=
  match fuel with
  | O => None
  | S f =>
    if (64 <=? rem)%nat then
      match rdn d p 8 with
      | None => None
      | Some bytes =>
        let z := N.lxor (from_be bytes) xv in
        if 0 <? z then Some (inl (clz 64 z))
        else match scan64 f d xv (p + 8) (rem - 64) with
             | Some (inl c) => Some (inl (64 + c)%nat)
             | r => r
             end
      end
    else Some (inr (p, rem))
  end.

(** slice.rs:2013-2064: the aligned part of [bits_memscan], starting at byte [p]
    with [rem] bits left out of [bit_count]. *)
Definition memscan_tail (aligned : nat -> bool) (d : list N) (xv xvl : N) (bit_count p rem : nat)
  : option nat :=
  match scan8 (S bit_count) aligned d xv p rem with
  | None => None
  | Some (inl c) => Some (bit_count - rem + c)%nat
  | Some (inr (p1, rem1)) =>
    match scan64 (S bit_count) d xvl p1 rem1 with
    | None => None
    | Some (inl c) => Some (bit_count - rem1 + c)%nat
    | Some (inr (p2, rem2)) =>
      match scan8 (S bit_count) (fun _ => false) d xv p2 rem2 with
      | None => None
      | Some (inl c) => Some (bit_count - rem2 + c)%nat
      | Some (inr (p3, rem3)) =>
        if (0 <? rem3)%nat then
          match rd d p3 with
          | None => None
          | Some b =>
            let c := clz 8 (N.lxor b xv) in
            if (c <? rem3)%nat then Some (bit_count - rem3 + c)%nat else Some bit_count
          end
        else Some bit_count
      end
    end
  end.

(** slice.rs:1982-2064 [bits_memscan].  [aligned i] = "the address of data[i] is a
    multiple of 8"; the result must not depend on it.  An early return
    [bit_count - rem + c] is represented by accumulating the matched bits. *)
Definition bits_memscan (aligned : nat -> bool) (d : list N) (offset bit_count : nat) (cmp : bool)
  : option nat :=
  if (bit_count =? 0)%nat then Some 0%nat else
  let xv := if cmp then 255 else 0 in
  let xvl := if cmp then 2 ^ 64 - 1 else 0 in
  let p := (offset / 8)%nat in
  let off := (offset mod 8)%nat in
  if (0 <? off)%nat then
    match rd d p with
    | None => None
    | Some b =>
      let v := shl 8 (N.lxor b xv) (N.of_nat off) in
      let c := clz 8 v in
      let l := (8 - off)%nat in
      if (c <? l)%nat || (bit_count <=? l)%nat then Some (Nat.min c bit_count)
      else memscan_tail aligned d xv xvl bit_count (S p) (bit_count - l)
    end
  else memscan_tail aligned d xv xvl bit_count p bit_count.

(** slice.rs:2067-2124 [bits_memscan_rev]; [p] is one past the bytes still to scan. *)
Fixpoint rscan (w : nat) (fuel : nat) (d : list N) (xv : N) (p cnt res : nat)
  : option (nat + nat * nat * nat) :=
  match fuel with
  | O => None
  | S f =>
    if (8 * w <=? cnt)%nat then
      if (p <? w)%nat then None else
      match rdn d (p - w) w with
      | None => None
      | Some bytes =>
        let v := N.lxor (from_be bytes) xv in
        if 0 <? v then Some (inl (res + ctz (8 * w) v)%nat)
        else rscan w f d xv (p - w) (cnt - 8 * w) (res + 8 * w)
      end
    else Some (inr (p, cnt, res))
  end.

(** slice.rs:2090-2124: the byte-aligned part of [bits_memscan_rev]. *)
Definition memscan_rev_tail (d : list N) (xv xvl : N) (fuel p cnt res : nat) : option nat :=
  match rscan 4 fuel d xvl p cnt res with
  | None => None
  | Some (inl c) => Some c
  | Some (inr (p1, cnt1, res1)) =>
    match rscan 1 fuel d xv p1 cnt1 res1 with
    | None => None
    | Some (inl c) => Some c
    | Some (inr (p2, cnt2, res2)) =>
      if (0 <? cnt2)%nat then
        if (p2 =? 0)%nat then None else
        match rd d (p2 - 1) with
        | None => None
        | Some b => Some (res2 + Nat.min (ctz 8 (N.lxor b xv)) cnt2)%nat
        end
      else Some res2
    end
  end.

Definition bits_memscan_rev (d : list N) (offset0 cnt0 : nat) (cmp : bool) : option nat :=
  if (cnt0 =? 0)%nat then Some 0%nat else
  let xv := if cmp then 255 else 0 in
  let xvl := if cmp then 2 ^ 32 - 1 else 0 in
  let p := ((offset0 + cnt0) / 8)%nat in
  let off := ((offset0 + cnt0) mod 8)%nat in
  if (0 <? off)%nat then
    match rd d p with
    | None => None
    | Some b =>
      let v := N.lxor (N.shiftr b (8 - N.of_nat off)) xv in
      let c := ctz 8 v in
      if (c <? off)%nat || (cnt0 <=? off)%nat then Some (Nat.min c cnt0)
      else memscan_rev_tail d xv xvl (S cnt0) p (cnt0 - off) off
    end
  else memscan_rev_tail d xv xvl (S cnt0) p cnt0 0.

(** slice.rs:1032-1047 [count_leading], 1050-1065 [count_trailing] *)
Definition count_leading (aligned : nat -> bool) (s : slice) (bit : bool) : res nat :=
  if be (sr s) <=? bs (sr s) then Ok 0%nat else
  let d := cv_data (sc s) in
  if (length d <? N.to_nat ((be (sr s) + 7) / 8))%nat then Err CellUnderflow else
  of_opt UB (bits_memscan aligned d (N.to_nat (bs (sr s))) (N.to_nat (be (sr s) - bs (sr s))) bit).
Definition count_trailing (s : slice) (bit : bool) : res nat :=
  if be (sr s) <=? bs (sr s) then Ok 0%nat else
  let d := cv_data (sc s) in
  if (length d <? N.to_nat ((be (sr s) + 7) / 8))%nat then Err CellUnderflow else
  of_opt UB (bits_memscan_rev d (N.to_nat (bs (sr s))) (N.to_nat (be (sr s) - bs (sr s))) bit).

(** slice.rs:1129-1135: all [n] full bytes from [p] equal [target]? *)
Fixpoint all_bytes (n : nat) (d : list N) (p : nat) (target : N) : option bool :=
  match n with
  | O => Some true
  | S n' =>
    match rd d p with
    | None => None
    | Some b => if b =? target then all_bytes n' d (S p) target else Some false
    end
  end.

(** slice.rs:1097-1160 [test_uniform]; outer [None] of the Rust result is [Ok None]. *)
Definition test_uniform (aligned : nat -> bool) (s : slice) : res (option bool) :=
  if be (sr s) <=? bs (sr s) then Ok None else
  let d := cv_data (sc s) in
  if (length d <? N.to_nat ((be (sr s) + 7) / 8))%nat then Ok None else
  let cnt := N.to_nat (be (sr s) - bs (sr s)) in
  let r := N.to_nat (bs (sr s) mod 8) in
  let q := N.to_nat (bs (sr s) / 8) in
  let? fb := of_opt UB (rd d q) in
  let bit := negb (N.land (N.shiftr fb (7 - N.of_nat r)) 1 =? 0) in
  if (cnt <? 64)%nat then
    let target := if bit then 255 else 0 in
    let fmask := N.shiftr 255 (N.of_nat r) in
    let lmask := shl 8 255 (N.of_nat ((8 - (cnt + r) mod 8) mod 8)) in
    if (r + cnt <=? 8)%nat then
      if N.land (N.land (N.lxor fb target) fmask) lmask =? 0 then Ok (Some bit) else Ok None
    else
      if negb (N.land (N.lxor fb target) fmask =? 0) then Ok None
      else
        let cnt' := (cnt - (8 - r))%nat in
        let? a := of_opt UB (all_bytes (cnt' / 8) d (S q) target) in
        if a then
          if (cnt' mod 8 =? 0)%nat then Ok (Some bit)
          else
            let? lb := of_opt UB (rd d (S q + cnt' / 8)) in
            if N.land (N.lxor lb target) lmask =? 0 then Ok (Some bit) else Ok None
        else Ok None
  else
    let? c := of_opt UB (bits_memscan aligned d (N.to_nat (bs (sr s))) cnt bit) in
    Ok (if (c =? cnt)%nat then Some bit else None).

(** slice.rs:810-829 [contents_eq]; [req] compares two references by representation hash. *)
Definition contents_eq (req : R -> R -> bool) (same_ptr : bool) (a b : slice) : res bool :=
  if negb (size_bits_r (sr a) =? size_bits_r (sr b)) || negb (size_refs_r (sr a) =? size_refs_r (sr b))
  then Ok false else
  let? c := lex_cmp same_ptr a b in
  match c with
  | Eq =>
    let refs s := take (N.to_nat (re (sr s) - rs (sr s))) (drop (N.to_nat (rs (sr s))) (cv_refs (sc s))) in
    Ok (forallb (fun p => req (fst p) (snd p)) (zip (refs a) (refs b)))
  | _ => Ok false
  end.

(** ** Window operations as data, to speak about histories of one slice *)
Inductive wop :=
| W_skip_first (bits refs : N) | W_only_first (bits refs : N)
| W_skip_last (bits refs : N) | W_only_last (bits refs : N)
| W_get_prefix (bits refs : N)
| W_load_prefix (bits refs : N)  (* keep the rest, slice.rs:1724 *)
| W_load_suffix (bits refs : N)  (* keep the rest, slice.rs:1734 *)
| W_load_uint (bits : N) | W_load_reference | W_load_remaining.

(** The slice after the call; a failed call leaves the slice as it was. *)
Definition keep {A} (s : slice) (f : A -> slice) (x : res A) : bool * slice :=
  match x with Ok a => (true, f a) | Err _ => (false, s) end.
Definition run_wop (o : wop) (s : slice) : bool * slice :=
  match o with
  | W_skip_first b r => keep s (mkS (sc s)) (skip_first (sr s) b r)
  | W_only_first b r => keep s (mkS (sc s)) (only_first (sr s) b r)
  | W_skip_last b r => keep s (mkS (sc s)) (skip_last (sr s) b r)
  | W_only_last b r => keep s (mkS (sc s)) (only_last (sr s) b r)
  | W_get_prefix b r => (true, mkS (sc s) (get_prefix (sr s) b r))
  | W_load_prefix b r => keep s snd (load_prefix s b r)
  | W_load_suffix b r => keep s snd (load_suffix s b r)
  | W_load_uint b => let (x, s') := load_uint s b in (is_ok x, s')
  | W_load_reference => let (x, s') := load_reference s in (is_ok x, s')
  | W_load_remaining => (true, snd (load_remaining s))
  end.
Fixpoint run_wops (l : list wop) (s : slice) : list bool * slice :=
  match l with
  | [] => ([], s)
  | o :: l' =>
    let (r, s1) := run_wop o s in
    let (rs, s2) := run_wops l' s1 in
    (r :: rs, s2)
  end.

End Slice.
Arguments cellv : clear implicits.
Arguments slice : clear implicits.
