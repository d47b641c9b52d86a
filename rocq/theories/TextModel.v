(** * Text: hexadecimal, integers, bit strings (src/util.rs), and the parts of the standard
    library, of the [hex] crate and of the [base64] crate that the textual forms rely on.

    Text is a list of bytes.  The library functions ([str::split], [FromStr] of the integer
    types, [from_str_radix], [Display], [hex::decode], [hex::decode_to_slice], the two base64
    engines) are modelled by their documented behaviour. *)
From Verif Require Import Err.
Local Open Scope N_scope.

(** ** Library: characters and integers *)
(** [char::to_digit] *)
Definition to_digit (radix c : N) : option N :=
  let d := if (48 <=? c) && (c <=? 57) then Some (c - 48)
           else if (97 <=? c) && (c <=? 122) then Some (c - 97 + 10)
           else if (65 <=? c) && (c <=? 90) then Some (c - 65 + 10) else None in
  match d with Some d => if d <? radix then Some d else None | None => None end.
(** The loop of [from_str_radix]: [checked_mul] and [checked_add] (or [checked_sub] of the
    magnitude) against the largest magnitude [max]. *)
Fixpoint parse_digits (radix max : N) (s : list N) (acc : N) : option N :=
  match s with
  | [] => Some acc
  | c :: s' =>
    match to_digit radix c with
    | None => None
    | Some d =>
      let x := acc * radix + d in
      if max <? x then None else parse_digits radix max s' x
    end
  end.
(** [from_str_radix] of an unsigned type: an optional plus sign and at least one digit. *)
Definition parse_unsigned (radix max : N) (s : list N) : option N :=
  match s with
  | [] => None
  | [c] => if (c =? 43) || (c =? 45) then None else parse_digits radix max s 0
  | c :: s' => if c =? 43 then parse_digits radix max s' 0 else parse_digits radix max s 0
  end.
(** [from_str] of a signed type with [w] bits. *)
Definition parse_signed (w : N) (s : list N) : option Z :=
  let pos (s : list N) := option_map Z.of_N (parse_digits 10 (2 ^ (w - 1) - 1) s 0) in
  match s with
  | [] => None
  | [c] => if (c =? 43) || (c =? 45) then None else pos s
  | c :: s' =>
    if c =? 43 then pos s'
    else if c =? 45 then option_map (fun x => (- Z.of_N x)%Z) (parse_digits 10 (2 ^ (w - 1)) s' 0)
    else pos s
  end.
(** Digits of a number, most significant first, at least one; [table] gives the characters. *)
Fixpoint show_fuel (fuel : nat) (radix : N) (table : list N) (n : N) (acc : list N) : list N :=
  match fuel with
  | O => acc
  | S f =>
    let acc := nth (N.to_nat (n mod radix)) table 0 :: acc in
    if n / radix =? 0 then acc else show_fuel f radix table (n / radix) acc
  end.
(** util.rs:514-518 [HEX_CHARS_LOWER], [HEX_CHARS_UPPER]: "0123456789abcdef". *)
Definition HEX_LOWER : list N := [48; 49; 50; 51; 52; 53; 54; 55; 56; 57; 97; 98; 99; 100; 101; 102].
Definition HEX_UPPER : list N := [48; 49; 50; 51; 52; 53; 54; 55; 56; 57; 65; 66; 67; 68; 69; 70].
Definition show_radix (radix : N) (table : list N) (n : N) : list N := show_fuel (S (N.to_nat (N.size n))) radix table n [].
(** [{}] of an unsigned and of a signed integer *)
Definition show_dec (n : N) : list N := show_radix 10 HEX_LOWER n.
Definition show_int (z : Z) : list N := if (z <? 0)%Z then 45 :: show_dec (Z.abs_N z) else show_dec (Z.abs_N z).
(** [{:0wx}] *)
Definition show_hex (w : nat) (table : list N) (n : N) : list N :=
  let s := show_radix 16 table n in replicate (w - length s) 48 ++ s.

(** [str::split] at a one-byte character: all the parts, at least one. *)
Fixpoint split_at (sep : N) (s : list N) : list (list N) :=
  match s with
  | [] => [[]]
  | c :: s' =>
    if c =? sep then [] :: split_at sep s'
    else match split_at sep s' with p :: ps => (c :: p) :: ps | [] => [[c]] end
  end.

(** ** Hexadecimal bytes *)
(** util.rs:538-545 [byte2hex] *)
Definition byte2hex (table : list N) (b : N) : list N :=
  [nth (N.to_nat (N.shiftr (N.land b 240) 4)) table 0; nth (N.to_nat (N.land b 15)) table 0].
(** util.rs:520-536 [encode_to_hex_slice] into a buffer of the right size *)
Definition hex_encode (table : list N) (bytes : list N) : list N := concat (map (byte2hex table) bytes).
(** hex crate: [val] *)
Definition hex_val (c : N) : option N :=
  if (65 <=? c) && (c <=? 70) then Some (c - 65 + 10)
  else if (97 <=? c) && (c <=? 102) then Some (c - 97 + 10)
  else if (48 <=? c) && (c <=? 57) then Some (c - 48) else None.
(** hex crate: [decode]; an odd length is an error. *)
Fixpoint hex_decode (s : list N) : option (list N) :=
  match s with
  | [] => Some []
  | a :: b :: s' =>
    match hex_val a, hex_val b, hex_decode s' with
    | Some x, Some y, Some r => Some (N.lor (shl 8 x 4) y :: r)
    | _, _, _ => None
    end
  | _ => None
  end.
(** hex crate: [decode_to_slice] into [n] bytes *)
Definition hex_decode_to (n : nat) (s : list N) : option (list N) :=
  if negb (length s mod 2 =? 0)%nat then None
  else if negb (length s / 2 =? n)%nat then None else hex_decode s.

(** ** Bit strings: util.rs:356-477 *)
(** 370-377 [hex_char] *)
Definition hex_char (c : N) : option N :=
  if (65 <=? c) && (c <=? 70) then Some (c - 65 + 10)
  else if (97 <=? c) && (c <=? 102) then Some (c - 97 + 10)
  else if (48 <=? c) && (c <=? 57) then Some (c - 48) else None.
(** [strip_suffix(b"_")], [split_last] *)
Definition strip_tag (s : list N) : list N * bool :=
  match rev s with c :: r => if c =? 95 then (rev r, true) else (s, false) | [] => (s, false) end.
Definition trailing_zeros (x : N) : N :=
  if N.testbit x 0 then 0 else if N.testbit x 1 then 1 else if N.testbit x 2 then 2 else if N.testbit x 3 then 3
  else if N.testbit x 4 then 4 else if N.testbit x 5 then 5 else if N.testbit x 6 then 6 else if N.testbit x 7 then 7 else 8.
(** 405-417: over the bytes from the last one; [rev_data] is reversed. *)
Fixpoint untag (rev_data : list N) (bit_len : N) : list N * N :=
  match rev_data with
  | [] => ([], bit_len)
  | b :: r =>
    if b =? 0 then let '(r', n) := untag r (w16 (bit_len + 65536 - 8)) in (b :: r', n)
    else
      let t := trailing_zeros b in
      (N.land b (shl 8 (shl 8 255 t) 1) :: r, w16 (bit_len + 65536 - (1 + t)))
  end.
(** 368-422 [from_hex_str]: the bytes and the number of bits *)
Definition from_hex_str (s : list N) : res (list N * N) :=
  if negb (forallb (fun c => c <? 128) s) || (256 <? length s)%nat then Err InvalidData
  else
    let '(s, with_tag) := strip_tag s in
    let? (s, half) :=
      (if negb (length s mod 2 =? 0)%nat then
         match rev s with
         | c :: r => match hex_char c with Some h => Ok (rev r, Some h) | None => Err InvalidData end
         | [] => Ok (s, None)
         end
       else Ok (s, None)) in
    let? data := of_opt InvalidData (hex_decode s) in
    let bit_len := w16 (w16 (N.of_nat (length data)) * 8) in
    let '(data, bit_len) :=
      match half with Some h => (data ++ [shl 8 h 4], w16 (bit_len + 4)) | None => (data, bit_len) end in
    if with_tag then
      let '(r, n) := untag (rev data) (w16 (w16 (N.of_nat (length data)) * 8)) in
      Ok (take (N.to_nat ((n + 7) / 8)) (rev r), n)
    else Ok (data, bit_len).

(** 424-472 [fmt_hex]; the bytes are printed in chunks of 16, which is the same text. *)
Definition fmt_hex (upper : bool) (bytes : list N) (bit_len0 : N) : res (list N) :=
  let table := if upper then HEX_UPPER else HEX_LOWER in
  let bit_len := w16 (N.min bit_len0 (N.of_nat (length bytes) * 8)) in
  let byte_len := N.to_nat ((bit_len + 7) / 8) in
  if (length bytes <? byte_len)%nat then Err Panic
  else
    let bytes := take byte_len bytes in
    let rem := bit_len mod 8 in
    match rev bytes with
    | last :: r =>
      if negb (rem =? 0) then
        let tag_mask := shl 8 1 (7 - rem) in
        let data_mask := N.lxor (tag_mask - 1) 255 in
        let last := N.lor (N.land last data_mask) tag_mask in
        let tag := if negb (rem =? 4) then [95] else [] in
        let width := if 4 <? rem then 2%nat else 1%nat in
        let last := if (width =? 1)%nat then N.shiftr last 4 else last in
        Ok (hex_encode table (rev r) ++ show_hex width table last ++ tag)
      else Ok (hex_encode table bytes)
    | [] => Ok (hex_encode table bytes)
    end.

(** ** Base64 (the [base64] crate, [BASE64_STANDARD] and [BASE64_URL_SAFE]) for inputs without
    padding: groups of three bytes and four characters. *)
Definition b64_char (url : bool) (x : N) : N :=
  if x <? 26 then 65 + x else if x <? 52 then 97 + (x - 26) else if x <? 62 then 48 + (x - 52)
  else if x =? 62 then (if url then 45 else 43) else (if url then 95 else 47).
Definition b64_val (url : bool) (c : N) : option N :=
  if (65 <=? c) && (c <=? 90) then Some (c - 65)
  else if (97 <=? c) && (c <=? 122) then Some (c - 97 + 26)
  else if (48 <=? c) && (c <=? 57) then Some (c - 48 + 52)
  else if c =? (if url then 45 else 43) then Some 62
  else if c =? (if url then 95 else 47) then Some 63 else None.
Fixpoint b64_encode (url : bool) (bytes : list N) : list N :=
  match bytes with
  | a :: b :: c :: r =>
    b64_char url (N.shiftr a 2) :: b64_char url (N.lor (shl 6 a 4) (N.shiftr b 4))
    :: b64_char url (N.lor (shl 6 b 2) (N.shiftr c 6)) :: b64_char url (N.land c 63) :: b64_encode url r
  | _ => []
  end.
(** Padding ([=]) gives fewer bytes than the callers ask for, so it is an error here. *)
Fixpoint b64_decode (url : bool) (s : list N) : option (list N) :=
  match s with
  | [] => Some []
  | p :: q :: r :: t :: s' =>
    match b64_val url p, b64_val url q, b64_val url r, b64_val url t, b64_decode url s' with
    | Some a, Some b, Some c, Some d, Some rest =>
      Some (N.lor (shl 8 a 2) (N.shiftr b 4) :: N.lor (shl 8 b 4) (N.shiftr c 2) :: N.lor (shl 8 c 6) d :: rest)
    | _, _, _, _, _ => None
    end
  | _ => None
  end.
