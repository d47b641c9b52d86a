(** * Addresses: src/models/message/address.rs and the address helpers of
    src/models/message/mod.rs *)
From Verif Require Import Err IntModel CellModel TextModel NumModel Crc16Model.
Local Open Scope N_scope.

(** builder.rs:1404-1471 [store_raw] on bit lists (C01): bits that the bytes do not provide are
    zeros in front.  slice.rs [load_raw] into a zeroed vector of [bits.div_ceil(8)] bytes (C03). *)
Definition raw_data (value : list N) (bits : N) : list bool :=
  zeros (N.to_nat bits - 8 * length value) ++ take (N.to_nat bits) (bytes_bits value).
Definition store_raw_bits (value : list N) (bits : N) (b : list bool) : res (list bool) := put (raw_data value bits) b.
Definition load_raw_bits (bits : N) (b : list bool) : res (list N * list bool) :=
  if (length b <? N.to_nat bits)%nat then Err CellUnderflow
  else Ok (pack (take (N.to_nat bits) b), drop (N.to_nat bits) b).
(** slice.rs [has_remaining(bits, 0)] *)
Definition has_remaining (b : list bool) (bits : N) : bool := (N.to_nat bits <=? length b)%nat.

(** builder.rs:110-125 [Store for Option], slice.rs [Load for Option]: a presence bit. *)
Definition store_opt {A} (store : A -> list bool -> res (list bool)) (x : option A) (b : list bool) : res (list bool) :=
  match x with
  | Some a => let? b := put [true] b in store a b
  | None => put [false] b
  end.
Definition load_opt {A} (load : list bool -> res (A * list bool)) (b : list bool) : res (option A * list bool) :=
  let? (f, b) := load_bit b in
  if f : bool then let? (a, b) := load b in Ok (Some a, b) else Ok (None, b).

(** ** [Anycast] (address.rs:968-1054) *)
Record anycast := Anycast { ac_depth : N; ac_prefix : list N }.
(** 990-1000 [from_slice]: the bits of the slice *)
Definition ac_from_slice (bits : list bool) : res anycast :=
  let? d := sd_from_bit_len (N.of_nat (length bits)) in
  Ok (Anycast d (pack bits)).
(** 1003-1005 [bit_len] *)
Definition ac_bit_len (a : anycast) : N := 5 + ac_depth a.
(** 1018-1030 [store_into], 1032-1047 [load_from] *)
Definition store_anycast (a : anycast) (b : list bool) : res (list bool) :=
  if negb (has_capacity b (ac_bit_len a)) then Err CellOverflow
  else
    let? b := store_sd (ac_depth a) b in
    store_raw_bits (ac_prefix a) (ac_depth a) b.
Definition load_anycast (b : list bool) : res (anycast * list bool) :=
  let? (d, b) := load_sd b in
  if negb (has_remaining b d) then Err CellUnderflow
  else
    let? (p, b) := load_raw_bits d b in
    Ok (Anycast d p, b).

(** ** [StdAddr] (address.rs:226-474) *)
Record std_addr := StdAddr { sa_anycast : option anycast; sa_wc : Z; sa_addr : list N }.
Definition opt_len (a : option anycast) : N := match a with Some a => ac_bit_len a | None => 0 end.
(** 247 [BITS_WITHOUT_ANYCAST], 324-331 [bit_len] *)
Definition BITS_WITHOUT_ANYCAST : N := 2 + 1 + 8 + 256.
Definition std_bit_len (a : std_addr) : N := BITS_WITHOUT_ANYCAST + opt_len (sa_anycast a).
(** 439-453 [store_into] *)
Definition store_std (a : std_addr) (b : list bool) : res (list bool) :=
  if negb (has_capacity b (std_bit_len a)) then Err CellOverflow
  else
    let? b := put_uint 2 2 b in
    let? b := store_opt store_anycast (sa_anycast a) b in
    let? b := put_uint (as_unsigned 8 (sa_wc a)) 8 b in
    put (bytes_bits (sa_addr a)) b.
(** 463-467 and 168-172: the fields after the tag *)
Definition load_std_body (b : list bool) : res (std_addr * list bool) :=
  let? (ac, b) := load_opt load_anycast b in
  let? (wc, b) := load_uint 8 b in
  let? (ad, b) := load_uint 256 b in
  Ok (StdAddr ac (as_signed 8 wc) (to_be 32 ad), b).
(** 455-469 [load_from] *)
Definition load_std (b : list bool) : res (std_addr * list bool) :=
  let? (t, b) := load_bit b in
  if negb t then Err InvalidTag
  else
    let? (t, b) := load_bit b in
    if t : bool then Err InvalidTag else load_std_body b.

(** 475-484 [StoreDictKey] *)
Definition std_store_key (a : std_addr) (b : list bool) : res (list bool) :=
  if (match sa_anycast a with Some _ => true | None => false end) || negb (has_capacity b BITS_WITHOUT_ANYCAST)
  then Err InvalidData
  else
    let? b := put_uint 4 3 b in
    let? b := put_uint (as_unsigned 8 (sa_wc a)) 8 b in
    put (bytes_bits (sa_addr a)) b.
(** 486-533 [LoadDictKey]: [data] are the 128 bytes of the buffer.  The two [u128] are read and
    written in big endian order on every architecture. *)
Definition std_load_key (data : list N) : option std_addr :=
  match data with
  | first :: second :: data =>
    if negb (N.land (N.lxor first 128) 224 =? 0) then None
    else
      let wc := N.lor (shl 8 first 3) (N.shiftr second 5) in
      let hi := from_be (take 16 data) in
      let lo := from_be (take 16 (drop 16 data)) in
      Some (StdAddr None (as_signed 8 wc)
        (to_be 16 (N.lor (N.shiftr hi 5) (shl 128 second 123)) ++ to_be 16 (N.lor (N.shiftr lo 5) (shl 128 hi 123))))
  | _ => None
  end.

(** ** [VarAddr] (address.rs:729-801), [IntAddr] (17-179) *)
Record var_addr := VarAddr { va_anycast : option anycast; va_len : N; va_wc : Z; va_addr : list N }.
(** 759-765 [bit_len] *)
Definition var_bit_len (a : var_addr) : N := 2 + 1 + 9 + 32 + va_len a + opt_len (va_anycast a).
(** 783-798 [store_into] *)
Definition store_var (a : var_addr) (b : list bool) : res (list bool) :=
  if negb (has_capacity b (var_bit_len a)) then Err CellOverflow
  else
    let? b := put_uint 3 2 b in
    let? b := store_opt store_anycast (va_anycast a) b in
    let? b := store_sk Uint9 (va_len a) b in
    let? b := put_uint (as_unsigned 32 (va_wc a)) 32 b in
    store_raw_bits (va_addr a) (va_len a) b.
(** 151-166: the fields after the tag *)
Definition load_var_body (b : list bool) : res (var_addr * list bool) :=
  let? (ac, b) := load_opt load_anycast b in
  let? (len, b) := load_sk Uint9 b in
  let? (wc, b) := load_uint 32 b in
  if negb (has_remaining b len) then Err CellUnderflow
  else
    let? (ad, b) := load_raw_bits len b in
    Ok (VarAddr ac len (as_signed 32 wc) ad, b).

Inductive int_addr := IStd (a : std_addr) | IVar (a : var_addr).
(** 80-85 [bit_len], 132-143 [store_into], 145-176 [load_from] *)
Definition int_bit_len (a : int_addr) : N := match a with IStd a => std_bit_len a | IVar a => var_bit_len a end.
Definition store_int (a : int_addr) (b : list bool) : res (list bool) :=
  match a with IStd a => store_std a b | IVar a => store_var a b end.
Definition load_int (b : list bool) : res (int_addr * list bool) :=
  let? (t, b) := load_bit b in
  if negb t then Err InvalidTag
  else
    let? (t, b) := load_bit b in
    if t : bool then let? (a, b) := load_var_body b in Ok (IVar a, b)
    else let? (a, b) := load_std_body b in Ok (IStd a, b).
(** 334-336 and 768-773 [prefix]: missing bytes are zeros *)
Definition addr_prefix (bytes : list N) : N := from_be (take 8 (bytes ++ replicate 8 0)).

(** mod.rs:1226-1257: addresses that may be missing *)
Definition opt_int_bit_len (a : option int_addr) : N := match a with Some a => int_bit_len a | None => 2 end.
Definition store_opt_int (a : option int_addr) (b : list bool) : res (list bool) :=
  match a with Some a => store_int a b | None => put (zeros 2) b end.
Definition load_opt_int (b : list bool) : res (option int_addr * list bool) :=
  let? (t, _) := load_bit b in
  if t : bool then let? (a, b) := load_int b in Ok (Some a, b)
  else
    let? (v, b) := load_uint 2 b in
    if v =? 0 then Ok (None, b) else Err InvalidTag.

(** ** [ExtAddr] (address.rs:836-903, mod.rs:1182-1224) *)
Record ext_addr := ExtAddr { ea_len : N; ea_data : list N }.
(** 846-861 [new] *)
Definition ext_new (len : N) (data : list N) : option ext_addr :=
  if sk_valid Uint9 len then Some (ExtAddr len data) else None.
(** mod.rs:1182-1187 *)
Definition opt_ext_bit_len (a : option ext_addr) : N := match a with Some a => 2 + (9 + ea_len a) | None => 2 end.
(** mod.rs:1189-1205 *)
Definition store_ext (a : option ext_addr) (b : list bool) : res (list bool) :=
  match a with
  | None => put (zeros 2) b
  | Some a =>
    if negb (has_capacity b (2 + 9 + ea_len a)) then Err CellOverflow
    else
      let? b := put [false] b in
      let? b := put [true] b in
      let? b := store_sk Uint9 (ea_len a) b in
      store_raw_bits (ea_data a) (ea_len a) b
  end.
(** mod.rs:1207-1224 *)
Definition load_ext (b : list bool) : res (option ext_addr * list bool) :=
  let? (t, b) := load_bit b in
  if t : bool then Err InvalidTag
  else
    let? (t, b) := load_bit b in
    if negb t then Ok (None, b)
    else
      let? (len, b) := load_sk Uint9 b in
      if negb (has_remaining b len) then Err CellUnderflow
      else
        let? (d, b) := load_raw_bits len b in
        Ok (Some (ExtAddr len d), b).

(** ** As text *)
Inductive addr_err := AEmpty | ABadFormat | AInvalidWorkchain | AInvalidAccountId | AUnexpectedPart.
Inductive ares (A : Type) := AOk (a : A) | AErr (e : addr_err).
Arguments AOk {A} a.
Arguments AErr {A} e.
Definition CCOLON : N := 58.
(** 378-386 [Display for StdAddr]; 1007-1016 [Display for Anycast] *)
Definition show_std (a : std_addr) : res (list N) :=
  let tail := show_int (sa_wc a) ++ [CCOLON] ++ hex_encode HEX_LOWER (sa_addr a) in
  match sa_anycast a with
  | Some ac => let? t := fmt_hex false (ac_prefix ac) (ac_depth ac) in Ok (t ++ [CCOLON] ++ tail)
  | None => Ok tail
  end.
(** 409-437 [FromStr for StdAddr] *)
Definition parse_std (s : list N) : ares std_addr :=
  match s with
  | [] => AErr AEmpty
  | _ =>
    match split_at CCOLON s with
    | [] => AErr AEmpty
    | wc :: parts =>
      match parse_signed 8 wc with
      | None => AErr AInvalidWorkchain
      | Some wc =>
        match parts with
        | [] => AErr AInvalidAccountId
        | ad :: parts =>
          match hex_decode_to 32 ad with
          | None => AErr AInvalidAccountId
          | Some ad => match parts with [] => AOk (StdAddr None wc ad) | _ => AErr AUnexpectedPart end
          end
        end
      end
    end
  end.

(** 668-679 [Base64StdAddrFlags], 642-651 [StdAddrFormat] *)
Record flags := Flags { f_testnet : bool; f_url : bool; f_bounceable : bool }.
Record format := Format { allow_raw : bool; allow_base64 : bool; allow_base64_url : bool }.
(** 690-727 [Display for DisplayBase64StdAddr]; the anycast part is not printed *)
Definition tag_byte (f : flags) : N :=
  as_unsigned 8 (0x51 - Z.b2z (f_bounceable f) * 0x40 + Z.b2z (f_testnet f) * 0x80).
Definition addr_payload (a : std_addr) (f : flags) : list N := tag_byte f :: as_unsigned 8 (sa_wc a) :: sa_addr a.
Definition show_base64 (a : std_addr) (f : flags) : res (list N) :=
  let? crc := crc_16 (addr_payload a f) in
  Ok (b64_encode (f_url f) (addr_payload a f ++ [w8 (N.shiftr crc 8); w8 (N.land crc 255)])).
(** 270-312 [from_str_ext]; [s.len()] counts bytes.  [url] is decided by the characters '_' and
    '-'. *)
Definition parse_std_ext (s : list N) (fmt : format) : res (ares (std_addr * flags)) :=
  let n := N.of_nat (length s) in
  if n =? 0 then Ok (AErr AEmpty)
  else if (66 <=? n) && (n <=? 69) && allow_raw fmt then
    Ok (match parse_std s with AOk a => AOk (a, Flags false false false) | AErr e => AErr e end)
  else if (n =? 48) && (allow_base64 fmt || allow_base64_url fmt) then
    let url := existsb (fun c => (c =? 95) || (c =? 45)) s in
    match b64_decode url s with
    | None => Ok (AErr ABadFormat)
    | Some buffer =>
      if negb (length buffer =? 36)%nat then Ok (AErr ABadFormat)
      else
        let? crc := crc_16 (take 34 buffer) in
        let? b34 := of_opt Panic (buffer !! 34%nat) in
        let? b35 := of_opt Panic (buffer !! 35%nat) in
        if negb (b34 =? N.shiftr crc 8) || negb (b35 =? N.land crc 255) then Ok (AErr ABadFormat)
        else
          let? b0 := of_opt Panic (buffer !! 0%nat) in
          let? b1 := of_opt Panic (buffer !! 1%nat) in
          Ok (AOk (StdAddr None (as_signed 8 b1) (take 32 (drop 2 buffer)),
            Flags (negb (N.land b0 128 =? 0)) url (N.land b0 64 =? 0)))
    end
  else Ok (AErr ABadFormat).

(** 869-877 [Display for ExtAddr], 879-900 [FromStr for ExtAddr] *)
Definition show_ext (a : ext_addr) : res (list N) :=
  let? t := fmt_hex false (ea_data a) (ea_len a) in Ok (CCOLON :: t).
Definition parse_ext (s : list N) : ares ext_addr :=
  match s with
  | [] => AErr AEmpty
  | c :: s =>
    if negb (c =? CCOLON) then AErr AUnexpectedPart
    else
      match from_hex_str s with
      | Err _ => AErr AInvalidAccountId
      | Ok (data, len) => match ext_new len data with Some a => AOk a | None => AErr AUnexpectedPart end
      end
  end.
