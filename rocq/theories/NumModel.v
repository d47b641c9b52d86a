(** * Integer types of blockchain models: src/num/mod.rs

    [VarUint24], [VarUint56], [Tokens] (macro [impl_var_uints!]), [Uint9], [Uint12], [Uint15]
    (macro [impl_small_uints!]) and [SplitDepth].  A value is the wrapped primitive integer,
    a number below two to the width of that primitive type. *)
From Verif Require Import Err CellModel TextModel.
Local Open Scope N_scope.

(** ** The primitive integer types of width [w] *)
(** [checked_add], [checked_sub], [checked_mul], [checked_div] *)
Definition p_add (w a b : N) : option N := if a + b <? 2 ^ w then Some (a + b) else None.
Definition p_sub (a b : N) : option N := if b <=? a then Some (a - b) else None.
Definition p_mul (w a b : N) : option N := if a * b <? 2 ^ w then Some (a * b) else None.
Definition p_div (a b : N) : option N := if b =? 0 then None else Some (a / b).
(** The operators [+ - * / >> <<].  [dbg] tells a build with overflow checks (a panic) from
    one without (wrap-around; shift amounts are taken modulo the width). *)
Definition o_add (dbg : bool) (w a b : N) : res N :=
  if a + b <? 2 ^ w then Ok (a + b) else if dbg then Err Panic else Ok ((a + b) mod 2 ^ w).
Definition o_sub (dbg : bool) (w a b : N) : res N :=
  if b <=? a then Ok (a - b) else if dbg then Err Panic else Ok ((a + 2 ^ w - b) mod 2 ^ w).
Definition o_mul (dbg : bool) (w a b : N) : res N :=
  if a * b <? 2 ^ w then Ok (a * b) else if dbg then Err Panic else Ok ((a * b) mod 2 ^ w).
Definition o_div (a b : N) : res N := if b =? 0 then Err Panic else Ok (a / b).
Definition o_shr (dbg : bool) (w a n : N) : res N :=
  if n <? w then Ok (N.shiftr a n) else if dbg then Err Panic else Ok (N.shiftr a (n mod w)).
Definition o_shl (dbg : bool) (w a n : N) : res N :=
  if n <? w then Ok (shl w a n) else if dbg then Err Panic else Ok (shl w a (n mod w)).
(** [leading_zeros] *)
Definition lz (w v : N) : N := w - N.size v.

(** ** Variable-length integers *)
(** num/mod.rs:534-549: name, wrapped type and number of bytes *)
Inductive vkind := VarUint24 | VarUint56 | Tokens.
Definition vk_width (k : vkind) : N := match k with VarUint24 => 32 | VarUint56 => 64 | Tokens => 128 end.
Definition vk_bytes (k : vkind) : N := match k with VarUint24 => 3 | VarUint56 => 7 | Tokens => 15 end.
(** 344 [MAX], 347 [LEN_BITS], 350 [MAX_BITS] *)
Definition vk_max (k : vkind) : N := shl (vk_width k) 1 (vk_bytes k * 8) - 1.
Definition vk_len_bits (k : vkind) : N := 8 - lz 8 (vk_bytes k).
Definition vk_max_bits (k : vkind) : N := vk_len_bits k + vk_bytes k * 8.
(** 372-374 [is_valid] *)
Definition vk_valid (k : vkind) (v : N) : bool := v <=? vk_max k.
(** 379, 392, 617, 641, 665: the number of bytes to write *)
Definition vk_len (k : vkind) (v : N) : N := w8 (vk_width k / 8 - lz (vk_width k) v / 8).
(** 378-385 [bit_len], 391-398 [unwrap_bit_len], 522-527 [exact_size] *)
Definition vk_bit_len (k : vkind) (v : N) : option N :=
  if vk_bytes k <? vk_len k v then None else Some (vk_len_bits k + vk_len k v * 8).
Definition vk_unwrap_bit_len (k : vkind) (v : N) : N :=
  if vk_bytes k <? vk_len k v then vk_max_bits k else vk_len_bits k + vk_len k v * 8.
Definition vk_exact_size (k : vkind) (v : N) : N := match vk_bit_len k v with Some n => n | None => 0 end.

(** 437-473 [checked_add] .. [checked_div] *)
Definition upto (max : N) (o : option N) : option N :=
  match o with Some v => if v <=? max then Some v else None | None => None end.
Definition vk_checked_add (k : vkind) (a b : N) : option N := upto (vk_max k) (p_add (vk_width k) a b).
Definition vk_checked_sub (k : vkind) (a b : N) : option N := upto (vk_max k) (p_sub a b).
Definition vk_checked_mul (k : vkind) (a b : N) : option N := upto (vk_max k) (p_mul (vk_width k) a b).
Definition vk_checked_div (k : vkind) (a b : N) : option N := upto (vk_max k) (p_div a b).
(** 404-409 [saturating_add], 415-421 [saturating_sub], 427-432 [saturating_mul] *)
Definition vk_saturating_add (k : vkind) (a b : N) : N :=
  match p_add (vk_width k) a b with Some v => if v <=? vk_max k then v else vk_max k | None => vk_max k end.
Definition vk_saturating_sub (k : vkind) (a b : N) : N :=
  match p_sub a b with Some v => if v <=? vk_max k then v else vk_max k | None => 0 end.
Definition vk_saturating_mul (k : vkind) (a b : N) : N :=
  match p_mul (vk_width k) a b with Some v => if v <=? vk_max k then v else vk_max k | None => vk_max k end.
(** 476-517 [try_add_assign], [try_sub_assign], [try_mul_assign], [try_div_assign]: the result
    and the value of [self] afterwards *)
Definition try_assign (self : N) (o : option N) : res unit * N :=
  match o with Some v => (Ok tt, v) | None => (Err IntOverflow, self) end.
Definition vk_try_add (k : vkind) (a b : N) := try_assign a (vk_checked_add k a b).
Definition vk_try_sub (k : vkind) (a b : N) := try_assign a (vk_checked_sub k a b).
Definition vk_try_mul (k : vkind) (a b : N) := try_assign a (vk_checked_mul k a b).
Definition vk_try_div (k : vkind) (a b : N) := try_assign a (vk_checked_div k a b).

(** ** Storing and loading *)
(** [has_capacity(bits, 0)] and [store_uint(value, bits)] for at most 64 bits (C01, C02) *)
Definition has_capacity (b : list bool) (bits : N) : bool := N.of_nat (length b) + bits <=? 1023.
Definition put_uint (v bits : N) (b : list bool) : res (list bool) := put (nbits (N.to_nat bits) v) b.
(** 1039-1045 [store_u128]; [value as u64] keeps the low 64 bits *)
Definition store_u128 (v bits : N) (b : list bool) : res (list bool) :=
  match p_sub bits 64 with
  | Some high =>
    let? b := put_uint (w64 (N.shiftr v 64)) high b in
    put_uint (w64 v) (bits - high) b
  | None => put_uint (w64 v) bits b
  end.
(** 1047-1060 [load_u128] *)
Definition load_u128 (bytes : N) (b : list bool) : res (N * list bool) :=
  let? (result, bytes, b) :=
    match p_sub bytes 8 with
    | Some high =>
      if 0 <? high then
        let? (x, b) := load_uint (N.to_nat (high * 8)) b in
        Ok (shl 128 x 64, bytes - high, b)
      else Ok (0, bytes, b)
    | None => Ok (0, bytes, b)
    end in
  let? (x, b) := load_uint (N.to_nat (bytes * 8)) b in
  Ok (N.lor result x, b).
(** 615-627 (VarUint24), 639-651 (VarUint56), 663-675 (Tokens) [store_into] *)
Definition store_vk (k : vkind) (v : N) (b : list bool) : res (list bool) :=
  let bytes := vk_len k v in
  let bits := bytes * 8 in
  if (vk_bytes k <? bytes) || negb (has_capacity b (vk_len_bits k + bits)) then Err CellOverflow
  else
    let? b := put_uint bytes (vk_len_bits k) b in
    match k with
    | VarUint24 | VarUint56 => put_uint v bits b
    | Tokens => store_u128 v bits b
    end.
(** 629-637, 653-661, 677-685 [load_from]; [value as u32] keeps the low 32 bits *)
Definition load_vk (k : vkind) (b : list bool) : res (N * list bool) :=
  let? (bytes, b) := load_uint (N.to_nat (vk_len_bits k)) b in
  match k with
  | VarUint24 => let? (v, b) := load_uint (N.to_nat (bytes * 8)) b in Ok (w32 v, b)
  | VarUint56 => load_uint (N.to_nat (bytes * 8)) b
  | Tokens => load_u128 bytes b
  end.
(** 93-109 [from_str], 125-129 [Display] *)
Definition vk_from_str (k : vkind) (s : list N) : option N :=
  match parse_unsigned 10 (2 ^ vk_width k - 1) s with
  | Some v => if vk_valid k v then Some v else None
  | None => None
  end.
Definition vk_display (v : N) : list N := show_dec v.
(** 64-75 [try_from] *)
Definition vk_try_from (k : vkind) (v : N) : option N := if vk_valid k v then Some v else None.

(** ** Small fixed-width integers (wrapped [u16]) *)
(** 871-880 *)
Inductive skind := Uint9 | Uint12 | Uint15.
Definition sk_bits (k : skind) : N := match k with Uint9 => 9 | Uint12 => 12 | Uint15 => 15 end.
(** 711 [MAX], 736-738 [is_valid] *)
Definition sk_max (k : skind) : N := shl 16 1 (sk_bits k) - 1.
Definition sk_valid (k : skind) (v : N) : bool := v <=? sk_max k.
(** 744-813 *)
Definition sk_checked_add (k : skind) (a b : N) : option N := upto (sk_max k) (p_add 16 a b).
Definition sk_checked_sub (k : skind) (a b : N) : option N := upto (sk_max k) (p_sub a b).
Definition sk_checked_mul (k : skind) (a b : N) : option N := upto (sk_max k) (p_mul 16 a b).
Definition sk_checked_div (k : skind) (a b : N) : option N := upto (sk_max k) (p_div a b).
Definition sk_saturating_add (k : skind) (a b : N) : N :=
  match p_add 16 a b with Some v => if v <=? sk_max k then v else sk_max k | None => sk_max k end.
Definition sk_saturating_sub (k : skind) (a b : N) : N :=
  match p_sub a b with Some v => if v <=? sk_max k then v else sk_max k | None => 0 end.
Definition sk_saturating_mul (k : skind) (a b : N) : N :=
  match p_mul 16 a b with Some v => if v <=? sk_max k then v else sk_max k | None => sk_max k end.
(** 823-834 [store_into], 836-843 [load_from] *)
Definition store_sk (k : skind) (v : N) (b : list bool) : res (list bool) :=
  if negb (sk_valid k v) then Err IntOverflow else put_uint v (sk_bits k) b.
Definition load_sk (k : skind) (b : list bool) : res (N * list bool) :=
  let? (v, b) := load_uint (N.to_nat (sk_bits k)) b in Ok (w16 v, b).
(** 849-857 [store_into_data] (into an empty buffer of 128 zero bytes), 859-866
    [load_from_data]: the first two bytes, shifted *)
Definition sk_store_key (k : skind) (v : N) (b : list bool) : res (list bool) := store_sk k v b.
Definition sk_load_key (k : skind) (data : list N) : option N :=
  match data with
  | d0 :: d1 :: _ => Some (N.shiftr (from_be [d0; d1]) (16 - sk_bits k))
  | _ => None
  end.

(** ** [SplitDepth] (wrapped [NonZeroU8]) *)
(** 936-941 [new], 945-951 [from_bit_len], 955-957 [into_bit_len] *)
Definition sd_new (v : N) : res N := if v =? 0 then Err IntOverflow else Ok v.
Definition sd_from_bit_len (n : N) : res N := if n <? 255 then sd_new (w8 n) else Err IntOverflow.
(** 986-990 [store_into], 992-999 [load_from]; [store_small_uint(v, 5)] writes the low five bits *)
Definition store_sd (v : N) (b : list bool) : res (list bool) := put_uint v 5 b.
Definition load_sd (b : list bool) : res (N * list bool) :=
  let? (v, b) := load_uint 5 b in
  let? v := sd_new v in Ok (v, b).
