(** * [VarUint248]: src/num/varuint248.rs

    A value is a pair of [u128] words (high, low).  Arithmetic on words that cannot overflow
    according to the code's comments is modelled with an overflow check, so that a result
    other than [Panic] says that there is no overflow. *)
From Verif Require Import Err CellModel TextModel NumModel.
Local Open Scope N_scope.

Definition W128 : N := 2 ^ 128.
Definition MAX128 : N := 2 ^ 128 - 1.
(** varuint248.rs:13 [VarUint248]; 41-64 [from_words], [into_words] (little endian) *)
Record v248 := V248 { v_hi : N; v_lo : N }.
(** 17-26 [ZERO], [ONE], [MAX]; 36-38 [new] *)
Definition v248_zero : v248 := V248 0 0.
Definition v248_max : v248 := V248 (N.shiftr MAX128 8) MAX128.
Definition v248_new (v : N) : v248 := V248 0 v.
(** 73-81 [is_zero], [is_valid] *)
Definition v248_is_zero (a : v248) : bool := (v_lo a =? 0) && (v_hi a =? 0).
Definition v248_valid (a : v248) : bool := v_hi a <=? N.shiftr MAX128 8.
(** 95-102 [leading_zeros]; 85-92 [bit_len]; 270-278 [exact_size] *)
Definition v248_lz (a : v248) : N := if v_hi a =? 0 then 128 + lz 128 (v_lo a) else lz 128 (v_hi a).
Definition v248_len (a : v248) : N := w8 (32 - v248_lz a / 8).
Definition v248_bit_len (a : v248) : option N :=
  if 31 <? v248_len a then None else Some (5 + v248_len a * 8).

(** [overflowing_add], [overflowing_sub], [overflowing_mul] on [u128] *)
Definition ovadd (a b : N) : N * bool := ((a + b) mod W128, W128 <=? a + b).
Definition ovsub (a b : N) : N * bool := ((a + W128 - b) mod W128, a <? b).
Definition ovmul (a b : N) : N * bool := ((a * b) mod W128, W128 <=? a * b).
Definition b2n (b : bool) : N := if b then 1 else 0.
(** plain [+], [-], [*] on [u128] where an overflow would be a bug *)
Definition xadd (a b : N) : res N := o_add true 128 a b.
Definition xsub (a b : N) : res N := o_sub true 128 a b.
Definition xmul (a b : N) : res N := o_mul true 128 a b.

(** 143-154 [checked_add] *)
Definition v248_checked_add (a b : v248) : option v248 :=
  let '(lo, carry_lo) := ovadd (v_lo a) (v_lo b) in
  let '(hi, carry_c) := ovadd (v_hi a) (b2n carry_lo) in
  let '(hi, carry_hi) := ovadd hi (v_hi b) in
  if carry_c || carry_hi then None
  else let r := V248 hi lo in if v248_valid r then Some r else None.
(** 159-170 [checked_sub] *)
Definition v248_checked_sub (a b : v248) : option v248 :=
  let '(lo, carry_lo) := ovsub (v_lo a) (v_lo b) in
  let '(hi, carry_c) := ovsub (v_hi a) (b2n carry_lo) in
  let '(hi, carry_hi) := ovsub hi (v_hi b) in
  if carry_c || carry_hi then None
  else let r := V248 hi lo in if v248_valid r then Some r else None.
(** 107-112 [saturating_add], 117-128 [saturating_sub] *)
Definition v248_saturating_add (a b : v248) : v248 :=
  match v248_checked_add a b with Some v => v | None => v248_max end.
Definition v248_saturating_sub (a b : v248) : v248 :=
  let '(lo, carry_lo) := ovsub (v_lo a) (v_lo b) in
  let '(hi, carry_c) := ovsub (v_hi a) (b2n carry_lo) in
  let '(hi, carry_hi) := ovsub hi (v_hi b) in
  if carry_c || carry_hi then v248_zero
  else let r := V248 hi lo in if v248_valid r then r else v248_max.
(** 795-814 [umulddi3] *)
Definition LOWER_MASK : N := 2 ^ 64 - 1.
Definition umulddi3 (a b : N) : res v248 :=
  let? low := xmul (N.land a LOWER_MASK) (N.land b LOWER_MASK) in
  let t := N.shiftr low 64 in
  let low := N.land low LOWER_MASK in
  let? m := xmul (N.shiftr a 64) (N.land b LOWER_MASK) in
  let? t := xadd t m in
  let? low := xadd low (shl 128 (N.land t LOWER_MASK) 64) in
  let high := N.shiftr t 64 in
  let t := N.shiftr low 64 in
  let low := N.land low LOWER_MASK in
  let? m := xmul (N.shiftr b 64) (N.land a LOWER_MASK) in
  let? t := xadd t m in
  let? low := xadd low (shl 128 (N.land t LOWER_MASK) 64) in
  let? high := xadd high (N.shiftr t 64) in
  let? m := xmul (N.shiftr a 64) (N.shiftr b 64) in
  let? high := xadd high m in
  Ok (V248 high low).
(** 175-197 [checked_mul] *)
Definition v248_checked_mul (a b : v248) : res (option v248) :=
  let? r := umulddi3 (v_lo a) (v_lo b) in
  let '(hi_lo, overflow_hi_lo) := ovmul (v_hi a) (v_lo b) in
  let '(lo_hi, overflow_lo_hi) := ovmul (v_lo a) (v_hi b) in
  let '(hi, overflow_hi) := ovadd hi_lo lo_hi in
  let '(high, overflow_high) := ovadd (v_hi r) hi in
  let overflow_hi_hi := negb (v_hi a =? 0) && negb (v_hi b =? 0) in
  Ok (if overflow_hi_lo || overflow_lo_hi || overflow_hi || overflow_high || overflow_hi_hi || negb (v248_valid a)
      then None else Some (V248 high (v_lo r))).
(** 133-138 [saturating_mul] *)
Definition v248_saturating_mul (a b : v248) : res v248 :=
  let? r := v248_checked_mul a b in Ok (match r with Some v => v | None => v248_max end).

(** 286-290 [cmp]: lexicographic on (high, low) *)
Definition v248_cmp (a b : v248) : comparison :=
  match N.compare (v_hi a) (v_hi b) with Eq => N.compare (v_lo a) (v_lo b) | c => c end.

(** 460-469 [add_assign]: as written, the high word of [self] is not used *)
Definition v248_add (a b : v248) : v248 :=
  let '(lo, carry) := ovadd (v_lo a) (v_lo b) in
  V248 (((v_hi b + b2n carry) mod W128 + v_hi b) mod W128) lo.
(** 514-523 [sub_assign] *)
Definition v248_sub (a b : v248) : v248 :=
  let '(lo, carry) := ovsub (v_lo a) (v_lo b) in
  V248 (fst (ovsub (fst (ovsub (v_hi a) (b2n carry))) (v_hi b))) lo.
(** 670-683 [mul_assign] *)
Definition v248_mul (a b : v248) : res v248 :=
  let? r := umulddi3 (v_lo a) (v_lo b) in
  let a_hi_mul_b_lo := (v_hi a * v_lo b) mod W128 in
  let a_lo_mul_b_hi := (v_lo a * v_hi b) mod W128 in
  Ok (V248 ((v_hi r + (a_hi_mul_b_lo + a_lo_mul_b_hi) mod W128) mod W128) (v_lo r)).
(** 555-574 [shr_assign], for shifts below 256 (the code's debug assertion) *)
Definition v248_shr (a : v248) (n : N) : res v248 :=
  if negb (n <? 256) then Err Panic
  else if n =? 0 then Ok a
  else if n <=? 127 then
    Ok (V248 (N.shiftr (v_hi a) n) (N.lor (N.shiftr (v_lo a) n) (shl 128 (v_hi a) (128 - n))))
  else Ok (V248 0 (N.shiftr (v_hi a) (N.land n 127))).
(** 605-624 [shl_assign] *)
Definition v248_shl (a : v248) (n : N) : res v248 :=
  if negb (n <? 256) then Err Panic
  else if n =? 0 then Ok a
  else if n <=? 127 then
    Ok (V248 (N.lor (shl 128 (v_hi a) n) (N.shiftr (v_lo a) (128 - n))) (shl 128 (v_lo a) n))
  else Ok (V248 (shl 128 (v_lo a) (N.land n 127)) 0).

(** 922-928 and 940-946: the loops that correct a guessed quotient digit; [fuel] bounds the
    number of rounds and [OutOfFuel] is excluded by the theorems *)
Definition B64 : N := 2 ^ 64.
Fixpoint fix_digit (fuel : nat) (q rhat vn1 vn0 un : N) : res N :=
  match fuel with
  | O => Err OutOfFuel
  | S f =>
    let? again :=
      if B64 <=? q then Ok true
      else
        let? l := xmul q vn0 in
        let? r := xmul B64 rhat in
        let? r := xadd r un in
        Ok (r <? l) in
    if negb again then Ok q
    else
      let? q := xsub q 1 in
      let? rhat := xadd rhat vn1 in
      if B64 <=? rhat then Ok q else fix_digit f q rhat vn1 vn0 un
  end.
Definition wmul (a b : N) : N := (a * b) mod W128.
Definition wadd (a b : N) : N := (a + b) mod W128.
Definition wsub (a b : N) : N := (a + W128 - b) mod W128.
(** 886-954 [udiv256_by_128_to_128]: quotient and remainder *)
Definition udiv256 (u1 u0 v : N) : res (N * N) :=
  let s := lz 128 v in
  let '(v, un128, un10) :=
    if 0 <? s then (shl 128 v s, N.lor (shl 128 u1 s) (N.shiftr u0 (128 - s)), shl 128 u0 s)
    else (v, u1, u0) in
  let vn1 := N.shiftr v 64 in
  let vn0 := N.land v LOWER_MASK in
  let un1 := N.shiftr un10 64 in
  let un0 := N.land un10 LOWER_MASK in
  let? q1 := o_div un128 vn1 in
  let? m := xmul q1 vn1 in
  let? rhat := xsub un128 m in
  let? q1 := fix_digit 3 q1 rhat vn1 vn0 un1 in
  let un21 := wsub (wadd (wmul un128 B64) un1) (wmul q1 v) in
  let? q0 := o_div un21 vn1 in
  let? m := xmul q0 vn1 in
  let? rhat := xsub un21 m in
  let? q0 := fix_digit 3 q0 rhat vn1 vn0 un0 in
  let r := N.shiftr (wsub (wadd (wmul un21 B64) un0) (wmul q0 v)) s in
  let? q := xmul q1 B64 in
  let? q := xadd q q0 in
  Ok (q, r).

(** 962-973 [full_shl]: three words, lowest first *)
Definition full_shl (a : v248) (shift : N) : res (N * N * N) :=
  let? u_hi := v248_shr a (128 - shift) in
  Ok (shl 128 (v_lo a) shift, v_lo u_hi, v_hi u_hi).
(** 975-989 [full_shr] *)
Definition full_shr (u : N * N * N) (shift : N) : v248 :=
  let '(u0, u1, u2) := u in
  let lo := N.shiftr u0 shift in
  let hi := N.shiftr u1 shift in
  if 0 <? shift then V248 (N.lor hi (shl 128 u2 (128 - shift))) (N.lor lo (shl 128 u1 (128 - shift)))
  else V248 hi lo.
(** 991-995 [split_u128_to_u128]: low and high halves *)
Definition split128 (a : N) : N * N := (N.land a LOWER_MASK, N.shiftr a 64).
(** 997-1017 [fullmul_u128]: low and high words *)
Definition fullmul128 (a b : N) : res (N * N) :=
  let '(a0, a1) := split128 a in
  let '(b0, b1) := split128 b in
  let? t := xmul a0 b0 in
  let '(w3, k) := split128 t in
  let? m := xmul a1 b0 in
  let? t := xadd m k in
  let '(w1, w2) := split128 t in
  let? m := xmul a0 b1 in
  let? t := xadd m w1 in
  let k := N.shiftr t 64 in
  let? m := xmul a1 b1 in
  let? w_hi := xadd m w2 in
  let? w_hi := xadd w_hi k in
  let? w_lo := xadd (shl 128 t 64) w3 in
  Ok (w_lo, w_hi).
(** 1019-1035 [fullmul_u256_u128] *)
Definition fullmul256 (a : v248) (b : N) : res (N * N * N) :=
  if b =? 0 then Ok (0, 0, 0)
  else
    let? (lo, carry) := fullmul128 (v_lo a) b in
    let? (lo2, carry2) := fullmul128 (v_hi a) b in
    let '(acc1, c) := ovadd carry lo2 in
    let? acc2 := xadd carry2 (b2n c) in
    Ok (lo, acc1, acc2).
(** 1037-1051 [add_carry], [sub_carry] *)
Definition add_carry (a b : N) (c : bool) : N * bool :=
  let '(res1, overflow1) := ovadd b (b2n c) in
  let '(res2, overflow2) := ovadd a res1 in (res2, overflow1 || overflow2).
Definition sub_carry (a b : N) (c : bool) : N * bool :=
  let '(res1, overflow1) := ovadd b (b2n c) in
  let '(res2, overflow2) := ovsub a res1 in (res2, overflow1 || overflow2).
(** 1083-1098: the loop that corrects the guessed quotient word *)
Fixpoint fix_word (fuel : nat) (q_hat r_hat v1 v2 u0 : N) : res N :=
  match fuel with
  | O => Err OutOfFuel
  | S f =>
    let? (lo, hi) := fullmul128 q_hat v2 in
    let again := (r_hat <? hi) || ((hi =? r_hat) && (u0 <? lo)) in
    if negb again then Ok q_hat
    else
      let? q_hat := xsub q_hat 1 in
      let '(r_hat, overflow) := ovadd r_hat v1 in
      if overflow then Ok q_hat else fix_word f q_hat r_hat v1 v2 u0
  end.
(** 956-1138 [div_mod_knuth] *)
Definition div_mod_knuth (u v : v248) : res (v248 * v248) :=
  let shift := lz 128 (v_hi v) in
  let? v := v248_shl v shift in
  let? (u0, u1, u2) := full_shl u shift in
  let v1 := v_hi v in
  let v2 := v_lo v in
  let? q_hat :=
    if u2 <? v1 then
      let? (q_hat, r_hat) := udiv256 u2 u1 v1 in
      fix_word 4 q_hat r_hat v1 v2 u0
    else Ok MAX128 in
  let? (p0, p1, p2) := fullmul256 v q_hat in
  let '(u0, c) := sub_carry u0 p0 false in
  let '(u1, c) := sub_carry u1 p1 c in
  let '(u2, c) := sub_carry u2 p2 c in
  let? (q_hat, u0, u1, u2) :=
    if c : bool then
      let? q_hat := xsub q_hat 1 in
      let '(u0, c) := add_carry u0 (v_lo v) false in
      let '(u1, c) := add_carry u1 (v_hi v) c in
      Ok (q_hat, u0, u1, wadd u2 (b2n c))
    else Ok (q_hat, u0, u1, u2) in
  Ok (V248 0 q_hat, full_shr (u0, u1, u2) shift).
(** 816-884 [udivmod]: quotient and remainder *)
Definition udivmod (a b : v248) : res (v248 * v248) :=
  if N.lor (v_hi a) (v_hi b) =? 0 then
    if v_lo b =? 0 then Err Panic
    else Ok (V248 0 (v_lo a / v_lo b), V248 0 (v_lo a mod v_lo b))
  else if match v248_cmp b a with Gt => true | _ => false end then Ok (v248_zero, a)
  else if v_hi b =? 0 then
    if v_hi a <? v_lo b then
      let? (q, r) := udiv256 (v_hi a) (v_lo a) (v_lo b) in Ok (V248 0 q, V248 0 r)
    else
      if v_lo b =? 0 then Err Panic
      else
        let? (q, r) := udiv256 (v_hi a mod v_lo b) (v_lo a) (v_lo b) in
        Ok (V248 (v_hi a / v_lo b) q, V248 0 r)
  else div_mod_knuth a b.
(** 729-738 [div_assign], 783-793 [rem_assign] *)
Definition v248_div (a b : v248) : res v248 := let? (q, _) := udivmod a b in Ok q.
Definition v248_rem (a b : v248) : res v248 := let? (_, r) := udivmod a b in Ok r.

(** 306-324 [store_into], 326-343 [load_from] *)
Definition store_v248 (a : v248) (b : list bool) : res (list bool) :=
  let bytes := v248_len a in
  let bits := bytes * 8 in
  if (31 <? bytes) || negb (has_capacity b (5 + bits)) then Err CellOverflow
  else
    let? b := put_uint bytes 5 b in
    match p_sub bits 128 with
    | Some high =>
      let? b := store_u128 (v_hi a) high b in
      store_u128 (v_lo a) (bits - high) b
    | None => store_u128 (v_lo a) bits b
    end.
Definition load_v248 (b : list bool) : res (v248 * list bool) :=
  let? (bytes, b) := load_uint 5 b in
  let? (hi, bytes, b) :=
    match p_sub bytes 16 with
    | Some high =>
      if 0 <? high then
        let? (hi, b) := load_u128 high b in Ok (hi, bytes - high, b)
      else Ok (0, bytes, b)
    | None => Ok (0, bytes, b)
    end in
  let? (lo, b) := load_u128 bytes b in
  Ok (V248 hi lo, b).

(** 1146-1151 [DEC_DIGITS_LUT]: "000102...99" *)
Definition lut2 (d : N) : res (list N) :=
  (* [d] is twice a number; the two characters at offset [d] of the 200-byte table *)
  if d + 2 <=? 200 then Ok [48 + d / 2 / 10; 48 + d / 2 mod 10] else Err UB.
(** writing [s] in front of what is already in the 79-byte buffer *)
Definition in_front (s buf : list N) : res (list N) :=
  if (79 <? length s + length buf)%nat then Err UB else Ok (s ++ buf).
(** 1171-1184: four characters per round *)
Fixpoint fmt_loop (fuel : nat) (n : v248) (buf : list N) : res (v248 * list N) :=
  match fuel with
  | O => Err OutOfFuel
  | S f =>
    match v248_cmp n (v248_new 10000) with
    | Lt => Ok (n, buf)
    | _ =>
      let? rem := v248_rem n (v248_new 10000) in
      let? n := v248_div n (v248_new 10000) in
      let? s1 := lut2 (v_lo rem / 100 * 2) in
      let? s2 := lut2 (v_lo rem mod 100 * 2) in
      let? buf := in_front (s1 ++ s2) buf in
      fmt_loop f n buf
    end
  end.
(** 1153-1217 [fmt_var_uint248] *)
Definition v248_display (n : v248) : res (list N) :=
  let? (n, buf) := fmt_loop 80 n [] in
  let n := v_lo n in
  let? (n, buf) :=
    if 100 <=? n then
      let? s := lut2 (n mod 100 * 2) in
      let? buf := in_front s buf in Ok (n / 100, buf)
    else Ok (n, buf) in
  if n <? 10 then in_front [n + 48] buf
  else
    let? s := lut2 (n * 2) in in_front s buf.
(** 1276-1282: at most 64 digits *)
Fixpoint parse_fast (radix : N) (s : list N) (r : v248) : res (option v248) :=
  match s with
  | [] => Ok (Some r)
  | c :: s' =>
    let? r := v248_mul r (v248_new radix) in
    match to_digit radix c with
    | None => Ok None
    | Some x => parse_fast radix s' (v248_add r (v248_new x))
    end
  end.
(** 1284-1298: longer texts *)
Fixpoint parse_slow (radix : N) (s : list N) (r : v248) : res (option v248) :=
  match s with
  | [] => Ok (Some r)
  | c :: s' =>
    let? r := v248_checked_mul r (v248_new radix) in
    match r with
    | None => Ok None
    | Some r =>
      match to_digit radix c with
      | None => Ok None
      | Some x =>
        match v248_checked_add r (v248_new x) with
        | None => Ok None
        | Some r => parse_slow radix s' r
        end
      end
    end
  end.
(** 1227-1302 [from_str_radix] without a prefix; the kinds of parse errors are not told apart *)
Definition v248_from_str_radix (radix : N) (s : list N) : res (option v248) :=
  if negb ((2 <=? radix) && (radix <=? 36)) then Err Panic
  else
    let digits :=
      match s with
      | [] => []
      | c :: s' => if ((c =? 43) || (c =? 45)) && (length s' =? 0)%nat then []
                   else if c =? 43 then s' else s
      end in
    if (length digits =? 0)%nat then Ok None
    else if (radix <=? 16) && (length digits <=? 64)%nat then parse_fast radix digits v248_zero
    else parse_slow radix digits v248_zero.
