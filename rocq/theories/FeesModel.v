(** * Fees: src/models/config/params.rs

    Numbers are machine words; a [u128] product of two [u64] values is written without a
    reduction because it cannot overflow ([C55_no_overflow]). *)
From Verif Require Import Err IntModel NumModel Var248Model CellModel ChunkModel.
Local Open Scope N_scope.

(** [saturating_add], [saturating_mul] on [u128] *)
Definition sat_add (a b : N) : N := N.min (a + b) MAX128.
Definition sat_mul (a b : N) : N := N.min (a * b) MAX128.
(** [a * b] on [u128] in a debug build: an overflow panics *)
Definition mul128 (a b : N) : res N := if a * b <? 2 ^ 128 then Ok (a * b) else Err Panic.
(** 1599-1602 [shift_ceil_price] *)
Definition shift_ceil (v : N) : N := N.shiftr v 16 + N.b2n (negb (N.land v 0xffff =? 0)).

(** 12-23 [BurningConfig], 37-40 [is_valid], 46-62 [compute_burned_fees] *)
Record burning := Burning { bu_addr : option (list N); bu_num : N; bu_denom : N }.
Definition burning_valid (b : burning) : bool := bu_num b <=? bu_denom b.
Definition burned_fees (b : burning) (tokens : N) : res N :=
  if bu_num b =? 0 then Ok 0
  else if negb (burning_valid b) then Err InvalidData
  else
    let? t := v248_mul (v248_new tokens) (v248_new (bu_num b)) in
    let? t := v248_div t (v248_new (bu_denom b)) in
    if v_hi t =? 0 then Ok (v_lo t) else Err Panic.

(** cell/mod.rs [CellTreeStats] *)
Record stats := Stats { sz_bits : N; sz_cells : N }.
(** 373-389 [StoragePrices], 391-410 [compute_storage_fee] *)
Record storage_prices := StoragePrices { sp_since : N; sp_bit : N; sp_cell : N; sp_mc_bit : N; sp_mc_cell : N }.
Definition storage_fee (p : storage_prices) (masterchain : bool) (delta : N) (s : stats) : res N :=
  let? r := if masterchain then
      let? a := mul128 (sz_cells s) (sp_mc_cell p) in let? b := mul128 (sz_bits s) (sp_mc_bit p) in Ok (sat_add a b)
    else
      let? a := mul128 (sz_cells s) (sp_cell p) in let? b := mul128 (sz_bits s) (sp_bit p) in Ok (sat_add a b) in
  Ok (shift_ceil (sat_mul r delta)).

(** 413-436 [GasLimitsPrices], 438-447 [compute_gas_fee] *)
Record gas_prices := GasPrices { gp_price : N; gp_limit : N; gp_special : N; gp_credit : N; gp_block : N; gp_freeze : N; gp_delete : N; gp_flat_limit : N; gp_flat_price : N }.
Definition gas_fee (p : gas_prices) (used : N) : res N :=
  if gp_flat_limit p <=? used then
    let? x := mul128 (gp_price p) (used - gp_flat_limit p) in
    Ok (sat_add (gp_flat_price p) (shift_ceil x))
  else Ok (gp_flat_price p).

(** 539-556 [MsgForwardPrices], 559-568 [compute_fwd_fee], 571-578 [get_first_part],
    [get_next_part] *)
Record fwd_prices := FwdPrices { fp_lump : N; fp_bit : N; fp_cell : N; fp_ihr : N; fp_first : N; fp_next : N }.
Definition fwd_fee (p : fwd_prices) (s : stats) : res N :=
  let? a := mul128 (sz_cells s) (fp_cell p) in
  let? b := mul128 (sz_bits s) (fp_bit p) in
  Ok (sat_add (fp_lump p) (shift_ceil (sat_add a b))).
Definition first_part (p : fwd_prices) (total : N) : N := N.shiftr (sat_mul total (fp_first p)) 16.
Definition next_part (p : fwd_prices) (total : N) : N := N.shiftr (sat_mul total (fp_next p)) 16.

(** 450-475 [store_into] of [GasLimitsPrices] *)
Definition store_gas (p : gas_prices) (c : chunk) : res chunk :=
  let? c := store_un 8 0xd1 c in
  let? c := store_un 64 (gp_flat_limit p) c in
  let? c := store_un 64 (gp_flat_price p) c in
  let? c := store_un 8 0xde c in
  let? c := store_un 64 (gp_price p) c in
  let? c := store_un 64 (gp_limit p) c in
  let? c := store_un 64 (gp_special p) c in
  let? c := store_un 64 (gp_credit p) c in
  let? c := store_un 64 (gp_block p) c in
  let? c := store_un 64 (gp_freeze p) c in
  store_un 64 (gp_delete p) c.
(** 477-513 [load_from]: every round reads 8 bits at least, so [fuel] above the number of
    bits is enough; [lim] and [price] are the flat fields of the result so far *)
Fixpoint load_gas_loop (fuel : nat) (lim price : N) (c : chunk) : res (gas_prices * chunk) :=
  match fuel with
  | O => Err OutOfFuel
  | S f =>
    let? (t, c) := load_un 8 c in
    if t =? 0xd1 then
      let? (l, c) := load_un 64 c in
      let? (p, c) := load_un 64 c in
      load_gas_loop f l p c
    else if t =? 0xde then
      let? (a1, c) := load_un 64 c in
      let? (a2, c) := load_un 64 c in
      let? (a3, c) := load_un 64 c in
      let? (a4, c) := load_un 64 c in
      let? (a5, c) := load_un 64 c in
      let? (a6, c) := load_un 64 c in
      let? (a7, c) := load_un 64 c in
      Ok (GasPrices a1 a2 a3 a4 a5 a6 a7 lim price, c)
    else if t =? 0xdd then
      let? (a1, c) := load_un 64 c in
      let? (a2, c) := load_un 64 c in
      let? (a4, c) := load_un 64 c in
      let? (a5, c) := load_un 64 c in
      let? (a6, c) := load_un 64 c in
      let? (a7, c) := load_un 64 c in
      Ok (GasPrices a1 a2 0 a4 a5 a6 a7 lim price, c)
    else Err InvalidTag
  end.
Definition load_gas (c : chunk) : res (gas_prices * chunk) := load_gas_loop (S (length (fst c))) 0 0 c.
