(** * What fees are, in terms of numbers; the layout of gas prices *)
From Verif Require Import Err IntModel CellModel ChunkSpec MessageSpec FeesModel.
Local Open Scope N_scope.

Definition u64 (v : N) : Prop := v < 2 ^ 64.
(** The largest amount of tokens, [2^120 - 1]. *)
Definition MAX_TOKENS : N := 2 ^ 120 - 1.
(** [r] is the least number not below [v / 2^16]. *)
Definition ceil16 (v r : N) : Prop := v <= r * 2 ^ 16 /\ forall q, v <= q * 2 ^ 16 -> r <= q.
(** [r] is the largest number not above [a / b]. *)
Definition floor_div (a b r : N) : Prop := r * b <= a < (r + 1) * b.

(** gas_flat_pfx#d1 flat_gas_limit:uint64 flat_gas_price:uint64 other:GasLimitsPrices;
    gas_prices_ext#de gas_price gas_limit special_gas_limit gas_credit block_gas_limit
    freeze_due_limit delete_due_limit (all uint64);
    gas_prices#dd gas_price gas_limit gas_credit block_gas_limit freeze_due_limit
    delete_due_limit.  The innermost flat prefix counts. *)
Inductive gas_c : N -> N -> gas_prices -> chunk -> Prop :=
| gas_flat l p l' xl p' xp g x : uint_c 64 l' xl -> uint_c 64 p' xp -> gas_c l' p' g x ->
    gas_c l p g (cat [(nbits 8 0xd1, []); xl; xp; x])
| gas_ext l p a1 a2 a3 a4 a5 a6 a7 x1 x2 x3 x4 x5 x6 x7 :
    uint_c 64 a1 x1 -> uint_c 64 a2 x2 -> uint_c 64 a3 x3 -> uint_c 64 a4 x4 -> uint_c 64 a5 x5 -> uint_c 64 a6 x6 -> uint_c 64 a7 x7 ->
    gas_c l p (GasPrices a1 a2 a3 a4 a5 a6 a7 l p) (cat [(nbits 8 0xde, []); x1; x2; x3; x4; x5; x6; x7])
| gas_base l p a1 a2 a4 a5 a6 a7 x1 x2 x4 x5 x6 x7 :
    uint_c 64 a1 x1 -> uint_c 64 a2 x2 -> uint_c 64 a4 x4 -> uint_c 64 a5 x5 -> uint_c 64 a6 x6 -> uint_c 64 a7 x7 ->
    gas_c l p (GasPrices a1 a2 0 a4 a5 a6 a7 l p) (cat [(nbits 8 0xdd, []); x1; x2; x4; x5; x6; x7]).
(** Gas prices all of whose fields are 64-bit numbers. *)
Definition gas_ok (g : gas_prices) : Prop :=
  u64 (gp_price g) /\ u64 (gp_limit g) /\ u64 (gp_special g) /\ u64 (gp_credit g) /\ u64 (gp_block g) /\ u64 (gp_freeze g) /\ u64 (gp_delete g) /\ u64 (gp_flat_limit g) /\ u64 (gp_flat_price g).
