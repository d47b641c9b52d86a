(** * The extras of augmented dictionaries in the models

    Each is stored and loaded field by field ([Store] and [Load], derived unless noted), and
    combined by [AugDictExtra::comp_add], which has the form of AugModel.comp_add with the
    additions below. *)
From Verif Require Import Err IntModel NumModel CellModel ChunkModel CurrencyModel.
Local Open Scope N_scope.

(** [store_into] an empty builder.  Numbers that do not fit their Rust type ([ok] false) do not
    exist in the program. *)
Definition stored (ok : bool) (s : chunk -> res chunk) : res chunk := if ok then s ([], []) else Err Panic.
Definition u128_ok (a : N) : bool := a <? 2 ^ 128.
Definition cc_ok (a : currency) : bool := u128_ok (cc_tokens a).
(** models/currency.rs:141-152: the extra [CurrencyCollection] *)
Definition cc_stored (a : currency) : res chunk := stored (cc_ok a) (store_cc a).

(** models/shard/shard_extra.rs:250-278 [KeyMaxLt] *)
Record key_max_lt := KeyMaxLt { k_has : bool; k_max : N }.
Definition store_kml (a : key_max_lt) (c : chunk) : res chunk :=
  let? c := store_bool (k_has a) c in
  store_un 64 (k_max a) c.
Definition kml_stored (a : key_max_lt) : res chunk := stored (k_max a <? 2 ^ 64) (store_kml a).
Definition load_kml (c : chunk) : res (key_max_lt * chunk) :=
  let? (h, c) := load_bool c in
  let? (m, c) := load_un 64 c in
  Ok (KeyMaxLt h m, c).
Definition kml_add (l r : key_max_lt) : res key_max_lt :=
  Ok (KeyMaxLt (k_has l || k_has r) (N.max (k_max l) (k_max r))).
Definition kml_default : key_max_lt := KeyMaxLt false 0.

Section Fin.
Context (fin : list bool -> list cell -> res unit).

(** models/shard/shard_accounts.rs:11-72 [DepthBalanceInfo]: [Store] and [Load] by hand, with
    the check [is_valid] *)
Record depth_balance := DepthBalance { db_depth : N; db_balance : currency }.
Definition store_db (a : depth_balance) (c : chunk) : res chunk :=
  if negb (db_depth a <=? 30) then Err IntOverflow else
  let? c := store_un 5 (db_depth a) c in
  store_cc (db_balance a) c.
Definition db_stored (a : depth_balance) : res chunk := stored (cc_ok (db_balance a)) (store_db a).
Definition load_db (c : chunk) : res (depth_balance * chunk) :=
  let? (d, c) := load_un 5 c in
  let? (b, c) := load_cc c in
  if d <=? 30 then Ok (DepthBalance d b, c) else Err IntOverflow.
Definition db_add (l r : depth_balance) : res depth_balance :=
  let? b := cc_checked_add fin (db_balance l) (db_balance r) in
  Ok (DepthBalance (N.max (db_depth l) (db_depth r)) b).
Definition db_default : depth_balance := DepthBalance 0 cc_zero.

(** models/block/block_extra.rs:366-393 [ShardFeeCreated] *)
Record shard_fee := ShardFee { sf_fees : currency; sf_create : currency }.
Definition store_sf (a : shard_fee) (c : chunk) : res chunk :=
  let? c := store_cc (sf_fees a) c in
  store_cc (sf_create a) c.
Definition sf_stored (a : shard_fee) : res chunk := stored (cc_ok (sf_fees a) && cc_ok (sf_create a)) (store_sf a).
Definition load_sf (c : chunk) : res (shard_fee * chunk) :=
  let? (f, c) := load_cc c in
  let? (k, c) := load_cc c in
  Ok (ShardFee f k, c).
Definition sf_add (l r : shard_fee) : res shard_fee :=
  let? f := cc_checked_add fin (sf_fees l) (sf_fees r) in
  let? k := cc_checked_add fin (sf_create l) (sf_create r) in
  Ok (ShardFee f k).
Definition sf_default : shard_fee := ShardFee cc_zero cc_zero.

(** models/message/in_message.rs:9-39 [ImportFees] *)
Record import_fees := ImportFees { if_fees : N; if_value : currency }.
Definition store_if (a : import_fees) (c : chunk) : res chunk :=
  let? c := on_bits (store_vk Tokens (if_fees a)) c in
  store_cc (if_value a) c.
Definition if_stored (a : import_fees) : res chunk := stored (u128_ok (if_fees a) && cc_ok (if_value a)) (store_if a).
Definition load_if (c : chunk) : res (import_fees * chunk) :=
  let? (f, c) := from_bits (load_vk Tokens) c in
  let? (v, c) := load_cc c in
  Ok (ImportFees f v, c).
Definition if_add (l r : import_fees) : res import_fees :=
  match vk_checked_add Tokens (if_fees l) (if_fees r) with
  | Some f => let? v := cc_checked_add fin (if_value l) (if_value r) in Ok (ImportFees f v)
  | None => Err IntOverflow
  end.
Definition if_default : import_fees := ImportFees 0 cc_zero.
End Fin.
