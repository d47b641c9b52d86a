(** * Accounts: src/models/account/mod.rs

    Derived [Store] and [Load] go through the fields in order.  [StateInit] and
    [SpecialFlags] are in MessageModel. *)
From Verif Require Import Err IntModel NumModel AddrModel CellModel DictModel ChunkModel CurrencyModel MessageModel LazyModel.
Local Open Scope N_scope.

(** 11-19 [StorageUsed], 61-68 [StorageUsedShort] *)
Record used := Used { us_cells : N; us_bits : N }.
Definition store_used (u : used) (c : chunk) : res chunk :=
  let? c := on_bits (store_vk VarUint56 (us_cells u)) c in
  on_bits (store_vk VarUint56 (us_bits u)) c.
Definition load_used (c : chunk) : res (used * chunk) :=
  let? (x, c) := from_bits (load_vk VarUint56) c in
  let? (y, c) := from_bits (load_vk VarUint56) c in
  Ok (Used x y, c).

(** 79-88 [StorageExtra], 90-101 [store_into], 103-111 [load_from] *)
Inductive extra := NoExtra | DictHash (h : list N).
Definition store_extra (e : extra) (c : chunk) : res chunk :=
  match e with
  | NoExtra => on_bits (put (nbits 3 0)) c
  | DictHash h => let? c := store_un 3 1 c in store_bs h c
  end.
Definition load_extra (c : chunk) : res (extra * chunk) :=
  let? (t, c) := load_un 3 c in
  if t =? 0 then Ok (NoExtra, c)
  else if t =? 1 then let? (h, c) := load_bs 32 c in Ok (DictHash h, c)
  else Err InvalidTag.

(** 113-126 [StorageInfo] *)
Record storage_info := StorageInfo { st_used : used; st_extra : extra; st_last_paid : N; st_due : option N }.
Definition store_storage (s : storage_info) (c : chunk) : res chunk :=
  let? c := store_used (st_used s) c in
  let? c := store_extra (st_extra s) c in
  let? c := store_un 32 (st_last_paid s) c in
  store_opt_c (fun d => on_bits (store_vk Tokens d)) (st_due s) c.
Definition load_storage (c : chunk) : res (storage_info * chunk) :=
  let? (u, c) := load_used c in
  let? (e, c) := load_extra c in
  let? (p, c) := load_un 32 c in
  let? (d, c) := load_opt_c (from_bits (load_vk Tokens)) c in
  Ok (StorageInfo u e p d, c).

(** 128-141 [AccountStatus], 148-153 [store_into], 155-174 [load_from] *)
Inductive status := SUninit | SFrozen | SActive | SNotExists.
Definition status_tag (s : status) : N := match s with SUninit => 0 | SFrozen => 1 | SActive => 2 | SNotExists => 3 end.
Definition store_status (s : status) (c : chunk) : res chunk := store_un 2 (status_tag s) c.
Definition load_status (c : chunk) : res (status * chunk) :=
  let? (t, c) := load_un 2 c in
  if t =? 0 then Ok (SUninit, c) else if t =? 1 then Ok (SFrozen, c) else if t =? 2 then Ok (SActive, c) else if t =? 3 then Ok (SNotExists, c) else Err UB.

(** 326-337 [AccountState], 339-348 [status], 350-369 [store_into], 371-386 [load_from] *)
Inductive account_state := Uninit | Active (s : state_init) | Frozen (h : list N).
Definition state_status (s : account_state) : status := match s with Uninit => SUninit | Active _ => SActive | Frozen _ => SFrozen end.
Definition store_state (s : account_state) (c : chunk) : res chunk :=
  match s with
  | Uninit => store_un 2 0 c
  | Active i => let? c := store_bool true c in store_si i c
  | Frozen h => let? c := store_un 2 1 c in store_bs h c
  end.
Definition load_state (c : chunk) : res (account_state * chunk) :=
  let? (x, c) := load_bool c in
  if x : bool then let? (i, c) := load_si c in Ok (Active i, c)
  else
    let? (y, c) := load_bool c in
    if y : bool then let? (h, c) := load_bs 32 c in Ok (Frozen h, c)
    else Ok (Uninit, c).

(** 309-324 [Account] *)
Record account := Account { ac_address : int_addr; ac_storage : storage_info; ac_lt : N; ac_balance : currency; ac_state : account_state }.
Definition store_account (a : account) (c : chunk) : res chunk :=
  let? c := on_bits (store_int (ac_address a)) c in
  let? c := store_storage (ac_storage a) c in
  let? c := store_un 64 (ac_lt a) c in
  let? c := store_cc (ac_balance a) c in
  store_state (ac_state a) c.
Definition load_account (c : chunk) : res (account * chunk) :=
  let? (a, c) := from_bits load_int c in
  let? (s, c) := load_storage c in
  let? (l, c) := load_un 64 c in
  let? (b, c) := load_cc c in
  let? (t, c) := load_state c in
  Ok (Account a s l b t, c).

(** 222-227 [OptionalAccount] *)
Definition store_optional (a : option account) : chunk -> res chunk := store_opt_c store_account a.
Definition load_optional : chunk -> res (option account * chunk) := load_opt_c load_account.
(** 229-262 [EMPTY], [status], [last_trans_lt], [balance], [state] *)
Definition optional_status (a : option account) : status := match a with None => SNotExists | Some a => state_status (ac_state a) end.
Definition optional_lt (a : option account) : N := match a with None => 0 | Some a => ac_lt a end.
Definition optional_balance (a : option account) : currency := match a with None => Currency 0 None | Some a => ac_balance a end.
Definition optional_state (a : option account) : option account_state := match a with None => None | Some a => Some (ac_state a) end.

(** 176-187 [ShardAccount]; [sh_account] is the cell of the lazy account; 189-195
    [load_account] *)
Record shard_account := ShardAccount { sh_account : cell; sh_hash : list N; sh_lt : N }.
Definition store_shard_account (a : shard_account) (c : chunk) : res chunk :=
  let? c := store_lazy (sh_account a) c in
  let? c := store_bs (sh_hash a) c in
  store_un 64 (sh_lt a) c.
Definition load_shard_account (c : chunk) : res (shard_account * chunk) :=
  let? (a, c) := load_lazy false c in
  let? (h, c) := load_bs 32 c in
  let? (l, c) := load_un 64 c in
  Ok (ShardAccount a h l, c).
Definition shard_load_account (a : shard_account) : res (option account) := lazy_load load_optional (sh_account a).

(** 518-528 [SimpleLib] *)
Record simple_lib := SimpleLib { lib_public : bool; lib_root : cell }.
Definition store_lib (l : simple_lib) (c : chunk) : res chunk :=
  let? c := store_bool (lib_public l) c in store_ref (lib_root l) c.
Definition load_lib (c : chunk) : res (simple_lib * chunk) :=
  let? (p, c) := load_bool c in
  let? (r, c) := load_ref c in
  Ok (SimpleLib p r, c).

(** 28-57 [StorageUsed::compute]; [stats] is [compute_unique_stats] (bits and cells), see
    StatModel *)
Section Compute.
Context (fin : list bool -> list cell -> res unit) (stats : cell -> N -> option (N * N)).
Definition compute_used (a : account) (limit : N) : res used :=
  let? c := store_un 64 (ac_lt a) ([], []) in
  let? c := store_cc (ac_balance a) c in
  let? c := store_state (ac_state a) c in
  let? c := build fin c in
  match stats c limit with
  | None => Err Cancelled
  | Some (bits, cells) =>
    if vk_valid VarUint56 cells || negb (vk_valid VarUint56 bits) then Err IntOverflow else Ok (Used cells bits)
  end.
End Compute.
