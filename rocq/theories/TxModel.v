(** * Transactions: src/models/transaction/mod.rs, src/models/transaction/phases.rs

    The types of fields and the derived structures are those of StructsModel.  [fin] is the
    outcome of [finalize_cell] as in DictModel. *)
From Verif Require Import Err IntModel NumModel CurrencyModel CellModel DictModel ChunkModel LazyModel AccountModel DeriveModel StructsModel.
Local Open Scope N_scope.

Definition b2n (b : bool) : N := if b then 1 else 0.
Definition has (flags mask : N) : bool := negb (N.land flags mask =? 0).

(** phases.rs:372-380 [AccountStatusChange], 382-390 [store_into], 392-402 [load_from] *)
Inductive change := Unchanged | ToFrozen | Deleted.
Definition store_change (s : change) (b : chunk) : res chunk :=
  match s with
  | Unchanged => store_bool false b
  | ToFrozen => store_un 2 2 b
  | Deleted => store_un 2 3 b
  end.
Definition load_change (b : chunk) : res (change * chunk) :=
  let? (f, b) := load_bool b in
  if negb f then Ok (Unchanged, b)
  else let? (f, b) := load_bool b in if f : bool then Ok (Deleted, b) else Ok (ToFrozen, b).
Definition change_k := Codec store_change load_change.

(** phases.rs:154-166 [ComputePhaseSkipReason], 168-178 [store_into], 180-198 [load_from] *)
Inductive reason := NoState | BadState | NoGas | Suspended.
Definition store_reason (r : reason) (b : chunk) : res chunk :=
  match r with
  | NoState => store_un 2 0 b
  | BadState => store_un 2 1 b
  | NoGas => store_un 2 2 b
  | Suspended => store_un 3 6 b
  end.
Definition load_reason (b : chunk) : res (reason * chunk) :=
  let? (t, b) := load_un 2 b in
  if t =? 0 then Ok (NoState, b)
  else if t =? 1 then Ok (BadState, b)
  else if t =? 2 then Ok (NoGas, b)
  else let? (f, b) := load_bool b in if f : bool then Err InvalidTag else Ok (Suspended, b).
Definition reason_k := Codec store_reason load_reason.

(** phases.rs:10-20 *)
Definition storage_phase := struct_of NoTag [tokens; plain (opt_k (var_k Tokens)); plain change_k].
(** phases.rs:147-152 *)
Definition skipped_phase := struct_of NoTag [plain reason_k].

(** Cells of their own: builder.rs [CellBuilder::new], [build_ext]; slice.rs:1305-1318
    [load_reference_as_slice], cell/mod.rs:351-353 [parse] *)
Section Fin.
Context (fin : list bool -> list cell -> res unit).
Definition in_cell (s : chunk -> res chunk) : res cell := let? b := s ([], []) in build fin b.
Definition from_cell {A} (l : chunk -> res (A * chunk)) (c : cell) : res A :=
  let? s := as_slice c in let? (a, _) := l (s_chunk s) in Ok a.

(** phases.rs:114-144 [ExecutedComputePhase] *)
Record executed := Executed' {
  e_success : bool; e_state_used : bool; e_activated : bool; e_gas_fees : N;
  e_gas_used : N; e_gas_limit : N; e_gas_credit : option N; e_mode : Z; e_exit_code : Z; e_exit_arg : option Z;
  e_vm_steps : N; e_init_hash : list N; e_final_hash : list N
}.
(** phases.rs:36-47 *)
Inductive compute := Skipped (r : vals (s_fields skipped_phase)) | Executed (e : executed).
(** phases.rs:49-82 *)
Definition store_executed_cell (p : executed) (b : chunk) : res chunk :=
  let? b := c_store (var_k VarUint56) (e_gas_used p) b in
  let? b := c_store (var_k VarUint56) (e_gas_limit p) b in
  let? b := c_store (opt_k (var_k VarUint24)) (e_gas_credit p) b in
  let? b := store_un 8 (as_unsigned 8 (e_mode p)) b in
  let? b := store_un 32 (as_unsigned 32 (e_exit_code p)) b in
  let? b := c_store (opt_k (int_k 32)) (e_exit_arg p) b in
  let? b := store_un 32 (e_vm_steps p) b in
  let? b := store_bs (e_init_hash p) b in
  store_bs (e_final_hash p) b.
Definition store_compute (p : compute) (b : chunk) : res chunk :=
  match p with
  | Skipped r => let? b := store_bool false b in c_store (derived skipped_phase) r b
  | Executed e =>
    let? c := in_cell (store_executed_cell e) in
    let flags := N.lor (N.lor (N.lor 8 (N.shiftl (b2n (e_success e)) 2)) (N.shiftl (b2n (e_state_used e)) 1)) (b2n (e_activated e)) in
    let? b := store_un 4 flags b in
    let? b := c_store (var_k Tokens) (e_gas_fees e) b in
    store_ref c b
  end.
(** phases.rs:85-111 *)
Definition load_executed_cell (flags fees : N) (b : chunk) : res (executed * chunk) :=
  let? (used, b) := c_load (var_k VarUint56) b in
  let? (limit, b) := c_load (var_k VarUint56) b in
  let? (credit, b) := c_load (opt_k (var_k VarUint24)) b in
  let? (mode, b) := load_un 8 b in
  let? (code, b) := load_un 32 b in
  let? (arg, b) := c_load (opt_k (int_k 32)) b in
  let? (steps, b) := load_un 32 b in
  let? (h1, b) := load_bs 32 b in
  let? (h2, b) := load_bs 32 b in
  Ok (Executed' (has flags 4) (has flags 2) (has flags 1) fees used limit credit (as_signed 8 mode) (as_signed 32 code) arg steps h1 h2, b).
Definition load_compute (b : chunk) : res (compute * chunk) :=
  let? (f, b) := load_bool b in
  if negb f then let? (r, b) := c_load (derived skipped_phase) b in Ok (Skipped r, b)
  else
    let? (flags, b) := load_un 3 b in
    let? (fees, b) := c_load (var_k Tokens) b in
    let? (c, b) := load_ref b in
    let? e := from_cell (load_executed_cell flags fees) c in
    Ok (Executed e, b).
Definition compute_k := Codec store_compute load_compute.

(** phases.rs:200-239 [ActionPhase] *)
Record action := Action {
  a_success : bool; a_valid : bool; a_no_funds : bool; a_change : change;
  a_fwd_fees : option N; a_action_fees : option N; a_code : Z; a_arg : option Z;
  a_total : N; a_special : N; a_skipped : N; a_created : N; a_hash : list N; a_size : vals (s_fields storage_used_short)
}.
(** phases.rs:241-264; the counts are [u16]s *)
Definition store_action (p : action) (b : chunk) : res chunk :=
  let flags := N.lor (N.lor (N.shiftl (b2n (a_success p)) 2) (N.shiftl (b2n (a_valid p)) 1)) (b2n (a_no_funds p)) in
  let counts := N.lor (N.lor (N.lor (N.shiftl (a_total p) 48) (N.shiftl (a_special p) 32)) (N.shiftl (a_skipped p) 16)) (a_created p) in
  let? b := store_un 3 flags b in
  let? b := store_change (a_change p) b in
  let? b := c_store (opt_k (var_k Tokens)) (a_fwd_fees p) b in
  let? b := c_store (opt_k (var_k Tokens)) (a_action_fees p) b in
  let? b := store_un 32 (as_unsigned 32 (a_code p)) b in
  let? b := c_store (opt_k (int_k 32)) (a_arg p) b in
  let? b := store_un 64 counts b in
  let? b := store_bs (a_hash p) b in
  c_store (derived storage_used_short) (a_size p) b.
(** phases.rs:266-297 *)
Definition load_action (b : chunk) : res (action * chunk) :=
  let? (flags, b) := load_un 3 b in
  let? (ch, b) := load_change b in
  let? (fwd, b) := c_load (opt_k (var_k Tokens)) b in
  let? (fees, b) := c_load (opt_k (var_k Tokens)) b in
  let? (code, b) := load_un 32 b in
  let? (arg, b) := c_load (opt_k (int_k 32)) b in
  let? (counts, b) := load_un 64 b in
  let? (h, b) := load_bs 32 b in
  let? (size, b) := c_load (derived storage_used_short) b in
  Ok (Action (has flags 4) (has flags 2) (has flags 1) ch fwd fees (as_signed 32 code) arg
        (w16 (N.shiftr counts 48)) (w16 (N.shiftr counts 32)) (w16 (N.shiftr counts 16)) (w16 counts) h size, b).
Definition action_k := Codec store_action load_action.

(** phases.rs:299-316 [BouncePhase], 318-337 [store_into], 339-356 [load_from] *)
Inductive bounce := NegativeFunds | NoFunds (p : vals (s_fields no_funds_bounce_phase)) | Bounced (p : vals (s_fields executed_bounce_phase)).
Definition store_bounce (p : bounce) (b : chunk) : res chunk :=
  match p with
  | NegativeFunds => store_un 2 0 b
  | NoFunds p => let? b := store_un 2 1 b in c_store (derived no_funds_bounce_phase) p b
  | Bounced p => let? b := store_bool true b in c_store (derived executed_bounce_phase) p b
  end.
Definition load_bounce (b : chunk) : res (bounce * chunk) :=
  let? (f, b) := load_bool b in
  if f : bool then let? (p, b) := c_load (derived executed_bounce_phase) b in Ok (Bounced p, b)
  else
    let? (f, b) := load_bool b in
    if f : bool then let? (p, b) := c_load (derived no_funds_bounce_phase) b in Ok (NoFunds p, b)
    else Ok (NegativeFunds, b).
Definition bounce_k := Codec store_bounce load_bounce.

(** mod.rs:341-372 [OrdinaryTxInfo], 374-400 [store_into], 402-417 [load_from] *)
Record ordinary := Ordinary' {
  o_credit_first : bool; o_storage : option (vals (s_fields storage_phase)); o_credit : option (vals (s_fields credit_phase));
  o_compute : compute; o_action : option action; o_aborted : bool; o_bounce : option bounce; o_destroyed : bool
}.
Definition build_action (a : option action) : res (option cell) :=
  match a with Some a => let? c := in_cell (store_action a) in Ok (Some c) | None => Ok None end.
Definition parse_action (c : option cell) : res (option action) :=
  match c with Some c => let? a := from_cell load_action c in Ok (Some a) | None => Ok None end.
Definition store_ordinary (i : ordinary) (b : chunk) : res chunk :=
  let? a := build_action (o_action i) in
  let? b := store_bool (o_credit_first i) b in
  let? b := c_store (opt_k (derived storage_phase)) (o_storage i) b in
  let? b := c_store (opt_k (derived credit_phase)) (o_credit i) b in
  let? b := store_compute (o_compute i) b in
  let? b := c_store (opt_k cell_k) a b in
  let? b := store_bool (o_aborted i) b in
  let? b := c_store (opt_k bounce_k) (o_bounce i) b in
  store_bool (o_destroyed i) b.
Definition load_ordinary (b : chunk) : res (ordinary * chunk) :=
  let? (first, b) := load_bool b in
  let? (storage, b) := c_load (opt_k (derived storage_phase)) b in
  let? (credit, b) := c_load (opt_k (derived credit_phase)) b in
  let? (comp, b) := load_compute b in
  let? (c, b) := c_load (opt_k cell_k) b in
  let? a := parse_action c in
  let? (aborted, b) := load_bool b in
  let? (bo, b) := c_load (opt_k bounce_k) b in
  let? (destroyed, b) := load_bool b in
  Ok (Ordinary' first storage credit comp a aborted bo destroyed, b).

(** mod.rs:419-437 [TickTockTxInfo], 439-463 [store_into], 465-486 [load_from]; 488-516 [TickTock] *)
Inductive edge := Tick | Tock.
Definition store_edge (k : edge) (b : chunk) : res chunk := store_bool (match k with Tock => true | Tick => false end) b.
Definition load_edge (b : chunk) : res (edge * chunk) := let? (f, b) := load_bool b in if f : bool then Ok (Tock, b) else Ok (Tick, b).
Record ticktock := TickTock' {
  k_edge : edge; k_storage : vals (s_fields storage_phase); k_compute : compute; k_action : option action; k_aborted : bool; k_destroyed : bool
}.
Definition store_ticktock (i : ticktock) (b : chunk) : res chunk :=
  let? a := build_action (k_action i) in
  let flags := N.lor (N.shiftl (b2n (k_aborted i)) 1) (b2n (k_destroyed i)) in
  let? b := store_edge (k_edge i) b in
  let? b := c_store (derived storage_phase) (k_storage i) b in
  let? b := store_compute (k_compute i) b in
  let? b := c_store (opt_k cell_k) a b in
  store_un 2 flags b.
Definition load_ticktock (b : chunk) : res (ticktock * chunk) :=
  let? (k, b) := load_edge b in
  let? (storage, b) := c_load (derived storage_phase) b in
  let? (comp, b) := load_compute b in
  let? (c, b) := c_load (opt_k cell_k) b in
  let? a := parse_action c in
  let? (flags, b) := load_un 2 b in
  Ok (TickTock' k storage comp a (has flags 2) (has flags 1), b).

(** mod.rs:267-276 [TxInfo], 278-296 [store_into], 298-317 [load_from] *)
Inductive info := Ordinary (i : ordinary) | TickTock (i : ticktock).
Definition store_info (i : info) (b : chunk) : res chunk :=
  match i with
  | Ordinary i => let? b := store_un 4 0 b in store_ordinary i b
  | TickTock i => let? b := store_un 3 1 b in store_ticktock i b
  end.
Definition load_info (b : chunk) : res (info * chunk) :=
  let? (t, b) := load_un 3 b in
  if t =? 1 then let? (i, b) := load_ticktock b in Ok (TickTock i, b)
  else if t =? 0 then
    let? (f, b) := load_bool b in
    if negb f then let? (i, b) := load_ordinary b in Ok (Ordinary i, b) else Err InvalidTag
  else Err InvalidTag.
Definition info_k := Codec store_info load_info.

(** mod.rs:17-49 [Transaction], 206-237 [store_into], 239-265 [load_from] *)
Record transaction := Transaction {
  t_account : list N; t_lt : N; t_prev_hash : list N; t_prev_lt : N; t_now : N; t_out_count : N;
  t_orig : status; t_end : status; t_in_msg : option cell; t_out_msgs : option cell;
  t_fees : CurrencyModel.currency; t_update : cell; t_info : cell
}.
Definition store_messages (t : transaction) (b : chunk) : res chunk :=
  let? b := c_store (opt_k cell_k) (t_in_msg t) b in
  store_dict (t_out_msgs t) b.
Definition store_transaction (t : transaction) (b : chunk) : res chunk :=
  let? messages := in_cell (store_messages t) in
  let? b := store_un 4 7 b in
  let? b := store_bs (t_account t) b in
  let? b := store_un 64 (t_lt t) b in
  let? b := store_bs (t_prev_hash t) b in
  let? b := store_un 64 (t_prev_lt t) b in
  let? b := store_un 32 (t_now t) b in
  let? b := c_store (small_k Uint15) (t_out_count t) b in
  let? b := store_status (t_orig t) b in
  let? b := store_status (t_end t) b in
  let? b := store_ref messages b in
  let? b := store_cc (t_fees t) b in
  let? b := store_lazy (t_update t) b in
  store_lazy (t_info t) b.
Definition load_messages (b : chunk) : res ((option cell * option cell) * chunk) :=
  let? (i, b) := c_load (opt_k cell_k) b in
  let? (o, b) := load_dict b in Ok ((i, o), b).
Definition load_transaction (b : chunk) : res (transaction * chunk) :=
  let? (t, b) := load_un 4 b in
  if negb (t =? 7) then Err InvalidTag
  else
    let? (c, b) := load_ref b in
    let? io := from_cell load_messages c in
    let? (account, b) := load_bs 32 b in
    let? (lt, b) := load_un 64 b in
    let? (prev_hash, b) := load_bs 32 b in
    let? (prev_lt, b) := load_un 64 b in
    let? (now, b) := load_un 32 b in
    let? (count, b) := c_load (small_k Uint15) b in
    let? (orig, b) := load_status b in
    let? (end_, b) := load_status b in
    let? (fees, b) := load_cc b in
    let? (update, b) := load_lazy false b in
    let? (info, b) := load_lazy false b in
    Ok (Transaction account lt prev_hash prev_lt now count orig end_ (fst io) (snd io) fees update info, b).
Definition transaction_k := Codec store_transaction load_transaction.
End Fin.
