(** * Layouts of transactions: the TL-B scheme of the phases *)
From Verif Require Import Err CellModel CurrencyModel ChunkSpec DeriveModel DeriveSpec AccountModel StructsModel StructsSpec CasesSpec TxModel.
Local Open Scope N_scope.

(** acst_unchanged$0, acst_frozen$10, acst_deleted$11 *)
Definition change_w : layout change :=
  cases_w (fun s => match s with Unchanged => Branch [false] end_w tt | ToFrozen => Branch [true; false] end_w tt | Deleted => Branch [true; true] end_w tt end) 2 0.
(** cskip_no_state$00, cskip_bad_state$01, cskip_no_gas$10, cskip_suspended$110 *)
Definition reason_w : layout reason :=
  cases_w (fun r => match r with NoState => Branch [false; false] end_w tt | BadState => Branch [false; true] end_w tt | NoGas => Branch [true; false] end_w tt
                    | Suspended => Branch [true; true; false] end_w tt end) 3 0.
(** acc_state_uninit$00, acc_state_frozen$01, acc_state_active$10, acc_state_nonexist$11 *)
Definition status_w : layout status :=
  cases_w (fun s => match s with SUninit => Branch [false; false] end_w tt | SFrozen => Branch [false; true] end_w tt | SActive => Branch [true; false] end_w tt
                    | SNotExists => Branch [true; true] end_w tt end) 2 0.
Definition storage_phase_w := w[tokens_w, maybe_w tokens_w, change_w].
Definition skipped_phase_w := w[reason_w].

Section Fin.
Context (fin : list bool -> list cell -> res unit).
(** tr_phase_compute_vm$1 success:Bool msg_state_used:Bool account_activated:Bool gas_fees:Tokens
    ^[ gas_used:(VarUInteger 7) gas_limit:(VarUInteger 7) gas_credit:(Maybe (VarUInteger 3))
       mode:int8 exit_code:int32 exit_arg:(Maybe int32) vm_steps:uint32
       vm_init_state_hash:bits256 vm_final_state_hash:bits256 ] *)
Definition executed_w := w[bool_w, bool_w, bool_w, tokens_w,
  in_cell_w fin w[var_w 3, var_w 3, maybe_w (var_w 2), int_w 8, int_w 32, maybe_w (int_w 32), uint_w 32, hash_w, hash_w]].
Definition executed_fields (e : executed) :=
  (e_success e, (e_state_used e, (e_activated e, (e_gas_fees e,
   ((e_gas_used e, (e_gas_limit e, (e_gas_credit e, (e_mode e, (e_exit_code e, (e_exit_arg e, (e_vm_steps e, (e_init_hash e, (e_final_hash e, tt))))))))), tt))))).
(** tr_phase_compute_skipped$0 reason:ComputeSkipReason *)
Definition compute_w : layout compute :=
  cases_w (fun p => match p with Skipped r => Branch [false] skipped_phase_w r | Executed e => Branch [true] executed_w (executed_fields e) end) 128 1.
(** tr_phase_action$_ success:Bool valid:Bool no_funds:Bool status_change:AccStatusChange
    total_fwd_fees:(Maybe Tokens) total_action_fees:(Maybe Tokens) result_code:int32
    result_arg:(Maybe int32) tot_actions:uint16 spec_actions:uint16 skipped_actions:uint16
    msgs_created:uint16 action_list_hash:bits256 tot_msg_size:StorageUsedShort *)
Definition action_fields (a : action) :=
  (a_success a, (a_valid a, (a_no_funds a, (a_change a, (a_fwd_fees a, (a_action_fees a, (a_code a, (a_arg a,
   (a_total a, (a_special a, (a_skipped a, (a_created a, (a_hash a, (a_size a, tt)))))))))))))).
Definition action_w : layout action :=
  as_w action_fields w[bool_w, bool_w, bool_w, change_w, maybe_w tokens_w, maybe_w tokens_w, int_w 32, maybe_w (int_w 32), uint_w 16, uint_w 16, uint_w 16, uint_w 16, hash_w, storage_used_short_w].
(** tr_phase_bounce_negfunds$00, tr_phase_bounce_nofunds$01, tr_phase_bounce_ok$1 *)
Definition bounce_w : layout bounce :=
  cases_w (fun p => match p with NegativeFunds => Branch [false; false] end_w tt | NoFunds p => Branch [false; true] no_funds_bounce_phase_w p
                    | Bounced p => Branch [true] executed_bounce_phase_w p end) 367 0.
(** trans_ord$0000 credit_first:Bool storage_ph:(Maybe TrStoragePhase) credit_ph:(Maybe
    TrCreditPhase) compute_ph:TrComputePhase action:(Maybe ^TrActionPhase) aborted:Bool
    bounce:(Maybe TrBouncePhase) destroyed:Bool *)
Definition ordinary_w := w[bool_w, maybe_w storage_phase_w, maybe_w credit_phase_w, compute_w, maybe_w (in_cell_w fin action_w), bool_w, maybe_w bounce_w, bool_w].
Definition ordinary_fields (i : ordinary) :=
  (o_credit_first i, (o_storage i, (o_credit i, (o_compute i, (o_action i, (o_aborted i, (o_bounce i, (o_destroyed i, tt)))))))).
(** trans_tick_tock$001 is_tock:Bool storage_ph:TrStoragePhase compute_ph:TrComputePhase
    action:(Maybe ^TrActionPhase) aborted:Bool destroyed:Bool *)
Definition ticktock_w := w[bool_w, storage_phase_w, compute_w, maybe_w (in_cell_w fin action_w), bool_w, bool_w].
Definition ticktock_fields (i : ticktock) :=
  (match k_edge i with Tock => true | Tick => false end, (k_storage i, (k_compute i, (k_action i, (k_aborted i, (k_destroyed i, tt)))))).
Definition info_w : layout info :=
  cases_w (fun i => match i with Ordinary i => Branch [false; false; false; false] ordinary_w (ordinary_fields i)
                    | TickTock i => Branch [false; false; true] ticktock_w (ticktock_fields i) end) 1007 3.
(** transaction$0111 account_addr:bits256 lt:uint64 prev_trans_hash:bits256 prev_trans_lt:uint64
    now:uint32 outmsg_cnt:uint15 orig_status:AccountStatus end_status:AccountStatus
    ^[ in_msg:(Maybe ^(Message Any)) out_msgs:(HashmapE 15 ^(Message Any)) ]
    total_fees:CurrencyCollection state_update:^(HASH_UPDATE Account) description:^TransactionDescr *)
Definition transaction_fields (t : transaction) :=
  (t_account t, (t_lt t, (t_prev_hash t, (t_prev_lt t, (t_now t, (t_out_count t, (t_orig t, (t_end t,
   ((t_in_msg t, (t_out_msgs t, tt)), (t_fees t, (t_update t, (t_info t, tt)))))))))))).
Definition transaction_w : layout transaction :=
  as_w transaction_fields (tag_w 4 7 w[hash_w, uint_w 64, hash_w, uint_w 64, uint_w 32, uint_w 15, status_w, status_w,
    in_cell_w fin w[maybe_w ref_w, dict_w], currency_w, lazy_w, lazy_w]).
End Fin.
