(** * The layouts of the structures with derived codecs

    Every structure is described as in TL-B: a tag, if there is one, and the layouts of the
    fields one after another. *)
From Verif Require Import Err CellModel NumSpec AddrSpec CurrencyModel CurrencySpec ChunkSpec DeriveSpec.
Local Open Scope N_scope.

(** ** How layouts are put together *)
Definition end_w : layout unit := Layout (fun _ => True) (fun _ x => x = ([], [])) (fun _ x => x = ([], [])) 0 0.
Definition seq_w {A B} (a : layout A) (b : layout B) : layout (A * B) :=
  Layout (fun v => w_ok a (fst v) /\ w_ok b (snd v))
    (fun v x => exists y z, x = capp y z /\ w_write a (fst v) y /\ w_write b (snd v) z)
    (fun v x => exists y z, x = capp y z /\ w_read a (fst v) y /\ w_read b (snd v) z)
    (w_bits a + w_bits b) (w_refs a + w_refs b).
(** The number [v] in [n] bits before the value. *)
Definition tag_w {A} (n : nat) (v : N) (l : layout A) : layout A :=
  Layout (w_ok l)
    (fun a x => exists y, x = capp (nbits n v, []) y /\ w_write l a y)
    (fun a x => exists y, x = capp (nbits n v, []) y /\ w_read l a y)
    (n + w_bits l) (w_refs l).
(** Only the values with [P]. *)
Definition such_w {A} (P : A -> Prop) (l : layout A) : layout A :=
  Layout (fun a => w_ok l a /\ P a) (fun a x => P a /\ w_write l a x) (fun a x => P a /\ w_read l a x) (w_bits l) (w_refs l).
Notation "w[ a , .. , b ]" := (seq_w a .. (seq_w b end_w) ..) (at level 0).

(** ** Types of fields *)
(** A layout in which one value has one form. *)
Definition exact_w {A} (ok : A -> Prop) (L : A -> chunk -> Prop) (bits refs : nat) : layout A := Layout ok L L bits refs.
Definition uint_w (n : nat) : layout N := exact_w (fun v => v < 2 ^ N.of_nat n) (uint_c n) n 0.
(** Two's complement. *)
Definition int_w (n : nat) : layout Z :=
  exact_w (in_int (Z.of_nat n)) (fun z x => in_int (Z.of_nat n) z /\ x = (int_bits n z, [])) n 0.
Definition nonzero_w (n : nat) : layout N := such_w (fun v => v <> 0) (uint_w n).
Definition bool_w : layout bool := exact_w (fun _ => True) bool_c 1 0.
Definition bytes_w (n : nat) : layout (list N) := exact_w (fun b => Forall byte_ok b /\ length b = n) (bytes_c n) (8 * n) 0.
Definition ref_w : layout cell := exact_w (fun _ => True) cell_c 0 1.
(** A cell that is not exotic. *)
Definition lazy_w : layout cell := such_w (fun c => c_exotic c = false) ref_w.
Definition dict_w : layout (option cell) := exact_w (fun _ => True) dict_c 1 1.
(** [VarUInteger]: a length in bytes in [lb] bits and the number; written in the shortest
    form. *)
Definition var_w (lb : nat) : layout N :=
  Layout (fun v => v < 2 ^ (8 * (2 ^ N.of_nat lb - 1))) (bits_only (var_uint_bits lb)) (bits_only (loose_var_uint_bits lb)) (lb + 8 * (2 ^ lb - 1)) 0.
Definition maybe_w {A} (l : layout A) : layout (option A) :=
  Layout (fun o => match o with Some a => w_ok l a | None => True end) (maybe_c (w_write l)) (maybe_c (w_read l)) (1 + w_bits l) (w_refs l).
Definition tokens_w : layout N := var_w 4.
Definition currency_w : layout currency :=
  Layout (fun c => cc_tokens c < 2 ^ 120) (currency_c var_uint_bits) (currency_c loose_var_uint_bits) 125 1.
Definition hash_w := bytes_w 32.

(** ** src/models/config/params.rs *)
Definition burning_config_w := such_w (fun v => fst (snd v) <= fst (snd (snd v))) (tag_w 8 0x01 w[maybe_w hash_w, uint_w 32, nonzero_w 32]).
Definition mint_once_config_w := tag_w 8 0x01 w[uint_w 32, currency_w].
Definition config_voting_setup_w := tag_w 8 0x91 w[lazy_w, lazy_w].
Definition config_proposal_setup_w := tag_w 8 0x36 w[uint_w 8, uint_w 8, uint_w 8, uint_w 8, uint_w 32, uint_w 32, uint_w 32, uint_w 32].
Definition workchain_format_basic_w := w[int_w 32, uint_w 64].
(** The shortest and the longest address and the step between the lengths. *)
Definition workchain_format_extended_w :=
  such_w (fun v => 64 <= fst v /\ fst v <= fst (snd v) /\ fst (snd v) <= 1023 /\ fst (snd (snd v)) <= 1023) w[uint_w 12, uint_w 12, uint_w 12, nonzero_w 32].
Definition block_creation_rewards_w := tag_w 8 0x6b w[tokens_w, tokens_w].
Definition election_timings_w := w[uint_w 32, uint_w 32, uint_w 32, uint_w 32].
Definition validator_count_params_w := w[uint_w 16, uint_w 16, uint_w 16].
Definition validator_stake_params_w := w[tokens_w, tokens_w, tokens_w, uint_w 32].
Definition storage_prices_w := tag_w 8 0xcc w[uint_w 32, uint_w 64, uint_w 64, uint_w 64, uint_w 64].
Definition block_param_limits_w := such_w (fun v => fst v <= fst (snd v) /\ fst (snd v) <= fst (snd (snd v))) (tag_w 8 0xc3 w[uint_w 32, uint_w 32, uint_w 32]).
Definition block_limits_w := tag_w 8 0x5d w[block_param_limits_w, block_param_limits_w, block_param_limits_w].
Definition msg_forward_prices_w := tag_w 8 0xea w[uint_w 64, uint_w 64, uint_w 64, uint_w 32, uint_w 16, uint_w 16].
Definition work_units_prepare_w := tag_w 8 0 w[uint_w 32, uint_w 16, uint_w 16, uint_w 16, uint_w 16, uint_w 16, uint_w 16].
Definition work_units_execute_w := tag_w 8 0 w[uint_w 32, uint_w 16, uint_w 16, uint_w 32, uint_w 16, uint_w 16, uint_w 16, uint_w 16].
Definition work_units_finalize_w := tag_w 8 0 w[uint_w 16, uint_w 16, uint_w 16, uint_w 16, uint_w 32, uint_w 16, uint_w 16, uint_w 32, uint_w 16, uint_w 16, uint_w 16, uint_w 16, uint_w 16, uint_w 16].
Definition work_units_params_w := tag_w 8 0 w[work_units_prepare_w, work_units_execute_w, work_units_finalize_w].
Definition consensus_config_tycho_w := tag_w 8 0xd8 w[uint_w 16, uint_w 32, uint_w 16, uint_w 16, uint_w 16, uint_w 32, uint_w 16, uint_w 16, uint_w 8, uint_w 16, uint_w 16].
Definition size_limits_config_w := tag_w 8 0x02 w[uint_w 32, uint_w 32, uint_w 32, uint_w 16, uint_w 32, uint_w 16, uint_w 32, uint_w 32, uint_w 32, uint_w 32].
(** Two versions: tag 0 without the last field, which is zero then, and tag 1 with it.  Written
    in version 1 only if the last field is not zero; read in both. *)
Definition exec_params_0 := tag_w 8 0 w[uint_w 32, uint_w 16, uint_w 16, uint_w 16, uint_w 16, uint_w 32, uint_w 32, dict_w].
Definition exec_params_1 := tag_w 8 1 w[uint_w 32, uint_w 16, uint_w 16, uint_w 16, uint_w 16, uint_w 32, uint_w 32, dict_w, uint_w 32].
Definition last_field (v : N * (N * (N * (N * (N * (N * (N * (option cell * (N * unit))))))))) : N := fst (snd (snd (snd (snd (snd (snd (snd (snd v)))))))).
Definition without_last (v : N * (N * (N * (N * (N * (N * (N * (option cell * (N * unit))))))))) : N * (N * (N * (N * (N * (N * (N * (option cell * unit))))))) :=
  let '(a, (b, (c, (d, (e, (f, (g, (h, _)))))))) := v in (a, (b, (c, (d, (e, (f, (g, (h, tt)))))))).
Definition msgs_execution_params_w :=
  Layout (w_ok exec_params_1)
    (fun v x => (last_field v = 0 /\ w_write exec_params_0 (without_last v) x) \/ (last_field v <> 0 /\ w_write exec_params_1 v x))
    (fun v x => (last_field v = 0 /\ w_read exec_params_0 (without_last v) x) \/ w_read exec_params_1 v x)
    (w_bits exec_params_1) (w_refs exec_params_1).
Definition collation_config_w := tag_w 8 0xa6 w[bool_w, uint_w 32, uint_w 32, uint_w 8, uint_w 64, msgs_execution_params_w, work_units_params_w].

(** ** src/models/global_version.rs, src/models/account/mod.rs *)
Definition global_version_w := tag_w 8 0xc4 w[uint_w 32, w[uint_w 64]].
Definition storage_used_short_w := w[var_w 3, var_w 3].
Definition simple_lib_w := w[bool_w, ref_w].

(** ** src/models/block *)
Definition shard_ident_full_w := w[int_w 32, uint_w 64].
Definition shard_fee_created_w := w[currency_w, currency_w].
Definition signature_w := tag_w 4 0x5 w[bytes_w 64].
Definition block_signature_w := w[hash_w, signature_w].
Definition block_ref_w := w[uint_w 64, uint_w 32, hash_w, hash_w].
Definition out_msg_queue_updates_w := tag_w 4 0x1 w[hash_w, uint_w 32].

(** ** src/models/shard *)
Definition validator_info_w := w[uint_w 32, uint_w 32, bool_w].
Definition validator_base_info_w := w[uint_w 32, uint_w 32].
Definition genesis_info_w := w[uint_w 32, uint_w 64].
Definition consensus_info_w := w[uint_w 32, uint_w 32, genesis_info_w, bool_w].
Definition block_signatures_w := tag_w 8 0x11 w[validator_base_info_w, uint_w 32, uint_w 64, dict_w].
Definition block_signatures_tycho_w := tag_w 8 0x12 w[validator_base_info_w, consensus_info_w, uint_w 32, uint_w 64, dict_w].
Definition key_block_ref_w := w[bool_w, block_ref_w].
Definition key_max_lt_w := w[bool_w, uint_w 64].
Definition block_counters_w := w[uint_w 32, uint_w 64, uint_w 64, uint_w 64].
Definition creator_stats_w := tag_w 4 0x4 w[block_counters_w, block_counters_w].
Definition shard_state_split_w := tag_w 32 0x5f327da5 w[lazy_w, lazy_w].
Definition shard_range_w := tag_w 8 0 w[uint_w 64, uint_w 64].
Definition internals_range_w := tag_w 8 0 w[uint_w 32, uint_w 32, dict_w].
Definition internals_processed_upto_w := tag_w 8 0 w[dict_w, dict_w].
Definition externals_range_w := tag_w 8 0 w[w[uint_w 32, uint_w 64], w[uint_w 32, uint_w 64], uint_w 64, uint_w 32, uint_w 32].
Definition externals_processed_upto_w := tag_w 8 0 w[w[uint_w 32, uint_w 64], dict_w].
Definition processed_upto_partition_w := tag_w 8 0 w[externals_processed_upto_w, internals_processed_upto_w].
Definition processed_upto_info_w := tag_w 8 0 w[dict_w, maybe_w lazy_w].

(** ** src/models/message *)
Definition import_fees_w := w[tokens_w, currency_w].
Definition two_refs_w := w[lazy_w, lazy_w].
Definition three_refs_w := w[lazy_w, lazy_w, lazy_w].
Definition with_fee_w := w[lazy_w, lazy_w, tokens_w].
Definition enqueued_msg_w := w[uint_w 64, lazy_w].
Definition out_msg_dequeue_short_w := w[hash_w, int_w 32, uint_w 64, uint_w 64].
Definition intermediate_regular_w := such_w (fun v => fst v <= 96) w[uint_w 8].
Definition intermediate_simple_w := w[int_w 8, uint_w 64].
Definition intermediate_ext_w := w[int_w 32, uint_w 64].

(** ** src/models/transaction *)
Definition hash_update_w := tag_w 8 0x72 w[hash_w, hash_w].
Definition credit_phase_w := w[maybe_w tokens_w, currency_w].
Definition no_funds_bounce_phase_w := w[storage_used_short_w, tokens_w].
Definition executed_bounce_phase_w := w[storage_used_short_w, tokens_w, tokens_w].
