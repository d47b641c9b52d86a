(** * The structures of src/models with derived codecs

    [Lazy<T>], [Cell] and dictionaries are kept as cells; a [Lazy] is not read from an exotic
    cell. *)
From Verif Require Import Err IntModel NumModel CurrencyModel CellModel ChunkModel LazyModel DeriveModel.
Local Open Scope N_scope.

(** ** Types of fields: derive_store.rs:208-238 [store_op], derive_load.rs:221-258 [load_op],
    slice.rs:84-195, builder.rs:79-200 *)
Definition uint_k (w : nat) : codec N := Codec (store_un w) (load_un w).
(** [store_u32(x as u32)], [load_u32() as i32] *)
Definition int_k (w : nat) : codec Z :=
  Codec (fun x => store_un w (as_unsigned (N.of_nat w) x)) (fun b => let? (x, b) := load_un w b in Ok (as_signed (N.of_nat w) x, b)).
(** slice.rs:173-193 *)
Definition nonzero_k (w : nat) : codec N :=
  Codec (store_un w) (fun b => let? (x, b) := load_un w b in if x =? 0 then Err InvalidData else Ok (x, b)).
Definition bool_k : codec bool := Codec store_bool load_bool.
Definition bytes_k (n : nat) : codec (list N) := Codec store_bs (load_bs n).
Definition var_k (k : vkind) : codec N := Codec (fun x => on_bits (store_vk k x)) (from_bits (load_vk k)).
Definition small_k (k : skind) : codec N := Codec (fun x => on_bits (store_sk k x)) (from_bits (load_sk k)).
Definition cell_k : codec cell := Codec store_ref load_ref.
(** cell/lazy.rs:203-216 *)
Definition lazy_k : codec cell := Codec store_lazy (load_lazy false).
Definition dict_k : codec (option cell) := Codec store_dict load_dict.
Definition opt_k {A} (c : codec A) : codec (option A) := Codec (store_opt_c (c_store c)) (load_opt_c (c_load c)).
Definition currency_k : codec currency := Codec store_cc load_cc.

Definition plain {A} (c : codec A) : field := Field A c None.
Definition u8 := plain (uint_k 8).
Definition u16 := plain (uint_k 16).
Definition u32 := plain (uint_k 32).
Definition u64 := plain (uint_k 64).
Definition i8 := plain (int_k 8).
Definition i32 := plain (int_k 32).
Definition nz32 := plain (nonzero_k 32).
Definition bool' := plain bool_k.
Definition hash := plain (bytes_k 32).
Definition tokens := plain (var_k Tokens).
Definition var56 := plain (var_k VarUint56).
Definition uint12 := plain (small_k Uint12).
Definition ref := plain cell_k.
Definition lazy := plain lazy_k.
Definition dict := plain dict_k.
Definition cc := plain currency_k.
Definition sub (s : struct) : field := plain (derived s).
Definition hex (digits : nat) (v : N) : tags := OneTag (Tag (4 * digits) v).
Definition always {A} (_ : A) : bool := true.
Definition struct_of (t : tags) (l : list field) : struct := Struct t l always.

(** builder.rs:86-108, slice.rs:91-107: tuples are written field by field, as structures without
    tag *)
Definition pair_of (a b : field) : struct := struct_of NoTag [a; b].

(** ** src/models/config/params.rs *)
(** 13-23, 37-40 [is_valid] *)
Definition burning_config : struct := Struct (hex 2 0x01) [plain (opt_k (bytes_k 32)); u32; nz32] (fun v => let '(_, (num, (denom, _))) := v in num <=? denom).
(** 66-74 *)
Definition mint_once_config := struct_of (hex 2 0x01) [u32; cc].
(** 77-85 *)
Definition config_voting_setup := struct_of (hex 2 0x91) [lazy; lazy].
(** 88-108 *)
Definition config_proposal_setup := struct_of (hex 2 0x36) [u8; u8; u8; u8; u32; u32; u32; u32].
(** 271-278 *)
Definition workchain_format_basic := struct_of NoTag [i32; u64].
(** 281-293, 297-302 [is_valid] *)
Definition workchain_format_extended : struct :=
  Struct NoTag [uint12; uint12; uint12; nz32] (fun v => let '(lo, (hi, (step, _))) := v in (64 <=? lo) && (lo <=? hi) && (hi <=? 1023) && (step <=? 1023)).
(** 325-333 *)
Definition block_creation_rewards := struct_of (hex 2 0x6b) [tokens; tokens].
(** 336-347 *)
Definition election_timings := struct_of NoTag [u32; u32; u32; u32].
(** 350-359 *)
Definition validator_count_params := struct_of NoTag [u16; u16; u16].
(** 362-373 *)
Definition validator_stake_params := struct_of NoTag [tokens; tokens; tokens; u32].
(** 376-390 *)
Definition storage_prices := struct_of (hex 2 0xcc) [u32; u64; u64; u64; u64].
(** 507-517, 521-523 [is_valid] *)
Definition block_param_limits : struct := Struct (hex 2 0xc3) [u32; u32; u32] (fun v => let '(under, (soft, (hard, _))) := v in (under <=? soft) && (soft <=? hard)).
(** 527-537 *)
Definition block_limits := struct_of (hex 2 0x5d) [sub block_param_limits; sub block_param_limits; sub block_param_limits].
(** 540-556 *)
Definition msg_forward_prices := struct_of (hex 2 0xea) [u64; u64; u64; u32; u16; u16].
(** 704-744; [range_messages_limit] has [since_tag = 1] *)
Definition msgs_execution_params :=
  struct_of (ManyTags (Tag 8 0x00) [Tag 8 0x01]) [u32; u16; u16; u16; u16; u32; u32; dict; Field N (uint_k 32) (Some (Since 1 0 N.eqb))].
(** 782-800 *)
Definition work_units_prepare := struct_of (hex 2 0x00) [u32; u16; u16; u16; u16; u16; u16].
(** 817-837 *)
Definition work_units_execute := struct_of (hex 2 0x00) [u32; u16; u16; u32; u16; u16; u16; u16].
(** 860-892 *)
Definition work_units_finalize := struct_of (hex 2 0x00) [u16; u16; u16; u16; u32; u16; u16; u32; u16; u16; u16; u16; u16; u16].
(** 756-766 *)
Definition work_units_params := struct_of (hex 2 0x00) [sub work_units_prepare; sub work_units_execute; sub work_units_finalize].
(** 664-687 *)
Definition collation_config := struct_of (hex 2 0xa6) [bool'; u32; u32; u8; u64; sub msgs_execution_params; sub work_units_params].
(** 912-982 (feature "tycho") *)
Definition consensus_config_tycho := struct_of (hex 2 0xd8) [u16; u32; u16; u16; u16; u32; u16; u16; u8; u16; u16].
(** 1574-1598 *)
Definition size_limits_config := struct_of (hex 2 0x02) [u32; u32; u32; u16; u32; u16; u32; u32; u32; u32].

(** ** src/models/global_version.rs:286-301 *)
Definition global_capabilities := struct_of NoTag [u64].
Definition global_version := struct_of (hex 2 0xc4) [u32; sub global_capabilities].

(** ** src/models/account/mod.rs:60-68, 520-529 *)
Definition storage_used_short := struct_of NoTag [var56; var56].
Definition simple_lib := struct_of NoTag [bool'; ref].

(** ** src/models/block: block_extra.rs:310-316, 369-376, 396-403, 459-485 (the signature is
    written by hand: a tag of four bits and 64 bytes); mod.rs:561-572, 715-724;
    block_proof.rs:76-91 *)
Definition shard_ident_full := struct_of NoTag [i32; u64].
Definition shard_fee_created := struct_of NoTag [cc; cc].
Definition signature := struct_of (hex 1 0x5) [plain (bytes_k 64)].
Definition block_signature := struct_of NoTag [hash; sub signature].
Definition block_ref := struct_of NoTag [u64; u32; hash; hash].
Definition out_msg_queue_updates := struct_of (hex 1 0x1) [hash; u32].

(** ** src/models/shard: shard_extra.rs:152-218, 246-261, 281-301; mod.rs:350-357, 403-570 *)
Definition validator_info := struct_of NoTag [u32; u32; bool'].
Definition validator_base_info := struct_of NoTag [u32; u32].
Definition genesis_info := struct_of NoTag [u32; u64].
Definition consensus_info := struct_of NoTag [u32; u32; sub genesis_info; bool'].
Definition block_signatures := struct_of (hex 2 0x11) [sub validator_base_info; u32; u64; dict].
Definition block_signatures_tycho := struct_of (hex 2 0x12) [sub validator_base_info; sub consensus_info; u32; u64; dict].
Definition key_block_ref := struct_of NoTag [bool'; sub block_ref].
Definition key_max_lt := struct_of NoTag [bool'; u64].
Definition block_counters := struct_of NoTag [u32; u64; u64; u64].
Definition creator_stats := struct_of (hex 1 0x4) [sub block_counters; sub block_counters].
Definition shard_state_split := struct_of (hex 8 0x5f327da5) [lazy; lazy].
Definition shard_range := struct_of (hex 2 0x00) [u64; u64].
Definition internals_range := struct_of (hex 2 0x00) [u32; u32; dict].
Definition internals_processed_upto := struct_of (hex 2 0x00) [dict; dict].
Definition externals_range := struct_of (hex 2 0x00) [sub (pair_of u32 u64); sub (pair_of u32 u64); u64; u32; u32].
Definition externals_processed_upto := struct_of (hex 2 0x00) [sub (pair_of u32 u64); dict].
Definition processed_upto_partition := struct_of (hex 2 0x00) [sub externals_processed_upto; sub internals_processed_upto].
Definition processed_upto_info := struct_of (hex 2 0x00) [dict; plain (opt_k lazy_k)].

(** ** src/models/message: in_message.rs:11-18, 247-257, 286-296, 344-353; out_message.rs:9-16,
    220-230, 259-269, 313-321, 360-367, 405-416; envelope.rs:116-131, 157-182 *)
Definition import_fees := struct_of NoTag [tokens; cc].
Definition in_msg_external := struct_of NoTag [lazy; lazy].
Definition in_msg_final := struct_of NoTag [lazy; lazy; tokens].
Definition in_msg_transit := struct_of NoTag [lazy; lazy; tokens].
Definition enqueued_msg := struct_of NoTag [u64; lazy].
Definition out_msg_external := struct_of NoTag [lazy; lazy].
Definition out_msg_immediate := struct_of NoTag [lazy; lazy; lazy].
Definition out_msg_new := struct_of NoTag [lazy; lazy].
Definition out_msg_dequeue_immediate := struct_of NoTag [lazy; lazy].
Definition out_msg_dequeue_short := struct_of NoTag [hash; i32; u64; u64].
Definition intermediate_regular : struct := Struct NoTag [u8] (fun v => fst v <=? 96).
Definition intermediate_simple := struct_of NoTag [i8; u64].
Definition intermediate_ext := struct_of NoTag [i32; u64].

(** ** src/models/transaction: mod.rs:508-516; phases.rs:25-33, 348-367 *)
Definition hash_update := struct_of (hex 2 0x72) [hash; hash].
Definition credit_phase := struct_of NoTag [plain (opt_k (var_k Tokens)); cc].
Definition no_funds_bounce_phase := struct_of NoTag [sub storage_used_short; tokens].
Definition executed_bounce_phase := struct_of NoTag [sub storage_used_short; tokens; tokens].
