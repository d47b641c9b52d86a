(** * The layouts of blocks and shard states, after the TL-B scheme of the blockchain *)
From Verif Require Import Err CellModel IntModel ShardModel ShardSpec CurrencyModel ChunkSpec DeriveModel DeriveSpec StructsModel StructsSpec CasesSpec TxModel ParamsSpec BlockModel.
Local Open Scope N_scope.

(** shard_ident$00 shard_pfx_bits:(#<= 60) workchain_id:int32 shard_prefix:uint64: what is read
    may have any bits behind the path. *)
Definition shard_w : layout shard :=
  Layout (fun s => exists wc p, s = shard_at wc p /\ is_path p /\ (- 2 ^ 31 <= wc < 2 ^ 31)%Z)
    (fun s x => exists wc p, s = shard_at wc p /\ is_path p /\ (- 2 ^ 31 <= wc < 2 ^ 31)%Z /\
       x = (nbits 8 (N.of_nat (length p)) ++ nbits 32 (as_unsigned 32 wc) ++ p ++ zeros (64 - length p), []))
    (fun s x => exists wc p rest, s = shard_at wc p /\ is_path p /\ (- 2 ^ 31 <= wc < 2 ^ 31)%Z /\ length (p ++ rest) = 64%nat /\
       x = (nbits 8 (N.of_nat (length p)) ++ nbits 32 (as_unsigned 32 wc) ++ p ++ rest, []))
    104 0.
(** block_id_ext$_ shard_id:ShardIdent seq_no:uint32 root_hash:bits256 file_hash:bits256 *)
Definition block_id_w : layout block_id := as_w (fun x => (bi_shard x, (bi_seqno x, (bi_root x, (bi_file x, tt))))) w[shard_w, u32_w, hash_w, hash_w].

(** A field that is there only if [f]. *)
Definition when_w {A} (f : bool) (l : layout A) : layout (option A) :=
  Layout (fun o => match o with Some a => f = true /\ w_ok l a | None => f = false end)
    (fun o x => match o with Some a => f = true /\ w_write l a x | None => f = false /\ x = ([], []) end)
    (fun o x => match o with Some a => f = true /\ w_read l a x | None => f = false /\ x = ([], []) end)
    (w_bits l) (w_refs l).
(** A value and one whose layout depends on it; the second one takes [bits] and [refs] at most. *)
Definition dep_w {A B} (l : layout A) (m : A -> layout B) (bits refs : nat) : layout (A * B) :=
  Layout (fun p => w_ok l (fst p) /\ w_ok (m (fst p)) (snd p))
    (fun p x => exists y z, x = capp y z /\ w_write l (fst p) y /\ w_write (m (fst p)) (snd p) z)
    (fun p x => exists y z, x = capp y z /\ w_read l (fst p) y /\ w_read (m (fst p)) (snd p) z)
    (w_bits l + bits) (w_refs l + refs).
(** A reference to an exotic cell. *)
Definition exotic_w : layout cell := such_w (fun c => c_exotic c = true) ref_w.

(** block_info#9bc7a987 version:uint32 not_master:(## 1) after_merge:(## 1) before_split:(## 1)
    after_split:(## 1) want_split:Bool want_merge:Bool key_block:Bool vert_seqno_incr:(## 1)
    flags:(## 8) seq_no:# vert_seq_no:# { vert_seq_no >= vert_seqno_incr } { seq_no >= 1 }
    shard:ShardIdent gen_utime:uint32 start_lt:uint64 end_lt:uint64
    gen_validator_list_hash_short:uint32 gen_catchain_seqno:uint32 min_ref_mc_seqno:uint32
    prev_key_block_seqno:uint32 gen_software:flags . 0?GlobalVersion master_ref:not_master?^BlkMasterInfo
    prev_ref:^(BlkPrevInfo after_merge) prev_vert_ref:vert_seqno_incr?^(BlkPrevInfo 0) *)
Definition info_flags (i : block_info) :=
  (some (in_master_ref i), (in_after_merge i, (in_before_split i, (in_after_split i, (in_want_split i, (in_want_merge i, (in_key_block i, (some (in_prev_vert_ref i), (in_flags i, tt))))))))).
Definition info_flags_w := w[bool_w, bool_w, bool_w, bool_w, bool_w, bool_w, bool_w, bool_w, uint_w 8].
Definition info_head (i : block_info) :=
  (in_version i, (info_flags i, (in_seqno i, (in_vert_seqno i, (in_shard i, (in_utime i, (in_start_lt i, (in_end_lt i, (in_vlist i, (in_catchain i, (in_min_ref i, (in_prev_key i, tt)))))))))))).
Definition info_head_w := w[u32_w, info_flags_w, u32_w, u32_w, shard_w, u32_w, u64_w, u64_w, u32_w, u32_w, u32_w, u32_w].
Definition with_software (i : block_info) : bool := N.odd (in_flags i).
Definition info_tail (i : block_info) := (if with_software i then Some (in_software i) else None, (in_master_ref i, (in_prev_ref i, (in_prev_vert_ref i, tt)))).
Definition info_tail_w (flags : N) (master vert : bool) := w[when_w (N.odd flags) global_version_w, when_w master lazy_w, ref_w, when_w vert lazy_w].
Definition block_info_any_w : layout block_info :=
  as_w (fun i => (info_head i, info_tail i))
    (tag_w 32 0x9bc7a987 (dep_w info_head_w (fun h => let '(_, ((master, (_, (_, (_, (_, (_, (_, (vert, (flags, _))))))))), _)) := h in info_tail_w flags master vert) 104 3)).
(** What can be read back: the block is not the zero state, it does not refer to a block above
    it in the vertical chain without being above it, and without the flag there is no version. *)
Definition info_valid (i : block_info) : Prop :=
  in_seqno i <> 0 /\ (in_prev_vert_ref i <> None -> in_vert_seqno i <> 0) /\ (with_software i = false -> in_software i = no_version).
Definition block_info_w : layout block_info := such_w info_valid block_info_any_w.

(** prev_blk_info$_ prev:ExtBlkRef = BlkPrevInfo 0;
    prev_blks_info$_ prev1:^ExtBlkRef prev2:^ExtBlkRef = BlkPrevInfo 1 *)
Definition prev_single_w : layout bref := block_ref_w.
Definition prev_merge_w (fin : list bool -> list cell -> res unit) : layout (bref * (bref * unit)) := w[in_cell_w fin block_ref_w, in_cell_w fin block_ref_w].

(** value_flow#b8e48dfb ^[ from_prev_blk:CurrencyCollection to_next_blk:CurrencyCollection
    imported:CurrencyCollection exported:CurrencyCollection ] fees_collected:CurrencyCollection
    ^[ fees_imported:CurrencyCollection recovered:CurrencyCollection created:CurrencyCollection
    minted:CurrencyCollection ];
    value_flow_v2#3ebf98b7 likewise with burned:CurrencyCollection behind fees_collected *)
Definition four_w := w[currency_w, currency_w, currency_w, currency_w].
Definition four_prev (f : value_flow) := (vf_from_prev f, (vf_to_next f, (vf_imported f, (vf_exported f, tt)))).
Definition four_fees (f : value_flow) := (vf_fees_imported f, (vf_recovered f, (vf_created f, (vf_minted f, tt)))).
Section Fin.
Context (fin : list bool -> list cell -> res unit).
Definition flow_v1_w : layout value_flow :=
  as_w (fun f => (four_prev f, (vf_fees_collected f, (four_fees f, tt)))) (tag_w 32 0xb8e48dfb w[in_cell_w fin four_w, currency_w, in_cell_w fin four_w]).
Definition flow_v2_w : layout value_flow :=
  as_w (fun f => (four_prev f, (vf_fees_collected f, (vf_burned f, (four_fees f, tt))))) (tag_w 32 0x3ebf98b7 w[in_cell_w fin four_w, currency_w, currency_w, in_cell_w fin four_w]).
(** The first form if nothing was burned, the second one otherwise. *)
Definition flow_w : layout value_flow :=
  Layout (fun f => if cc_is_zero (vf_burned f) then w_ok flow_v1_w f else w_ok flow_v2_w f)
    (fun f x => if cc_is_zero (vf_burned f) then w_write flow_v1_w f x else w_write flow_v2_w f x)
    (fun f x => (vf_burned f = cc_zero /\ w_read flow_v1_w f x) \/ w_read flow_v2_w f x) 282 4.
(** Without extra currencies in the collected fees and in what was burned. *)
Definition plain_fees (f : value_flow) : Prop := cc_other (vf_fees_collected f) = None /\ cc_other (vf_burned f) = None.

(** block#11ef55aa global_id:int32 info:^BlockInfo value_flow:^ValueFlow state_update:^(MERKLE_UPDATE ShardState)
    extra:^BlockExtra;
    block#11ef55bb likewise with ^[ state_update:^(MERKLE_UPDATE ShardState) out_msg_queue_updates:(HashmapE 32 ^(MERKLE_UPDATE ...)) ] *)
Definition block_v1_w := tag_w 32 0x11ef55aa w[int_w 32, lazy_w, lazy_w, exotic_w, lazy_w].
Definition block_v2_w := tag_w 32 0x11ef55bb w[int_w 32, lazy_w, lazy_w, in_cell_w fin w[exotic_w, dict_w], lazy_w].
Definition block_w : layout block :=
  cases_w (fun b => match bl_queue b with
    | None => Branch [] block_v1_w (bl_global_id b, (bl_info b, (bl_flow b, (bl_update b, (bl_extra b, tt)))))
    | Some q => Branch [] block_v2_w (bl_global_id b, (bl_info b, (bl_flow b, ((bl_update b, (q, tt)), (bl_extra b, tt)))))
    end) 64 4.

(** block_extra#4a33f6fd in_msg_descr:^InMsgDescr out_msg_descr:^OutMsgDescr
    account_blocks:^ShardAccountBlocks rand_seed:bits256 created_by:bits256 custom:(Maybe ^McBlockExtra) *)
Definition block_extra_w : layout block_extra :=
  as_w (fun x => (be_in x, (be_out x, (be_accounts x, (be_seed x, (be_created_by x, (be_custom x, tt))))))) (tag_w 32 0x4a33f6fd w[lazy_w, lazy_w, lazy_w, hash_w, hash_w, maybe_w lazy_w]).

(** _ config_addr:bits256 config:^(Hashmap 32 ^Cell) = ConfigParams: never an empty dictionary *)
Definition nonempty_w : layout (option cell) :=
  exact_w (fun d => d <> None) (fun d x => exists c, d = Some c /\ x = ([], [c])) 0 1.
Definition config_w := w[hash_w, nonempty_w].
(** ahme_empty$0 extra:Y; ahme_root$1 root:^(HashmapAug n X Y) extra:Y *)
Definition shard_fees_w := w[dict_w, shard_fee_created_w].
(** masterchain_block_extra#cca5 key_block:(## 1) shard_hashes:ShardHashes shard_fees:ShardFees
    ^[ prev_blk_signatures:(HashmapE 16 CryptoSignaturePair) recover_create_msg:(Maybe ^InMsg)
    mint_msg:(Maybe ^InMsg) ] config:key_block?ConfigParams *)
Definition mc_extra_w : layout mc_extra :=
  as_w (fun x => ((some (mc_config x), tt), (mc_shards x, (mc_fees x, ((mc_signatures x, (mc_recover x, (mc_mint x, tt))), (mc_config x, tt))))))
    (tag_w 16 0xcca5 (dep_w w[bool_w] (fun k => w[dict_w, shard_fees_w, in_cell_w fin w[dict_w, maybe_w lazy_w, maybe_w lazy_w], when_w (fst k) config_w]) 508 6)).

(** block_proof#c3 proof_for:BlockIdExt root:^Cell signatures:(Maybe ^BlockSignatures) *)
Definition block_proof_w : layout block_proof :=
  as_w (fun x => (pf_for x, (pf_root x, (pf_signatures x, tt)))) (tag_w 8 0xc3 w[block_id_w, ref_w, maybe_w (in_cell_w fin block_signatures_w)]).

(** shard_state#9023afe2 global_id:int32 shard_id:ShardIdent seq_no:uint32 vert_seq_no:#
    gen_utime:uint32 gen_lt:uint64 min_ref_mc_seqno:uint32 out_msg_queue_info:^OutMsgQueueInfo
    before_split:(## 1) accounts:^ShardAccounts ^[ overload_history:uint64 underload_history:uint64
    total_balance:CurrencyCollection total_validator_fees:CurrencyCollection
    libraries:(HashmapE 256 LibDescr) master_ref:(Maybe BlkMasterInfo) ] custom:(Maybe ^McStateExtra) *)
Definition unsplit_cell_w := w[u64_w, u64_w, currency_w, currency_w, dict_w, maybe_w block_ref_w].
Definition unsplit_w : layout unsplit :=
  as_w (fun x => (us_global_id x, (us_shard x, (us_seqno x, (us_vert_seqno x, (us_utime x, (us_lt x, (us_min_ref x, (us_queue x, (us_before_split x, (us_accounts x,
    ((us_overload x, (us_underload x, (us_balance x, (us_fees x, (us_libraries x, (us_master_ref x, tt)))))), (us_custom x, tt)))))))))))))
    (tag_w 32 0x9023afe2 w[int_w 32, shard_w, u32_w, u32_w, u32_w, u64_w, u32_w, ref_w, bool_w, lazy_w, in_cell_w fin unsplit_cell_w, maybe_w lazy_w]).
(** _ ShardStateUnsplit = ShardState; split_state#5f327da5 left:^ShardStateUnsplit right:^ShardStateUnsplit *)
Definition shard_state_w : layout shard_state :=
  cases_w (fun s => match s with Unsplit x => Branch [] unsplit_w x | Split x => Branch [] shard_state_split_w x end) 362 4.

(** masterchain_state_extra#cc26 shard_hashes:ShardHashes config:ConfigParams ^[ flags:(## 16) { flags <= 3 }
    validator_info:ValidatorInfo prev_blocks:OldMcBlocksInfo after_key_block:Bool
    last_key_block:(Maybe ExtBlkRef) block_create_stats:(flags . 0)?BlockCreateStats ]
    global_balance:CurrencyCollection; block_create_stats#17 counters:(HashmapE 256 CreatorStats) *)
Definition old_blocks_w := w[dict_w, key_max_lt_w].
Definition stats_w := tag_w 8 0x17 dict_w.
(** The second flag is written as zero and may be set in what is read. *)
Definition unused_w : layout unit := Layout (fun _ => True) (fun _ x => x = ([false], [])) (fun _ x => exists f, x = ([f], [])) 1 0.
Definition mc_state_cell_w :=
  dep_w (tag_w 14 0 w[unused_w, bool_w]) (fun k => w[validator_info_w, old_blocks_w, bool_w, maybe_w block_ref_w, when_w (fst (snd k)) stats_w]) 751 2.
Definition mc_state_inner (x : mc_state) := ((tt, (some (ms_stats x), tt)), (ms_validators x, (ms_prev_blocks x, (ms_after_key x, (ms_last_key x, (ms_stats x, tt)))))).
Definition mc_state_w : layout mc_state :=
  as_w (fun x => (ms_shards x, (ms_config x, (mc_state_inner x, (ms_balance x, tt))))) (tag_w 16 0xcc26 w[dict_w, config_w, in_cell_w fin mc_state_cell_w, currency_w]).
End Fin.
