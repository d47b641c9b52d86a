(** * Blocks and shard states: src/models/block/mod.rs, block_extra.rs, block_proof.rs,
    src/models/shard/mod.rs, shard_extra.rs, src/models/config/mod.rs

    The types of fields and the derived structures are those of StructsModel, shard identifiers
    those of ShardModel.  [fin] is the outcome of [finalize_cell] as in DictModel.  The code is
    that without the feature [tycho]. *)
From Verif Require Import Err IntModel NumModel CurrencyModel CellModel DictModel ChunkModel LazyModel AccountModel DeriveModel StructsModel TxModel ShardModel FeesModel VsetModel ParamsModel.
Local Open Scope N_scope.

Definition some {A} (o : option A) : bool := match o with Some _ => true | None => false end.
(** block/block_id.rs:473-498 and 7, in builders and slices *)
Definition shard_k : codec shard := Codec (fun s => on_bits (store_shard s)) (from_bits load_shard).
Definition block_id_k : codec block_id := Codec (fun s => on_bits (store_block_id s)) (from_bits load_block_id).
Definition version := vals (s_fields global_version).
Definition bref := vals (s_fields block_ref).
(** [GlobalVersion::default] *)
Definition no_version : version := (0, ((0, tt), tt)).

Section Fin.
Context (fin : list bool -> list cell -> res unit).

(** ** Block info: block/mod.rs:177-230 *)
Record block_info := BlockInfo {
  in_version : N; in_after_merge : bool; in_before_split : bool; in_after_split : bool; in_want_split : bool; in_want_merge : bool; in_key_block : bool;
  in_flags : N; in_seqno : N; in_vert_seqno : N; in_shard : shard; in_utime : N; in_start_lt : N; in_end_lt : N;
  in_vlist : N; in_catchain : N; in_min_ref : N; in_prev_key : N; in_software : version;
  in_master_ref : option cell; in_prev_ref : cell; in_prev_vert_ref : option cell
}.
(** mod.rs:270-278 [set_gen_software] *)
Definition set_gen_software (i : block_info) (v : option version) : block_info :=
  let '(BlockInfo a b c d e f g fl h j k l m n o p q r _ t u w) := i in
  match v with
  | Some v => BlockInfo a b c d e f g (N.lor fl 1) h j k l m n o p q r v t u w
  | None => BlockInfo a b c d e f g (N.land fl 254) h j k l m n o p q r no_version t u w
  end.
(** mod.rs:502-520 [PrevBlockRef] *)
Inductive prev_ref := Single (r : bref) | AfterMerge (lr rr : bref).
(** mod.rs:547-558 [PrevBlockRef::store_into] *)
Definition store_prev_ref (p : prev_ref) (b : chunk) : res chunk :=
  match p with
  | Single r => c_store (derived block_ref) r b
  | AfterMerge l r =>
    let? lc := in_cell fin (c_store (derived block_ref) l) in
    let? b := store_ref lc b in
    let? rc := in_cell fin (c_store (derived block_ref) r) in
    store_ref rc b
  end.
(** mod.rs:536-545 [PrevBlockRef::load_from_cell] *)
Definition load_prev_cell (c : cell) (after_merge : bool) : res prev_ref :=
  let? s := as_slice c in
  let b := s_chunk s in
  if after_merge then
    let? (lc, b) := load_ref b in
    let? l := from_cell (c_load (derived block_ref)) lc in
    let? (rc, b) := load_ref b in
    let? r := from_cell (c_load (derived block_ref)) rc in
    Ok (AfterMerge l r)
  else let? (r, _) := c_load (derived block_ref) b in Ok (Single r).
(** mod.rs:289-291 [load_prev_ref] *)
Definition load_prev_ref (i : block_info) : res prev_ref := load_prev_cell (in_prev_ref i) (in_after_merge i).
(** mod.rs:294-318 [set_prev_ref]; a failed [unwrap] is [Panic] *)
Definition unwrap {A} (r : res A) : res A := match r with Ok a => Ok a | Err _ => Err Panic end.
Definition with_prev (i : block_info) (x : cell) : block_info :=
  let '(BlockInfo a b c d e f g fl h j k l m n o p q r s t _ w) := i in BlockInfo a b c d e f g fl h j k l m n o p q r s t x w.
Definition set_prev_ref (i : block_info) (p : prev_ref) : res block_info :=
  let? c := unwrap (in_cell fin (store_prev_ref p)) in Ok (with_prev i c).
(** mod.rs:281-286 [load_master_ref] *)
Definition load_master_ref (i : block_info) : res (option bref) :=
  match in_master_ref i with
  | Some c => let? r := lazy_load (c_load (derived block_ref)) c in Ok (Some r)
  | None => Ok None
  end.
(** mod.rs:321-374 *)
Definition packed (i : block_info) : N :=
  N.lor (N.lor (N.lor (N.lor (N.lor (N.lor (N.lor (N.shiftl (b2n (some (in_master_ref i))) 7) (N.shiftl (b2n (in_after_merge i)) 6)) (N.shiftl (b2n (in_before_split i)) 5))
    (N.shiftl (b2n (in_after_split i)) 4)) (N.shiftl (b2n (in_want_split i)) 3)) (N.shiftl (b2n (in_want_merge i)) 2)) (N.shiftl (b2n (in_key_block i)) 1)) (b2n (some (in_prev_vert_ref i))).
Definition store_if {A} (s : A -> chunk -> res chunk) (o : option A) (b : chunk) : res chunk := match o with Some a => s a b | None => Ok b end.
Definition store_block_info (i : block_info) (b : chunk) : res chunk :=
  let? b := store_un 32 0x9bc7a987 b in
  let? b := store_un 32 (in_version i) b in
  let? b := store_un 16 (packed i * 256 + in_flags i) b in
  let? b := store_un 32 (in_seqno i) b in
  let? b := store_un 32 (in_vert_seqno i) b in
  let? b := c_store shard_k (in_shard i) b in
  let? b := store_un 32 (in_utime i) b in
  let? b := store_un 64 (in_start_lt i) b in
  let? b := store_un 64 (in_end_lt i) b in
  let? b := store_un 32 (in_vlist i) b in
  let? b := store_un 32 (in_catchain i) b in
  let? b := store_un 32 (in_min_ref i) b in
  let? b := store_un 32 (in_prev_key i) b in
  let? b := (if has (in_flags i) 1 then c_store (derived global_version) (in_software i) b else Ok b) in
  let? b := store_if store_ref (in_master_ref i) b in
  let? b := store_ref (in_prev_ref i) b in
  store_if store_ref (in_prev_vert_ref i) b.
(** mod.rs:376-457 *)
Definition load_if {A} (f : bool) (l : chunk -> res (A * chunk)) (b : chunk) : res (option A * chunk) :=
  if f then let? (a, b) := l b in Ok (Some a, b) else Ok (None, b).
Definition load_block_info (b : chunk) : res (block_info * chunk) :=
  let? (t, b) := load_un 32 b in
  if negb (t =? 0x9bc7a987) then Err InvalidTag
  else
    let? (v, b) := load_un 32 b in
    let? (w, b) := load_un 16 b in
    let pf := N.shiftr w 8 in
    let fl := w8 w in
    let? (seqno, b) := load_un 32 b in
    if seqno =? 0 then Err InvalidData
    else
      let? (vert, b) := load_un 32 b in
      let? (sh, b) := c_load shard_k b in
      let? (ut, b) := load_un 32 b in
      let? (slt, b) := load_un 64 b in
      let? (elt, b) := load_un 64 b in
      let? (vl, b) := load_un 32 b in
      let? (cs, b) := load_un 32 b in
      let? (mr, b) := load_un 32 b in
      let? (pk, b) := load_un 32 b in
      let? (sw, b) := (if has fl 1 then c_load (derived global_version) b else Ok (no_version, b)) in
      let? (ma, b) := load_if (has pf 128) (load_lazy false) b in
      let? (pr, b) := load_ref b in
      let? (pv, b) := load_if (has pf 1) (load_lazy false) b in
      if vert <? b2n (some pv) then Err InvalidData
      else Ok (BlockInfo v (has pf 64) (has pf 32) (has pf 16) (has pf 8) (has pf 4) (has pf 2) fl seqno vert sh ut slt elt vl cs mr pk sw ma pr pv, b).
Definition block_info_k := Codec store_block_info load_block_info.

(** ** Value flow: block/mod.rs:589-617; 644-684 [store_into], 686-720 [load_from] *)
Record value_flow := ValueFlow {
  vf_from_prev : currency; vf_to_next : currency; vf_imported : currency; vf_exported : currency; vf_fees_collected : currency;
  vf_burned : currency; vf_fees_imported : currency; vf_recovered : currency; vf_created : currency; vf_minted : currency
}.
Definition store_ccs (l : list currency) (b : chunk) : res chunk := fold_left (fun b c => let? b := b in store_cc c b) l (Ok b).
Definition store_value_flow (f : value_flow) (b : chunk) : res chunk :=
  let with_burned := negb (cc_is_zero (vf_burned f)) in
  let tag := if with_burned then 0x3ebf98b7 else 0xb8e48dfb in
  let? cell1 := in_cell fin (store_ccs [vf_from_prev f; vf_to_next f; vf_imported f; vf_exported f]) in
  let? b := store_un 32 tag b in
  let? b := store_ref cell1 b in
  let? b := store_cc (vf_fees_collected f) b in
  let? b := (if with_burned then store_cc (vf_burned f) b else Ok b) in
  let? cell2 := in_cell fin (store_ccs [vf_fees_imported f; vf_recovered f; vf_created f; vf_minted f]) in
  store_ref cell2 b.
Definition load_value_flow (b : chunk) : res (value_flow * chunk) :=
  let? (t, b) := load_un 32 b in
  let? with_burned := (if t =? 0xb8e48dfb then Ok false else if t =? 0x3ebf98b7 then Ok true else Err InvalidTag) in
  let? (fc, b) := load_cc b in
  let? (bu, b) := (if with_burned : bool then load_cc b else Ok (cc_zero, b)) in
  let? (c1, b) := load_ref b in
  let? s1 := as_slice c1 in
  let? (c2, b) := load_ref b in
  let? s2 := as_slice c2 in
  let? (fp, x) := load_cc (s_chunk s1) in
  let? (tn, x) := load_cc x in
  let? (im, x) := load_cc x in
  let? (ex, _) := load_cc x in
  let? (fi, y) := load_cc (s_chunk s2) in
  let? (re, y) := load_cc y in
  let? (cr, y) := load_cc y in
  let? (mi, _) := load_cc y in
  Ok (ValueFlow fp tn im ex fc bu fi re cr mi, b).
Definition value_flow_k := Codec store_value_flow load_value_flow.

(** ** Blocks: block/mod.rs:25-47; 87-127 [store_into], 129-172 [load_from] *)
Record block := Block { bl_global_id : Z; bl_info : cell; bl_flow : cell; bl_update : cell; bl_queue : option (option cell); bl_extra : cell }.
Definition store_block (x : block) (b : chunk) : res chunk :=
  let? b := store_un 32 (if some (bl_queue x) then 0x11ef55bb else 0x11ef55aa) b in
  let? b := store_un 32 (as_unsigned 32 (bl_global_id x)) b in
  let? b := store_ref (bl_info x) b in
  let? b := store_ref (bl_flow x) b in
  let? b := match bl_queue x with
            | Some q => let? c := in_cell fin (fun b => let? b := store_lazy (bl_update x) b in store_dict q b) in store_ref c b
            | None => store_lazy (bl_update x) b
            end in
  store_lazy (bl_extra x) b.
(** [state_update] is a [LazyExotic]: the cell must be exotic *)
Definition load_block (b : chunk) : res (block * chunk) :=
  let? (t, b) := load_un 32 b in
  let? q := (if t =? 0x11ef55aa then Ok false else if t =? 0x11ef55bb then Ok true else Err InvalidTag) in
  let? (g, b) := load_un 32 b in
  let? (i, b) := load_lazy false b in
  let? (v, b) := load_lazy false b in
  let? (p, b) := (if q : bool then
                    let? (c, b) := load_ref b in
                    let? s := as_slice c in
                    let? (u, x) := load_lazy true (s_chunk s) in
                    let? (d, _) := load_dict x in Ok ((u, Some d), b)
                  else let? (u, b) := load_lazy true b in Ok ((u, None), b)) in
  let? (e, b) := load_lazy false b in
  Ok (Block (as_signed 32 g) i v (fst p) (snd p) e, b).
Definition block_k := Codec store_block load_block.
(** mod.rs:78-84 [build_data_for_sign] *)
Definition data_for_sign (x : block_id) : list N := [0x70; 0x6e; 0x0b; 0xc5] ++ bi_root x ++ bi_file x.

(** ** Block extra: block/block_extra.rs:12-29; 72-92 [store_into], 94-121 [load_from] *)
Record block_extra := BlockExtra { be_in : cell; be_out : cell; be_accounts : cell; be_seed : list N; be_created_by : list N; be_custom : option cell }.
Definition store_block_extra (x : block_extra) (b : chunk) : res chunk :=
  let? b := store_un 32 0x4a33f6fd b in
  let? b := store_ref (be_in x) b in
  let? b := store_ref (be_out x) b in
  let? b := store_ref (be_accounts x) b in
  let? b := store_bs (be_seed x) b in
  let? b := store_bs (be_created_by x) b in
  store_opt_c store_lazy (be_custom x) b.
Definition load_block_extra (b : chunk) : res (block_extra * chunk) :=
  let? (t, b) := load_un 32 b in
  if negb (t =? 0x4a33f6fd) then Err InvalidTag
  else
    let? (i, b) := load_lazy false b in
    let? (o, b) := load_lazy false b in
    let? (a, b) := load_lazy false b in
    let? (s, b) := load_bs 32 b in
    let? (c, b) := load_bs 32 b in
    let? (m, b) := load_opt_c (load_lazy false) b in
    Ok (BlockExtra i o a s c m, b).
Definition block_extra_k := Codec store_block_extra load_block_extra.

(** config/mod.rs:17-24 (derived), 57 and 596-610 [BlockchainConfigParams]: the root of a
    dictionary that must not be empty *)
Definition store_params (d : option cell) (b : chunk) : res chunk := match d with Some c => store_ref c b | None => Err InvalidData end.
Definition load_params (b : chunk) : res (option cell * chunk) := let? (c, b) := load_ref b in Ok (Some c, b).
Definition params_k := Codec store_params load_params.
Definition config := struct_of NoTag [hash; plain params_k].
(** dict/aug.rs:63-85: an augmented dictionary is a dictionary and an extra *)
Definition aug_of (extra : field) := struct_of NoTag [dict; extra].
Definition shard_fees := aug_of (sub shard_fee_created).

(** ** Masterchain block extra: block_extra.rs:207-223; 245-271 [store_into], 273-305 [load_from];
    [ShardHashes] is a dictionary *)
Record mc_extra := McExtra {
  mc_shards : option cell; mc_fees : vals (s_fields shard_fees); mc_signatures : option cell; mc_recover : option cell; mc_mint : option cell;
  mc_config : option (vals (s_fields config))
}.
Definition store_mc_extra (x : mc_extra) (b : chunk) : res chunk :=
  let? c := in_cell fin (fun b => let? b := store_dict (mc_signatures x) b in let? b := store_opt_c store_lazy (mc_recover x) b in store_opt_c store_lazy (mc_mint x) b) in
  let? b := store_un 16 0xcca5 b in
  let? b := store_bool (some (mc_config x)) b in
  let? b := store_dict (mc_shards x) b in
  let? b := c_store (derived shard_fees) (mc_fees x) b in
  let? b := store_ref c b in
  store_if (c_store (derived config)) (mc_config x) b.
Definition load_mc_extra (b : chunk) : res (mc_extra * chunk) :=
  let? (t, b) := load_un 16 b in
  if negb (t =? 0xcca5) then Err InvalidTag
  else
    let? (with_config, b) := load_bool b in
    let? (sh, b) := load_dict b in
    let? (fe, b) := c_load (derived shard_fees) b in
    let? (c, b) := load_ref b in
    let? s := as_slice c in
    let? (co, b) := load_if with_config (c_load (derived config)) b in
    let? (si, x) := load_dict (s_chunk s) in
    let? (re, x) := load_opt_c (load_lazy false) x in
    let? (mi, _) := load_opt_c (load_lazy false) x in
    Ok (McExtra sh fe si re mi co, b).
Definition mc_extra_k := Codec store_mc_extra load_mc_extra.

(** ** Block proofs: block/block_proof.rs:9-18; 24-50 [store_into], 52-73 [load_from] *)
Record block_proof := BlockProof { pf_for : block_id; pf_root : cell; pf_signatures : option (vals (s_fields block_signatures)) }.
Definition store_block_proof (x : block_proof) (b : chunk) : res chunk :=
  let? child := match pf_signatures x with
                | Some s => let? c := in_cell fin (c_store (derived block_signatures) s) in Ok (Some c)
                | None => Ok None
                end in
  let? b := store_un 8 0xc3 b in
  let? b := c_store block_id_k (pf_for x) b in
  let? b := store_ref (pf_root x) b in
  match child with
  | Some c => let? b := store_bool true b in store_ref c b
  | None => store_bool false b
  end.
Definition load_block_proof (b : chunk) : res (block_proof * chunk) :=
  let? (t, b) := load_un 8 b in
  if negb (t =? 0xc3) then Err InvalidTag
  else
    let? (i, b) := c_load block_id_k b in
    let? (r, b) := load_ref b in
    let? (f, b) := load_bool b in
    let? (s, b) := (if f : bool then let? (c, b) := load_ref b in let? s := from_cell (c_load (derived block_signatures)) c in Ok (Some s, b) else Ok (None, b)) in
    Ok (BlockProof i r s, b).
Definition block_proof_k := Codec store_block_proof load_block_proof.

(** ** Shard states: shard/mod.rs:112-158; 250-299 [store_into], 301-358 [load_from] *)
Record unsplit := Unsplit' {
  us_global_id : Z; us_shard : shard; us_seqno : N; us_vert_seqno : N; us_utime : N; us_lt : N; us_min_ref : N; us_queue : cell; us_before_split : bool; us_accounts : cell;
  us_overload : N; us_underload : N; us_balance : currency; us_fees : currency; us_libraries : option cell; us_master_ref : option bref; us_custom : option cell
}.
Definition store_unsplit_cell (x : unsplit) (b : chunk) : res chunk :=
  let? b := store_un 64 (us_overload x) b in
  let? b := store_un 64 (us_underload x) b in
  let? b := store_cc (us_balance x) b in
  let? b := store_cc (us_fees x) b in
  let? b := store_dict (us_libraries x) b in
  store_opt_c (c_store (derived block_ref)) (us_master_ref x) b.
Definition store_unsplit (x : unsplit) (b : chunk) : res chunk :=
  let? c := in_cell fin (store_unsplit_cell x) in
  let? b := store_un 32 0x9023afe2 b in
  let? b := store_un 32 (as_unsigned 32 (us_global_id x)) b in
  let? b := c_store shard_k (us_shard x) b in
  let? b := store_un 32 (us_seqno x) b in
  let? b := store_un 32 (us_vert_seqno x) b in
  let? b := store_un 32 (us_utime x) b in
  let? b := store_un 64 (us_lt x) b in
  let? b := store_un 32 (us_min_ref x) b in
  let? b := store_ref (us_queue x) b in
  let? b := store_bool (us_before_split x) b in
  let? b := store_ref (us_accounts x) b in
  let? b := store_ref c b in
  store_opt_c store_lazy (us_custom x) b.
Definition load_unsplit (b : chunk) : res (unsplit * chunk) :=
  let? (t, b) := load_un 32 b in
  if negb (t =? 0x9023afe2) then Err InvalidTag
  else
    let? (q, b) := load_ref b in
    let? (a, b) := load_lazy false b in
    let? (c, b) := load_ref b in
    let? s := as_slice c in
    let? (g, b) := load_un 32 b in
    let? (sh, b) := c_load shard_k b in
    let? (sq, b) := load_un 32 b in
    let? (vs, b) := load_un 32 b in
    let? (ut, b) := load_un 32 b in
    let? (lt, b) := load_un 64 b in
    let? (mr, b) := load_un 32 b in
    let? (bs, b) := load_bool b in
    let? (ov, x) := load_un 64 (s_chunk s) in
    let? (un, x) := load_un 64 x in
    let? (tb, x) := load_cc x in
    let? (vf, x) := load_cc x in
    let? (li, x) := load_dict x in
    let? (ma, _) := load_opt_c (c_load (derived block_ref)) x in
    let? (cu, b) := load_opt_c (load_lazy false) b in
    Ok (Unsplit' (as_signed 32 g) sh sq vs ut lt mr q bs a ov un tb vf li ma cu, b).
Definition unsplit_k := Codec store_unsplit load_unsplit.
(** shard/mod.rs:26-32; 34-45 [store_into], 47-61 [load_from] *)
Inductive shard_state := Unsplit (x : unsplit) | Split (x : vals (s_fields shard_state_split)).
Definition store_shard_state (x : shard_state) (b : chunk) : res chunk :=
  match x with Unsplit x => store_unsplit x b | Split x => c_store (derived shard_state_split) x b end.
Definition load_shard_state (b : chunk) : res (shard_state * chunk) :=
  match fst b with
  | [] => Err CellUnderflow
  | true :: _ => let? (x, b) := load_unsplit b in Ok (Unsplit x, b)
  | false :: _ => let? (x, b) := c_load (derived shard_state_split) b in Ok (Split x, b)
  end.
Definition shard_state_k := Codec store_shard_state load_shard_state.

(** ** Masterchain state extra: shard/shard_extra.rs:28-50; 57-99 [store_into], 101-150 [load_from] *)
Definition old_blocks := aug_of (sub key_max_lt).
Record mc_state := McState {
  ms_shards : option cell; ms_config : vals (s_fields config); ms_validators : vals (s_fields validator_info); ms_prev_blocks : vals (s_fields old_blocks);
  ms_after_key : bool; ms_last_key : option bref; ms_stats : option (option cell); ms_balance : currency
}.
Definition store_mc_state_cell (x : mc_state) (b : chunk) : res chunk :=
  let? b := store_un 16 (b2n (some (ms_stats x))) b in
  let? b := c_store (derived validator_info) (ms_validators x) b in
  let? b := c_store (derived old_blocks) (ms_prev_blocks x) b in
  let? b := store_bool (ms_after_key x) b in
  let? b := store_opt_c (c_store (derived block_ref)) (ms_last_key x) b in
  store_if (fun d b => let? b := store_un 8 0x17 b in store_dict d b) (ms_stats x) b.
Definition store_mc_state (x : mc_state) (b : chunk) : res chunk :=
  let? c := in_cell fin (store_mc_state_cell x) in
  let? b := store_un 16 0xcc26 b in
  let? b := store_dict (ms_shards x) b in
  let? b := c_store (derived config) (ms_config x) b in
  let? b := store_ref c b in
  store_cc (ms_balance x) b.
Definition load_mc_state (b : chunk) : res (mc_state * chunk) :=
  let? (t, b) := load_un 16 b in
  if negb (t =? 0xcc26) then Err InvalidTag
  else
    let? (sh, b) := load_dict b in
    let? (co, b) := c_load (derived config) b in
    let? (c, b) := load_ref b in
    let? s := as_slice c in
    let? (fl, x) := load_un 16 (s_chunk s) in
    if negb (N.shiftr fl 2 =? 0) then Err InvalidData
    else
      let? (vi, x) := c_load (derived validator_info) x in
      let? (pb, x) := c_load (derived old_blocks) x in
      let? (ak, x) := load_bool x in
      let? (lk, x) := load_opt_c (c_load (derived block_ref)) x in
      let? (st, x) := load_if (has fl 1) (fun x => let? (t, x) := load_un 8 x in if negb (t =? 0x17) then Err InvalidTag else load_dict x) x in
      let? (gb, b) := load_cc b in
      Ok (McState sh co vi pb ak lk st gb, b).
Definition mc_state_k := Codec store_mc_state load_mc_state.
End Fin.
