(** * The shards of all workchains: src/models/block/shard_hashes.rs

    Shard identifiers and block identifiers are those of ShardModel, the dictionary of
    workchains and its iterator those of DictModel and IterModel.  [fin] is the outcome of
    [finalize_cell] as in DictModel.  The default features: without [tycho]. *)
From Verif Require Import Err IntModel NumModel CurrencyModel CellModel DictModel IterModel ChunkModel DeriveModel StructsModel TxModel TextModel ShardModel.
Local Open Scope N_scope.

(** ** Descriptions *)
(** 613-629 [FutureSplitMerge] *)
Inductive future := FSplit (utime interval : N) | FMerge (utime interval : N).
(** 631-652 [store_into], 654-671 [load_from] *)
Definition store_future (f : future) (b : chunk) : res chunk :=
  match f with
  | FSplit utime interval =>
    let? b := store_bool false b in
    let? b := store_un 32 utime b in
    store_un 32 interval b
  | FMerge utime interval =>
    let? b := store_bool true b in
    let? b := store_un 32 utime b in
    store_un 32 interval b
  end.
Definition load_future (b : chunk) : res (future * chunk) :=
  let? (bit, b) := load_bool b in
  let? (utime, b) := load_un 32 b in
  let? (interval, b) := load_un 32 b in
  Ok (if bit : bool then FMerge utime interval else FSplit utime interval, b).
Definition future_k := Codec store_future load_future.

(** 415-462 [ShardDescription] *)
Record sdescr := Sdescr {
  sd_seqno : N; sd_reg_mc : N; sd_start_lt : N; sd_end_lt : N; sd_root : list N; sd_file : list N;
  sd_before_split : bool; sd_before_merge : bool; sd_want_split : bool; sd_want_merge : bool; sd_nx_cc : bool;
  sd_catchain : N; sd_validator_shard : N; sd_min_ref : N; sd_utime : N; sd_at : option future;
  sd_fees : currency; sd_created : currency
}.
(** 471-478 [as_block_id] *)
Definition as_block_id (d : sdescr) (s : shard) : block_id := BlockId s (sd_seqno d) (sd_root d) (sd_file d).
Section Fin.
Context (fin : list bool -> list cell -> res unit).
(** 512-517: the cell with the fees *)
Definition store_funds (d : sdescr) (b : chunk) : res chunk :=
  let? b := c_store currency_k (sd_fees d) b in
  c_store currency_k (sd_created d) b.
(** 481-521 [store_into] *)
Definition store_sdescr (d : sdescr) (b : chunk) : res chunk :=
  let flags := N.lor (N.lor (N.lor (N.lor (N.shiftl (b2n (sd_before_split d)) 7) (N.shiftl (b2n (sd_before_merge d)) 6))
    (N.shiftl (b2n (sd_want_split d)) 5)) (N.shiftl (b2n (sd_want_merge d)) 4)) (N.shiftl (b2n (sd_nx_cc d)) 3) in
  let? b := store_un 4 0xa b in
  let? b := store_un 32 (sd_seqno d) b in
  let? b := store_un 32 (sd_reg_mc d) b in
  let? b := store_un 64 (sd_start_lt d) b in
  let? b := store_un 64 (sd_end_lt d) b in
  let? b := store_bs (sd_root d) b in
  let? b := store_bs (sd_file d) b in
  let? b := store_un 8 flags b in
  let? b := store_un 32 (sd_catchain d) b in
  let? b := store_un 64 (sd_validator_shard d) b in
  let? b := store_un 32 (sd_min_ref d) b in
  let? b := store_un 32 (sd_utime d) b in
  let? b := c_store (opt_k future_k) (sd_at d) b in
  let? c := in_cell fin (store_funds d) in
  store_ref c b.
(** 564-565: the fees, in a cell of their own or in place *)
Definition load_funds (b : chunk) : res ((currency * currency) * chunk) :=
  let? (fees, b) := c_load currency_k b in
  let? (created, b) := c_load currency_k b in
  Ok ((fees, created), b).
(** 523-593 [load_from] *)
Definition load_sdescr (b : chunk) : res (sdescr * chunk) :=
  let? (t, b) := load_un 4 b in
  let? cont_in_cell := (if t =? 0xa then Ok true else if t =? 0xb then Ok false else Err InvalidTag) in
  let? (seqno, b) := load_un 32 b in
  let? (reg_mc, b) := load_un 32 b in
  let? (start_lt, b) := load_un 64 b in
  let? (end_lt, b) := load_un 64 b in
  let? (root, b) := load_bs 32 b in
  let? (file, b) := load_bs 32 b in
  let? (flags, b) := load_un 8 b in
  if negb (N.land flags 3 =? 0) then Err InvalidData
  else
    let? (catchain, b) := load_un 32 b in
    let? (vshard, b) := load_un 64 b in
    let? (min_ref, b) := load_un 32 b in
    let? (utime, b) := load_un 32 b in
    let? (split_merge_at, b) := c_load (opt_k future_k) b in
    let? (funds, b) :=
      (if cont_in_cell : bool then let? (c, b) := load_ref b in let? funds := from_cell load_funds c in Ok (funds, b)
       else load_funds b) in
    Ok (Sdescr seqno reg_mc start_lt end_lt root file (has flags 128) (has flags 64) (has flags 32) (has flags 16) (has flags 8)
          catchain vshard min_ref utime split_merge_at (fst funds) (snd funds), b).
Definition sdescr_k := Codec store_sdescr load_sdescr.
(** 595-608 [parse_block_id] *)
Definition block_of (s : shard) (value : sl) : res block_id :=
  let b := s_chunk value in
  let? b := on_bits (skip_bits 4) b in
  let? (seqno, b) := load_un 32 b in
  let? b := on_bits (skip_bits (32 + 64 + 64)) b in
  let? (root, b) := load_bs 32 b in
  let? (file, b) := load_bs 32 b in
  Ok (BlockId s seqno root file).

(** ** Building trees: 170-252 [try_build_raw] *)
Definition make_leaf (d : sdescr) : res cell := in_cell fin (fun b => let? b := store_bool false b in store_sdescr d b).
Definition make_edge (left right : cell) : res cell :=
  in_cell fin (fun b => let? b := store_bool true b in let? b := store_ref left b in store_ref right b).
Definition shard_eqb (a b : shard) : bool := (sh_wc a =? sh_wc b)%Z && (sh_prefix a =? sh_prefix b).
(** 219-248: the inner loop.  The root ([inl]) or the new stack ([inr]); the head of the list is
    the top of the stack. *)
Fixpoint attach (stack : list (shard * cell)) (next : shard) (c : cell) : res (cell + list (shard * cell)) :=
  if is_left_child next then Ok (inr ((next, c) :: stack))
  else
    match stack with
    | [] => Err Unbalanced
    | (ls, lc) :: stack =>
      match merge ls, merge next with
      | Some a, Some b =>
        if shard_eqb a b then
          let? p := make_edge lc c in
          if is_full a then Ok (inl p) else attach stack a p
        else Err Unbalanced
      | _, _ => Err Unbalanced
      end
    end.
(** 213-251: the outer loop; [read_shard] (186-198) fails at the end of the list. *)
Fixpoint build_loop (shards : list (shard * sdescr)) (stack : list (shard * cell)) : res cell :=
  match shards with
  | [] => Err Unbalanced
  | (s, d) :: shards =>
    let? c := make_leaf d in
    let? r := attach stack s c in
    match r with inl root => Ok root | inr stack => build_loop shards stack end
  end.
Definition try_build (shards : list (shard * sdescr)) : res cell :=
  match shards with
  | [] => Err Unbalanced
  | (s, d) :: shards =>
    let? c := make_leaf d in
    if is_full s then Ok c
    else if is_right_child s then Err Unbalanced
    else build_loop shards [(s, c)]
  end.
(** [i32] keys of the dictionary *)
Definition wc_key (wc : Z) : list bool := nbits 32 (as_unsigned 32 wc).
(** 31-54 [from_shards].  [sort] is [sort_unstable_by], [order] is the order in which the hash map
    of groups is visited. *)
Fixpoint from_groups (sort : list (shard * sdescr) -> list (shard * sdescr)) (order : list Z) (l : list (shard * sdescr)) (d : option cell) : res (option cell) :=
  match order with
  | [] => Ok d
  | wc :: order =>
    let? c := try_build (sort (List.filter (fun p => (sh_wc (fst p) =? wc)%Z) l)) in
    let? (_, d) := dict_insert fin d (wc_key wc) 32 ([], [c]) MSet in
    from_groups sort order l d
  end.
Definition from_shards sort order l : res (option cell) := from_groups sort order l None.
End Fin.

(** ** Iterators *)
(** 797-802 [WorkchainShardsTreeRawIter]; the head of [ti_segs] is the last segment, a cell and
    [is_right] (917-921). *)
Record tree_iter := TreeIter { ti_wc : Z; ti_leaf : option sl; ti_segs : list (cell * bool); ti_status : iter_status }.
(** 806-844 [new] *)
Definition tree_new (wc : Z) (root : cell) : tree_iter :=
  match as_slice root with
  | Err _ => TreeIter wc None [] StUnexpected
  | Ok s =>
    match load_bit (s_bits s) with
    | Err _ => TreeIter wc None [] StBroken
    | Ok (is_fork, b) =>
      if is_fork : bool then TreeIter wc None [(root, false)] StValid
      else TreeIter wc (Some (Sl (s_cell s) b (s_refs s))) [] StValid
    end
  end.
(** 875-895: down to the next leaf *)
Fixpoint tree_descend (fuel : nat) (segs : list (cell * bool)) : res (option (sl * list (cell * bool))) :=
  match fuel with
  | O => Err OutOfFuel
  | S fuel =>
    match segs with
    | [] => Ok None
    | (c, is_right) :: _ =>
      let? s := ref_slice is_right c in
      let? (is_fork, b) := load_bit (s_bits s) in
      if negb is_fork then Ok (Some (Sl (s_cell s) b (s_refs s), segs))
      else if (N.of_nat (length segs) <? MAX_SPLIT_DEPTH) then tree_descend fuel ((s_cell s, false) :: segs)
      else Err CellUnderflow
    end
  end.
(** 856-862 [build_shard_prefix] *)
Definition build_prefix (segs : list (cell * bool)) : N :=
  fold_left (fun result seg => N.lor (PREFIX_FULL * b2n (snd seg)) (N.shiftr result 1)) segs PREFIX_FULL.
(** 903-911 *)
Fixpoint pop_right (segs : list (cell * bool)) : list (cell * bool) :=
  match segs with (_, true) :: segs => pop_right segs | _ => segs end.
Definition go_right (segs : list (cell * bool)) : list (cell * bool) :=
  match segs with (c, _) :: segs => (c, true) :: segs | [] => [] end.
Definition tree_broken (it : tree_iter) : tree_iter := TreeIter (ti_wc it) (ti_leaf it) (ti_segs it) StBroken.
(** 855-915 [next] *)
Definition tree_next (it : tree_iter) : option (res (shard * sl)) * tree_iter :=
  match ti_status it with
  | StUnexpected => (Some (Err UnexpectedExoticCell), tree_broken it)
  | StBroken => (None, it)
  | StValid =>
    let r := match ti_leaf it with Some leaf => Ok (Some (leaf, ti_segs it)) | None => tree_descend 61 (ti_segs it) end in
    match r with
    | Err e => (Some (Err e), tree_broken (TreeIter (ti_wc it) None (ti_segs it) StValid))
    | Ok None => (None, it)
    | Ok (Some (leaf, segs)) =>
      (Some (Ok (Shard (ti_wc it) (build_prefix segs), leaf)), TreeIter (ti_wc it) None (go_right (pop_right segs)) StValid)
    end
  end.

(** 675-694 [ShardsTreeRawIter].  [hi_fuel] bounds the number of workchains. *)
Record hashes_iter := HashesIter { hi_dict : raw_iter; hi_tree : option tree_iter; hi_status : iter_status; hi_fuel : nat }.
Definition hashes_new (d : option cell) : hashes_iter :=
  HashesIter (iter_new d 32 false false) None StValid (S (match d with Some c => csize c | None => 0 end)).
Definition hashes_broken (it : hashes_iter) : hashes_iter := HashesIter (hi_dict it) (hi_tree it) StBroken (hi_fuel it).
(** 709-739: the loop *)
Fixpoint hashes_loop (fuel : nat) (di : raw_iter) (tree : option tree_iter) (size : nat) : option (res (shard * sl)) * hashes_iter :=
  match fuel with
  | O => (Some (Err OutOfFuel), HashesIter di tree StBroken size)
  | S fuel =>
    let next_tree :=
      match iter_next di with
      | (None, di) => (None, HashesIter di None StValid size)
      | (Some (Err e), di) => (Some (Err e), HashesIter di None StBroken size)
      | (Some (Ok (key, value)), di) =>
        (* dict/mod.rs:93-99: [i32::load_from_data] does not fail *)
        match s_refs value with
        | [] => (Some (Err CellUnderflow), HashesIter di None StBroken size)
        | c :: _ => hashes_loop fuel di (Some (tree_new (as_signed 32 (bval key)) c)) size
        end
      end in
    match tree with
    | Some it =>
      match tree_next it with
      | (Some item, it) => (Some item, HashesIter di (Some it) StValid size)
      | (None, _) => next_tree
      end
    | None => next_tree
    end
  end.
(** 700-740 [next] *)
Definition hashes_next (it : hashes_iter) : option (res (shard * sl)) * hashes_iter :=
  match hi_status it with
  | StUnexpected => (Some (Err UnexpectedExoticCell), hashes_broken it)
  | StBroken => (None, it)
  | StValid => hashes_loop (hi_fuel it) (hi_dict it) (hi_tree it) (hi_fuel it)
  end.

(** 281-294, 315-328, 349-362 and 383-396: [next] of the iterators that parse what the raw ones give; [finish]
    breaks the inner iterator. *)
Definition parsed {S A} (next : S -> option (res (shard * sl)) * S) (broken : S -> S) (parse : shard -> sl -> res A) (it : S) : option (res A) * S :=
  match next it with
  | (None, it) => (None, it)
  | (Some (Err e), it) => (Some (Err e), it)
  | (Some (Ok (s, value)), it) =>
    match parse s value with
    | Ok a => (Some (Ok a), it)
    | Err e => (Some (Err e), broken it)
    end
  end.
Definition parse_entry (s : shard) (value : sl) : res (shard * sdescr) := let? (d, _) := load_sdescr (s_chunk value) in Ok (s, d).
(** [ShardHashes::iter], [latest_blocks]; [WorkchainShardHashes::iter], [latest_blocks], [keys],
    [raw_values] (744-794) *)
Definition entries_next := parsed hashes_next hashes_broken parse_entry.
Definition blocks_next := parsed hashes_next hashes_broken block_of.
Definition tree_entries_next := parsed tree_next tree_broken parse_entry.
Definition tree_blocks_next := parsed tree_next tree_broken block_of.
Definition tree_keys_next := parsed tree_next tree_broken (fun s _ => Ok s).
Definition tree_values_next := parsed tree_next tree_broken (fun _ v => Ok v).
(** 84-93 [get_workchain_shards]; [Cell::load_from] is the first reference. *)
Definition get_workchain (d : option cell) (wc : Z) : res (option cell) :=
  let? o := dict_get d 32 (wc_key wc) in
  match o with
  | None => Ok None
  | Some v => let? (c, _) := load_ref v in Ok (Some c)
  end.
