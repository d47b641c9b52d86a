(** * The parameters of the network (src/models/config/mod.rs)

    The dictionary of the parameters is its root, [option cell]; [&mut self] returns the new root. *)
From Verif Require Import Err IntModel CurrencyModel CellModel LabelModel DictModel ChunkModel LazyModel DeriveModel StructsModel ParamsModel VsetModel InlineModel.
Local Open Scope N_scope.

(** 613-622 [KnownConfigParam]: the type of the value, the identifier and the codec of the wrapper *)
Record param := Param { p_ty : Type; p_id : N; p_codec : codec p_ty }.

Section Config.
Context (fin : list bool -> list cell -> res unit).

(** cell/slice.rs:134-139, cell/builder.rs: [Load] and [Store] of a slice, here all the data it sees *)
Definition slice_k : codec chunk := Codec putc (fun b => Ok (b, ([], []))).
(** 702-723 [NonEmptyDict], keys of [n] bits; 633-665 [ParamIdentity] is the codec itself *)
Definition non_empty_k (n : nat) : codec (option cell) := Codec store_non_empty (load_non_empty fin n).

(** 927-1136 [define_config_params!]; 28 and 29 depend on the feature [tycho] *)
Definition p0 := Param _ 0 (bytes_k 32).
Definition p1 := Param _ 1 (bytes_k 32).
Definition p2 := Param _ 2 (bytes_k 32).
Definition p3 := Param _ 3 (bytes_k 32).
Definition p4 := Param _ 4 (bytes_k 32).
Definition p5 := Param _ 5 (derived burning_config).
Definition p6 := Param _ 6 slice_k.
Definition p7 := Param _ 7 dict_k.
Definition p8 := Param _ 8 (derived global_version).
Definition p9 := Param _ 9 (non_empty_k 32).
Definition p10 := Param _ 10 (non_empty_k 32).
Definition p11 := Param _ 11 (derived config_voting_setup).
Definition p12 := Param _ 12 dict_k.
Definition p13 := Param _ 13 slice_k.
Definition p14 := Param _ 14 (derived block_creation_rewards).
Definition p15 := Param _ 15 (derived election_timings).
Definition p16 := Param _ 16 (derived validator_count_params).
Definition p17 := Param _ 17 (derived validator_stake_params).
Definition p18 := Param _ 18 (non_empty_k 32).
Definition p19 := Param _ 19 (int_k 32).
Definition p20 := Param _ 20 gas_k.
Definition p21 := Param _ 21 gas_k.
Definition p22 := Param _ 22 (derived block_limits).
Definition p23 := Param _ 23 (derived block_limits).
Definition p24 := Param _ 24 (derived msg_forward_prices).
Definition p25 := Param _ 25 (derived msg_forward_prices).
Definition p28 := Param _ 28 catchain_k.
Definition p28_tycho := Param _ 28 (derived collation_config).
Definition p29 := Param _ 29 consensus_k.
Definition p29_tycho := Param _ 29 (derived consensus_config_tycho).
Definition p30 := Param _ 30 slice_k.
Definition p31 := Param _ 31 dict_k.
Definition p32 := Param _ 32 (vset_k fin).
Definition p33 := Param _ 33 (vset_k fin).
Definition p34 := Param _ 34 (vset_k fin).
Definition p35 := Param _ 35 (vset_k fin).
Definition p36 := Param _ 36 (vset_k fin).
Definition p37 := Param _ 37 (vset_k fin).
Definition p43 := Param _ 43 (derived size_limits_config).
Definition p50 := Param _ 50 (derived mint_once_config).

(** ** Raw access *)
(** 515-523 [contains], [contains_raw] *)
Definition contains_raw (d : option cell) (id : N) : res bool :=
  let? o := dict_get d 32 (u32_key id) in
  Ok (match o with Some _ => true | None => false end).
(** 550-570 [get_raw_cell], [get_raw_cell_ref]: the first reference of the entry *)
Definition get_raw_cell (d : option cell) (id : N) : res (option cell) :=
  let? o := dict_get d 32 (u32_key id) in
  match o with
  | Some v => match snd v with c :: _ => Ok (Some c) | [] => Err CellUnderflow end
  | None => Ok None
  end.
(** 542-548 [get_raw] *)
Definition get_raw (d : option cell) (id : N) : res (option chunk) :=
  let? o := get_raw_cell d id in
  match o with
  | Some c => let? s := as_slice c in Ok (Some (s_chunk s))
  | None => Ok None
  end.
(** 572-577 [set_raw]: the value of an entry is a reference *)
Definition set_raw (d : option cell) (id : N) (c : cell) : res (bool * option cell) := dict_insert fin d (u32_key id) 32 ([], [c]) MSet.
(** 579-588 [remove]; dict/typed.rs:305-318: the removed entry is loaded after it was removed, and
    the dictionary stays changed if that fails *)
Definition remove (d : option cell) (id : N) : res (option cell) * option cell :=
  if id =? 0 then (Ok None, d)
  else match dict_remove_owned fin d (u32_key id) 32 false with
       | Err e => (Err e, d)
       | Ok (None, d') => (Ok None, d')
       | Ok (Some (r, c), d') => (let? (x, _) := load_ref (r_apply r c) in Ok (Some x), d')
       end.

(** cell/builder.rs [CellBuilder::build_from] *)
Definition build_from {A} (k : codec A) (v : A) : res cell := let? b := c_store k v ([], []) in build fin b.
(** 525-534 [get] *)
Definition get (d : option cell) (p : param) : res (option (p_ty p)) :=
  let? o := get_raw d (p_id p) in
  match o with
  | None => Ok None
  | Some s => let? (v, _) := c_load (p_codec p) s in Ok (Some v)
  end.
(** 536-540 [set]; the setters below that do [set_raw(ConfigParamN::ID, build_from(value)?)] are
    the same *)
Definition set (d : option cell) (p : param) (v : p_ty p) : res (bool * option cell) :=
  let? c := build_from (p_codec p) v in set_raw d (p_id p) c.

(** 28-37 [BlockchainConfig::new_empty] *)
Definition new_empty (address : list N) : res (option cell) :=
  match (let? c := build_from (bytes_k 32) address in set_raw None (p_id p0) c) with
  | Ok (_, d) => Ok d
  | Err _ => Err Panic
  end.

(** ** Named access *)
Definition required {A} (x : res (option A)) : res A := let? o := x in match o with Some v => Ok v | None => Err CellUnderflow end.

(** 67-79 *)
Definition get_elector_address d := required (get d p1).
Definition set_elector_address d (a : list N) := set d p1 a.
(** 81-96 *)
Definition get_minter_address d := let? o := get d p2 in match o with Some a => Ok a | None => required (get d p0) end.
Definition set_minter_address d (a : list N) := set d p2 a.
(** 98-110 *)
Definition get_burning_config d := required (get d p5).
Definition set_burning_config d v := set d p5 v.
(** 112-127 *)
Definition get_fee_collector_address d := let? o := get d p3 in match o with Some a => Ok a | None => required (get d p1) end.
Definition set_fee_collector_address d (a : list N) := set d p3 a.
(** 129-141 *)
Definition get_global_version d := required (get d p8).
Definition set_global_version d v := set d p8 v.
(** 143-162, 164-183: the dictionary of a list of identifiers; [()] is stored as nothing *)
Fixpoint unit_dict (n : nat) (l : list (list bool)) (d : option cell) : res (option cell) :=
  match l with
  | [] => Ok d
  | k :: l => let? (_, d) := dict_insert fin d k n ([], []) MSet in unit_dict n l d
  end.
Definition get_mandatory_params d := required (get d p9).
Definition set_mandatory_params (d : option cell) (l : list N) := let? x := unit_dict 32 (map u32_key l) None in set d p9 x.
Definition get_critical_params d := required (get d p10).
Definition set_critical_params (d : option cell) (l : list N) := let? x := unit_dict 32 (map u32_key l) None in set d p10 x.
(** 185-200 *)
Definition get_workchains d := required (get d p12).
Definition set_workchains d v := set d p12 v.
(** 202-229 *)
Definition get_block_creation_rewards d := required (get d p14).
Definition get_block_creation_reward d (masterchain : bool) : res N :=
  let? r := get_block_creation_rewards d in
  Ok (if masterchain then fst r else fst (snd r)).
Definition set_block_creation_rewards d v := set d p14 v.
(** 231-243 *)
Definition get_election_timings d := required (get d p15).
Definition set_election_timings d v := set d p15 v.
(** 245-260 *)
Definition get_validator_count_params d := required (get d p16).
Definition set_validator_count_params d v := set d p16 v.
(** 262-277 *)
Definition get_validator_stake_params d := required (get d p17).
Definition set_validator_stake_params d v := set d p17 v.
(** 279-298: [i as u32] wraps *)
Definition get_storage_prices d := required (get d p18).
Fixpoint prices_dict (l : list (vals (s_fields storage_prices))) (i : N) (d : option cell) : res (option cell) :=
  match l with
  | [] => Ok d
  | v :: l =>
    let? x := store_struct storage_prices v ([], []) in
    let? (_, d) := dict_insert fin d (u32_key (i mod 2 ^ 32)) 32 x MSet in
    prices_dict l (i + 1) d
  end.
Definition set_storage_prices (d : option cell) l := let? x := prices_dict l 0 None in set d p18 x.
(** 300-312: stored as [global_id as u32] *)
Definition get_global_id d := required (get d p19).
Definition set_global_id (d : option cell) (v : Z) : res (bool * option cell) :=
  let? c := build_from (uint_k 32) (Z.to_N (v mod 2 ^ 32)) in set_raw d (p_id p19) c.
(** 314-340 *)
Definition get_gas_prices d (masterchain : bool) := required (if masterchain then get d p20 else get d p21).
Definition set_gas_prices (d : option cell) (masterchain : bool) v := let? c := build_from gas_k v in set_raw d (if masterchain then p_id p20 else p_id p21) c.
(** 342-368 *)
Definition get_block_limits d (masterchain : bool) := required (if masterchain then get d p22 else get d p23).
Definition set_block_limits (d : option cell) (masterchain : bool) v := let? c := build_from (derived block_limits) v in set_raw d (if masterchain then p_id p22 else p_id p23) c.
(** 370-396 *)
Definition get_msg_forward_prices d (masterchain : bool) := required (if masterchain then get d p24 else get d p25).
Definition set_msg_forward_prices (d : option cell) (masterchain : bool) v := let? c := build_from (derived msg_forward_prices) v in set_raw d (if masterchain then p_id p24 else p_id p25) c.
(** 398-427 *)
Definition get_catchain_config d := required (get d p28).
Definition set_catchain_config d v := set d p28 v.
Definition get_collation_config d := required (get d p28_tycho).
Definition set_collation_config d v := set d p28_tycho v.
(** 429-441 *)
Definition get_consensus_config d := required (get d p29).
Definition set_consensus_config d v := set d p29 v.
(** 443-459 *)
Definition get_fundamental_addresses d := required (get d p31).
Definition set_fundamental_addresses (d : option cell) (l : list (list N)) :=
  let? x := unit_dict 256 (map bytes_bits l) None in set d p31 x.
(** 461-473 *)
Definition contains_prev_validator_set d := let? a := contains_raw d (p_id p32) in if a then Ok true else contains_raw d (p_id p33).
Definition contains_next_validator_set d := let? a := contains_raw d (p_id p36) in if a then Ok true else contains_raw d (p_id p37).
(** 475-503 *)
Definition get_previous_validator_set d := let? o := get d p33 in match o with None => get d p32 | Some v => Ok (Some v) end.
Definition get_current_validator_set d := let? o := get d p35 in match o with Some v => Ok v | None => required (get d p34) end.
Definition get_next_validator_set d := let? o := get d p37 in match o with None => get d p36 | Some v => Ok (Some v) end.
(** 505-513 *)
Definition get_size_limits d := required (get d p43).
Definition set_size_limits d v := set d p43 v.
End Config.
