(** * The parameters of the network (C70)

    [fin] is the outcome of [finalize_cell].  [config R d m] (ConfigSpec.v): the dictionary [d] holds
    the parameters [m]. *)
From Verif Require Import Err BitsProofs IntModel NumModel NumSpec CellModel LabelModel DictModel DictSpec DictTree DictOrder DictProofs DictProofs5 DictProps BuildProps ChunkModel LazyModel CurrencyModel CurrencyProofs
  ChunkSpec ChunkProofs DeriveModel DeriveSpec StructsModel StructsSpec StructsProofs DeriveProps MessageProofs2 CasesSpec CasesProofs VsetModel VsetSpec ParamsModel ParamsSpec ParamsProofs ParamsProps
  InlineModel InlineProps ConfigModel ConfigSpec ConfigProofs.
Local Open Scope N_scope.

Lemma lawful_burning : lawful (derived burning_config) burning_config_w. Proof. apply C58_checked_structs. Qed.
Lemma lawful_voting : lawful (derived config_voting_setup) config_voting_setup_w. Proof. struct_by. Qed.
Lemma lawful_rewards : lawful (derived block_creation_rewards) block_creation_rewards_w. Proof. struct_by. Qed.
Lemma lawful_timings : lawful (derived election_timings) election_timings_w. Proof. struct_by. Qed.
Lemma lawful_counts : lawful (derived validator_count_params) validator_count_params_w. Proof. struct_by. Qed.
Lemma lawful_stakes : lawful (derived validator_stake_params) validator_stake_params_w. Proof. struct_by. Qed.
Lemma lawful_limits : lawful (derived block_limits) block_limits_w. Proof. struct_by. Qed.
Lemma lawful_forward : lawful (derived msg_forward_prices) msg_forward_prices_w. Proof. struct_by. Qed.
Lemma lawful_sizes : lawful (derived size_limits_config) size_limits_config_w. Proof. struct_by. Qed.
Lemma lawful_mint : lawful (derived mint_once_config) mint_once_config_w. Proof. struct_by. Qed.
Lemma lawful_consensus_tycho : lawful (derived consensus_config_tycho) consensus_config_tycho_w. Proof. struct_by. Qed.
Lemma lawful_global : lawful (derived global_version) global_version_w. Proof. struct_by. Qed.
Lemma lawful_prices : lawful (derived storage_prices) storage_prices_w. Proof. struct_by. Qed.
Lemma lawful_collation : lawful (derived collation_config) collation_config_w. Proof. apply C58_params. Qed.
Lemma lawful_catchain' : lawful catchain_k catchain_w. Proof. apply C61_layouts. Qed.
Lemma lawful_consensus' : lawful consensus_k consensus_w. Proof. apply C61_layouts. Qed.
Lemma lawful_gas' : lawful gas_k gas_w. Proof. apply C61_layouts. Qed.

Section Fin.
Context (fin : list bool -> list cell -> res unit).

(** ** Raw access: the parameters are a map from identifiers to cells *)
Theorem C70_read d m id : config plain_dict d m -> id < 2 ^ 32 ->
  get_raw_cell d id = Ok (m !! id) /\ contains_raw d id = Ok (bool_decide (is_Some (m !! id))) /\
  get_raw d id = match m !! id with
                 | None => Ok None
                 | Some c => if c_exotic c then Err UnexpectedExoticCell else Ok (Some (c_bits c, c_refs c))
                 end.
Proof.
  intros C Hid. pose proof (plain_ok fin) as HR. split; [exact (config_raw_cell fin _ d m id HR C Hid)|]. split; [exact (config_contains fin _ d m id HR C Hid)|].
  unfold get_raw. rewrite (config_raw_cell fin _ d m id HR C Hid). cbn [rbind]. destruct (m !! id) as [c|]; [|reflexivity]. unfold as_slice. destruct (c_exotic c); reflexivity.
Qed.
Theorem C70_set_raw R d m id c f d' : R = plain_dict \/ R = canonical_dict fin -> config R d m -> id < 2 ^ 32 -> set_raw fin d id c = Ok (f, d') ->
  f = true /\ config R d' (<[id := c]> m).
Proof. intros [->| ->]; apply config_set; [apply plain_ok|apply canonical_ok]. Qed.
(** A parameter is removed with its cell as the result; the parameter 0 stays. *)
Theorem C70_remove R d m id o d' : R = plain_dict \/ R = canonical_dict fin -> config R d m -> id < 2 ^ 32 -> remove fin d id = (o, d') ->
  match o with
  | Ok prev => if id =? 0 then prev = None /\ d' = d else prev = m !! id /\ config R d' (delete id m)
  | Err _ => d' = d
  end.
Proof. intros [->| ->]; apply config_remove; [apply plain_ok|apply canonical_ok]. Qed.
Lemma config_empty R : config R None ∅.
Proof. split; [intros; apply lookup_empty|]. exists []. split; [reflexivity|]. intros id _. rewrite lookup_empty. reflexivity. Qed.
(** A new configuration holds the address of the configuration contract and nothing else. *)
Theorem C70_new a d : Forall byte_ok a -> length a = 32%nat -> new_empty fin a = Ok d ->
  config (canonical_dict fin) d {[0 := Cell false (bytes_bits a) []]} /\ get d p0 = Ok (Some a).
Proof.
  intros Ha Hl. unfold new_empty. destruct (build_from fin (bytes_k 32) a) as [c|] eqn:E; [|discriminate]. cbn [rbind]. destruct (set_raw fin None (p_id p0) c) as [[f d']|] eqn:S; [|discriminate]. intros [= <-].
  destruct (build_from_cell fin _ hash_w a c (law_store _ _ (lawful_bytes 32)) (law_ok _ _ (lawful_bytes 32)) (conj Ha Hl) E) as (x & W & ->). 
  pose proof (config_set fin _ None ∅ (p_id p0) _ f d' (canonical_ok fin) (config_empty _) eq_refl S) as [_ C]. inversion W; subst. cbn [fst snd] in C. split; [exact C|].
  apply (get_says fin (canonical_dict fin) _ _ p0 hash_w a (canonical_ok fin) C eq_refl (law_load _ _ (lawful_bytes 32))). cbn [p_id p0]. rewrite insert_empty in *.
  eexists _, _, ([], []). rewrite lookup_singleton. split; [reflexivity|]. split; [reflexivity|]. split; [exact W|]. rewrite capp_nil. reflexivity.
Qed.

(** ** Named access *)
Definition says_set (m : gmap N cell) (id : N) (v : vset) : Prop :=
  exists c r, m !! id = Some c /\ c_exotic c = false /\ load_vset fin (c_bits c, c_refs c) = Ok (v, r).
(** A masterchain parameter or the same one of the other workchains. *)
Definition pick (masterchain : bool) (a b : N) : N := if masterchain then a else b.

Lemma one R d m p L : rules_ok fin R -> config R d m -> p_id p < 2 ^ 32 -> lawful (p_codec p) L -> finds (required (get d p)) (says m (p_id p) L).
Proof. intros HR C Hid HL. exact (required_says fin R d m p L HR C Hid (law_load _ _ HL)). Qed.
Lemma or_says {A} m id other (L : layout A) (x y : res (option A)) : (forall v, x = Ok (Some v) <-> says m id L v) -> (x = Ok None <-> m !! id = None) -> (forall v, y = Ok (Some v) <-> says m other L v) ->
  finds (let? o := x in match o with Some a => Ok a | None => required y end) (says_or m id other L).
Proof.
  intros HP HN HQ v. unfold says_or. rewrite <- (fallback x y _ _ _ HP HN (fun v H => says_there m id L v H) HQ v). destruct x as [[a|]|]; cbn [rbind]; [split; congruence|apply required_some|split; discriminate].
Qed.

Theorem C70_getters d m : config plain_dict d m ->
  finds (get_elector_address d) (says m 1 hash_w) /\
  finds (get_minter_address d) (says_or m 2 0 hash_w) /\
  finds (get_fee_collector_address d) (says_or m 3 1 hash_w) /\
  finds (get_burning_config d) (says m 5 burning_config_w) /\
  finds (get_global_version d) (says m 8 global_version_w) /\
  finds (get_workchains d) (says m 12 dict_w) /\
  finds (get_block_creation_rewards d) (says m 14 block_creation_rewards_w) /\
  finds (get_election_timings d) (says m 15 election_timings_w) /\
  finds (get_validator_count_params d) (says m 16 validator_count_params_w) /\
  finds (get_validator_stake_params d) (says m 17 validator_stake_params_w) /\
  finds (get_global_id d) (says m 19 (int_w 32)) /\
  (forall mc, finds (get_gas_prices d mc) (says m (pick mc 20 21) gas_w)) /\
  (forall mc, finds (get_block_limits d mc) (says m (pick mc 22 23) block_limits_w)) /\
  (forall mc, finds (get_msg_forward_prices d mc) (says m (pick mc 24 25) msg_forward_prices_w)) /\
  finds (get_catchain_config d) (says m 28 catchain_w) /\
  finds (get_collation_config d) (says m 28 collation_config_w) /\
  finds (get_consensus_config d) (says m 29 consensus_w) /\
  finds (get_fundamental_addresses d) (says m 31 dict_w) /\
  finds (get_size_limits d) (says m 43 size_limits_config_w).
Proof.
  intros C. pose proof (plain_ok fin) as HR.
  assert (P : forall p L, p_id p < 2 ^ 32 -> lawful (p_codec p) L -> finds (required (get d p)) (says m (p_id p) L)) by (intros p L Hid HL; exact (one _ d m p L HR C Hid HL)).
  assert (G : forall p L, p_id p < 2 ^ 32 -> lawful (p_codec p) L -> (forall v, get d p = Ok (Some v) <-> says m (p_id p) L v) /\ (get d p = Ok None <-> m !! p_id p = None)).
  { intros p L Hid HL. split; [intros v; exact (get_says fin _ d m p L v HR C Hid (law_load _ _ HL))|exact (config_none fin _ d m p HR C Hid)]. }
  pose proof (lawful_bytes 32) as HH.
  split_and!.
  - exact (P p1 hash_w eq_refl HH).
  - exact (or_says m 2 0 hash_w (get d p2) (get d p0) (proj1 (G p2 hash_w eq_refl HH)) (proj2 (G p2 hash_w eq_refl HH)) (proj1 (G p0 hash_w eq_refl HH))).
  - exact (or_says m 3 1 hash_w (get d p3) (get d p1) (proj1 (G p3 hash_w eq_refl HH)) (proj2 (G p3 hash_w eq_refl HH)) (proj1 (G p1 hash_w eq_refl HH))).
  - exact (P p5 _ eq_refl lawful_burning).
  - exact (P p8 _ eq_refl lawful_global).
  - exact (P p12 _ eq_refl lawful_dict).
  - exact (P p14 _ eq_refl lawful_rewards).
  - exact (P p15 _ eq_refl lawful_timings).
  - exact (P p16 _ eq_refl lawful_counts).
  - exact (P p17 _ eq_refl lawful_stakes).
  - exact (P p19 _ eq_refl (lawful_int 32 ltac:(lia))).
  - intros []; [exact (P p20 _ eq_refl lawful_gas')|exact (P p21 _ eq_refl lawful_gas')].
  - intros []; [exact (P p22 _ eq_refl lawful_limits)|exact (P p23 _ eq_refl lawful_limits)].
  - intros []; [exact (P p24 _ eq_refl lawful_forward)|exact (P p25 _ eq_refl lawful_forward)].
  - exact (P p28 _ eq_refl lawful_catchain').
  - exact (P p28_tycho _ eq_refl lawful_collation).
  - exact (P p29 _ eq_refl lawful_consensus').
  - exact (P p31 _ eq_refl lawful_dict).
  - exact (P p43 _ eq_refl lawful_sizes).
Qed.
(** The reward for a block of the masterchain and for others. *)
Theorem C70_reward d mc : get_block_creation_reward d mc =
  match get_block_creation_rewards d with
  | Ok (masterchain, (basechain, _)) => Ok (if mc then masterchain else basechain)
  | Err e => Err e
  end.
Proof. unfold get_block_creation_reward. destruct (get_block_creation_rewards d) as [(a & b & [])|]; reflexivity. Qed.

(** Sets of validators: a temporary set comes before the ordinary one. *)
Theorem C70_validator_sets d m : config plain_dict d m ->
  (forall v, get_current_validator_set fin d = Ok v <-> says_set m 35 v \/ m !! 35 = None /\ says_set m 34 v) /\
  (forall v, get_previous_validator_set fin d = Ok (Some v) <-> says_set m 33 v \/ m !! 33 = None /\ says_set m 32 v) /\
  (get_previous_validator_set fin d = Ok None <-> m !! 33 = None /\ m !! 32 = None) /\
  (forall v, get_next_validator_set fin d = Ok (Some v) <-> says_set m 37 v \/ m !! 37 = None /\ says_set m 36 v) /\
  (get_next_validator_set fin d = Ok None <-> m !! 37 = None /\ m !! 36 = None) /\
  contains_prev_validator_set fin d = Ok (bool_decide (is_Some (m !! 32) \/ is_Some (m !! 33))) /\
  contains_next_validator_set fin d = Ok (bool_decide (is_Some (m !! 36) \/ is_Some (m !! 37))).
Proof.
  intros C. pose proof (plain_ok fin) as HR.
  assert (G : forall p, p_id p < 2 ^ 32 -> forall v, get d p = Ok (Some v) <-> exists c, m !! p_id p = Some c /\ decodes (p_codec p) c v) by (intros p Hid v; exact (config_load fin _ d m p v HR C Hid)).
  assert (Z : forall p, p_id p < 2 ^ 32 -> get d p = Ok None <-> m !! p_id p = None) by (intros p Hid; exact (config_none fin _ d m p HR C Hid)).
  assert (Q : forall id v, (exists c, m !! id = Some c /\ decodes (vset_k fin) c v) <-> says_set m id v).
  { intros id v. unfold says_set, decodes. split; [intros (c & A & B & r & E); eauto 6|intros (c & r & A & B & E); eauto 6]. }
  assert (F : forall id1 id2, id1 < 2 ^ 32 -> id2 < 2 ^ 32 -> forall v,
    (let? o := get d (Param vset id1 (vset_k fin)) in match o with Some a => Ok (Some a) | None => get d (Param vset id2 (vset_k fin)) end) = Ok (Some v) <-> says_set m id1 v \/ m !! id1 = None /\ says_set m id2 v).
  { intros id1 id2 H1 H2. apply fallback.
    - intros v. rewrite <- Q. exact (G (Param vset id1 (vset_k fin)) H1 v).
    - exact (Z (Param vset id1 (vset_k fin)) H1).
    - intros v (c & r & E & _) E'. congruence.
    - intros v. rewrite <- Q. exact (G (Param vset id2 (vset_k fin)) H2 v). }
  assert (N0 : forall id1 id2, id1 < 2 ^ 32 -> id2 < 2 ^ 32 ->
    (let? o := get d (Param vset id1 (vset_k fin)) in match o with None => get d (Param vset id2 (vset_k fin)) | Some a => Ok (Some a) end) = Ok None <-> m !! id1 = None /\ m !! id2 = None).
  { intros id1 id2 H1 H2. pose proof (Z (Param vset id1 (vset_k fin)) H1) as Z1. pose proof (Z (Param vset id2 (vset_k fin)) H2) as Z2. cbn [p_id] in Z1, Z2.
    destruct (get d (Param vset id1 (vset_k fin))) as [[a|]|]; cbn [rbind].
    - split; [discriminate|]. intros [E _]. apply Z1 in E. discriminate.
    - rewrite Z2. split; [intros E; split; [apply Z1; reflexivity|exact E]|intros [_ E]; exact E].
    - split; [discriminate|]. intros [E _]. apply Z1 in E. discriminate. }
  assert (B : forall id1 id2, id1 < 2 ^ 32 -> id2 < 2 ^ 32 -> (let? a := contains_raw d id1 in if (a : bool) then Ok true else contains_raw d id2) = Ok (bool_decide (is_Some (m !! id1) \/ is_Some (m !! id2)))).
  { intros id1 id2 H1 H2. rewrite (config_contains fin _ d m id1 HR C H1), (config_contains fin _ d m id2 HR C H2). cbn [rbind].
    rewrite bool_decide_or. destruct (bool_decide (is_Some (m !! id1))); reflexivity. }
  split_and!.
  - intros v. rewrite <- (F 35 34 eq_refl eq_refl v). unfold get_current_validator_set. unfold p35, p34.
    destruct (get d (Param vset 35 (vset_k fin))) as [[a|]|]; cbn [rbind]; [split; congruence|apply required_some|split; discriminate].
  - exact (F 33 32 eq_refl eq_refl).
  - exact (N0 33 32 eq_refl eq_refl).
  - exact (F 37 36 eq_refl eq_refl).
  - exact (N0 37 36 eq_refl eq_refl).
  - exact (B 32 33 eq_refl eq_refl).
  - exact (B 36 37 eq_refl eq_refl).
Qed.

Lemma global_id_build v : w_ok (int_w 32) v -> build_from fin (uint_k 32) (Z.to_N (v mod 2 ^ 32)) = build_from fin (int_k 32) v.
Proof. intros _. reflexivity. Qed.
Lemma global_id_writes R d m : rules_ok fin R -> config R d m -> writes_param R m 19 (int_w 32) (set_global_id fin d).
Proof. intros HR C v f d' O. unfold set_global_id. rewrite (global_id_build v O). exact (writes_says fin _ (int_w 32) R d m 19 HR (lawful_int 32 ltac:(lia)) C eq_refl v f d' O). Qed.
Lemma global_id_always d m : (forall b r, (length b <= 1023)%nat -> (length r <= 4)%nat -> fin b r = Ok tt) -> config (canonical_dict fin) d m -> always_writes (int_w 32) (set_global_id fin d).
Proof.
  intros Hfin C v O. unfold set_global_id. rewrite (global_id_build v O).
  exact (always_says fin Hfin _ (int_w 32) d m 19 (lawful_int 32 ltac:(lia)) ltac:(apply Nat.leb_le; vm_compute; reflexivity) ltac:(apply Nat.leb_le; vm_compute; reflexivity) C eq_refl v O).
Qed.

(** The setters: what is written is what the getters find, and no other parameter changes. *)
Theorem C70_setters R d m : R = plain_dict \/ R = canonical_dict fin -> config R d m ->
  writes_param R m 1 hash_w (set_elector_address fin d) /\
  writes_param R m 2 hash_w (set_minter_address fin d) /\
  writes_param R m 3 hash_w (set_fee_collector_address fin d) /\
  writes_param R m 5 burning_config_w (set_burning_config fin d) /\
  writes_param R m 8 global_version_w (set_global_version fin d) /\
  writes_param R m 12 dict_w (set_workchains fin d) /\
  writes_param R m 14 block_creation_rewards_w (set_block_creation_rewards fin d) /\
  writes_param R m 15 election_timings_w (set_election_timings fin d) /\
  writes_param R m 16 validator_count_params_w (set_validator_count_params fin d) /\
  writes_param R m 17 validator_stake_params_w (set_validator_stake_params fin d) /\
  writes_param R m 28 catchain_w (set_catchain_config fin d) /\
  writes_param R m 28 collation_config_w (set_collation_config fin d) /\
  writes_param R m 29 consensus_w (set_consensus_config fin d) /\
  writes_param R m 43 size_limits_config_w (set_size_limits fin d) /\
  writes_param R m 19 (int_w 32) (set_global_id fin d) /\
  (forall mc, writes_param R m (pick mc 20 21) gas_w (set_gas_prices fin d mc)) /\
  (forall mc, writes_param R m (pick mc 22 23) block_limits_w (set_block_limits fin d mc)) /\
  (forall mc, writes_param R m (pick mc 24 25) msg_forward_prices_w (set_msg_forward_prices fin d mc)).
Proof.
  intros HRR C. assert (HR : rules_ok fin R) by (destruct HRR as [->| ->]; [apply plain_ok|apply canonical_ok]).
  split_and!.
  - exact (writes_says fin _ hash_w R d m 1 HR (lawful_bytes 32) C eq_refl).
  - exact (writes_says fin _ hash_w R d m 2 HR (lawful_bytes 32) C eq_refl).
  - exact (writes_says fin _ hash_w R d m 3 HR (lawful_bytes 32) C eq_refl).
  - exact (writes_says fin _ burning_config_w R d m 5 HR (lawful_burning) C eq_refl).
  - exact (writes_says fin _ global_version_w R d m 8 HR (lawful_global) C eq_refl).
  - exact (writes_says fin _ dict_w R d m 12 HR (lawful_dict) C eq_refl).
  - exact (writes_says fin _ block_creation_rewards_w R d m 14 HR (lawful_rewards) C eq_refl).
  - exact (writes_says fin _ election_timings_w R d m 15 HR (lawful_timings) C eq_refl).
  - exact (writes_says fin _ validator_count_params_w R d m 16 HR (lawful_counts) C eq_refl).
  - exact (writes_says fin _ validator_stake_params_w R d m 17 HR (lawful_stakes) C eq_refl).
  - exact (writes_says fin _ catchain_w R d m 28 HR (lawful_catchain') C eq_refl).
  - exact (writes_says fin _ collation_config_w R d m 28 HR (lawful_collation) C eq_refl).
  - exact (writes_says fin _ consensus_w R d m 29 HR (lawful_consensus') C eq_refl).
  - exact (writes_says fin _ size_limits_config_w R d m 43 HR (lawful_sizes) C eq_refl).
  - exact (global_id_writes R d m HR C).
  - intros []; [exact (writes_says fin _ gas_w R d m 20 HR (lawful_gas') C eq_refl)|exact (writes_says fin _ gas_w R d m 21 HR (lawful_gas') C eq_refl)].
  - intros []; [exact (writes_says fin _ block_limits_w R d m 22 HR (lawful_limits) C eq_refl)|exact (writes_says fin _ block_limits_w R d m 23 HR (lawful_limits) C eq_refl)].
  - intros []; [exact (writes_says fin _ msg_forward_prices_w R d m 24 HR (lawful_forward) C eq_refl)|exact (writes_says fin _ msg_forward_prices_w R d m 25 HR (lawful_forward) C eq_refl)].
Qed.
(** On a configuration that was made by the library no setter fails for a value in range. *)
Theorem C70_setters_succeed d m : (forall b r, (length b <= 1023)%nat -> (length r <= 4)%nat -> fin b r = Ok tt) -> config (canonical_dict fin) d m ->
  always_writes hash_w (set_elector_address fin d) /\
  always_writes hash_w (set_minter_address fin d) /\
  always_writes hash_w (set_fee_collector_address fin d) /\
  always_writes burning_config_w (set_burning_config fin d) /\
  always_writes global_version_w (set_global_version fin d) /\
  always_writes dict_w (set_workchains fin d) /\
  always_writes block_creation_rewards_w (set_block_creation_rewards fin d) /\
  always_writes election_timings_w (set_election_timings fin d) /\
  always_writes validator_count_params_w (set_validator_count_params fin d) /\
  always_writes validator_stake_params_w (set_validator_stake_params fin d) /\
  always_writes catchain_w (set_catchain_config fin d) /\
  always_writes collation_config_w (set_collation_config fin d) /\
  always_writes consensus_w (set_consensus_config fin d) /\
  always_writes size_limits_config_w (set_size_limits fin d) /\
  always_writes (int_w 32) (set_global_id fin d) /\
  (forall mc, always_writes gas_w (set_gas_prices fin d mc)) /\
  (forall mc, always_writes block_limits_w (set_block_limits fin d mc)) /\
  (forall mc, always_writes msg_forward_prices_w (set_msg_forward_prices fin d mc)).
Proof.
  intros Hfin C.
  split_and!.
  - exact (always_says fin Hfin _ hash_w d m 1 (lawful_bytes 32) ltac:(apply Nat.leb_le; vm_compute; reflexivity) ltac:(apply Nat.leb_le; vm_compute; reflexivity) C eq_refl).
  - exact (always_says fin Hfin _ hash_w d m 2 (lawful_bytes 32) ltac:(apply Nat.leb_le; vm_compute; reflexivity) ltac:(apply Nat.leb_le; vm_compute; reflexivity) C eq_refl).
  - exact (always_says fin Hfin _ hash_w d m 3 (lawful_bytes 32) ltac:(apply Nat.leb_le; vm_compute; reflexivity) ltac:(apply Nat.leb_le; vm_compute; reflexivity) C eq_refl).
  - exact (always_says fin Hfin _ burning_config_w d m 5 (lawful_burning) ltac:(apply Nat.leb_le; vm_compute; reflexivity) ltac:(apply Nat.leb_le; vm_compute; reflexivity) C eq_refl).
  - exact (always_says fin Hfin _ global_version_w d m 8 (lawful_global) ltac:(apply Nat.leb_le; vm_compute; reflexivity) ltac:(apply Nat.leb_le; vm_compute; reflexivity) C eq_refl).
  - exact (always_says fin Hfin _ dict_w d m 12 (lawful_dict) ltac:(apply Nat.leb_le; vm_compute; reflexivity) ltac:(apply Nat.leb_le; vm_compute; reflexivity) C eq_refl).
  - exact (always_says fin Hfin _ block_creation_rewards_w d m 14 (lawful_rewards) ltac:(apply Nat.leb_le; vm_compute; reflexivity) ltac:(apply Nat.leb_le; vm_compute; reflexivity) C eq_refl).
  - exact (always_says fin Hfin _ election_timings_w d m 15 (lawful_timings) ltac:(apply Nat.leb_le; vm_compute; reflexivity) ltac:(apply Nat.leb_le; vm_compute; reflexivity) C eq_refl).
  - exact (always_says fin Hfin _ validator_count_params_w d m 16 (lawful_counts) ltac:(apply Nat.leb_le; vm_compute; reflexivity) ltac:(apply Nat.leb_le; vm_compute; reflexivity) C eq_refl).
  - exact (always_says fin Hfin _ validator_stake_params_w d m 17 (lawful_stakes) ltac:(apply Nat.leb_le; vm_compute; reflexivity) ltac:(apply Nat.leb_le; vm_compute; reflexivity) C eq_refl).
  - exact (always_says fin Hfin _ catchain_w d m 28 (lawful_catchain') ltac:(apply Nat.leb_le; vm_compute; reflexivity) ltac:(apply Nat.leb_le; vm_compute; reflexivity) C eq_refl).
  - exact (always_says fin Hfin _ collation_config_w d m 28 (lawful_collation) ltac:(apply Nat.leb_le; vm_compute; reflexivity) ltac:(apply Nat.leb_le; vm_compute; reflexivity) C eq_refl).
  - exact (always_says fin Hfin _ consensus_w d m 29 (lawful_consensus') ltac:(apply Nat.leb_le; vm_compute; reflexivity) ltac:(apply Nat.leb_le; vm_compute; reflexivity) C eq_refl).
  - exact (always_says fin Hfin _ size_limits_config_w d m 43 (lawful_sizes) ltac:(apply Nat.leb_le; vm_compute; reflexivity) ltac:(apply Nat.leb_le; vm_compute; reflexivity) C eq_refl).
  - exact (global_id_always d m Hfin C).
  - intros []; [exact (always_says fin Hfin _ gas_w d m 20 (lawful_gas') ltac:(apply Nat.leb_le; vm_compute; reflexivity) ltac:(apply Nat.leb_le; vm_compute; reflexivity) C eq_refl)|exact (always_says fin Hfin _ gas_w d m 21 (lawful_gas') ltac:(apply Nat.leb_le; vm_compute; reflexivity) ltac:(apply Nat.leb_le; vm_compute; reflexivity) C eq_refl)].
  - intros []; [exact (always_says fin Hfin _ block_limits_w d m 22 (lawful_limits) ltac:(apply Nat.leb_le; vm_compute; reflexivity) ltac:(apply Nat.leb_le; vm_compute; reflexivity) C eq_refl)|exact (always_says fin Hfin _ block_limits_w d m 23 (lawful_limits) ltac:(apply Nat.leb_le; vm_compute; reflexivity) ltac:(apply Nat.leb_le; vm_compute; reflexivity) C eq_refl)].
  - intros []; [exact (always_says fin Hfin _ msg_forward_prices_w d m 24 (lawful_forward) ltac:(apply Nat.leb_le; vm_compute; reflexivity) ltac:(apply Nat.leb_le; vm_compute; reflexivity) C eq_refl)|exact (always_says fin Hfin _ msg_forward_prices_w d m 25 (lawful_forward) ltac:(apply Nat.leb_le; vm_compute; reflexivity) ltac:(apply Nat.leb_le; vm_compute; reflexivity) C eq_refl)].
Qed.

(** ** Any parameter *)
(** Values that come back when they are stored as the parameter [p] and loaded again. *)
Definition comes_back (p : param) (ok : p_ty p -> Prop) : Prop :=
  forall v, ok v -> exists x r, c_store (p_codec p) v ([], []) = Ok x /\ c_load (p_codec p) x = Ok (v, r).
Theorem C70_set_get R d m p (ok : p_ty p -> Prop) v f d' : R = plain_dict \/ R = canonical_dict fin -> config R d m -> p_id p < 2 ^ 32 -> comes_back p ok -> ok v ->
  set fin d p v = Ok (f, d') ->
  f = true /\ get d' p = Ok (Some v) /\ (forall q, p_id q < 2 ^ 32 -> p_id q <> p_id p -> get d' q = get d q) /\
  (forall id, id < 2 ^ 32 -> id <> p_id p -> get_raw_cell d' id = get_raw_cell d id).
Proof.
  intros HRR C Hid HB O. assert (HR : rules_ok fin R) by (destruct HRR as [->| ->]; [apply plain_ok|apply canonical_ok]).
  destruct (HB v O) as (x & r & Hs & Hl). unfold set, build_from. rewrite Hs. cbn [rbind]. unfold build. destruct (fin (fst x) (snd x)); [|discriminate]. cbn [rbind]. intros E.
  destruct (config_set fin R d m _ _ f d' HR C Hid E) as [-> C']. split; [reflexivity|].
  assert (W : forall id, id < 2 ^ 32 -> id <> p_id p -> get_raw_cell d' id = get_raw_cell d id).
  { intros id Hq Ne. rewrite (config_raw_cell fin R d' _ id HR C' Hq), (config_raw_cell fin R d _ id HR C Hq). rewrite lookup_insert_ne by congruence. reflexivity. }
  split; [|split; [|exact W]].
  - apply (config_load fin R d' _ p v HR C' Hid). exists (Cell false (fst x) (snd x)). rewrite lookup_insert. split; [reflexivity|]. split; [reflexivity|]. exists r. cbn [c_bits c_refs]. destruct x. exact Hl.
  - intros q Hq Ne. unfold get, get_raw. rewrite (W _ Hq Ne). reflexivity.
Qed.
Lemma lawful_back p L : lawful (p_codec p) L -> (w_bits L <= 1023)%nat -> (w_refs L <= 4)%nat -> comes_back p (w_ok L).
Proof.
  intros HL B4 R4 v O. destruct (law_ok _ _ HL v O) as (x & W). pose proof (law_bits _ _ HL v x W) as Lb. pose proof (law_refs _ _ HL v x W) as Lr.
  exists x, ([], []). split; [apply appends_empty; [exact (law_store _ _ HL v x W)|split; lia]|]. pose proof (reads_back _ _ _ _ ([], []) (law_load _ _ HL) (law_same _ _ HL v x W)) as E. rewrite capp_nil in E. exact E.
Qed.
(** Sets of validators that come back: see C61. *)
Definition set_in_range (v : vset) : Prop :=
  in_range v /\ vset_ok v /\ vs_main v <= N.of_nat (length (vs_list v)) /\ N.of_nat (length (vs_list v)) < 2 ^ 16 /\ Forall (fun d => d_seqno d = 0) (vs_list v).
(** The dictionaries that were made by any sequence of updates and are not empty. *)
Definition made (x : option cell) : Prop := exists c M, x = Some c /\ history fin 32 (Some c) M.
Lemma non_empty_back id : comes_back (Param _ id (non_empty_k fin 32)) made.
Proof.
  intros v (c & M & -> & H). destruct (C69_non_empty fin 32 c M ltac:(lia) H) as (x & S & L). exists x, ([], []). split; [exact S|exact L].
Qed.
Lemma vset_back id : (forall b r, (length b <= 1023)%nat -> (length r <= 4)%nat -> fin b r = Ok tt) -> comes_back (Param _ id (vset_k fin)) set_in_range.
Proof.
  intros Hfin v (R & V & M & L & Q). destruct (C61_set_round_trip fin v Hfin R V M L Q) as (x & S & E). exists x, ([], []). split; [exact S|]. specialize (E ([], [])). rewrite capp_nil in E. exact E.
Qed.
Lemma slice_back id : comes_back (Param _ id slice_k) builder_ok.
Proof. intros v O. exists v, ([], []). split; [exact (appends_empty _ _ (appends_putc v) O)|reflexivity]. Qed.

(** Every known parameter has its identifier and its values in range come back. *)
Definition known (p : param) (id : N) (ok : p_ty p -> Prop) : Prop := p_id p = id /\ comes_back p ok.
Theorem C70_params : (forall b r, (length b <= 1023)%nat -> (length r <= 4)%nat -> fin b r = Ok tt) ->
  known p0 0 (w_ok hash_w) /\
  known p1 1 (w_ok hash_w) /\
  known p2 2 (w_ok hash_w) /\
  known p3 3 (w_ok hash_w) /\
  known p4 4 (w_ok hash_w) /\
  known p5 5 (w_ok burning_config_w) /\
  known p7 7 (w_ok dict_w) /\
  known p8 8 (w_ok global_version_w) /\
  known p11 11 (w_ok config_voting_setup_w) /\
  known p12 12 (w_ok dict_w) /\
  known p14 14 (w_ok block_creation_rewards_w) /\
  known p15 15 (w_ok election_timings_w) /\
  known p16 16 (w_ok validator_count_params_w) /\
  known p17 17 (w_ok validator_stake_params_w) /\
  known p19 19 (w_ok (int_w 32)) /\
  known p20 20 (w_ok gas_w) /\
  known p21 21 (w_ok gas_w) /\
  known p22 22 (w_ok block_limits_w) /\
  known p23 23 (w_ok block_limits_w) /\
  known p24 24 (w_ok msg_forward_prices_w) /\
  known p25 25 (w_ok msg_forward_prices_w) /\
  known p28 28 (w_ok catchain_w) /\
  known p28_tycho 28 (w_ok collation_config_w) /\
  known p29 29 (w_ok consensus_w) /\
  known p29_tycho 29 (w_ok consensus_config_tycho_w) /\
  known p31 31 (w_ok dict_w) /\
  known p43 43 (w_ok size_limits_config_w) /\
  known p50 50 (w_ok mint_once_config_w) /\
  known p6 6 builder_ok /\
  known p13 13 builder_ok /\
  known p30 30 builder_ok /\
  known (p9 fin) 9 made /\
  known (p10 fin) 10 made /\
  known (p18 fin) 18 made /\
  known (p32 fin) 32 set_in_range /\
  known (p33 fin) 33 set_in_range /\
  known (p34 fin) 34 set_in_range /\
  known (p35 fin) 35 set_in_range /\
  known (p36 fin) 36 set_in_range /\
  known (p37 fin) 37 set_in_range.
Proof.
  intros Hfin.
  split_and!.
  - exact (conj eq_refl (lawful_back p0 hash_w (lawful_bytes 32) ltac:(apply Nat.leb_le; vm_compute; reflexivity) ltac:(apply Nat.leb_le; vm_compute; reflexivity))).
  - exact (conj eq_refl (lawful_back p1 hash_w (lawful_bytes 32) ltac:(apply Nat.leb_le; vm_compute; reflexivity) ltac:(apply Nat.leb_le; vm_compute; reflexivity))).
  - exact (conj eq_refl (lawful_back p2 hash_w (lawful_bytes 32) ltac:(apply Nat.leb_le; vm_compute; reflexivity) ltac:(apply Nat.leb_le; vm_compute; reflexivity))).
  - exact (conj eq_refl (lawful_back p3 hash_w (lawful_bytes 32) ltac:(apply Nat.leb_le; vm_compute; reflexivity) ltac:(apply Nat.leb_le; vm_compute; reflexivity))).
  - exact (conj eq_refl (lawful_back p4 hash_w (lawful_bytes 32) ltac:(apply Nat.leb_le; vm_compute; reflexivity) ltac:(apply Nat.leb_le; vm_compute; reflexivity))).
  - exact (conj eq_refl (lawful_back p5 burning_config_w (lawful_burning) ltac:(apply Nat.leb_le; vm_compute; reflexivity) ltac:(apply Nat.leb_le; vm_compute; reflexivity))).
  - exact (conj eq_refl (lawful_back p7 dict_w (lawful_dict) ltac:(apply Nat.leb_le; vm_compute; reflexivity) ltac:(apply Nat.leb_le; vm_compute; reflexivity))).
  - exact (conj eq_refl (lawful_back p8 global_version_w (lawful_global) ltac:(apply Nat.leb_le; vm_compute; reflexivity) ltac:(apply Nat.leb_le; vm_compute; reflexivity))).
  - exact (conj eq_refl (lawful_back p11 config_voting_setup_w (lawful_voting) ltac:(apply Nat.leb_le; vm_compute; reflexivity) ltac:(apply Nat.leb_le; vm_compute; reflexivity))).
  - exact (conj eq_refl (lawful_back p12 dict_w (lawful_dict) ltac:(apply Nat.leb_le; vm_compute; reflexivity) ltac:(apply Nat.leb_le; vm_compute; reflexivity))).
  - exact (conj eq_refl (lawful_back p14 block_creation_rewards_w (lawful_rewards) ltac:(apply Nat.leb_le; vm_compute; reflexivity) ltac:(apply Nat.leb_le; vm_compute; reflexivity))).
  - exact (conj eq_refl (lawful_back p15 election_timings_w (lawful_timings) ltac:(apply Nat.leb_le; vm_compute; reflexivity) ltac:(apply Nat.leb_le; vm_compute; reflexivity))).
  - exact (conj eq_refl (lawful_back p16 validator_count_params_w (lawful_counts) ltac:(apply Nat.leb_le; vm_compute; reflexivity) ltac:(apply Nat.leb_le; vm_compute; reflexivity))).
  - exact (conj eq_refl (lawful_back p17 validator_stake_params_w (lawful_stakes) ltac:(apply Nat.leb_le; vm_compute; reflexivity) ltac:(apply Nat.leb_le; vm_compute; reflexivity))).
  - exact (conj eq_refl (lawful_back p19 (int_w 32) (lawful_int 32 ltac:(lia)) ltac:(apply Nat.leb_le; vm_compute; reflexivity) ltac:(apply Nat.leb_le; vm_compute; reflexivity))).
  - exact (conj eq_refl (lawful_back p20 gas_w (lawful_gas') ltac:(apply Nat.leb_le; vm_compute; reflexivity) ltac:(apply Nat.leb_le; vm_compute; reflexivity))).
  - exact (conj eq_refl (lawful_back p21 gas_w (lawful_gas') ltac:(apply Nat.leb_le; vm_compute; reflexivity) ltac:(apply Nat.leb_le; vm_compute; reflexivity))).
  - exact (conj eq_refl (lawful_back p22 block_limits_w (lawful_limits) ltac:(apply Nat.leb_le; vm_compute; reflexivity) ltac:(apply Nat.leb_le; vm_compute; reflexivity))).
  - exact (conj eq_refl (lawful_back p23 block_limits_w (lawful_limits) ltac:(apply Nat.leb_le; vm_compute; reflexivity) ltac:(apply Nat.leb_le; vm_compute; reflexivity))).
  - exact (conj eq_refl (lawful_back p24 msg_forward_prices_w (lawful_forward) ltac:(apply Nat.leb_le; vm_compute; reflexivity) ltac:(apply Nat.leb_le; vm_compute; reflexivity))).
  - exact (conj eq_refl (lawful_back p25 msg_forward_prices_w (lawful_forward) ltac:(apply Nat.leb_le; vm_compute; reflexivity) ltac:(apply Nat.leb_le; vm_compute; reflexivity))).
  - exact (conj eq_refl (lawful_back p28 catchain_w (lawful_catchain') ltac:(apply Nat.leb_le; vm_compute; reflexivity) ltac:(apply Nat.leb_le; vm_compute; reflexivity))).
  - exact (conj eq_refl (lawful_back p28_tycho collation_config_w (lawful_collation) ltac:(apply Nat.leb_le; vm_compute; reflexivity) ltac:(apply Nat.leb_le; vm_compute; reflexivity))).
  - exact (conj eq_refl (lawful_back p29 consensus_w (lawful_consensus') ltac:(apply Nat.leb_le; vm_compute; reflexivity) ltac:(apply Nat.leb_le; vm_compute; reflexivity))).
  - exact (conj eq_refl (lawful_back p29_tycho consensus_config_tycho_w (lawful_consensus_tycho) ltac:(apply Nat.leb_le; vm_compute; reflexivity) ltac:(apply Nat.leb_le; vm_compute; reflexivity))).
  - exact (conj eq_refl (lawful_back p31 dict_w (lawful_dict) ltac:(apply Nat.leb_le; vm_compute; reflexivity) ltac:(apply Nat.leb_le; vm_compute; reflexivity))).
  - exact (conj eq_refl (lawful_back p43 size_limits_config_w (lawful_sizes) ltac:(apply Nat.leb_le; vm_compute; reflexivity) ltac:(apply Nat.leb_le; vm_compute; reflexivity))).
  - exact (conj eq_refl (lawful_back p50 mint_once_config_w (lawful_mint) ltac:(apply Nat.leb_le; vm_compute; reflexivity) ltac:(apply Nat.leb_le; vm_compute; reflexivity))).
  - exact (conj eq_refl (slice_back 6)).
  - exact (conj eq_refl (slice_back 13)).
  - exact (conj eq_refl (slice_back 30)).
  - exact (conj eq_refl (non_empty_back 9)).
  - exact (conj eq_refl (non_empty_back 10)).
  - exact (conj eq_refl (non_empty_back 18)).
  - exact (conj eq_refl (vset_back 32 Hfin)).
  - exact (conj eq_refl (vset_back 33 Hfin)).
  - exact (conj eq_refl (vset_back 34 Hfin)).
  - exact (conj eq_refl (vset_back 35 Hfin)).
  - exact (conj eq_refl (vset_back 36 Hfin)).
  - exact (conj eq_refl (vset_back 37 Hfin)).
Qed.

(** ** Lists *)
Lemma unit_dict_all n l : forall d, unit_dict fin n l d = insert_all fin n MSet (map (fun k => (k, ([], []))) l) d.
Proof. induction l as [|k l IH]; intros d; [reflexivity|]. cbn [unit_dict map insert_all]. destruct (dict_insert _ _ _ _ _ _) as [[f d']|]; [|reflexivity]. cbn [rbind]. apply IH. Qed.
Lemma unit_keys l : forall M k, is_Some (fold_left (fun m e => set_map MSet (fst e) (snd e) m) (map (fun k => (k, ([], []) : chunk)) l) M !! k) <-> In k l \/ is_Some (M !! k).
Proof.
  induction l as [|a l IH]; intros M k; cbn [map fold_left In]; [tauto|]. rewrite IH. change (set_map MSet (fst (a, ([], []) : chunk)) (snd (a, ([], []) : chunk)) M) with (<[a := ([], []) : chunk]> M).
  destruct (decide (a = k)) as [->|Ne]; [rewrite lookup_insert|rewrite lookup_insert_ne by exact Ne]; split; intros [X|X]; auto; try tauto; try (left; right; exact X). all: eauto.
Qed.
Lemma unit_dict_made n l x : unit_dict fin n l None = Ok x -> exists M, history fin n x M /\ forall k, is_Some (M !! k) <-> In k l.
Proof.
  rewrite unit_dict_all. intros E. eexists. split; [exact (insert_all_history fin n MSet _ None ∅ x (h_empty fin n) E)|]. intros k. rewrite unit_keys, lookup_empty. split; [intros [H|[? [=]]]; exact H|auto].
Qed.
(** The lists of mandatory and of critical parameters: the dictionary that is found has the
    identifiers of the list as its keys.  An empty list cannot be written. *)
Definition listed (l : list N) (x : option cell) : Prop :=
  exists M, history fin 32 x M /\ forall id, id < 2 ^ 32 -> (is_Some (M !! nbits 32 id) <-> In id l).
Lemma list_made l x : Forall (fun id => id < 2 ^ 32) l -> unit_dict fin 32 (map u32_key l) None = Ok x -> listed l x.
Proof.
  intros B E. destruct (unit_dict_made _ _ _ E) as (M & H & K). exists M. split; [exact H|]. intros id Hid. rewrite K, in_map_iff. split; [|intros I; exists id; auto].
  intros (id' & E' & I). apply key_inj in E'; [congruence|exact (proj1 (List.Forall_forall _ _) B id' I)|exact Hid].
Qed.
Theorem C70_lists R d m l : R = plain_dict \/ R = canonical_dict fin -> config R d m -> Forall (fun id => id < 2 ^ 32) l ->
  (forall f d', set_mandatory_params fin d l = Ok (f, d') -> f = true /\ exists x, get_mandatory_params fin d' = Ok x /\ listed l x /\ forall id, id < 2 ^ 32 -> id <> 9 -> get_raw_cell d' id = get_raw_cell d id) /\
  (forall f d', set_critical_params fin d l = Ok (f, d') -> f = true /\ exists x, get_critical_params fin d' = Ok x /\ listed l x /\ forall id, id < 2 ^ 32 -> id <> 10 -> get_raw_cell d' id = get_raw_cell d id) /\
  (l = [] -> set_mandatory_params fin d l = Err InvalidData /\ set_critical_params fin d l = Err InvalidData).
Proof.
  intros HRR C B. split_and!.
  - intros f d'. unfold set_mandatory_params. destruct (unit_dict fin 32 (map u32_key l) None) as [x|] eqn:E; [|discriminate]. cbn [rbind]. intros S. pose proof (list_made l x B E) as LM.
    destruct x as [c|]; [|discriminate S]. assert (O : made (Some c)) by (destruct LM as (M & H & _); exists c, M; auto).
    destruct (C70_set_get R d m (p9 fin) made (Some c) f d' HRR C eq_refl (non_empty_back 9) O S) as (-> & G & _ & W). split; [reflexivity|]. exists (Some c). split; [apply required_some, G|]. split; [exact LM|exact W].
  - intros f d'. unfold set_critical_params. destruct (unit_dict fin 32 (map u32_key l) None) as [x|] eqn:E; [|discriminate]. cbn [rbind]. intros S. pose proof (list_made l x B E) as LM.
    destruct x as [c|]; [|discriminate S]. assert (O : made (Some c)) by (destruct LM as (M & H & _); exists c, M; auto).
    destruct (C70_set_get R d m (p10 fin) made (Some c) f d' HRR C eq_refl (non_empty_back 10) O S) as (-> & G & _ & W). split; [reflexivity|]. exists (Some c). split; [apply required_some, G|]. split; [exact LM|exact W].
  - intros ->. split; reflexivity.
Qed.
(** The list of fundamental addresses may be empty. *)
Theorem C70_addresses R d m l f d' : R = plain_dict \/ R = canonical_dict fin -> config R d m -> Forall (fun a => Forall byte_ok a /\ length a = 32%nat) l ->
  set_fundamental_addresses fin d l = Ok (f, d') ->
  f = true /\ exists x M, get_fundamental_addresses d' = Ok x /\ history fin 256 x M /\ (forall a, Forall byte_ok a -> length a = 32%nat -> (is_Some (M !! bytes_bits a) <-> In a l)) /\
    forall id, id < 2 ^ 32 -> id <> 31 -> get_raw_cell d' id = get_raw_cell d id.
Proof.
  intros HRR C B. unfold set_fundamental_addresses. destruct (unit_dict fin 256 (map bytes_bits l) None) as [x|] eqn:E; [|discriminate]. cbn [rbind]. intros S.
  assert (HB : comes_back p31 (w_ok dict_w)) by (apply lawful_back; [exact lawful_dict|cbn; lia..]).
  destruct (C70_set_get R d m p31 _ x f d' HRR C eq_refl HB Logic.I S) as (-> & G & _ & W). split; [reflexivity|]. destruct (unit_dict_made _ _ _ E) as (M & H & K).
  exists x, M. split; [apply required_some, G|]. split; [exact H|]. split; [|exact W]. intros a Ha La. rewrite K, in_map_iff. split; [|intros I; exists a; auto].
  intros (a' & E' & I). pose proof (proj1 (List.Forall_forall _ _) B a' I) as [Ha' La']. apply bytes_bits_inj in E'; [congruence|assumption..].
Qed.
(** Prices are found under their positions in the list. *)
Lemma prices_made l : forall i d M x, N.of_nat (length l) + i <= 2 ^ 32 -> history fin 32 d M -> Forall (w_ok storage_prices_w) l -> prices_dict fin l i d = Ok x ->
  exists M', history fin 32 x M' /\ (forall j, j < i -> M' !! nbits 32 j = M !! nbits 32 j) /\
    (forall j v, nth_error l j = Some v -> exists y, M' !! nbits 32 (i + N.of_nat j) = Some y /\ w_read storage_prices_w v y) /\
    (forall j, i + N.of_nat (length l) <= j < 2 ^ 32 -> M' !! nbits 32 j = M !! nbits 32 j).
Proof.
  induction l as [|v l IH]; intros i d M x HL H F E; cbn [prices_dict] in E.
  - injection E as <-. exists M. split; [exact H|]. split; [reflexivity|]. split; [intros [|j] v [=]|reflexivity].
  - inversion F as [|? ? Fv F']; subst. cbn [length] in HL. destruct (store_struct storage_prices v ([], [])) as [y|] eqn:Ey; [|discriminate]. cbn [rbind] in E.
    rewrite (N.mod_small i) in E by lia. unfold u32_key in E. destruct (dict_insert fin d (nbits 32 i) 32 y MSet) as [[f d1]|] eqn:Ei; [|discriminate]. cbn [rbind] in E.
    assert (H1 : history fin 32 d1 (<[nbits 32 i := y]> M)) by (apply (h_set fin 32 d M _ y MSet f d1 H Ei)).
    destruct (IH (i + 1) d1 _ x ltac:(lia) H1 F' E) as (M' & HM & A1 & A2 & A3). exists M'. split; [exact HM|].
    assert (Ne : forall j, j < 2 ^ 32 -> j <> i -> nbits 32 i <> nbits 32 j) by (intros j Hj Hne X; apply key_inj in X; [congruence|lia|exact Hj]).
    split; [|split].
    + intros j Hj. rewrite A1 by lia. apply lookup_insert_ne, Ne; lia.
    + intros [|j] w; cbn [nth_error]; intros Ew.
      * injection Ew as <-. exists y. change (N.of_nat 0) with 0. rewrite N.add_0_r. rewrite (A1 i) by lia. rewrite lookup_insert. split; [reflexivity|].
        pose proof lawful_prices as HP. destruct (law_ok _ _ HP v Fv) as (y' & W). pose proof (law_store _ _ HP v y' W ([], []) ltac:(split; cbn; lia)) as Es. change (c_store (derived storage_prices) v ([], [])) with (store_struct storage_prices v ([], [])) in Es.
        rewrite Ey in Es. destruct (_ || _); [discriminate|]. rewrite nil_capp in Es. injection Es as ->. apply (law_same _ _ HP), W.
      * destruct (A2 j w Ew) as (z & Hz & Wz). exists z. split; [|exact Wz]. rewrite <- Hz. f_equal. f_equal. lia.
    + intros j Hj. cbn [length] in Hj. rewrite A3 by lia. apply lookup_insert_ne, Ne; lia.
Qed.
Theorem C70_storage_prices R d m l f d' : R = plain_dict \/ R = canonical_dict fin -> config R d m -> Forall (w_ok storage_prices_w) l -> N.of_nat (length l) <= 2 ^ 32 ->
  set_storage_prices fin d l = Ok (f, d') ->
  f = true /\ exists x M, get_storage_prices fin d' = Ok x /\ history fin 32 x M /\
    (forall i v, nth_error l i = Some v -> exists y, M !! nbits 32 (N.of_nat i) = Some y /\ w_read storage_prices_w v y) /\
    (forall i, N.of_nat (length l) <= i < 2 ^ 32 -> M !! nbits 32 i = None) /\
    forall id, id < 2 ^ 32 -> id <> 18 -> get_raw_cell d' id = get_raw_cell d id.
Proof.
  intros HRR C B HL. unfold set_storage_prices. destruct (prices_dict fin l 0 None) as [x|] eqn:E; [|discriminate]. cbn [rbind]. intros S.
  destruct (prices_made l 0 None ∅ x ltac:(lia) (h_empty fin 32) B E) as (M & H & _ & A & Z). destruct x as [c|]; [|discriminate S].
  assert (O : made (Some c)) by (exists c, M; auto). destruct (C70_set_get R d m (p18 fin) made (Some c) f d' HRR C eq_refl (non_empty_back 18) O S) as (-> & G & _ & W). split; [reflexivity|].
  exists (Some c), M. split; [apply required_some, G|]. split; [exact H|]. split; [exact A|]. split; [|exact W]. intros i Hi. rewrite Z by lia. apply lookup_empty.
Qed.

(** ** Finding: the dictionary of the parameters can become empty *)
(** The only parameter of a configuration is removed, unless it is the parameter 0; what is left
    cannot be stored. *)
Theorem C70_emptied_refuted d id c d' : config (canonical_dict fin) d {[id := c]} -> id < 2 ^ 32 -> id <> 0 -> remove fin d id = (Ok (Some c), d') -> d' = None.
Proof.
  intros C Hid Ne E. pose proof (config_remove fin _ d _ id _ d' (canonical_ok fin) C Hid E) as H. cbn beta iota in H. rewrite (proj2 (N.eqb_neq _ _) Ne) in H. destruct H as [_ C'].
  rewrite delete_singleton in C'. destruct C' as (_ & es & D & M). destruct d' as [r|]; [|reflexivity]. exfalso. cbn [is_dict] in D. apply hashmap_rep in D. destruct D as (t & Ht & ->).
  pose proof (t_first_get false false t) as F. assert (Lk : length (fst (t_first false false t)) = 32%nat) by (eapply t_get_len; [eapply Rep_wft; exact Ht|exact F]).
  rewrite <- t_get_spec in F. rewrite <- (nbits_bval' 32 (fst (t_first false false t)) Lk) in F. rewrite M in F; [rewrite lookup_empty in F; discriminate|]. pose proof (bval_lt (fst (t_first false false t))) as Y. rewrite Lk in Y. exact Y.
Qed.
(** A getter does not look at what follows the value. *)
Theorem C70_rest_refuted d m a rest c : config plain_dict d m -> Forall byte_ok a -> length a = 32%nat -> m !! 1 = Some c -> c_exotic c = false ->
  c_bits c = bytes_bits a ++ rest -> get_elector_address d = Ok a.
Proof.
  intros C Ha Hl Hc X Eb. apply (proj1 (C70_getters d m C)). exists c, (bytes_bits a, []), (rest, c_refs c). split; [exact Hc|]. split; [exact X|]. split; [constructor; assumption|]. unfold capp. cbn [fst snd app]. rewrite Eb. reflexivity.
Qed.
End Fin.
Print Assumptions C70_read.
Print Assumptions C70_set_raw.
Print Assumptions C70_remove.
Print Assumptions C70_new.
Print Assumptions C70_getters.
Print Assumptions C70_reward.
Print Assumptions C70_validator_sets.
Print Assumptions C70_setters.
Print Assumptions C70_setters_succeed.
Print Assumptions C70_set_get.
Print Assumptions C70_params.
Print Assumptions C70_lists.
Print Assumptions C70_addresses.
Print Assumptions C70_storage_prices.
Print Assumptions C70_emptied_refuted.
Print Assumptions C70_rest_refuted.

(** A concrete case: a configuration is made, parameters are set, read and removed. *)
Definition ex_fin : list bool -> list cell -> res unit := fun _ _ => Ok tt.
Definition ok_or {A} (x : res A) (a : A) : A := match x with Ok v => v | Err _ => a end.
Definition ex_addr (n : N) : list N := repeat n 32.
Definition ex_c0 := ok_or (new_empty ex_fin (ex_addr 5)) None.
Definition ex_c1 := snd (ok_or (set_elector_address ex_fin ex_c0 (ex_addr 3)) (false, None)).
Definition ex_c2 := snd (ok_or (set_global_id ex_fin ex_c1 (-239)) (false, None)).
Definition ex_c3 := snd (ok_or (set_mandatory_params ex_fin ex_c2 [0; 1; 9]) (false, None)).
Definition ex_c4 := snd (ok_or (set_block_creation_rewards ex_fin ex_c3 (1700, (1000, tt))) (false, None)).
Example C70_case : exists m, config (canonical_dict ex_fin) ex_c0 m /\ m <> ∅ /\
  get_minter_address ex_c4 = Ok (ex_addr 5) /\ get_fee_collector_address ex_c4 = Ok (ex_addr 3) /\ get_global_id ex_c4 = Ok (-239)%Z /\
  get_block_creation_reward ex_c4 true = Ok 1700 /\ get_block_creation_reward ex_c4 false = Ok 1000 /\
  fst (remove ex_fin ex_c4 0) = Ok None /\ get_elector_address (snd (remove ex_fin ex_c4 1)) = Err CellUnderflow /\
  dict_get (ok_or (get_mandatory_params ex_fin ex_c4) None) 32 (nbits 32 9) = Ok (Some ([], [])) /\
  w_ok block_creation_rewards_w (1700, (1000, tt)) /\ w_ok hash_w (ex_addr 3) /\ w_ok (int_w 32) (-239)%Z.
Proof.
  exists {[0 := Cell false (bytes_bits (ex_addr 5)) []]}. split; [|split].
  - apply C70_new; [apply List.Forall_forall; intros x I; apply repeat_spec in I; subst x; reflexivity|reflexivity|vm_compute; reflexivity].
  - intros E. apply (f_equal (lookup 0)) in E. rewrite lookup_singleton, lookup_empty in E. discriminate.
  - do 8 (split; [vm_compute; reflexivity|]). split; [|split].
    + split; [reflexivity|split; [reflexivity|exact Logic.I]].
    + split; [|reflexivity]. apply List.Forall_forall; intros x I; apply repeat_spec in I; subst x; reflexivity.
    + vm_compute. split; [discriminate|reflexivity].
Qed.
