(** * C58: derived codecs write and read the layouts that their attributes describe *)
From Verif Require Import Err BitsProofs IntModel NumModel CurrencyModel CellModel ChunkModel ChunkSpec ChunkProofs DeriveModel DeriveSpec DeriveProofs StructsModel StructsSpec StructsProofs.
Local Open Scope N_scope.

(** ** What a lawful codec guarantees *)
(** A value in range is written, into a cell that has room for it, as its layout; what is
    written is read back, whatever follows it; nothing but its layouts is read as a value. *)
Theorem C58_round_trip {A} (c : codec A) (l : layout A) a : lawful c l -> w_ok l a -> (w_bits l <= 1023)%nat -> (w_refs l <= 4)%nat ->
  exists x, w_write l a x /\ c_store c a ([], []) = Ok x /\ (forall rest, c_load c (capp x rest) = Ok (a, rest)) /\
    forall b, builder_ok b -> c_store c a b = if (1023 <? length (fst b) + length (fst x))%nat || (4 <? length (snd b) + length (snd x))%nat then Err CellOverflow else Ok (capp b x).
Proof.
  intros L O B R. destruct (law_ok _ _ L a O) as (x & W). exists x. pose proof (law_store _ _ L a x W) as S.
  split; [exact W|]. split; [|split; [|exact S]].
  - rewrite (S ([], [])) by (split; cbn; lia). cbn [fst snd length Nat.add].
    pose proof (law_bits _ _ L a x W). pose proof (law_refs _ _ L a x W).
    destruct (Nat.ltb_spec 1023 (length (fst x))); [lia|]. destruct (Nat.ltb_spec 4 (length (snd x))); [lia|]. cbn [orb]. rewrite nil_capp. reflexivity.
  - intros rest. apply (reads_back _ _ _ _ _ (law_load _ _ L)). exact (law_same _ _ L _ _ W).
Qed.
Print Assumptions C58_round_trip.
Theorem C58_read {A} (c : codec A) (l : layout A) b a rest : lawful c l -> (c_load c b = Ok (a, rest) <-> exists x, w_read l a x /\ b = capp x rest).
Proof. intros L. apply (law_load _ _ L). Qed.
Print Assumptions C58_read.
(** Values of equal layouts are equal. *)
Theorem C58_injective {A} (c : codec A) (l : layout A) a b x : lawful c l -> w_read l a x -> w_read l b x -> a = b.
Proof.
  intros L Ha Hb. pose proof (reads_back _ _ a x ([], []) (law_load _ _ L) Ha) as Ea. pose proof (reads_back _ _ b x ([], []) (law_load _ _ L) Hb) as Eb.
  rewrite Ea in Eb. injection Eb as E. exact E.
Qed.
Print Assumptions C58_injective.

(** ** The macro: a structure of any fields whose codecs are lawful has a lawful codec, for any
    tags, versions and condition on its values *)
Theorem C58_derived s w : well_formed s -> all_lawful (s_fields s) w -> lawful (derived s) (struct_layout s w).
Proof. apply lawful_struct. Qed.
Print Assumptions C58_derived.
(** The condition is checked in both directions. *)
Theorem C58_checked s v b : s_valid s v = false -> c_store (derived s) v b = Err InvalidData /\ forall b' rest, c_load (derived s) b' <> Ok (v, rest).
Proof.
  intros V. split; [cbn; unfold store_struct; rewrite V; reflexivity|]. intros b' rest. cbn. unfold load_struct.
  match goal with |- context [rbind ?e _] => destruct e as [[v' b2]|] end; cbn [rbind]; [|discriminate].
  destruct (s_valid s v') eqn:V'; [|discriminate]. intros [= <- _]. congruence.
Qed.
Print Assumptions C58_checked.
(** Without versions, that is the tag and the fields one after another. *)
Theorem C58_plain l : forall w, all_lawful l w -> lawful (derived (struct_of NoTag l)) (fields_w l w).
Proof. intros w. apply lawful_plain_of. Qed.
Print Assumptions C58_plain.
Theorem C58_tagged n t l : forall w, t < 2 ^ N.of_nat n -> all_lawful l w -> lawful (derived (struct_of (OneTag (Tag n t)) l)) (tag_w n t (fields_w l w)).
Proof. intros w. apply lawful_tagged_of. Qed.
Print Assumptions C58_tagged.

(** ** The structures *)
Lemma block_param_limits_lawful : lawful (derived block_param_limits) block_param_limits_w.
Proof.
  apply fits_tagged_valid; [fields|reflexivity|].
  intros (a & b & c & []). cbn [fst snd]. rewrite andb_true_iff, !N.leb_le. reflexivity.
Qed.
#[export] Hint Resolve block_param_limits_lawful : layouts.
(** Fees are burned in a proportion of at most one; limits grow; addresses have between 64 and
    1023 bits; at most 96 bits of an address are its destination. *)
Theorem C58_checked_structs :
  lawful (derived burning_config) burning_config_w /\
  lawful (derived block_param_limits) block_param_limits_w /\
  lawful (derived workchain_format_extended) workchain_format_extended_w /\
  lawful (derived intermediate_regular) intermediate_regular_w.
Proof.
  split_and!.
  - apply fits_tagged_valid; [fields|reflexivity|]. intros (a & b & c & []). cbn [fst snd]. apply N.leb_le.
  - apply block_param_limits_lawful.
  - apply fits_valid; [fields|]. intros (a & b & c & d & []). cbn [fst snd]. rewrite !andb_true_iff, !N.leb_le. tauto.
  - apply fits_valid; [fields|]. intros (a & []). apply N.leb_le.
Qed.
Print Assumptions C58_checked_structs.
(** The structure with two versions. *)
Ltac unpack F := lazymatch type of F with
  | fields_c _ _ [] _ _ _ => cbn [fields_c] in F
  | _ => let y := fresh "y" in let z := fresh "z" in let E := fresh "E" in let H := fresh "H" in destruct F as (y & z & E & F & H); cbn [present f_since plain v_index Nat.leb u8 u16 u32 dict] in H; unpack F
  end.
Ltac unpack2 F := lazymatch type of F with
  | w_write end_w _ _ => cbn [end_w w_write] in F
  | w_read end_w _ _ => cbn [end_w w_read] in F
  | _ => let y := fresh "y" in let z := fresh "z" in let E := fresh "E" in let H := fresh "H" in destruct F as (y & z & E & H & F); cbn [fst snd] in F, H; unpack2 F
  end.
Ltac repack := repeat (eexists _, _; split; [reflexivity|split; [eassumption|]]); cbn [end_w w_write w_read]; rewrite ?capp_nil; reflexivity.
Ltac repack2 := repeat lazymatch goal with
  | |- fields_c _ _ [] _ _ _ => reflexivity
  | |- fields_c _ _ _ _ _ _ => first [eexists _, _; split; [reflexivity|split; [|eassumption]] | exists ([], []), ([], []); split; [reflexivity|split; [|reflexivity]]]
  end.
Theorem C58_versions : lawful (derived msgs_execution_params) msgs_execution_params_w.
Proof.
  assert (W : well_formed msgs_execution_params).
  { cbn. split; [repeat constructor; vm_compute; reflexivity|]. split; [repeat constructor; cbn; intuition discriminate|].
    repeat (apply List.Forall_cons; [first [exact Logic.I | split; [cbn; lia|intros a; apply N.eqb_eq]]|]). apply List.Forall_nil. }
  set (w := (uint_w 32, (uint_w 16, (uint_w 16, (uint_w 16, (uint_w 16, (uint_w 32, (uint_w 32, (dict_w, (uint_w 32, tt)))))))))).
  assert (L : all_lawful (s_fields msgs_execution_params) w) by (cbn; split_and!; auto with layouts).
  eapply lawful_same; [|exact (lawful_struct msgs_execution_params w W L)].
  constructor.
  - intros v H. split; [|reflexivity]. exact (fields_w_ok (s_fields msgs_execution_params) w v H).
  - intros v x. change (w_write (struct_layout msgs_execution_params w) v x) with (struct_write msgs_execution_params w v x).
    destruct v as (a & b & c & d & e & f & g & h & i & []). unfold struct_write. cbn [msgs_execution_params struct_of s_tags s_valid s_fields always].
    cbn [msgs_execution_params_w w_write last_field without_last fst snd]. split.
    + intros (_ & k & tk & y & Ek & Hk & Hj & -> & F). destruct k as [|[|k]]; [| |destruct k; discriminate]; cbn in Ek; injection Ek as <-.
      * left. split; [apply Hk; cbn; lia|]. exists y. split; [reflexivity|]. unpack F; subst; cbn [fst snd] in *. repack.
      * right. split; [intros ->; apply (Hj 0%nat); [lia|cbn; intuition]|]. exists y. split; [reflexivity|]. unpack F; subst; cbn [fst snd] in *. repack.
    + intros [(Z & y & -> & F)|(Z & y & -> & F)]; (split; [reflexivity|]).
      * subst i. exists 0%nat, (Tag 8 0x00), y. split; [reflexivity|]. split; [cbn; intuition|]. split; [lia|]. split; [reflexivity|]. unpack2 F; subst; cbn [fst snd] in *. repack2.
      * exists 1%nat, (Tag 8 0x01), y. split; [reflexivity|]. split; [cbn; intuition lia|]. split; [intros j J (_ & _ & _ & _ & _ & _ & _ & _ & J' & _); apply Z, J'; cbn; lia|]. split; [reflexivity|]. unpack2 F; subst; cbn [fst snd] in *. repack2.
  - intros v x. change (w_read (struct_layout msgs_execution_params w) v x) with (struct_read msgs_execution_params w v x).
    destruct v as (a & b & c & d & e & f & g & h & i & []). unfold struct_read. cbn [msgs_execution_params struct_of s_tags s_valid s_fields always].
    cbn [msgs_execution_params_w w_read last_field without_last fst snd]. split.
    + intros (_ & k & tk & y & Ek & Hk & -> & F). destruct k as [|[|k]]; [| |destruct k; discriminate]; cbn in Ek; injection Ek as <-.
      * left. split; [apply Hk; cbn; lia|]. exists y. split; [reflexivity|]. unpack F; subst; cbn [fst snd] in *. repack.
      * right. exists y. split; [reflexivity|]. unpack F; subst; cbn [fst snd] in *. repack.
    + intros [(Z & y & -> & F)|(y & -> & F)]; (split; [reflexivity|]).
      * subst i. exists 0%nat, (Tag 8 0x00), y. split; [reflexivity|]. split; [cbn; intuition|]. split; [reflexivity|]. unpack2 F; subst; cbn [fst snd] in *. repack2.
      * exists 1%nat, (Tag 8 0x01), y. split; [reflexivity|]. split; [cbn; intuition lia|]. split; [reflexivity|]. unpack2 F; subst; cbn [fst snd] in *. repack2.
  - vm_compute. lia.
  - vm_compute. lia.
Qed.
Print Assumptions C58_versions.
#[export] Hint Resolve C58_versions : layouts.
Theorem C58_params :
  lawful (derived mint_once_config) mint_once_config_w /\
  lawful (derived config_voting_setup) config_voting_setup_w /\
  lawful (derived config_proposal_setup) config_proposal_setup_w /\
  lawful (derived workchain_format_basic) workchain_format_basic_w /\
  lawful (derived block_creation_rewards) block_creation_rewards_w /\
  lawful (derived election_timings) election_timings_w /\
  lawful (derived validator_count_params) validator_count_params_w /\
  lawful (derived validator_stake_params) validator_stake_params_w /\
  lawful (derived storage_prices) storage_prices_w /\
  lawful (derived block_limits) block_limits_w /\
  lawful (derived msg_forward_prices) msg_forward_prices_w /\
  lawful (derived work_units_params) work_units_params_w /\
  lawful (derived collation_config) collation_config_w /\
  lawful (derived consensus_config_tycho) consensus_config_tycho_w /\
  lawful (derived size_limits_config) size_limits_config_w /\
  lawful (derived global_version) global_version_w.
Proof.
  split_and!; struct_by.
Qed.
Print Assumptions C58_params.
Theorem C58_blocks :
  lawful (derived shard_ident_full) shard_ident_full_w /\
  lawful (derived shard_fee_created) shard_fee_created_w /\
  lawful (derived signature) signature_w /\
  lawful (derived block_signature) block_signature_w /\
  lawful (derived block_signatures) block_signatures_w /\
  lawful (derived block_signatures_tycho) block_signatures_tycho_w /\
  lawful (derived block_ref) block_ref_w /\
  lawful (derived out_msg_queue_updates) out_msg_queue_updates_w /\
  lawful (derived validator_info) validator_info_w /\
  lawful (derived validator_base_info) validator_base_info_w /\
  lawful (derived genesis_info) genesis_info_w /\
  lawful (derived consensus_info) consensus_info_w /\
  lawful (derived key_block_ref) key_block_ref_w /\
  lawful (derived key_max_lt) key_max_lt_w /\
  lawful (derived block_counters) block_counters_w /\
  lawful (derived creator_stats) creator_stats_w /\
  lawful (derived shard_state_split) shard_state_split_w /\
  lawful (derived shard_range) shard_range_w /\
  lawful (derived internals_range) internals_range_w /\
  lawful (derived internals_processed_upto) internals_processed_upto_w /\
  lawful (derived externals_range) externals_range_w /\
  lawful (derived externals_processed_upto) externals_processed_upto_w /\
  lawful (derived processed_upto_partition) processed_upto_partition_w /\
  lawful (derived processed_upto_info) processed_upto_info_w.
Proof.
  split_and!; struct_by.
Qed.
Print Assumptions C58_blocks.
Theorem C58_messages :
  lawful (derived storage_used_short) storage_used_short_w /\
  lawful (derived simple_lib) simple_lib_w /\
  lawful (derived import_fees) import_fees_w /\
  lawful (derived in_msg_external) two_refs_w /\
  lawful (derived in_msg_final) with_fee_w /\
  lawful (derived in_msg_transit) with_fee_w /\
  lawful (derived enqueued_msg) enqueued_msg_w /\
  lawful (derived out_msg_external) two_refs_w /\
  lawful (derived out_msg_immediate) three_refs_w /\
  lawful (derived out_msg_new) two_refs_w /\
  lawful (derived out_msg_dequeue_immediate) two_refs_w /\
  lawful (derived out_msg_dequeue_short) out_msg_dequeue_short_w /\
  lawful (derived intermediate_simple) intermediate_simple_w /\
  lawful (derived intermediate_ext) intermediate_ext_w /\
  lawful (derived hash_update) hash_update_w /\
  lawful (derived credit_phase) credit_phase_w /\
  lawful (derived no_funds_bounce_phase) no_funds_bounce_phase_w /\
  lawful (derived executed_bounce_phase) executed_bounce_phase_w.
Proof.
  split_and!; struct_by.
Qed.
Print Assumptions C58_messages.
(** Every value of them has room in a cell of its own. *)
Theorem C58_one_cell :
  let one_cell {A} (l : layout A) := (w_bits l <= 1023)%nat /\ (w_refs l <= 4)%nat in
  (one_cell burning_config_w /\ one_cell mint_once_config_w /\ one_cell config_voting_setup_w /\ one_cell config_proposal_setup_w /\ one_cell workchain_format_basic_w /\
   one_cell workchain_format_extended_w /\ one_cell block_creation_rewards_w /\ one_cell election_timings_w /\ one_cell validator_count_params_w /\ one_cell validator_stake_params_w /\
   one_cell storage_prices_w /\ one_cell block_param_limits_w /\ one_cell block_limits_w /\ one_cell msg_forward_prices_w /\ one_cell msgs_execution_params_w /\
   one_cell work_units_params_w /\ one_cell collation_config_w /\ one_cell consensus_config_tycho_w /\ one_cell size_limits_config_w /\ one_cell global_version_w) /\
  (one_cell storage_used_short_w /\ one_cell simple_lib_w /\ one_cell shard_ident_full_w /\ one_cell shard_fee_created_w /\ one_cell block_signature_w /\ one_cell block_ref_w /\
   one_cell out_msg_queue_updates_w /\ one_cell validator_info_w /\ one_cell consensus_info_w /\ one_cell block_signatures_w /\ one_cell block_signatures_tycho_w /\
   one_cell key_block_ref_w /\ one_cell key_max_lt_w /\ one_cell creator_stats_w /\ one_cell shard_state_split_w /\ one_cell shard_range_w /\ one_cell internals_range_w /\
   one_cell internals_processed_upto_w /\ one_cell externals_range_w /\ one_cell externals_processed_upto_w /\ one_cell processed_upto_partition_w /\ one_cell processed_upto_info_w) /\
  (one_cell import_fees_w /\ one_cell two_refs_w /\ one_cell three_refs_w /\ one_cell with_fee_w /\ one_cell enqueued_msg_w /\ one_cell out_msg_dequeue_short_w /\
   one_cell intermediate_regular_w /\ one_cell intermediate_simple_w /\ one_cell intermediate_ext_w /\ one_cell hash_update_w /\ one_cell credit_phase_w /\
   one_cell no_funds_bounce_phase_w /\ one_cell executed_bounce_phase_w).
Proof. cbv zeta beta. split_and!; vm_compute; lia. Qed.
Print Assumptions C58_one_cell.

(** Cases: limits of a block, and a structure in each of its versions; the old version is read,
    too, if a newer one could hold the value. *)
Example C58_case :
  let lim (a b c : N) := (a, (b, (c, tt))) in
  let v := (lim 1 2 3, (lim 4 4 4, (lim 0 0 5, tt))) in
  w_ok block_limits_w v /\
  (let? x := c_store (derived block_limits) v ([], []) in let? (v', rest) := c_load (derived block_limits) x in Ok (length (fst x), v', rest)) = Ok (320%nat, v, ([], [])) /\
  c_store (derived block_limits) (lim 1 2 3, (lim 4 3 4, (lim 0 0 5, tt))) ([], []) = Err InvalidData /\
  let p (last : N) : vals (s_fields msgs_execution_params) := (1, (2, (3, (4, (5, (6, (7, (None, (last, tt))))))))) in
  w_ok msgs_execution_params_w (p 0) /\ w_ok msgs_execution_params_w (p 9) /\
  (let? x := c_store (derived msgs_execution_params) (p 0) ([], []) in Ok (length (fst x))) = Ok 169%nat /\
  (let? x := c_store (derived msgs_execution_params) (p 9) ([], []) in let? (v', rest) := c_load (derived msgs_execution_params) x in Ok (length (fst x), v', rest)) = Ok (201%nat, p 9, ([], [])).
Proof. cbv zeta. repeat split; try reflexivity; try (vm_compute; reflexivity); vm_compute; discriminate. Qed.
