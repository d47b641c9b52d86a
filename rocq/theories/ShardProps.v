(** * C37: shard identifiers form a binary tree; C45: block identifiers survive printing and storing *)
From Verif Require Import Err BitsProofs IntModel IntProofs CellModel TextModel TextProofs TextProofs2 ShardModel ShardSpec ShardProofs.
Local Open Scope N_scope.

(** ** C37 *)
(** The identifiers accepted are the nodes of the tree: a one-to-one correspondence. *)
Theorem C37_new wc prefix s : prefix < 2 ^ 64 ->
  shard_new wc prefix = Some s <->
  exists path, is_path path /\ prefix = path_prefix path /\ s = shard_at wc path /\ (wc = (-1)%Z -> path = []).
Proof. apply shard_new_ok. Qed.
Print Assumptions C37_new.
Theorem C37_path_unique wc wc' p q : is_path p -> is_path q -> shard_at wc p = shard_at wc' q -> wc = wc' /\ p = q.
Proof.
  unfold is_path. intros Hp Hq H. injection H as -> E. split; [reflexivity|]. apply word_inj; [lia..|]. exact E.
Qed.
Print Assumptions C37_path_unique.
Theorem C37_full wc path : is_path path -> (is_full (shard_at wc path) = true <-> path = []) /\ shard_full wc = shard_at wc [].
Proof. intros H. split; [apply is_full_path, H|reflexivity]. Qed.
Print Assumptions C37_full.
(** Splitting gives the two children, unless the shard is at the maximum depth of 60. *)
Theorem C37_split wc path : is_path path ->
  split (shard_at wc path) =
  if (length path <? 60)%nat then Some (shard_at wc (path ++ [false]), shard_at wc (path ++ [true])) else None.
Proof. apply split_ok. Qed.
Print Assumptions C37_split.
Theorem C37_can_split wc path : is_path path -> can_split (shard_at wc path) = (length path <? 60)%nat /\ prefix_len (shard_at wc path) = N.of_nat (length path).
Proof.
  unfold is_path. intros H. unfold can_split. rewrite prefix_len_path by lia. split; [|reflexivity]. unfold MAX_SPLIT_DEPTH.
  destruct (Nat.ltb_spec (length path) 60), (N.ltb_spec (N.of_nat (length path)) 60); lia || reflexivity.
Qed.
Print Assumptions C37_can_split.
(** Merging a child gives the parent, and the opposite of a child is its sibling. *)
Theorem C37_merge wc path b : is_path (path ++ [b]) -> merge (shard_at wc (path ++ [b])) = Some (shard_at wc path).
Proof. intros H. unfold merge. rewrite is_full_snoc by exact H. rewrite parent_snoc by exact H. reflexivity. Qed.
Print Assumptions C37_merge.
Theorem C37_opposite wc path b : is_path (path ++ [b]) -> opposite (shard_at wc (path ++ [b])) = Some (shard_at wc (path ++ [negb b])).
Proof. apply opposite_snoc. Qed.
Print Assumptions C37_opposite.
Theorem C37_root wc : merge (shard_full wc) = None /\ opposite (shard_full wc) = None /\ is_left_child (shard_full wc) = true.
Proof. split_and!; reflexivity. Qed.
Print Assumptions C37_root.
Theorem C37_side wc path b : is_path (path ++ [b]) ->
  is_right_child (shard_at wc (path ++ [b])) = b /\ is_left_child (shard_at wc (path ++ [b])) = negb b.
Proof. intros H. unfold is_left_child. rewrite is_right_snoc by exact H. split; reflexivity. Qed.
Print Assumptions C37_side.
Theorem C37_parent wa a wb b : is_path a -> is_path b ->
  (is_parent_of (shard_at wa a) (shard_at wb b) = true <-> wa = wb /\ exists x, b = a ++ [x])
  /\ is_child_of (shard_at wb b) (shard_at wa a) = is_parent_of (shard_at wa a) (shard_at wb b).
Proof. intros Ha Hb. split; [apply parent_ok; assumption|reflexivity]. Qed.
Print Assumptions C37_parent.
(** Two shards intersect iff one of the paths starts with the other. *)
Theorem C37_intersects wa a wb b : is_path a -> is_path b ->
  intersects (shard_at wa a) (shard_at wb b) = true <-> wa = wb /\ (a `prefix_of` b \/ b `prefix_of` a).
Proof. apply intersects_ok. Qed.
Print Assumptions C37_intersects.
(** An account belongs to a shard iff its address starts with the path. *)
Theorem C37_contains_account wc path account : is_path path -> Forall byte_ok account -> length account = 32%nat ->
  contains_account (shard_at wc path) account = Ok (bool_decide (path `prefix_of` bytes_bits account)).
Proof.
  intros Hp Ha Hl. unfold contains_account. rewrite contains_prefix_ok; [|exact Hp|apply Forall_take, Ha|rewrite take_length; lia].
  f_equal. apply bool_decide_ext. rewrite !prefix_take. unfold is_path in Hp.
  rewrite <- (take_drop 8 account) at 2. rewrite bytes_bits_app, take_app_le; [reflexivity|]. rewrite length_bytes_bits, take_length. lia.
Qed.
Print Assumptions C37_contains_account.
Theorem C37_contains_address wc path awc aprefix : is_path path -> aprefix < 2 ^ 64 ->
  contains_address (shard_at wc path) awc aprefix = Ok (bool_decide (wc = awc /\ path `prefix_of` nbits 64 aprefix)).
Proof.
  intros Hp Ha. unfold contains_address. change (sh_wc (shard_at wc path)) with wc. destruct (Z.eqb_spec wc awc) as [E|E].
  - rewrite contains_prefix_ok; [|exact Hp|apply to_be_ok|apply to_be_length]. rewrite bytes_bits_to_be. f_equal. apply bool_decide_ext. tauto.
  - f_equal. symmetry. apply bool_decide_eq_false. tauto.
Qed.
Print Assumptions C37_contains_address.
(** Every ancestor of a shard is reported as such. *)
Theorem C37_ancestor_partial wc a b : is_path a -> is_path b -> a `prefix_of` b -> is_ancestor_of (shard_at wc a) (shard_at wc b) = true.
Proof. apply ancestor_complete. Qed.
Print Assumptions C37_ancestor_partial.
(** But not only ancestors are: shard 01 is reported as an ancestor of shard 110.  The mask is
    computed from the whole prefix instead of from the tag. *)
Theorem C37_ancestor_refuted : exists wc a b, is_path a /\ is_path b /\ ~ a `prefix_of` b /\ is_ancestor_of (shard_at wc a) (shard_at wc b) = true.
Proof.
  exists 0%Z, [false; true], [true; true; false]. split_and!; [unfold is_path; cbn; lia..| |vm_compute; reflexivity].
  intros [r H]. discriminate.
Qed.
Print Assumptions C37_ancestor_refuted.
(** Basechain shard 0110...: its identifier, children, parent and sibling. *)
Example C37_case :
  shard_at 0 [false; true; true] = Shard 0 0x7000000000000000
  /\ split (Shard 0 0x7000000000000000) = Some (Shard 0 0x6800000000000000, Shard 0 0x7800000000000000)
  /\ merge (Shard 0 0x7000000000000000) = Some (Shard 0 0x6000000000000000)
  /\ opposite (Shard 0 0x7000000000000000) = Some (Shard 0 0x5000000000000000)
  /\ contains_account (Shard 0 0x7000000000000000) (0x71 :: replicate 31 0xff) = Ok true
  /\ contains_account (Shard 0 0x7000000000000000) (0x81 :: replicate 31 0xff) = Ok false.
Proof. split_and!; vm_compute; reflexivity. Qed.

(** ** C45 *)
Definition block_id_ok (x : block_id) : Prop :=
  valid_shard (bi_shard x) /\ bi_seqno x < 2 ^ 32 /\ Forall byte_ok (bi_root x) /\ length (bi_root x) = 32%nat
  /\ Forall byte_ok (bi_file x) /\ length (bi_file x) = 32%nat.
Lemma valid_at s : valid_shard s -> exists wc p, s = shard_at wc p /\ is_path p /\ (- 2 ^ 31 <= wc < 2 ^ 31)%Z /\ (wc = (-1)%Z -> p = []).
Proof. intros (p & Hp & E & Hw & Hm). exists (sh_wc s), p. split_and!; [|exact Hp|lia|lia|exact Hm]. destruct s as [w x]. cbn in *. rewrite E. reflexivity. Qed.

(** A stored shard identifier takes 104 bits and is read back, leaving the bits that follow. *)
Theorem C45_shard_cell s b rest : valid_shard s -> (length b + 104 <= 1023)%nat ->
  exists bits, store_shard s b = Ok (b ++ bits) /\ length bits = 104%nat /\ load_shard (bits ++ rest) = Ok (s, rest).
Proof.
  intros H Hb. destruct (valid_at s H) as (wc & p & -> & Hp & Hw & _). rewrite store_shard_ok by exact Hp.
  destruct (Nat.ltb_spec MAX_BITS (length b + 104)) as [L|_]; [unfold MAX_BITS in L; lia|].
  exists (shard_bits wc p). split_and!; [reflexivity| |apply load_shard_stored; assumption].
  unfold shard_bits, is_path in *. rewrite !app_length, !length_nbits, length_zeros. lia.
Qed.
Print Assumptions C45_shard_cell.
(** Whatever bits are read, the result is a node of the tree of shards. *)
Theorem C45_shard_load b s rest : load_shard b = Ok (s, rest) -> exists wc path, is_path path /\ s = shard_at wc path /\ length b = (104 + length rest)%nat.
Proof.
  intros H. apply load_shard_ok in H. destruct H as (n & wc & x & -> & Hn & Hw & Lx & ->). exists (as_signed 32 wc), (take n x).
  split_and!; [unfold is_path; rewrite take_length; lia|reflexivity|]. rewrite !app_length, !length_nbits. lia.
Qed.
Print Assumptions C45_shard_load.
Theorem C45_shard_text s : valid_shard s -> parse_shard (show_shard s) = IOk s.
Proof.
  intros H. destruct (valid_at s H) as (wc & p & -> & Hp & Hw & Hm). unfold parse_shard, show_shard, COLON.
  cbn [app]. rewrite split_at_app by apply show_int_chars. destruct (path_prefix_valid p Hp) as (_ & Hlt & _).
  assert (H16 : path_prefix p < 16 ^ N.of_nat 16) by (change (16 ^ N.of_nat 16) with (2 ^ 64); exact Hlt).
  change (sh_prefix (shard_at wc p)) with (path_prefix p). change (sh_wc (shard_at wc p)) with wc. change HEX_LOWER with (tab false).
  destruct (show_hex_ok false 16 _ ltac:(lia) H16) as (_ & _ & C).
  rewrite split_at_last.
  2:{ eapply Forall_impl; [|exact C]. intros c Hc. apply tab_char in Hc. tauto. }
  rewrite show_int_parse by (cbn; lia). cbn [head hd_error parse_prefix].
  rewrite show_hex_parse by (try exact H16; unfold MAX64; lia).
  assert (shard_new wc (path_prefix p) = Some (shard_at wc p)) as ->; [|reflexivity].
  apply shard_new_ok; [exact Hlt|]. exists p. split_and!; try reflexivity; assumption.
Qed.
Print Assumptions C45_shard_text.
Example C45_shard_case : valid_shard (Shard 0 0x7000000000000000)
  /\ show_shard (Shard (-1) PREFIX_FULL) = [45; 49; 58; 56] ++ replicate 15 48
  /\ parse_shard ([45; 49; 58; 56] ++ replicate 15 48) = IOk (Shard (-1) PREFIX_FULL).
Proof.
  split_and!; [|vm_compute; reflexivity|vm_compute; reflexivity].
  exists [false; true; true]. split_and!; [unfold is_path; cbn; lia|reflexivity|cbn; lia|cbn; lia|discriminate].
Qed.
(** The children of the masterchain, which [split] gives, are not read back from text. *)
Theorem C45_masterchain_split_refuted : exists l r, split (shard_full (-1)) = Some (l, r) /\ parse_shard (show_shard l) = IErr IdShard.
Proof. eexists _, _. split; vm_compute; reflexivity. Qed.
Print Assumptions C45_masterchain_split_refuted.

Theorem C45_block_text x : block_id_ok x -> parse_block_id (show_block_id x) = IOk x.
Proof.
  intros (Hs & Hq & Hr & Lr & Hf & Lf). destruct (valid_at _ Hs) as (wc & p & Es & Hp & Hw & Hm).
  unfold parse_block_id, show_block_id, show_shard, COLON. rewrite Es.
  change (sh_prefix (shard_at wc p)) with (path_prefix p). change (sh_wc (shard_at wc p)) with wc. change HEX_LOWER with (tab false).
  destruct (path_prefix_valid p Hp) as (_ & Hlt & _).
  assert (H16 : path_prefix p < 16 ^ N.of_nat 16) by (change (16 ^ N.of_nat 16) with (2 ^ 64); exact Hlt).
  destruct (show_hex_ok false 16 _ ltac:(lia) H16) as (_ & _ & C).
  assert (C' : Forall (fun c => c <> 58) (show_hex 16 (tab false) (path_prefix p))) by (eapply Forall_impl; [|exact C]; intros c Hc; apply tab_char in Hc; tauto).
  rewrite <- !app_assoc. cbn [app].
  match goal with |- match ?l with [] => _ | _ => _ end = _ => destruct l as [|c0 l0] eqn:El end.
  { apply (f_equal length) in El. rewrite app_length in El. cbn [length] in El. lia. }
  rewrite <- El. clear El c0 l0.
  rewrite split_at_app by apply show_int_chars. rewrite split_at_app by exact C'. rewrite split_at_app by apply show_dec_chars.
  rewrite split_at_app by apply hex_encode_chars, Hr. rewrite split_at_last by apply hex_encode_chars, Hf.
  rewrite show_int_parse by (cbn; lia). cbn [head hd_error parse_prefix].
  rewrite show_hex_parse by (try exact H16; unfold MAX64; lia).
  assert (shard_new wc (path_prefix p) = Some (shard_at wc p)) as ->.
  { apply shard_new_ok; [exact Hlt|]. exists p. split_and!; try reflexivity; assumption. }
  cbn [lookup list_lookup]. rewrite show_dec_parse by lia. rewrite !hex_encode_decode_to by assumption.
  destruct x as [s q r f]. cbn in *. subst s. reflexivity.
Qed.
Print Assumptions C45_block_text.
Lemma load_bytes n bs rest : Forall byte_ok bs -> length bs = n -> load_uint (8 * n) (bytes_bits bs ++ rest) = Ok (bval (bytes_bits bs), rest).
Proof.
  intros H <-. pose proof (load_uint_nbits (8 * length bs) (bval (bytes_bits bs)) rest) as E.
  rewrite nbits_bval' in E by apply length_bytes_bits. apply E. pose proof (bval_lt (bytes_bits bs)) as L. rewrite length_bytes_bits in L. exact L.
Qed.
Lemma to_be_bval n bs : Forall byte_ok bs -> length bs = n -> to_be n (bval (bytes_bits bs)) = bs.
Proof.
  intros H <-. apply bytes_bits_inj; [apply to_be_ok|exact H|]. rewrite bytes_bits_to_be, nbits_bval'; [reflexivity|apply length_bytes_bits].
Qed.
Theorem C45_block_cell x b rest : block_id_ok x -> (length b + 648 <= 1023)%nat ->
  exists bits, store_block_id x b = Ok (b ++ bits) /\ length bits = 648%nat /\ load_block_id (bits ++ rest) = Ok (x, rest).
Proof.
  intros (Hs & Hq & Hr & Lr & Hf & Lf) Hb. destruct (valid_at _ Hs) as (wc & p & Es & Hp & Hw & Hm).
  unfold store_block_id, load_block_id. rewrite Es, store_shard_ok by exact Hp.
  destruct (Nat.ltb_spec MAX_BITS (length b + 104)) as [L|_]; [unfold MAX_BITS in L; lia|]. cbn [rbind].
  assert (Ls : length (shard_bits wc p) = 104%nat) by (unfold shard_bits, is_path in *; rewrite !app_length, !length_nbits, length_zeros; lia).
  assert (MB : MAX_BITS = 1023%nat) by reflexivity.
  rewrite put_ok by (rewrite app_length, length_nbits; lia). cbn [rbind].
  rewrite put_ok by (rewrite !app_length, length_nbits, length_bytes_bits; lia). cbn [rbind].
  rewrite put_ok by (rewrite !app_length, length_nbits, !length_bytes_bits; lia).
  exists (shard_bits wc p ++ nbits 32 (bi_seqno x) ++ bytes_bits (bi_root x) ++ bytes_bits (bi_file x)).
  split_and!.
  - rewrite <- !app_assoc. reflexivity.
  - rewrite !app_length, Ls, length_nbits, !length_bytes_bits. lia.
  - rewrite <- !app_assoc, load_shard_stored by assumption. cbn [rbind]. rewrite load_uint_nbits by exact Hq. cbn [rbind].
    rewrite (load_bytes 32) by assumption. cbn [rbind]. rewrite (load_bytes 32) by assumption. cbn [rbind].
    rewrite !to_be_bval by assumption. destruct x as [s q r f]. cbn in *. subst s. reflexivity.
Qed.
Print Assumptions C45_block_cell.
Example C45_block_case :
  let x := BlockId (Shard 0 0x7000000000000000) 12345 (replicate 32 0xab) (replicate 32 0x01) in
  block_id_ok x /\ parse_block_id (show_block_id x) = IOk x.
Proof.
  cbn zeta. split; [|vm_compute; reflexivity]. unfold block_id_ok. cbn [bi_shard bi_seqno bi_root bi_file].
  split_and!; [apply C45_shard_case|lia|apply Forall_replicate; unfold byte_ok; lia|reflexivity|apply Forall_replicate; unfold byte_ok; lia|reflexivity].
Qed.
