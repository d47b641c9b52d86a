(** * Envelopes, inbound and outbound messages *)
From Verif Require Import Err BitsProofs IntModel NumModel NumSpec NumProps CurrencyModel CellModel ChunkModel LazyModel ChunkSpec ChunkProofs LayoutProofs TxModel MessageModel MessageSpec MessageProofs2
  DeriveModel DeriveSpec StructsModel StructsSpec StructsProofs DeriveProps CasesSpec CasesProofs TxProofs EnvModel EnvSpec.
Local Open Scope N_scope.

Lemma lawful_regular : lawful (derived intermediate_regular) intermediate_regular_w. Proof. apply C58_checked_structs. Qed.
Lemma lawful_simple : lawful (derived intermediate_simple) intermediate_simple_w. Proof. struct_by. Qed.
Lemma lawful_far : lawful (derived intermediate_ext) intermediate_ext_w. Proof. struct_by. Qed.
Lemma lawful_hop : lawful hop_k hop_w.
Proof.
  apply lawful_cases.
  - intros [a|a|a]; cbn [br_layout br_prefix]; (split; [first [exact (lawful_proper _ _ lawful_regular) | exact (lawful_proper _ _ lawful_simple) | exact (lawful_proper _ _ lawful_far)]|]); vm_compute; lia.
  - intros [a|a|a] y; cbn [br_layout br_prefix br_value hop_k c_store]; intros W.
    + apply appends_bind; [apply appends_flag|exact (law_store _ _ lawful_regular _ _ W)].
    + apply appends_bind; [apply appends_prefix; reflexivity|exact (law_store _ _ lawful_simple _ _ W)].
    + apply appends_bind; [apply appends_prefix; reflexivity|exact (law_store _ _ lawful_far _ _ W)].
  - eapply reads_equiv; [|cbn [hop_k c_load]; unfold load_hop; apply reads_bit; [apply (reads_map (c_load (derived intermediate_regular)) Regular), (law_load _ _ lawful_regular)|
      apply reads_bit; [apply (reads_map (c_load (derived intermediate_simple)) Simple), (law_load _ _ lawful_simple)|apply (reads_map (c_load (derived intermediate_ext)) Far), (law_load _ _ lawful_far)]]].
    intros c x. split.
    + intros ([] & y & -> & V); [destruct V as ([] & z & -> & v & -> & V)|destruct V as (v & -> & V)]; cbn [br_layout br_prefix br_value].
      * exists z. rewrite capp_assoc. auto.
      * exists z. rewrite capp_assoc. auto.
      * exists y. auto.
    + intros (y & -> & V). destruct c as [a|a|a]; cbn [br_layout br_prefix br_value] in *.
      * exists false, y. split; [reflexivity|]. exists a. auto.
      * exists true, (capp (flag false) y). rewrite capp_assoc. split; [reflexivity|]. exists false, y. split; [reflexivity|]. exists a. auto.
      * exists true, (capp (flag true) y). rewrite capp_assoc. split; [reflexivity|]. exists true, y. split; [reflexivity|]. exists a. auto.
Qed.
#[export] Hint Resolve lawful_hop : layouts.
Lemma lawful_envelope : lawful (derived msg_envelope) envelope_w.
Proof. struct_by. Qed.
Lemma lawful_in_external : lawful (derived in_msg_external) two_refs_w. Proof. struct_by. Qed.
Lemma lawful_in_final : lawful (derived in_msg_final) with_fee_w. Proof. struct_by. Qed.
Lemma lawful_out_immediate : lawful (derived out_msg_immediate) three_refs_w. Proof. struct_by. Qed.
Lemma lawful_out_short : lawful (derived out_msg_dequeue_short) out_msg_dequeue_short_w. Proof. struct_by. Qed.
Ltac propers_of := first [exact (lawful_proper _ _ lawful_in_external) | exact (lawful_proper _ _ lawful_in_final) | exact (lawful_proper _ _ lawful_out_immediate) | exact (lawful_proper _ _ lawful_out_short)].
Ltac stores_of W := first [exact (law_store _ _ lawful_in_external _ _ W) | exact (law_store _ _ lawful_in_final _ _ W) | exact (law_store _ _ lawful_out_immediate _ _ W) | exact (law_store _ _ lawful_out_short _ _ W)].
Ltac loads_of := first [exact (law_load _ _ lawful_in_external) | exact (law_load _ _ lawful_in_final) | exact (law_load _ _ lawful_out_immediate) | exact (law_load _ _ lawful_out_short)].
Definition is_c {A B} (f : A -> B) (l : layout A) (b : B) (x : chunk) : Prop := exists a, b = f a /\ w_read l a x.
Lemma lawful_in_msg : lawful in_msg_k in_msg_w.
Proof.
  apply lawful_cases.
  - intros [m|m|m|m]; cbn [br_layout br_prefix]; (split; [propers_of|]); vm_compute; lia.
  - intros [m|m|m|m] y; cbn [br_layout br_prefix br_value in_msg_k c_store]; intros W; (apply appends_bind; [apply appends_prefix; reflexivity|]); stores_of W.
  - eapply reads_equiv; [|cbn [in_msg_k c_load]; unfold load_in_msg; apply (reads_tag 3 _ (fun t => if t =? 0 then is_c InExternal two_refs_w else if t =? 3 then is_c InImmediate with_fee_w
      else if t =? 4 then is_c InFinal with_fee_w else if t =? 5 then is_c InTransit with_fee_w else no_c))].
    2: { intros t _. destruct (t =? 0); [apply (reads_map (c_load (derived in_msg_external)) InExternal); loads_of|]. destruct (t =? 3); [apply (reads_map (c_load (derived in_msg_final)) InImmediate); loads_of|].
         destruct (t =? 4); [apply (reads_map (c_load (derived in_msg_final)) InFinal); loads_of|]. destruct (t =? 5); [apply (reads_map (c_load (derived in_msg_transit)) InTransit); loads_of|apply reads_err]. }
    intros c x. split.
    + intros (t & y & T & -> & V). destruct (N.eqb_spec t 0) as [->|_]; [|destruct (N.eqb_spec t 3) as [->|_]; [|destruct (N.eqb_spec t 4) as [->|_]; [|destruct (N.eqb_spec t 5) as [->|_]; [|destruct V]]]];
        destruct V as (m & -> & V); exists y; (split; [reflexivity|exact V]).
    + intros (y & -> & V). destruct c as [m|m|m|m]; [exists 0, y|exists 3, y|exists 4, y|exists 5, y]; (split; [reflexivity|]); (split; [reflexivity|]); cbn [N.eqb Pos.eqb]; exists m; auto.
Qed.
Lemma lawful_out_msg : lawful out_msg_k out_msg_w.
Proof.
  apply lawful_cases.
  - intros [m|m|m|m|m]; cbn [br_layout br_prefix]; (split; [propers_of|]); vm_compute; lia.
  - intros [m|m|m|m|m] y; cbn [br_layout br_prefix br_value out_msg_k c_store]; intros W; (apply appends_bind; [apply appends_prefix; reflexivity|]); stores_of W.
  - eapply reads_equiv; [|cbn [out_msg_k c_load]; unfold load_out_msg; apply (reads_tag 3 _ (fun t => if t =? 0 then is_c OutExternal two_refs_w else if t =? 1 then is_c OutNew two_refs_w
      else if t =? 2 then is_c OutImmediate three_refs_w else if t =? 4 then is_c OutDequeueImmediate two_refs_w
      else if t =? 6 then (fun c x => exists f y, x = capp ([f], []) y /\ if f : bool then is_c OutDequeueShort out_msg_dequeue_short_w c y else no_c c y) else no_c))].
    2: { intros t _. destruct (t =? 0); [apply (reads_map (c_load (derived out_msg_external)) OutExternal); loads_of|]. destruct (t =? 1); [apply (reads_map (c_load (derived out_msg_new)) OutNew); loads_of|].
         destruct (t =? 2); [apply (reads_map (c_load (derived out_msg_immediate)) OutImmediate); loads_of|]. destruct (t =? 4); [apply (reads_map (c_load (derived out_msg_dequeue_immediate)) OutDequeueImmediate); loads_of|].
         destruct (t =? 6); [|apply reads_err]. apply reads_bit; [apply reads_err|]. apply (reads_map (c_load (derived out_msg_dequeue_short)) OutDequeueShort); loads_of. }
    intros c x. split.
    + intros (t & y & T & -> & V). destruct (N.eqb_spec t 0) as [->|_]; [|destruct (N.eqb_spec t 1) as [->|_]; [|destruct (N.eqb_spec t 2) as [->|_]; [|destruct (N.eqb_spec t 4) as [->|_]; [|destruct (N.eqb_spec t 6) as [->|_]; [|destruct V]]]]].
      1-4: destruct V as (m & -> & V); exists y; (split; [reflexivity|exact V]).
      destruct V as ([] & z & -> & V); [|destruct V]. destruct V as (m & -> & V). exists z. rewrite capp_assoc. split; [reflexivity|exact V].
    + intros (y & -> & V). destruct c as [m|m|m|m|m]; [exists 0, y|exists 1, y|exists 2, y|exists 4, y|exists 6, (capp (flag true) y); rewrite capp_assoc]; (split; [reflexivity|]); (split; [reflexivity|]); cbn [N.eqb Pos.eqb]; [exists m; auto ..|].
      exists true, y. split; [reflexivity|]. exists m. auto.
Qed.

(** ** Envelopes and the messages in them *)
Lemma from_cell_iff {A} (l : chunk -> res (A * chunk)) L c a : reads_layout l L -> (from_cell l c = Ok a <-> begins L c a).
Proof.
  intros H. unfold from_cell, begins, as_slice. destruct (c_exotic c) eqn:X; [split; [discriminate|intros [[=] _]]|]. cbn [rbind]. unfold s_chunk. cbn [s_bits s_refs]. split.
  - destruct (l (c_bits c, c_refs c)) as [[a' r]|] eqn:E; [|discriminate]. cbn [rbind]. intros [= <-]. apply H in E. destruct E as (x & X' & E). split; [reflexivity|]. exists x, r. auto.
  - intros (_ & x & r & X' & E). rewrite E, (reads_back _ _ _ _ r H X'). reflexivity.
Qed.
Lemma load_envelope_iff c e : load_envelope c = Ok e <-> begins (w_read envelope_w) c e.
Proof. apply from_cell_iff, (law_load _ _ lawful_envelope). Qed.
Lemma from_cell_info c m : from_cell load_info c = Ok m <-> begins (info_c loose_var_uint_bits) c m.
Proof. apply from_cell_iff, reads_info. Qed.
Lemma int_info_iff c i : int_info_of c = Ok i <-> begins (info_c loose_var_uint_bits) c (MInt i).
Proof.
  unfold int_info_of. rewrite <- from_cell_info. split.
  - destruct (from_cell load_info c) as [[]|]; cbn [rbind]; try discriminate. intros [= ->]. reflexivity.
  - intros ->. reflexivity.
Qed.
(** The message is the only reference of an envelope that is read. *)
Lemma hop_refs h x : w_read hop_w h x -> snd x = [].
Proof.
  intros (y & -> & Y). destruct h as [a|a|a]; cbn [br_layout br_value br_prefix] in Y; unfold capp; cbn [snd app].
  - destruct Y as (_ & p & q & -> & P & ->). destruct P. reflexivity.
  - destruct Y as (p & ? & -> & (_ & ->) & q & ? & -> & Q & ->). destruct Q. reflexivity.
  - destruct Y as (p & ? & -> & (_ & ->) & q & ? & -> & Q & ->). destruct Q. reflexivity.
Qed.
Lemma envelope_first_ref c e : begins (w_read envelope_w) c e -> envelope_ref c = Ok (env_message e).
Proof.
  intros (X & x & rest & (y & -> & R) & E). destruct e as (h1 & h2 & fee & m & []). unfold envelope_ref, as_slice. rewrite X. cbn [rbind]. unfold s_chunk. cbn [s_bits s_refs]. rewrite E.
  unfold envelope_w in R. cbn [seq_w w_read fst snd] in R. destruct R as (p & ? & -> & P & q & ? & -> & Q & r & ? & -> & T & s & ? & -> & S & ->).
  apply hop_refs in P. apply hop_refs in Q. destruct T as [v bits T]. destruct S as [_ S]. destruct S. unfold load_ref, capp. cbn [fst snd app]. rewrite P, Q. reflexivity.
Qed.

(** ** Tokens *)
Lemma tokens_max : vk_max Tokens = 2 ^ 120 - 1. Proof. reflexivity. Qed.
Lemma add_tokens_spec c t : add_tokens c t = if cc_tokens c + t <? 2 ^ 120 then Ok (Currency (cc_tokens c + t) (cc_other c)) else Err IntOverflow.
Proof.
  unfold add_tokens, vk_checked_add, upto, p_add. rewrite tokens_max. change (vk_width Tokens) with 128. assert (2 ^ 120 < 2 ^ 128) by reflexivity. assert (0 < 2 ^ 120) by reflexivity.
  destruct (N.ltb_spec (cc_tokens c + t) (2 ^ 128)), (N.ltb_spec (cc_tokens c + t) (2 ^ 120)); try lia;
    [destruct (N.leb_spec (cc_tokens c + t) (2 ^ 120 - 1)); [reflexivity|lia]|destruct (N.leb_spec (cc_tokens c + t) (2 ^ 120 - 1)); [lia|reflexivity]|reflexivity].
Qed.
Lemma carried_spec i fee : let total := cc_tokens (ii_value i) + ii_ihr_fee i + fee in
  carried i fee = if total <? 2 ^ 120 then Ok (Currency total (cc_other (ii_value i))) else Err IntOverflow.
Proof.
  cbv zeta. unfold carried. rewrite add_tokens_spec. destruct (N.ltb_spec (cc_tokens (ii_value i) + ii_ihr_fee i) (2 ^ 120)) as [L|L]; cbn [rbind].
  - rewrite add_tokens_spec. reflexivity.
  - destruct (N.ltb_spec (cc_tokens (ii_value i) + ii_ihr_fee i + fee) (2 ^ 120)); [lia|reflexivity].
Qed.
Lemma checked_sub_spec a b : a < 2 ^ 120 -> vk_checked_sub Tokens a b = if b <=? a then Some (a - b) else None.
Proof.
  intros A. unfold vk_checked_sub, upto, p_sub. rewrite tokens_max. destruct (N.leb_spec b a); [|reflexivity]. destruct (N.leb_spec (a - b) (2 ^ 120 - 1)); [reflexivity|lia].
Qed.
