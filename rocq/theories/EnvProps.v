(** * C60: envelopes, inbound and outbound messages: layouts, and no value is lost on the way *)
From Verif Require Import Err BitsProofs IntModel NumModel NumSpec AddrModel AddrSpec CurrencyModel CellModel ChunkModel ChunkSpec ChunkProofs TxModel MessageModel MessageSpec
  DeriveModel DeriveSpec StructsModel StructsSpec StructsProofs DeriveProps CasesSpec CasesProofs TxProofs EnvModel EnvSpec EnvProofs.
Local Open Scope N_scope.

(** ** Layouts *)
Theorem C60_layouts : lawful hop_k hop_w /\ lawful (derived msg_envelope) envelope_w /\ lawful in_msg_k in_msg_w /\ lawful out_msg_k out_msg_w.
Proof. split_and!; [apply lawful_hop|apply lawful_envelope|apply lawful_in_msg|apply lawful_out_msg]. Qed.
Print Assumptions C60_layouts.
(** Values in range are written, have room in a cell, and are read back, whatever follows. *)
Theorem C60_round_trip :
  (forall e, w_ok envelope_w e -> exists x, c_store (derived msg_envelope) e ([], []) = Ok x /\ forall rest, c_load (derived msg_envelope) (capp x rest) = Ok (e, rest)) /\
  (forall m, w_ok in_msg_w m -> exists x, c_store in_msg_k m ([], []) = Ok x /\ forall rest, c_load in_msg_k (capp x rest) = Ok (m, rest)) /\
  (forall m, w_ok out_msg_w m -> exists x, c_store out_msg_k m ([], []) = Ok x /\ forall rest, c_load out_msg_k (capp x rest) = Ok (m, rest)).
Proof.
  split_and!.
  - intros e O. destruct (C58_round_trip _ _ e lawful_envelope O) as (x & _ & S & L & _); [vm_compute; lia|vm_compute; lia|eauto].
  - intros e O. destruct (C58_round_trip _ _ e lawful_in_msg O) as (x & _ & S & L & _); [vm_compute; lia|vm_compute; lia|eauto].
  - intros e O. destruct (C58_round_trip _ _ e lawful_out_msg O) as (x & _ & S & L & _); [vm_compute; lia|vm_compute; lia|eauto].
Qed.
Print Assumptions C60_round_trip.
(** Only the known cases are read. *)
Theorem C60_tags b rest :
  (forall m, c_load in_msg_k b = Ok (m, rest) -> In (take 3 (fst b)) [[false; false; false]; [false; true; true]; [true; false; false]; [true; false; true]]) /\
  (forall m, c_load out_msg_k b = Ok (m, rest) -> In (take 3 (fst b)) [[false; false; false]; [false; false; true]; [false; true; false]; [true; false; false]] \/ take 4 (fst b) = [true; true; false; true]).
Proof.
  split; intros m H.
  - apply (law_load _ _ lawful_in_msg) in H. destruct H as (x & (y & -> & _) & ->). destruct m; cbn; auto.
  - apply (law_load _ _ lawful_out_msg) in H. destruct H as (x & (y & -> & _) & ->). destruct m; cbn; auto 10.
Qed.
Print Assumptions C60_tags.

(** ** Next-hop addresses: of the 96 bits, those that are not of the destination are of the
    source *)
Theorem C60_hop n a :
  (with_dest_bits n = Some a <-> n <= 96 /\ use_dest_bits a = n) /\
  (with_src_bits n = Some a <-> n <= 96 /\ use_src_bits a = Ok n) /\
  (w_ok intermediate_regular_w a -> exists s, use_src_bits a = Ok s /\ use_dest_bits a + s = 96).
Proof.
  destruct a as [d []]. unfold with_dest_bits, with_src_bits, use_dest_bits, use_src_bits. cbn [fst]. split_and!.
  - destruct (N.leb_spec n 96); split; [intros [= ->]; auto|intros [_ ->]; reflexivity|discriminate|lia].
  - destruct (N.leb_spec n 96), (N.leb_spec d 96); split; try discriminate; try (intros [= <-]; lia); try lia.
    + intros [= <-]. split; [assumption|]. f_equal. lia.
    + intros [_ [= <-]]. do 2 f_equal. lia.
    + intros [_ [=]].
  - intros [_ L]. cbn in L. destruct (N.leb_spec d 96); [|lia]. eexists. split; [reflexivity|lia].
Qed.
Print Assumptions C60_hop.

(** ** Collecting a fee: exactly as much as there is, or nothing *)
Theorem C60_collect e fee ok e' : env_fee e < 2 ^ 120 -> collect_fee e fee = (ok, e') ->
  (ok = true <-> fee <= env_fee e) /\
  env_fee e = env_fee e' + (if ok then fee else 0) /\
  (env_cur e', env_next e', env_message e') = (env_cur e, env_next e, env_message e).
Proof.
  intros L. unfold collect_fee. rewrite checked_sub_spec by exact L. destruct (N.leb_spec fee (env_fee e)); intros [= <- <-]; split_and!; try reflexivity; try (split; [lia|auto]); try (split; [discriminate|lia]); cbn; lia.
Qed.
Print Assumptions C60_collect.

(** ** The message in an envelope: it does not matter whether the envelope is read or its
    reference is followed *)
Theorem C60_message c e : load_envelope c = Ok e -> info_by_ref c = load_message_info e.
Proof. intros H. apply load_envelope_iff in H. unfold info_by_ref. rewrite (envelope_first_ref c e H). reflexivity. Qed.
Print Assumptions C60_message.
Theorem C60_created_lt lt c e : load_envelope c = Ok e ->
  (forall i, begins (info_c loose_var_uint_bits) (env_message e) (MInt i) -> load_created_lt (lt, (c, tt)) = Ok (ii_lt i)) /\
  (forall i, begins (info_c loose_var_uint_bits) (env_message e) (MExtOut i) -> load_created_lt (lt, (c, tt)) = Ok (eo_lt i)) /\
  (forall i, begins (info_c loose_var_uint_bits) (env_message e) (MExtIn i) -> load_created_lt (lt, (c, tt)) = Err InvalidData).
Proof.
  intros H. apply load_envelope_iff in H. unfold load_created_lt. cbn [fst snd]. rewrite (envelope_first_ref c e H). cbn [rbind].
  split_and!; intros i I; apply from_cell_info in I; rewrite I; reflexivity.
Qed.
Print Assumptions C60_created_lt.

(** ** Value *)
(** A new message exports its value and the fees that are not paid yet, other outbound messages
    nothing. *)
Theorem C60_exported c tx v : compute_exported_value (OutNew (c, tx)) = Ok v <->
  exists e i, carries c e i /\ tokens_carried e i < 2 ^ 120 /\ v = Currency (tokens_carried e i) (cc_other (ii_value i)).
Proof.
  unfold compute_exported_value, carries, tokens_carried. cbn [fst]. split.
  - destruct (load_envelope c) as [e|] eqn:E; [|discriminate]. cbn [rbind]. destruct (load_message_info e) as [i|] eqn:I; [|discriminate]. cbn [rbind]. rewrite carried_spec.
    apply load_envelope_iff in E. apply int_info_iff in I. destruct (N.ltb_spec (cc_tokens (ii_value i) + ii_ihr_fee i + env_fee e) (2 ^ 120)) as [L|]; [|discriminate]. intros [= <-]. exists e, i. auto.
  - intros (e & i & (E & I) & L & ->). apply load_envelope_iff in E. apply int_info_iff in I. rewrite E. cbn [rbind]. unfold load_message_info. rewrite I. cbn [rbind]. rewrite carried_spec.
    apply N.ltb_lt in L. rewrite L. reflexivity.
Qed.
Print Assumptions C60_exported.
Theorem C60_exports_nothing m : (forall n, m <> OutNew n) -> compute_exported_value m = Ok (Currency 0 None).
Proof. intros H. destruct m; try reflexivity. exfalso. eapply H. reflexivity. Qed.
Print Assumptions C60_exports_nothing.
(** Too much value is an error, not a smaller one. *)
Theorem C60_overflow c tx e i : carries c e i -> 2 ^ 120 <= tokens_carried e i -> compute_exported_value (OutNew (c, tx)) = Err IntOverflow.
Proof.
  intros (E & I) L. apply load_envelope_iff in E. apply int_info_iff in I. unfold compute_exported_value. cbn [fst]. rewrite E. cbn [rbind]. unfold load_message_info. rewrite I. cbn [rbind]. rewrite carried_spec.
  unfold tokens_carried in L. apply N.ltb_ge in L. rewrite L. reflexivity.
Qed.
Print Assumptions C60_overflow.
(** A message that arrives brings the same; the fees that are left are collected, and must be
    those that the inbound message names. *)
Theorem C60_final c tx fee r : compute_fees (InFinal (c, (tx, (fee, tt)))) = Ok r <->
  exists e i, carries c e i /\ fee = env_fee e /\ tokens_carried e i < 2 ^ 120 /\ r = Import fee (Currency (tokens_carried e i) (cc_other (ii_value i))).
Proof.
  unfold compute_fees, carries, tokens_carried. cbn [fst snd]. split.
  - destruct (load_envelope c) as [e|] eqn:E; [|discriminate]. cbn [rbind]. destruct (N.eqb_spec fee (env_fee e)) as [->|]; [|discriminate]. cbn [negb]. destruct (load_message_info e) as [i|] eqn:I; [|discriminate]. cbn [rbind]. rewrite carried_spec.
    apply load_envelope_iff in E. apply int_info_iff in I. destruct (N.ltb_spec (cc_tokens (ii_value i) + ii_ihr_fee i + env_fee e) (2 ^ 120)) as [L|]; [|discriminate]. cbn [rbind]. intros [= <-]. exists e, i. auto.
  - intros (e & i & (E & I) & -> & L & ->). apply load_envelope_iff in E. apply int_info_iff in I. rewrite E. cbn [rbind]. rewrite N.eqb_refl. cbn [negb]. unfold load_message_info. rewrite I. cbn [rbind]. rewrite carried_spec.
    apply N.ltb_lt in L. rewrite L. reflexivity.
Qed.
Print Assumptions C60_final.
(** A message in transit brings the same and leaves its transit fee. *)
Theorem C60_transit c out fee r : compute_fees (InTransit (c, (out, (fee, tt)))) = Ok r <->
  exists e i, carries c e i /\ fee <= env_fee e /\ tokens_carried e i < 2 ^ 120 /\ r = Import fee (Currency (tokens_carried e i) (cc_other (ii_value i))).
Proof.
  unfold compute_fees, carries, tokens_carried. cbn [fst snd]. split.
  - destruct (load_envelope c) as [e|] eqn:E; [|discriminate]. cbn [rbind]. destruct (N.ltb_spec (env_fee e) fee) as [|F]; [discriminate|]. destruct (load_message_info e) as [i|] eqn:I; [|discriminate]. cbn [rbind]. rewrite carried_spec.
    apply load_envelope_iff in E. apply int_info_iff in I. destruct (N.ltb_spec (cc_tokens (ii_value i) + ii_ihr_fee i + env_fee e) (2 ^ 120)) as [L|]; [|discriminate]. cbn [rbind]. intros [= <-]. exists e, i. auto.
  - intros (e & i & (E & I) & F & L & ->). apply load_envelope_iff in E. apply int_info_iff in I. rewrite E. cbn [rbind]. apply N.ltb_ge in F. rewrite F. unfold load_message_info. rewrite I. cbn [rbind]. rewrite carried_spec.
    apply N.ltb_lt in L. rewrite L. reflexivity.
Qed.
Print Assumptions C60_transit.
(** A message that is processed in its block brings nothing from outside; its forward fee is
    collected.  External messages bring nothing. *)
Theorem C60_immediate :
  (forall c rest e i, carries c e i -> compute_fees (InImmediate (c, rest)) = Ok (Import (ii_fwd_fee i) (Currency 0 None))) /\
  (forall m, compute_fees (InExternal m) = Ok (Import 0 (Currency 0 None))).
Proof.
  split; [|reflexivity]. intros c rest e i (E & I). unfold compute_fees, info_by_ref. cbn [fst]. rewrite (envelope_first_ref c e E). cbn [rbind]. apply int_info_iff in I. rewrite I. reflexivity.
Qed.
Print Assumptions C60_immediate.

(** ** Conservation on routes of any length *)
(** [route c fees d]: the message in the envelope [c] has been repacked, with the fees collected
    hop by hop, and has come to be in the envelope [d]; the addresses may have changed. *)
Inductive route : cell -> list N -> cell -> Prop :=
| route_here c : route c [] c
| route_hop c e fee e' d f fees last : begins (w_read envelope_w) c e -> collect_fee e fee = (true, e') ->
    begins (w_read envelope_w) d f -> env_message f = env_message e' -> env_fee f = env_fee e' -> route d fees last -> route c (fee :: fees) last.
Definition sum (l : list N) : N := fold_right N.add 0 l.
Lemma read_fee c e : begins (w_read envelope_w) c e -> env_fee e < 2 ^ 120.
Proof.
  intros (_ & x & rest & (y & -> & R) & _). destruct e as (h1 & h2 & fee & m & []). unfold envelope_w in R. cbn [seq_w w_read fst snd] in R.
  destruct R as (p & ? & -> & P & q & ? & -> & Q & r & ? & -> & T & _). cbn. destruct T as [v bits (n & N & E)]. change (2 ^ 120) with (256 ^ 15).
  destruct E as (E & _). apply (N.lt_le_trans _ (256 ^ n)); [exact N|]. apply N.pow_le_mono_r; [discriminate|]. change (2 ^ N.of_nat 4) with 16 in E. lia.
Qed.
(** What a new message exports is what arrives at the end of its route and the fees that were
    collected on it: nothing is lost and nothing is created. *)
Theorem C60_conservation c fees d tx v tx' fee r : route c fees d ->
  compute_exported_value (OutNew (c, tx)) = Ok v -> compute_fees (InFinal (d, (tx', (fee, tt)))) = Ok r ->
  cc_tokens v = cc_tokens (im_value r) + sum fees /\ cc_other v = cc_other (im_value r) /\ im_fees r = fee.
Proof.
  intros H. revert v. induction H as [c|c e f e' d g fees last B C B' M F R IH]; intros v E Q.
  - apply C60_exported in E. apply C60_final in Q. destruct E as (e & i & (Be & Bi) & _ & ->), Q as (e2 & i2 & (Be2 & Bi2) & -> & _ & ->).
    apply load_envelope_iff in Be, Be2. rewrite Be in Be2. injection Be2 as <-. apply int_info_iff in Bi, Bi2. rewrite Bi in Bi2. injection Bi2 as <-. cbn. split_and!; [lia|reflexivity|reflexivity].
  - apply C60_exported in E. destruct E as (e2 & i & (Be & Bi) & L & ->). pose proof (read_fee c e B) as Lf. apply load_envelope_iff in Be. pose proof B as B2. apply load_envelope_iff in B2. rewrite B2 in Be. injection Be as <-.
    destruct (C60_collect e f true e' Lf C) as (_ & Fe & Me). injection Me as _ _ Me.
    assert (Ex : compute_exported_value (OutNew (d, tx)) = Ok (Currency (tokens_carried g i) (cc_other (ii_value i)))).
    { apply C60_exported. exists g, i. split; [split; [exact B'|rewrite M, Me; exact Bi]|]. split; [|reflexivity]. unfold tokens_carried in *. rewrite F. lia. }
    destruct (IH _ Ex Q) as (T & O & I). cbn [cc_tokens cc_other] in *. split_and!; [|exact O|exact I].
    cbn [sum fold_right]. fold (sum fees). rewrite (N.add_comm f), N.add_assoc, <- T. unfold tokens_carried in *. rewrite F. lia.
Qed.
Print Assumptions C60_conservation.
(** And it arrives: no hop of a route fails, and each collects its fee. *)
Theorem C60_arrives c fees d tx v tx' : route c fees d -> compute_exported_value (OutNew (c, tx)) = Ok v ->
  exists fee r, compute_fees (InFinal (d, (tx', (fee, tt)))) = Ok r.
Proof.
  intros H. revert v. induction H as [c|c e f e' d g fees last B C B' M F R IH]; intros v E.
  - apply C60_exported in E. destruct E as (e & i & Ca & L & ->). exists (env_fee e). eexists. apply C60_final. exists e, i. auto.
  - apply C60_exported in E. destruct E as (e2 & i & (Be & Bi) & L & ->). pose proof (read_fee c e B) as Lf. apply load_envelope_iff in Be. pose proof B as B2. apply load_envelope_iff in B2. rewrite B2 in Be. injection Be as <-.
    destruct (C60_collect e f true e' Lf C) as (_ & Fe & Me). injection Me as _ _ Me.
    apply (IH (Currency (tokens_carried g i) (cc_other (ii_value i)))). apply C60_exported. exists g, i. split; [split; [exact B'|rewrite M, Me; exact Bi]|]. split; [|reflexivity]. unfold tokens_carried in *. rewrite F. lia.
Qed.
Print Assumptions C60_arrives.
Theorem C60_hop_fees c e fee e' out i : carries c e i -> collect_fee e fee = (true, e') -> tokens_carried e i < 2 ^ 120 ->
  exists r, compute_fees (InTransit (c, (out, (fee, tt)))) = Ok r /\ im_fees r = fee /\ cc_tokens (im_value r) = tokens_carried e' i + fee.
Proof.
  intros Ca C L. destruct (C60_collect e fee true e' (read_fee c e (proj1 Ca)) C) as ((Y & _) & Fe & Me). eexists. split; [apply C60_transit; exists e, i; split_and!; [exact Ca|auto|exact L|reflexivity]|].
  split; [reflexivity|]. cbn. unfold tokens_carried. lia.
Qed.
Print Assumptions C60_hop_fees.

(** ** Envelopes are not read where only the message is needed *)
(** The fees of an immediate message, and the time of an enqueued one, are computed also for cells
    that are no envelopes: only their first reference is looked at. *)
Definition wallet : AddrModel.int_addr := IStd (StdAddr None 0 (repeat 0x77 32)).
Definition some_info : int_info AddrModel.int_addr := IntInfo true true false wallet wallet (Currency 1000 None) 7 300 5 6.
Definition some_message : cell := match store_info (MInt some_info) ([], []) with Ok (b, r) => Cell false b r | Err _ => Cell false [] [] end.
Lemma some_message_ok : begins (info_c loose_var_uint_bits) some_message (MInt some_info).
Proof. apply int_info_iff. vm_compute. reflexivity. Qed.
Theorem C60_not_an_envelope : let c := Cell false [] [some_message] in
  (forall e, load_envelope c <> Ok e) /\ compute_fees (InImmediate (c, (c, (0, tt)))) = Ok (Import 300 (Currency 0 None)) /\ load_created_lt (9, (c, tt)) = Ok 5.
Proof. intros c. split_and!; [intros e; vm_compute; discriminate|vm_compute; reflexivity|vm_compute; reflexivity]. Qed.
Print Assumptions C60_not_an_envelope.

(** A message with 1000 tokens and 7 and 300 of fees goes over two hops, which collect 100 and 50. *)
Definition packed (a : hop) (fee : N) : envelope := (a, (Regular (96, tt), (fee, (some_message, tt)))).
Definition pack (e : envelope) : cell := match c_store (derived msg_envelope) e ([], []) with Ok (b, r) => Cell false b r | Err _ => Cell false [] [] end.
Example C60_case :
  let c := pack (packed (Regular (0, tt)) 300) in let d := pack (packed (Simple ((-1)%Z, (2 ^ 63, tt))) 200) in let f := pack (packed (Far ((2 ^ 20)%Z, (2 ^ 63, tt))) 150) in
  carries c (packed (Regular (0, tt)) 300) some_info /\ route c [100; 50] f /\
  compute_exported_value (OutNew (c, (c, tt))) = Ok (Currency 1307 None) /\ compute_fees (InTransit (c, (d, (100, tt)))) = Ok (Import 100 (Currency 1307 None)) /\
  compute_fees (InFinal (f, (c, (150, tt)))) = Ok (Import 150 (Currency 1157 None)) /\ compute_fees (InFinal (f, (c, (151, tt)))) = Err InvalidData /\
  compute_fees (InTransit (f, (c, (151, tt)))) = Err InvalidData.
Proof.
  intros c d f.
  assert (C : begins (w_read envelope_w) c (packed (Regular (0, tt)) 300)) by (apply load_envelope_iff; vm_compute; reflexivity).
  assert (D : begins (w_read envelope_w) d (packed (Simple ((-1)%Z, (2 ^ 63, tt))) 200)) by (apply load_envelope_iff; vm_compute; reflexivity).
  assert (F : begins (w_read envelope_w) f (packed (Far ((2 ^ 20)%Z, (2 ^ 63, tt))) 150)) by (apply load_envelope_iff; vm_compute; reflexivity).
  split; [split; [exact C|exact some_message_ok]|]. split.
  - apply (route_hop c (packed (Regular (0, tt)) 300) 100 (packed (Regular (0, tt)) 200) d (packed (Simple ((-1)%Z, (2 ^ 63, tt))) 200)); [exact C|reflexivity|exact D|reflexivity|reflexivity|].
    apply (route_hop d (packed (Simple ((-1)%Z, (2 ^ 63, tt))) 200) 50 (packed (Simple ((-1)%Z, (2 ^ 63, tt))) 150) f (packed (Far ((2 ^ 20)%Z, (2 ^ 63, tt))) 150)); [exact D|reflexivity|exact F|reflexivity|reflexivity|apply route_here].
  - split_and!; vm_compute; reflexivity.
Qed.
