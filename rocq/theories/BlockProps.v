(** * C65: blocks, their headers, value flows and proofs, and the states of shards *)
From Verif Require Import Err BitsProofs IntModel NumModel NumSpec CellModel DictModel ChunkModel LazyModel ShardModel ShardSpec ShardProofs CurrencyModel CurrencySpec ChunkSpec ChunkProofs
  DeriveModel DeriveSpec StructsModel StructsSpec StructsProofs DeriveProps CasesSpec CasesProofs TxModel TxProofs ParamsSpec ParamsProofs BlockModel BlockSpec BlockProofs BlockProofs2 BlockProofs3.
Local Open Scope N_scope.

(** ** Layouts: what is written follows the schemes, and exactly what follows them is read.
    [fin] is the outcome of finalising a cell. *)
Theorem C65_layouts fin :
  lawful block_info_k block_info_w /\ lawful (block_k fin) (block_w fin) /\ lawful block_extra_k block_extra_w /\ lawful (mc_extra_k fin) (mc_extra_w fin) /\
  lawful (block_proof_k fin) (block_proof_w fin) /\ lawful (unsplit_k fin) (unsplit_w fin) /\ lawful (shard_state_k fin) (shard_state_w fin) /\ lawful (mc_state_k fin) (mc_state_w fin).
Proof.
  split_and!; [apply lawful_block_info|apply lawful_block|apply lawful_block_extra|apply lawful_mc_extra|apply lawful_block_proof|apply lawful_unsplit|apply lawful_shard_state|apply lawful_mc_state].
Qed.
Print Assumptions C65_layouts.
Lemma written s x : appends s x -> (length (fst x) <= 1023)%nat -> (length (snd x) <= 4)%nat -> s ([], []) = Ok x.
Proof.
  intros H B R. rewrite (H ([], [])) by (split; cbn; lia). cbn [fst snd length Nat.add]. rewrite (proj2 (Nat.ltb_ge 1023 _) B), (proj2 (Nat.ltb_ge 4 _) R). destruct x; reflexivity.
Qed.
Definition comes_back {A} (c : codec A) (a : A) : Prop := exists x, c_store c a ([], []) = Ok x /\ forall rest, c_load c (capp x rest) = Ok (a, rest).
Theorem C65_round_trip fin :
  (forall a, w_ok block_info_w a -> comes_back block_info_k a) /\ (forall a, w_ok (block_w fin) a -> comes_back (block_k fin) a) /\ (forall a, w_ok block_extra_w a -> comes_back block_extra_k a) /\
  (forall a, w_ok (block_proof_w fin) a -> comes_back (block_proof_k fin) a) /\ (forall a, w_ok (shard_state_w fin) a -> comes_back (shard_state_k fin) a) /\ (forall a, w_ok (mc_state_w fin) a -> comes_back (mc_state_k fin) a).
Proof.
  destruct (C65_layouts fin) as (L1 & L2 & L3 & _ & L5 & _ & L7 & L8).
  split_and!; intros a O; [destruct (C58_round_trip _ _ a L1 O) as (x & _ & S & L & _)|destruct (C58_round_trip _ _ a L2 O) as (x & _ & S & L & _)|destruct (C58_round_trip _ _ a L3 O) as (x & _ & S & L & _)
    |destruct (C58_round_trip _ _ a L5 O) as (x & _ & S & L & _)|destruct (C58_round_trip _ _ a L7 O) as (x & _ & S & L & _)|destruct (C58_round_trip _ _ a L8 O) as (x & _ & S & L & _)];
    first [exists x; solve [auto] | apply Nat.leb_le; reflexivity].
Qed.
Print Assumptions C65_round_trip.
(** The extra of a masterchain block may need up to six references: one with more than four is
    never written, any other comes back. *)
Definition count {A} (o : option A) : nat := match o with Some _ => 1%nat | None => 0%nat end.
Definition mc_refs (a : mc_extra) : nat :=
  let '(d, ((p, (q, _)), _)) := mc_fees a in (count (mc_shards a) + count d + count (cc_other p) + count (cc_other q) + 1 + count (mc_config a))%nat.
Theorem C65_mc_extra fin a : w_ok (mc_extra_w fin) a -> if (mc_refs a <=? 4)%nat then comes_back (mc_extra_k fin) a else forall b, builder_ok b -> store_mc_extra fin a b = Err CellOverflow.
Proof.
  intros O. destruct (law_ok _ _ (lawful_mc_extra fin) a O) as (x & W). pose proof (law_store _ _ (lawful_mc_extra fin) a x W) as S. pose proof (law_bits _ _ (lawful_mc_extra fin) _ _ W) as B.
  assert (B' : (length (fst x) <= 1023)%nat) by (etransitivity; [exact B|apply Nat.leb_le; reflexivity]). clear B.
  assert (R : length (snd x) = mc_refs a).
  { clear -W. destruct a as [sh (d & (p & q & []) & []) si re mi co]. destruct W as (y & -> & u & v & -> & F & G). cbn [fst snd mc_shards mc_fees mc_signatures mc_recover mc_mint mc_config] in *. unpack2 F. subst. unfold shard_fees_w, shard_fee_created_w in G. unpack2 G. subst.
    match goal with H : w_write w[dict_w, w[currency_w, currency_w]] _ _ |- _ => unpack2 H; subst end. match goal with H : w_write w[currency_w, currency_w] _ _ |- _ => unpack2 H; subst end.
    assert (D : forall d x, w_write dict_w d x -> length (snd x) = match d with Some _ => 1%nat | None => 0%nat end) by (intros ? ? []; [reflexivity|match goal with H : cell_c _ _ |- _ => destruct H end; reflexivity]).
    assert (C : forall c x, w_write currency_w c x -> length (snd x) = match cc_other c with Some _ => 1%nat | None => 0%nat end).
    { intros ? ? [t0 d0 x7 y7 T Dc]. cbn [capp snd cc_other]. rewrite app_length, (D _ _ Dc). destruct T; destruct d0; reflexivity. }
    repeat match goal with H : w_write dict_w _ _ |- _ => apply D in H | H : w_write currency_w _ _ |- _ => apply C in H | H : w_write bool_w _ _ |- _ => apply bool_written in H; subst | H : w_write (in_cell_w _ _) _ _ |- _ => destruct H as (? & -> & _) end.
    match goal with H : w_write (when_w _ _) _ _ |- _ => cbn [when_w w_write] in H end. unfold mc_refs, count. cbn [mc_shards mc_fees mc_config capp snd app]. rewrite !app_nil_r, !app_length. cbn [length].
    destruct co as [co|]; [match goal with H : _ /\ w_write config_w _ _ |- _ => destruct H as [_ H]; unfold config_w in H; destruct co as (? & ? & []); unpack2 H end|match goal with H : _ /\ _ = _ |- _ => destruct H as [_ ->] end]; subst.
    - match goal with H : w_write hash_w _ _ |- _ => destruct H end. match goal with H : w_write nonempty_w _ _ |- _ => destruct H as (? & -> & ->) end. cbn [capp snd app length]. lia.
    - cbn [snd length]. lia. }
  rewrite <- R. destruct (Nat.leb_spec (length (snd x)) 4) as [L|L].
  - exists x. split; [apply written; [exact S|lia|lia]|]. intros rest. exact (reads_back _ _ _ _ _ (law_load _ _ (lawful_mc_extra fin)) (law_same _ _ (lawful_mc_extra fin) _ _ W)).
  - intros b Hb. pose proof (S b Hb) as E. cbn [mc_extra_k c_store] in E. rewrite E. destruct (4 <? length (snd b) + length (snd x))%nat eqn:E4; [rewrite orb_true_r; reflexivity|apply Nat.ltb_ge in E4; lia].
Qed.
Print Assumptions C65_mc_extra.

(** ** Block headers *)
(** Every header is written; it is read exactly if the block has a number other than zero and does
    not lie on a block of a vertical chain at height zero.  The version of the software comes back
    only if its flag is set. *)
Definition with_version (i : block_info) (v : version) : block_info :=
  BlockInfo (in_version i) (in_after_merge i) (in_before_split i) (in_after_split i) (in_want_split i) (in_want_merge i) (in_key_block i) (in_flags i) (in_seqno i) (in_vert_seqno i) (in_shard i) (in_utime i) (in_start_lt i) (in_end_lt i)
    (in_vlist i) (in_catchain i) (in_min_ref i) (in_prev_key i) v (in_master_ref i) (in_prev_ref i) (in_prev_vert_ref i).
Theorem C65_header i : w_ok block_info_any_w i -> exists x, store_block_info i ([], []) = Ok x /\ forall rest j r, load_block_info (capp x rest) = Ok (j, r) <->
  in_seqno i <> 0 /\ (in_prev_vert_ref i <> None -> in_vert_seqno i <> 0) /\ j = (if with_software i then i else with_version i no_version) /\ r = rest.
Proof.
  intros O. destruct (pr_ok _ proper_info_any i O) as (x & W). exists x. split.
  - apply written; [exact (store_info_ok i x W)| |]; [pose proof (pr_bits _ proper_info_any _ _ W) as B|pose proof (pr_refs _ proper_info_any _ _ W) as B]; (etransitivity; [exact B|]); apply Nat.leb_le; reflexivity.
  - intros rest j r. rewrite (okp_ok _ _ _ (load_info_eq _)). pose proof (pr_same _ proper_info_any _ _ W) as R. cbn [block_info_any_w as_w w_read] in R. fold info_tail_of in R.
    rewrite (reads_back _ _ _ _ rest reads_info_k R). cbn [rbind].
    assert (E : info_of (info_head i, info_tail i) = if with_software i then i else with_version i no_version) by (destruct i; unfold info_of, info_head, info_tail, info_flags, with_version; destruct (with_software _); reflexivity). rewrite E. clear E.
    assert (E : info_ok (if with_software i then i else with_version i no_version) = true <-> in_seqno i <> 0 /\ (in_prev_vert_ref i <> None -> in_vert_seqno i <> 0)).
    { replace (info_ok (if with_software i then i else with_version i no_version)) with (info_ok i) by (destruct (with_software i); reflexivity). unfold info_ok. rewrite andb_true_iff, !negb_true_iff, N.eqb_neq, N.ltb_ge. split; (intros [S V]; split; [exact S|]).
      - intros H. destruct (in_prev_vert_ref i); [cbn in V; lia|contradiction].
      - destruct (in_prev_vert_ref i); cbn; [|lia]. assert (in_vert_seqno i <> 0) by (apply V; discriminate). lia. }
    destruct (info_ok _).
    + destruct (proj1 E eq_refl) as [S V]. split; [intros [= <- <-]; auto|intros (_ & _ & -> & ->); reflexivity].
    + split; [discriminate|]. intros (S & V & _). discriminate (proj2 E (conj S V)).
Qed.
Print Assumptions C65_header.
(** Setting the version sets or clears its flag and leaves the other flags and fields. *)
Theorem C65_set_version i v : in_flags i < 256 ->
  let j := set_gen_software i v in
  with_software j = some v /\ in_software j = (match v with Some v => v | None => no_version end) /\ in_flags j / 2 = in_flags i / 2 /\ in_flags j < 256 /\
  (forall w, with_version (with_version j w) w = with_version j w) /\ info_head j = (let '(a, (f, t)) := info_head i in (a, (info_flags j, t))) /\ snd (info_tail j) = snd (info_tail i).
Proof.
  intros F j. subst j. destruct i as [a b c d e f g fl h j k l m n o p q r s t u w]. cbn [in_flags] in F.
  assert (B : (forall x, x < 256 -> N.odd (N.lor x 1) = true /\ N.lor x 1 / 2 = x / 2 /\ N.lor x 1 < 256 /\ N.odd (N.land x 254) = false /\ N.land x 254 / 2 = x / 2 /\ N.land x 254 < 256)).
  { clear. intros x Hx. assert (A : forallb (fun x => N.odd (N.lor x 1) && (N.lor x 1 / 2 =? x / 2) && (N.lor x 1 <? 256) && negb (N.odd (N.land x 254)) && (N.land x 254 / 2 =? x / 2) && (N.land x 254 <? 256)) (map N.of_nat (List.seq 0 256)) = true) by reflexivity.
    rewrite forallb_forall in A. assert (I : List.In x (map N.of_nat (List.seq 0 256))) by (apply in_map_iff; exists (N.to_nat x); rewrite N2Nat.id, in_seq; split; [reflexivity|lia]).
    specialize (A x I). rewrite !andb_true_iff, negb_true_iff, !N.eqb_eq, !N.ltb_lt in A. tauto. }
  destruct (B fl F) as (B1 & B2 & B3 & B4 & B5 & B6). destruct v as [v|]; unfold set_gen_software, with_software, with_version, info_head, info_tail; cbn; split_and!; auto.
Qed.
Print Assumptions C65_set_version.

(** ** The previous blocks of a header *)
Definition is_merge (p : prev_ref) : bool := match p with Single _ => false | AfterMerge _ _ => true end.
Definition prev_ok (p : prev_ref) : Prop := match p with Single r => w_ok block_ref_w r | AfterMerge l r => w_ok block_ref_w l /\ w_ok block_ref_w r end.
Definition all_cells (fin : list bool -> list cell -> res unit) : Prop := forall b r, (length b <= 1023)%nat -> (length r <= 4)%nat -> fin b r = Ok tt.
(** They come back if they are one or two as the header says; otherwise reading them fails. *)
Theorem C65_previous fin i p : all_cells fin -> prev_ok p -> exists j, set_prev_ref fin i p = Ok j /\
  load_prev_ref j = (if Bool.eqb (in_after_merge i) (is_merge p) then Ok p else Err CellUnderflow) /\ (exists c, j = with_prev i c) /\ in_after_merge j = in_after_merge i.
Proof.
  intros Hfin O.
  assert (C : forall r, w_ok block_ref_w r -> exists x, w_write block_ref_w r x /\ in_cell fin (c_store (derived block_ref) r) = Ok (Cell false (fst x) (snd x)) /\ fst x <> [] /\ snd x = [] /\ c_load (derived block_ref) x = Ok (r, ([], []))).
  { intros r Or. destruct (law_ok _ _ lawful_bref r Or) as (x & W). exists x. pose proof (law_bits _ _ lawful_bref _ _ W) as B. pose proof (law_refs _ _ lawful_bref _ _ W) as R. cbn in B, R. split; [exact W|]. split.
    - apply in_cell_ok; [exact (law_store _ _ lawful_bref r x W)|lia|lia|apply Hfin; lia].
    - split; [|split].
      + intros E. clear -W E. destruct r as (a & b & c & d & []). destruct W as (p & q & -> & P & _). inversion P; subst. cbn in E. discriminate.
      + destruct x as [xb [|? ?]]; [reflexivity|cbn in R; lia].
      + rewrite <- (capp_nil x) at 1. exact (reads_back _ _ _ _ _ (law_load _ _ lawful_bref) (law_same _ _ lawful_bref _ _ W)). }
  destruct p as [r|l r]; cbn [prev_ok is_merge] in *.
  - destruct (C r O) as (x & W & E & N1 & N2 & L). unfold set_prev_ref. change (in_cell fin (store_prev_ref fin (Single r))) with (in_cell fin (c_store (derived block_ref) r)). rewrite E. cbn [unwrap rbind]. eexists. split; [reflexivity|]. split; [|split; [eexists; reflexivity|destruct i; reflexivity]].
    destruct i as [a b c d e f g fl h j k l m n o p q r' s t u w]. unfold load_prev_ref, load_prev_cell. cbn [with_prev in_prev_ref in_after_merge]. destruct x as [xb xr]. cbn [fst snd] in *. subst xr. cbn [as_slice c_exotic]. destruct b; cbn [Bool.eqb].
    + reflexivity.
    + change (c_load (derived block_ref) (s_chunk (Sl (Cell false xb []) xb []))) with (c_load (derived block_ref) (xb, [])). cbn [rbind as_slice c_exotic]. change (s_chunk _) with (xb, @nil cell). rewrite L. reflexivity.
  - destruct O as [Ol Or]. destruct (C l Ol) as (x & W & E & N1 & N2 & L). destruct (C r Or) as (y & W' & E' & N1' & N2' & L').
    assert (S : in_cell fin (store_prev_ref fin (AfterMerge l r)) = Ok (Cell false [] [Cell false (fst x) (snd x); Cell false (fst y) (snd y)])).
    { apply (in_cell_ok fin _ ([], [Cell false (fst x) (snd x); Cell false (fst y) (snd y)])); [|cbn; lia|cbn; lia|apply Hfin; cbn; lia]. apply (appends_ext (fun b => let? b := store_ref (Cell false (fst x) (snd x)) b in store_ref (Cell false (fst y) (snd y)) b)).
      { intros b _. unfold store_prev_ref. rewrite E. cbn [rbind]. destruct (store_ref _ b); [|reflexivity]. cbn [rbind]. rewrite E'. reflexivity. }
      change ([], [Cell false (fst x) (snd x); Cell false (fst y) (snd y)]) with (capp ([], [Cell false (fst x) (snd x)]) ([], [Cell false (fst y) (snd y)])). apply appends_bind; apply appends_ref. }
    unfold set_prev_ref. rewrite S. cbn [unwrap rbind]. eexists. split; [reflexivity|]. split; [|split; [eexists; reflexivity|destruct i; reflexivity]].
    destruct i as [a b c d e f g fl h j k l' m n o p q r' s t u w]. unfold load_prev_ref, load_prev_cell. cbn [with_prev in_prev_ref in_after_merge]. destruct x as [xb xr], y as [yb yr]. cbn [fst snd] in *. subst xr yr. destruct b; cbn [Bool.eqb].
    + assert (FC : forall xb r, c_load (derived block_ref) (xb, []) = Ok (r, ([], [])) -> from_cell (c_load (derived block_ref)) (Cell false xb []) = Ok r).
      { intros z v Z. unfold from_cell. cbn [as_slice c_exotic rbind]. change (s_chunk _) with (z, @nil cell). rewrite Z. reflexivity. }
      pose proof (FC _ _ L) as F1. pose proof (FC _ _ L') as F2. cbn [as_slice c_exotic rbind]. change (s_chunk _) with (@nil bool, [Cell false xb []; Cell false yb []]). assert (LR : forall c t, load_ref (@nil bool, c :: t) = Ok (c, ([], t))) by reflexivity. rewrite LR. cbn [rbind]. rewrite F1. cbn [rbind]. rewrite LR. cbn [rbind]. rewrite F2. reflexivity.
    + reflexivity.
Qed.
Print Assumptions C65_previous.

(** ** Value flows *)
(** Every flow is written by its scheme. *)
Theorem C65_flow_written fin f : w_ok (flow_w fin) f -> exists x, w_write (flow_w fin) f x /\ store_value_flow fin f ([], []) = Ok x.
Proof.
  intros O. destruct (pr_ok _ (proper_flow fin) f O) as (x & W). exists x. split; [exact W|]. apply written; [exact (store_flow_ok fin f x W)| |]; [pose proof (pr_bits _ (proper_flow fin) _ _ W) as B|pose proof (pr_refs _ (proper_flow fin) _ _ W) as B]; (etransitivity; [exact B|]); apply Nat.leb_le; reflexivity.
Qed.
Print Assumptions C65_flow_written.
(** Flows without extra currencies in the collected fees and in what was burned are read exactly
    from their scheme. *)
Theorem C65_flow_read b f r : plain_fees f -> load_value_flow b = Ok (f, r) <-> exists x, w_read (flow_w (fun _ _ => Ok tt)) f x /\ b = capp x r.
Proof.
  intros P. rewrite (reads_flow (fun _ _ => Ok tt) b f r). split; intros (x & X & E); exists x; (split; [|exact E]); apply (flow_plain (fun _ _ => Ok tt) f x P), X.
Qed.
Print Assumptions C65_flow_read.
Theorem C65_flow_round_trip fin f : w_ok (flow_w fin) f -> plain_fees f -> exists x, store_value_flow fin f ([], []) = Ok x /\ forall rest, load_value_flow (capp x rest) = Ok (f, rest).
Proof.
  intros O P. destruct (C65_flow_written fin f O) as (x & W & S). exists x. split; [exact S|]. intros rest. apply (reads_flow fin). exists x. split; [|reflexivity]. apply (flow_plain fin f x P), (pr_same _ (proper_flow fin) _ _ W).
Qed.
Print Assumptions C65_flow_round_trip.
(** Finding: with extra currencies in the collected fees the cell of the first four values is read
    as their dictionary, and their dictionary as that cell. *)
Theorem C65_flow_refuted fin f d x : cc_other (vf_fees_collected f) = Some d -> w_write (flow_w fin) f x ->
  exists c rest, snd x = c :: d :: rest /\ forall b g r, load_value_flow (capp x b) = Ok (g, r) -> cc_other (vf_fees_collected g) = Some c.
Proof.
  intros D W.
  assert (H : exists y t rest, x = capp (nbits 32 t, []) y /\ (t = 0xb8e48dfb \/ t = 0x3ebf98b7) /\ exists c tk bs, tokens_c var_uint_bits (cc_tokens (vf_fees_collected f)) tk /\ snd tk = [] /\ y = (fst tk ++ true :: bs, c :: d :: rest)).
  { assert (Q : forall c0 x1 x2 rest0, w_write (in_cell_w fin four_w) c0 x1 -> w_write currency_w (vf_fees_collected f) x2 -> exists c tk bs, tokens_c var_uint_bits (cc_tokens (vf_fees_collected f)) tk /\ snd tk = [] /\ capp x1 (capp x2 rest0) = (fst tk ++ true :: bs, c :: d :: snd rest0)).
    { intros c0 x1 x2 rest0 (z & -> & _) X2. inversion X2 as [t0 d0 u v Tk Dc Ec Ex]. rewrite <- Ec in D. cbn [cc_other] in D. subst d0. inversion Dc; subst. match goal with H : cell_c _ _ |- _ => inversion H; subst end.
      eexists _, u, (fst rest0). rewrite <- ?Ec. cbn [cc_tokens]. split; [exact Tk|]. assert (U : snd u = []) by (destruct Tk; reflexivity). split; [exact U|]. unfold capp. cbn [fst snd app]. rewrite U, <- app_assoc. reflexivity. }
    cbn [flow_w w_write] in W. destruct (cc_is_zero (vf_burned f)); destruct W as (y & -> & F); cbn [seq_w w_write fst snd] in F; destruct F as (x1 & ? & -> & X1 & x2 & rest0 & -> & X2 & _); destruct (Q _ _ _ rest0 X1 X2) as (c & tk & bs & T1 & T2 & E).
    - exists (capp x1 (capp x2 rest0)), 0xb8e48dfb, (snd rest0). split; [reflexivity|]. split; [left; reflexivity|]. eauto 8.
    - exists (capp x1 (capp x2 rest0)), 0x3ebf98b7, (snd rest0). split; [reflexivity|]. split; [right; reflexivity|]. eauto 8. }
  destruct H as (y & t & rest & -> & Ht & c & tk & bs & T1 & T2 & ->). exists c, rest. split; [reflexivity|]. intros b g r E. apply (okp_ok _ _ _ (load_flow_eq _)) in E.
  destruct tk as [tkb tkr]. cbn [fst snd] in T2. subst tkr. rewrite <- capp_assoc in E. assert (Lt : t < 2 ^ N.of_nat 32) by (destruct Ht; subst t; reflexivity).
  rewrite (reads_back _ _ _ _ _ (reads_un 32) (uint_intro 32 t Lt)) in E. cbn [rbind] in E.
  assert (Lc : load_cc (capp (tkb ++ true :: bs, c :: d :: rest) b) = Ok (Currency (cc_tokens (vf_fees_collected f)) (Some c), capp (bs, d :: rest) b)).
  { apply (law_load _ _ lawful_currency). exists (capp (tkb, []) (capp ([true], []) ([], [c]))). split.
    - apply (law_same _ _ lawful_currency). cbn [currency_w w_write]. constructor; [exact T1|]. constructor. constructor.
    - unfold capp. cbn [fst snd app]. rewrite <- !app_assoc. reflexivity. }
  cbn [fst] in E. clear -E Ht Lc. set (x0 := capp (tkb ++ true :: bs, c :: d :: rest) b) in *. clearbody x0. set (x1 := capp (bs, d :: rest) b) in *. clearbody x1.
  destruct Ht; subst t; cbn [pick] in E.
  - rewrite N.eqb_refl in E. unfold v1_l in E. set (l := pair_l (cell_l _) _) in E. clearbody l. unfold pair_l in E. rewrite Lc in E. cbn [rbind] in E. destruct (l x1) as [[[p [q u]] b2]|]; [|discriminate E]. cbn [rbind] in E. injection E as <- _.
    destruct p as (? & ? & ? & ? & []), q as (? & ? & ? & ? & []). reflexivity.
  - replace (0x3ebf98b7 =? 0xb8e48dfb) with false in E by reflexivity. rewrite N.eqb_refl in E. unfold v2_l in E. set (l := pair_l load_cc (pair_l (cell_l _) _)) in E. clearbody l. unfold pair_l in E. rewrite Lc in E. cbn [rbind] in E. destruct (l x1) as [[[bu [p [q u]]] b2]|]; [|discriminate E]. cbn [rbind] in E. injection E as <- _.
    destruct p as (? & ? & ? & ? & []), q as (? & ? & ? & ? & []). reflexivity.
Qed.
Print Assumptions C65_flow_refuted.

(** ** What validators sign *)
Theorem C65_data_for_sign x y : length (bi_root x) = 32%nat -> length (bi_file x) = 32%nat -> length (bi_root y) = 32%nat -> length (bi_file y) = 32%nat ->
  length (data_for_sign x) = 68%nat /\ (data_for_sign x = data_for_sign y <-> bi_root x = bi_root y /\ bi_file x = bi_file y).
Proof.
  intros L1 L2 L3 L4. unfold data_for_sign. split; [rewrite !app_length, L1, L2; reflexivity|]. split; [|intros [-> ->]; reflexivity].
  intros E. apply app_inv_head in E. apply app_inj_1 in E; [exact E|congruence].
Qed.
Print Assumptions C65_data_for_sign.

(** ** A configuration without parameters is never written *)
Theorem C65_empty_config addr b x : c_store (derived config) (addr, (None, tt)) b <> Ok x.
Proof.
  cbn. destruct (store_bs addr b) as [y|]; cbn; discriminate.
Qed.
Print Assumptions C65_empty_config.

(** ** Cases *)
Definition any_cell (b : list bool) (r : list cell) : res unit := Ok tt.
Definition h7 : list N := repeat 7 32.
Definition ref7 : vals (s_fields block_ref) := (5, (6, (h7, (h7, tt)))).
Definition leaf : cell := Cell false [true; false] [].
Definition info7 : block_info := BlockInfo 0 true false true false false true 1 7 2 (shard_at 0 [true; false]) 100 5 9 3 4 6 1 (3, ((11, tt), tt)) (Some leaf) leaf (Some leaf).
Lemma h7_ok : Forall byte_ok h7 /\ length h7 = 32%nat.
Proof. split; [repeat constructor|reflexivity]. Qed.
(** A header as it should be: it comes back. *)
Example C65_case_header : w_ok block_info_w info7 /\ (let? x := store_block_info info7 ([], []) in load_block_info x) = Ok (info7, ([], [])).
Proof.
  split.
  - split; [|split; [discriminate|split; [discriminate|discriminate]]]. cbn -[N.pow]. split_and!; try reflexivity; try exact Logic.I. exists 0%Z, [true; false]. split_and!; try reflexivity; try lia. unfold is_path. cbn. lia.
  - vm_compute. reflexivity.
Qed.
(** The same at number zero: it is written, and nothing reads it. *)
Definition zero_info : block_info := BlockInfo 0 true false true false false true 0 0 0 (shard_at 0 []) 100 5 9 3 4 6 1 no_version None leaf None.
Example C65_zero_refuted : (let? x := store_block_info zero_info ([], []) in Ok (length (fst x))) = Ok 536%nat /\ (let? x := store_block_info zero_info ([], []) in load_block_info x) = Err InvalidData.
Proof. vm_compute. auto. Qed.
(** The previous block of an ordinary block, kept in a header that says it is after a merge. *)
Example C65_case_previous : exists i, set_prev_ref any_cell zero_info (Single ref7) = Ok i /\ load_prev_ref i = Err CellUnderflow /\ exists j, set_prev_ref any_cell zero_info (AfterMerge ref7 ref7) = Ok j /\ load_prev_ref j = Ok (AfterMerge ref7 ref7).
Proof. eexists. split; [reflexivity|]. split; [reflexivity|]. eexists. split; reflexivity. Qed.
(** Fees of five units of a further currency: the flow is written and cannot be read. *)
Definition coins (t : N) : currency := Currency t None.
Definition flow7 (fees : currency) : value_flow := ValueFlow (coins 1) (coins 2) (coins 3) (coins 4) fees cc_zero (coins 5) (coins 6) (coins 7) (coins 8).
Example C65_case_flow : plain_fees (flow7 (coins 9)) /\ (let? x := store_value_flow any_cell (flow7 (coins 9)) ([], []) in load_value_flow x) = Ok (flow7 (coins 9), ([], [])) /\
  (let? x := store_value_flow any_cell (flow7 (Currency 9 (Some leaf))) ([], []) in Ok (length (snd x))) = Ok 3%nat /\ (let? x := store_value_flow any_cell (flow7 (Currency 9 (Some leaf))) ([], []) in load_value_flow x) = Err CellUnderflow.
Proof. split; [split; reflexivity|]. vm_compute. auto. Qed.
Definition state7 : unsplit := Unsplit' (-3)%Z (shard_at (-1)%Z []) 7 0 100 200 6 leaf false leaf 1 2 (coins 5) (Currency 6 (Some leaf)) None (Some (5, (6, (h7, (h7, tt))))) (Some leaf).
Example C65_case_state : (let? x := store_shard_state any_cell (Unsplit state7) ([], []) in load_shard_state x) = Ok (Unsplit state7, ([], [])).
Proof. vm_compute. reflexivity. Qed.
Definition mc7 : mc_state := McState (Some leaf) (h7, (Some leaf, tt)) (1, (2, (true, tt))) (None, ((false, (0, tt)), tt)) true (Some ref7) (Some None) (coins 77).
Example C65_case_mc : (let? x := store_mc_state any_cell mc7 ([], []) in load_mc_state x) = Ok (mc7, ([], [])).
Proof. vm_compute. reflexivity. Qed.
Definition extra7 (fees : currency) : mc_extra := McExtra (Some leaf) (Some leaf, ((fees, (fees, tt)), tt)) None (Some leaf) None (Some (h7, (Some leaf, tt))).
Example C65_case_extra : comes_back (mc_extra_k any_cell) (extra7 (coins 5)) /\ store_mc_extra any_cell (extra7 (Currency 5 (Some leaf))) ([], []) = Err CellOverflow.
Proof.
  split.
  - apply (C65_mc_extra any_cell (extra7 (coins 5))). cbn -[N.pow]. split_and!; try reflexivity; try exact Logic.I; try apply h7_ok; discriminate.
  - reflexivity.
Qed.
Definition proof7 : block_proof := BlockProof (BlockId (shard_at 0 []) 5 h7 h7) leaf (Some ((1, (2, tt)), (3, (4, (None, tt))))).
Example C65_case_proof : (let? x := store_block_proof any_cell proof7 ([], []) in load_block_proof x) = Ok (proof7, ([], [])).
Proof. vm_compute. reflexivity. Qed.
Definition block7 : block := Block (-3)%Z leaf leaf (Cell true [true] []) (Some (Some leaf)) leaf.
Example C65_case_block : (let? x := store_block any_cell block7 ([], []) in load_block x) = Ok (block7, ([], [])).
Proof. vm_compute. reflexivity. Qed.
