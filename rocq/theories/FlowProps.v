(** * C66: the balance of the value flow, and the weight of signatures *)
From stdpp Require Import gmap.
From Coq Require Import Sorting.Sorted.
From Verif Require Import Err BitsProofs IntModel DictModel DictSpec DictTree DictProofs DictProofs2 DictExist DictOrder LabelModel IterModel IterProofs DictProps IterProps BuildModel BuildProps Var248Model NumModel NumSpec NumProofs Var248Proofs NumProps AddrProps
  CellModel ChunkModel ChunkSpec ChunkProofs CurrencyModel CurrencySpec CurrencyProofs CurrencyProps DeriveModel DeriveSpec StructsModel StructsSpec StructsProofs DeriveProps VsetModel BlockModel CurrencySpec CurrencyProofs CurrencyProps FlowModel FlowSpec.
Local Open Scope N_scope.

(** ** Sums of collections *)
Fixpoint adds (fin : list bool -> list cell -> res unit) (c : currency) (l : list currency) : res currency :=
  match l with [] => Ok c | x :: l => let? c := cc_checked_add fin c x in adds fin c l end.
Lemma adds_one fin c x : adds fin c [x] = cc_checked_add fin c x.
Proof. cbn [adds]. destruct (cc_checked_add fin c x); reflexivity. Qed.
Lemma validate_adds fin same f : validate fin same f =
  (let? i := adds fin (vf_from_prev f) (tl (inflow f)) in let? o := adds fin (vf_to_next f) (tl (outflow f)) in Ok (cc_eq same i o)).
Proof.
  unfold validate, inflow, outflow. cbn [tl adds].
  repeat match goal with |- context [cc_checked_add fin ?a ?b] => destruct (cc_checked_add fin a b); cbn [rbind]; [|reflexivity] end. reflexivity.
Qed.

Section Sums.
Context (fin : list bool -> list cell -> res unit) (R : rules) (V : chunk -> N -> Prop).
Context (U : updatable fin R) (HV : amounts V).
Lemma add_one c x m mx : collection R V c m -> collection R V x mx ->
  match cc_checked_add fin c x with
  | Ok c' => cc_tokens c' = cc_tokens c + cc_tokens x /\ exists m', collection R V c' m' /\ (forall id, amount m' id = amount m id + amount mx id) /\
      ((forall id, m !! id <> Some 0) -> forall id, m' !! id <> Some 0)
  | Err e => (e = IntOverflow /\ (max_tokens < cc_tokens c + cc_tokens x \/ exists id, max_amount < amount m id + amount mx id)) \/ ~ sturdy fin R V
  end.
Proof using U HV.
  intros [T H] [Tx Hx]. destruct c as [t d], x as [tx dx]. cbn [cc_tokens cc_other] in *. unfold cc_checked_add. cbn [cc_tokens cc_other].
  assert (B : max_tokens < 2 ^ 128) by reflexivity. rewrite tokens_add by lia. change TOKENS_MAX with max_tokens.
  destruct (N.leb_spec (t + tx) max_tokens) as [L|L]; [|left; auto].
  pose proof (C39_add fin R V d dx m mx U HV H (holds_weaken fin R V dx mx U Hx)) as A. destruct (extra_checked_add fin d dx) as [d'|e]; cbn [rbind cc_tokens cc_other].
  - destruct A as (_ & m' & Hm & A1 & A2 & A3). split; [reflexivity|]. exists m'. split; [split; [exact L|exact Hm]|]. split; [exact A1|].
    intros Z id. destruct (mx !! id) as [b|] eqn:E; [apply A3; congruence|]. rewrite (A2 id E). apply Z.
  - destruct A as [[-> A]|A]; auto.
Qed.
Lemma amount_bound c m id : collection R V c m -> amount m id <= max_amount.
Proof using U HV.
  intros [_ H]. destruct (updatable_ok fin R U) as [HRR _]. unfold amount. destruct (m !! id) as [a|] eqn:X; [|vm_compute; discriminate]. destruct (N.ltb_spec id (2 ^ 32)) as [L|L].
  - apply (get_ok R V HRR HV _ m id H L). exact X.
  - apply holds_alt in H. destruct H as (es & _ & [_ A]). rewrite (A id L) in X. discriminate.
Qed.
Lemma adds_ok l ms : Forall2 (collection R V) l ms -> forall c m, collection R V c m ->
  match adds fin c l with
  | Ok c' => cc_tokens c' = tokens_of (c :: l) /\ in_range (c :: l) (m :: ms) /\ exists m', collection R V c' m' /\ (forall id, amount m' id = amount_of id (m :: ms)) /\
      ((forall id, m !! id <> Some 0) -> forall id, m' !! id <> Some 0)
  | Err e => (e = IntOverflow /\ ~ in_range (c :: l) (m :: ms)) \/ ~ sturdy fin R V
  end.
Proof using U HV.
  induction 1 as [|x mx l ms Hx F IH]; intros c m Hc; cbn [adds].
  - assert (forall id, amount_of id [m] = amount m id) as E by (intros; unfold amount_of, total; cbn; lia). unfold tokens_of, total. cbn [map fold_right]. rewrite N.add_0_r.
    split; [reflexivity|]. split.
    + split; [unfold tokens_of, total; cbn [map fold_right]; rewrite N.add_0_r; apply Hc|]. intros id. rewrite E. eapply amount_bound, Hc.
    + exists m. split; [exact Hc|]. split; [intros; rewrite E; reflexivity|auto].
  - pose proof (add_one c x m mx Hc Hx) as A. destruct (cc_checked_add fin c x) as [c1|e]; cbn [rbind].
    + destruct A as (T & m1 & H1 & A & Z). specialize (IH c1 m1 H1).
      assert (Et : tokens_of (c1 :: l) = tokens_of (c :: x :: l)) by (unfold tokens_of, total; cbn [map fold_right]; rewrite T; lia).
      assert (Ea : forall id, amount_of id (m1 :: ms) = amount_of id (m :: mx :: ms)) by (intros id; unfold amount_of, total; cbn [map fold_right]; rewrite A; lia).
      assert (Er : in_range (c1 :: l) (m1 :: ms) <-> in_range (c :: x :: l) (m :: mx :: ms)).
      { unfold in_range. rewrite Et. split; intros [I1 I2]; (split; [exact I1|]); intros id; specialize (I2 id); rewrite Ea in *; exact I2. }
      destruct (adds fin c1 l) as [c'|e].
      * destruct IH as (I1 & I2 & m' & I3 & I4 & I5). split; [congruence|]. split; [apply Er, I2|]. exists m'. split; [exact I3|]. split; [intros; rewrite I4; apply Ea|auto].
      * destruct IH as [[-> I]|I]; [left|right; exact I]. split; [reflexivity|]. rewrite <- Er. exact I.
    + destruct A as [[-> A]|A]; [left|right; exact A]. split; [reflexivity|]. intros [I1 I2]. destruct A as [A|[id A]].
      * unfold tokens_of, total in I1. cbn [map fold_right] in I1. lia.
      * specialize (I2 id). unfold amount_of, total in I2. cbn [map fold_right] in I2. lia.
Qed.
End Sums.

(** ** A canonical dictionary of shortest amounts is determined by the amounts *)
Lemma exact_same v1 v2 a : amount_exact v1 a -> amount_exact v2 a -> v1 = v2.
Proof.
  destruct v1 as [b1 r1], v2 as [b2 r2]. intros [(n1 & S1 & _ & E1) R1] [(n2 & S2 & _ & E2) R2]. cbn [fst snd] in *. subst. rewrite (shortest_unique a n1 n2 S1 S2). reflexivity.
Qed.
Lemma holds_unique fin d1 d2 m : holds (canonical_dict fin) amount_exact d1 m -> holds (canonical_dict fin) amount_exact d2 m -> d1 = d2.
Proof.
  intros (e1 & D1 & A1)%holds_alt (e2 & D2 & A2)%holds_alt. apply (dict_unique fin 32 d1 d2 e1 e2 D1 D2).
  apply map_eq. intros k. destruct (decide (length k = 32%nat)) as [K|K].
  - pose proof (bval_lt k) as L. rewrite K in L. destruct A1 as [A1 _], A2 as [A2 _]. specialize (A1 _ L). specialize (A2 _ L). rewrite nbits_bval' in A1, A2 by exact K.
    destruct (dmap e1 !! k) as [v1|], (dmap e2 !! k) as [v2|], (m !! bval k) as [a|]; try contradiction; [|reflexivity]. f_equal. eapply exact_same; eassumption.
  - assert (X : forall d es, is_dict (canonical_dict fin) 32 d es -> dmap es !! k = None).
    { intros d es D. apply not_elem_of_list_to_map. intros I. apply elem_of_list_fmap in I. destruct I as (e & -> & I). pose proof (dict_keys _ _ _ _ D) as F. rewrite list.Forall_forall in F. apply K, (F e I). }
    rewrite (X _ _ D1), (X _ _ D2). reflexivity.
Qed.
Lemma amounts_same (m1 m2 : gmap N N) : (forall id, m1 !! id <> Some 0) -> (forall id, m2 !! id <> Some 0) -> (forall id, amount m1 id = amount m2 id) -> m1 = m2.
Proof.
  intros Z1 Z2 E. apply map_eq. intros id. specialize (E id). unfold amount in E. specialize (Z1 id). specialize (Z2 id).
  destruct (m1 !! id), (m2 !! id); congruence.
Qed.

Lemma same_amounts fin R V d m1 m2 id : updatable fin R -> amounts V -> holds R V d m1 -> holds R V d m2 -> amount m1 id = amount m2 id.
Proof.
  intros U HV H1%(holds_weaken fin R V d m1 U) H2%(holds_weaken fin R V d m2 U). unfold amount. destruct (N.ltb_spec id (2 ^ 32)) as [L|L].
  - destruct (C39_get V d m1 id HV H1 L) as (o1 & E1 & <-), (C39_get V d m2 id HV H2 L) as (o2 & E2 & <-). rewrite E1 in E2. injection E2 as <-. reflexivity.
  - apply holds_alt in H1, H2. destruct H1 as (? & _ & [_ H1]), H2 as (? & _ & [_ H2]). rewrite (H1 id L), (H2 id L). reflexivity.
Qed.

(** ** Value flow *)
(** When the flow is reported to be in balance, it is: of tokens and of every extra currency as
    much goes out as comes in, and all the sums fit.  This is so for dictionaries and amounts in
    any form, if equal hashes mean equal cells. *)
Theorem C66_balanced fin same R V f ins outs : updatable fin R -> amounts V -> (forall a b, same a b = true -> a = b) -> flow_holds R V f ins outs ->
  validate fin same f = Ok true -> balanced f ins outs /\ in_range (inflow f) ins /\ in_range (outflow f) outs.
Proof.
  intros U HV HS [Fi Fo]. rewrite validate_adds.
  inversion Fi as [|? mi ? ins' Hi Fi' E1 E2]; subst. inversion Fo as [|? mo ? outs' Ho Fo' E1 E2]; subst.
  pose proof (adds_ok fin R V U HV _ _ Fi' _ _ Hi) as A. pose proof (adds_ok fin R V U HV _ _ Fo' _ _ Ho) as B.
  change (vf_from_prev f :: [vf_imported f; vf_fees_imported f; vf_created f; vf_minted f; vf_recovered f]) with (inflow f) in A.
  change [vf_imported f; vf_fees_imported f; vf_created f; vf_minted f; vf_recovered f] with (tl (inflow f)) in A.
  change (vf_to_next f :: [vf_exported f; vf_fees_collected f; vf_burned f]) with (outflow f) in B.
  change [vf_exported f; vf_fees_collected f; vf_burned f] with (tl (outflow f)) in B.
  destruct (adds fin (vf_from_prev f) (tl (inflow f))) as [i|e]; cbn [rbind]; [|discriminate]. destruct (adds fin (vf_to_next f) (tl (outflow f))) as [o|e]; cbn [rbind]; [|discriminate].
  destruct A as (A1 & A2 & mi' & [_ A3] & A4 & _), B as (B1 & B2 & mo' & [_ B3] & B4 & _). intros [= E]. unfold cc_eq in E. apply andb_prop in E. destruct E as [E1 E2].
  apply N.eqb_eq in E1. split; [|split; [exact A2|exact B2]]. split; [congruence|].
  assert (cc_other i = cc_other o) as Eo by (unfold dict_eq in E2; destruct (cc_other i), (cc_other o); try discriminate; [f_equal; apply HS, E2|reflexivity]).
  rewrite Eo in A3. intros id. rewrite <- A4, <- B4. exact (same_amounts fin R V _ _ _ id U HV A3 B3).
Qed.
Print Assumptions C66_balanced.

(** For dictionaries as they are written by this library (canonical labels, the shortest notation
    of the amounts) the answer is exact, if the values of the two shards' own balances have no
    entries with a zero amount: whether the flow is in balance is found out, and it fails only
    when a sum does not fit.  Cells are accepted within the size limits. *)
Theorem C66_exact fin same f ins outs : (forall b r, (length b <= 1023)%nat -> (length r <= 4)%nat -> fin b r = Ok tt) ->
  (forall a b, same a b = true <-> a = b) -> flow_holds (canonical_dict fin) amount_exact f ins outs -> no_zeros ins -> no_zeros outs ->
  match validate fin same f with
  | Ok b => (b = true <-> balanced f ins outs) /\ in_range (inflow f) ins /\ in_range (outflow f) outs
  | Err e => e = IntOverflow /\ ~ (in_range (inflow f) ins /\ in_range (outflow f) outs)
  end.
Proof.
  intros Hfin HS FH Zi Zo. assert (U : updatable fin (canonical_dict fin)) by (right; reflexivity). assert (HV : amounts amount_exact) by (right; right; reflexivity).
  assert (ST : sturdy fin (canonical_dict fin) amount_exact) by (split; [reflexivity|split; [right; reflexivity|exact Hfin]]).
  pose proof (C66_balanced fin same _ _ f ins outs U HV (fun a b => proj1 (HS a b)) FH) as Sound. destruct FH as [Fi Fo].
  rewrite validate_adds in *.
  inversion Fi as [|? mi ? ins' Hi Fi' E1 E2]; subst. inversion Fo as [|? mo ? outs' Ho Fo' E1 E2]; subst.
  pose proof (adds_ok fin _ _ U HV _ _ Fi' _ _ Hi) as A. pose proof (adds_ok fin _ _ U HV _ _ Fo' _ _ Ho) as B.
  change (vf_from_prev f :: [vf_imported f; vf_fees_imported f; vf_created f; vf_minted f; vf_recovered f]) with (inflow f) in A.
  change [vf_imported f; vf_fees_imported f; vf_created f; vf_minted f; vf_recovered f] with (tl (inflow f)) in A.
  change (vf_to_next f :: [vf_exported f; vf_fees_collected f; vf_burned f]) with (outflow f) in B.
  change [vf_exported f; vf_fees_collected f; vf_burned f] with (tl (outflow f)) in B.
  destruct (adds fin (vf_from_prev f) (tl (inflow f))) as [i|e]; cbn [rbind] in *; [|destruct A as [[-> A]|A]; [|contradiction]; split; [reflexivity|intros [? _]; contradiction]].
  destruct (adds fin (vf_to_next f) (tl (outflow f))) as [o|e]; cbn [rbind] in *; [|destruct B as [[-> B]|B]; [|contradiction]; split; [reflexivity|intros [_ ?]; contradiction]].
  destruct A as (A1 & A2 & mi' & [_ A3] & A4 & A5), B as (B1 & B2 & mo' & [_ B3] & B4 & B5). split; [|split; [exact A2|exact B2]]. split.
  - intros E. apply Sound. rewrite E. reflexivity.
  - intros [E1 E2]. unfold cc_eq. apply andb_true_intro. split; [apply N.eqb_eq; congruence|].
    assert (mi' = mo') as Em.
    { apply amounts_same; [apply A5; intros id; apply Zi; reflexivity|apply B5; intros id; apply Zo; reflexivity|]. intros id. rewrite A4, B4. apply E2. }
    subst mo'. rewrite (holds_unique fin _ _ _ A3 B3). unfold dict_eq. destruct (cc_other o); [apply HS|]; reflexivity.
Qed.
Print Assumptions C66_exact.
(** Without extra currencies it is exact whatever cells are accepted and however they are
    compared. *)
Theorem C66_tokens_only fin same f : Forall (fun c => cc_tokens c <= max_tokens /\ cc_other c = None) (inflow f ++ outflow f) ->
  match validate fin same f with
  | Ok b => (b = true <-> tokens_of (inflow f) = tokens_of (outflow f)) /\ tokens_of (inflow f) <= max_tokens /\ tokens_of (outflow f) <= max_tokens
  | Err e => e = IntOverflow /\ (max_tokens < tokens_of (inflow f) \/ max_tokens < tokens_of (outflow f))
  end.
Proof.
  intros F. apply Forall_app in F. destruct F as [Fi Fo]. rewrite validate_adds.
  assert (H : forall l, Forall (fun c => cc_tokens c <= max_tokens /\ cc_other c = None) l -> forall t, t <= max_tokens ->
    adds fin (Currency t None) l = if t + tokens_of l <=? max_tokens then Ok (Currency (t + tokens_of l) None) else Err IntOverflow).
  { induction 1 as [|[tx dx] l [Tx Dx] F IH]; intros t Ht; cbn [adds].
    - unfold tokens_of, total. cbn [map fold_right]. rewrite N.add_0_r. destruct (N.leb_spec t max_tokens); [reflexivity|lia].
    - cbn [cc_tokens cc_other] in *. subst dx. unfold cc_checked_add. cbn [cc_tokens cc_other]. assert (B : max_tokens < 2 ^ 128) by reflexivity. rewrite tokens_add by lia. change TOKENS_MAX with max_tokens.
      change (tokens_of (Currency tx None :: l)) with (tx + tokens_of l). rewrite N.add_assoc.
      destruct (N.leb_spec (t + tx) max_tokens) as [L|L]; [change (extra_checked_add fin None None) with (Ok (None : option cell)); cbn [rbind]; apply IH, L|].
      cbn [rbind]. destruct (N.leb_spec (t + tx + tokens_of l) max_tokens); [lia|reflexivity]. }
  inversion Fi as [|? ? [Ti Di] Fi' E1]; subst. inversion Fo as [|? ? [To Do] Fo' E1]; subst.
  assert (Ei : tokens_of (inflow f) = cc_tokens (vf_from_prev f) + tokens_of (tl (inflow f))) by reflexivity.
  assert (Eo : tokens_of (outflow f) = cc_tokens (vf_to_next f) + tokens_of (tl (outflow f))) by reflexivity.
  pose proof (H _ Fi' _ Ti) as Ai. pose proof (H _ Fo' _ To) as Ao. rewrite <- Di in Ai at 1. rewrite <- Do in Ao at 1.
  replace (Currency (cc_tokens (vf_from_prev f)) (cc_other (vf_from_prev f))) with (vf_from_prev f) in Ai by (destruct (vf_from_prev f); reflexivity).
  replace (Currency (cc_tokens (vf_to_next f)) (cc_other (vf_to_next f))) with (vf_to_next f) in Ao by (destruct (vf_to_next f); reflexivity).
  change [vf_imported f; vf_fees_imported f; vf_created f; vf_minted f; vf_recovered f] with (tl (inflow f)) in Ai.
  change [vf_exported f; vf_fees_collected f; vf_burned f] with (tl (outflow f)) in Ao.
  rewrite Ai, Ao, <- Ei, <- Eo.
  destruct (N.leb_spec (tokens_of (inflow f)) max_tokens) as [L0|L0]; cbn [rbind]; [|auto].
  destruct (N.leb_spec (tokens_of (outflow f)) max_tokens) as [L1|L1]; cbn [rbind]; [|auto].
  split; [|auto]. unfold cc_eq. cbn [cc_tokens cc_other dict_eq]. rewrite andb_true_r. apply N.eqb_eq.
Qed.
Print Assumptions C66_tokens_only.

(** ** Signatures *)
Lemma node_of_listed short_id nodes id : node_of short_id nodes id = listed short_id nodes id.
Proof.
  unfold node_of, listed. rewrite <- (rev_involutive nodes). induction (rev nodes) as [|n l IH]; [reflexivity|]. cbn [rev]. rewrite fold_left_app. cbn [fold_left]. rewrite filter_app.
  destruct (decide (short_id (d_key n) = id)) as [E|E].
  - rewrite bool_decide_eq_true_2 by exact E. rewrite filter_cons_True by exact E. rewrite filter_nil, last_snoc. reflexivity.
  - rewrite bool_decide_eq_false_2 by exact E. rewrite filter_cons_False by exact E. rewrite filter_nil, app_nil_r. exact IH.
Qed.
Lemma load_signed v id sg : signed_by v id sg -> exists r, c_load (derived block_signature) v = Ok ((id, ((sg, tt), tt)), r).
Proof.
  destruct v as [b rs]. intros (L1 & B1 & L2 & B2 & rest & E). cbn [fst] in E. subst b. exists (rest, rs).
  destruct C58_blocks as (_ & _ & _ & W & _). apply (law_load _ _ W). exists (bytes_bits id ++ nbits 4 5 ++ bytes_bits sg, []). split; [|unfold capp; cbn [fst snd]; rewrite <- !app_assoc; reflexivity].
  exists (bytes_bits id, []), (nbits 4 5 ++ bytes_bits sg, []). split; [reflexivity|]. split; [apply bytes_intro; assumption|].
  exists (nbits 4 5 ++ bytes_bits sg, []), ([], []). split; [unfold capp; cbn [fst snd]; rewrite !app_nil_r; reflexivity|]. split; [|reflexivity].
  exists (bytes_bits sg, []). split; [reflexivity|]. exists (bytes_bits sg, []), ([], []). split; [unfold capp; cbn [fst snd]; rewrite !app_nil_r; reflexivity|].
  split; [apply bytes_intro; assumption|reflexivity].
Qed.
Section Signatures.
Context (short_id : list N -> list N) (verify : list N -> list N -> list N -> bool).
Notation node := (listed short_id).
Definition weights (nodes : list descr) : N := total (map d_weight nodes).
Lemma sig_loop_ok nodes data d : forall es sigs fuel w it, (length es < fuel)%nat -> values_inv any_dict false 16 d it es -> Forall2 (fun e p => signed_by (snd e) (fst p) (snd p)) es sigs -> w < 2 ^ 64 ->
  match sig_loop short_id verify fuel nodes data w it with
  | Ok r => (forall id sg n, (id, sg) ∈ sigs -> node nodes id = Some n -> verify (d_key n) data sg = true) /\ r = (w + weights (omap (fun p => node nodes (fst p)) sigs)) mod 2 ^ 64
  | Err e => e = InvalidSignature /\ exists id sg n, (id, sg) ∈ sigs /\ node nodes id = Some n /\ verify (d_key n) data sg = false
  end.
Proof.
  induction es as [|e es IH]; intros sigs fuel w it Hf I F Hw; destruct fuel as [|fuel]; try (cbn [length] in Hf; lia); cbn [sig_loop].
  - inversion_clear F. destruct (values_next_inv any_dict reads_any false 16 ltac:(lia) _ _ _ I) as (it' & -> & _). split; [intros ? ? ? X; inversion X|].
    cbn. rewrite N.add_0_r, N.mod_small by exact Hw. reflexivity.
  - inversion_clear F as [|? [id sg] ? sigs' S F']. cbn [fst snd] in S. destruct (values_next_inv any_dict reads_any false 16 ltac:(lia) _ _ _ I) as (data' & it' & -> & I' & C & _).
    rewrite C. destruct (load_signed _ _ _ S) as (r & ->). cbn [rbind]. rewrite node_of_listed. cbn [length] in Hf. cbn [omap list_omap fst].
    destruct (node nodes id) as [n|] eqn:En.
    + destruct (verify (d_key n) data sg) eqn:Ev.
      * specialize (IH sigs' fuel ((w + d_weight n) mod 2 ^ 64) it' ltac:(lia) I' F' ltac:(apply N.mod_lt; discriminate)).
        destruct (sig_loop _ _ _ _ _ _ _) as [r'|e'].
        -- destruct IH as [IH1 ->]. split.
           ++ intros id' sg' n' X En'. apply elem_of_cons in X. destruct X as [[= -> ->]|X]; [congruence|eapply IH1; eassumption].
           ++ unfold weights. cbn [map total fold_right]. rewrite N.add_mod_idemp_l by discriminate. rewrite N.add_assoc. reflexivity.
        -- destruct IH as (-> & id' & sg' & n' & X & Y). split; [reflexivity|]. exists id', sg', n'. split; [right; exact X|exact Y].
      * split; [reflexivity|]. exists id, sg, n. split; [left|auto].
    + specialize (IH sigs' fuel w it' ltac:(lia) I' F' Hw). destruct (sig_loop _ _ _ _ _ _ _) as [r'|e'].
      * destruct IH as [IH1 ->]. split; [|reflexivity]. intros id' sg' n' X En'. apply elem_of_cons in X. destruct X as [[= -> ->]|X]; [congruence|eapply IH1; eassumption].
      * destruct IH as (-> & id' & sg' & n' & X & Y). split; [reflexivity|]. exists id', sg', n'. split; [right; exact X|exact Y].
Qed.
End Signatures.
(** All signatures of nodes in the list must verify, those of others are skipped, and the result
    is the sum of the weights of the signatures that count, modulo 2^64. *)
Theorem C66_signatures short_id verify d es sigs nodes data : is_dict any_dict 16 d es -> Forall2 (fun e p => signed_by (snd e) (fst p) (snd p)) es sigs ->
  match check_signatures short_id verify d nodes data with
  | Ok w => (forall id sg n, (id, sg) ∈ sigs -> listed short_id nodes id = Some n -> verify (d_key n) data sg = true) /\
      w = total (map d_weight (omap (fun p => listed short_id nodes (fst p)) sigs)) mod 2 ^ 64
  | Err e => e = InvalidSignature /\ exists id sg n, (id, sg) ∈ sigs /\ listed short_id nodes id = Some n /\ verify (d_key n) data sg = false
  end.
Proof.
  intros D F. destruct (values_new_inv any_dict false 16 ltac:(lia) d es D) as (order & P & _ & I).
  destruct (Permutation_Forall2 (Permutation_sym P) F) as (sigs' & P' & F').
  assert (Hf : (length order < S (match d with Some c => csize c | None => 0 end))%nat).
  { rewrite P. destruct d as [c|]; cbn [is_dict] in D; [apply hashmap_size in D; lia|subst es; cbn; lia]. }
  pose proof (sig_loop_ok short_id verify nodes data d order sigs' _ 0 _ Hf I F' ltac:(reflexivity)) as L. unfold check_signatures.
  destruct (sig_loop _ _ _ _ _ _ _) as [w|e].
  - destruct L as [L1 ->]. split; [intros id sg n X; apply L1; rewrite <- P'; exact X|]. rewrite N.add_0_l. f_equal. unfold weights.
    assert (Q : forall l l', Permutation l l' -> total l = total l') by (induction 1; cbn [total fold_right] in *; unfold total in *; lia). apply Q. rewrite P'. reflexivity.
  - destruct L as (-> & id & sg & n & X & Y). split; [reflexivity|]. exists id, sg, n. split; [rewrite P'; exact X|exact Y].
Qed.
Print Assumptions C66_signatures.
(** When no node is listed twice and no node signed twice, the weight is that of the listed nodes
    that signed, and never more than the weight of the whole list. *)
Theorem C66_signed_weight short_id verify d es sigs nodes data w : is_dict any_dict 16 d es -> Forall2 (fun e p => signed_by (snd e) (fst p) (snd p)) es sigs ->
  List.NoDup (map (fun n => short_id (d_key n)) nodes) -> List.NoDup (map fst sigs) -> total (map d_weight nodes) < 2 ^ 64 ->
  check_signatures short_id verify d nodes data = Ok w ->
  w = total (map d_weight (filter (fun n => short_id (d_key n) ∈ map fst sigs) nodes)) /\ w <= total (map d_weight nodes) /\
  forall n, n ∈ nodes -> short_id (d_key n) ∈ map fst sigs -> exists sg, (short_id (d_key n), sg) ∈ sigs /\ verify (d_key n) data sg = true.
Proof.
  intros D F N1 N2 T E. pose proof (C66_signatures short_id verify d es sigs nodes data D F) as S. rewrite E in S. destruct S as [S1 S2]. apply NoDup_ListNoDup in N1, N2.
  assert (Ll : forall id n, listed short_id nodes id = Some n <-> n ∈ nodes /\ short_id (d_key n) = id).
  { intros id n. unfold listed. clear - N1. rewrite <- (rev_involutive nodes) in *. induction (rev nodes) as [|x l IH].
    - cbn. split; [discriminate|]. intros [X _]. inversion X.
    - cbn [rev] in *. rewrite filter_app. rewrite map_app in N1. apply NoDup_app in N1. destruct N1 as (N1 & N2 & _). specialize (IH N1). destruct (decide (short_id (d_key x) = id)) as [X|X].
      + rewrite filter_cons_True by exact X. rewrite filter_nil, last_snoc. split.
        * intros [= ->]. split; [apply elem_of_app; right; left|exact X].
        * intros [Y Z]. apply elem_of_app in Y. destruct Y as [Y|Y]; [|apply elem_of_list_singleton in Y; congruence]. destruct (N2 (short_id (d_key n))).
          -- apply elem_of_list_fmap. eauto.
          -- cbn [map]. rewrite Z, X. left.
      + rewrite filter_cons_False by exact X. rewrite filter_nil, app_nil_r, IH. rewrite elem_of_app, elem_of_list_singleton. split; [tauto|]. intros [[Y|Y] Z]; [tauto|]. congruence. }
  assert (P : Permutation (omap (fun p => listed short_id nodes (fst p)) sigs) (filter (fun n => short_id (d_key n) ∈ map fst sigs) nodes)).
  { apply NoDup_Permutation.
    - clear - N2 Ll. induction sigs as [|[id sg] l IH]; cbn [omap list_omap map fst] in *; [constructor|]. apply list.NoDup_cons in N2. destruct N2 as [N2 N3].
      destruct (listed short_id nodes id) as [n|] eqn:En; [|apply IH, N3]. constructor; [|apply IH, N3]. intros X. apply elem_of_list_omap in X. destruct X as ([id' sg'] & X & Y). cbn [fst] in Y.
      apply Ll in En, Y. destruct En as [_ En], Y as [_ Y]. apply N2. rewrite <- En, Y. apply elem_of_list_fmap. exists (id', sg'). auto.
    - apply NoDup_filter. eapply NoDup_fmap_1. exact N1.
    - intros n. rewrite elem_of_list_omap, elem_of_list_filter, elem_of_list_fmap. split.
      + intros (p & X & Y). apply Ll in Y. destruct Y as [Y1 Y2]. split; [exists p; auto|exact Y1].
      + intros [(p & X & Y) Z]. exists p. split; [exact Y|]. apply Ll. auto. }
  assert (Q : forall l l', Permutation l l' -> total l = total l') by (induction 1; cbn [total fold_right] in *; unfold total in *; lia).
  rewrite (Q _ _ (Permutation_map d_weight P)) in S2.
  assert (B : total (map d_weight (filter (fun n => short_id (d_key n) ∈ map fst sigs) nodes)) <= total (map d_weight nodes)).
  { clear. induction nodes as [|n l IH]; [reflexivity|]. rewrite filter_cons. destruct (decide _); cbn [map]; unfold total in *; cbn [fold_right]; lia. }
  rewrite N.mod_small in S2 by lia. split; [exact S2|]. split; [lia|]. intros n X Y. apply elem_of_list_fmap in Y. destruct Y as ([id sg] & Y & Z). cbn [fst] in Y. subst id. exists sg. split; [exact Z|].
  eapply S1; [exact Z|]. apply Ll. auto.
Qed.
Print Assumptions C66_signed_weight.

(** ** Findings *)
Definition flow_of (a b : currency) : value_flow := ValueFlow a b cc_zero cc_zero cc_zero cc_zero cc_zero cc_zero cc_zero cc_zero.
Lemma zero_collection fin : collection (canonical_dict fin) amount_exact cc_zero ∅.
Proof. split; [vm_compute; discriminate|]. exists [], []. split; [reflexivity|]. split; [constructor|reflexivity]. Qed.
Lemma flow_of_holds fin a b ma mb : collection (canonical_dict fin) amount_exact a ma -> collection (canonical_dict fin) amount_exact b mb ->
  flow_holds (canonical_dict fin) amount_exact (flow_of a b) (ma :: replicate 5 ∅) (mb :: replicate 3 ∅).
Proof. intros A B. split; cbn; repeat first [exact A|exact B|apply zero_collection|constructor]. Qed.
Definition zero_dict : option cell := match extra_from_iter ok_fin (fun l => l) [(7, V248 0 0)] with Ok d => d | Err _ => None end.
(** A balance with an entry of zero is not equal to one without it: such a flow is reported to be
    out of balance although nothing is lost, however cells are compared. *)
Theorem C66_zero_refuted : exists f ins outs, flow_holds (canonical_dict ok_fin) amount_exact f ins outs /\ balanced f ins outs /\
  forall same, validate ok_fin same f = Ok false.
Proof.
  pose proof (C39_from_amounts ok_fin (fun l => l) [(7, V248 0 0)] (Permutation_refl _)) as A.
  destruct (extra_from_iter ok_fin (fun l => l) [(7, V248 0 0)]) as [d|e] eqn:E; [|vm_compute in E; discriminate].
  destruct A as (m & Hm & Em & _); [repeat constructor|repeat constructor; cbn; lia|].
  exists (flow_of (Currency 5 d) (Currency 5 None)), (m :: replicate 5 ∅), (∅ :: replicate 3 ∅). split; [|split].
  - apply flow_of_holds; [split; [vm_compute; discriminate|exact Hm]|]. split; [vm_compute; discriminate|]. apply (zero_collection ok_fin).
  - split; [reflexivity|]. intros id. assert (amount m id = 0) as Z.
    { rewrite Em. unfold amount. cbn [map fst snd list_to_map foldr]. destruct (decide (id = 7)) as [->|N]; [rewrite lookup_insert; reflexivity|]. rewrite lookup_insert_ne, lookup_empty by congruence. reflexivity. }
    unfold amount_of. cbn [map replicate]. rewrite Z. reflexivity.
  - intros same. vm_compute in E. injection E as <-. vm_compute. reflexivity.
Qed.
Print Assumptions C66_zero_refuted.
(** A node whose signature is in the dictionary twice is counted twice: the weight of the
    signatures can be larger than that of all nodes. *)
Definition sig_value (id sg : list N) : chunk := (bytes_bits id ++ nbits 4 5 ++ bytes_bits sg, []).
Definition ones : list N := replicate 32 1.
Definition two_entries : list entry := [(nbits 16 0, sig_value ones (replicate 64 2)); (nbits 16 1, sig_value ones (replicate 64 2))].
Lemma filled_dict fin n es d : (n <= 1023)%nat -> List.NoDup (map fst es) -> insert_all fin n MSet es None = Ok d -> exists es', is_dict any_dict n d es' /\ Permutation es es'.
Proof.
  intros Hn ND%NoDup_ListNoDup E.
  pose proof (insert_all_history fin n MSet es None ∅ d (h_empty fin n) E) as H.
  assert (FS : forall l : list entry, NoDup (map fst l) -> forall m, fold_left (fun (m : gmap (list bool) chunk) (e : entry) => set_map MSet (fst e) (snd e) m) l m = dmap l ∪ m).
  { induction l as [|[k x] l IH]; cbn [map fst]; intros N m; cbn [fold_left].
    - unfold dmap. cbn [list_to_map foldr]. rewrite (left_id_L ∅ (∪)). reflexivity.
    - apply list.NoDup_cons in N. destruct N as [N1 N2]. rewrite (IH N2). unfold set_map. cbn [stores fst snd]. unfold dmap. cbn [list_to_map foldr].
      rewrite <- insert_union_l. symmetry. apply insert_union_r, not_elem_of_list_to_map_1, N1. }
  rewrite (FS es ND), (right_id_L ∅ (∪)) in H.
  destruct (history_dict fin n d _ Hn H) as (es' & D & M). exists es'. split.
  - destruct d as [c|]; cbn [is_dict] in *; [|exact D]. eapply hashmap_any; [|exact D]. intros n' bits l rest (e & -> & X & _). exists e. auto.
  - symmetry. apply list_to_map_inj; [eapply dict_nodup; exact D|exact ND|exact M].
Qed.
Lemma two_signed : Forall2 (fun e p => signed_by (snd e) (fst p) (snd p)) two_entries [(ones, replicate 64 2); (ones, replicate 64 2)].
Proof.
  assert (S : signed_by (sig_value ones (replicate 64 2)) ones (replicate 64 2)); [|constructor; [exact S|constructor; [exact S|constructor]]].
  split; [reflexivity|]. split; [repeat constructor|]. split; [reflexivity|]. split; [repeat constructor|]. exists []. rewrite app_nil_r. reflexivity.
Qed.
Theorem C66_twice_refuted : exists d es sigs nodes, is_dict any_dict 16 d es /\ Forall2 (fun e p => signed_by (snd e) (fst p) (snd p)) es sigs /\
  check_signatures (fun k => k) (fun _ _ _ => true) d nodes [] = Ok 10 /\ total (map d_weight nodes) = 5.
Proof.
  destruct (insert_all ok_fin 16 MSet two_entries None) as [d|e] eqn:E; [|vm_compute in E; discriminate].
  destruct (filled_dict ok_fin 16 two_entries d ltac:(lia) ltac:(repeat constructor; vm_compute; intuition discriminate) E) as (es & D & P).
  destruct (Permutation_Forall2 P two_signed) as (sigs & P' & F).
  exists d, es, sigs, [Descr ones 5 None 0 0]. split; [exact D|]. split; [exact F|]. split; [|reflexivity]. vm_compute in E. injection E as <-. vm_compute. reflexivity.
Qed.
Print Assumptions C66_twice_refuted.

(** ** Cases *)
(** A comparison of cells as the theorems ask for. *)
Fixpoint cell_eqb (a b : cell) : bool :=
  match a, b with
  | Cell e1 b1 r1, Cell e2 b2 r2 => Bool.eqb e1 e2 && bool_decide (b1 = b2) &&
      (fix go (l1 l2 : list cell) : bool := match l1, l2 with [], [] => true | x :: l1, y :: l2 => cell_eqb x y && go l1 l2 | _, _ => false end) r1 r2
  end.
Lemma cell_eqb_eq : forall a b, cell_eqb a b = true <-> a = b.
Proof.
  fix IH 1. intros [e1 b1 r1] [e2 b2 r2]. cbn [cell_eqb].
  assert (H : forall r2, (fix go (l1 l2 : list cell) : bool := match l1, l2 with [], [] => true | x :: l1, y :: l2 => cell_eqb x y && go l1 l2 | _, _ => false end) r1 r2 = true <-> r1 = r2).
  { clear - IH. induction r1 as [|x l1 IHl]; intros [|y l2]; try (split; [discriminate|discriminate]); [tauto|]. rewrite andb_true_iff, (IH x y), IHl. split; [intros [-> ->]; reflexivity|intros [= -> ->]; auto]. }
  rewrite !andb_true_iff, H, Bool.eqb_true_iff, bool_decide_eq_true. split; [intros [[-> ->] ->]; reflexivity|intros [= -> -> ->]; auto].
Qed.
Definition case_flow (t : N) : value_flow :=
  ValueFlow (Currency 300 some_dict) (Currency t some_dict) (Currency 7 some_dict) (Currency 3 some_dict) (Currency 4 None) cc_zero cc_zero cc_zero cc_zero cc_zero.
Example C66_case : exists m, let ins := [m; m; ∅; ∅; ∅; ∅] in let outs := [m; m; ∅; ∅] in
  flow_holds (canonical_dict ok_fin) amount_exact (case_flow 300) ins outs /\ no_zeros ins /\ no_zeros outs /\ amount m 100 = 2 ^ 128 /\
  balanced (case_flow 300) ins outs /\ validate ok_fin cell_eqb (case_flow 300) = Ok true /\ validate ok_fin cell_eqb (case_flow 299) = Ok false /\
  validate ok_fin cell_eqb (case_flow (2 ^ 120 - 1)) = Err IntOverflow.
Proof.
  pose proof (C39_from_amounts ok_fin (fun l => l) some_amounts (Permutation_refl _)) as A. 
  destruct (extra_from_iter ok_fin (fun l => l) some_amounts) as [d|e] eqn:E; [|vm_compute in E; discriminate].
  destruct A as (m & Hm & Em & _).
  { repeat constructor; unfold by_id; cbn; lia. }
  { repeat constructor. }
  assert (some_dict = d) as Ed by (unfold some_dict; rewrite E; reflexivity). rewrite <- Ed in Hm.
  exists m. cbn zeta. assert (C : forall t, t <= max_tokens -> collection (canonical_dict ok_fin) amount_exact (Currency t some_dict) m) by (intros t Ht; split; [exact Ht|exact Hm]).
  assert (C0 : collection (canonical_dict ok_fin) amount_exact (Currency 4 None) ∅) by (split; [vm_compute; discriminate|apply (zero_collection ok_fin)]).
  assert (Z : forall id, m !! id <> Some 0).
  { rewrite Em. intros id X. apply elem_of_list_to_map_2 in X. cbn in X. repeat (apply elem_of_cons in X; destruct X as [X|X]; [injection X as _ X; vm_compute in X; discriminate|]). inversion X. }
  split; [split; cbn; repeat first [apply C; vm_compute; discriminate|exact C0|apply zero_collection|constructor]|].
  split; [intros ? id [= <-]; apply Z|]. split; [intros ? id [= <-]; apply Z|]. split; [rewrite Em; vm_compute; reflexivity|]. split; [split; reflexivity|].
  split; [vm_compute; reflexivity|]. split; vm_compute; reflexivity.
Qed.
