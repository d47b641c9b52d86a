(** * Proofs about the parameters of the network *)
From Verif Require Import Err BitsProofs IntModel NumModel NumSpec CellModel LabelModel DictModel DictSpec DictTree DictProofs DictProofs2 DictProofs4 DictExist DictProps ChunkModel LazyModel CurrencyModel CurrencyProofs
  ChunkSpec ChunkProofs DeriveModel DeriveSpec StructsModel StructsSpec StructsProofs MessageProofs2 ParamsModel InlineModel ConfigModel ConfigSpec.
Local Open Scope N_scope.

Definition rules_ok (fin : list bool -> list cell -> res unit) (R : rules) : Prop := reads R /\ writes fin R.
Lemma plain_ok fin : rules_ok fin plain_dict. Proof. split; [apply reads_plain|apply writes_plain]. Qed.
Lemma canonical_ok fin : rules_ok fin (canonical_dict fin). Proof. split; [apply reads_canonical|apply writes_canonical]. Qed.

Section Fin.
Context (fin : list bool -> list cell -> res unit).

Lemma config_get R d m id : rules_ok fin R -> config R d m -> id < 2 ^ 32 -> dict_get d 32 (u32_key id) = Ok ((fun c => ([], [c]) : chunk) <$> m !! id).
Proof.
  intros [HR _] (_ & es & D & M) Hid. unfold u32_key. rewrite (dict_get_spec R 32 d es _ HR ltac:(lia) D (length_nbits 32 id)), (M id Hid). reflexivity.
Qed.
Lemma config_raw_cell R d m id : rules_ok fin R -> config R d m -> id < 2 ^ 32 -> get_raw_cell d id = Ok (m !! id).
Proof. intros HR C Hid. unfold get_raw_cell. rewrite (config_get R d m id HR C Hid). destruct (m !! id); reflexivity. Qed.
Lemma config_contains R d m id : rules_ok fin R -> config R d m -> id < 2 ^ 32 -> contains_raw d id = Ok (bool_decide (is_Some (m !! id))).
Proof.
  intros HR C Hid. unfold contains_raw. rewrite (config_get R d m id HR C Hid). destruct (m !! id); cbn [fmap option_fmap option_map rbind].
  - rewrite bool_decide_eq_true_2; [reflexivity|eauto].
  - rewrite bool_decide_eq_false_2; [reflexivity|]. intros [? [=]].
Qed.
Lemma config_set R d m id c f d' : rules_ok fin R -> config R d m -> id < 2 ^ 32 -> set_raw fin d id c = Ok (f, d') -> f = true /\ config R d' (<[id := c]> m).
Proof.
  intros [HR HW] (Z & es & D & M) Hid E. unfold set_raw, u32_key in E.
  pose proof (dict_insert_sound fin R 32 d es (nbits 32 id) ([], [c]) MSet HR HW ltac:(lia) D (length_nbits 32 id)) as S. rewrite refused_stores in S. cbn [stores negb] in S. rewrite E in S.
  destruct S as (-> & es' & D' & M'). split; [reflexivity|]. split.
  - intros i Hi. rewrite lookup_insert_ne by lia. apply Z, Hi.
  - exists es'. split; [exact D'|]. intros i Hi. rewrite M'. destruct (decide (i = id)) as [->|Ne].
    + rewrite !lookup_insert. reflexivity.
    + rewrite !lookup_insert_ne; [apply M, Hi|congruence|]. intros X. apply key_inj in X; congruence.
Qed.
Lemma config_remove R d m id o d' : rules_ok fin R -> config R d m -> id < 2 ^ 32 -> remove fin d id = (o, d') ->
  match o with
  | Ok prev => if id =? 0 then prev = None /\ d' = d else prev = m !! id /\ config R d' (delete id m)
  | Err _ => d' = d
  end.
Proof.
  intros [HR HW] C Hid. pose proof C as (Z & es & D & M). unfold remove, u32_key. destruct (N.eqb_spec id 0) as [->|Ni]; [intros [= <- <-]; auto|].
  pose proof (dict_remove_sound fin R 32 d es (nbits 32 id) false HR HW ltac:(lia) D (length_nbits 32 id)) as S. rewrite (M id Hid) in S.
  destruct (m !! id) as [c|] eqn:Ec; cbn [fmap option_fmap option_map] in S.
  - destruct (dict_remove_owned fin d (nbits 32 id) 32 false) as [[x d1]|e] eqn:E; [|intros [= <- <-]; reflexivity].
    destruct S as ((r & cc & -> & A) & es' & D' & M'). rewrite A. unfold load_ref. cbn [rbind]. intros [= <- <-]. split; [reflexivity|]. split.
    + intros i Hi. rewrite lookup_delete_ne by lia. apply Z, Hi.
    + exists es'. split; [exact D'|]. intros i Hi. rewrite M'. destruct (decide (i = id)) as [->|Ne].
      * rewrite !lookup_delete. reflexivity.
      * rewrite !lookup_delete_ne; [apply M, Hi|congruence|]. intros X. apply key_inj in X; congruence.
  - rewrite S. intros [= <- <-]. split; [reflexivity|]. rewrite delete_notin by exact Ec. exact C.
Qed.

(** ** Values *)
Definition decodes {A} (k : codec A) (c : cell) (v : A) : Prop := c_exotic c = false /\ exists r, c_load k (c_bits c, c_refs c) = Ok (v, r).
Lemma config_load R d m p v : rules_ok fin R -> config R d m -> p_id p < 2 ^ 32 ->
  (get d p = Ok (Some v) <-> exists c, m !! p_id p = Some c /\ decodes (p_codec p) c v).
Proof.
  intros HR C Hid. unfold get, get_raw. rewrite (config_raw_cell R d m _ HR C Hid). cbn [rbind]. destruct (m !! p_id p) as [c|]; [|split; [discriminate|intros (c & [=] & _)]].
  unfold as_slice, decodes. destruct (c_exotic c) eqn:X; cbn [rbind].
  - split; [discriminate|]. intros (c' & [= <-] & Y & _). congruence.
  - change (s_chunk (Sl c (c_bits c) (c_refs c))) with (c_bits c, c_refs c). destruct (c_load (p_codec p) (c_bits c, c_refs c)) as [[v' r]|] eqn:E; cbn [rbind].
    + split; [intros [= <-]; eauto|]. intros (c' & [= <-] & _ & r' & E'). rewrite E in E'. injection E' as -> _. reflexivity.
    + split; [discriminate|]. intros (c' & [= <-] & _ & r' & E'). congruence.
Qed.
Lemma config_none R d m p : rules_ok fin R -> config R d m -> p_id p < 2 ^ 32 -> (get d p = Ok None <-> m !! p_id p = None).
Proof.
  intros HR C Hid. unfold get, get_raw. rewrite (config_raw_cell R d m _ HR C Hid). cbn [rbind]. destruct (m !! p_id p) as [c|]; [|split; reflexivity].
  unfold as_slice. destruct (c_exotic c); cbn [rbind]; [split; discriminate|]. destruct (c_load _ _) as [[? ?]|]; cbn [rbind]; split; discriminate.
Qed.
Lemma decodes_says {A} (k : codec A) L m id v : reads_layout (c_load k) (w_read L) -> (exists c, m !! id = Some c /\ decodes k c v) <-> says m id L v.
Proof.
  intros HL. unfold says, decodes. split.
  - intros (c & Hc & X & r & E). apply HL in E. destruct E as (x & Hx & E). eauto 8.
  - intros (c & x & r & Hc & X & Hx & E). exists c. split; [exact Hc|]. split; [exact X|]. exists r. apply HL. eauto.
Qed.
Lemma get_says R d m p L v : rules_ok fin R -> config R d m -> p_id p < 2 ^ 32 -> reads_layout (c_load (p_codec p)) (w_read L) -> (get d p = Ok (Some v) <-> says m (p_id p) L v).
Proof. intros HR C Hid HL. rewrite (config_load R d m p v HR C Hid). apply decodes_says, HL. Qed.

Lemma required_some {A} (x : res (option A)) v : required x = Ok v <-> x = Ok (Some v).
Proof. unfold required. destruct x as [[a|]|]; cbn [rbind]; split; congruence. Qed.
Lemma required_says R d m p L : rules_ok fin R -> config R d m -> p_id p < 2 ^ 32 -> reads_layout (c_load (p_codec p)) (w_read L) -> finds (required (get d p)) (says m (p_id p) L).
Proof. intros HR C Hid HL v. rewrite required_some. apply (get_says R); assumption. Qed.
Lemma fallback {A} (x y : res (option A)) (P Q : A -> Prop) (N : Prop) : (forall v, x = Ok (Some v) <-> P v) -> (x = Ok None <-> N) -> (forall v, P v -> ~ N) ->
  (forall v, y = Ok (Some v) <-> Q v) -> forall v, (let? o := x in match o with Some a => Ok (Some a) | None => y end) = Ok (Some v) <-> P v \/ N /\ Q v.
Proof.
  intros HP HN Ho HQ v. destruct x as [[a|]|e]; cbn [rbind].
  - rewrite <- HP. split; [auto|]. intros [E|[F _]]; [exact E|]. apply HN in F. discriminate.
  - rewrite HQ. split; [intros E; right; split; [apply HN; reflexivity|exact E]|]. intros [F|[_ E]]; [|exact E]. apply HP in F. discriminate.
  - split; [discriminate|]. intros [F|[F _]]; [apply HP in F|apply HN in F]; discriminate.
Qed.
Lemma says_there {A} m id (L : layout A) v : says m id L v -> m !! id <> None.
Proof. intros (c & _ & _ & E & _). congruence. Qed.

(** ** Writing *)
Lemma build_from_cell {A} (k : codec A) L v c : (forall a x, w_write L a x -> appends (c_store k a) x) -> (forall a, w_ok L a -> exists x, w_write L a x) -> w_ok L v -> build_from fin k v = Ok c ->
  exists x, w_write L v x /\ c = Cell false (fst x) (snd x).
Proof.
  intros HA HO O. unfold build_from. destruct (HO v O) as (x & W). pose proof (HA v x W) as E. specialize (E ([], []) ltac:(split; cbn; lia)).
  rewrite E. destruct (_ || _); [discriminate|]. rewrite nil_capp. cbn [rbind]. unfold build. destruct (fin _ _); [|discriminate]. intros [= <-]. eauto.
Qed.
Lemma writes_says {A} (k : codec A) L R d m id : rules_ok fin R -> lawful k L -> config R d m -> id < 2 ^ 32 ->
  writes_param R m id L (fun v => let? c := build_from fin k v in set_raw fin d id c).
Proof.
  intros HR HL C Hid v f d' O. destruct (build_from fin k v) as [c|] eqn:E; [|discriminate]. cbn [rbind]. intros S.
  apply (build_from_cell k L v c (law_store _ _ HL) (law_ok _ _ HL) O) in E. destruct E as (x & W & ->).
  destruct (config_set R d m id _ f d' HR C Hid S) as [-> C']. split; [reflexivity|]. exists (Cell false (fst x) (snd x)). split; [exact C'|].
  exists (Cell false (fst x) (snd x)), x, ([], []). rewrite lookup_insert. repeat split; [apply (law_same _ _ HL), W|]. rewrite capp_nil. destruct x; reflexivity.
Qed.

Section Ok.
Context (Hfin : forall b r, (length b <= 1023)%nat -> (length r <= 4)%nat -> fin b r = Ok tt).
Lemma set_raw_ok d m id c : config (canonical_dict fin) d m -> id < 2 ^ 32 -> exists d', set_raw fin d id c = Ok (true, d').
Proof.
  intros (Z & es & D & M) Hid. destruct (dict_exists fin Hfin 32 (<[nbits 32 id := ([], [c])]> (dmap es))) as (d' & es' & D' & M').
  { intros k v E. apply lookup_insert_Some in E. destruct E as [[<- <-]|[_ E]]; [split; [apply length_nbits|cbn; lia]|].
    assert (Lk : length k = 32%nat). { destruct d as [c0|]; [|cbn [is_dict] in D; subst es; discriminate]. cbn [is_dict] in D. apply hashmap_rep in D. destruct D as (t & Ht & ->). rewrite t_get_spec in E.
      eapply t_get_len; [eapply Rep_wft; exact Ht|exact E]. }
    split; [exact Lk|]. pose proof (nbits_bval k) as B. rewrite Lk in B. rewrite <- B in E. rewrite M in E by (pose proof (bval_lt k) as Y; rewrite Lk in Y; exact Y).
    destruct (m !! bval k); [|discriminate]. injection E as <-. cbn. lia. }
  exists d'. unfold set_raw, u32_key. apply (dict_insert_complete fin 32 d es _ _ MSet d' es'); try assumption; [lia|apply length_nbits|rewrite refused_stores; reflexivity].
Qed.
Lemma build_from_ok {A} (k : codec A) L v : lawful k L -> (w_bits L <= 1023)%nat -> (w_refs L <= 4)%nat -> w_ok L v -> exists c, build_from fin k v = Ok c.
Proof.
  intros HL B4 R4 O. destruct (law_ok _ _ HL v O) as (x & W). pose proof (law_bits _ _ HL v x W) as Lb. pose proof (law_refs _ _ HL v x W) as Lr.
  unfold build_from. rewrite (appends_empty _ x (law_store _ _ HL v x W)) by (split; lia). cbn [rbind]. unfold build. rewrite Hfin by lia. cbn [rbind]. eauto.
Qed.
Lemma always_says {A} (k : codec A) L d m id : lawful k L -> (w_bits L <= 1023)%nat -> (w_refs L <= 4)%nat -> config (canonical_dict fin) d m -> id < 2 ^ 32 ->
  always_writes L (fun v => let? c := build_from fin k v in set_raw fin d id c).
Proof. intros HL B4 R4 C Hid v O. destruct (build_from_ok k L v HL B4 R4 O) as (c & ->). cbn [rbind]. apply (set_raw_ok d m id c C Hid). Qed.
End Ok.
End Fin.
