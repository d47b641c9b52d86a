(** * Value flows, blocks, proofs and shard states *)
From Verif Require Import Err BitsProofs IntModel NumModel CellModel DictModel ChunkModel LazyModel ShardModel ShardSpec ShardProofs CurrencyModel CurrencySpec ChunkSpec ChunkProofs
  DeriveModel DeriveSpec StructsModel StructsSpec StructsProofs DeriveProps CasesSpec CasesProofs TxModel TxProofs ParamsSpec ParamsProofs BlockModel BlockSpec BlockProofs.
Local Open Scope N_scope.

Ltac runs := repeat (cbn [rbind okp negb fst snd]; try reflexivity;
  match goal with
  | H : ?e = _ |- context [rbind ?e _] => rewrite H
  | |- context [rbind ?e _] => lazymatch e with rbind _ _ => fail | (if _ then _ else _) => fail | Ok _ => fail | Err _ => fail
      | _ => let p := fresh "p" in let E := fresh "E" in destruct e as [p|] eqn:E; [lazymatch type of p with (_ * _)%type => destruct p | _ => idtac end|] end
  | |- context [if negb ?c then _ else _] => lazymatch c with true => fail | false => fail | _ => destruct c end
  | |- context [if ?c then _ else _] => lazymatch c with true => fail | false => fail | negb _ => fail | _ => destruct c end
  end).
Ltac by_law L := match goal with H : w_write _ _ ?y |- appends _ ?y => exact (law_store _ _ L _ _ H) end.
Ltac one := first [by_law (lawful_uint 8) | by_law (lawful_uint 16) | by_law (lawful_uint 32) | by_law (lawful_uint 64) | by_law lawful_bool | by_law (lawful_bytes 32) | by_law lawful_shard
  | by_law lawful_lazy | by_law lawful_cell | by_law lawful_dict | by_law lawful_currency | by_law (lawful_int 32 (Nat.lt_0_succ 31)) | by_law (lawful_opt _ _ lawful_lazy) | by_law (lawful_opt _ _ lawful_bref)
  | by_law lawful_block_id ].
Ltac reads_parts := repeat first [apply reads_unit | apply reads_pair | exact (reads_law (uint_k _) _ (lawful_uint _)) | exact (reads_law (bytes_k _) _ (lawful_bytes _)) | exact (law_load _ _ lawful_lazy) | exact (law_load _ _ lawful_cell)
  | exact (law_load _ _ lawful_dict) | exact (law_load _ _ lawful_currency) | exact (law_load _ _ lawful_bool) | exact (law_load _ _ lawful_shard) | exact (law_load _ _ lawful_block_id) | exact (law_load _ _ (lawful_int 32 (Nat.lt_0_succ 31)))
  | exact (law_load _ _ (lawful_opt _ _ lawful_lazy)) | exact (law_load _ _ (lawful_opt _ _ lawful_bref)) | apply reads_cell].

Section Fin.
Context (fin : list bool -> list cell -> res unit).
(** A value in a cell that is built before it is referred to. *)
Lemma built {A} (l : layout A) s a x : proper l -> (w_bits l <=? 1023)%nat = true -> (w_refs l <=? 4)%nat = true -> (forall y, w_write l a y -> appends s y) -> w_write (in_cell_w fin l) a x ->
  exists c, in_cell fin s = Ok c /\ x = ([], [c]).
Proof.
  rewrite !Nat.leb_le. intros P B R S (y & -> & Y & F). eexists. split; [|reflexivity]. apply in_cell_ok; [exact (S y Y)| | |exact F]; [pose proof (pr_bits _ P _ _ Y)|pose proof (pr_refs _ P _ _ Y)]; lia.
Qed.

(** ** Value flow *)
Definition four_l := pair_l load_cc (pair_l load_cc (pair_l load_cc (pair_l load_cc unit_l))).
Lemma reads_four : reads_layout four_l (w_read four_w).
Proof. unfold four_l, four_w. reads_parts. Qed.
Lemma proper_four : proper four_w.
Proof. unfold four_w. propers. Qed.
Lemma store_four a b c d y : w_write four_w (a, (b, (c, (d, tt)))) y -> appends (store_ccs [a; b; c; d]) y.
Proof.
  intros F. unfold four_w in F. unpack2 F. subst. rewrite capp_nil. apply (appends_ext (fun x => let? x := store_cc a x in let? x := store_cc b x in let? x := store_cc c x in store_cc d x)).
  - intros x _. unfold store_ccs. cbn [fold_left rbind]. destruct (store_cc a x) as [x1|]; cbn [rbind]; [|reflexivity]. destruct (store_cc b x1) as [x2|]; cbn [rbind]; [|reflexivity]. destruct (store_cc c x2); reflexivity.
  - repeat (apply appends_bind; [one|]). one.
Qed.
Lemma zero_burned c : cc_is_zero c = true <-> c = cc_zero.
Proof. unfold cc_is_zero, cc_zero. destruct c as [t [d|]]; cbn [cc_tokens cc_other]; rewrite ?andb_false_r, ?andb_true_r, ?N.eqb_eq; split; congruence. Qed.
Lemma proper_v1 : proper (flow_v1_w fin).
Proof. unfold flow_v1_w. propers; exact proper_four. Qed.
Lemma proper_v2 : proper (flow_v2_w fin).
Proof. unfold flow_v2_w. propers; exact proper_four. Qed.
Lemma flow_sizes : (w_bits (flow_v1_w fin) <= 282 /\ w_refs (flow_v1_w fin) <= 4 /\ w_bits (flow_v2_w fin) <= 282 /\ w_refs (flow_v2_w fin) <= 4)%nat.
Proof. cbn. lia. Qed.
Lemma proper_flow : proper (flow_w fin).
Proof.
  destruct flow_sizes as (S1 & S2 & S3 & S4). constructor; cbn [flow_w w_ok w_write w_read w_bits w_refs]; intros f; destruct (cc_is_zero (vf_burned f)) eqn:Z; intros.
  - exact (pr_ok _ proper_v1 _ H).
  - exact (pr_ok _ proper_v2 _ H).
  - left. split; [apply zero_burned, Z|exact (pr_same _ proper_v1 _ _ H)].
  - right. exact (pr_same _ proper_v2 _ _ H).
  - pose proof (pr_bits _ proper_v1 _ _ H). lia.
  - pose proof (pr_bits _ proper_v2 _ _ H). lia.
  - pose proof (pr_refs _ proper_v1 _ _ H). lia.
  - pose proof (pr_refs _ proper_v2 _ _ H). lia.
Qed.
Lemma store_flow_ok f x : w_write (flow_w fin) f x -> appends (store_value_flow fin f) x.
Proof.
  cbn [flow_w w_write]. unfold store_value_flow. destruct (cc_is_zero (vf_burned f)); cbn [negb]; intros (y & -> & F); unpack2 F; subst; rewrite capp_nil.
  - match goal with H : w_write (in_cell_w _ _) (four_prev f) _ |- _ => destruct (built _ (store_ccs [vf_from_prev f; vf_to_next f; vf_imported f; vf_exported f]) _ _ proper_four eq_refl eq_refl (store_four _ _ _ _) H) as (c1 & E1 & ->) end.
    match goal with H : w_write (in_cell_w _ _) (four_fees f) _ |- _ => destruct (built _ (store_ccs [vf_fees_imported f; vf_recovered f; vf_created f; vf_minted f]) _ _ proper_four eq_refl eq_refl (store_four _ _ _ _) H) as (c2 & E2 & ->) end.
    rewrite E1, E2. cbn [rbind]. apply appends_bind; [apply appends_prefix; reflexivity|]. apply appends_bind; [apply appends_ref|]. apply appends_bind; [one|]. apply appends_ref.
  - match goal with H : w_write (in_cell_w _ _) (four_prev f) _ |- _ => destruct (built _ (store_ccs [vf_from_prev f; vf_to_next f; vf_imported f; vf_exported f]) _ _ proper_four eq_refl eq_refl (store_four _ _ _ _) H) as (c1 & E1 & ->) end.
    match goal with H : w_write (in_cell_w _ _) (four_fees f) _ |- _ => destruct (built _ (store_ccs [vf_fees_imported f; vf_recovered f; vf_created f; vf_minted f]) _ _ proper_four eq_refl eq_refl (store_four _ _ _ _) H) as (c2 & E2 & ->) end.
    rewrite E1, E2. cbn [rbind]. apply appends_bind; [apply appends_prefix; reflexivity|]. apply appends_bind; [apply appends_ref|]. apply appends_bind; [one|]. apply appends_bind; [one|]. apply appends_ref.
Qed.
(** As the values are read: the fees and what was burned come before the references. *)
Definition loaded_v1 := tag_w 32 0xb8e48dfb w[currency_w, in_cell_w fin four_w, in_cell_w fin four_w].
Definition loaded_v2 := tag_w 32 0x3ebf98b7 w[currency_w, currency_w, in_cell_w fin four_w, in_cell_w fin four_w].
Definition four_t := (currency * (currency * (currency * (currency * unit))))%type.
Definition flow_of (fees burned : currency) (p q : four_t) : value_flow := let '(a, (b, (c, (d, _)))) := p in let '(e, (g, (h, (i, _)))) := q in ValueFlow a b c d fees burned e g h i.
Definition v1_l (b : chunk) : res (value_flow * chunk) := let? (v, b) := pair_l load_cc (pair_l (cell_l four_l) (pair_l (cell_l four_l) unit_l)) b in Ok (let '(fc, (p, (q, _))) := v in flow_of fc cc_zero p q, b).
Definition v2_l (b : chunk) : res (value_flow * chunk) := let? (v, b) := pair_l load_cc (pair_l load_cc (pair_l (cell_l four_l) (pair_l (cell_l four_l) unit_l))) b in Ok (let '(fc, (bu, (p, (q, _)))) := v in flow_of fc bu p q, b).
Lemma load_flow_eq b : okp (load_value_flow b) = okp (let? (t, b) := load_un 32 b in pick [(0xb8e48dfb, v1_l); (0x3ebf98b7, v2_l)] t b).
Proof.
  unfold load_value_flow. destruct (load_un 32 b) as [[t b1]|]; [|reflexivity]. cbn [rbind pick]. destruct (t =? 0xb8e48dfb); [|destruct (t =? 0x3ebf98b7); [|reflexivity]]; cbn [rbind]; unfold v1_l, v2_l, cell_l, four_l, from_cell, pair_l, unit_l.
  - destruct (load_cc b1) as [[fc b2]|]; [|reflexivity]. cbn [rbind]. runs.
  - destruct (load_cc b1) as [[fc b2]|]; [|reflexivity]. cbn [rbind]. destruct (load_cc b2) as [[bu b3]|]; [|reflexivity]. cbn [rbind]. runs.
Qed.
Definition flow_read (f : value_flow) (x : chunk) : Prop :=
  (vf_burned f = cc_zero /\ w_read loaded_v1 (vf_fees_collected f, (four_prev f, (four_fees f, tt))) x) \/ w_read loaded_v2 (vf_fees_collected f, (vf_burned f, (four_prev f, (four_fees f, tt)))) x.
Lemma reads_flow : reads_layout load_value_flow flow_read.
Proof.
  eapply reads_okp; [apply load_flow_eq|]. eapply reads_equiv; [|apply reads_tags; cbn [map fst]].
  2: { repeat constructor; cbn; intros H; intuition discriminate. }
  2: { repeat constructor; reflexivity. }
  2: { constructor; [|constructor; [|constructor]]; cbn [snd].
       - apply (reads_map (pair_l load_cc (pair_l (cell_l four_l) (pair_l (cell_l four_l) unit_l))) (fun v => let '(fc, (p, (q, _))) := v in flow_of fc cc_zero p q) (w_read w[currency_w, in_cell_w fin four_w, in_cell_w fin four_w])). reads_parts; exact reads_four.
       - apply (reads_map (pair_l load_cc (pair_l load_cc (pair_l (cell_l four_l) (pair_l (cell_l four_l) unit_l)))) (fun v => let '(fc, (bu, (p, (q, _)))) := v in flow_of fc bu p q) (w_read w[currency_w, currency_w, in_cell_w fin four_w, in_cell_w fin four_w])). reads_parts; exact reads_four. }
  intros f x. cbn [map fst picked]. unfold flow_read, loaded_v1, loaded_v2. cbn [tag_w w_read]. split.
  - intros [(y & -> & (fc & p & q & []) & -> & R)|[(y & -> & (fc & bu & p & q & []) & -> & R)|[]]]; [left|right].
    + destruct p as (? & ? & ? & ? & []), q as (? & ? & ? & ? & []). split; [reflexivity|]. exists y. auto.
    + destruct p as (? & ? & ? & ? & []), q as (? & ? & ? & ? & []). exists y. auto.
  - intros [(Z & y & -> & R)|(y & -> & R)].
    + left. exists y. split; [reflexivity|]. eexists. split; [|exact R]. destruct f. cbn in Z. subst. reflexivity.
    + right. left. exists y. split; [reflexivity|]. eexists. split; [|exact R]. destruct f. reflexivity.
Qed.
Lemma plain_bits c x : w_read currency_w c x -> cc_other c = None -> snd x = [].
Proof. intros [t d u v T D] E. cbn in E. subst d. destruct T as [t u T]. inversion D; subst. reflexivity. Qed.
Lemma swap_plain {A B} c (m : layout A) (r : layout B) y z u : cc_other c = None -> refs_w m -> w_read (seq_w currency_w (seq_w m r)) (c, (y, z)) u <-> w_read (seq_w m (seq_w currency_w r)) (y, (c, z)) u.
Proof.
  intros C M. assert (S : forall p q : chunk, snd p = [] -> fst q = [] -> capp p q = capp q p).
  { intros [p1 p2] [q1 q2]. cbn [fst snd]. intros -> ->. unfold capp. cbn [fst snd app]. rewrite !app_nil_r. reflexivity. }
  cbn [seq_w w_read fst snd]. split.
  - intros (p & ? & -> & P & q & s & -> & Q & R). exists q, (capp p s). rewrite capp_assoc, (S p q), <- capp_assoc by (eauto using plain_bits). split; [reflexivity|]. split; [exact Q|]. exists p, s. auto.
  - intros (q & ? & -> & Q & p & s & -> & P & R). exists p, (capp q s). rewrite capp_assoc, <- (S p q), <- capp_assoc by (eauto using plain_bits). split; [reflexivity|]. split; [exact P|]. exists q, s. auto.
Qed.
Lemma flow_plain f x : plain_fees f -> flow_read f x <-> w_read (flow_w fin) f x.
Proof.
  intros [P1 P2]. pose proof (refs_in_cell fin four_w) as I. unfold flow_read, loaded_v1, loaded_v2. cbn [flow_w w_read flow_v1_w flow_v2_w as_w].
  assert (H1 : w_read (tag_w 32 0xb8e48dfb w[currency_w, in_cell_w fin four_w, in_cell_w fin four_w]) (vf_fees_collected f, (four_prev f, (four_fees f, tt))) x <-> w_read (tag_w 32 0xb8e48dfb w[in_cell_w fin four_w, currency_w, in_cell_w fin four_w]) (four_prev f, (vf_fees_collected f, (four_fees f, tt))) x) by (apply tag_cong; intros u; apply swap_plain; assumption).
  assert (H2 : w_read (tag_w 32 0x3ebf98b7 w[currency_w, currency_w, in_cell_w fin four_w, in_cell_w fin four_w]) (vf_fees_collected f, (vf_burned f, (four_prev f, (four_fees f, tt)))) x <-> w_read (tag_w 32 0x3ebf98b7 w[in_cell_w fin four_w, currency_w, currency_w, in_cell_w fin four_w]) (four_prev f, (vf_fees_collected f, (vf_burned f, (four_fees f, tt)))) x).
  { apply tag_cong. intros u. etransitivity; [|apply swap_plain; assumption]. apply seq_cong. intros ?. apply swap_plain; assumption. }
  rewrite H1, H2. reflexivity.
Qed.

(** ** Blocks *)
Lemma lawful_exotic : lawful (Codec store_lazy (load_lazy true)) exotic_w.
Proof.
  constructor; cbn [exotic_w such_w w_ok w_write w_read w_bits w_refs c_store c_load].
  - intros c [_ E]. exists ([], [c]). split; [exact E|constructor].
  - intros c x [_ []]. apply appends_ref.
  - eapply reads_equiv; [|eapply reads_okp; [|apply (reads_filter load_ref cell_c c_exotic (fun c => c) UnexpectedOrdinaryCell reads_ref)]].
    + intros c x. split; [intros (d & -> & E & C); auto|intros [E C]; eauto].
    + intros b. unfold load_lazy, lazy_from_raw. destruct (load_ref b) as [[c b']|]; [|reflexivity]. cbn [rbind]. destruct (c_exotic c); reflexivity.
  - auto.
  - intros c x [_ []]. cbn. lia.
  - intros c x [_ []]. cbn. lia.
Qed.
Definition queue_l := pair_l (load_lazy true) (pair_l load_dict unit_l).
Definition block1_l (b : chunk) : res (block * chunk) :=
  let? (v, b) := pair_l (c_load (int_k 32)) (pair_l (load_lazy false) (pair_l (load_lazy false) (pair_l (load_lazy true) (pair_l (load_lazy false) unit_l)))) b in
  Ok (let '(g, (i, (f, (u, (e, _))))) := v in Block g i f u None e, b).
Definition block2_l (b : chunk) : res (block * chunk) :=
  let? (v, b) := pair_l (c_load (int_k 32)) (pair_l (load_lazy false) (pair_l (load_lazy false) (pair_l (cell_l queue_l) (pair_l (load_lazy false) unit_l)))) b in
  Ok (let '(g, (i, (f, ((u, (q, _)), (e, _))))) := v in Block g i f u (Some q) e, b).
Lemma load_block_eq b : okp (load_block b) = okp (let? (t, b) := load_un 32 b in pick [(0x11ef55aa, block1_l); (0x11ef55bb, block2_l)] t b).
Proof.
  unfold load_block. destruct (load_un 32 b) as [[t b1]|]; [|reflexivity]. cbn [rbind pick]. destruct (t =? 0x11ef55aa); [|destruct (t =? 0x11ef55bb); [|reflexivity]]; cbn [rbind]; unfold block1_l, block2_l, queue_l, cell_l, from_cell, pair_l, unit_l, int_k; cbn [c_load]; change (N.of_nat 32) with 32; runs.
Qed.
Lemma proper_block1 : proper block_v1_w.
Proof. unfold block_v1_w. propers. exact (lawful_proper _ _ lawful_exotic). Qed.
Lemma proper_queue : proper w[exotic_w, dict_w].
Proof. propers. exact (lawful_proper _ _ lawful_exotic). Qed.
Lemma proper_block2 : proper (block_v2_w fin).
Proof. unfold block_v2_w. propers; exact (lawful_proper _ _ lawful_exotic). Qed.
Lemma store_queue u q y : w_write w[exotic_w, dict_w] (u, (q, tt)) y -> appends (fun b => let? b := store_lazy u b in store_dict q b) y.
Proof. intros F. unpack2 F. subst. rewrite capp_nil. apply appends_bind; [by_law lawful_exotic|one]. Qed.
Lemma lawful_block : lawful (block_k fin) (block_w fin).
Proof.
  apply lawful_cases.
  - intros [g i f u [q|] e]; cbn [br_layout br_prefix bl_queue bl_global_id bl_info bl_flow bl_update bl_extra]; (split; [first [exact proper_block1 | exact proper_block2]|]); vm_compute; lia.
  - intros [g i f u [q|] e] y; cbn [br_layout br_prefix br_value bl_queue bl_global_id bl_info bl_flow bl_update bl_extra block_k c_store]; rewrite nil_capp; unfold store_block; cbn [some bl_queue bl_global_id bl_info bl_flow bl_update bl_extra]; intros (x1 & -> & F); unpack2 F; subst; rewrite capp_nil.
    + match goal with H : w_write (in_cell_w _ _) _ _ |- _ => destruct (built _ _ _ _ proper_queue eq_refl eq_refl (store_queue u q) H) as (c & E & ->) end. rewrite E. cbn [rbind].
      apply appends_bind; [apply appends_prefix; reflexivity|]. apply appends_bind; [one|]. apply appends_bind; [one|]. apply appends_bind; [one|]. apply appends_bind; [apply appends_ref|]. one.
    + apply appends_bind; [apply appends_prefix; reflexivity|]. apply appends_bind; [one|]. apply appends_bind; [one|]. apply appends_bind; [one|]. apply appends_bind; [by_law lawful_exotic|]. one.
  - eapply reads_okp; [apply load_block_eq|]. eapply reads_equiv; [|apply reads_tags; cbn [map fst]].
    2: { repeat constructor; cbn; intros H; intuition discriminate. }
    2: { repeat constructor; reflexivity. }
    2: { constructor; [|constructor; [|constructor]]; cbn [snd].
         - apply (reads_map (pair_l (c_load (int_k 32)) (pair_l (load_lazy false) (pair_l (load_lazy false) (pair_l (load_lazy true) (pair_l (load_lazy false) unit_l))))) (fun v => let '(g, (i, (f, (u, (e, _))))) := v in Block g i f u None e) (w_read w[int_w 32, lazy_w, lazy_w, exotic_w, lazy_w])).
           reads_parts. exact (law_load _ _ lawful_exotic).
         - apply (reads_map (pair_l (c_load (int_k 32)) (pair_l (load_lazy false) (pair_l (load_lazy false) (pair_l (cell_l queue_l) (pair_l (load_lazy false) unit_l))))) (fun v => let '(g, (i, (f, ((u, (q, _)), (e, _))))) := v in Block g i f u (Some q) e) (w_read w[int_w 32, lazy_w, lazy_w, in_cell_w fin w[exotic_w, dict_w], lazy_w])).
           unfold queue_l. reads_parts. exact (law_load _ _ lawful_exotic). }
    intros b x. cbn [map fst picked]. split.
    + intros [(y & -> & (g & i & f & u & e & []) & -> & R)|[(y & -> & (g & i & f & (u & q & []) & e & []) & -> & R)|[]]]; cbn [br_layout br_prefix br_value bl_queue bl_global_id bl_info bl_flow bl_update bl_extra]; eexists; (split; [symmetry; apply nil_capp|]); exists y; auto.
    + destruct b as [g i f u [q|] e]; cbn [br_layout br_prefix br_value bl_queue bl_global_id bl_info bl_flow bl_update bl_extra]; intros (z & -> & y & -> & R); rewrite nil_capp.
      * right. left. exists y. split; [reflexivity|]. eexists. split; [|exact R]. reflexivity.
      * left. exists y. split; [reflexivity|]. eexists. split; [|exact R]. reflexivity.
Qed.

(** ** Block extra *)
Lemma lawful_block_extra : lawful block_extra_k block_extra_w.
Proof.
  apply proper_lawful.
  - unfold block_extra_w, hash_w. propers.
  - intros [i o a s c m] x (y & -> & F). unfold hash_w in F. unpack2 F. subst. rewrite capp_nil. cbn [block_extra_k c_store]. unfold store_block_extra. cbn [be_in be_out be_accounts be_seed be_created_by be_custom].
    apply appends_bind; [apply appends_prefix; reflexivity|]. repeat (apply appends_bind; [one|]). one.
  - apply (reads_same (tag_l 32 0x4a33f6fd (pair_l (load_lazy false) (pair_l (load_lazy false) (pair_l (load_lazy false) (pair_l (load_bs 32) (pair_l (load_bs 32) (pair_l (load_opt_c (load_lazy false)) unit_l))))))) _ _
      (fun v => let '(i, (o, (a, (s, (c, (m, _)))))) := v in BlockExtra i o a s c m)).
    + apply reads_tag_l; [reflexivity|]. unfold hash_w. reads_parts.
    + intros b. cbn [block_extra_k c_load]. unfold load_block_extra, tag_l, pair_l, unit_l. runs.
    + intros (i & o & a & s & c & m & []) x _. reflexivity.
    + intros []. reflexivity.
Qed.
Lemma lawful_nonempty : lawful params_k nonempty_w.
Proof.
  constructor; cbn [nonempty_w exact_w w_ok w_write w_read w_bits w_refs params_k c_store c_load].
  - intros [c|] H; [exists ([], [c]); eauto|contradiction].
  - intros d x (c & -> & ->). apply appends_ref.
  - eapply reads_equiv; [|apply (reads_map load_ref Some cell_c reads_ref)]. intros d x. split; [intros (c & -> & []); eauto|intros (c & -> & ->); exists c; split; [reflexivity|constructor]].
  - auto.
  - intros d x (c & -> & ->). cbn. lia.
  - intros d x (c & -> & ->). cbn. lia.
Qed.
Lemma lawful_config : lawful (derived config) config_w.
Proof. apply fits_plain. apply fits_cons; [exact (lawful_bytes 32)|]. apply fits_cons; [exact lawful_nonempty|]. apply fits_nil. Qed.
Lemma lawful_shard_fees : lawful (derived shard_fees) shard_fees_w.
Proof. apply fits_plain. apply fits_cons; [exact lawful_dict|]. apply fits_cons; [|apply fits_nil]. cbn [sub plain f_codec]. struct_by. Qed.
Lemma lawful_old_blocks : lawful (derived old_blocks) old_blocks_w.
Proof. apply fits_plain. apply fits_cons; [exact lawful_dict|]. apply fits_cons; [|apply fits_nil]. cbn [sub plain f_codec]. struct_by. Qed.
Lemma lawful_validator_info : lawful (derived validator_info) validator_info_w.
Proof. struct_by. Qed.
Lemma lawful_signatures : lawful (derived block_signatures) block_signatures_w.
Proof. struct_by. Qed.
Lemma lawful_split : lawful (derived shard_state_split) shard_state_split_w.
Proof. struct_by. Qed.

(** ** Masterchain block extra *)
Definition sigs_w := w[dict_w, maybe_w lazy_w, maybe_w lazy_w].
Definition sigs_l := pair_l load_dict (pair_l (load_opt_c (load_lazy false)) (pair_l (load_opt_c (load_lazy false)) unit_l)).
Lemma proper_sigs : proper sigs_w.
Proof. unfold sigs_w. propers. Qed.
Lemma store_sigs d r m y : w_write sigs_w (d, (r, (m, tt))) y -> appends (fun b => let? b := store_dict d b in let? b := store_opt_c store_lazy r b in store_opt_c store_lazy m b) y.
Proof. intros F. unfold sigs_w in F. unpack2 F. subst. rewrite capp_nil. repeat (apply appends_bind; [one|]). one. Qed.
Definition extra_tail_l (k : bool * unit) := pair_l load_dict (pair_l (c_load (derived shard_fees)) (pair_l (cell_l sigs_l) (pair_l (load_if (fst k) (c_load (derived config))) unit_l))).
Lemma lawful_mc_extra : lawful (mc_extra_k fin) (mc_extra_w fin).
Proof.
  apply proper_lawful.
  - apply proper_as, proper_tag, proper_dep; [propers|]. intros [k []]. split; [|vm_compute; lia]. propers. apply proper_when, (lawful_proper _ _ lawful_config).
  - intros [sh fe si re mi co] x (y & -> & p & q & -> & F & G). cbn [fst snd mc_config mc_shards mc_fees mc_signatures mc_recover mc_mint] in *. unpack2 F. unpack2 G. subst. rewrite !capp_nil.
    match goal with H : w_write (in_cell_w _ _) _ _ |- _ => destruct (built _ _ _ _ proper_sigs eq_refl eq_refl (store_sigs si re mi) H) as (c & E & ->) end.
    cbn [mc_extra_k c_store]. unfold store_mc_extra. cbn [mc_config mc_shards mc_fees mc_signatures mc_recover mc_mint]. rewrite E. cbn [rbind].
    apply appends_bind; [apply appends_prefix; reflexivity|]. apply appends_bind; [one|]. apply appends_bind; [one|]. apply appends_bind; [by_law lawful_shard_fees|]. apply appends_bind; [apply appends_ref|].
    match goal with H : w_write (when_w _ _) _ _ |- _ => exact (appends_when _ _ _ _ _ (law_store _ _ lawful_config) H) end.
  - apply (reads_same (tag_l 16 0xcca5 (dep_l (pair_l load_bool unit_l) extra_tail_l)) _ _
      (fun v => let '(_, (sh, (fe, ((si, (re, (mi, _))), (co, _))))) := v in McExtra sh fe si re mi co)).
    + apply reads_tag_l; [reflexivity|]. apply reads_dep; [reads_parts|]. intros [k []]. unfold extra_tail_l, sigs_l. reads_parts; [exact (law_load _ _ lawful_shard_fees)|]. apply reads_when, (law_load _ _ lawful_config).
    + intros b. cbn [mc_extra_k c_load]. unfold load_mc_extra, tag_l, dep_l, extra_tail_l, sigs_l, cell_l, from_cell, pair_l, unit_l. runs.
    + intros ((k & []) & sh & fe & (si & re & mi & []) & co & []) x (y & -> & p & q & -> & _ & G). cbn [fst snd] in G. unpack2 G. cbn [mc_config mc_shards mc_fees mc_signatures mc_recover mc_mint]. repeat f_equal.
      match goal with H : w_read (when_w _ _) _ _ |- _ => cbn [when_w w_read] in H; destruct co; destruct H as [-> _]; reflexivity end.
    + intros []. reflexivity.
Qed.

(** ** Block proofs *)
Definition opt_sigs_l (b : chunk) : res (option (vals (s_fields block_signatures)) * chunk) := load_opt_c (cell_l (c_load (derived block_signatures))) b.
Lemma lawful_block_proof : lawful (block_proof_k fin) (block_proof_w fin).
Proof.
  apply proper_lawful.
  - unfold block_proof_w. propers; first [exact (lawful_proper _ _ lawful_block_id)|exact (lawful_proper _ _ lawful_signatures)|exact (lawful_proper _ _ lawful_shard)].
  - intros [i r s] x (y & -> & F). cbn [pf_for pf_root pf_signatures] in F. unpack2 F. subst. rewrite capp_nil. cbn [block_proof_k c_store]. unfold store_block_proof. cbn [pf_for pf_root pf_signatures].
    match goal with H : w_write (maybe_w _) _ _ |- _ => cbn [maybe_w w_write] in H; inversion H as [|s' z W]; subst; clear H end.
    + cbn [rbind]. apply appends_bind; [apply appends_prefix; reflexivity|]. apply appends_bind; [one|]. apply appends_bind; [one|]. apply appends_flag.
    + destruct (built _ _ _ _ (lawful_proper _ _ lawful_signatures) eq_refl eq_refl (law_store _ _ lawful_signatures s') W) as (c & E & ->). rewrite E. cbn [rbind].
      apply appends_bind; [apply appends_prefix; reflexivity|]. apply appends_bind; [one|]. apply appends_bind; [one|]. change (true :: fst ([], [c]), snd ([], [c])) with (capp ([true], []) ([], [c])). apply appends_bind; [apply appends_flag|apply appends_ref].
  - apply (reads_same (tag_l 8 0xc3 (pair_l (c_load block_id_k) (pair_l load_ref (pair_l opt_sigs_l unit_l)))) _ _ (fun v => let '(i, (r, (s, _))) := v in BlockProof i r s)).
    + apply reads_tag_l; [reflexivity|]. reads_parts. apply (reads_opt (cell_l (c_load (derived block_signatures)))), (reads_cell fin), (law_load _ _ lawful_signatures).
    + intros b. cbn [block_proof_k c_load]. unfold load_block_proof, load_bool, tag_l, opt_sigs_l, load_opt_c, cell_l, pair_l, unit_l. runs.
    + intros (i & r & s & []) x _. reflexivity.
    + intros []. reflexivity.
Qed.
End Fin.
