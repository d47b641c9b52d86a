(** * Shard states and the masterchain's extra state *)
From Verif Require Import Err BitsProofs IntModel NumModel CellModel DictModel ChunkModel LazyModel ShardModel ShardSpec ShardProofs CurrencyModel CurrencySpec ChunkSpec ChunkProofs
  DeriveModel DeriveSpec StructsModel StructsSpec StructsProofs DeriveProps CasesSpec CasesProofs TxModel TxProofs ParamsSpec ParamsProofs BlockModel BlockSpec BlockProofs BlockProofs2.
Local Open Scope N_scope.

Section Fin.
Context (fin : list bool -> list cell -> res unit).
(** ** Shard states *)
Lemma pull2 {A B1 B2 C} (a : layout A) (b1 : layout B1) (b2 : layout B2) (r : layout C) x y1 y2 z u : bits_w a -> refs_w b1 -> refs_w b2 ->
  w_read (seq_w b1 (seq_w b2 (seq_w a r))) (y1, (y2, (x, z))) u <-> w_read (seq_w a (seq_w b1 (seq_w b2 r))) (x, (y1, (y2, z))) u.
Proof. intros Ba R1 R2. rewrite (swap a b1) by assumption. apply seq_cong. intros ?. symmetry. apply swap; assumption. Qed.
Lemma pull3 {A B1 B2 B3 C} (a : layout A) (b1 : layout B1) (b2 : layout B2) (b3 : layout B3) (r : layout C) x y1 y2 y3 z u : bits_w a -> refs_w b1 -> refs_w b2 -> refs_w b3 ->
  w_read (seq_w b1 (seq_w b2 (seq_w b3 (seq_w a r)))) (y1, (y2, (y3, (x, z)))) u <-> w_read (seq_w a (seq_w b1 (seq_w b2 (seq_w b3 r)))) (x, (y1, (y2, (y3, z)))) u.
Proof. intros Ba R1 R2 R3. rewrite (swap a b1) by assumption. apply seq_cong. intros ?. apply pull2; assumption. Qed.
Lemma bits_int n : bits_w (int_w n). Proof. intros a x [_ ->]. reflexivity. Qed.
Lemma bits_shard : bits_w shard_w. Proof. intros a x (wc & p & rest & _ & _ & _ & _ & ->). reflexivity. Qed.
Lemma bits_bool : bits_w bool_w. Proof. intros a x []. reflexivity. Qed.
Lemma refs_ref : refs_w ref_w. Proof. intros a x []. reflexivity. Qed.
Lemma refs_lazy : refs_w lazy_w. Proof. intros a x [_ []]. reflexivity. Qed.

Definition unsplit_loaded_w := tag_w 32 0x9023afe2 w[ref_w, lazy_w, in_cell_w fin unsplit_cell_w, int_w 32, shard_w, u32_w, u32_w, u32_w, u64_w, u32_w, bool_w, maybe_w lazy_w].
Definition unsplit_cell_l := pair_l (load_un 64) (pair_l (load_un 64) (pair_l load_cc (pair_l load_cc (pair_l load_dict (pair_l (load_opt_c (c_load (derived block_ref))) unit_l))))).
Definition unsplit_l := tag_l 32 0x9023afe2 (pair_l load_ref (pair_l (load_lazy false) (pair_l (cell_l unsplit_cell_l) (pair_l (c_load (int_k 32)) (pair_l (c_load shard_k) (pair_l (load_un 32) (pair_l (load_un 32) (pair_l (load_un 32)
  (pair_l (load_un 64) (pair_l (load_un 32) (pair_l load_bool (pair_l (load_opt_c (load_lazy false)) unit_l)))))))))))).
Definition cell_of (x : unsplit) := (us_overload x, (us_underload x, (us_balance x, (us_fees x, (us_libraries x, (us_master_ref x, tt)))))).
Definition unsplit_view (x : unsplit) := (us_queue x, (us_accounts x, (cell_of x, (us_global_id x, (us_shard x, (us_seqno x, (us_vert_seqno x, (us_utime x, (us_lt x, (us_min_ref x, (us_before_split x, (us_custom x, tt)))))))))))).
Lemma proper_unsplit_cell : proper unsplit_cell_w.
Proof. unfold unsplit_cell_w, u64_w. propers. Qed.
Lemma store_unsplit_cell_ok x y : w_write unsplit_cell_w (cell_of x) y -> appends (store_unsplit_cell x) y.
Proof. unfold unsplit_cell_w, u64_w, cell_of. intros F. unpack2 F. subst. rewrite capp_nil. unfold store_unsplit_cell. repeat (apply appends_bind; [one|]). one. Qed.
Lemma reads_unsplit_cell : reads_layout unsplit_cell_l (w_read unsplit_cell_w).
Proof. unfold unsplit_cell_l, unsplit_cell_w, u64_w. reads_parts. Qed.
Lemma reads_unsplit : reads_layout load_unsplit (w_read (as_w unsplit_view unsplit_loaded_w)).
Proof.
  apply (reads_same unsplit_l _ _ (fun v => let '(q, (a, ((ov, (un, (tb, (vf, (li, (ma, _)))))), (g, (sh, (sq, (vs, (ut, (lt, (mr, (bs, (cu, _)))))))))))) := v in Unsplit' g sh sq vs ut lt mr q bs a ov un tb vf li ma cu)).
  - apply reads_tag_l; [reflexivity|]. unfold u32_w, u64_w. reads_parts.
  - intros b. unfold load_unsplit, unsplit_l, tag_l, cell_l, unsplit_cell_l, from_cell, pair_l, unit_l, int_k. cbn [c_load]. change (N.of_nat 32) with 32. runs.
  - intros (q & a & (ov & un & tb & vf & li & ma & []) & g & sh & sq & vs & ut & lt & mr & bs & cu & []) x _. reflexivity.
  - intros []. reflexivity.
Qed.
Lemma unsplit_order x u : w_read (as_w unsplit_view unsplit_loaded_w) x u <-> w_read (unsplit_w fin) x u.
Proof.
  unfold unsplit_w. cbn [as_w w_read]. apply tag_cong. intros z. unfold unsplit_view. fold (cell_of x).
  do 7 (etransitivity; [apply pull3; first [apply bits_int|apply bits_shard|apply bits_uint|apply refs_ref|apply refs_lazy|apply refs_in_cell]|]; apply seq_cong; intros ?).
  apply seq_cong. intros ?. apply pull2; [apply bits_bool|apply refs_lazy|apply refs_in_cell].
Qed.
Lemma lawful_unsplit : lawful (unsplit_k fin) (unsplit_w fin).
Proof.
  apply proper_lawful.
  - unfold unsplit_w, u32_w, u64_w. propers; first [exact (lawful_proper _ _ lawful_shard)|exact proper_unsplit_cell].
  - intros x y (z & -> & F). unfold u32_w, u64_w in F. fold (cell_of x) in F. unpack2 F. subst. rewrite capp_nil. cbn [unsplit_k c_store]. unfold store_unsplit.
    match goal with H : w_write (in_cell_w _ _) _ _ |- _ => destruct (built fin _ _ _ _ proper_unsplit_cell eq_refl eq_refl (store_unsplit_cell_ok x) H) as (c & E & ->) end. rewrite E. cbn [rbind].
    apply appends_bind; [apply appends_prefix; reflexivity|]. do 10 (apply appends_bind; [one|]). apply appends_bind; [apply appends_ref|]. one.
  - eapply reads_equiv; [|exact reads_unsplit]. exact unsplit_order.
Qed.
Lemma starts_unsplit x y : w_read (unsplit_w fin) x y -> exists t, fst y = true :: t.
Proof. intros (z & -> & _). eexists. reflexivity. Qed.
Lemma starts_split x y : w_read shard_state_split_w x y -> exists t, fst y = false :: t.
Proof. intros (z & -> & _). eexists. reflexivity. Qed.
Lemma lawful_shard_state : lawful (shard_state_k fin) (shard_state_w fin).
Proof.
  apply lawful_cases.
  - intros [x|x]; cbn [br_layout br_prefix]; (split; [first [exact (lawful_proper _ _ lawful_unsplit)|exact (lawful_proper _ _ lawful_split)]|]); vm_compute; lia.
  - intros [x|x] y; cbn [br_layout br_prefix br_value shard_state_k c_store store_shard_state]; rewrite nil_capp; intros Y; [exact (law_store _ _ lawful_unsplit x y Y)|exact (law_store _ _ lawful_split x y Y)].
  - intros b s r. cbn [shard_state_k c_load]. unfold load_shard_state. split.
    + destruct (fst b) as [|[] t]; [discriminate| |].
      * destruct (load_unsplit b) as [[x b']|] eqn:E; [|discriminate]. cbn [rbind]. intros [= <- <-]. apply (law_load _ _ lawful_unsplit) in E. destruct E as (y & Y & ->). exists y. cbn [br_layout br_prefix br_value]. split; [|reflexivity]. exists y. rewrite nil_capp. auto.
      * destruct (c_load (derived shard_state_split) b) as [[x b']|] eqn:E; [|discriminate]. cbn [rbind]. intros [= <- <-]. apply (law_load _ _ lawful_split) in E. destruct E as (y & Y & ->). exists y. cbn [br_layout br_prefix br_value]. split; [|reflexivity]. exists y. rewrite nil_capp. auto.
    + intros (y & (z & -> & Z) & ->). destruct s as [x|x]; cbn [br_layout br_prefix br_value] in *; rewrite nil_capp.
      * destruct (starts_unsplit _ _ Z) as [t T]. destruct z as [zb zr]. cbn [fst] in T. subst zb. unfold capp. cbn [fst snd app].
        change (true :: t ++ fst r, zr ++ snd r) with (capp (true :: t, zr) r). pose proof (proj2 (law_load _ _ lawful_unsplit (capp (true :: t, zr) r) x r) (ex_intro _ _ (conj Z eq_refl))) as L. cbn [unsplit_k c_load] in L. rewrite L. reflexivity.
      * destruct (starts_split _ _ Z) as [t T]. destruct z as [zb zr]. cbn [fst] in T. subst zb. unfold capp. cbn [fst snd app].
        change (false :: t ++ fst r, zr ++ snd r) with (capp (false :: t, zr) r). rewrite (proj2 (law_load _ _ lawful_split (capp (false :: t, zr) r) x r) (ex_intro _ _ (conj Z eq_refl))). reflexivity.
Qed.

(** ** Masterchain state extra *)
Definition state_flags_l (b : chunk) : res ((unit * (bool * unit)) * chunk) :=
  let? (v, b) := load_un (14 + 2) b in if negb (N.shiftr v (N.of_nat 2) =? 0) then Err InvalidData else Ok ((tt, (has v 1, tt)), b).
Lemma reads_state_flags : reads_layout state_flags_l (w_read (tag_w 14 0 w[unused_w, bool_w])).
Proof.
  apply (reads_padded 14 2 (fun v => (tt, (has v 1, tt)))). eapply reads_equiv; [|apply (reads_map (load_un 2) (fun v => (tt, (has v 1, tt)))), reads_un].
  intros (u & k & v) x. destruct u, v. cbn [seq_w end_w w_read fst snd unused_w bool_w exact_w]. split.
  - intros (v & [= ->] & V). apply flags2 in V. destruct V as [_ ->]. exists (flag (has v 2)), (capp (flag (has v 1)) ([], [])). split; [rewrite capp_nil; reflexivity|]. split; [eexists; reflexivity|]. eexists _, _. split; [reflexivity|]. split; [constructor|]. auto.
  - intros (p & q & -> & (f & ->) & p' & q' & -> & B & ->). inversion B; subst. rewrite capp_nil. destruct (has_flags2 f k) as [F1 F2]. exists (N.lor (N.shiftl (b2n f) 1) (b2n k)). rewrite F2. split; [reflexivity|]. apply flags2. rewrite F1, F2. auto.
Qed.
Lemma proper_unused : proper unused_w.
Proof.
  constructor; cbn [unused_w w_ok w_write w_read w_bits w_refs].
  - intros ? _. eexists. reflexivity.
  - intros ? x ->. eexists. reflexivity.
  - intros ? x ->. cbn. lia.
  - intros ? x ->. cbn. lia.
Qed.
Definition stats_l := tag_l 8 0x17 load_dict.
Definition state_tail_l (k : unit * (bool * unit)) :=
  pair_l (c_load (derived validator_info)) (pair_l (c_load (derived old_blocks)) (pair_l load_bool (pair_l (load_opt_c (c_load (derived block_ref))) (pair_l (load_if (fst (snd k)) stats_l) unit_l)))).
Lemma reads_state_cell : reads_layout (dep_l state_flags_l state_tail_l) (w_read mc_state_cell_w).
Proof.
  apply reads_dep; [exact reads_state_flags|]. intros (u & k & v). unfold state_tail_l. repeat first [apply reads_unit | apply reads_pair].
  - exact (law_load _ _ lawful_validator_info).
  - exact (law_load _ _ lawful_old_blocks).
  - exact (law_load _ _ lawful_bool).
  - exact (law_load _ _ (lawful_opt _ _ lawful_bref)).
  - apply reads_when, reads_tag_l; [reflexivity|exact (law_load _ _ lawful_dict)].
Qed.
Lemma proper_state_cell : proper mc_state_cell_w.
Proof.
  apply proper_dep; [propers; exact proper_unused|]. intros (u & k & v). split; [|vm_compute; lia].
  repeat first [exact (lawful_proper _ _ lawful_validator_info)|exact (lawful_proper _ _ lawful_old_blocks)|exact (lawful_proper _ _ lawful_bool)|exact proper_end|apply proper_maybe, (lawful_proper _ _ lawful_bref)|apply proper_when; unfold stats_w; propers|apply proper_seq].
Qed.
Lemma appends_state_flags (k : bool) : appends (store_un 16 (b2n k)) (capp (nbits 14 0, []) (capp (flag false) (flag k))).
Proof. replace (capp (nbits 14 0, []) (capp (flag false) (flag k))) with (nbits 16 (b2n k), @nil cell) by (destruct k; reflexivity). apply (law_store _ _ (lawful_uint 16)). constructor. destruct k; reflexivity. Qed.
Lemma store_state_cell_ok x y : w_write mc_state_cell_w (mc_state_inner x) y -> appends (store_mc_state_cell x) y.
Proof.
  intros (p & q & -> & (p' & -> & F) & G). unfold mc_state_inner in F, G. cbn [fst snd] in F, G. unpack2 F. unpack2 G. subst. rewrite !capp_nil. unfold store_mc_state_cell.
  match goal with H : w_write unused_w _ _ |- _ => cbn [unused_w w_write] in H; subst end. match goal with H : w_write bool_w (some (ms_stats x)) _ |- _ => apply bool_written in H; subst end.
  apply appends_bind; [apply appends_state_flags|]. apply appends_bind; [by_law lawful_validator_info|]. apply appends_bind; [by_law lawful_old_blocks|]. apply appends_bind; [one|]. apply appends_bind; [one|].
  match goal with H : w_write (when_w _ _) _ _ |- _ => refine (appends_when _ _ _ _ _ _ H) end. intros d y (z & -> & D). apply appends_bind; [apply appends_prefix; reflexivity|one].
Qed.
Lemma lawful_mc_state : lawful (mc_state_k fin) (mc_state_w fin).
Proof.
  apply proper_lawful.
  - unfold mc_state_w. apply proper_as, proper_tag. repeat first [exact (lawful_proper _ _ lawful_dict)|exact (lawful_proper _ _ lawful_config)|exact proper_end|exact (lawful_proper _ _ lawful_currency)|apply proper_in_cell, proper_state_cell|apply proper_seq].
  - intros x y (z & -> & F). cbn [seq_w w_write fst snd] in F. unpack2 F. subst. rewrite capp_nil. cbn [mc_state_k c_store]. unfold store_mc_state.
    match goal with H : w_write (in_cell_w _ _) _ _ |- _ => destruct (built fin _ _ _ _ proper_state_cell eq_refl eq_refl (store_state_cell_ok x) H) as (c & E & ->) end. rewrite E. cbn [rbind].
    apply appends_bind; [apply appends_prefix; reflexivity|]. apply appends_bind; [one|]. apply appends_bind; [by_law lawful_config|]. apply appends_bind; [apply appends_ref|]. one.
  - apply (reads_same (tag_l 16 0xcc26 (pair_l load_dict (pair_l (c_load (derived config)) (pair_l (cell_l (dep_l state_flags_l state_tail_l)) (pair_l load_cc unit_l))))) _ _
      (fun v => let '(sh, (co, ((_, (vi, (pb, (ak, (lk, (st, _)))))), (gb, _)))) := v in McState sh co vi pb ak lk st gb)).
    + apply reads_tag_l; [reflexivity|]. repeat first [apply reads_unit | apply reads_pair]; [exact (law_load _ _ lawful_dict)|exact (law_load _ _ lawful_config)|apply reads_cell, reads_state_cell|exact (law_load _ _ lawful_currency)].
    + intros b. cbn [mc_state_k c_load]. unfold load_mc_state, tag_l, cell_l, dep_l, state_flags_l, state_tail_l, stats_l, from_cell, tag_l, pair_l, unit_l. change (14 + 2)%nat with 16%nat. change (N.of_nat 2) with 2. runs.
    + intros (sh & co & ((u & k & w) & vi & pb & ak & lk & st & []) & gb & []) x (y & -> & F). destruct u, w. unfold mc_state_inner. cbn [ms_shards ms_config ms_validators ms_prev_blocks ms_after_key ms_last_key ms_stats ms_balance].
      cbn [seq_w w_read fst snd] in F. destruct F as (x1 & ? & -> & _ & x2 & ? & -> & _ & x3 & ? & -> & (y3 & r3 & -> & p & q & -> & _ & G) & _). cbn [fst snd seq_w w_read] in G.
      destruct G as (? & ? & -> & _ & ? & ? & -> & _ & ? & ? & -> & _ & ? & ? & -> & _ & ? & ? & -> & W & _). cbn [when_w w_read] in W. destruct st; destruct W as [-> _]; reflexivity.
    + intros []. reflexivity.
Qed.
End Fin.
