(** * [CellBuilder] refines bit strings with references. *)
From Verif Require Import Err BitsProofs BufProofs BuilderModel BuilderProofs SliceModel SliceSpec SliceProofs CellBuilderModel BuilderSpec.
Local Open Scope nat_scope.
Ltac Zify.zify_post_hook ::= Z.div_mod_to_equations.

Section P.
Context {R : Type}.
Implicit Types (c : cb R) (o : bop R).

Definition cbrep c (x : content (R := R)) : Prop :=
  brep (cbd c) (fst x) /\ cb_refs c = snd x /\ length (snd x) <= 4.

Lemma brep_data_bits b B : brep b B -> data_bits b = B.
Proof.
  intros ((L & _ & k & E) & HL & HB). unfold data_bits. rewrite E, HL, Nat2N.id. apply take_app.
Qed.

Lemma cbrep_obs c x : cbrep c x -> obs c = x.
Proof.
  intros (H1 & H2 & _). destruct x as [B r]. unfold obs. cbn [fst snd] in *.
  rewrite (brep_data_bits _ _ H1), H2. reflexivity.
Qed.

Lemma cbrep_new : cbrep cb_new ([], []).
Proof. split; [apply brep_new|]. split; [reflexivity|]. cbn. lia. Qed.

(** The statement proved for every operation. *)
Definition refines (op : cb R -> res unit * cb R) (sp : content -> res unit * content) : Prop :=
  forall c x, cbrep c x -> exists c', op c = (fst (sp x), c') /\ cbrep c' (snd (sp x)).

Definition sp_append (x : content) (c : content (R := R)) : res unit * content (R := R) :=
  let c' := (fst c ++ fst x, snd c ++ snd x) in
  if fits c' then (Ok tt, c') else (Err CellOverflow, c).

Lemma fits_data (B X : list bool) (r : list R) : length r <= 4 ->
  fits (B ++ X, r ++ []) = (length B + length X <=? 1023).
Proof.
  intros H. unfold fits. cbn [fst snd]. rewrite app_nil_r, app_length.
  destruct (Nat.leb_spec (length r) 4); [|lia]. apply andb_true_r.
Qed.

Lemma refines_data op X : appends op X -> refines (on_data op) (sp_append (X, [])).
Proof.
  intros H c [B r] (H1 & H2 & H3). cbn [fst snd] in *. unfold sp_append. cbn [fst snd].
  rewrite fits_data by exact H3. destruct (H _ _ H1) as [Ha Hb]. unfold on_data.
  destruct (Nat.leb_spec (length B + length X) 1023) as [G|G].
  - destruct (Ha G) as (s' & E & Hs). rewrite E. eexists. split; [reflexivity|].
    split; [exact Hs|]. cbn [fst snd cb_refs]. rewrite app_nil_r. auto.
  - rewrite (Hb ltac:(lia)). eexists. split; [reflexivity|]. split; [exact H1|]. auto.
Qed.

Lemma store_references_ok l c x : cbrep c x ->
  length (snd x) + length l <= 4 ->
  exists c', store_references l c = (Ok tt, c') /\ cbrep c' (fst x, snd x ++ l).
Proof.
  revert c x. induction l as [|a l IH]; intros c [B r] H HL; cbn [fst snd length] in *.
  - exists c. cbn. rewrite app_nil_r. auto.
  - destruct H as (H1 & H2 & H3). cbn [fst snd] in *. cbn [store_references]. unfold store_reference.
    rewrite H2. unfold MAX_REF_COUNT.
    destruct (Nat.ltb_spec (length r) 4); [|lia].
    destruct (IH (mkCB (cbd c) (cb_exotic c) (r ++ [a])) (B, r ++ [a])) as (c' & E & Hc).
    + split; [exact H1|]. cbn [fst snd cb_refs]. rewrite app_length. cbn [length]. split; [reflexivity|lia].
    + cbn [fst snd]. rewrite app_length. cbn [length]. lia.
    + exists c'. split; [exact E|]. cbn [fst snd] in Hc. rewrite <- app_assoc in Hc. exact Hc.
Qed.

Lemma store_reference_refines a : refines (store_reference a) (sp_append ([], [a])).
Proof.
  intros c [B r] (H1 & H2 & H3). cbn [fst snd] in *. unfold sp_append, fits. cbn [fst snd].
  rewrite app_nil_r, app_length. cbn [length]. pose proof H1 as (_ & _ & HB).
  unfold store_reference. rewrite H2. unfold MAX_REF_COUNT.
  destruct (Nat.leb_spec (length B) 1023); [|lia]. cbn [andb].
  destruct (Nat.leb_spec (length r + 1) 4), (Nat.ltb_spec (length r) 4); try lia.
  - eexists. split; [reflexivity|]. split; [exact H1|]. split; [reflexivity|].
    cbn [snd]. rewrite app_length. cbn [length]. lia.
  - eexists. split; [reflexivity|]. split; [exact H1|]. auto.
Qed.

(** ** Slices *)

Lemma sbits_len_N (s : slice R) : s_ok s -> length (sbits s) = N.to_nat (size_bits_r (sr s)) /\
  (size_bits_r (sr s) <= 1023)%N.
Proof.
  intros Hs. rewrite (sbits_length s Hs). destruct Hs as ((Hd & H1 & H2 & H3) & H4 & H5).
  unfold size_bits_r. split; lia.
Qed.

Lemma raw_bits_pack X bits : bits = N.of_nat (length X) ->
  raw_bits (pack X) (N.to_nat bits) = X.
Proof.
  intros ->. rewrite Nat2N.id. unfold raw_bits. rewrite length_pack.
  replace (length X - 8 * _) with 0 by lia. rewrite bytes_bits_pack, take_app. reflexivity.
Qed.

Lemma store_slice_data_appends (s : slice R) : s_ok s -> appends (store_slice_data s) (sbits s).
Proof.
  intros Hs b B HR. destruct (sbits_len_N s Hs) as (L & Hb).
  destruct b as [d l]. pose proof HR as (HR1 & HR2 & HR3). cbn [bd bl] in *.
  unfold store_slice_data. rewrite get_bind. rewrite w16_small by lia. unfold MAX_BIT_LEN.
  destruct (N.leb_spec (l + size_bits_r (sr s)) 1023) as [G|G].
  - rewrite get_raw_spec; [|assumption|lia|].
    2:{ apply Nat.lt_succ_r. apply Nat.div_lt_upper_bound; lia. }
    change (N.to_nat 0) with 0; rewrite drop_0. rewrite take_ge by lia.
    pose proof (store_raw_appends (pack (sbits s)) (size_bits_r (sr s))) as Q.
    rewrite raw_bits_pack in Q by lia.
    apply Q; [apply pack_ok|rewrite length_pack; lia|lia|exact HR].
  - split; [lia|]. reflexivity.
Qed.

Lemma store_cell_data_appends (c : cellv R) : cv_ok c -> length (cv_data c) <= 128 ->
  appends (store_cell_data (cv_data c) (cv_bits c))
    (take (N.to_nat (cv_bits c)) (bytes_bits (cv_data c))).
Proof.
  intros (H1 & H2 & H3 & H4) H5.
  pose proof (store_raw_appends (cv_data c) (cv_bits c) H1 ltac:(lia) ltac:(lia)) as Q.
  unfold raw_bits in Q. replace (N.to_nat (cv_bits c) - 8 * _) with 0 in Q by lia. exact Q.
Qed.

(** ** Operations that move references as well *)
Lemma append_both op X (l : list R) nb nr (Hop : appends op X) :
  nb = N.of_nat (length X) -> nr = length l -> length X <= 1023 ->
  refines (fun c =>
    if (w16 (bl (cbd c) + nb) <=? MAX_BIT_LEN)%N && (length (cb_refs c) + nr <=? MAX_REF_COUNT) then
      match on_data op c with
      | (Ok _, c') => store_references l c'
      | r => r
      end
    else (Err CellOverflow, c)) (sp_append (X, l)).
Proof.
  intros -> -> HX c [B r] HR. pose proof HR as (H1 & H2 & H3). cbn [fst snd] in *.
  pose proof H1 as (_ & HL & HB).
  unfold sp_append, fits. cbn [fst snd]. rewrite !app_length.
  rewrite w16_small by lia. rewrite HL, H2. unfold MAX_BIT_LEN, MAX_REF_COUNT.
  replace (N.of_nat (length B) + N.of_nat (length X) <=? 1023)%N with (length B + length X <=? 1023).
  2:{ destruct (Nat.leb_spec (length B + length X) 1023), (N.leb_spec (N.of_nat (length B) + N.of_nat (length X)) 1023); reflexivity || lia. }
  destruct (Nat.leb_spec (length B + length X) 1023) as [G|G];
    destruct (Nat.leb_spec (length r + length l) 4) as [G'|G']; cbn [andb];
    try (exists c; split; [reflexivity|exact HR]).
  destruct (refines_data op X Hop c (B, r) HR) as (c1 & E & Hc).
  unfold sp_append in E, Hc. cbn [fst snd] in E, Hc. rewrite fits_data in E, Hc by exact H3.
  rewrite (proj2 (Nat.leb_le _ _) G) in E, Hc. cbn [fst snd] in E, Hc.
  rewrite E. rewrite app_nil_r in Hc.
  destruct (store_references_ok l c1 (B ++ X, r) Hc ltac:(cbn; lia)) as (c2 & E2 & Hc2).
  exists c2. cbn [fst snd] in *. auto.
Qed.

Lemma store_builder_refines b x : cbrep b x -> refines (store_builder b) (sp_append x).
Proof.
  intros (H1 & H2 & H3). destruct x as [X l]. cbn [fst snd] in *.
  pose proof H1 as ((L & Hok & k & E) & HL & HB). subst l.
  apply append_both; [|exact HL|reflexivity|exact HB].
  pose proof (store_raw_appends (bd (cbd b)) (bl (cbd b)) Hok ltac:(lia) ltac:(lia)) as Q.
  unfold raw_bits in Q. rewrite L, HL, Nat2N.id, E, take_app in Q.
  replace (length X - 8 * 128) with 0 in Q by lia. rewrite HL. exact Q.
Qed.

Lemma store_slice_refines (s : slice R) : s_ok s -> refines (store_slice s) (sp_append (sbits s, srefs s)).
Proof.
  intros Hs. destruct (sbits_len_N s Hs) as (L & Hb).
  apply append_both; [apply store_slice_data_appends, Hs|lia| |lia].
  destruct Hs as ((Hd & H1 & H2 & H3) & H4 & H5).
  unfold srefs, size_refs_r. rewrite take_length, drop_length. lia.
Qed.

(** ** The other operations *)
Lemma prepend_refines l bits : bytes_arg l -> count_ok bits ->
  refines (on_data (prepend_raw l bits)) (spec_op (B_prepend l bits)).
Proof.
  intros [Ha Hb] Hc c [B r] HR. pose proof HR as (H1 & H2 & H3). cbn [fst snd] in *.
  destruct (prepend_raw_spec l bits _ _ Ha Hb Hc H1) as [Q1 Q2].
  unfold spec_op, appended, fits. cbn [fst snd]. change raw_value with raw_bits.
  rewrite app_length, raw_bits_length.
  destruct (Nat.leb_spec (length r) 4); [|lia]. rewrite andb_true_r. unfold on_data.
  destruct (Nat.leb_spec (N.to_nat bits + length B) 1023) as [G|G].
  - destruct (Q1 ltac:(lia)) as (s' & E & Hs). rewrite E. eexists. split; [reflexivity|].
    split; [exact Hs|]. auto.
  - rewrite (Q2 ltac:(lia)). eexists. split; [reflexivity|]. split; [exact H1|]. auto.
Qed.

Lemma rewind_refines bits : refines (on_data (rewind_bits bits)) (spec_op (B_rewind bits)).
Proof.
  intros c [B r] HR. pose proof HR as (H1 & H2 & H3). cbn [fst snd] in *.
  destruct (rewind_bits_spec bits _ _ H1) as [Q1 Q2].
  unfold spec_op, appended. cbn [fst snd]. unfold on_data.
  destruct (Nat.leb_spec (N.to_nat bits) (length B)) as [G|G].
  - destruct (Q1 G) as (s' & E & Hs). rewrite E. eexists. split; [reflexivity|].
    split; [exact Hs|]. auto.
  - rewrite (Q2 G). eexists. split; [reflexivity|]. split; [exact H1|]. auto.
Qed.

Lemma clear_refines : refines (on_data clear_bits) (spec_op B_clear).
Proof.
  intros c [B r] (H1 & H2 & H3). cbn [fst snd] in *. eexists. split; [reflexivity|].
  split; [apply brep_new|]. auto.
Qed.

(** ** Every operation *)
Lemma op_refines_aux o :
  op_ok o -> (forall b, o = B_builder b -> exists x, cbrep b x) ->
  refines (run_op o) (spec_op o).
Proof.
  intros Ho Hbld.
  assert (Happ : forall op x, run_op o = op -> appended o = Some x -> refines op (sp_append x) ->
            refines (run_op o) (spec_op o)).
  { intros op [X l] E1 E2 H c y HR. rewrite E1. unfold spec_op. rewrite E2. apply H, HR. }
  destruct Ho; cbn [run_op] in *;
    try (eapply Happ; [reflexivity|reflexivity|]; cbn [appended]).
  - apply refines_data. rewrite <- (Nat2N.id (N.to_nat n)), N2Nat.id. apply store_zeros_appends. exact H.
  - apply refines_data. destruct (Nat.le_gt_cases (N.to_nat n) 1024) as [G|G].
    + pose proof (store_ones_appends n H) as Q.
      replace (N.to_nat n - 1024) with 0 in Q by lia. rewrite Nat.min_l in Q by lia. exact Q.
    + pose proof (store_ones_appends n H) as Q. intros s B HR. destruct (Q s B HR) as [_ Q2].
      rewrite app_length, length_zeros, replicate_length in Q2. rewrite replicate_length.
      split; [lia|]. intros _. apply Q2. lia.
  - apply refines_data, store_bit_appends.
  - apply refines_data, store_bit_zero_appends.
  - apply refines_data, store_bit_one_appends.
  - apply refines_data, store_u8_appends. exact H.
  - apply refines_data. apply (store_uintW_appends 2 v); [lia|exact H].
  - apply refines_data. apply (store_uintW_appends 4 v); [lia|exact H].
  - apply refines_data. apply (store_uintW_appends 8 v); [lia|exact H].
  - apply refines_data. apply (store_uintW_appends 16 v); [lia|exact H].
  - apply refines_data. apply store_u256_appends; assumption.
  - apply refines_data. apply store_small_uint_appends; assumption.
  - apply refines_data. apply store_uint_appends; assumption.
  - apply refines_data. destruct H. apply store_raw_appends; assumption.
  - apply refines_data, store_slice_data_appends. assumption.
  - apply refines_data, store_cell_data_appends; assumption.
  - apply prepend_refines; assumption.
  - apply rewind_refines.
  - apply clear_refines.
  - apply store_reference_refines.
  - destruct (Hbld _ eq_refl) as (x & Hx). rewrite (cbrep_obs _ _ Hx).
    apply store_builder_refines. exact Hx.
  - apply store_slice_refines. assumption.
Qed.

Scheme reach_ind2 := Induction for reachable Sort Prop
  with opok_ind2 := Induction for op_ok Sort Prop.

Lemma reach_cbrep c : reachable c -> exists x, cbrep c x.
Proof.
  revert c. apply (reach_ind2 R (fun c _ => exists x, cbrep c x)
    (fun o _ => refines (run_op o) (spec_op o))).
  - eexists. apply cbrep_new.
  - intros o c r c' Hc (x & Hx) Ho Href E. destruct (Href c x Hx) as (c2 & E2 & H2).
    rewrite E in E2. injection E2 as _ ->. eauto.
  - intros. apply op_refines_aux; [constructor; assumption|discriminate].
  - intros. apply op_refines_aux; [constructor; assumption|discriminate].
  - intros. apply op_refines_aux; [constructor; assumption|discriminate].
  - intros. apply op_refines_aux; [constructor; assumption|discriminate].
  - intros. apply op_refines_aux; [constructor; assumption|discriminate].
  - intros. apply op_refines_aux; [constructor; assumption|discriminate].
  - intros. apply op_refines_aux; [constructor; assumption|discriminate].
  - intros. apply op_refines_aux; [constructor; assumption|discriminate].
  - intros. apply op_refines_aux; [constructor; assumption|discriminate].
  - intros. apply op_refines_aux; [constructor; assumption|discriminate].
  - intros. apply op_refines_aux; [constructor; assumption|discriminate].
  - intros. apply op_refines_aux; [constructor; assumption|discriminate].
  - intros. apply op_refines_aux; [constructor; assumption|discriminate].
  - intros. apply op_refines_aux; [constructor; assumption|discriminate].
  - intros. apply op_refines_aux; [constructor; assumption|discriminate].
  - intros. apply op_refines_aux; [constructor; assumption|discriminate].
  - intros. apply op_refines_aux; [constructor; assumption|discriminate].
  - intros. apply op_refines_aux; [constructor; assumption|discriminate].
  - intros. apply op_refines_aux; [constructor; assumption|discriminate].
  - intros. apply op_refines_aux; [constructor; assumption|discriminate].
  - intros b Hb (x & Hx). apply op_refines_aux; [constructor; exact Hb|].
    intros b' E. injection E as <-. eauto.
  - intros. apply op_refines_aux; [constructor; assumption|discriminate].
Qed.

Lemma op_refines o : op_ok o -> refines (run_op o) (spec_op o).
Proof.
  intros Ho. apply op_refines_aux; [exact Ho|]. intros b ->. inversion Ho. apply reach_cbrep. assumption.
Qed.

Lemma ops_refine l : Forall op_ok l ->
  forall c x, cbrep c x ->
  exists c', run_ops l c = (fst (spec_ops l x), c') /\ cbrep c' (snd (spec_ops l x)).
Proof.
  induction 1 as [|o l Ho Hl IH]; intros c x Hx.
  - exists c. auto.
  - cbn [run_ops spec_ops]. destruct (op_refines o Ho c x Hx) as (c1 & E1 & H1).
    destruct (spec_op o x) as [r x1]. cbn [fst snd] in *. rewrite E1.
    destruct (IH c1 x1 H1) as (c2 & E2 & H2).
    destruct (spec_ops l x1) as [rs x2]. cbn [fst snd] in *. rewrite E2.
    exists c2. auto.
Qed.

(** ** Builder equality *)
Lemma brep_inj b1 b2 B : brep b1 B -> brep b2 B -> b1 = b2.
Proof.
  intros ((L1 & O1 & k1 & E1) & HL1 & _) ((L2 & O2 & k2 & E2) & HL2 & _).
  destruct b1 as [d1 l1], b2 as [d2 l2]. cbn [bd bl] in *. f_equal; [|congruence].
  apply bytes_bits_inj; [exact O1|exact O2|].
  pose proof (rep_len _ _ _ L1 E1). pose proof (rep_len _ _ _ L2 E2). rewrite E1, E2. f_equal. f_equal. lia.
Qed.

(** ** [build]: the cell shows the same bits *)
Lemma build_data_spec b B : brep b B ->
  exists d, build_data b = Some d /\ Forall byte_ok d /\ length d = (length B + 7) / 8 /\
    take (length B) (bytes_bits d) = B.
Proof.
  intros HB0. pose proof HB0 as ((L & O & k & E) & HL & HB).
  pose proof (rep_len _ _ _ L E) as HK. unfold build_data.
  destruct b as [d l]. cbn [bd bl] in *. subst l.
  assert (Htake : forall d', Forall byte_ok d' -> length d' = 128 -> take (length B) (bytes_bits d') = B ->
    exists d0, Some (take (Nat.min (N.to_nat ((N.of_nat (length B) + 7) / 8)) 128) d') = Some d0 /\
      Forall byte_ok d0 /\ length d0 = (length B + 7) / 8 /\ take (length B) (bytes_bits d0) = B).
  { intros d' O' L' E'. eexists. split; [reflexivity|]. split; [apply Forall_take, O'|].
    assert (HX : Nat.min (N.to_nat ((N.of_nat (length B) + 7) / 8)) 128 = (length B + 7) / 8) by lia.
    rewrite HX. split; [rewrite take_length; lia|].
    rewrite bytes_bits_take, take_take, Nat.min_l by lia. exact E'. }
  destruct (N.ltb_spec 0 (N.of_nat (length B) mod 8)) as [G|G].
  2:{ apply Htake; [exact O|exact L|]. rewrite E. apply take_app. }
  remember (N.to_nat (N.of_nat (length B) / 8)) as q eqn:Eq.
  remember (N.to_nat (N.of_nat (length B) mod 8)) as r eqn:Er.
  assert (HB8 : length B = 8 * q + r) by lia. assert (1 <= r <= 7) by lia.
  destruct (lookup_lt_is_Some_2 d q ltac:(lia)) as [x Ex]. unfold rd. rewrite Ex. unfold wr. rewrite Ex.
  assert (Hx : byte_ok x) by (eapply Forall_lookup_1; [exact O|exact Ex]).
  set (y := N.lor _ _).
  assert (Hy : byte_ok y /\ take r (byte_bits y) = take r (byte_bits x)).
  { subst y. replace (N.of_nat (length B) mod 8)%N with (N.of_nat r) by lia. clear - Hx H.
    assert (HQ : forallb (fun r => forallb (fun x => 
      let y := N.lor (N.land x (255 - (shl 8 1 (7 - N.of_nat r) - 1))) (shl 8 1 (7 - N.of_nat r)) in
      (y <? 256)%N && bool_decide (take r (byte_bits y) = take r (byte_bits x))) (map N.of_nat (seq 0 256))) (seq 1 7) = true) by (vm_compute; reflexivity).
    rewrite forallb_forall in HQ. specialize (HQ r ltac:(apply in_seq; lia)).
    rewrite forallb_forall in HQ. specialize (HQ x).
    apply andb_true_iff in HQ.
    - destruct HQ as [Q1 Q2]. apply bool_decide_eq_true in Q2. split; [|exact Q2].
      apply N.ltb_lt in Q1. exact Q1.
    - apply in_map_iff. exists (N.to_nat x). unfold byte_ok in Hx. split; [lia|]. apply in_seq. lia. }
  destruct Hy as [Hy1 Hy2].
  apply Htake; [apply insert_ok; assumption|rewrite insert_length; exact L|].
  assert (Hd : d = take q d ++ x :: drop (S q) d) by (symmetry; apply take_drop_middle, Ex).
  assert (Hd' : <[q:=y]> d = take q d ++ y :: drop (S q) d) by (apply insert_take_drop; lia).
  rewrite Hd'. transitivity (take (length B) (bytes_bits d)); [|rewrite E; apply take_app].
  rewrite HB8. rewrite Hd at 3. rewrite !bytes_bits_app.
  assert (LQ : length (bytes_bits (take q d)) = 8 * q) by (rewrite length_bytes_bits, take_length; lia).
  rewrite !take_app_ge by lia. rewrite LQ. replace (8 * q + r - 8 * q) with r by lia. f_equal.
  change (bytes_bits (y :: drop (S q) d)) with (byte_bits y ++ bytes_bits (drop (S q) d)).
  change (bytes_bits (x :: drop (S q) d)) with (byte_bits x ++ bytes_bits (drop (S q) d)).
  rewrite !take_app_le by (rewrite length_byte_bits; lia). exact Hy2.
Qed.

Lemma build_view_spec c B r : cbrep c (B, r) ->
  exists v, build_view c = Some v /\ cv_ok v /\ length (cv_data v) <= 128 /\
    sbits (slice_new_allow_exotic v) = B /\ srefs (slice_new_allow_exotic v) = r /\
    cv_bits v = N.of_nat (length B).
Proof.
  intros (H1 & H2 & H3). cbn [fst snd] in *. pose proof H1 as (_ & HL & HB).
  destruct (build_data_spec _ _ H1) as (d & E & O & L & T). unfold build_view. rewrite E.
  eexists. split; [reflexivity|]. unfold cv_ok. cbn [cv_data cv_bits cv_refs].
  split; [repeat split; [exact O|lia|lia|rewrite H2; exact H3]|].
  split; [rewrite L; apply Nat.lt_succ_r, Nat.div_lt_upper_bound; lia|].
  unfold sbits, srefs, slice_new_allow_exotic, rng_full. cbn [sc sr bs be rs re cv_bits cv_data cv_refs].
  rewrite HL, !N.sub_0_r, !Nat2N.id. change (N.to_nat 0) with 0; rewrite !drop_0, T, H2. split; [reflexivity|].
  split; [apply take_ge; lia|reflexivity].
Qed.

End P.
