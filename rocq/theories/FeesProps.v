(** * C55: fees are the exact amounts, rounded the right way, and never overflow *)
From Verif Require Import Err BitsProofs IntModel NumModel NumSpec Var248Model Var248Proofs DivProofs2 CellModel ChunkModel ChunkSpec ChunkProofs MessageSpec LayoutProofs AccountProofs FeesModel FeesSpec.
Local Open Scope N_scope.

(** ** Rounding *)
Lemma shift_ceil_eq v : shift_ceil v = v / 65536 + (if v mod 65536 =? 0 then 0 else 1).
Proof.
  unfold shift_ceil. rewrite N.shiftr_div_pow2. change (2 ^ 16) with 65536. f_equal. change 0xffff with (N.ones 16). rewrite N.land_ones. change (2 ^ 16) with 65536. destruct (N.eqb_spec (v mod 65536) 0); reflexivity.
Qed.
Lemma shift_ceil_ok v : ceil16 v (shift_ceil v).
Proof.
  rewrite shift_ceil_eq. change (2 ^ 16) with 65536. pose proof (N.div_mod v 65536) as D. pose proof (N.mod_lt v 65536) as L. unfold ceil16. change (2 ^ 16) with 65536.
  destruct (N.eqb_spec (v mod 65536) 0) as [Z|Z]; (split; [lia|]); intros q Hq; lia.
Qed.
Lemma ceil16_mono v w r s : v <= w -> ceil16 v r -> ceil16 w s -> r <= s.
Proof. intros L [_ H] [H1 _]. apply H. lia. Qed.
Lemma ceil16_le v r : ceil16 v r -> v < 2 ^ 128 -> r <= 2 ^ 112.
Proof. intros [_ H] L. apply H. change (2 ^ 112 * 2 ^ 16) with (2 ^ 128). lia. Qed.
Lemma mul64 a b : u64 a -> u64 b -> mul128 a b = Ok (a * b) /\ a * b < 2 ^ 128.
Proof.
  unfold u64. intros Ha Hb. assert (L : a * b < 2 ^ 128). { change (2 ^ 128) with (2 ^ 64 * 2 ^ 64). apply N.mul_lt_mono; assumption. }
  unfold mul128. destruct (N.ltb_spec (a * b) (2 ^ 128)); [auto|lia].
Qed.
Lemma sat_min a b d : sat_mul (sat_add a b) d = N.min ((a + b) * d) MAX128.
Proof.
  unfold sat_mul, sat_add. destruct (N.le_gt_cases (a + b) MAX128) as [H|H]; [rewrite (N.min_l (a + b)) by exact H; reflexivity|].
  rewrite (N.min_r (a + b)) by lia. destruct (N.eq_dec d 0) as [->|D]; [rewrite !N.mul_0_r; reflexivity|].
  assert (E1 : MAX128 * 1 <= MAX128 * d) by (apply N.mul_le_mono_l; lia). assert (E2 : (a + b) * 1 <= (a + b) * d) by (apply N.mul_le_mono_l; lia). lia.
Qed.
Lemma max128_lt a : N.min a MAX128 < 2 ^ 128.
Proof. assert (MAX128 < 2 ^ 128) by (vm_compute; reflexivity). lia. Qed.

(** ** Burned fees *)
(** For a well-formed config the burned part is the exact fraction, rounded down, and not more
    than the fees; the debug assertion holds. *)
Theorem C55_burned b t : bu_num b <= bu_denom b -> 0 < bu_denom b -> bu_denom b < 2 ^ 32 -> t <= MAX_TOKENS ->
  exists r, burned_fees b t = Ok r /\ floor_div (t * bu_num b) (bu_denom b) r /\ r <= t.
Proof.
  intros V D0 D1 T. unfold burned_fees. destruct (N.eqb_spec (bu_num b) 0) as [Z|Z].
  - exists 0. split; [reflexivity|]. unfold floor_div. rewrite Z. split; lia.
  - unfold burning_valid. destruct (N.leb_spec (bu_num b) (bu_denom b)); [|lia]. cbn [negb].
    unfold MAX_TOKENS in T. change (2 ^ 120 - 1) with 1329227995784915872903807060280344575 in T. change (2 ^ 32) with 4294967296 in D1.
    assert (O1 : v248_ok (v248_new t)) by (split; [vm_compute; reflexivity|cbn [v248_new v_lo]; change (2 ^ 128) with 340282366920938463463374607431768211456; lia]).
    assert (O2 : v248_ok (v248_new (bu_num b))) by (split; [vm_compute; reflexivity|cbn [v248_new v_lo]; change (2 ^ 128) with 340282366920938463463374607431768211456; lia]).
    assert (O3 : v248_ok (v248_new (bu_denom b))) by (split; [vm_compute; reflexivity|cbn [v248_new v_lo]; change (2 ^ 128) with 340282366920938463463374607431768211456; lia]).
    destruct (v248_mul_ok _ _ O1 O2) as (m & Em & Om & Vm). change (W128 * W128) with (2 ^ 256) in Vm. rewrite Em. cbn [rbind].
    assert (Pm : t * bu_num b < 2 ^ 256).
    { apply N.le_lt_trans with ((2 ^ 120) * (2 ^ 32)); [|reflexivity]. apply N.mul_le_mono; [change (2 ^ 120) with 1329227995784915872903807060280344576|change (2 ^ 32) with 4294967296]; lia. }
    assert (Vm' : v248_val m = t * bu_num b). { rewrite Vm. unfold v248_val, v248_new. cbn [v_hi v_lo]. rewrite !N.mul_0_l, !N.add_0_l. apply N.mod_small. exact Pm. }
    destruct (udivmod_ok _ _ Om O3) as (q & r & Eq & Oq & _ & Vq & Vr).
    { unfold v248_val, v248_new. cbn [v_hi v_lo]. lia. }
    unfold v248_div. rewrite Eq. cbn [rbind].
    assert (Ed : v248_val (v248_new (bu_denom b)) = bu_denom b) by (unfold v248_val, v248_new; cbn [v_hi v_lo]; lia). rewrite Ed, Vm' in Vq.
    assert (Lq : v248_val q <= t). { rewrite Vq. apply N.div_le_upper_bound; [lia|]. rewrite N.mul_comm. apply N.mul_le_mono_r. exact V. }
    assert (Hh : v_hi q = 0). { unfold v248_val in Lq. destruct (N.eq_dec (v_hi q) 0); [assumption|]. assert (1 * 2 ^ 128 <= v_hi q * 2 ^ 128) by (apply N.mul_le_mono_r; lia). change (1 * 2 ^ 128) with 340282366920938463463374607431768211456 in *. lia. }
    rewrite Hh. cbn [N.eqb]. exists (v_lo q). split; [reflexivity|]. unfold v248_val in Lq, Vq. rewrite Hh, N.mul_0_l, N.add_0_l in Lq, Vq. split; [|exact Lq].
    unfold floor_div. rewrite Vq. pose proof (N.div_mod (t * bu_num b) (bu_denom b)) as Dm. pose proof (N.mod_lt (t * bu_num b) (bu_denom b)). lia.
Qed.
Print Assumptions C55_burned.
Theorem C55_burned_invalid b t : bu_denom b < bu_num b -> burned_fees b t = Err InvalidData.
Proof. intros H. unfold burned_fees, burning_valid. destruct (N.eqb_spec (bu_num b) 0); [lia|]. destruct (N.leb_spec (bu_num b) (bu_denom b)); [lia|reflexivity]. Qed.
Print Assumptions C55_burned_invalid.

(** ** Storage *)
(** The fee is the price of the cells and bits for the time, divided by 2^16 and rounded up;
    prices beyond 128 bits count as 2^128 - 1.  It is always a valid amount. *)
Theorem C55_storage p mc delta s : u64 (sp_bit p) -> u64 (sp_cell p) -> u64 (sp_mc_bit p) -> u64 (sp_mc_cell p) -> u64 (sz_bits s) -> u64 (sz_cells s) ->
  exists r, storage_fee p mc delta s = Ok r
    /\ ceil16 (N.min ((sz_cells s * (if mc then sp_mc_cell p else sp_cell p) + sz_bits s * (if mc then sp_mc_bit p else sp_bit p)) * delta) (2 ^ 128 - 1)) r
    /\ r <= MAX_TOKENS.
Proof.
  intros H1 H2 H3 H4 H5 H6. unfold storage_fee. destruct mc.
  - destruct (mul64 _ _ H6 H4) as [E1 _], (mul64 _ _ H5 H3) as [E2 _]. rewrite E1, E2. cbn [rbind]. rewrite sat_min. eexists. split; [reflexivity|]. change (2 ^ 128 - 1) with MAX128. split; [apply shift_ceil_ok|].
    apply N.le_trans with (2 ^ 112); [|vm_compute; discriminate]. eapply ceil16_le; [apply shift_ceil_ok|apply max128_lt].
  - destruct (mul64 _ _ H6 H2) as [E1 _], (mul64 _ _ H5 H1) as [E2 _]. rewrite E1, E2. cbn [rbind]. rewrite sat_min. eexists. split; [reflexivity|]. change (2 ^ 128 - 1) with MAX128. split; [apply shift_ceil_ok|].
    apply N.le_trans with (2 ^ 112); [|vm_compute; discriminate]. eapply ceil16_le; [apply shift_ceil_ok|apply max128_lt].
Qed.
Print Assumptions C55_storage.
(** More data for a longer time never costs less. *)
Theorem C55_storage_monotone p mc d d' s s' r r' : u64 (sp_bit p) -> u64 (sp_cell p) -> u64 (sp_mc_bit p) -> u64 (sp_mc_cell p) ->
  u64 (sz_bits s') -> u64 (sz_cells s') -> sz_bits s <= sz_bits s' -> sz_cells s <= sz_cells s' -> d <= d' ->
  storage_fee p mc d s = Ok r -> storage_fee p mc d' s' = Ok r' -> r <= r'.
Proof.
  intros H1 H2 H3 H4 B C Lb Lc Ld E E'. assert (Ub : u64 (sz_bits s)) by (unfold u64 in *; lia). assert (Uc : u64 (sz_cells s)) by (unfold u64 in *; lia).
  destruct (C55_storage p mc d s) as (x & Ex & Cx & _); try assumption. destruct (C55_storage p mc d' s') as (y & Ey & Cy & _); try assumption.
  rewrite E in Ex. injection Ex as <-. rewrite E' in Ey. injection Ey as <-. eapply ceil16_mono; [|exact Cx|exact Cy]. apply N.min_le_compat_r. apply N.mul_le_mono; [|exact Ld]. apply N.add_le_mono; apply N.mul_le_mono_r; assumption.
Qed.
Print Assumptions C55_storage_monotone.

(** ** Gas *)
(** Up to the flat limit the flat price; beyond it, the price of the rest in addition, divided
    by 2^16 and rounded up. *)
Theorem C55_gas p used : u64 (gp_price p) -> u64 (gp_flat_price p) -> u64 used ->
  exists r, gas_fee p used = Ok r /\ r <= MAX_TOKENS
    /\ (used < gp_flat_limit p -> r = gp_flat_price p)
    /\ (gp_flat_limit p <= used -> exists x, ceil16 (gp_price p * (used - gp_flat_limit p)) x /\ r = gp_flat_price p + x).
Proof.
  intros H1 H2 H3. unfold gas_fee. destruct (N.leb_spec (gp_flat_limit p) used) as [L|L].
  - destruct (mul64 (gp_price p) (used - gp_flat_limit p) H1) as [E Lm]; [unfold u64 in *; lia|]. rewrite E. cbn [rbind].
    pose proof (shift_ceil_ok (gp_price p * (used - gp_flat_limit p))) as Cc. pose proof (ceil16_le _ _ Cc Lm) as Lc. unfold u64 in H2.
    assert (Es : sat_add (gp_flat_price p) (shift_ceil (gp_price p * (used - gp_flat_limit p))) = gp_flat_price p + shift_ceil (gp_price p * (used - gp_flat_limit p))).
    { unfold sat_add. apply N.min_l. apply N.le_trans with (2 ^ 64 + 2 ^ 112); [lia|vm_compute; discriminate]. }
    rewrite Es. eexists. split; [reflexivity|]. split; [|split; [lia|intros _; eexists; split; [exact Cc|reflexivity]]].
    apply N.le_trans with (2 ^ 64 + 2 ^ 112); [lia|vm_compute; discriminate].
  - eexists. split; [reflexivity|]. split; [|split; [reflexivity|lia]]. unfold u64 in H2. apply N.le_trans with (2 ^ 64); [lia|vm_compute; discriminate].
Qed.
Print Assumptions C55_gas.
Theorem C55_gas_monotone p u u' r r' : u64 (gp_price p) -> u64 (gp_flat_price p) -> u64 u' -> u <= u' -> gas_fee p u = Ok r -> gas_fee p u' = Ok r' -> r <= r'.
Proof.
  intros H1 H2 H3 L E E'. destruct (C55_gas p u) as (x & Ex & _ & A & B); [assumption|assumption|unfold u64 in *; lia|]. destruct (C55_gas p u') as (y & Ey & _ & A' & B'); try assumption.
  rewrite E in Ex. injection Ex as <-. rewrite E' in Ey. injection Ey as <-.
  destruct (N.lt_ge_cases u (gp_flat_limit p)) as [C|C].
  - rewrite (A C). destruct (N.lt_ge_cases u' (gp_flat_limit p)) as [C'|C']; [rewrite (A' C'); lia|]. destruct (B' C') as (y & _ & ->). lia.
  - destruct (B C) as (y & Cy & ->). destruct (B' ltac:(lia)) as (z & Cz & ->). apply N.add_le_mono_l. eapply ceil16_mono; [|exact Cy|exact Cz]. apply N.mul_le_mono_l. lia.
Qed.
Print Assumptions C55_gas_monotone.

(** ** Forwarding *)
Theorem C55_forward p s : u64 (fp_lump p) -> u64 (fp_bit p) -> u64 (fp_cell p) -> u64 (sz_bits s) -> u64 (sz_cells s) ->
  exists r x, fwd_fee p s = Ok r /\ ceil16 (N.min (sz_cells s * fp_cell p + sz_bits s * fp_bit p) (2 ^ 128 - 1)) x /\ r = fp_lump p + x /\ r <= MAX_TOKENS /\ r * (2 ^ 16 - 1) < 2 ^ 128.
Proof.
  intros H1 H2 H3 H4 H5. unfold fwd_fee. destruct (mul64 _ _ H5 H3) as [E1 _], (mul64 _ _ H4 H2) as [E2 _]. rewrite E1, E2. cbn [rbind].
  set (v := sat_add (sz_cells s * fp_cell p) (sz_bits s * fp_bit p)). pose proof (shift_ceil_ok v) as Cc. assert (Lv : v < 2 ^ 128) by apply max128_lt. pose proof (ceil16_le _ _ Cc Lv) as Lc. unfold u64 in H1.
  exists (fp_lump p + shift_ceil v), (shift_ceil v). change (2 ^ 128 - 1) with MAX128. split; [|split; [exact Cc|split; [reflexivity|split]]].
  - f_equal. unfold sat_add. apply N.min_l. apply N.le_trans with (2 ^ 64 + 2 ^ 112); [lia|vm_compute; discriminate].
  - apply N.le_trans with (2 ^ 64 + 2 ^ 112); [lia|vm_compute; discriminate].
  - apply N.le_lt_trans with ((2 ^ 64 + 2 ^ 112) * (2 ^ 16 - 1)); [apply N.mul_le_mono_r; lia|vm_compute; reflexivity].
Qed.
Print Assumptions C55_forward.
(** The parts of such a fee for the first and for the next block are the exact fractions,
    rounded down, and together they are not more than the fee. *)
Theorem C55_parts p s r : u64 (fp_lump p) -> u64 (fp_bit p) -> u64 (fp_cell p) -> u64 (sz_bits s) -> u64 (sz_cells s) -> fp_first p < 2 ^ 16 -> fp_next p < 2 ^ 16 ->
  fwd_fee p s = Ok r ->
  floor_div (r * fp_first p) (2 ^ 16) (first_part p r) /\ floor_div (r * fp_next p) (2 ^ 16) (next_part p r)
  /\ (fp_first p + fp_next p <= 2 ^ 16 -> first_part p r + next_part p r <= r).
Proof.
  intros H1 H2 H3 H4 H5 F1 F2 E. destruct (C55_forward p s) as (r' & x & E' & _ & _ & _ & L); try assumption. rewrite E in E'. injection E' as <-.
  assert (G : forall f, f < 2 ^ 16 -> N.shiftr (sat_mul r f) 16 = r * f / 65536).
  { intros f Hf. rewrite N.shiftr_div_pow2. change (2 ^ 16) with 65536. f_equal. unfold sat_mul. apply N.min_l. assert (r * f <= r * (2 ^ 16 - 1)) by (apply N.mul_le_mono_l; lia). change MAX128 with (2 ^ 128 - 1). lia. }
  unfold first_part, next_part. rewrite (G _ F1), (G _ F2). change (2 ^ 16) with 65536 in *. unfold floor_div.
  pose proof (N.div_mod (r * fp_first p) 65536) as D1. pose proof (N.mod_lt (r * fp_first p) 65536) as M1. pose proof (N.div_mod (r * fp_next p) 65536) as D2. pose proof (N.mod_lt (r * fp_next p) 65536) as M2.
  split; [lia|]. split; [lia|]. intros F. assert (r * (fp_first p + fp_next p) <= r * 65536) by (apply N.mul_le_mono_l; exact F). lia.
Qed.
Print Assumptions C55_parts.
(** For larger amounts of tokens they are not. *)
Theorem C55_parts_refuted : exists p total, fp_first p < 2 ^ 16 /\ total <= MAX_TOKENS /\ first_part p total + 1 < total * fp_first p / 2 ^ 16.
Proof. exists (FwdPrices 0 0 0 0 65535 0), MAX_TOKENS. split; [vm_compute; reflexivity|]. split; [vm_compute; discriminate|]. vm_compute. reflexivity. Qed.
Print Assumptions C55_parts_refuted.

(** ** The layout of gas prices *)
Theorem C55_store_gas g : gas_ok g -> exists x, gas_c 0 0 g x /\ appends (store_gas g) x.
Proof.
  destruct g as [a1 a2 a3 a4 a5 a6 a7 l p]. unfold gas_ok. cbn [gp_price gp_limit gp_special gp_credit gp_block gp_freeze gp_delete gp_flat_limit gp_flat_price]. intros (H1 & H2 & H3 & H4 & H5 & H6 & H7 & H8 & H9).
  assert (U : forall v, u64 v -> uint_c 64 v (nbits 64 v, [])) by (intros v H; constructor; exact H).
  eexists. split.
  - eapply gas_flat; [apply U, H8|apply U, H9|]. eapply gas_ext; apply U; assumption.
  - unfold store_gas. cbn [gp_price gp_limit gp_special gp_credit gp_block gp_freeze gp_delete gp_flat_limit gp_flat_price cat]. rewrite !capp_nil.
    repeat (first [eapply appends_bind|idtac]; [apply appends_un, uint_intro; first [assumption|vm_compute; reflexivity]|]). apply appends_un, uint_intro. assumption.
Qed.
Print Assumptions C55_store_gas.
Lemma load_gas_fwd f : forall l p b g r, load_gas_loop f l p b = Ok (g, r) -> exists x, gas_c l p g x /\ b = capp x r.
Proof.
  induction f as [|f IH]; intros l p b g r; [discriminate|]. cbn [load_gas_loop].
  assert (R : forall w b (k : N * chunk -> res (gas_prices * chunk)), rbind (load_un w b) k = Ok (g, r) -> exists v x b', uint_c w v x /\ b = capp x b' /\ k (v, b') = Ok (g, r)).
  { intros w b0 k E. destruct (load_un w b0) as [[v b']|] eqn:E1; [|discriminate]. apply reads_un in E1. destruct E1 as (x & Hx & ->). exists v, x, b'. auto. }
  intros E. apply R in E. destruct E as (t & xt & b1 & Ht & -> & E). destruct Ht as [t Ht].
  revert E. cbv beta. repeat by_tag; intros E; [| | |discriminate].
  - apply R in E. destruct E as (l' & xl & b2 & Hl & -> & E). apply R in E. destruct E as (p' & xp & b3 & Hp & -> & E). apply IH in E. destruct E as (x & Hx & ->).
    exists (cat [(nbits 8 0xd1, []); xl; xp; x]). split; [econstructor; eassumption|]. cbn [cat]. rewrite capp_nil, <- !capp_assoc. reflexivity.
  - repeat (apply R in E; destruct E as (?a & ?x & ?b & ? & -> & E)). injection E as <- <-. eexists. split; [eapply gas_ext; eassumption|]. cbn [cat]. rewrite capp_nil, <- !capp_assoc. reflexivity.
  - repeat (apply R in E; destruct E as (?a & ?x & ?b & ? & -> & E)). injection E as <- <-. eexists. split; [eapply gas_base; eassumption|]. cbn [cat]. rewrite capp_nil, <- !capp_assoc. reflexivity.
Qed.
Lemma load_gas_bwd l p g x : gas_c l p g x -> forall f r, (length (fst x) < f)%nat -> load_gas_loop f l p (capp x r) = Ok (g, r).
Proof.
  assert (R : forall w v x b (k : N * chunk -> res (gas_prices * chunk)), uint_c w v x -> rbind (load_un w (capp x b)) k = k (v, b)).
  { intros w v y b k Hx. rewrite (reads_back _ _ v y b (reads_un w) Hx). reflexivity. }
  assert (T1 : uint_c 8 0xd1 (nbits 8 0xd1, [])) by (constructor; vm_compute; reflexivity). assert (T2 : uint_c 8 0xde (nbits 8 0xde, [])) by (constructor; vm_compute; reflexivity). assert (T3 : uint_c 8 0xdd (nbits 8 0xdd, [])) by (constructor; vm_compute; reflexivity).
  intros H. induction H as [l p l' xl p' xp g x Hl Hp _ IH| |]; intros f r Hf; (destruct f as [|f]; [lia|]); cbn [load_gas_loop cat]; rewrite <- !capp_assoc; [rewrite (R 8%nat _ _ _ _ T1)|rewrite (R 8%nat _ _ _ _ T2)|rewrite (R 8%nat _ _ _ _ T3)]; cbn [N.eqb Pos.eqb].
  - rewrite (R _ _ _ _ _ Hl), (R _ _ _ _ _ Hp). rewrite nil_capp. apply IH. cbn [cat capp fst snd] in Hf. rewrite !app_length in Hf. change (length (nbits 8 0xd1)) with 8%nat in Hf. lia.
  - repeat (erewrite (R 64%nat); [|eassumption]). rewrite nil_capp. reflexivity.
  - repeat (erewrite (R 64%nat); [|eassumption]). rewrite nil_capp. reflexivity.
Qed.
(** Loading accepts exactly the layouts: of any number of flat prefixes the last one counts,
    and without one the flat limit and price are zero. *)
Theorem C55_load_gas : reads_layout load_gas (gas_c 0 0).
Proof.
  intros b g r. unfold load_gas. split; [apply load_gas_fwd|]. intros (x & Hx & ->). apply load_gas_bwd; [exact Hx|]. cbn [capp fst]. rewrite app_length. lia.
Qed.
Print Assumptions C55_load_gas.
Theorem C55_gas_round_trip g c : gas_ok g -> store_gas g ([], []) = Ok c -> load_gas c = Ok (g, ([], [])).
Proof.
  intros H E. destruct (C55_store_gas g H) as (x & Hx & A). rewrite A in E by (split; cbn; lia). destruct (_ || _); [discriminate|]. injection E as <-. rewrite nil_capp. apply C55_load_gas. exists x. split; [exact Hx|symmetry; apply capp_nil].
Qed.
Print Assumptions C55_gas_round_trip.

(** ** Cases *)
Example C55_case : burned_fees (Burning None 1 3) 100 = Ok 33 /\ burned_fees (Burning None (2 ^ 32 - 1) (2 ^ 32 - 1)) MAX_TOKENS = Ok MAX_TOKENS
  /\ storage_fee (StoragePrices 0 1 500 1000 500000) true 3600 (Stats 1000 10) = Ok 329590
  /\ storage_fee (StoragePrices 0 (2 ^ 64 - 1) (2 ^ 64 - 1) 0 0) false (2 ^ 64 - 1) (Stats (2 ^ 64 - 1) (2 ^ 64 - 1)) = Ok (2 ^ 112)
  /\ gas_fee (GasPrices 655360000 0 0 0 0 0 0 100 1000000) 1100 = Ok 11000000
  /\ fwd_fee (FwdPrices 10000000 655360000 65536000000 0 21845 21845) (Stats 1000 3) = Ok 23000000
  /\ first_part (FwdPrices 0 0 0 0 21845 21845) 23000000 = 7666549.
Proof. vm_compute. auto 10. Qed.
