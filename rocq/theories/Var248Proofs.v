(** * Proofs about [VarUint248]: addition, subtraction, multiplication, shifts, comparison *)
From Verif Require Import Err NumModel Var248Model NumSpec NumProofs.
Local Open Scope N_scope.

Lemma mod_wrap x m : m <= x -> x < 2 * m -> x mod m = x - m.
Proof. intros A B. symmetry. apply (N.mod_unique x m 1); lia. Qed.
Lemma W_pos : 0 < W128. Proof. reflexivity. Qed.
Lemma shr_div x n : N.shiftr x n = x / 2 ^ n.
Proof. apply N.shiftr_div_pow2. Qed.
Lemma land_mask x : N.land x LOWER_MASK = x mod B64.
Proof. unfold LOWER_MASK, B64. change (2 ^ 64 - 1) with (N.ones 64). apply N.land_ones. Qed.
Lemma BB : W128 = B64 * B64. Proof. reflexivity. Qed.
Lemma shl_small w x n : x * 2 ^ n < 2 ^ w -> shl w x n = x * 2 ^ n.
Proof. intros H. unfold shl. rewrite N.shiftl_mul_pow2. apply N.mod_small. exact H. Qed.
Lemma shl_mod w x n : shl w x n = (x * 2 ^ n) mod 2 ^ w.
Proof. unfold shl. rewrite N.shiftl_mul_pow2. reflexivity. Qed.
Lemma xadd_ok a b : a + b < W128 -> xadd a b = Ok (a + b).
Proof. intros H. unfold xadd, o_add. change (2 ^ 128) with W128. destruct (N.ltb_spec (a + b) W128); [reflexivity|lia]. Qed.
Lemma xmul_ok a b : a * b < W128 -> xmul a b = Ok (a * b).
Proof. intros H. unfold xmul, o_mul. change (2 ^ 128) with W128. destruct (N.ltb_spec (a * b) W128); [reflexivity|lia]. Qed.
Lemma xsub_ok a b : b <= a -> xsub a b = Ok (a - b).
Proof. intros H. unfold xsub, o_sub. destruct (N.leb_spec b a); [reflexivity|lia]. Qed.
Lemma oddiv_ok a b : b <> 0 -> o_div a b = Ok (a / b).
Proof. intros H. unfold o_div. destruct (N.eqb_spec b 0); [lia|reflexivity]. Qed.
Lemma ovadd_spec a b : a < W128 -> b < W128 -> let '(r, c) := ovadd a b in r < W128 /\ r + b2n c * W128 = a + b.
Proof.
  intros Ha Hb. unfold ovadd. destruct (N.leb_spec W128 (a + b)); cbn [b2n].
  - rewrite mod_wrap by lia. lia.
  - rewrite N.mod_small by lia. lia.
Qed.
Lemma ovsub_spec a b : a < W128 -> b < W128 -> let '(r, c) := ovsub a b in r < W128 /\ r + b = a + b2n c * W128.
Proof.
  intros Ha Hb. unfold ovsub. destruct (N.ltb_spec a b); cbn [b2n].
  - rewrite N.mod_small by lia. lia.
  - rewrite mod_wrap by lia. lia.
Qed.
Lemma v248_val_eq a : v248_val a = v_hi a * W128 + v_lo a.
Proof. reflexivity. Qed.
Lemma v248_ok_eq a : v248_ok a <-> v_hi a < W128 /\ v_lo a < W128.
Proof. reflexivity. Qed.
Lemma MAXhi : N.shiftr MAX128 8 = 2 ^ 120 - 1. Proof. reflexivity. Qed.
Lemma MAX248_eq : MAX248 = (2 ^ 120 - 1) * W128 + (W128 - 1). Proof. reflexivity. Qed.
Lemma v248_valid_iff a : v_lo a < W128 -> v248_valid a = true <-> v248_val a <= MAX248.
Proof.
  intros H. unfold v248_valid. rewrite MAXhi, MAX248_eq, v248_val_eq. rewrite N.leb_le. generalize (2 ^ 120 - 1). intros m.
  pose proof W_pos. split; intros L; nia.
Qed.
Lemma v248_val_inj a b : v248_ok a -> v248_ok b -> v248_val a = v248_val b -> a = b.
Proof.
  rewrite !v248_ok_eq, !v248_val_eq. destruct a as [ah al], b as [bh bl]; cbn [v_hi v_lo]. intros [A B] [C D] E.
  assert (ah = bh) by nia. subst. f_equal. lia.
Qed.
Lemma v248_val_lt a : v248_ok a -> v248_val a < W128 * W128.
Proof. rewrite v248_ok_eq, v248_val_eq. intros [A B]. nia. Qed.
Definition exactly248 (max : N) (z : Z) (o : option v248) : Prop := exactly max z (option_map v248_val o) /\ match o with Some r => v248_ok r | None => True end.

Lemma checked_add_ok a b : v248_ok a -> v248_ok b ->
  exactly MAX248 (Z.of_N (v248_val a) + Z.of_N (v248_val b)) (option_map v248_val (v248_checked_add a b)) /\
  forall r, v248_checked_add a b = Some r -> v248_ok r.
Proof.
  rewrite !v248_ok_eq. intros [Ah Al] [Bh Bl]. unfold v248_checked_add.
  pose proof (ovadd_spec (v_lo a) (v_lo b) Al Bl) as S1. destruct (ovadd (v_lo a) (v_lo b)) as [lo c1].
  assert (C1 : b2n c1 < W128) by (destruct c1; reflexivity).
  pose proof (ovadd_spec (v_hi a) (b2n c1) Ah C1) as S2. destruct (ovadd (v_hi a) (b2n c1)) as [h1 c2].
  destruct S1 as [L1 S1], S2 as [L2 S2].
  pose proof (ovadd_spec h1 (v_hi b) L2 Bh) as S3. destruct (ovadd h1 (v_hi b)) as [h2 c3]. destruct S3 as [L3 S3].
  pose proof (v248_valid_iff (V248 h2 lo) L1) as V. rewrite v248_val_eq in V. cbn [v_hi v_lo] in V.
  rewrite !v248_val_eq. cbn zeta.
  assert (M : MAX248 < W128 * W128) by reflexivity.
  assert (E : v_hi a * W128 + v_lo a + (v_hi b * W128 + v_lo b) = (h2 + (b2n c2 + b2n c3) * W128) * W128 + lo) by nia.
  destruct c2, c3; cbn [b2n orb] in *; cbn [option_map exactly]; try (split; [right; nia|discriminate]).
  destruct (v248_valid (V248 h2 lo)); cbn [option_map exactly].
  - destruct V as [V _]. specialize (V eq_refl). split.
    + unfold v248_val. cbn [v_hi v_lo]. change (2 ^ 128) with W128. lia.
    + intros r [= <-]. split; assumption.
  - split; [|discriminate]. right. destruct V as [_ V].
    destruct (N.le_gt_cases (h2 * W128 + lo) MAX248) as [Q|Q]; [specialize (V Q); discriminate|]. lia.
Qed.
Lemma sub_steps a b : v248_ok a -> v248_ok b ->
  let '(lo, c1) := ovsub (v_lo a) (v_lo b) in
  let '(h1, c2) := ovsub (v_hi a) (b2n c1) in
  let '(h2, c3) := ovsub h1 (v_hi b) in
  lo < W128 /\ h2 < W128 /\ (h2 * W128 + lo + v248_val b = v248_val a + (b2n c2 + b2n c3) * W128 * W128) /\ (c2 && c3 = false).
Proof.
  rewrite !v248_ok_eq. intros [Ah Al] [Bh Bl].
  pose proof (ovsub_spec (v_lo a) (v_lo b) Al Bl) as S1. destruct (ovsub (v_lo a) (v_lo b)) as [lo c1].
  assert (C1 : b2n c1 < W128) by (destruct c1; reflexivity).
  pose proof (ovsub_spec (v_hi a) (b2n c1) Ah C1) as S2. destruct (ovsub (v_hi a) (b2n c1)) as [h1 c2].
  destruct S1 as [L1 S1], S2 as [L2 S2].
  pose proof (ovsub_spec h1 (v_hi b) L2 Bh) as S3. destruct (ovsub h1 (v_hi b)) as [h2 c3]. destruct S3 as [L3 S3].
  rewrite !v248_val_eq. split_and!; try assumption; [nia|]. destruct c2, c3; try reflexivity. cbn [b2n] in *. destruct c1; cbn [b2n] in *; lia.
Qed.
Lemma checked_sub_ok a b : v248_ok a -> v248_ok b ->
  exactly MAX248 (Z.of_N (v248_val a) - Z.of_N (v248_val b)) (option_map v248_val (v248_checked_sub a b)) /\
  forall r, v248_checked_sub a b = Some r -> v248_ok r.
Proof.
  intros Ha Hb. unfold v248_checked_sub. pose proof (sub_steps a b Ha Hb) as S.
  pose proof (v248_val_lt _ Ha) as La. pose proof (v248_val_lt _ Hb) as Lb.
  destruct (ovsub (v_lo a) (v_lo b)) as [lo c1], (ovsub (v_hi a) (b2n c1)) as [h1 c2], (ovsub h1 (v_hi b)) as [h2 c3].
  destruct S as (L1 & L2 & E & C). cbn zeta.
  pose proof (v248_valid_iff (V248 h2 lo) L1) as V. rewrite v248_val_eq in V. cbn [v_hi v_lo] in V.
  destruct (c2 || c3) eqn:O.
  - cbn [option_map exactly]. split; [|discriminate]. left. assert (b2n c2 + b2n c3 = 1) as X by (destruct c2, c3; try discriminate; reflexivity).
    rewrite X in E. nia.
  - assert (b2n c2 + b2n c3 = 0) as X by (destruct c2, c3; try discriminate; reflexivity). rewrite X in E.
    destruct (v248_valid (V248 h2 lo)); cbn [option_map exactly].
    + destruct V as [V _]. specialize (V eq_refl). split.
      * unfold v248_val at 1. cbn [v_hi v_lo]. change (2 ^ 128) with W128. lia.
      * intros r [= <-]. split; assumption.
    + split; [|discriminate]. right. destruct V as [_ V].
      destruct (N.le_gt_cases (h2 * W128 + lo) MAX248) as [Q|Q]; [specialize (V Q); discriminate|]. lia.
Qed.
Lemma v248_max_val : v248_val v248_max = MAX248. Proof. reflexivity. Qed.
Lemma v248_max_ok : v248_ok v248_max. Proof. split; reflexivity. Qed.
Lemma saturating_add_ok a b : v248_ok a -> v248_ok b ->
  Z.of_N (v248_val (v248_saturating_add a b)) = clamp MAX248 (Z.of_N (v248_val a) + Z.of_N (v248_val b)) /\ v248_ok (v248_saturating_add a b).
Proof.
  intros Ha Hb. destruct (checked_add_ok a b Ha Hb) as [E O]. unfold v248_saturating_add.
  destruct (v248_checked_add a b) as [r|]; cbn [option_map exactly] in E.
  - split; [|apply O; reflexivity]. unfold clamp. lia.
  - split; [|exact v248_max_ok]. rewrite v248_max_val. unfold clamp. lia.
Qed.
Lemma saturating_sub_ok a b : v248_ok a -> v248_ok b ->
  Z.of_N (v248_val (v248_saturating_sub a b)) = clamp MAX248 (Z.of_N (v248_val a) - Z.of_N (v248_val b)) /\ v248_ok (v248_saturating_sub a b).
Proof.
  intros Ha Hb. unfold v248_saturating_sub. pose proof (sub_steps a b Ha Hb) as S.
  pose proof (v248_val_lt _ Ha) as La. pose proof (v248_val_lt _ Hb) as Lb.
  destruct (ovsub (v_lo a) (v_lo b)) as [lo c1], (ovsub (v_hi a) (b2n c1)) as [h1 c2], (ovsub h1 (v_hi b)) as [h2 c3].
  destruct S as (L1 & L2 & E & C). cbn zeta.
  pose proof (v248_valid_iff (V248 h2 lo) L1) as V. rewrite v248_val_eq in V. cbn [v_hi v_lo] in V.
  destruct (c2 || c3) eqn:O.
  - split; [|split; reflexivity]. assert (b2n c2 + b2n c3 = 1) as X by (destruct c2, c3; try discriminate; reflexivity).
    rewrite X in E. change (v248_val v248_zero) with 0. unfold clamp. nia.
  - assert (b2n c2 + b2n c3 = 0) as X by (destruct c2, c3; try discriminate; reflexivity). rewrite X in E.
    destruct (v248_valid (V248 h2 lo)).
    + destruct V as [V _]. specialize (V eq_refl). split; [|split; assumption].
      unfold v248_val at 1. cbn [v_hi v_lo]. change (2 ^ 128) with W128. unfold clamp. lia.
    + split; [|exact v248_max_ok]. rewrite v248_max_val. destruct V as [_ V].
      destruct (N.le_gt_cases (h2 * W128 + lo) MAX248) as [Q|Q]; [specialize (V Q); discriminate|]. unfold clamp. lia.
Qed.

(** ** Multiplication *)
Lemma halves x : x < W128 -> x = (x / B64) * B64 + x mod B64 /\ x / B64 < B64 /\ x mod B64 < B64.
Proof.
  intros H. split_and!.
  - rewrite N.mul_comm. apply N.div_mod. discriminate.
  - apply N.div_lt_upper_bound; [discriminate|]. exact H.
  - apply N.mod_lt. discriminate.
Qed.
Lemma lo_half q r : r < B64 -> (q * B64 + r) mod B64 = r.
Proof. intros H. symmetry. apply (N.mod_unique _ _ q); lia. Qed.
Lemma hi_half q r : r < B64 -> (q * B64 + r) / B64 = q.
Proof. intros H. symmetry. apply (N.div_unique _ _ q r); lia. Qed.
Lemma mul_bound B a b : a < B -> b < B -> a * b + 2 * (B - 1) < B * B.
Proof. intros. assert (a * b <= (B - 1) * (B - 1)) by (apply N.mul_le_mono; lia). nia. Qed.
Lemma mul_words a b h l : a * b = h * W128 + l -> l < W128 -> h = a * b / W128 /\ l = a * b mod W128.
Proof. intros E H. split; [apply (N.div_unique _ _ h l)|apply (N.mod_unique _ _ h)]; lia. Qed.

Lemma two_digits t p : t < B64 -> p < B64 -> t * B64 + p < W128.
Proof. rewrite BB. intros. nia. Qed.
Lemma sum_small t p : t < B64 -> p < B64 -> t + p < W128.
Proof. assert (2 * B64 < W128) by reflexivity. lia. Qed.
Lemma schoolbook B a1 a0 b1 b0 p1 p0 t1 t0 s1 s0 :
  a0 * b0 = p1 * B + p0 -> p1 + a1 * b0 = t1 * B + t0 -> t0 + b1 * a0 = s1 * B + s0 ->
  (t1 + s1 + a1 * b1) * (B * B) + (p0 + s0 * B) = (a1 * B + a0) * (b1 * B + b0).
Proof.
  intros E0 E1 E2.
  replace ((a1 * B + a0) * (b1 * B + b0)) with (a1 * b1 * (B * B) + (a1 * b0) * B + (b1 * a0) * B + a0 * b0) by lia.
  rewrite E0. replace (a1 * b1 * (B * B) + a1 * b0 * B + b1 * a0 * B + (p1 * B + p0)) with (a1 * b1 * (B * B) + (p1 + a1 * b0) * B + b1 * a0 * B + p0) by lia.
  rewrite E1. replace (a1 * b1 * (B * B) + (t1 * B + t0) * B + b1 * a0 * B + p0) with (a1 * b1 * (B * B) + t1 * (B * B) + (t0 + b1 * a0) * B + p0) by lia.
  rewrite E2. lia.
Qed.
Lemma word_lt W m l : m < W -> l < W -> m * W + l < W * W.
Proof. intros. nia. Qed.
Lemma word_ge W m l : W <= m -> W * W <= m * W + l.
Proof. intros. nia. Qed.
Lemma umulddi3_ok a b : a < W128 -> b < W128 -> exists h l, umulddi3 a b = Ok (V248 h l) /\ h < W128 /\ l < W128 /\ h * W128 + l = a * b.
Proof.
  intros Ha Hb. unfold umulddi3. rewrite !land_mask. rewrite !shr_div. change (2 ^ 64) with B64.
  destruct (halves a Ha) as (Ea & A1 & A0), (halves b Hb) as (Eb & B1 & B0).
  set (a1 := a / B64) in *. set (a0 := a mod B64) in *. set (b1 := b / B64) in *. set (b0 := b mod B64) in *.
  pose proof (mul_bound _ _ _ A0 B0) as M00. pose proof (mul_bound _ _ _ A1 B0) as M10.
  pose proof (mul_bound _ _ _ B1 A0) as M01. pose proof (mul_bound _ _ _ A1 B1) as M11.
  rewrite <- BB in *. assert (PB : 0 < B64) by reflexivity.
  rewrite xmul_ok by lia. cbn [rbind]. rewrite land_mask, shr_div. change (2 ^ 64) with B64.
  destruct (halves (a0 * b0) ltac:(lia)) as (E0 & P1 & P0).
  set (p1 := a0 * b0 / B64) in *. set (p0 := (a0 * b0) mod B64) in *.
  rewrite xmul_ok by lia. cbn [rbind]. rewrite xadd_ok by lia. cbn [rbind].
  destruct (halves (p1 + a1 * b0) ltac:(lia)) as (E1 & T1 & T0).
  rewrite land_mask, shr_div. change (2 ^ 64) with B64.
  set (t1 := (p1 + a1 * b0) / B64) in *. set (t0 := (p1 + a1 * b0) mod B64) in *.
  assert (H1 : t0 * B64 + p0 < W128) by (apply two_digits; assumption).
  rewrite shl_small by (change (2 ^ 64) with B64; change (2 ^ 128) with W128; lia). change (2 ^ 64) with B64.
  rewrite xadd_ok by lia. cbn [rbind]. rewrite (N.add_comm p0).
  rewrite xmul_ok by lia. cbn [rbind]. rewrite shr_div. change (2 ^ 64) with B64. rewrite hi_half by exact P0.
  rewrite xadd_ok by lia. cbn [rbind].
  destruct (halves (t0 + b1 * a0) ltac:(lia)) as (E2 & S1 & S0).
  rewrite !land_mask, !shr_div. change (2 ^ 64) with B64. rewrite lo_half by exact P0.
  set (s1 := (t0 + b1 * a0) / B64) in *. set (s0 := (t0 + b1 * a0) mod B64) in *.
  assert (H2 : s0 * B64 + p0 < W128) by (apply two_digits; assumption).
  rewrite shl_small by (change (2 ^ 64) with B64; change (2 ^ 128) with W128; lia). change (2 ^ 64) with B64.
  rewrite xadd_ok by lia. cbn [rbind].
  rewrite xadd_ok by (apply sum_small; assumption). cbn [rbind]. rewrite xmul_ok by lia. cbn [rbind].
  rewrite xadd_ok by lia. cbn [rbind].
  eexists _, _. split; [reflexivity|]. split_and!; [lia|lia|].
  rewrite Ea, Eb, BB. rewrite <- schoolbook with (p1 := p1) (p0 := p0) (t1 := t1) (t0 := t0) (s1 := s1) (s0 := s0) by assumption. reflexivity.
Qed.
Lemma v248_mul_ok a b : v248_ok a -> v248_ok b -> exists r, v248_mul a b = Ok r /\ v248_ok r /\ v248_val r = (v248_val a * v248_val b) mod (W128 * W128).
Proof.
  rewrite !v248_ok_eq. intros [Ah Al] [Bh Bl]. unfold v248_mul.
  destruct (umulddi3_ok _ _ Al Bl) as (h & l & -> & Hh & Hl & E). cbn [rbind v_hi v_lo].
  eexists. split; [reflexivity|]. rewrite v248_ok_eq. cbn [v_hi v_lo]. split; [split; [apply N.mod_lt; discriminate|exact Hl]|].
  rewrite !v248_val_eq. cbn [v_hi v_lo]. set (W := W128) in *. assert (P : W <> 0) by discriminate.
  set (x := v_hi a * v_lo b). set (y := v_lo a * v_hi b).
  assert (X : (h + (x mod W + y mod W) mod W) mod W = (h + x + y) mod W).
  { rewrite <- (N.add_mod x y W P). rewrite N.add_mod_idemp_r by exact P. f_equal. lia. }
  rewrite X. symmetry.
  assert (Z : (v_hi a * W + v_lo a) * (v_hi b * W + v_lo b) = (v_hi a * v_hi b) * (W * W) + ((h + x + y) * W + l)) by (unfold x, y; nia).
  rewrite Z. pose proof (N.div_mod (h + x + y) W P) as D. pose proof (N.mod_lt (h + x + y) W P) as Lm.
  set (q := (h + x + y) / W) in *. set (m := (h + x + y) mod W) in *.
  symmetry. apply (N.mod_unique _ _ (v_hi a * v_hi b + q)); [apply word_lt; assumption|]. rewrite D. ring.
Qed.
Lemma v248_checked_mul_ok a b : v248_ok a -> v248_ok b -> v248_valid a = true ->
  exists o, v248_checked_mul a b = Ok o /\
  exactly (W128 * W128 - 1) (Z.of_N (v248_val a) * Z.of_N (v248_val b)) (option_map v248_val o) /\ (forall r, o = Some r -> v248_ok r).
Proof.
  rewrite !v248_ok_eq. intros [Ah Al] [Bh Bl] Va. unfold v248_checked_mul. rewrite Va.
  destruct (umulddi3_ok _ _ Al Bl) as (h & l & -> & Hh & Hl & E). cbn [rbind v_hi v_lo].
  rewrite <- N2Z.inj_mul. rewrite !v248_val_eq.
  unfold ovmul. 
  set (x := v_hi a * v_lo b). set (y := v_lo a * v_hi b).
  assert (Z : (v_hi a * W128 + v_lo a) * (v_hi b * W128 + v_lo b) = (v_hi a * v_hi b) * (W128 * W128) + ((h + x + y) * W128 + l)) by (unfold x, y; nia).
  rewrite Z. clear Z. cbn [negb].
  assert (PW : 0 < W128) by reflexivity.
  assert (HH : negb (v_hi a =? 0) && negb (v_hi b =? 0) = true -> 1 <= v_hi a * v_hi b).
  { intros Hx. apply andb_prop in Hx. destruct Hx as [Hx Hy]. destruct (N.eqb_spec (v_hi a) 0), (N.eqb_spec (v_hi b) 0); try discriminate. nia. }
  assert (HN : negb (v_hi a =? 0) && negb (v_hi b =? 0) = false -> v_hi a * v_hi b = 0).
  { intros Hx. apply andb_false_iff in Hx. destruct (N.eqb_spec (v_hi a) 0), (N.eqb_spec (v_hi b) 0); destruct Hx; try discriminate; nia. }
  clearbody x y.
  assert (BIG : forall z, W128 <= z -> (Z.of_N (W128 * W128 - 1) < Z.of_N (v_hi a * v_hi b * (W128 * W128) + (z * W128 + l)))%Z).
  { intros z Hz. pose proof (word_ge W128 z l Hz). lia. }
  destruct (N.leb_spec W128 x) as [Lx|Lx].
  { eexists. split; [destruct (ovadd (x mod W128) (y mod W128)) as [n ?], (ovadd h n) as [? ?]; cbn [orb]; reflexivity|]. split; [|discriminate]. cbn [option_map exactly]. right. apply BIG. lia. }
  destruct (N.leb_spec W128 y) as [Ly|Ly].
  { eexists. split; [destruct (ovadd (x mod W128) (y mod W128)) as [n ?], (ovadd h n) as [? ?]; cbn [orb]; reflexivity|]. split; [|discriminate]. cbn [option_map exactly]. right. apply BIG. lia. }
  rewrite !N.mod_small by assumption.
  pose proof (ovadd_spec x y Lx Ly) as S1. destruct (ovadd x y) as [s c1]. destruct S1 as [L1 S1].
  pose proof (ovadd_spec h s Hh L1) as S2. destruct (ovadd h s) as [t c2]. destruct S2 as [L2 S2].
  cbn [orb]. destruct c1; cbn [orb b2n] in *.
  { eexists. split; [reflexivity|]. split; [|discriminate]. cbn [option_map exactly]. right. apply BIG. lia. }
  destruct c2; cbn [orb b2n] in *.
  { eexists. split; [reflexivity|]. split; [|discriminate]. cbn [option_map exactly]. right. apply BIG. lia. }
  destruct (negb (v_hi a =? 0) && negb (v_hi b =? 0)) eqn:O.
  { eexists. split; [reflexivity|]. split; [|discriminate]. cbn [option_map exactly]. right. specialize (HH eq_refl). clear - HH PW.
    assert (W128 * W128 <= v_hi a * v_hi b * (W128 * W128)); [|lia]. generalize dependent (W128 * W128). intros. nia. }
  cbn [orb negb]. eexists. split; [reflexivity|]. split.
  - cbn [option_map exactly]. rewrite v248_val_eq. cbn [v_hi v_lo]. rewrite (HN eq_refl).
    assert (h + x + y = t) as -> by lia. pose proof (word_lt W128 t l L2 Hl). split; lia.
  - intros r [= <-]. split; assumption.
Qed.
Lemma v248_checked_mul_invalid a b : v248_ok a -> v248_ok b -> v248_valid a = false -> v248_checked_mul a b = Ok None.
Proof.
  rewrite !v248_ok_eq. intros [Ah Al] [Bh Bl] Va. unfold v248_checked_mul. rewrite Va.
  destruct (umulddi3_ok _ _ Al Bl) as (h & l & -> & Hh & Hl & E). cbn [rbind v_hi v_lo negb].
  destruct (ovmul _ _) as [? ?], (ovmul (v_lo a) _) as [? ?], (ovadd _ _) as [? ?], (ovadd h _) as [? ?]. rewrite orb_true_r. reflexivity.
Qed.

(** ** The operators + and - *)
Lemma v248_sub_ok a b : v248_ok a -> v248_ok b -> v248_val b <= v248_val a -> v248_ok (v248_sub a b) /\ v248_val (v248_sub a b) = v248_val a - v248_val b.
Proof.
  intros Ha Hb L. unfold v248_sub. pose proof (sub_steps a b Ha Hb) as S.
  pose proof (v248_val_lt _ Ha) as La. pose proof (v248_val_lt _ Hb) as Lb.
  destruct (ovsub (v_lo a) (v_lo b)) as [lo c1], (ovsub (v_hi a) (b2n c1)) as [h1 c2]. cbn [fst].
  destruct (ovsub h1 (v_hi b)) as [h2 c3]. cbn [fst]. destruct S as (L1 & L2 & E & C).
  assert (b2n c2 + b2n c3 = 0) as X by (destruct c2, c3; cbn [b2n andb] in *; try discriminate; nia). rewrite X in E.
  split; [split; assumption|]. unfold v248_val at 1. cbn [v_hi v_lo]. change (2 ^ 128) with W128. lia.
Qed.
Lemma v248_add_ok a b : v248_ok a -> v248_ok b ->
  v248_ok (v248_add a b) /\ v248_val (v248_add a b) = (2 * v_hi b * W128 + v_lo a + v_lo b) mod (W128 * W128).
Proof.
  rewrite !v248_ok_eq. intros [Ah Al] [Bh Bl]. unfold v248_add.
  pose proof (ovadd_spec (v_lo a) (v_lo b) Al Bl) as S1. destruct (ovadd (v_lo a) (v_lo b)) as [lo c1]. destruct S1 as [L1 S1].
  set (h := ((v_hi b + b2n c1) mod W128 + v_hi b) mod W128).
  assert (Hh : h = (2 * v_hi b + b2n c1) mod W128).
  { unfold h. rewrite N.add_mod_idemp_l by discriminate. f_equal. lia. }
  assert (Lh : h < W128) by (apply N.mod_lt; discriminate).
  split; [split; assumption|]. rewrite v248_val_eq. cbn [v_hi v_lo]. rewrite Hh.
  pose proof (N.div_mod (2 * v_hi b + b2n c1) W128 ltac:(discriminate)) as D.
  apply (N.mod_unique _ _ ((2 * v_hi b + b2n c1) / W128)); [rewrite <- Hh; apply word_lt; assumption|].
  set (q := (2 * v_hi b + b2n c1) / W128) in *. set (m := (2 * v_hi b + b2n c1) mod W128) in *.
  transitivity ((2 * v_hi b + b2n c1) * W128 + lo); [lia|]. rewrite D. ring.
Qed.
Lemma v248_cmp_ok a b : v248_ok a -> v248_ok b -> v248_cmp a b = N.compare (v248_val a) (v248_val b).
Proof.
  rewrite !v248_ok_eq, !v248_val_eq. intros [Ah Al] [Bh Bl]. unfold v248_cmp.
  destruct (N.compare_spec (v_hi a) (v_hi b)) as [E|E|E].
  - rewrite E. destruct (N.compare_spec (v_lo a) (v_lo b)); symmetry; [apply N.compare_eq_iff|apply N.compare_lt_iff|apply N.compare_gt_iff]; lia.
  - symmetry. apply N.compare_lt_iff. nia.
  - symmetry. apply N.compare_gt_iff. nia.
Qed.
