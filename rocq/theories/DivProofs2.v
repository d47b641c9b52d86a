(** Division of 256-bit numbers by 256-bit numbers (num/varuint248.rs). *)
From Verif Require Import Err NumModel Var248Model NumSpec NumProofs Var248Proofs DivProofs.
Local Open Scope N_scope.

(** ** Two-word division *)
Lemma schoolbook2 B a1 a0 b1 b0 p1 p0 t1 t0 s1 s0 :
  a0 * b0 = p1 * B + p0 -> a1 * b0 + p1 = t1 * B + t0 -> a0 * b1 + t0 = s1 * B + s0 ->
  (a1 * b1 + t1 + s1) * (B * B) + (s0 * B + p0) = (a1 * B + a0) * (b1 * B + b0).
Proof.
  intros. rewrite <- schoolbook with (p1 := p1) (p0 := p0) (t1 := t1) (t0 := t0) (s1 := s1) (s0 := s0); [ring|assumption|lia|lia].
Qed.
Lemma hi_bound B a1 b1 t1 s1 : 0 < B -> a1 < B -> b1 < B -> t1 < B -> s1 < B -> a1 * b1 + t1 + s1 < B * B.
Proof. intros. assert (a1 * b1 <= (B - 1) * (B - 1)) by (apply N.mul_le_mono; lia). nia. Qed.
Lemma fullmul128_ok a b : a < W128 -> b < W128 -> exists lo hi, fullmul128 a b = Ok (lo, hi) /\ lo < W128 /\ hi < W128 /\ hi * W128 + lo = a * b.
Proof.
  intros Ha Hb. unfold fullmul128, split128. rewrite !land_mask, !shr_div. change (2 ^ 64) with B64.
  destruct (halves a Ha) as (Ea & A1 & A0), (halves b Hb) as (Eb & B1 & B0).
  set (a1 := a / B64) in *. set (a0 := a mod B64) in *. set (b1 := b / B64) in *. set (b0 := b mod B64) in *.
  pose proof (mul_bound _ _ _ A0 B0) as M00. pose proof (mul_bound _ _ _ A1 B0) as M10.
  pose proof (mul_bound _ _ _ A0 B1) as M01. pose proof (mul_bound _ _ _ A1 B1) as M11.
  rewrite <- BB in *. assert (PB : 0 < B64) by reflexivity.
  rewrite xmul_ok by lia. cbn [rbind]. rewrite land_mask, shr_div. change (2 ^ 64) with B64.
  destruct (halves (a0 * b0) ltac:(lia)) as (E0 & P1 & P0).
  set (p1 := a0 * b0 / B64) in *. set (p0 := (a0 * b0) mod B64) in *.
  rewrite xmul_ok by lia. cbn [rbind]. rewrite xadd_ok by lia. cbn [rbind].
  rewrite land_mask, shr_div. change (2 ^ 64) with B64.
  destruct (halves (a1 * b0 + p1) ltac:(lia)) as (E1 & T1 & T0).
  set (t1 := (a1 * b0 + p1) / B64) in *. set (t0 := (a1 * b0 + p1) mod B64) in *.
  rewrite xmul_ok by lia. cbn [rbind]. rewrite xadd_ok by lia. cbn [rbind].
  destruct (halves (a0 * b1 + t0) ltac:(lia)) as (E2 & S1 & S0).
  rewrite shr_div. change (2 ^ 64) with B64. rewrite shl_mod. change (2 ^ 64) with B64. change (2 ^ 128) with W128.
  assert (SM : (a0 * b1 + t0) * B64 mod W128 = ((a0 * b1 + t0) mod B64) * B64).
  { rewrite BB. apply mul_mod_split; exact PB. }
  rewrite SM. set (s1 := (a0 * b1 + t0) / B64) in *. set (s0 := (a0 * b1 + t0) mod B64) in *.
  rewrite xmul_ok by lia. cbn [rbind]. rewrite xadd_ok by lia. cbn [rbind]. rewrite xadd_ok by lia. cbn [rbind].
  pose proof (two_digits s0 p0 S0 P0) as TD. rewrite xadd_ok by exact TD. cbn [rbind].
  eexists _, _. split; [reflexivity|]. split; [exact TD|]. split; [apply (hi_bound B64); assumption|].
  rewrite Ea, Eb, BB. apply schoolbook2 with (p1 := p1) (t0 := t0); assumption.
Qed.
Lemma fullmul256_ok a b : v248_ok a -> b < W128 -> exists p0 p1 p2, fullmul256 a b = Ok (p0, p1, p2) /\
  p0 < W128 /\ p1 < W128 /\ p2 < W128 /\ p2 * (W128 * W128) + p1 * W128 + p0 = v248_val a * b.
Proof.
  rewrite v248_ok_eq. intros [Hh Hl] Hb. unfold fullmul256. rewrite v248_val_eq. destruct (N.eqb_spec b 0) as [->|Nb].
  { exists 0, 0, 0. split; [reflexivity|]. split_and!; try reflexivity. rewrite N.mul_0_r. reflexivity. }
  destruct (fullmul128_ok _ _ Hl Hb) as (l0 & l1 & -> & L0 & L1 & El). cbn [rbind].
  destruct (fullmul128_ok _ _ Hh Hb) as (h0 & h1 & -> & H0 & H1 & Eh). cbn [rbind].
  pose proof (ovadd_spec l1 h0 L1 H0) as S. destruct (ovadd l1 h0) as [m c]. destruct S as [Lm Em].
  assert (Hc : h1 + b2n c < W128).
  { (* the product of two words has a high word below the largest *)
    assert (h1 < W128 - 1); [|destruct c; cbn [b2n]; lia].
    assert (v_hi a * b <= (W128 - 1) * (W128 - 1)) by (apply N.mul_le_mono; lia).
    apply (N.mul_lt_mono_pos_r W128); [reflexivity|]. assert ((W128 - 1) * (W128 - 1) < (W128 - 1) * W128) by reflexivity. lia. }
  rewrite xadd_ok by exact Hc. cbn [rbind]. eexists _, _, _. split; [reflexivity|]. split_and!; try assumption.
  transitivity ((v_hi a * b) * W128 + v_lo a * b); [|ring]. rewrite <- El, <- Eh.
  transitivity (h1 * (W128 * W128) + (m + b2n c * W128) * W128 + l0); [ring|]. rewrite Em. ring.
Qed.
Lemma sub_carry_ok a b c : a < W128 -> b < W128 -> let '(r, c') := sub_carry a b c in r < W128 /\ a + b2n c' * W128 = r + b + b2n c.
Proof.
  intros Ha Hb. unfold sub_carry. assert (Hc : b2n c < W128) by (destruct c; reflexivity).
  pose proof (ovadd_spec b (b2n c) Hb Hc) as S1. destruct (ovadd b (b2n c)) as [r1 o1]. destruct S1 as [L1 E1].
  pose proof (ovsub_spec a r1 Ha L1) as S2. destruct (ovsub a r1) as [r2 o2]. destruct S2 as [L2 E2].
  split; [exact L2|]. assert (b2n c <= 1) by (destruct c; cbn; lia).
  destruct o1, o2; cbn [b2n orb] in *; lia.
Qed.
Lemma fix_word_ok v1 v2 u0 A Q : W128 <= 2 * v1 -> v1 < W128 -> v2 < W128 -> u0 < W128 ->
  A < v1 * W128 + v2 -> Q * (v1 * W128 + v2) <= A * W128 + u0 -> A * W128 + u0 < (Q + 1) * (v1 * W128 + v2) ->
  forall fuel q r, q * v1 + r = A -> q < W128 -> r < W128 -> Q <= q -> W128 <= r + N.of_nat fuel * v1 ->
  fix_word fuel q r v1 v2 u0 = Ok Q.
Proof.
  intros H1 H1' H2 Hu HA Q1 Q2. assert (HW : 0 < W128) by reflexivity.
  induction fuel as [|f IH]; intros q r E Hq Hr GQ F; [lia|].
  cbn [fix_word]. destruct (fullmul128_ok q v2 Hq H2) as (lo & hi & -> & Llo & Lhi & Em). cbn [rbind].
  assert (T : (r <? hi) || ((hi =? r) && (u0 <? lo)) = (r * W128 + u0 <? q * v2)).
  { rewrite <- Em. destruct (N.ltb_spec r hi) as [L|L]; cbn [orb].
    - symmetry. apply N.ltb_lt. clear - L Hu Llo. nia.
    - destruct (N.eqb_spec hi r) as [->|Ne]; cbn [andb].
      + destruct (N.ltb_spec u0 lo), (N.ltb_spec (r * W128 + u0) (r * W128 + lo)); try reflexivity; lia.
      + symmetry. apply N.ltb_ge. assert (hi < r) by lia. clear - H Llo. nia. }
  rewrite T. destruct (N.ltb_spec (r * W128 + u0) (q * v2)) as [L|L]; cbn [negb].
  - rewrite (N.mul_comm r) in L.
    pose proof (digit_big W128 v1 v2 u0 A Q HW H1 H1' H2 Hu HA Q1 Q2 q r E L) as GQ'.
    rewrite xsub_ok by lia. cbn [rbind].
    pose proof (ovadd_spec r v1 Hr H1') as S. destruct (ovadd r v1) as [r' o]. destruct S as [Lr Er].
    assert (E' : (q - 1) * v1 + (r + v1) = A).
    { rewrite <- E. replace q with ((q - 1) + 1) at 2 by lia. ring. }
    destruct o; cbn [b2n] in Er.
    + f_equal. apply (digit_break W128 v1 v2 u0 A Q HW H1 H1' H2 Hu HA Q1 Q2 _ (r + v1)); lia.
    + apply IH; try lia.
  - f_equal. rewrite (N.mul_comm r) in L. apply (digit_stop W128 v1 v2 u0 A Q HW H1 H1' H2 Hu HA Q1 Q2 q r); assumption.
Qed.
Lemma val3_lt W V u0 u1 u2 : 0 < W -> V < W * W -> u2 * (W * W) + u1 * W + u0 < V -> u2 = 0.
Proof. intros. nia. Qed.
Lemma full_shr_ok u0 u1 n : u0 < W128 -> u1 < W128 -> n <= 127 -> v248_ok (full_shr (u0, u1, 0) n) /\ v248_val (full_shr (u0, u1, 0) n) = (u1 * W128 + u0) / 2 ^ n.
Proof.
  intros H0 H1 Hn. unfold full_shr. destruct (N.ltb_spec 0 n) as [G|G].
  - destruct (shr_low_ok u1 u0 n ltac:(lia) Hn H1 H0) as [E B]. rewrite E.
    assert (shl 128 0 (128 - n) = 0) as -> by (unfold shl; rewrite N.shiftl_0_l; reflexivity). rewrite N.lor_0_r, shr_div.
    split; [apply ok_intro; cbn [v_hi v_lo]; [apply div_keeps; exact H1|exact B]|].
    rewrite v248_val_eq. cbn [v_hi v_lo]. unfold W128 in *. rewrite (pow_split 128 n) in * by lia. apply shift_join; try apply pow2_pos. exact H0.
  - assert (n = 0) as -> by lia. rewrite !shr_div, N.pow_0_r, !N.div_1_r. split; [apply ok_intro; assumption|reflexivity].
Qed.
Lemma full_shl_ok a n : v248_ok a -> n <= 127 -> exists u0 u1 u2, full_shl a n = Ok (u0, u1, u2) /\
  u0 < W128 /\ u1 < W128 /\ u2 * 2 < 2 * 2 ^ n /\ u2 * (W128 * W128) + u1 * W128 + u0 = v248_val a * 2 ^ n.
Proof.
  intros Ha Hn. unfold full_shl. destruct (v248_shr_ok a (128 - n) Ha ltac:(lia)) as (r & -> & Hr & Er). cbn [rbind].
  eexists _, _, _. split; [reflexivity|]. rewrite shl_mod. change (2 ^ 128) with W128.
  destruct Hr as [Hrh Hrl]. change (2 ^ 128) with W128 in Hrh, Hrl.
  split; [apply N.mod_lt; discriminate|]. split; [exact Hrl|].
  rewrite v248_val_eq in Er. pose proof (v248_val_lt _ Ha) as La.
  pose proof (pow2_pos n) as P. pose proof (pow2_pos (128 - n)) as Pc.
  assert (S : W128 = 2 ^ (128 - n) * 2 ^ n) by (unfold W128; rewrite (pow_split 128 n) by lia; apply N.mul_comm).
  assert (Sl : (v_lo a * 2 ^ n) mod W128 = (v_lo a mod 2 ^ (128 - n)) * 2 ^ n) by (rewrite S at 1; apply mul_mod_split; assumption).
  assert (Ml : v_lo a mod 2 ^ (128 - n) = v248_val a mod 2 ^ (128 - n)).
  { rewrite v248_val_eq, S. set (C := 2 ^ (128 - n)) in *. replace (v_hi a * (C * 2 ^ n) + v_lo a) with (v_lo a + (v_hi a * 2 ^ n) * C) by ring.
    symmetry. apply N.mod_add. lia. }
  pose proof (N.div_mod (v248_val a) (2 ^ (128 - n)) ltac:(lia)) as D.
  rewrite Sl, Ml. rewrite <- Er in D. set (m := v248_val a mod 2 ^ (128 - n)) in *. set (C := 2 ^ (128 - n)) in *.
  split.
  - assert (v_hi r < 2 ^ n); [|lia]. apply (N.mul_lt_mono_pos_r W128); [reflexivity|].
    apply (N.mul_lt_mono_pos_r C); [exact Pc|].
    assert (2 ^ n * W128 * C = W128 * W128) as -> by (rewrite S at 2; ring). lia.
  - rewrite D. transitivity ((v_hi r * W128 + v_lo r) * W128 + m * 2 ^ n); [ring|]. rewrite S at 2. ring.
Qed.
Lemma knuth_ok u v : v248_ok u -> v248_ok v -> v_hi v <> 0 ->
  exists q r, div_mod_knuth u v = Ok (q, r) /\ v248_ok q /\ v248_ok r /\
  v248_val q = v248_val u / v248_val v /\ v248_val r = v248_val u mod v248_val v.
Proof.
  intros Hu Hv Nv. pose proof Hv as Hv'. rewrite v248_ok_eq in Hv'. destruct Hv' as [Hvh Hvl].
  destruct (lz_norm (v_hi v) Nv Hvh) as (Ls & LV & UV). unfold div_mod_knuth. cbn zeta.
  set (s := lz 128 (v_hi v)) in *. pose proof (pow2_pos s) as Ps.
  destruct (v248_shl_ok v s Hv ltac:(lia)) as (vs & -> & Hvs & Evs). cbn [rbind].
  assert (Nn : v248_val v * 2 ^ s < W128 * W128).
  { rewrite v248_val_eq. assert (v_hi v * 2 ^ s + 1 <= W128) by lia.
    assert ((v_hi v * W128 + v_lo v) * 2 ^ s < (v_hi v * 2 ^ s + 2 ^ s) * W128) by nia.
    (* v_hi v * 2^s is a multiple of 2^s below W128, hence at most W128 - 2^s *)
    assert (S : W128 = 2 ^ (128 - s) * 2 ^ s) by (unfold W128; rewrite (pow_split 128 s) by lia; apply N.mul_comm).
    assert (v_hi v < 2 ^ (128 - s)) by (apply (N.mul_lt_mono_pos_r (2 ^ s)); lia).
    assert (v_hi v * 2 ^ s + 2 ^ s <= W128) by (rewrite S; nia). nia. }
  rewrite N.mod_small in Evs by exact Nn.
  destruct (full_shl_ok u s Hu ltac:(lia)) as (u0 & u1 & u2 & -> & U0 & U1 & U2 & EU). cbn [rbind].
  rewrite v248_ok_eq in Hvs. destruct Hvs as [V1 V2]. rewrite v248_val_eq in Evs.
  set (v1 := v_hi vs) in *. set (v2 := v_lo vs) in *.
  assert (Hn : W128 <= 2 * v1).
  { apply norm_half with v2; [reflexivity|exists (2 ^ 127); reflexivity|exact V2|]. rewrite Evs.
    rewrite v248_val_eq. clear - LV. set (W := W128) in *. nia. }
  assert (Lu2 : u2 < v1).
  { assert (2 ^ s <= 2 ^ 127) by (apply N.pow_le_mono_r; lia). assert (W128 = 2 * 2 ^ 127) by reflexivity. lia. }
  destruct (N.ltb_spec u2 v1); [|lia].
  rewrite udiv256_ok by assumption. cbn [rbind].
  set (A := u2 * W128 + u1) in *. set (V := v1 * W128 + v2) in *.
  assert (HA : A < V) by (unfold A, V; clear - Lu2 U1; nia).
  set (U := u2 * (W128 * W128) + u1 * W128 + u0) in *. assert (EUA : U = A * W128 + u0) by (unfold U, A; ring).
  assert (NV : V <> 0) by lia.
  pose proof (N.div_mod U V NV) as DU. pose proof (N.mod_lt U V NV) as MU. set (Q := U / V) in *. set (R := U mod V) in *.
  assert (NV1 : v1 <> 0) by lia.
  pose proof (N.div_mod A v1 NV1) as DA. pose proof (N.mod_lt A v1 NV1) as MA.
  assert (LQ : A / v1 < W128). { apply N.div_lt_upper_bound; [exact NV1|]. unfold A. clear - Lu2 U1. nia. }
  assert (Q1 : Q * V <= A * W128 + u0) by (rewrite <- EUA; lia).
  assert (Q2 : A * W128 + u0 < (Q + 1) * V) by (rewrite <- EUA; lia).
  assert (HW : 0 < W128) by reflexivity.
  rewrite (fix_word_ok v1 v2 u0 A Q Hn V1 V2 U0 HA Q1 Q2) ; cbn [rbind].
  2: lia. 2: exact LQ. 2: lia.
  2: { apply (guess_ge W128 v1 v2 u0 A Q HW Hn V1 V2 U0 HA Q1 Q2). }
  2: { change (N.of_nat 4) with 4. lia. }
  assert (QW : Q < W128) by (apply (digit_lt W128 v1 v2 u0 A Q HW Hn V1 V2 U0 HA Q1 Q2)).
  destruct (fullmul256_ok vs Q (ok_intro _ V1 V2) QW) as (p0 & p1 & p2 & -> & P0 & P1 & P2 & EP). cbn [rbind].
  rewrite v248_val_eq in EP. fold v1 v2 V in EP.
  assert (U2' : u2 < W128) by lia.
  pose proof (sub_carry_ok u0 p0 false U0 P0) as S0. destruct (sub_carry u0 p0 false) as [w0 c0]. destruct S0 as [L0 S0].
  pose proof (sub_carry_ok u1 p1 c0 U1 P1) as S1. destruct (sub_carry u1 p1 c0) as [w1 c1]. destruct S1 as [L1 S1].
  pose proof (sub_carry_ok u2 p2 c1 U2' P2) as S2. destruct (sub_carry u2 p2 c1) as [w2 c2]. destruct S2 as [L2 S2].
  cbn [b2n] in S0.
  assert (TOT : U + b2n c2 * (W128 * W128 * W128) = (w2 * (W128 * W128) + w1 * W128 + w0) + V * Q).
  { rewrite <- EP. unfold U.
    transitivity (((u2 + b2n c2 * W128) * W128 + u1) * W128 + u0); [ring|]. rewrite S2.
    transitivity (((w2 + p2) * W128 + (u1 + b2n c1 * W128)) * W128 + u0); [ring|]. rewrite S1.
    transitivity (((w2 + p2) * W128 + (w1 + p1)) * W128 + (u0 + b2n c0 * W128)); [ring|]. rewrite S0. ring. }
  assert (B3 : w2 * (W128 * W128) + w1 * W128 + w0 < W128 * W128 * W128).
  { pose proof (word_lt W128 w1 w0 L1 L0) as X. set (Y := w1 * W128 + w0) in *.
    replace (w2 * (W128 * W128) + w1 * W128 + w0) with (w2 * (W128 * W128) + Y) by (unfold Y; ring). clear - L2 X. generalize dependent (W128 * W128). intros. nia. }
  assert (c2 = false) as ->.
  { destruct c2; [|reflexivity]. cbn [b2n] in TOT. lia. }
  cbn [b2n] in TOT. cbn beta iota. cbn [rbind].
  assert (ER : w2 * (W128 * W128) + w1 * W128 + w0 = R) by lia.
  assert (VW : V < W128 * W128) by (rewrite Evs; exact Nn).
  assert (w2 = 0) as ->.
  { apply (val3_lt W128 V w0 w1 w2 HW VW). rewrite ER. exact MU. }
  destruct (full_shr_ok w0 w1 s L0 L1 ltac:(lia)) as [OK SV].
  eexists _, _. split; [reflexivity|]. split; [apply ok_intro; cbn [v_hi v_lo]; [reflexivity|exact QW]|]. split; [exact OK|].
  rewrite SV. rewrite (v248_val_eq (V248 0 Q)). cbn [v_hi v_lo]. rewrite N.mul_0_l, N.add_0_l.
  assert (NVv : v248_val v <> 0). { intros E. rewrite E, N.mul_0_l in Evs. lia. }
  pose proof (N.div_mod (v248_val u) (v248_val v) NVv) as Du. pose proof (N.mod_lt (v248_val u) (v248_val v) NVv) as Mu.
  assert (T2 : U = V * (v248_val u / v248_val v) + (v248_val u mod v248_val v) * 2 ^ s).
  { rewrite EU, Evs. rewrite Du at 1. ring. }
  assert (M2 : (v248_val u mod v248_val v) * 2 ^ s < V) by (rewrite Evs; apply N.mul_lt_mono_pos_r; assumption).
  rewrite T2 in DU at 1. destruct (N.div_mod_unique _ _ _ _ _ M2 MU DU) as [Eq Er].
  split; [symmetry; exact Eq|]. rewrite N.mul_0_l, N.add_0_l in ER. rewrite ER, <- Er. apply N.div_mul. lia.
Qed.
Lemma udivmod_ok a b : v248_ok a -> v248_ok b -> v248_val b <> 0 ->
  exists q r, udivmod a b = Ok (q, r) /\ v248_ok q /\ v248_ok r /\
  v248_val q = v248_val a / v248_val b /\ v248_val r = v248_val a mod v248_val b.
Proof.
  intros Ha Hb Nb. pose proof Ha as Ha'. pose proof Hb as Hb'. rewrite v248_ok_eq in Ha', Hb'. destruct Ha' as [Ah Al], Hb' as [Bh Bl].
  unfold udivmod. destruct (N.eqb_spec (N.lor (v_hi a) (v_hi b)) 0) as [Z|NZ].
  { apply N.lor_eq_0_iff in Z. destruct Z as [Za Zb]. rewrite !v248_val_eq in *. rewrite Za, Zb in *. rewrite !N.mul_0_l, !N.add_0_l in *.
    destruct (N.eqb_spec (v_lo b) 0); [lia|]. eexists _, _. split; [reflexivity|]. rewrite !v248_val_eq. cbn [v_hi v_lo].
    rewrite !N.mul_0_l, !N.add_0_l. split_and!; try reflexivity; apply ok_intro; cbn [v_hi v_lo]; try reflexivity.
    - apply N.div_lt_upper_bound; [lia|]. clear - n Al. nia.
    - pose proof (N.mod_lt (v_lo a) (v_lo b) n). lia. }
  rewrite v248_cmp_ok by assumption. destruct (N.compare_spec (v248_val b) (v248_val a)) as [E|L|G].
  3: { exists v248_zero, a. split; [reflexivity|]. split; [apply ok_intro; reflexivity|]. split; [exact Ha|].
       rewrite N.div_small, N.mod_small by exact G. split; reflexivity. }
  all: cbn beta iota; destruct (N.eqb_spec (v_hi b) 0) as [Zb|Nzb]; [|apply knuth_ok; assumption].
  all: rewrite (v248_val_eq b), Zb, N.mul_0_l, N.add_0_l in *.
  all: destruct (N.ltb_spec (v_hi a) (v_lo b)) as [Lh|Lh].
  1,3: rewrite udiv256_ok by assumption; cbn [rbind]; eexists _, _; split; [reflexivity|]; rewrite !v248_val_eq; cbn [v_hi v_lo]; rewrite !N.mul_0_l, !N.add_0_l;
    split_and!; try reflexivity; apply ok_intro; cbn [v_hi v_lo]; try reflexivity;
    [apply N.div_lt_upper_bound; [exact Nb|]; clear - Lh Al; nia | pose proof (N.mod_lt (v_hi a * W128 + v_lo a) (v_lo b) Nb); lia].
  all: destruct (N.eqb_spec (v_lo b) 0); [lia|]; pose proof (N.mod_lt (v_hi a) (v_lo b) Nb) as Mh;
    rewrite udiv256_ok by assumption; cbn [rbind]; eexists _, _; split; [reflexivity|]; rewrite !v248_val_eq; cbn [v_hi v_lo]; rewrite !N.mul_0_l, !N.add_0_l;
    pose proof (N.div_mod (v_hi a) (v_lo b) Nb) as D; set (h1 := v_hi a / v_lo b) in *; set (h0 := v_hi a mod v_lo b) in *;
    pose proof (N.div_mod (h0 * W128 + v_lo a) (v_lo b) Nb) as D2; pose proof (N.mod_lt (h0 * W128 + v_lo a) (v_lo b) Nb) as M2;
    set (l1 := (h0 * W128 + v_lo a) / v_lo b) in *; set (l0 := (h0 * W128 + v_lo a) mod v_lo b) in *;
    assert (EQ : v_hi a * W128 + v_lo a = v_lo b * (h1 * W128 + l1) + l0)
      by (transitivity (v_lo b * h1 * W128 + (h0 * W128 + v_lo a)); [rewrite D; ring|rewrite D2; ring]);
    split_and!;
    [apply ok_intro; cbn [v_hi v_lo];
      [apply N.div_lt_upper_bound; [exact Nb|]; clear - Ah Nb; nia | apply N.div_lt_upper_bound; [exact Nb|]; clear - Mh Al; nia]
    | apply ok_intro; cbn [v_hi v_lo]; [reflexivity|lia]
    | apply (N.div_unique _ _ _ l0); [exact M2|exact EQ]
    | apply (N.mod_unique _ _ (h1 * W128 + l1)); [exact M2|exact EQ]].
Qed.
