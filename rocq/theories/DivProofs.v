(** * Proofs about [VarUint248]: shifts and division *)
From Verif Require Import Err NumModel Var248Model NumSpec NumProofs Var248Proofs.
Local Open Scope N_scope.

Lemma ok_intro a : v_hi a < W128 -> v_lo a < W128 -> v248_ok a.
Proof. intros A B. exact (conj A B). Qed.
(** ** Shifts *)
Lemma pow_split a n : n <= a -> 2 ^ a = 2 ^ n * 2 ^ (a - n).
Proof. intros H. rewrite <- N.pow_add_r. f_equal. lia. Qed.
Lemma pow2_pos n : 0 < 2 ^ n.
Proof. pose proof (N.pow_nonzero 2 n ltac:(lia)). lia. Qed.
Lemma div_keeps x n W : x < W -> x / 2 ^ n < W.
Proof. intros H. pose proof (pow2_pos n). apply N.div_lt_upper_bound; nia. Qed.
Lemma shift_join P Q hi lo : 0 < P -> 0 < Q -> lo < P * Q ->
  (hi / P) * (P * Q) + ((hi mod P) * Q + lo / P) = (hi * (P * Q) + lo) / P.
Proof.
  intros HP HQ Hl. apply (N.div_unique _ _ _ (lo mod P)); [apply N.mod_lt; lia|].
  pose proof (N.div_mod hi P ltac:(lia)) as D1. pose proof (N.div_mod lo P ltac:(lia)) as D2.
  set (a := hi / P) in *. set (b := hi mod P) in *. set (c := lo / P) in *. set (d := lo mod P) in *.
  rewrite D1, D2. ring.
Qed.
Lemma mul_mod_split P Q x : 0 < P -> 0 < Q -> (x * Q) mod (P * Q) = (x mod P) * Q.
Proof. intros. apply N.mul_mod_distr_r; lia. Qed.
Lemma shr_low_ok hi lo n : 1 <= n -> n <= 127 -> hi < W128 -> lo < W128 ->
  N.lor (N.shiftr lo n) (shl 128 hi (128 - n)) = (hi mod 2 ^ n) * 2 ^ (128 - n) + lo / 2 ^ n /\
  (hi mod 2 ^ n) * 2 ^ (128 - n) + lo / 2 ^ n < W128.
Proof.
  intros H1 H2 Hh Hl. rewrite shr_div, shl_mod. unfold W128 in *. rewrite (pow_split 128 n) in * by lia.
  pose proof (pow2_pos n) as P. pose proof (pow2_pos (128 - n)) as Q.
  set (A := 2 ^ n) in *. rewrite mul_mod_split by assumption.
  assert (C : lo / A < 2 ^ (128 - n)). { apply N.div_lt_upper_bound; lia. }
  assert (D : hi mod A < A) by (apply N.mod_lt; lia).
  split; [rewrite N.lor_comm; apply lor_shl; exact C|]. nia.
Qed.
Lemma v248_shr_ok a n : v248_ok a -> n < 256 -> exists r, v248_shr a n = Ok r /\ v248_ok r /\ v248_val r = v248_val a / 2 ^ n.
Proof.
  rewrite !v248_ok_eq. intros [Hh Hl] Hn. unfold v248_shr. destruct (N.ltb_spec n 256); [|lia]. cbn [negb].
  destruct (N.eqb_spec n 0) as [->|N0].
  { exists a. split; [reflexivity|]. split; [apply ok_intro; assumption|]. rewrite N.pow_0_r, N.div_1_r. reflexivity. }
  destruct (N.leb_spec n 127) as [L|L].
  - eexists. split; [reflexivity|]. destruct (shr_low_ok _ _ n ltac:(lia) L Hh Hl) as [E B]. rewrite E. split.
    + apply ok_intro; cbn [v_hi v_lo]; [|exact B]. rewrite shr_div. apply div_keeps; exact Hh.
    + rewrite !v248_val_eq. cbn [v_hi v_lo]. rewrite shr_div. unfold W128 in *. rewrite (pow_split 128 n) in * by lia.
      apply shift_join; try apply pow2_pos. exact Hl.
  - eexists. split; [reflexivity|].
    assert (E : N.land n 127 = n - 128).
    { change 127 with (N.ones 7). rewrite N.land_ones. change (2 ^ 7) with 128. apply mod_wrap; lia. }
    rewrite E, shr_div. split.
    + apply ok_intro; cbn [v_hi v_lo]; [reflexivity|]. apply div_keeps; exact Hh.
    + rewrite !v248_val_eq. cbn [v_hi v_lo]. rewrite N.mul_0_l, N.add_0_l.
      rewrite (pow_split n 128) by lia. rewrite <- N.div_div by (apply N.pow_nonzero; lia). f_equal.
      change (2 ^ 128) with W128. apply (N.div_unique _ _ _ (v_lo a)); [exact Hl|ring].
Qed.
Lemma v248_shl_ok a n : v248_ok a -> n < 256 -> exists r, v248_shl a n = Ok r /\ v248_ok r /\ v248_val r = (v248_val a * 2 ^ n) mod (W128 * W128).
Proof.
  rewrite !v248_ok_eq. intros [Hh Hl] Hn. unfold v248_shl. destruct (N.ltb_spec n 256); [|lia]. cbn [negb].
  destruct (N.eqb_spec n 0) as [->|N0].
  { exists a. split; [reflexivity|]. split; [apply ok_intro; assumption|]. rewrite N.pow_0_r, N.mul_1_r. symmetry. apply N.mod_small. apply v248_val_lt. apply ok_intro; assumption. }
  destruct (N.leb_spec n 127) as [L|L].
  - eexists. split; [reflexivity|]. rewrite !shl_mod, shr_div. rewrite !v248_val_eq. cbn [v_hi v_lo].
    unfold W128 in *.
    pose proof (pow2_pos n) as P. pose proof (pow2_pos (128 - n)) as Q.
    assert (S : 2 ^ 128 = 2 ^ (128 - n) * 2 ^ n) by (rewrite (pow_split 128 n) by lia; apply N.mul_comm).
    set (A := 2 ^ n) in *. set (C := 2 ^ (128 - n)) in *.
    assert (E1 : (v_hi a * A) mod 2 ^ 128 = (v_hi a mod C) * A) by (rewrite S; apply mul_mod_split; assumption).
    assert (E2 : (v_lo a * A) mod 2 ^ 128 = (v_lo a mod C) * A) by (rewrite S; apply mul_mod_split; assumption).
    assert (L1 : v_lo a / C < A) by (apply N.div_lt_upper_bound; lia).
    rewrite E1. assert (LO : N.lor (v_hi a mod C * A) (v_lo a / C) = v_hi a mod C * A + v_lo a / C) by (apply lor_shl; exact L1). rewrite LO, E2.
    assert (M1 : v_hi a mod C < C) by (apply N.mod_lt; lia). assert (M2 : v_lo a mod C < C) by (apply N.mod_lt; lia).
    assert (H1 : v_hi a mod C * A + v_lo a / C < 2 ^ 128) by (rewrite S; clear -M1 L1; nia).
    assert (H2 : v_lo a mod C * A < 2 ^ 128) by (rewrite S; clear -M2 P; nia).
    split; [apply ok_intro; cbn [v_hi v_lo]; [exact H1|exact H2]|].
    apply (N.mod_unique _ _ (v_hi a / C)); [apply word_lt; [exact H1|exact H2]|].
    pose proof (N.div_mod (v_hi a) C ltac:(lia)) as D1. pose proof (N.div_mod (v_lo a) C ltac:(lia)) as D2.
    set (h1 := v_hi a / C) in *. set (h0 := v_hi a mod C) in *. set (l1 := v_lo a / C) in *. set (l0 := v_lo a mod C) in *.
    rewrite D1, D2, S. ring.
  - eexists. split; [reflexivity|].
    assert (E : N.land n 127 = n - 128).
    { change 127 with (N.ones 7). rewrite N.land_ones. change (2 ^ 7) with 128. apply mod_wrap; lia. }
    rewrite E, shl_mod. change (2 ^ 128) with W128. assert (B : (v_lo a * 2 ^ (n - 128)) mod W128 < W128) by (apply N.mod_lt; discriminate).
    split; [apply ok_intro; cbn [v_hi v_lo]; [exact B|reflexivity]|].
    rewrite !v248_val_eq. cbn [v_hi v_lo]. rewrite (pow_split n 128) by lia. change (2 ^ 128) with W128.
    pose proof (N.div_mod (v_lo a * 2 ^ (n - 128)) W128 ltac:(discriminate)) as D.
    set (X := 2 ^ (n - 128)) in *. set (q := v_lo a * X / W128) in *. set (m := (v_lo a * X) mod W128) in *.
    apply (N.mod_unique _ _ (v_hi a * X + q)); [apply word_lt; [exact B|reflexivity]|].
    transitivity (W128 * W128 * (v_hi a * X) + (v_lo a * X) * W128); [ring|]. rewrite D. ring.
Qed.

(** ** One quotient digit *)
Section Digit.
Context (B vn1 vn0 un A Q : N).
Context (HB : 0 < B) (H1 : B <= 2 * vn1) (H1' : vn1 < B) (H0 : vn0 < B) (Hu : un < B).
Notation V := (vn1 * B + vn0).
Context (HA : A < V) (Q1 : Q * V <= A * B + un) (Q2 : A * B + un < (Q + 1) * V).
Lemma digit_lt : Q < B.
Proof. nia. Qed.
Lemma digit_stop q r : q * vn1 + r = A -> q * vn0 <= B * r + un -> Q <= q -> q = Q.
Proof.
  intros E L G. assert (q * V <= A * B + un).
  { replace (q * V) with (q * vn1 * B + q * vn0) by ring. rewrite <- E. replace ((q * vn1 + r) * B + un) with (q * vn1 * B + (B * r + un)) by ring. lia. }
  assert (q < Q + 1); [|lia]. apply (N.mul_lt_mono_pos_r V); lia.
Qed.
Lemma digit_big q r : q * vn1 + r = A -> B * r + un < q * vn0 -> Q < q.
Proof.
  intros E L. apply (N.mul_lt_mono_pos_r V); [lia|].
  replace (q * V) with (q * vn1 * B + q * vn0) by ring.
  assert (A * B + un = q * vn1 * B + (B * r + un)) by (rewrite <- E; ring). lia.
Qed.
Lemma digit_break q r : q * vn1 + r = A -> B <= r -> q <= B -> Q <= q -> q = Q.
Proof.
  intros E L G GQ. apply (digit_stop q r); [exact E| |exact GQ].
  assert (q * vn0 <= B * B) by (apply N.mul_le_mono; lia). assert (B * B <= B * r) by (apply N.mul_le_mono_l; exact L). lia.
Qed.
Lemma guess_le : A / vn1 <= B + 1.
Proof.
  assert (vn1 <> 0) by lia. assert (A / vn1 < B + 2); [|lia]. apply N.div_lt_upper_bound; [lia|]. nia.
Qed.
Lemma guess_ge : Q <= A / vn1.
Proof.
  assert (vn1 <> 0) by lia. apply N.div_le_lower_bound; [lia|].
  assert (Q * (vn1 * B) <= A * B + un) by nia.
  assert (vn1 * Q < A + 1); [|lia]. apply (N.mul_lt_mono_pos_r B); [exact HB|]. lia.
Qed.
End Digit.

Lemma fix_digit_ok vn1 vn0 un A Q : B64 <= 2 * vn1 -> vn1 < B64 -> vn0 < B64 -> un < B64 ->
  A < vn1 * B64 + vn0 -> Q * (vn1 * B64 + vn0) <= A * B64 + un -> A * B64 + un < (Q + 1) * (vn1 * B64 + vn0) ->
  forall fuel q r, q * vn1 + r = A -> q <= B64 + 1 -> r < B64 -> Q <= q -> B64 <= r + N.of_nat fuel * vn1 ->
  fix_digit fuel q r vn1 vn0 un = Ok Q.
Proof.
  intros H1 H1' H0 Hu HA Q1 Q2. assert (HB : 0 < B64) by reflexivity.
  pose proof (digit_lt B64 vn1 vn0 un A Q HB H1 H1' H0 Hu HA Q1 Q2) as QB.
  induction fuel as [|f IH]; intros q r E Hq Hr GQ F; [lia|].
  cbn [fix_digit].
  assert (ST : forall q r, q * vn1 + r = A -> r < B64 -> (q < Q -> False) -> Q < q -> q <= B64 + 1 -> B64 <= r + N.of_nat (S f) * vn1 ->
     (let? q := xsub q 1 in let? rhat := xadd r vn1 in if B64 <=? rhat then Ok q else fix_digit f q rhat vn1 vn0 un) = Ok Q).
  { clear q r E Hq Hr GQ F. intros q r E Hr _ GQ Hq F. rewrite xsub_ok by lia. cbn [rbind].
    assert (2 * B64 < W128) by reflexivity. rewrite xadd_ok by lia. cbn [rbind].
    assert (E' : (q - 1) * vn1 + (r + vn1) = A).
    { rewrite <- E. replace q with ((q - 1) + 1) at 2 by lia. ring. }
    destruct (N.leb_spec B64 (r + vn1)) as [L|L].
    - f_equal. apply (digit_break B64 vn1 vn0 un A Q HB H1 H1' H0 Hu HA Q1 Q2 _ (r + vn1)); lia.
    - apply IH; try assumption; try lia. }
  destruct (N.leb_spec B64 q) as [LB|LB].
  - cbn [rbind negb]. apply ST; try assumption; lia.
  - rewrite xmul_ok by (rewrite BB; nia). cbn [rbind].
    assert (T : r * B64 + un < W128) by (apply two_digits; assumption).
    rewrite xmul_ok by (rewrite N.mul_comm; lia). cbn [rbind]. rewrite xadd_ok by (rewrite (N.mul_comm B64); exact T). cbn [rbind].
    destruct (N.ltb_spec (B64 * r + un) (q * vn0)) as [L|L].
    + cbn [negb]. apply ST; try assumption; try lia. apply (digit_big B64 vn1 vn0 un A Q HB H1 H1' H0 Hu HA Q1 Q2 q r); assumption.
    + cbn [negb]. f_equal. apply (digit_stop B64 vn1 vn0 un A Q HB H1 H1' H0 Hu HA Q1 Q2 q r); assumption.
Qed.
(** The digit as computed by the code: guess, correct. *)
Lemma digit_ok vn1 vn0 un A : B64 <= 2 * vn1 -> vn1 < B64 -> vn0 < B64 -> un < B64 -> A < vn1 * B64 + vn0 ->
  (let? q := o_div A vn1 in let? m := xmul q vn1 in let? rhat := xsub A m in fix_digit 3 q rhat vn1 vn0 un)
  = Ok ((A * B64 + un) / (vn1 * B64 + vn0)).
Proof.
  intros H1 H1' H0 Hu HA. assert (HB : 0 < B64) by reflexivity. assert (Vp : vn1 * B64 + vn0 <> 0) by nia.
  assert (VW : vn1 * B64 + vn0 < W128) by (apply two_digits; assumption).
  rewrite oddiv_ok by lia. cbn [rbind].
  pose proof (N.div_mod A vn1 ltac:(lia)) as D. pose proof (N.mod_lt A vn1 ltac:(lia)) as M.
  rewrite xmul_ok by lia. cbn [rbind]. rewrite xsub_ok by lia. cbn [rbind].
  set (N := A * B64 + un). pose proof (N.div_mod N _ Vp) as DN. pose proof (N.mod_lt N _ Vp) as MN.
  set (V := vn1 * B64 + vn0) in *.
  assert (Q1 : N / V * V <= N) by lia. assert (Q2 : N < (N / V + 1) * V) by lia.
  apply fix_digit_ok with (A := A); try assumption; try lia.
  - apply (guess_le B64 vn1 vn0 un A (N / V)); assumption.
  - apply (guess_ge B64 vn1 vn0 un A (N / V)); assumption.
Qed.
Lemma wsub_digit A B d q V : q * V <= A * B + d -> A * B + d - q * V < W128 ->
  wsub (wadd (wmul A B) d) (wmul q V) = A * B + d - q * V.
Proof.
  intros L M. unfold wsub, wadd, wmul. rewrite N.add_mod_idemp_l by discriminate.
  set (x := A * B + d) in *. set (y := q * V) in *.
  pose proof (N.div_mod x W128 ltac:(discriminate)) as Dx. pose proof (N.mod_lt x W128 ltac:(discriminate)) as Mx.
  pose proof (N.div_mod y W128 ltac:(discriminate)) as Dy. pose proof (N.mod_lt y W128 ltac:(discriminate)) as My.
  set (x1 := x / W128) in *. set (x0 := x mod W128) in *. set (y1 := y / W128) in *. set (y0 := y mod W128) in *.
  clearbody x y x1 x0 y1 y0.
  assert (C : x1 = y1 \/ x1 = y1 + 1) by nia. destruct C as [-> | ->].
  - rewrite mod_wrap by lia. lia.
  - rewrite N.mod_small by nia. nia.
Qed.
Lemma lz_norm v : v <> 0 -> v < W128 -> lz 128 v < 128 /\ W128 <= 2 * (v * 2 ^ lz 128 v) /\ v * 2 ^ lz 128 v < W128.
Proof.
  intros Hv Lv. unfold lz. assert (Sz : N.size v <= 128) by (apply size_le; exact Lv).
  rewrite N.size_log2 in * by exact Hv. set (l := N.log2 v) in *.
  destruct (N.log2_spec v ltac:(lia)) as [A B]. fold l in A, B.
  assert (E : W128 = 2 ^ N.succ l * 2 ^ (128 - N.succ l)) by (unfold W128; apply pow_split; lia).
  pose proof (pow2_pos (128 - N.succ l)) as P. split; [lia|]. rewrite E. set (K := 2 ^ (128 - N.succ l)) in *. split.
  - rewrite N.pow_succ_r'. nia.
  - apply N.mul_lt_mono_pos_r; assumption.
Qed.
Lemma norm_half B v1 v0 : 0 < B -> (exists h, B = 2 * h) -> v0 < B -> B * B <= 2 * (v1 * B + v0) -> B <= 2 * v1.
Proof.
  intros HB [h Eh] L H. assert (B < 2 * v1 + 2); [|lia]. apply (N.mul_lt_mono_pos_r B); [exact HB|]. nia.
Qed.
Lemma udiv256_ok u1 u0 v : u1 < v -> u0 < W128 -> v < W128 ->
  udiv256 u1 u0 v = Ok ((u1 * W128 + u0) / v, (u1 * W128 + u0) mod v).
Proof.
  intros Hu1 Hu0 Hv. assert (v <> 0) as Nv by lia. destruct (lz_norm v Nv Hv) as (Ls & LV & UV).
  unfold udiv256. cbn zeta. set (s := lz 128 v) in *. pose proof (pow2_pos s) as Ps.
  set (V := v * 2 ^ s) in *.
  assert (Norm : exists A d, (if 0 <? s then (shl 128 v s, N.lor (shl 128 u1 s) (N.shiftr u0 (128 - s)), shl 128 u0 s) else (v, u1, u0)) = (V, A, d)
     /\ A < V /\ d < W128 /\ A * W128 + d = (u1 * W128 + u0) * 2 ^ s).
  { destruct (N.ltb_spec 0 s) as [Gs|Gs].
    - assert (S : W128 = 2 ^ (128 - s) * 2 ^ s) by (unfold W128; rewrite (pow_split 128 s) by lia; apply N.mul_comm).
      pose proof (pow2_pos (128 - s)) as Pc.
      exists (u1 * 2 ^ s + u0 / 2 ^ (128 - s)), ((u0 mod 2 ^ (128 - s)) * 2 ^ s).
      assert (Ld : u0 / 2 ^ (128 - s) < 2 ^ s) by (apply N.div_lt_upper_bound; [lia|rewrite <- S; exact Hu0]).
      assert (LA : u1 * 2 ^ s + u0 / 2 ^ (128 - s) < V) by (unfold V; clear - Hu1 Ld Ps; nia).
      split_and!.
      + rewrite (shl_small 128 v) by exact UV. rewrite (shl_small 128 u1) by (eapply N.lt_trans; [|exact UV]; eapply N.le_lt_trans; [|exact LA]; apply N.le_add_r).
        rewrite shr_div. rewrite lor_shl by exact Ld. rewrite shl_mod. change (2 ^ 128) with W128. rewrite S at 1.
        rewrite mul_mod_split by assumption. reflexivity.
      + exact LA.
      + rewrite S. apply N.mul_lt_mono_pos_r; [exact Ps|]. apply N.mod_lt. lia.
      + pose proof (N.div_mod u0 (2 ^ (128 - s)) ltac:(lia)) as D.
        set (x := u0 / 2 ^ (128 - s)) in *. set (y := u0 mod 2 ^ (128 - s)) in *. rewrite D, S. ring.
    - assert (s = 0) as Es by lia. exists u1, u0. unfold V. rewrite Es, N.pow_0_r, !N.mul_1_r. split_and!; try assumption; reflexivity. }
  destruct Norm as (A & d & -> & LA & Ld & EA). cbn beta iota.
  rewrite !land_mask, !shr_div. change (2 ^ 64) with B64.
  destruct (halves V UV) as (EV & V1 & V0). set (vn1 := V / B64) in *. set (vn0 := V mod B64) in *.
  destruct (halves d Ld) as (Ed & U1 & U0). set (un1 := d / B64) in *. set (un0 := d mod B64) in *.
  assert (HB : 0 < B64) by reflexivity.
  assert (Hn : B64 <= 2 * vn1). { rewrite EV in LV. rewrite BB in LV. apply norm_half with vn0; [exact HB| |exact V0|exact LV]. exists (2 ^ 63). reflexivity. }
  pose proof (digit_ok vn1 vn0 un1 A Hn V1 V0 U1 ltac:(rewrite <- EV; exact LA)) as D1.
  rewrite <- EV in D1.
  destruct (o_div A vn1) as [g|e]; [|discriminate D1]. cbn [rbind] in *.
  destruct (xmul g vn1) as [g1|e]; [|discriminate D1]. cbn [rbind] in *.
  destruct (xsub A g1) as [rh|e]; [|discriminate D1]. cbn [rbind] in *. rewrite D1. cbn [rbind]. clear D1.
  set (n1 := A * B64 + un1) in *. assert (V <> 0) as NV by (unfold V; nia).
  pose proof (N.div_mod n1 V NV) as DN1. pose proof (N.mod_lt n1 V NV) as MN1.
  set (q1 := n1 / V) in *. set (r1 := n1 mod V) in *.
  rewrite wsub_digit by (fold n1; lia). fold n1. replace (n1 - q1 * V) with r1 by lia.
  pose proof (digit_ok vn1 vn0 un0 r1 Hn V1 V0 U0 ltac:(rewrite <- EV; exact MN1)) as D2.
  rewrite <- EV in D2.
  destruct (o_div r1 vn1) as [g2|e]; [|discriminate D2]. cbn [rbind] in *.
  destruct (xmul g2 vn1) as [g3|e]; [|discriminate D2]. cbn [rbind] in *.
  destruct (xsub r1 g3) as [rh2|e]; [|discriminate D2]. cbn [rbind] in *. rewrite D2. cbn [rbind]. clear D2.
  set (n0 := r1 * B64 + un0) in *.
  pose proof (N.div_mod n0 V NV) as DN0. pose proof (N.mod_lt n0 V NV) as MN0.
  set (q0 := n0 / V) in *. set (r0 := n0 mod V) in *.
  rewrite wsub_digit by (fold n0; lia). fold n0. replace (n0 - q0 * V) with r0 by lia.
  assert (Q1 : q1 < B64).
  { apply N.div_lt_upper_bound; [exact NV|]. unfold n1. clear - LA U1. nia. }
  assert (Q0 : q0 < B64).
  { apply N.div_lt_upper_bound; [exact NV|]. unfold n0. clear - MN1 U0. nia. }
  pose proof (two_digits q1 q0 Q1 Q0) as QW.
  rewrite xmul_ok by lia. cbn [rbind]. rewrite xadd_ok by exact QW. cbn [rbind].
  assert (TOT : (u1 * W128 + u0) * 2 ^ s = (q1 * B64 + q0) * V + r0).
  { rewrite <- EA, Ed, BB. transitivity (n1 * B64 + un0); [unfold n1; ring|]. rewrite DN1. transitivity (V * q1 * B64 + n0); [unfold n0; ring|]. rewrite DN0. ring. }
  set (U := u1 * W128 + u0) in *. set (q := q1 * B64 + q0) in *.
  assert (F : U / v = q /\ r0 = (U mod v) * 2 ^ s).
  { pose proof (N.div_mod U v Nv) as DU. pose proof (N.mod_lt U v Nv) as MU.
    assert (T2 : U * 2 ^ s = (U / v) * V + (U mod v) * 2 ^ s).
    { unfold V. rewrite DU at 1. ring. }
    assert (M2 : (U mod v) * 2 ^ s < V) by (unfold V; apply N.mul_lt_mono_pos_r; assumption).
    rewrite T2, !(N.mul_comm _ V) in TOT. destruct (N.div_mod_unique _ _ _ _ _ M2 MN0 TOT) as [Eq Er]. split; [exact Eq|symmetry; exact Er]. }
  destruct F as [-> ->]. do 2 f_equal. rewrite shr_div, N.div_mul by lia. reflexivity.
Qed.
