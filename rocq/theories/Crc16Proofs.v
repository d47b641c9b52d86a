(** * Proofs about the checksum. *)
From Verif Require Import Err BitsProofs Crc16Model Crc16Spec.
Local Open Scope N_scope.

Definition run (r : N) (bits : list bool) : N := fold_left div_step bits r.

Lemma run_app r a b : run r (a ++ b) = run (run r a) b.
Proof. apply fold_left_app. Qed.

Lemma step_alt r b : r < 2 ^ 16 ->
  div_step r b = N.lxor (N.lxor (N.shiftl r 1) (N.b2n b)) (if N.testbit r 15 then poly else 0).
Proof.
  intros Hr. unfold div_step.
  assert (E : 2 * r + N.b2n b = N.lxor (N.shiftl r 1) (N.b2n b)).
  { rewrite N.shiftl_mul_pow2, N.pow_1_r, (N.mul_comm 2).
    apply N.add_nocarry_lxor. apply N.bits_inj_0. intros i. rewrite N.land_spec.
    destruct (N.eqb_spec i 0) as [ -> |Hi].
    - rewrite N.mul_comm, N.testbit_even_0. reflexivity.
    - destruct b; cbn [N.b2n].
      + change 1 with (2 ^ 0). rewrite N.pow2_bits_false by congruence. apply andb_false_r.
      + rewrite N.bits_0. apply andb_false_r. }
  cbn zeta. rewrite <- E.
  assert (T : N.testbit r 15 = (2 ^ 16 <=? 2 * r + N.b2n b)).
  { destruct (N.leb_spec (2 ^ 16) (2 * r + N.b2n b)) as [H|H].
    - rewrite N.testbit_true. change (2 ^ 15) with 32768. change (2 ^ 16) with 65536 in *.
      assert (32768 <= r) by (destruct b; cbn [N.b2n] in *; lia).
      replace (r / 32768) with 1; [reflexivity|].
      apply N.div_unique with (r - 32768); lia.
    - rewrite N.testbit_false. change (2 ^ 15) with 32768. change (2 ^ 16) with 65536 in *.
      rewrite N.div_small by (destruct b; cbn [N.b2n] in *; lia). reflexivity. }
  rewrite T. destruct (2 ^ 16 <=? 2 * r + N.b2n b); [reflexivity|]. rewrite N.lxor_0_r. reflexivity.
Qed.

Lemma step_lt r b : r < 2 ^ 16 -> div_step r b < 2 ^ 16.
Proof.
  intros Hr. unfold div_step. cbn zeta. destruct (N.leb_spec (2 ^ 16) (2 * r + N.b2n b)) as [H|H]; [|exact H].
  assert (L : forall x, 2 ^ 16 <= x -> x < 2 ^ 17 -> N.lxor x poly < 2 ^ 16).
  { intros x H1 H2. destruct (N.eqb_spec (N.lxor x poly) 0) as [ -> |E]; [reflexivity|].
    apply N.log2_lt_pow2; [lia|].
    assert (N.log2 (N.lxor x poly) < 17).
    { apply N.le_lt_trans with (N.max (N.log2 x) (N.log2 poly)); [apply N.log2_lxor|].
      change (N.log2 poly) with 16. assert (N.log2 x < 17) by (apply N.log2_lt_pow2; lia). lia. }
    assert (N.log2 (N.lxor x poly) <> 16).
    { intros E2. assert (B : N.testbit (N.lxor x poly) 16 = true) by (rewrite <- E2; apply N.bit_log2; exact E).
      rewrite N.lxor_spec in B. change (N.testbit poly 16) with true in B.
      assert (X : N.testbit x 16 = true).
      { replace 16 with (N.log2 x); [apply N.bit_log2; lia|].
        assert (16 <= N.log2 x) by (apply N.log2_le_pow2; lia).
        assert (N.log2 x < 17) by (apply N.log2_lt_pow2; lia). lia. }
      rewrite X in B. discriminate. }
    lia. }
  apply L; [exact H|]. change (2 ^ 16) with 65536 in *. change (2 ^ 17) with 131072. destruct b; cbn [N.b2n]; lia.
Qed.
Lemma run_lt bits : forall r, r < 2 ^ 16 -> run r bits < 2 ^ 16.
Proof. induction bits as [|b bits IH]; intros r Hr; [exact Hr|]. apply IH, step_lt, Hr. Qed.

Lemma lxor_lt n a b : a < 2 ^ n -> b < 2 ^ n -> N.lxor a b < 2 ^ n.
Proof.
  intros Ha Hb. destruct (N.eqb_spec (N.lxor a b) 0) as [ -> |E]; [apply N.neq_0_lt_0, N.pow_nonzero; lia|].
  destruct (N.eqb_spec n 0) as [ -> |Hn]. { change (2 ^ 0) with 1 in *. replace a with 0 by lia. replace b with 0 by lia. reflexivity. }
  apply N.log2_lt_pow2; [lia|].
  apply N.le_lt_trans with (N.max (N.log2 a) (N.log2 b)); [apply N.log2_lxor|].
  assert (forall x, x < 2 ^ n -> N.log2 x < n).
  { intros x Hx. destruct (N.eqb_spec x 0) as [ -> |]; [cbn; lia|]. apply N.log2_lt_pow2; lia. }
  apply N.max_lub_lt; auto.
Qed.

(** Linearity. *)
Lemma lxor_swap a b c d : N.lxor (N.lxor a b) (N.lxor c d) = N.lxor (N.lxor a c) (N.lxor b d).
Proof. rewrite !N.lxor_assoc. f_equal. rewrite <- !N.lxor_assoc. f_equal. apply N.lxor_comm. Qed.
Lemma step_linear r1 r2 b1 b2 : r1 < 2 ^ 16 -> r2 < 2 ^ 16 ->
  div_step (N.lxor r1 r2) (xorb b1 b2) = N.lxor (div_step r1 b1) (div_step r2 b2).
Proof.
  intros H1 H2. rewrite !step_alt by auto using lxor_lt.
  rewrite (lxor_swap (N.lxor _ _)), (lxor_swap (N.shiftl r1 1)). f_equal; [f_equal|].
  - apply N.shiftl_lxor.
  - destruct b1, b2; reflexivity.
  - rewrite N.lxor_spec. destruct (N.testbit r1 15), (N.testbit r2 15); cbn [xorb];
      rewrite ?N.lxor_0_r, ?N.lxor_0_l, ?N.lxor_nilpotent; reflexivity.
Qed.
Definition xorl (a b : list bool) : list bool := zip_with xorb a b.
Lemma run_linear a : forall b r1 r2, length a = length b -> r1 < 2 ^ 16 -> r2 < 2 ^ 16 ->
  run (N.lxor r1 r2) (xorl a b) = N.lxor (run r1 a) (run r2 b).
Proof.
  induction a as [|x a IH]; intros [|y b] r1 r2 Hl H1 H2; try discriminate; [reflexivity|].
  unfold xorl. cbn [zip_with run fold_left]. fold (xorl a b).
  change (run (div_step (N.lxor r1 r2) (xorb x y)) (xorl a b) = N.lxor (run (div_step r1 x) a) (run (div_step r2 y) b)).
  rewrite step_linear by auto. apply IH; [cbn in Hl; lia|apply step_lt, H1|apply step_lt, H2].
Qed.
Lemma xorl_zeros_r a : xorl a (zeros (length a)) = a.
Proof. induction a as [|x a IH]; [reflexivity|]. unfold xorl in *. cbn. rewrite xorb_false_r. f_equal. apply IH. Qed.
Lemma xorl_zeros_l a : xorl (zeros (length a)) a = a.
Proof. induction a as [|x a IH]; [reflexivity|]. unfold xorl in *. cbn [length zeros replicate zip_with]. f_equal; [destruct x; reflexivity|]. apply IH. Qed.
Lemma xorl_app a b c d : length a = length c -> xorl (a ++ b) (c ++ d) = xorl a c ++ xorl b d.
Proof. intros H. apply zip_with_app. exact H. Qed.
Lemma run_zeros n : run 0 (zeros n) = 0.
Proof. induction n as [|n IH]; [reflexivity|]. exact IH. Qed.
(** The register and the input can be separated. *)
Lemma run_split r bits : r < 2 ^ 16 -> run r bits = N.lxor (run r (zeros (length bits))) (run 0 bits).
Proof.
  intros Hr. rewrite <- run_linear; [|rewrite length_zeros; reflexivity|exact Hr|lia].
  rewrite N.lxor_0_r, xorl_zeros_l. reflexivity.
Qed.
Lemma run_lin_r r1 r2 n : r1 < 2 ^ 16 -> r2 < 2 ^ 16 -> run (N.lxor r1 r2) (zeros n) = N.lxor (run r1 (zeros n)) (run r2 (zeros n)).
Proof.
  intros H1 H2. rewrite <- run_linear by (rewrite ?length_zeros; auto). f_equal.
  pose proof (xorl_zeros_r (zeros n)) as E. rewrite length_zeros in E. symmetry. exact E.
Qed.

(** Short inputs are not reduced. *)
Lemma run_small bits : forall r, (length bits <= 16)%nat -> r < 2 ^ N.of_nat (16 - length bits) ->
  run r bits = fold_left (fun acc b => 2 * acc + N.b2n b) bits r.
Proof.
  induction bits as [|b bits IH]; intros r Hl Hr; [reflexivity|].
  cbn [length] in *. cbn [run fold_left].
  assert (P : 2 ^ N.of_nat (16 - length bits) = 2 * 2 ^ N.of_nat (16 - S (length bits))).
  { replace (16 - length bits)%nat with (S (16 - S (length bits))) by lia. rewrite Nat2N.inj_succ, N.pow_succ_r'. reflexivity. }
  assert (Lx : 2 * r + N.b2n b < 2 ^ N.of_nat (16 - length bits)) by (rewrite P; destruct b; cbn [N.b2n]; lia).
  assert (S1 : div_step r b = 2 * r + N.b2n b).
  { unfold div_step. cbn zeta. destruct (N.leb_spec (2 ^ 16) (2 * r + N.b2n b)) as [H|H]; [exfalso|reflexivity].
    apply (N.lt_irrefl (2 ^ 16)). apply N.le_lt_trans with (1 := H). apply N.lt_le_trans with (1 := Lx).
    apply N.pow_le_mono_r; lia. }
  change (run (div_step r b) bits = fold_left (fun acc b => 2 * acc + N.b2n b) bits (2 * r + N.b2n b)).
  rewrite S1. apply IH; [lia|exact Lx].
Qed.
Lemma run_bval bits : (length bits <= 16)%nat -> run 0 bits = bval bits.
Proof. intros H. apply run_small; [exact H|]. apply N.neq_0_lt_0, N.pow_nonzero. lia. Qed.
Lemma fold_zeros n : forall r, fold_left (fun acc b => 2 * acc + N.b2n b) (zeros n) r = N.shiftl r (N.of_nat n).
Proof.
  induction n as [|n IH]; intros r; [rewrite N.shiftl_0_r; reflexivity|].
  cbn [zeros replicate fold_left]. fold (zeros n). rewrite IH. cbn [N.b2n]. rewrite N.add_0_r.
  rewrite !N.shiftl_mul_pow2, Nat2N.inj_succ, N.pow_succ_r'. lia.
Qed.

(** ** The table *)
Definition table_check : bool :=
  forallb (fun i => match CRC16_TABLE !! i with Some x => x =? poly_rem (byte_bits (N.of_nat i) ++ zeros 16) | None => false end)
    (seq 0 256).
Lemma table_ok i : i < 256 -> CRC16_TABLE !! N.to_nat i = Some (poly_rem (byte_bits i ++ zeros 16)).
Proof.
  intros Hi. assert (A : table_check = true) by (vm_compute; reflexivity).
  unfold table_check in A. rewrite List.forallb_forall in A. specialize (A (N.to_nat i)).
  rewrite N2Nat.id in A. assert (I : In (N.to_nat i) (seq 0 256)) by (apply in_seq; lia).
  specialize (A I). destruct (CRC16_TABLE !! N.to_nat i) as [x|]; [|discriminate].
  apply N.eqb_eq in A. congruence.
Qed.
Lemma bval_byte i : i < 256 -> bval (byte_bits i) = i.
Proof. intros H. unfold byte_bits. apply bval_nbits_small. exact H. Qed.

Definition T (i : N) : N := run 0 (byte_bits i ++ zeros 16).
Lemma T_poly i : poly_rem (byte_bits i ++ zeros 16) = T i.
Proof. unfold T, poly_rem, run. reflexivity. Qed.
Lemma T_lt i : T i < 2 ^ 16.
Proof. apply run_lt. lia. Qed.
Lemma byte_bits_lxor a b : byte_bits (N.lxor a b) = xorl (byte_bits a) (byte_bits b).
Proof. unfold byte_bits, xorl. cbn [nbits zip_with]. rewrite !N.lxor_spec. reflexivity. Qed.
Lemma T_linear a b : T (N.lxor a b) = N.lxor (T a) (T b).
Proof.
  unfold T. rewrite <- run_linear; [|rewrite !app_length, !length_byte_bits; reflexivity|lia|lia].
  rewrite xorl_app by reflexivity. rewrite byte_bits_lxor. f_equal.
Qed.
Lemma div256 s : s = s / 256 * 256 + s mod 256.
Proof. pose proof (N.div_mod' s 256). lia. Qed.
(** Eight more zero bits. *)
Lemma run8 s : s < 2 ^ 16 -> run s (zeros 8) = N.lxor (N.shiftl s 8 mod 2 ^ 16) (T (s / 256)).
Proof.
  intros Hs.
  assert (Hh : s / 256 < 256) by (apply N.div_lt_upper_bound; change (2 ^ 16) with 65536 in *; lia).
  assert (Hm : s mod 256 < 256) by (apply N.mod_lt; lia).
  assert (E : s = N.lxor (N.shiftl (s / 256) 8) (s mod 256)).
  { rewrite <- N.add_nocarry_lxor.
    - rewrite N.shiftl_mul_pow2. change (2 ^ 8) with 256. apply div256.
    - apply N.bits_inj_0. intros i. rewrite N.land_spec.
      destruct (N.ltb_spec i 8) as [H|H]; [rewrite N.shiftl_spec_low by exact H; reflexivity|].
      change 256 with (2 ^ 8). rewrite N.mod_pow2_bits_high by exact H. apply andb_false_r. }
  rewrite E at 1. rewrite run_lin_r.
  - rewrite N.lxor_comm. f_equal.
    + rewrite run_small.
      * rewrite fold_zeros. change (N.of_nat 8) with 8.
        rewrite !N.shiftl_mul_pow2. change (2 ^ 8) with 256. change (2 ^ 16) with 65536.
        replace (s * 256) with (s mod 256 * 256 + s / 256 * 65536) by (pose proof (div256 s); lia).
        rewrite N.mod_add by lia. rewrite (N.mod_small (s mod 256 * 256)); [reflexivity|lia].
      * rewrite length_zeros. lia.
      * rewrite length_zeros. exact Hm.
    + unfold T. rewrite run_app, run_bval by (rewrite length_byte_bits; lia).
      rewrite bval_byte by exact Hh. change (zeros 16) with (zeros 8 ++ zeros 8). rewrite run_app. f_equal.
      symmetry. rewrite run_small; [apply fold_zeros|rewrite length_zeros; lia|rewrite length_zeros; exact Hh].
  - rewrite N.shiftl_mul_pow2. change (2 ^ 8) with 256. change (2 ^ 16) with 65536. lia.
  - change (2 ^ 16) with 65536. lia.
Qed.

Lemma crc_step_ok s c : s < 2 ^ 16 -> byte_ok c -> crc_step s c = Ok (N.lxor (run s (zeros 8)) (T c)).
Proof.
  intros Hs Hc. unfold crc_step. cbn zeta.
  assert (Hh : s / 256 < 256) by (apply N.div_lt_upper_bound; change (2 ^ 16) with 65536 in *; lia).
  rewrite N.shiftr_div_pow2. change (2 ^ 8) with 256. unfold w8. rewrite (N.mod_small (s / 256)) by exact Hh.
  rewrite table_ok by (apply (lxor_lt 8); assumption). cbn [of_opt rbind]. f_equal.
  rewrite T_poly.
  pose proof (run8 s Hs) as E8. pose proof (T_linear c (s / 256)) as EL. revert E8 EL. generalize (T (N.lxor c (s / 256))) (T c) (T (s / 256)) (run s (zeros 8)).
  intros t1 t2 t3 t4 -> ->.
  rewrite (N.lxor_comm t2), N.lxor_assoc, (N.lxor_comm t2), <- N.lxor_assoc. f_equal. rewrite N.lxor_comm. f_equal.
  unfold w16, shl. rewrite N.shiftl_mul_pow2. change 65536 with (2 ^ 16).
  rewrite (N.mod_small (s * 2 ^ 8) (2 ^ 32)); [reflexivity|].
  change (2 ^ 8) with 256. change (2 ^ 16) with 65536 in *. change (2 ^ 32) with 4294967296. lia.
Qed.
Lemma crc_loop_ok data : forall p, Forall byte_ok data ->
  crc_loop data (run 0 (p ++ zeros 16)) = Ok (run 0 ((p ++ bytes_bits data) ++ zeros 16)).
Proof.
  induction data as [|c data IH]; intros p H; cbn [crc_loop]; [rewrite app_nil_r; reflexivity|].
  inversion_clear H as [|? ? Hc Hd].
  assert (L : run 0 (p ++ zeros 16) < 2 ^ 16) by (apply run_lt; lia).
  rewrite crc_step_ok by assumption. cbn [rbind].
  replace (N.lxor _ _) with (run 0 ((p ++ byte_bits c) ++ zeros 16)).
  { rewrite IH by exact Hd. rewrite bytes_bits_cons, !app_assoc. reflexivity. }
  rewrite <- (app_assoc p), (run_app 0 p), (run_split (run 0 p)) by (apply run_lt; lia).
  unfold T. f_equal.
  rewrite app_length, length_byte_bits, length_zeros, (run_app 0 p (zeros 16)), <- (run_app (run 0 p) (zeros 16)), <- zeros_app. reflexivity.
Qed.
Lemma crc_16_ok data : Forall byte_ok data -> crc_16 data = Ok (crc16_xmodem data).
Proof.
  intros H. unfold crc_16. pose proof (crc_loop_ok data [] H) as E. cbn [app] in E.
  rewrite run_zeros in E. rewrite E. cbn [rbind]. f_equal. apply N.mod_small.
  change 65536 with (2 ^ 16). apply run_lt. lia.
Qed.

(** ** Errors *)
Lemma step_nonzero r : r < 2 ^ 16 -> r <> 0 -> div_step r false <> 0.
Proof.
  intros Hr Hn. unfold div_step. cbn zeta. cbn [N.b2n]. rewrite N.add_0_r.
  destruct (2 ^ 16 <=? 2 * r); [|lia]. intros E. apply N.lxor_eq in E.
  change poly with 69665 in E. lia.
Qed.
Lemma run_nonzero n : forall r, r < 2 ^ 16 -> r <> 0 -> run r (zeros n) <> 0.
Proof.
  induction n as [|n IH]; intros r Hr Hn; [exact Hn|]. apply (IH (div_step r false)); [apply step_lt, Hr|apply step_nonzero; assumption].
Qed.
Lemma xorl_self a : xorl a a = zeros (length a).
Proof. induction a as [|x a IH]; [reflexivity|]. unfold xorl in *. cbn [zip_with length zeros replicate]. rewrite xorb_nilpotent. f_equal. apply IH. Qed.
Lemma bval_zero l : bval l = 0 -> l = zeros (length l).
Proof.
  intros H. assert (E : nbits (length l) (bval l) = l) by (apply nbits_bval'; reflexivity). rewrite H in E. rewrite <- E at 1.
  clear. induction (length l) as [|n IH]; [reflexivity|]. cbn [nbits zeros replicate]. rewrite N.bits_0. f_equal. exact IH.
Qed.
Lemma xorl_zero x : forall y, length x = length y -> xorl x y = zeros (length x) -> x = y.
Proof.
  induction x as [|a x IH]; intros [|b y] Hl H; try discriminate; [reflexivity|].
  unfold xorl in H. cbn in H. injection H as H1 H2. f_equal.
  - destruct a, b; cbn in *; congruence.
  - apply IH; [cbn in Hl; lia|exact H2].
Qed.
Lemma length_xorl a b : length a = length b -> length (xorl a b) = length a.
Proof. intros H. unfold xorl. rewrite zip_with_length. lia. Qed.
Lemma burst_detected a b : burst 16 a b -> poly_rem (a ++ zeros 16) <> poly_rem (b ++ zeros 16).
Proof.
  intros (p & x & y & s & -> & -> & Hl & Hn & Hne) E.
  assert (Z : N.lxor (run 0 ((p ++ x ++ s) ++ zeros 16)) (run 0 ((p ++ y ++ s) ++ zeros 16)) = 0).
  { apply N.lxor_eq_0_iff. exact E. }
  rewrite <- run_linear in Z; [|rewrite !app_length; lia|lia|lia].
  rewrite <- !app_assoc in Z. rewrite xorl_app in Z by reflexivity. rewrite xorl_app in Z by exact Hl.
  rewrite !xorl_self in Z. cbn [N.lxor] in Z.
  rewrite run_app, run_zeros, run_app, run_bval in Z by (rewrite length_xorl; assumption).
  revert Z. apply run_nonzero.
  - rewrite <- run_bval by (rewrite length_xorl; assumption). apply run_lt. lia.
  - intros B. apply bval_zero in B. rewrite length_xorl in B by exact Hl. apply Hne, xorl_zero; assumption.
Qed.
