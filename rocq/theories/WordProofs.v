(** * Machine words as bit strings. *)
From Verif Require Import Err BitsProofs.
Local Open Scope N_scope.

Lemma bval_bitwise (f : N -> N -> N) (g : bool -> bool -> bool) a b :
  (forall w x y, nbits w (f x y) = zip_with g (nbits w x) (nbits w y)) ->
  (forall n x y, x < 2 ^ n -> y < 2 ^ n -> f x y < 2 ^ n) ->
  length a = length b -> f (bval a) (bval b) = bval (zip_with g a b).
Proof.
  intros Hf Hlt Hl. assert (Lz : length (zip_with g a b) = length a) by (rewrite zip_with_length; lia).
  rewrite <- (bval_nbits_small (length a) (f (bval a) (bval b))).
  - rewrite Hf, (nbits_bval' _ a) by reflexivity. rewrite (nbits_bval' _ b) by lia. reflexivity.
  - apply Hlt; [apply bval_lt|]. rewrite Hl. apply bval_lt.
Qed.
Lemma bits_lt x n : (forall i, n <= i -> N.testbit x i = false) -> x < 2 ^ n.
Proof.
  intros H. destruct (N.ltb_spec x (2 ^ n)) as [L|L]; [exact L|]. exfalso.
  assert (x <> 0). { intros ->. pose proof (N.pow_nonzero 2 n). lia. }
  assert (n <= N.log2 x) as Hn by (apply N.log2_le_pow2; lia).
  specialize (H _ Hn). rewrite N.bit_log2 in H by assumption. discriminate.
Qed.
Lemma lt_bits x n i : x < 2 ^ n -> n <= i -> N.testbit x i = false.
Proof.
  intros Hx Hi. destruct (N.eqb_spec x 0) as [ -> |H]; [apply N.bits_0|].
  apply N.bits_above_log2. apply N.lt_le_trans with n; [|exact Hi]. apply N.log2_lt_pow2; lia.
Qed.
Lemma land_bval a b : length a = length b -> N.land (bval a) (bval b) = bval (zip_with andb a b).
Proof.
  apply bval_bitwise; [apply nbits_land|]. intros n x y Hx Hy. apply bits_lt. intros i Hi.
  rewrite N.land_spec, (lt_bits x n i Hx Hi). reflexivity.
Qed.
Lemma lor_bval a b : length a = length b -> N.lor (bval a) (bval b) = bval (zip_with orb a b).
Proof.
  apply bval_bitwise; [apply nbits_lor|]. intros n x y Hx Hy. apply bits_lt. intros i Hi.
  rewrite N.lor_spec, (lt_bits x n i Hx Hi), (lt_bits y n i Hy Hi). reflexivity.
Qed.
Lemma lxor_bval a b : length a = length b -> N.lxor (bval a) (bval b) = bval (zip_with xorb a b).
Proof.
  apply bval_bitwise; [apply nbits_lxor|]. intros n x y Hx Hy. apply bits_lt. intros i Hi.
  rewrite N.lxor_spec, (lt_bits x n i Hx Hi), (lt_bits y n i Hy Hi). reflexivity.
Qed.
Lemma shl1_bval c a w : w = N.of_nat (S (length a)) -> shl w (bval (c :: a)) 1 = bval (a ++ [false]).
Proof.
  intros ->. unfold shl. rewrite N.shiftl_mul_pow2, N.pow_1_r, bval_cons, bval_app. cbn [length]. rewrite bval_cons. cbn [length N.b2n].
  change (N.of_nat 1) with 1. change (bval []) with 0. rewrite N.pow_1_r.
  pose proof (bval_lt a) as L. rewrite Nat2N.inj_succ, N.pow_succ_r'.
  set (p := 2 ^ N.of_nat (length a)) in *. symmetry.
  apply N.mod_unique with (N.b2n c); nia.
Qed.
Lemma shr1_bval a c : N.shiftr (bval (a ++ [c])) 1 = bval a.
Proof.
  rewrite N.shiftr_div_pow2, N.pow_1_r, bval_app. cbn [length]. change (N.of_nat 1) with 1. rewrite N.pow_1_r.
  symmetry. apply N.div_unique with (bval [c]); [|lia]. destruct c; vm_compute; reflexivity.
Qed.
Lemma bval_negb a : bval (map negb a) + bval a + 1 = 2 ^ N.of_nat (length a).
Proof.
  induction a as [|x a IH]; [reflexivity|]. cbn [map length]. rewrite !bval_cons, map_length, Nat2N.inj_succ, N.pow_succ_r'.
  destruct x; cbn [negb N.b2n]; lia.
Qed.
Lemma bval_eq0 a : bval a = 0 <-> a = zeros (length a).
Proof.
  split.
  - intros H. apply bval_inj; [rewrite length_zeros; reflexivity|]. rewrite bval_zeros. exact H.
  - intros ->. apply bval_zeros.
Qed.

(** Comparing under a mask of leading ones. *)
Lemma mask_take n : forall p q k, length p = (n + k)%nat -> length q = (n + k)%nat ->
  zip_with andb (zip_with xorb p q) (replicate n true ++ zeros k) = zeros (n + k) <-> take n p = take n q.
Proof.
  induction n as [|n IH]; intros p q k Hp Hq.
  - cbn [replicate app Nat.add take]. split; [reflexivity|]. intros _. cbn [Nat.add] in *. revert p q Hp Hq.
    induction k as [|k IHk]; intros [|x p] [|y q] Hp Hq; try discriminate; [reflexivity|].
    cbn. rewrite andb_false_r. f_equal. apply IHk; cbn in *; lia.
  - destruct p as [|x p], q as [|y q]; try discriminate. cbn [replicate app zip_with zeros Nat.add take] in *.
    fold (zeros (n + k)) in *. rewrite andb_true_r. specialize (IH p q k ltac:(cbn in Hp; lia) ltac:(cbn in Hq; lia)).
    split.
    + intros H. injection H as H1 H2. apply IH in H2. rewrite H2. f_equal. destruct x, y; cbn in H1; congruence.
    + intros H. injection H as -> H2. apply IH in H2. change (replicate (S (n + k)) false) with (false :: zeros (n + k)). rewrite H2, xorb_nilpotent. reflexivity.
Qed.
Lemma mask_zero n k p q : length p = (n + k)%nat -> length q = (n + k)%nat ->
  (N.land (N.lxor (bval p) (bval q)) (bval (replicate n true ++ zeros k)) =? 0) = true <-> take n p = take n q.
Proof.
  intros Hp Hq. rewrite lxor_bval by lia. rewrite land_bval by (rewrite zip_with_length, app_length, replicate_length, length_zeros; lia).
  rewrite N.eqb_eq, bval_eq0, !zip_with_length, app_length, replicate_length, length_zeros.
  replace (_ `min` _)%nat with (n + k)%nat by lia. apply mask_take; assumption.
Qed.
