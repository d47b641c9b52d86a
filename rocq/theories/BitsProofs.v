(** * Lemmas on bit and byte strings. *)
From stdpp Require Import base list numbers.
From Coq Require Import NArith Lia ZifyBool ZifyNat ZifyN.
From Verif Require Import Bits.

Lemma length_nbits w v : length (nbits w v) = w.
Proof. induction w as [|w IH]; cbn [nbits length]; congruence. Qed.

Lemma length_zeros n : length (zeros n) = n.
Proof. apply replicate_length. Qed.

Lemma length_byte_bits b : length (byte_bits b) = 8.
Proof. reflexivity. Qed.

Lemma length_bytes_bits bs : length (bytes_bits bs) = 8 * length bs.
Proof.
  unfold bytes_bits. induction bs as [|b bs IH]; [reflexivity|].
  cbn [map concat]. rewrite app_length, length_byte_bits, IH. cbn [length]. lia.
Qed.

Lemma bytes_bits_app a b : bytes_bits (a ++ b) = bytes_bits a ++ bytes_bits b.
Proof. unfold bytes_bits. rewrite map_app, concat_app. reflexivity. Qed.

Lemma bytes_bits_cons a b : bytes_bits (a :: b) = byte_bits a ++ bytes_bits b.
Proof. reflexivity. Qed.

Lemma zeros_app a b : zeros (a + b) = zeros a ++ zeros b.
Proof. apply replicate_add. Qed.

Lemma nbits_lookup w v i :
  i < w -> nbits w v !! i = Some (N.testbit v (N.of_nat (w - 1 - i))).
Proof.
  revert i; induction w as [|w IH]; intros i Hi; [lia|].
  destruct i as [|i]; cbn [nbits lookup list_lookup].
  - do 3 f_equal. lia.
  - change (nbits w v !! i = Some (N.testbit v (N.of_nat (S w - 1 - S i)))).
    rewrite IH by lia. do 3 f_equal. lia.
Qed.

Lemma list_eq_bounded {A} (l1 l2 : list A) :
  length l1 = length l2 ->
  (forall i, i < length l1 -> l1 !! i = l2 !! i) -> l1 = l2.
Proof.
  intros Hl H. apply list_eq. intros i.
  destruct (decide (i < length l1)) as [Hi|Hi]; [auto|].
  rewrite !lookup_ge_None_2 by lia. reflexivity.
Qed.

Lemma nbits_ext w v1 v2 :
  (forall i, (i < N.of_nat w)%N -> N.testbit v1 i = N.testbit v2 i) ->
  nbits w v1 = nbits w v2.
Proof.
  intros H. apply list_eq_bounded; rewrite !length_nbits; [reflexivity|].
  intros i Hi. rewrite !nbits_lookup by lia. f_equal. apply H. lia.
Qed.

Lemma nbits_app a b v : nbits (a + b) v = nbits a (N.shiftr v (N.of_nat b)) ++ nbits b v.
Proof.
  induction a as [|a IH]; [reflexivity|].
  cbn [nbits Nat.add app]. rewrite IH. f_equal.
  rewrite N.shiftr_spec by lia. f_equal. lia.
Qed.

Lemma nbits_zero w : nbits w 0 = zeros w.
Proof.
  induction w as [|w IH]; [reflexivity|]. cbn [nbits]. rewrite IH.
  rewrite N.bits_0. reflexivity.
Qed.

Lemma nbits_shiftr_hi w k v :
  (v < 2 ^ N.of_nat w)%N -> nbits k (N.shiftr v (N.of_nat w)) = zeros k.
Proof.
  intros Hv. rewrite N.shiftr_div_pow2, N.div_small by exact Hv. apply nbits_zero.
Qed.

Lemma nbits_small w k v :
  (v < 2 ^ N.of_nat k)%N -> k <= w -> nbits w v = zeros (w - k) ++ nbits k v.
Proof.
  intros Hv Hk. replace w with ((w - k) + k) at 1 by lia.
  rewrite nbits_app, nbits_shiftr_hi by exact Hv. reflexivity.
Qed.

Lemma nbits_mod w m v : w <= m -> nbits w (v mod 2 ^ N.of_nat m) = nbits w v.
Proof.
  intros H. apply nbits_ext. intros i Hi.
  apply N.mod_pow2_bits_low. lia.
Qed.

Lemma nbits_shiftl w k v :
  k <= w -> nbits w (N.shiftl v (N.of_nat k)) = drop k (nbits w v) ++ zeros k.
Proof.
  intros Hk. replace w with ((w - k) + k) at 1 by lia. rewrite nbits_app.
  f_equal.
  - assert (E : nbits w v = nbits k (N.shiftr v (N.of_nat (w - k))) ++ nbits (w - k) v).
    { rewrite <- nbits_app. f_equal. lia. }
    rewrite E, drop_app_alt by (rewrite length_nbits; reflexivity).
    f_equal. rewrite N.shiftr_shiftl_r by lia. rewrite N.sub_diag. apply N.shiftr_0_r.
  - rewrite <- (nbits_zero k). apply nbits_ext. intros i Hi.
    rewrite N.shiftl_spec_low by lia. symmetry. apply N.bits_0.
Qed.

Lemma nbits_shiftr w k v :
  (v < 2 ^ N.of_nat w)%N -> k <= w ->
  nbits w (N.shiftr v (N.of_nat k)) = zeros k ++ take (w - k) (nbits w v).
Proof.
  intros Hv Hk.
  assert (E : nbits w v = nbits (w - k) (N.shiftr v (N.of_nat k)) ++ nbits k v).
  { rewrite <- nbits_app. f_equal. lia. }
  rewrite E, take_app_alt by (rewrite length_nbits; reflexivity).
  replace w with (k + (w - k)) at 1 by lia. rewrite nbits_app. f_equal.
  rewrite N.shiftr_shiftr.
  replace (N.of_nat k + N.of_nat (w - k))%N with (N.of_nat w) by lia.
  apply nbits_shiftr_hi. exact Hv.
Qed.

Lemma nbits_lor w a b : nbits w (N.lor a b) = zip_with orb (nbits w a) (nbits w b).
Proof.
  induction w as [|w IH]; [reflexivity|]. cbn [nbits zip_with]. rewrite IH.
  rewrite N.lor_spec. reflexivity.
Qed.

Lemma nbits_land w a b : nbits w (N.land a b) = zip_with andb (nbits w a) (nbits w b).
Proof.
  induction w as [|w IH]; [reflexivity|]. cbn [nbits zip_with]. rewrite IH.
  rewrite N.land_spec. reflexivity.
Qed.

Lemma nbits_lxor w a b : nbits w (N.lxor a b) = zip_with xorb (nbits w a) (nbits w b).
Proof.
  induction w as [|w IH]; [reflexivity|]. cbn [nbits zip_with]. rewrite IH.
  rewrite N.lxor_spec. reflexivity.
Qed.

(** ** Values *)

Lemma bval_fold acc l :
  fold_left (fun acc b => (2 * acc + N.b2n b)%N) l acc
  = (acc * 2 ^ N.of_nat (length l) + bval l)%N.
Proof.
  unfold bval. revert acc. induction l as [|b l IH]; intros acc; cbn [fold_left length].
  - change (N.of_nat 0) with 0%N. rewrite N.pow_0_r. lia.
  - rewrite IH, (IH (2 * 0 + N.b2n b)%N).
    rewrite Nat2N.inj_succ, N.pow_succ_r'. lia.
Qed.

Lemma bval_cons b l : bval (b :: l) = (N.b2n b * 2 ^ N.of_nat (length l) + bval l)%N.
Proof. unfold bval at 1. cbn [fold_left]. rewrite bval_fold. lia. Qed.

Lemma bval_nil : bval [] = 0%N.
Proof. reflexivity. Qed.

Lemma bval_app a b : bval (a ++ b) = (bval a * 2 ^ N.of_nat (length b) + bval b)%N.
Proof.
  unfold bval at 1. rewrite fold_left_app. rewrite bval_fold. reflexivity.
Qed.

Lemma bval_zeros n : bval (zeros n) = 0%N.
Proof.
  induction n as [|n IH]; [reflexivity|]. cbn [zeros replicate].
  rewrite bval_cons. fold (zeros n). rewrite IH. cbn [N.b2n]. lia.
Qed.

Lemma bval_lt l : (bval l < 2 ^ N.of_nat (length l))%N.
Proof.
  induction l as [|b l IH].
  - rewrite bval_nil. cbn [length]. change (N.of_nat 0) with 0%N. rewrite N.pow_0_r. lia.
  - rewrite bval_cons. cbn [length]. rewrite Nat2N.inj_succ, N.pow_succ_r'.
    destruct b; cbn [N.b2n]; lia.
Qed.

Lemma bval_nbits w v : bval (nbits w v) = (v mod 2 ^ N.of_nat w)%N.
Proof.
  induction w as [|w IH].
  - cbn [nbits]. change (N.of_nat 0) with 0%N. rewrite N.pow_0_r, N.mod_1_r. reflexivity.
  - cbn [nbits]. rewrite bval_cons, length_nbits, IH.
    rewrite Nat2N.inj_succ, N.pow_succ_r', (N.mul_comm 2).
    rewrite N.mod_mul_r by (try apply N.pow_nonzero; lia).
    rewrite N.testbit_spec' . lia.
Qed.

Lemma bval_nbits_small w v : (v < 2 ^ N.of_nat w)%N -> bval (nbits w v) = v.
Proof. intros H. rewrite bval_nbits. apply N.mod_small. exact H. Qed.

Lemma nbits_bval l : nbits (length l) (bval l) = l.
Proof.
  induction l as [|b l IH]; [reflexivity|].
  rewrite bval_cons. cbn [length nbits]. f_equal.
  - rewrite N.add_comm.
    pose proof (bval_lt l) as Hlt.
    destruct b; cbn [N.b2n].
    + rewrite N.mul_1_l.
      rewrite N.testbit_eqb.
      replace ((bval l + 2 ^ N.of_nat (length l)) / 2 ^ N.of_nat (length l))%N with 1%N.
      { reflexivity. }
      apply N.div_unique with (bval l); lia.
    + rewrite N.mul_0_l, N.add_0_r. rewrite N.testbit_eqb.
      rewrite N.div_small by lia. reflexivity.
  - etransitivity; [|exact IH]. apply nbits_ext. intros i Hi.
    destruct b; cbn [N.b2n].
    + rewrite N.add_comm.
      rewrite <- (N.mod_pow2_bits_low _ (N.of_nat (length l))) by lia.
      rewrite N.mod_add by (apply N.pow_nonzero; lia).
      rewrite N.mod_pow2_bits_low by lia. reflexivity.
    + rewrite N.mul_0_l, N.add_0_l. reflexivity.
Qed.

Lemma nbits_bval' w l : length l = w -> nbits w (bval l) = l.
Proof. intros <-. apply nbits_bval. Qed.

Lemma nbits_inj w v1 v2 :
  (v1 < 2 ^ N.of_nat w)%N -> (v2 < 2 ^ N.of_nat w)%N ->
  nbits w v1 = nbits w v2 -> v1 = v2.
Proof.
  intros H1 H2 E. rewrite <- (bval_nbits_small w v1 H1), <- (bval_nbits_small w v2 H2).
  congruence.
Qed.

Lemma bval_inj l1 l2 : length l1 = length l2 -> bval l1 = bval l2 -> l1 = l2.
Proof. intros Hl E. rewrite <- (nbits_bval l1), <- (nbits_bval l2). congruence. Qed.

(** ** Bytes *)

Lemma byte_bits_inj a b : byte_ok a -> byte_ok b -> byte_bits a = byte_bits b -> a = b.
Proof. unfold byte_ok, byte_bits. intros Ha Hb. apply (nbits_inj 8); assumption. Qed.

Lemma to_be_length n v : length (to_be n v) = n.
Proof. unfold to_be. rewrite map_length, seq_length. reflexivity. Qed.

Lemma to_be_S n v :
  to_be (S n) v = (N.shiftr v (8 * N.of_nat n) mod 256)%N :: to_be n v.
Proof.
  unfold to_be. cbn [seq map]. f_equal.
  - do 2 f_equal. lia.
  - rewrite <- (seq_shift n 0), map_map. apply map_ext_in. intros i Hi%in_seq.
    do 3 f_equal. lia.
Qed.

Lemma bytes_bits_to_be n v : bytes_bits (to_be n v) = nbits (8 * n) v.
Proof.
  induction n as [|n IH]; [reflexivity|].
  rewrite to_be_S, bytes_bits_cons, IH. unfold byte_bits.
  replace (8 * S n) with (8 + 8 * n) by lia. rewrite nbits_app. f_equal.
  change 256%N with (2 ^ N.of_nat 8)%N. rewrite nbits_mod by lia.
  do 2 f_equal. lia.
Qed.

Lemma to_be_ok n v : Forall byte_ok (to_be n v).
Proof.
  induction n as [|n IH]; [constructor|]. rewrite to_be_S. constructor; [|exact IH].
  unfold byte_ok. apply N.mod_lt. lia.
Qed.

Lemma from_be_bval_acc bs acc :
  Forall byte_ok bs ->
  fold_left (fun acc b => (256 * acc + b)%N) bs acc
  = (acc * 2 ^ N.of_nat (8 * length bs) + bval (bytes_bits bs))%N.
Proof.
  intros H. revert acc. induction H as [|b bs Hb Hbs IH]; intros acc; cbn [fold_left length].
  - change (bytes_bits []) with (@nil bool). rewrite bval_nil.
    change (N.of_nat (8 * 0)) with 0%N. rewrite N.pow_0_r. lia.
  - rewrite IH, bytes_bits_cons, bval_app, length_bytes_bits.
    unfold byte_bits. rewrite bval_nbits_small by exact Hb.
    replace (8 * S (length bs)) with (8 + 8 * length bs) by lia.
    rewrite Nat2N.inj_add, N.pow_add_r. change (2 ^ N.of_nat 8)%N with 256%N. lia.
Qed.

Lemma from_be_bval bs : Forall byte_ok bs -> from_be bs = bval (bytes_bits bs).
Proof. intros H. unfold from_be. rewrite from_be_bval_acc by exact H. lia. Qed.

Lemma from_be_to_be n v : (v < 2 ^ N.of_nat (8 * n))%N -> from_be (to_be n v) = v.
Proof.
  intros H. rewrite from_be_bval by apply to_be_ok.
  rewrite bytes_bits_to_be. apply bval_nbits_small. exact H.
Qed.

Lemma from_be_lt bs : Forall byte_ok bs -> (from_be bs < 2 ^ N.of_nat (8 * length bs))%N.
Proof.
  intros H. rewrite from_be_bval by exact H.
  pose proof (bval_lt (bytes_bits bs)) as L. rewrite length_bytes_bits in L. exact L.
Qed.

Lemma bytes_bits_inj a b :
  Forall byte_ok a -> Forall byte_ok b -> bytes_bits a = bytes_bits b -> a = b.
Proof.
  intros Ha. revert b. induction Ha as [|x a Hx Ha IH]; intros b Hb E.
  - destruct b as [|y b]; [reflexivity|]. exfalso.
    apply (f_equal length) in E. rewrite !length_bytes_bits in E. cbn [length] in E. lia.
  - destruct Hb as [|y b Hy Hb].
    { exfalso. apply (f_equal length) in E. rewrite !length_bytes_bits in E.
      cbn [length] in E. lia. }
    rewrite !bytes_bits_cons in E.
    apply app_inj_1 in E; [|rewrite !length_byte_bits; reflexivity].
    destruct E as [E1 E2]. f_equal; [apply byte_bits_inj; assumption|auto].
Qed.

(** ** Packing bits into bytes *)

Lemma pack_fuel_enough f1 f2 l :
  length l <= f1 -> length l <= f2 -> pack_fuel f1 l = pack_fuel f2 l.
Proof.
  revert f2 l. induction f1 as [|f1 IH]; intros f2 l H1 H2.
  - destruct l; cbn [length] in H1; [|lia]. destruct f2; reflexivity.
  - destruct f2 as [|f2].
    { destruct l; cbn [length] in H2; [reflexivity|lia]. }
    cbn [pack_fuel]. destruct l as [|b l]; [reflexivity|]. f_equal.
    apply IH; rewrite drop_length; cbn [length] in *; lia.
Qed.

Lemma pack_nil : pack [] = [].
Proof. reflexivity. Qed.

Lemma pack_unfold l :
  l <> [] -> pack l = bval (take 8 (l ++ zeros 7)) :: pack (drop 8 l).
Proof.
  intros Hl. unfold pack. destruct l as [|b l]; [congruence|].
  cbn [pack_fuel length]. f_equal.
  apply pack_fuel_enough; rewrite drop_length; cbn [length]; lia.
Qed.

Lemma pack_byte_app x l : length x = 8 -> pack (x ++ l) = bval x :: pack l.
Proof.
  intros Hx. rewrite pack_unfold by (destruct x; [cbn in Hx; lia|discriminate]).
  f_equal.
  - f_equal. rewrite <- app_assoc. rewrite take_app_alt by lia. reflexivity.
  - f_equal. rewrite drop_app_alt by lia. reflexivity.
Qed.

Lemma pack_ok l : Forall byte_ok (pack l).
Proof.
  unfold pack. generalize (length l). intros f. revert l.
  induction f as [|f IH]; intros l; cbn [pack_fuel]; [constructor|].
  destruct l as [|b l]; constructor; [|apply IH].
  unfold byte_ok. pose proof (bval_lt (take 8 ((b :: l) ++ zeros 7))) as H.
  rewrite take_length, app_length, length_zeros in H. cbn [length] in H.
  rewrite Nat.min_l in H by lia. exact H.
Qed.

Lemma bytes_bits_pack l :
  bytes_bits (pack l) = l ++ zeros (8 * length (pack l) - length l).
Proof.
  remember (length l) as n eqn:Hn. revert l Hn.
  induction n as [n IH] using lt_wf_ind. intros l ->.
  destruct (decide (l = [])) as [->|Hne]; [reflexivity|].
  destruct (decide (8 <= length l)) as [Hge|Hlt].
  - assert (Hs : exists x y, l = x ++ y /\ length x = 8).
    { exists (take 8 l), (drop 8 l). rewrite take_drop, take_length. split; [reflexivity|lia]. }
    destruct Hs as (x & y & -> & Hx). clear Hne.
    rewrite pack_byte_app by exact Hx. rewrite bytes_bits_cons. unfold byte_bits.
    rewrite nbits_bval' by exact Hx. rewrite app_length in *.
    rewrite (IH (length y)) by (try reflexivity; lia).
    rewrite <- app_assoc. cbn [length]. do 3 f_equal. lia.
  - rewrite pack_unfold by exact Hne. rewrite (drop_ge l 8) by lia.
    rewrite pack_nil, bytes_bits_cons. unfold byte_bits.
    rewrite nbits_bval' by (rewrite take_length, app_length, length_zeros; destruct l; [congruence|cbn [length]; lia]).
    change (bytes_bits []) with (@nil bool). rewrite app_nil_r. cbn [length].
    rewrite take_app_ge by lia. f_equal.
    unfold zeros. rewrite take_replicate. f_equal.
    destruct l; [congruence|cbn [length] in *; lia].
Qed.

Lemma length_pack l : length (pack l) = (length l + 7) / 8.
Proof.
  remember (length l) as n eqn:Hn. revert l Hn.
  induction n as [n IH] using lt_wf_ind. intros l ->.
  destruct (decide (l = [])) as [->|Hne]; [reflexivity|].
  rewrite pack_unfold by exact Hne. cbn [length].
  assert (0 < length l) by (destruct l; [congruence|cbn [length]; lia]).
  rewrite (IH (length (drop 8 l))) by (try reflexivity; rewrite drop_length; lia).
  rewrite drop_length.
  destruct (decide (8 <= length l)) as [Hge|Hlt].
  - replace (length l + 7) with (length l - 8 + 7 + 1 * 8) by lia.
    rewrite Nat.div_add by lia. lia.
  - replace (length l - 8) with 0 by lia. cbn [Nat.add].
    change (S (7 / 8)) with 1.
    apply Nat.div_unique with (length l - 1); lia.
Qed.

Lemma pack_bytes_bits bs : Forall byte_ok bs -> pack (bytes_bits bs) = bs.
Proof.
  intros H. induction H as [|b bs Hb Hbs IH]; [reflexivity|].
  rewrite bytes_bits_cons, pack_byte_app by apply length_byte_bits.
  rewrite IH. f_equal. unfold byte_bits. apply bval_nbits_small. exact Hb.
Qed.

Lemma pack_app_bytes l1 l2 :
  length l1 mod 8 = 0 -> pack (l1 ++ l2) = pack l1 ++ pack l2.
Proof.
  intros Hm. apply bytes_bits_inj.
  - apply pack_ok.
  - apply Forall_app; split; apply pack_ok.
  - rewrite bytes_bits_app, !bytes_bits_pack, !length_pack, !app_length.
    assert (E1 : exists q, length l1 = 8 * q).
    { exists (length l1 / 8). pose proof (Nat.div_mod_eq (length l1) 8). lia. }
    destruct E1 as [q Hq]. rewrite !Hq.
    replace (8 * q + length l2 + 7) with (length l2 + 7 + q * 8) by lia.
    rewrite Nat.div_add by lia.
    replace (8 * ((8 * q + 7) / 8) - 8 * q) with 0.
    2:{ replace ((8 * q + 7) / 8) with q; [lia|].
        apply Nat.div_unique with 7; lia. }
    cbn [zeros replicate]. rewrite app_nil_r, <- app_assoc. do 3 f_equal. lia.
Qed.
