(** * Proofs about the byte-level builder. *)
From Verif Require Import Err BitsProofs BufProofs BuilderModel.
Local Open Scope nat_scope.

Ltac Zify.zify_post_hook ::= Z.div_mod_to_equations.

(** The builder [s] holds exactly the bits [B]. *)
Definition brep (s : bld) (B : list bool) : Prop :=
  rep (bd s) B /\ bl s = N.of_nat (length B) /\ length B <= 1023.

(** [op] appends [X] if there is room, otherwise fails and changes nothing. *)
Definition appends (op : M unit) (X : list bool) : Prop :=
  forall s B, brep s B ->
    (length B + length X <= 1023 -> exists s', op s = (Ok tt, s') /\ brep s' (B ++ X)) /\
    (1023 < length B + length X -> op s = (Err CellOverflow, s)).

Lemma brep_new : brep b_new [].
Proof.
  split; [|split; [reflexivity|cbn; lia]]. cbn [bd b_new]. split; [reflexivity|]. split.
  - apply Forall_replicate. unfold byte_ok. lia.
  - exists 1024. vm_compute. reflexivity.
Qed.

Lemma mbind_ok {A B} (x : M A) (f : A -> M B) s a s' :
  x s = (Ok a, s') -> mbind x f s = f a s'.
Proof. intros H. unfold mbind. rewrite H. reflexivity. Qed.

Lemma upd_ok f d l d' : f d = Some d' -> upd f (mkB d l) = (Ok tt, mkB d' l).
Proof. intros H. unfold upd. cbn [bd bl]. rewrite H. reflexivity. Qed.

Lemma get_bind {B} (f : N -> M B) d l : mbind get_bl f (mkB d l) = f l (mkB d l).
Proof. reflexivity. Qed.

Lemma mbind_assoc {A B C} (x : M A) (f : A -> M B) (g : B -> M C) s :
  mbind (mbind x f) g s = mbind x (fun a => mbind (f a) g) s.
Proof. unfold mbind. destruct (x s) as [[a|e] s']; reflexivity. Qed.

Ltac step H := erewrite mbind_ok by (apply upd_ok; exact H); cbv beta.

Lemma pos_split (l : N) n :
  l = N.of_nat n ->
  exists q r, N.to_nat (l / 8) = q /\ (l mod 8)%N = N.of_nat r /\ n = 8 * q + r /\ r < 8.
Proof.
  intros ->. exists (n / 8), (n mod 8). repeat split.
  - lia.
  - lia.
  - lia.
  - lia.
Qed.

Lemma w16_small x : (x < 65536)%N -> w16 x = x.
Proof. intros H. unfold w16. apply N.mod_small. exact H. Qed.

Lemma of_nat_eqb0 r : (N.of_nat r =? 0)%N = (r =? 0).
Proof. destruct (Nat.eqb_spec r 0) as [->|H]; [reflexivity|]. apply N.eqb_neq. lia. Qed.

Ltac cap_ok := rewrite ?w16_small by lia.

Lemma brep_mk d l B : rep d B -> l = N.of_nat (length B) -> length B <= 1023 -> brep (mkB d l) B.
Proof. intros H1 H2 H3. split; [exact H1|]. split; [exact H2|exact H3]. Qed.

(** *** store_zeros and single bits *)

Lemma rep_zeros d B n : rep d B -> length B + n <= 1024 -> rep d (B ++ zeros n).
Proof.
  intros (L & Hd & k & E) H. pose proof (rep_len _ _ _ L E) as Hk.
  split; [exact L|]. split; [exact Hd|]. exists (k - n).
  rewrite <- app_assoc, <- zeros_app, E. do 2 f_equal. lia.
Qed.

Lemma store_zeros_appends bits :
  (bits <= 64512)%N -> appends (store_zeros bits) (zeros (N.to_nat bits)).
Proof.
  intros Hb s B HR. destruct s as [d l]. destruct HR as (HR & HL & HB). cbn [bd bl] in *.
  rewrite length_zeros. unfold store_zeros, mbind, get_bl, set_bl, merr; cbn [bd bl].
  rewrite w16_small by lia. unfold MAX_BIT_LEN.
  destruct (N.leb_spec (l + bits) 1023) as [H|H]; split; intros H'; try lia.
  - eexists. split; [reflexivity|]. apply brep_mk.
    + apply rep_zeros; [exact HR|lia].
    + rewrite app_length, length_zeros. lia.
    + rewrite app_length, length_zeros. lia.
  - reflexivity.
Qed.

Lemma store_bit_zero_appends : appends store_bit_zero [false].
Proof.
  intros s B HR. destruct s as [d l]. destruct HR as (HR & HL & HB). cbn [bd bl] in *.
  cbn [length]. unfold store_bit_zero, mbind, get_bl, set_bl, merr, mret; cbn [bd bl].
  unfold MAX_BIT_LEN. destruct (N.ltb_spec l 1023) as [H|H]; split; intros H'; try lia.
  - eexists. split; [reflexivity|]. apply brep_mk.
    + change [false] with (zeros 1). apply rep_zeros; [exact HR|lia].
    + rewrite app_length. cbn [length N.b2n]. lia.
    + rewrite app_length. cbn [length]. lia.
  - cbn [N.b2n]. rewrite N.add_0_r. reflexivity.
Qed.

Lemma byte_bits_one r :
  r < 8 -> byte_bits (shl 8 1 (7 - N.of_nat r)) = zeros r ++ [true] ++ zeros (7 - r).
Proof.
  intros H. assert (C : r = 0 \/ r = 1 \/ r = 2 \/ r = 3 \/ r = 4 \/ r = 5 \/ r = 6 \/ r = 7) by lia.
  repeat (destruct C as [->|C]; [reflexivity|]). subst; reflexivity.
Qed.

Lemma store_bit_one_appends : appends store_bit_one [true].
Proof.
  intros s B HR. destruct s as [d l]. destruct HR as (HR & HL & HB). cbn [bd bl] in *.
  cbn [length]. unfold store_bit_one, mbind, get_bl, set_bl, merr, mret; cbn [bd bl].
  unfold MAX_BIT_LEN. destruct (N.ltb_spec l 1023) as [H|H]; split; intros H'; try lia.
  - destruct (pos_split l _ HL) as (q & r & Eq & Er & EB & Hr). rewrite Eq, Er.
    destruct (or_at_rep d B q r (shl 8 1 (7 - N.of_nat r)) [true]) as (d' & Ho & HR').
    { exact HR. } { exact EB. } { exact Hr. } { lia. } { apply byte_ok_shl8. }
    { cbn [length]. lia. }
    { rewrite byte_bits_one by exact Hr. cbn [length]. do 3 f_equal. lia. }
    rewrite (upd_ok _ _ _ _ Ho). cbn [bd bl]. eexists. split; [reflexivity|].
    apply brep_mk; [exact HR'| |]; rewrite app_length; cbn [length]; lia.
  - reflexivity.
Qed.

Lemma store_bit_appends b : appends (store_bit b) [b].
Proof. destruct b; [apply store_bit_one_appends|apply store_bit_zero_appends]. Qed.

(** *** fixed-width integers *)

(** High part: the top [8 - r] bits of a [w]-bit value, OR-ed into a byte. *)
Lemma byte_bits_high w r v :
  8 <= w -> r < 8 -> (v < 2 ^ N.of_nat w)%N ->
  byte_bits (w8 (N.shiftr v (N.of_nat (w - 8 + r)))) = zeros r ++ take (8 - r) (nbits w v).
Proof.
  intros Hw Hr Hv. rewrite byte_bits_w8.
  replace (nbits w v) with (nbits ((8 - r) + (w - 8 + r)) v) by (f_equal; lia).
  rewrite nbits_app, take_app_alt by (rewrite length_nbits; reflexivity).
  assert (Hs : (N.shiftr v (N.of_nat (w - 8 + r)) < 2 ^ N.of_nat (8 - r))%N).
  { rewrite N.shiftr_div_pow2. apply N.div_lt_upper_bound; [apply N.pow_nonzero; lia|].
    rewrite <- N.pow_add_r. replace (N.of_nat (w - 8 + r) + N.of_nat (8 - r))%N with (N.of_nat w) by lia.
    exact Hv. }
  rewrite (nbits_small 8 (8 - r)) by (try exact Hs; lia).
  f_equal. f_equal. lia.
Qed.

Lemma nbits_low w k v : k <= w -> nbits k v = drop (w - k) (nbits w v).
Proof.
  intros H. replace (nbits w v) with (nbits ((w - k) + k) v) by (f_equal; lia).
  rewrite nbits_app, drop_app_alt by (rewrite length_nbits; reflexivity). reflexivity.
Qed.

Lemma store_uintW_appends n v :
  1 <= n <= 16 -> (v < 2 ^ N.of_nat (8 * n))%N ->
  appends (store_uintW n (N.of_nat (8 * n)) v) (nbits (8 * n) v).
Proof.
  intros Hn Hv s B HR. destruct s as [d l]. destruct HR as (HR & HL & HB). cbn [bd bl] in *.
  rewrite length_nbits. unfold store_uintW, set_bl, merr, mret.
  rewrite !get_bind. cbv beta. rewrite w16_small by lia. unfold MAX_BIT_LEN.
  destruct (N.leb_spec (l + N.of_nat (8 * n)) 1023) as [H|H]; split; intros H'; try lia; [|reflexivity].
  destruct (pos_split l _ HL) as (q & r & Eq & Er & EB & Hr). rewrite Eq, Er, of_nat_eqb0.
  destruct (Nat.eqb_spec r 0) as [->|Hr0].
  - destruct (cpy_rep d B q (to_be n v) (nbits (8 * n) v) 0) as (d' & Hc & HR').
    { exact HR. } { lia. } { rewrite to_be_length. lia. } { apply to_be_ok. }
    { rewrite bytes_bits_to_be. cbn [zeros replicate]. rewrite app_nil_r. reflexivity. }
    step Hc. cbn [bd bl]. eexists. split; [reflexivity|].
    apply brep_mk; [exact HR'| |]; rewrite app_length, length_nbits; lia.
  - destruct (or_at_rep d B q r (w8 (N.shiftr v (N.of_nat (8 * n) - 8 + N.of_nat r)))
                (take (8 - r) (nbits (8 * n) v))) as (d1 & Ho & HR1).
    { exact HR. } { exact EB. } { exact Hr. } { lia. } { apply byte_ok_w8. }
    { rewrite take_length, length_nbits. lia. }
    { replace (N.of_nat (8 * n) - 8 + N.of_nat r)%N with (N.of_nat (8 * n - 8 + r)) by lia.
      rewrite byte_bits_high by (try exact Hv; lia). f_equal.
      rewrite take_length, length_nbits. replace (8 - r - _) with 0 by lia.
      cbn [zeros replicate]. rewrite app_nil_r. reflexivity. }
    destruct (cpy_rep d1 (B ++ take (8 - r) (nbits (8 * n) v)) (q + 1)
                (to_be n (shl (N.of_nat (8 * n)) v (8 - N.of_nat r)))
                (drop (8 - r) (nbits (8 * n) v)) (8 - r)) as (d2 & Hc & HR2).
    { exact HR1. } { rewrite app_length, take_length, length_nbits. lia. }
    { rewrite to_be_length. lia. } { apply to_be_ok. }
    { rewrite bytes_bits_to_be. unfold shl. rewrite nbits_mod by lia.
      replace (8 - N.of_nat r)%N with (N.of_nat (8 - r)) by lia.
      rewrite nbits_shiftl by lia. reflexivity. }
    rewrite <- app_assoc, take_drop in HR2.
    rewrite mbind_assoc. step Ho. step Hc. cbn [bd bl]. eexists. split; [reflexivity|].
    apply brep_mk; [exact HR2| |]; rewrite app_length, length_nbits; lia.
Qed.

Lemma store_u8_appends v : byte_ok v -> appends (store_u8 v) (nbits 8 v).
Proof.
  intros Hv s B HR. destruct s as [d l]. destruct HR as (HR & HL & HB). cbn [bd bl] in *.
  rewrite length_nbits. unfold store_u8, set_bl, merr, mret.
  rewrite !get_bind. cbv beta. rewrite w16_small by lia. unfold MAX_BIT_LEN.
  destruct (N.leb_spec (l + 8) 1023) as [H|H]; split; intros H'; try lia; [|reflexivity].
  destruct (pos_split l _ HL) as (q & r & Eq & Er & EB & Hr). rewrite Eq, Er, of_nat_eqb0.
  destruct (Nat.eqb_spec r 0) as [->|Hr0].
  - destruct (wr_rep d B q v (nbits 8 v)) as (d' & Hc & HR').
    { exact HR. } { lia. } { lia. } { exact Hv. } { rewrite length_nbits; lia. }
    { rewrite length_nbits. cbn [zeros replicate Nat.sub]. rewrite app_nil_r. reflexivity. }
    step Hc. cbn [bd bl]. eexists. split; [reflexivity|].
    apply brep_mk; [exact HR'| |]; rewrite app_length, length_nbits; lia.
  - destruct (or_at_rep d B q r (N.shiftr v (N.of_nat r)) (take (8 - r) (byte_bits v)))
      as (d1 & Ho & HR1).
    { exact HR. } { exact EB. } { exact Hr. } { lia. } { apply byte_ok_shiftr, Hv. }
    { rewrite take_length, length_byte_bits. lia. }
    { rewrite byte_bits_shiftr by (try exact Hv; lia). f_equal.
      rewrite take_length, length_byte_bits. replace (8 - r - _) with 0 by lia.
      cbn [zeros replicate]. rewrite app_nil_r. reflexivity. }
    destruct (wr_rep d1 (B ++ take (8 - r) (byte_bits v)) (q + 1)
                (shl 8 v (8 - N.of_nat r)) (drop (8 - r) (byte_bits v))) as (d2 & Hc & HR2).
    { exact HR1. } { rewrite app_length, take_length, length_byte_bits. lia. }
    { lia. } { apply byte_ok_shl8. } { rewrite drop_length, length_byte_bits. lia. }
    { replace (8 - N.of_nat r)%N with (N.of_nat (8 - r)) by lia.
      rewrite byte_bits_shl by lia. f_equal. f_equal.
      rewrite drop_length, length_byte_bits. lia. }
    rewrite <- app_assoc, take_drop in HR2.
    rewrite mbind_assoc. step Ho. step Hc. cbn [bd bl]. eexists. split; [reflexivity|].
    apply brep_mk; [exact HR2| |]; rewrite app_length, length_nbits; lia.
Qed.

Lemma store_u256_appends value :
  length value = 32 -> Forall byte_ok value -> appends (store_u256 value) (bytes_bits value).
Proof.
  intros Lv Hv s B HR. destruct s as [d l]. destruct HR as (HR & HL & HB). cbn [bd bl] in *.
  rewrite length_bytes_bits, Lv. unfold store_u256, set_bl, merr, mret.
  rewrite !get_bind. cbv beta zeta. rewrite w16_small by lia. unfold MAX_BIT_LEN.
  destruct (N.leb_spec (l + 256) 1023) as [H|H]; split; intros H'; try lia; [|reflexivity].
  destruct (pos_split l _ HL) as (q & r & Eq & Er & EB & Hr). rewrite Eq, Er, of_nat_eqb0.
  destruct (Nat.eqb_spec r 0) as [->|Hr0].
  - destruct (cpy_rep d B q value (bytes_bits value) 0) as (d' & Hc & HR').
    { exact HR. } { lia. } { lia. } { exact Hv. }
    { cbn [zeros replicate]. rewrite app_nil_r. reflexivity. }
    step Hc. cbn [bd bl]. eexists. split; [reflexivity|].
    apply brep_mk; [exact HR'| |]; rewrite app_length, length_bytes_bits; lia.
  - set (hi := from_be (take 16 value)). set (lo := from_be (drop 16 value)).
    assert (Hhb : nbits 128 hi = bytes_bits (take 16 value)).
    { unfold hi. rewrite from_be_bval by (apply Forall_take, Hv). apply nbits_bval'.
      rewrite length_bytes_bits, take_length. lia. }
    assert (Hlb : nbits 128 lo = bytes_bits (drop 16 value)).
    { unfold lo. rewrite from_be_bval by (apply Forall_drop, Hv). apply nbits_bval'.
      rewrite length_bytes_bits, drop_length. lia. }
    assert (Hhi : (hi < 2 ^ N.of_nat 128)%N).
    { unfold hi. pose proof (from_be_lt (take 16 value) (Forall_take _ _ _ Hv)) as L.
      rewrite take_length in L. replace (8 * (16 `min` length value)) with 128 in L by lia. exact L. }
    assert (Hlo : (lo < 2 ^ N.of_nat 128)%N).
    { unfold lo. pose proof (from_be_lt (drop 16 value) (Forall_drop _ _ _ Hv)) as L.
      rewrite drop_length in L. replace (8 * (length value - 16)) with 128 in L by lia. exact L. }
    assert (EV : bytes_bits value = nbits 128 hi ++ nbits 128 lo).
    { rewrite Hhb, Hlb, <- bytes_bits_app, take_drop. reflexivity. }
    replace (8 - N.of_nat r)%N with (N.of_nat (8 - r)) by lia.
    destruct (or_at_rep d B q r (w8 (N.shiftr hi (128 - N.of_nat (8 - r))))
                (take (8 - r) (nbits 128 hi))) as (d1 & Ho & HR1).
    { exact HR. } { exact EB. } { exact Hr. } { lia. } { apply byte_ok_w8. }
    { rewrite take_length, length_nbits. lia. }
    { replace (128 - N.of_nat (8 - r))%N with (N.of_nat (128 - 8 + r)) by lia.
      rewrite byte_bits_high by (try exact Hhi; lia). f_equal.
      rewrite take_length, length_nbits. replace (8 - r - _) with 0 by lia.
      cbn [zeros replicate]. rewrite app_nil_r. reflexivity. }
    destruct (cpy_rep d1 (B ++ take (8 - r) (nbits 128 hi)) (q + 1)
                (to_be 16 (N.lor (shl 128 hi (N.of_nat (8 - r)))
                                 (N.shiftr lo (128 - N.of_nat (8 - r)))))
                (drop (8 - r) (nbits 128 hi) ++ take (8 - r) (nbits 128 lo)) 0)
      as (d2 & Hc & HR2).
    { exact HR1. } { rewrite app_length, take_length, length_nbits. lia. }
    { rewrite to_be_length. lia. } { apply to_be_ok. }
    { rewrite bytes_bits_to_be. change (8 * 16) with 128. rewrite nbits_lor.
      unfold shl. change (2 ^ 128)%N with (2 ^ N.of_nat 128)%N. rewrite nbits_mod by lia.
      rewrite nbits_shiftl by lia.
      replace (128 - N.of_nat (8 - r))%N with (N.of_nat (128 - (8 - r))) by lia.
      rewrite nbits_shiftr by (try exact Hlo; lia).
      rewrite zip_with_app by (rewrite drop_length, length_nbits, length_zeros; lia).
      replace (128 - (8 - r)) with (length (drop (8 - r) (nbits 128 hi))) at 1
        by (rewrite drop_length, length_nbits; lia).
      rewrite zip_orb_zeros_r. cbn [zeros replicate]. rewrite app_nil_r. f_equal.
      replace (128 - (128 - (8 - r))) with (8 - r) by lia.
      replace (8 - r) with (length (take (8 - r) (nbits 128 lo))) at 1
        by (rewrite take_length, length_nbits; lia).
      apply zip_orb_zeros_l. }
    rewrite <- app_assoc in HR2.
    destruct (cpy_rep d2 (B ++ take (8 - r) (nbits 128 hi) ++ drop (8 - r) (nbits 128 hi)
                            ++ take (8 - r) (nbits 128 lo)) (q + 17)
                (to_be 16 (shl 128 lo (N.of_nat (8 - r))))
                (drop (8 - r) (nbits 128 lo)) (8 - r)) as (d3 & Hc3 & HR3).
    { exact HR2. } { rewrite !app_length, !take_length, drop_length, !length_nbits. lia. }
    { rewrite to_be_length. lia. } { apply to_be_ok. }
    { rewrite bytes_bits_to_be. change (8 * 16) with 128.
      unfold shl. change (2 ^ 128)%N with (2 ^ N.of_nat 128)%N. rewrite nbits_mod by lia.
      apply nbits_shiftl. lia. }
    rewrite mbind_assoc. step Ho. rewrite mbind_assoc. step Hc. step Hc3. cbn [bd bl].
    eexists. split; [reflexivity|].
    apply brep_mk; [| |]; try (rewrite app_length, length_bytes_bits; lia).
    replace (bytes_bits value) with
      ((take (8 - r) (nbits 128 hi) ++ drop (8 - r) (nbits 128 hi)) ++
       (take (8 - r) (nbits 128 lo) ++ drop (8 - r) (nbits 128 lo))).
    + rewrite <- !app_assoc in HR3. rewrite <- !app_assoc. exact HR3.
    + rewrite !take_drop, EV. reflexivity.
Qed.

(** *** store_small_uint / store_uint *)

Lemma bytes_bits_take k bs : bytes_bits (take k bs) = take (8 * k) (bytes_bits bs).
Proof.
  destruct (Nat.le_gt_cases k (length bs)) as [H|H].
  - destruct (rdn_spec bs 0 k) as [_ E]; [lia|]. rewrite !drop_0 in E. exact E.
  - rewrite !take_ge; [reflexivity| |lia]. rewrite length_bytes_bits. lia.
Qed.

Lemma take_app_mid {A} (xs ys : list A) n :
  length xs <= n -> take n (xs ++ ys) = xs ++ take (n - length xs) ys.
Proof. intros H. rewrite take_app_ge by exact H. reflexivity. Qed.

Lemma take_zeros n m : n <= m -> take n (zeros m) = zeros n.
Proof. intros H. unfold zeros. rewrite take_replicate. f_equal. lia. Qed.

Lemma small_core d l B xs value q r :
  rep d B -> l = N.of_nat (length B) -> 1 <= length xs <= 8 ->
  length B + length xs <= 1023 -> byte_ok value ->
  byte_bits value = xs ++ zeros (8 - length xs) ->
  length B = 8 * q + r -> r < 8 ->
  exists d',
    (if (N.of_nat r =? 0)%N then upd (fun d => wr d q value)
     else
       upd (fun d => or_at d q (N.shiftr value (N.of_nat r))) ;;;
       if (8 <? N.of_nat (length xs) + N.of_nat r)%N
       then upd (fun d => wr d (q + 1) (shl 8 value (8 - N.of_nat r)))
       else mret tt) (mkB d l) = (Ok tt, mkB d' l) /\ rep d' (B ++ xs).
Proof.
  intros HR HL Hx HB Hv Ev EB Hr. rewrite of_nat_eqb0.
  destruct (Nat.eqb_spec r 0) as [->|Hr0].
  - destruct (wr_rep d B q value xs) as (d' & Hc & HR');
      [exact HR|lia|lia|exact Hv|lia|exact Ev|].
    exists d'. split; [apply upd_ok; exact Hc|exact HR'].
  - destruct (N.ltb_spec 8 (N.of_nat (length xs) + N.of_nat r)) as [Hlt|Hge].
    + destruct (or_at_rep d B q r (N.shiftr value (N.of_nat r)) (take (8 - r) xs))
        as (d1 & Ho & HR1).
      { exact HR. } { exact EB. } { exact Hr. } { lia. } { apply byte_ok_shiftr, Hv. }
      { rewrite take_length. lia. }
      { rewrite byte_bits_shiftr by (try exact Hv; lia). f_equal. rewrite Ev.
        rewrite take_app_le by lia. rewrite take_length.
        replace (8 - r - _) with 0 by lia. cbn [zeros replicate]. rewrite app_nil_r. reflexivity. }
      destruct (wr_rep d1 (B ++ take (8 - r) xs) (q + 1) (shl 8 value (8 - N.of_nat r))
                  (drop (8 - r) xs)) as (d2 & Hc & HR2).
      { exact HR1. } { rewrite app_length, take_length. lia. } { lia. } { apply byte_ok_shl8. }
      { rewrite drop_length. lia. }
      { replace (8 - N.of_nat r)%N with (N.of_nat (8 - r)) by lia.
        rewrite byte_bits_shl by lia. rewrite Ev, drop_app_le by lia.
        rewrite <- app_assoc, <- zeros_app, drop_length. do 2 f_equal. lia. }
      rewrite <- app_assoc, take_drop in HR2.
      exists d2. split; [|exact HR2]. step Ho. apply upd_ok; exact Hc.
    + destruct (or_at_rep d B q r (N.shiftr value (N.of_nat r)) xs) as (d1 & Ho & HR1).
      { exact HR. } { exact EB. } { exact Hr. } { lia. } { apply byte_ok_shiftr, Hv. }
      { lia. }
      { rewrite byte_bits_shiftr by (try exact Hv; lia). f_equal. rewrite Ev.
        rewrite take_app_mid by lia. f_equal. apply take_zeros. lia. }
      exists d1. split; [|exact HR1]. step Ho. reflexivity.
Qed.

Lemma nbits_wide w k v :
  (v < 2 ^ N.of_nat k)%N -> nbits w v = zeros (w - k) ++ nbits (Nat.min w k) v.
Proof.
  intros H. destruct (Nat.le_gt_cases w k) as [L|L].
  - replace (w - k) with 0 by lia. rewrite Nat.min_l by lia. reflexivity.
  - rewrite Nat.min_r by lia. apply nbits_small; [exact H|lia].
Qed.

Lemma shl_low_bits (w k : nat) (v : N) :
  k <= w -> nbits w (shl (N.of_nat w) v (N.of_nat (w - k))) = nbits k v ++ zeros (w - k).
Proof.
  intros H. unfold shl. rewrite nbits_mod by lia. rewrite nbits_shiftl by lia. f_equal.
  symmetry. apply nbits_low. exact H.
Qed.

Lemma store_small_uint_appends v bits :
  byte_ok v -> (bits <= 64512)%N ->
  appends (store_small_uint v bits) (nbits (N.to_nat bits) v).
Proof.
  intros Hv Hbits s B HR. destruct s as [d l]. destruct HR as (HR & HL & HB). cbn [bd bl] in *.
  rewrite length_nbits. unfold store_small_uint.
  destruct (N.eqb_spec bits 0) as [->|Hb0].
  { split; [|lia]. intros _. eexists. split; [reflexivity|]. cbn [nbits N.to_nat].
    rewrite app_nil_r. apply brep_mk; assumption. }
  rewrite !get_bind. cbv beta zeta. rewrite w16_small by lia. unfold MAX_BIT_LEN.
  destruct (N.leb_spec (l + bits) 1023) as [H|H]; split; intros H'; try lia; [|reflexivity].
  set (k := Nat.min (N.to_nat bits) 8).
  set (B' := B ++ zeros (N.to_nat bits - 8)).
  set (l' := N.of_nat (length B')).
  assert (LB' : length B' = length B + (N.to_nat bits - 8)).
  { unfold B'. rewrite app_length, length_zeros. reflexivity. }
  assert (E1 : (if (8 <=? bits)%N then set_bl (w16 (l + (bits - 8))) else mret tt) (mkB d l)
               = (Ok tt, mkB d l')).
  { destruct (N.leb_spec 8 bits) as [G|G].
    - rewrite w16_small by lia. unfold set_bl. cbn [bd]. do 2 f_equal. unfold l'. lia.
    - unfold mret. do 2 f_equal. unfold l'. lia. }
  erewrite mbind_ok by exact E1. cbv beta. rewrite get_bind. cbv beta.
  assert (Ek : (if (8 <=? bits)%N then 8%N else bits) = N.of_nat k).
  { unfold k. destruct (N.leb_spec 8 bits); lia. }
  rewrite Ek.
  destruct (pos_split l' (length B') eq_refl) as (q & r & Eq & Er & EB & Hr). rewrite Eq, Er.
  destruct (small_core d l' B' (nbits k v) (shl 8 v (8 - N.of_nat k)) q r) as (d' & Hs & HR').
  { apply rep_zeros; [exact HR|lia]. } { reflexivity. }
  { rewrite length_nbits. unfold k. lia. } { rewrite length_nbits. unfold k. lia. }
  { apply byte_ok_shl8. }
  { rewrite length_nbits. unfold byte_bits.
    replace (8 - N.of_nat k)%N with (N.of_nat (8 - k)) by (unfold k; lia).
    change 8%N with (N.of_nat 8) at 1. apply shl_low_bits. unfold k; lia. }
  { exact EB. } { exact Hr. }
  rewrite length_nbits in Hs. erewrite mbind_ok by exact Hs.
  unfold set_bl. cbn [bd]. eexists. split; [reflexivity|].
  assert (EX : B ++ nbits (N.to_nat bits) v = B' ++ nbits k v).
  { unfold B'. rewrite <- app_assoc. f_equal. apply nbits_wide. exact Hv. }
  rewrite EX. apply brep_mk.
  - exact HR'.
  - rewrite app_length, length_nbits. rewrite w16_small; unfold l', k; lia.
  - rewrite app_length, length_nbits. unfold k; lia.
Qed.

Lemma store_uint_appends v bits :
  (v < 2 ^ 64)%N -> (bits <= 64512)%N ->
  appends (store_uint v bits) (nbits (N.to_nat bits) v).
Proof.
  intros Hv Hbits s B HR. destruct s as [d l]. destruct HR as (HR & HL & HB). cbn [bd bl] in *.
  rewrite length_nbits. unfold store_uint.
  destruct (N.eqb_spec bits 0) as [->|Hb0].
  { split; [|lia]. intros _. eexists. split; [reflexivity|]. cbn [nbits N.to_nat].
    rewrite app_nil_r. apply brep_mk; assumption. }
  rewrite !get_bind. cbv beta zeta. rewrite w16_small by lia. unfold MAX_BIT_LEN.
  destruct (N.leb_spec (l + bits) 1023) as [H|H]; split; intros H'; try lia; [|reflexivity].
  set (k := Nat.min (N.to_nat bits) 64).
  set (B' := B ++ zeros (N.to_nat bits - 64)).
  set (l' := N.of_nat (length B')).
  assert (LB' : length B' = length B + (N.to_nat bits - 64)).
  { unfold B'. rewrite app_length, length_zeros. reflexivity. }
  assert (E1 : (if (64 <=? bits)%N then set_bl (w16 (l + (bits - 64))) else mret tt) (mkB d l)
               = (Ok tt, mkB d l')).
  { destruct (N.leb_spec 64 bits) as [G|G].
    - rewrite w16_small by lia. unfold set_bl. cbn [bd]. do 2 f_equal. unfold l'. lia.
    - unfold mret. do 2 f_equal. unfold l'. lia. }
  erewrite mbind_ok by exact E1. cbv beta. rewrite get_bind. cbv beta.
  assert (Ek : (if (64 <=? bits)%N then 64%N else bits) = N.of_nat k).
  { unfold k. destruct (N.leb_spec 64 bits); lia. }
  rewrite Ek. assert (Hk : 1 <= k <= 64) by (unfold k; lia).
  assert (HBk : length B' + k <= 1023) by (unfold k; lia).
  assert (EX : B ++ nbits (N.to_nat bits) v = B' ++ nbits k v).
  { unfold B'. rewrite <- app_assoc. f_equal. apply nbits_wide. exact Hv. }
  assert (HR0 : rep d B') by (apply rep_zeros; [exact HR|lia]).
  rewrite EX. clear EX H H' E1 Ek LB'.
  clearbody k. 
  set (value := shl 64 v (64 - N.of_nat k)).
  assert (Ev : nbits 64 value = nbits k v ++ zeros (64 - k)).
  { unfold value. replace (64 - N.of_nat k)%N with (N.of_nat (64 - k)) by lia.
    change 64%N with (N.of_nat 64). apply shl_low_bits. lia. }
  assert (Hval : (value < 2 ^ N.of_nat 64)%N).
  { unfold value, shl. apply N.mod_lt. apply N.pow_nonzero. lia. }
  clearbody value.
  destruct (pos_split l' (length B') eq_refl) as (q & r & Eq & Er & EB & Hr). rewrite Eq, Er, of_nat_eqb0.
  assert (FIN : forall d', rep d' (B' ++ nbits k v) ->
            exists s', set_bl (w16 (l' + N.of_nat k)) (mkB d' l') = (Ok tt, s') /\
                       brep s' (B' ++ nbits k v)).
  { intros d' HR'. unfold set_bl. cbn [bd]. eexists. split; [reflexivity|].
    apply brep_mk; [exact HR'| |]; rewrite app_length, length_nbits;
      [rewrite w16_small; unfold l'; lia|lia]. }
  destruct (Nat.eqb_spec r 0) as [->|Hr0].
  - destruct (cpy_rep d B' q (take (N.to_nat ((N.of_nat k + 7) / 8)) (to_be 8 value))
                (nbits k v) (8 * N.to_nat ((N.of_nat k + 7) / 8) - k)) as (d' & Hc & HR').
    { exact HR0. } { lia. } { rewrite take_length, to_be_length. lia. }
    { apply Forall_take, to_be_ok. }
    { rewrite bytes_bits_take, bytes_bits_to_be. change (8 * 8) with 64. rewrite Ev.
      rewrite take_app_mid by (rewrite length_nbits; lia). rewrite length_nbits. f_equal.
      apply take_zeros. lia. }
    step Hc. apply FIN, HR'.
  - replace (8 - N.of_nat r)%N with (N.of_nat (8 - r)) by lia.
    destruct (Nat.leb_spec k (8 - r)) as [Hle|Hgt].
    + destruct (or_at_rep d B' q r (w8 (N.shiftr value (64 - N.of_nat (8 - r)))) (nbits k v))
        as (d1 & Ho & HR1).
      { exact HR0. } { exact EB. } { exact Hr. } { lia. } { apply byte_ok_w8. }
      { rewrite length_nbits. lia. }
      { replace (64 - N.of_nat (8 - r))%N with (N.of_nat (64 - 8 + r)) by lia.
        rewrite byte_bits_high by (try exact Hval; lia). f_equal. rewrite Ev.
        rewrite take_app_mid by (rewrite length_nbits; lia). f_equal.
        apply take_zeros. rewrite length_nbits. lia. }
      rewrite mbind_assoc. step Ho.
      assert (EC : ((N.of_nat (8 - r) <=? N.of_nat k)%N &&
                    (0 <? N.of_nat k - N.of_nat (8 - r))%N) = false) by lia.
      rewrite EC. apply FIN, HR1.
    + destruct (or_at_rep d B' q r (w8 (N.shiftr value (64 - N.of_nat (8 - r))))
                  (take (8 - r) (nbits k v))) as (d1 & Ho & HR1).
      { exact HR0. } { exact EB. } { exact Hr. } { lia. } { apply byte_ok_w8. }
      { rewrite take_length, length_nbits. lia. }
      { replace (64 - N.of_nat (8 - r))%N with (N.of_nat (64 - 8 + r)) by lia.
        rewrite byte_bits_high by (try exact Hval; lia). f_equal. rewrite Ev.
        rewrite take_app_le by (rewrite length_nbits; lia).
        rewrite take_length, length_nbits. replace (8 - r - _) with 0 by lia.
        cbn [zeros replicate]. rewrite app_nil_r. reflexivity. }
      rewrite mbind_assoc. step Ho.
      assert (EC : ((N.of_nat (8 - r) <=? N.of_nat k)%N &&
                    (0 <? N.of_nat k - N.of_nat (8 - r))%N) = true) by lia.
      rewrite EC.
      set (bl8 := N.to_nat ((N.of_nat k - N.of_nat (8 - r) + 7) / 8)).
      assert (Hbl : 8 * bl8 >= k - (8 - r) /\ 8 * bl8 < k - (8 - r) + 8) by (unfold bl8; lia).
      destruct (cpy_rep d1 (B' ++ take (8 - r) (nbits k v)) (q + 1)
                  (take bl8 (to_be 8 (shl 64 value (N.of_nat (8 - r)))))
                  (drop (8 - r) (nbits k v)) (8 * bl8 - (k - (8 - r)))) as (d2 & Hc & HR2).
      { exact HR1. } { rewrite app_length, take_length, length_nbits. lia. }
      { rewrite take_length, to_be_length. lia. } { apply Forall_take, to_be_ok. }
      { rewrite bytes_bits_take, bytes_bits_to_be. change (8 * 8) with 64.
        unfold shl. change (2 ^ 64)%N with (2 ^ N.of_nat 64)%N. rewrite nbits_mod by lia.
        rewrite nbits_shiftl by lia. rewrite Ev.
        rewrite drop_app_le by (rewrite length_nbits; lia).
        rewrite <- app_assoc, <- zeros_app.
        rewrite take_app_mid by (rewrite drop_length, length_nbits; lia).
        rewrite drop_length, length_nbits. f_equal. apply take_zeros. lia. }
      rewrite <- app_assoc, take_drop in HR2.
      step Hc. apply FIN, HR2.
Qed.

(** *** store_raw *)

Lemma raw_loop_rep n value i r q0 q d B :
  rep d (B ++ take (8 * i) (bytes_bits value)) ->
  Forall byte_ok value -> length B = 8 * q0 + r -> 0 < r < 8 -> q = q0 + i ->
  i + n <= length value -> q0 + i + n < 128 ->
  exists d', raw_loop n value i (N.of_nat r) q d = Some d' /\
    rep d' (B ++ take (8 * (i + n)) (bytes_bits value)).
Proof.
  revert i q d. induction n as [|n IH]; intros i q d HR Hv LB Hr Hq Hi H128.
  - exists d. split; [reflexivity|]. rewrite Nat.add_0_r. exact HR.
  - cbn [raw_loop]. destruct (rd_spec value i) as (v & Hrd & Ev); [lia|]. rewrite Hrd.
    assert (Hvok : byte_ok v) by (eapply Forall_lookup_1; [exact Hv|exact Hrd]).
    set (V := bytes_bits value) in *.
    assert (LV : length V = 8 * length value) by (unfold V; apply length_bytes_bits).
    destruct (or_at_rep d (B ++ take (8 * i) V) q r (N.shiftr v (N.of_nat r))
                (take (8 - r) (byte_bits v))) as (d1 & Ho & HR1).
    { exact HR. } { rewrite app_length, take_length. lia. } { lia. }
    { rewrite app_length, take_length. lia. } { apply byte_ok_shiftr, Hvok. }
    { rewrite take_length, length_byte_bits. lia. }
    { rewrite byte_bits_shiftr by (try exact Hvok; lia). f_equal.
      rewrite take_length, length_byte_bits. replace (8 - r - _) with 0 by lia.
      cbn [zeros replicate]. rewrite app_nil_r. reflexivity. }
    rewrite Ho.
    destruct (wr_rep d1 ((B ++ take (8 * i) V) ++ take (8 - r) (byte_bits v)) (q + 1)
                (shl 8 v (8 - N.of_nat r)) (drop (8 - r) (byte_bits v))) as (d2 & Hc & HR2).
    { exact HR1. } { rewrite !app_length, !take_length, length_byte_bits. lia. } { lia. }
    { apply byte_ok_shl8. } { rewrite drop_length, length_byte_bits. lia. }
    { replace (8 - N.of_nat r)%N with (N.of_nat (8 - r)) by lia.
      rewrite byte_bits_shl by lia. rewrite drop_length, length_byte_bits. do 2 f_equal. lia. }
    rewrite Hc.
    rewrite <- app_assoc, take_drop, <- app_assoc in HR2.
    assert (ET : take (8 * i) V ++ byte_bits v = take (8 * S i) V).
    { rewrite Ev. replace (8 * S i) with (8 * i + 8) by lia. apply take_take_drop. }
    rewrite ET in HR2.
    destruct (IH (S i) (S q) d2) as (d' & Hl & HR');
      [exact HR2|exact Hv|exact LB|exact Hr|lia|lia|lia|].
    exists d'. split; [exact Hl|].
    replace (8 * (i + S n)) with (8 * (S i + n)) by lia. exact HR'.
Qed.

Definition raw_bits (value : list N) (bits : nat) : list bool :=
  zeros (bits - 8 * length value) ++ take bits (bytes_bits value).

Lemma raw_bits_length value bits : length (raw_bits value bits) = bits.
Proof.
  unfold raw_bits. rewrite app_length, length_zeros, take_length, length_bytes_bits. lia.
Qed.

Lemma take_split_le {A} (l : list A) a b :
  a <= b -> take b l = take a l ++ drop a (take b l).
Proof.
  intros H. rewrite <- (take_drop a (take b l)) at 1. f_equal.
  rewrite take_take. f_equal. lia.
Qed.

Lemma store_raw_appends value bits :
  Forall byte_ok value -> (N.of_nat (length value) <= 8191)%N -> (bits <= 64512)%N ->
  appends (store_raw value bits) (raw_bits value (N.to_nat bits)).
Proof.
  intros Hv Lv Hbits s B HR. destruct s as [d l]. destruct HR as (HR & HL & HB). cbn [bd bl] in *.
  rewrite raw_bits_length. unfold store_raw.
  rewrite !get_bind. cbv beta zeta. rewrite w16_small by lia. unfold MAX_BIT_LEN.
  destruct (N.leb_spec (l + bits) 1023) as [H|H]; split; intros H'; try lia; [|reflexivity].
  rewrite (w16_small (N.of_nat (length value) * 8)) by lia.
  set (k := Nat.min (N.to_nat bits) (8 * length value)).
  set (B' := B ++ zeros (N.to_nat bits - 8 * length value)).
  set (l' := N.of_nat (length B')).
  set (V := bytes_bits value).
  assert (LV : length V = 8 * length value) by (unfold V; apply length_bytes_bits).
  assert (LB' : length B' = length B + (N.to_nat bits - 8 * length value)).
  { unfold B'. rewrite app_length, length_zeros. reflexivity. }
  assert (E1 : (if (N.of_nat (length value) * 8 <=? bits)%N
                then set_bl (w16 (l + (bits - N.of_nat (length value) * 8)))
                else mret tt) (mkB d l) = (Ok tt, mkB d l')).
  { destruct (N.leb_spec (N.of_nat (length value) * 8) bits) as [G|G].
    - rewrite w16_small by lia. unfold set_bl. cbn [bd]. do 2 f_equal. unfold l'. lia.
    - unfold mret. do 2 f_equal. unfold l'. lia. }
  erewrite mbind_ok by exact E1. cbv beta.
  assert (Ek : (if (N.of_nat (length value) * 8 <=? bits)%N
                then (N.of_nat (length value) * 8)%N else bits) = N.of_nat k).
  { unfold k. destruct (N.leb_spec (N.of_nat (length value) * 8) bits); lia. }
  rewrite Ek, of_nat_eqb0.
  assert (EX : B ++ raw_bits value (N.to_nat bits) = B' ++ take k V).
  { unfold B', raw_bits. rewrite <- app_assoc. do 2 f_equal. fold V.
    destruct (Nat.le_gt_cases (N.to_nat bits) (8 * length value)) as [G|G].
    - f_equal. unfold k. lia.
    - rewrite !take_ge; [reflexivity| |]; unfold k; lia. }
  rewrite EX.
  assert (HBk : length B' + k <= 1023) by (unfold k; lia).
  assert (Hkv : k <= 8 * length value) by (unfold k; lia).
  assert (HR0 : rep d B') by (apply rep_zeros; [exact HR|lia]).
  clear EX H H' E1 Ek LB'. clearbody k.
  assert (Ltk : length (take k V) = k) by (rewrite take_length; lia).
  destruct (Nat.eqb_spec k 0) as [->|Hk0].
  { rewrite take_0, app_nil_r. eexists. split; [reflexivity|].
    apply brep_mk; [exact HR0|reflexivity|lia]. }
  rewrite get_bind. cbv beta.
  destruct (pos_split l' (length B') eq_refl) as (q & r & Eq & Er & EB & Hr).
  rewrite Eq, Er, of_nat_eqb0.
  assert (FIN : forall d', rep d' (B' ++ take k V) ->
            exists s', set_bl (w16 (l' + N.of_nat k)) (mkB d' l') = (Ok tt, s') /\
                       brep s' (B' ++ take k V)).
  { intros d' HR'. unfold set_bl. cbn [bd]. eexists. split; [reflexivity|].
    apply brep_mk; [exact HR'| |]; rewrite app_length, Ltk;
      [rewrite w16_small; unfold l'; lia|lia]. }
  destruct (Nat.eqb_spec r 0) as [->|Hr0].
  - set (n := N.to_nat ((N.of_nat k + 7) / 8)).
    assert (Hn : k <= 8 * n /\ 8 * n < k + 8) by (unfold n; lia).
    clearbody n.
    destruct (rdn_spec value 0 n) as [Hrd _]; [lia|]. rewrite drop_0 in Hrd.
    destruct (cpy_rep d B' q (take n value) (take (8 * n) V) 0) as (d1 & Hc & HR1).
    { exact HR0. } { lia. } { rewrite take_length. lia. } { apply Forall_take, Hv. }
    { rewrite bytes_bits_take. cbn [zeros replicate]. rewrite app_nil_r. reflexivity. }
    rewrite mbind_assoc. erewrite mbind_ok by (apply upd_ok; rewrite Hrd; exact Hc).
    cbv beta.
    replace (N.of_nat k mod 8)%N with (N.of_nat (k mod 8)) by lia. rewrite of_nat_eqb0.
    destruct (Nat.eqb_spec (k mod 8) 0) as [Hm|Hm].
    + replace (8 * n) with k in HR1 by lia. apply FIN, HR1.
    + rewrite (take_split_le V k (8 * n)) in HR1 by lia. rewrite app_assoc in HR1.
      destruct (and_at_rep d1 (B' ++ take k V) (drop k (take (8 * n) V)) (q + n - 1) (k mod 8))
        as (d2 & Ha & HR2).
      { exact HR1. } { rewrite app_length, Ltk. lia. } { lia. }
      { rewrite drop_length, take_length. lia. } { rewrite app_length, Ltk. lia. }
      replace (N.of_nat (8 - k mod 8)) with (8 - N.of_nat (k mod 8))%N in Ha by lia.
      step Ha. apply FIN, HR2.
  - set (n := N.to_nat ((N.of_nat k + N.of_nat r + 7) / 8 - 1)).
    set (m := N.to_nat ((N.of_nat k + 7) / 8)).
    assert (Hn : k + r <= 8 * (n + 1) /\ 8 * (n + 1) < k + r + 8) by (unfold n; lia).
    assert (Hm : k <= 8 * m /\ 8 * m < k + 8) by (unfold m; lia).
    clearbody n m.
    destruct (raw_loop_rep n value 0 r q q d B') as (d1 & Hl & HR1).
    { rewrite take_0, app_nil_r. exact HR0. } { exact Hv. } { exact EB. } { lia. } { lia. }
    { lia. } { lia. }
    rewrite mbind_assoc. step Hl. rewrite Nat.add_0_l in HR1. fold V in HR1.
    assert (STEP2 : exists d2 mm, (if n <? m
                then upd (fun d => match rd value n with
                        | Some v => or_at d (q + n) (N.shiftr v (N.of_nat r))
                        | None => None
                        end) else mret tt) (mkB d1 l') = (Ok tt, mkB d2 l') /\
               rep d2 (B' ++ take mm V) /\ k <= mm /\ mm <= 8 * length value /\ mm + r <= 8 * (n + 1) /\
               ((r + k) mod 8 = 0 -> mm = k)).
    { destruct (Nat.ltb_spec n m) as [Hlt|Hge].
      - destruct (rd_spec value n) as (v & Hrd & Ev); [lia|]. fold V in Ev.
        assert (Hvok : byte_ok v) by (eapply Forall_lookup_1; [exact Hv|exact Hrd]).
        destruct (or_at_rep d1 (B' ++ take (8 * n) V) (q + n) r (N.shiftr v (N.of_nat r))
                (take (8 - r) (byte_bits v))) as (d2 & Ho & HR2).
        { exact HR1. } { rewrite app_length, take_length. lia. } { lia. }
        { rewrite app_length, take_length. lia. } { apply byte_ok_shiftr, Hvok. }
        { rewrite take_length, length_byte_bits. lia. }
        { rewrite byte_bits_shiftr by (try exact Hvok; lia). f_equal.
          rewrite take_length, length_byte_bits. replace (8 - r - _) with 0 by lia.
          cbn [zeros replicate]. rewrite app_nil_r. reflexivity. }
        exists d2, (8 * n + (8 - r)). split; [|split; [|lia]].
        + apply upd_ok. rewrite Hrd. exact Ho.
        + rewrite <- app_assoc in HR2. rewrite Ev in HR2. rewrite take_take in HR2.
          rewrite Nat.min_l in HR2 by lia. rewrite take_take_drop in HR2. exact HR2.
      - exists d1, (8 * n). split; [reflexivity|]. split; [exact HR1|]. lia. }
    destruct STEP2 as (d2 & mm & E2 & HR2 & Hmm1 & Hmm2 & Hmm3 & Hmm4).
    rewrite mbind_assoc. erewrite mbind_ok by exact E2. cbv beta.
    replace ((N.of_nat r + N.of_nat k) mod 8)%N with (N.of_nat ((r + k) mod 8)) by lia.
    rewrite of_nat_eqb0.
    destruct (Nat.eqb_spec ((r + k) mod 8) 0) as [Hz|Hz].
    + rewrite (Hmm4 Hz) in HR2. apply FIN, HR2.
    + rewrite (take_split_le V k mm) in HR2 by lia. rewrite app_assoc in HR2.
      destruct (and_at_rep d2 (B' ++ take k V) (drop k (take mm V)) (q + n) ((r + k) mod 8))
        as (d3 & Ha & HR3).
      { exact HR2. } { rewrite app_length, Ltk. lia. } { lia. }
      { rewrite drop_length, take_length. lia. } { rewrite app_length, Ltk. lia. }
      replace (N.of_nat (8 - (r + k) mod 8)) with (8 - N.of_nat ((r + k) mod 8))%N in Ha by lia.
      step Ha. apply FIN, HR3.
Qed.

Lemma store_ones_appends bits :
  (bits <= 64512)%N ->
  appends (store_ones bits)
    (zeros (N.to_nat bits - 1024) ++ replicate (Nat.min (N.to_nat bits) 1024) true).
Proof.
  intros Hb. unfold store_ones.
  replace (zeros (N.to_nat bits - 1024) ++ replicate (Nat.min (N.to_nat bits) 1024) true)
    with (raw_bits (replicate 128 255%N) (N.to_nat bits)).
  - apply store_raw_appends; [|vm_compute; discriminate|exact Hb].
    apply Forall_replicate. unfold byte_ok. lia.
  - unfold raw_bits. rewrite replicate_length. f_equal.
    replace (bytes_bits (replicate 128 255%N)) with (replicate 1024 true) by (vm_compute; reflexivity).
    rewrite take_replicate. reflexivity.
Qed.

(** *** prepend_raw *)

Lemma prepend_raw_spec value bits s B :
  Forall byte_ok value -> (N.of_nat (length value) <= 8191)%N -> (bits <= 64512)%N ->
  brep s B ->
  (length B + N.to_nat bits <= 1023 ->
     exists s', prepend_raw value bits s = (Ok tt, s') /\
                brep s' (raw_bits value (N.to_nat bits) ++ B)) /\
  (1023 < length B + N.to_nat bits -> prepend_raw value bits s = (Err CellOverflow, s)).
Proof.
  intros Hv Lv Hb HR. destruct s as [d l]. pose proof HR as HR0.
  destruct HR as (HR & HL & HB). cbn [bd bl] in *.
  unfold prepend_raw. destruct (N.eqb_spec bits 0) as [->|Hb0].
  - change (N.to_nat 0) with 0. split; [|lia]. intros _. eexists. split; [reflexivity|].
    replace (raw_bits value 0) with (@nil bool).
    + apply brep_mk; assumption.
    + symmetry. apply nil_length_inv. apply raw_bits_length.
  - rewrite get_bind. cbv beta. rewrite w16_small by lia. unfold MAX_BIT_LEN.
    destruct (N.leb_spec (l + bits) 1023) as [H|H]; split; intros H'; try lia; [|reflexivity].
    cbn [bd bl].
    destruct (store_raw_appends value bits Hv Lv Hb b_new [] brep_new) as [S1 _].
    destruct S1 as (s1 & E1 & R1); [rewrite raw_bits_length; cbn [length]; lia|].
    rewrite app_nil_l in R1.
    destruct HR as (Ld & Hd & kk & Ed).
    destruct (store_raw_appends d l Hd) with (s := s1) (B := raw_bits value (N.to_nat bits))
      as [S2 _]; [lia|lia|exact R1|].
    destruct S2 as (s2 & E2 & R2); [rewrite !raw_bits_length; lia|].
    erewrite mbind_ok by exact E1. rewrite E2.
    eexists. split; [reflexivity|].
    replace (raw_bits d (N.to_nat l)) with B in R2; [exact R2|].
    unfold raw_bits. rewrite Ld. replace (N.to_nat l - 8 * 128) with 0 by lia.
    cbn [zeros replicate app]. rewrite Ed, HL, Nat2N.id. rewrite take_app_alt by reflexivity.
    reflexivity.
Qed.

(** *** rewind_bits *)

Lemma bytes_bits_replicate0 n : bytes_bits (replicate n 0%N) = zeros (8 * n).
Proof.
  induction n as [|n IH]; [reflexivity|]. cbn [replicate]. rewrite bytes_bits_cons, IH.
  replace (8 * S n) with (8 + 8 * n) by lia. rewrite zeros_app. reflexivity.
Qed.

Lemma cpy_zero_rep d B X q n :
  rep d (B ++ X) -> length B = 8 * q -> length X <= 8 * n -> q + n <= 128 ->
  exists d', cpy d q (replicate n 0%N) = Some d' /\ rep d' B.
Proof.
  intros (L & Hd & k & E) LB HX Hq. pose proof (rep_len _ _ _ L E) as Hk.
  rewrite app_length in Hk.
  destruct (cpy_raw d B (X ++ zeros (8 * n - length X)) (zeros (k - (8 * n - length X))) q
              (replicate n 0%N)) as (d' & Hc & L' & Hd' & E').
  { rewrite E, <- !app_assoc, <- zeros_app. do 3 f_equal. lia. }
  { exact LB. } { rewrite app_length, length_zeros, replicate_length. lia. } { exact Hd. }
  { apply Forall_replicate. unfold byte_ok. lia. }
  exists d'. split; [exact Hc|]. split; [lia|]. split; [exact Hd'|].
  eexists. rewrite E', bytes_bits_replicate0, <- zeros_app. reflexivity.
Qed.

Lemma rewind_bits_spec bits s B :
  brep s B ->
  (N.to_nat bits <= length B ->
     exists s', rewind_bits bits s = (Ok tt, s') /\
                brep s' (take (length B - N.to_nat bits) B)) /\
  (length B < N.to_nat bits -> rewind_bits bits s = (Err CellUnderflow, s)).
Proof.
  intros HR. destruct s as [d l]. destruct HR as (HR & HL & HB). cbn [bd bl] in *.
  unfold rewind_bits. destruct (N.eqb_spec bits 0) as [->|Hb0].
  { change (N.to_nat 0) with 0. split; [|lia]. intros _. eexists. split; [reflexivity|].
    rewrite take_ge by lia. apply brep_mk; assumption. }
  rewrite !get_bind. cbv beta.
  destruct (N.ltb_spec l bits) as [H|H]; split; intros H'; try lia; [reflexivity|].
  set (m := length B - N.to_nat bits).
  assert (Hn : (l - bits)%N = N.of_nat m) by (unfold m; lia).
  assert (Ltk : length (take m B) = m) by (rewrite take_length; unfold m; lia).
  destruct (pos_split (l - bits) m Hn) as (q & r & Eq & Er & EB & Hr).
  rewrite Eq, Er, of_nat_eqb0.
  assert (FIN : forall d', rep d' (take m B) ->
            exists s', set_bl (l - bits) (mkB d' l) = (Ok tt, s') /\ brep s' (take m B)).
  { intros d' HR'. unfold set_bl. cbn [bd]. eexists. split; [reflexivity|].
    apply brep_mk; [exact HR'| |]; rewrite Ltk; unfold m in *; lia. }
  rewrite <- (take_drop m B) in HR.
  destruct (Nat.eqb_spec r 0) as [->|Hr0].
  - destruct (cpy_zero_rep d (take m B) (drop m B) q (N.to_nat ((bits + 7) / 8)))
      as (d' & Hc & HR').
    { exact HR. } { lia. } { rewrite drop_length. unfold m in *. lia. } { unfold m in *; lia. }
    step Hc. apply FIN, HR'.
  - destruct HR as (L & Hd & k & E). pose proof (rep_len _ _ _ L E) as Hk.
    rewrite take_drop in Hk. rewrite <- app_assoc in E.
    set (Y := drop m B) in *. assert (LY : length Y = N.to_nat bits).
    { unfold Y. rewrite drop_length. unfold m in *. lia. }
    destruct (app_split_at (Y ++ zeros k) (8 - r)) as (X & Q & EQ & LX).
    { rewrite app_length, length_zeros. unfold m in *. lia. }
    rewrite EQ in E.
    destruct (and_at_raw d (take m B) X Q q r E) as (d1 & Ha & L1 & Hd1 & E1);
      [lia|lia|exact LX|exact Hd|].
    assert (HQ : length Q + (8 - r) = N.to_nat bits + k).
    { apply (f_equal length) in EQ. rewrite !app_length, length_zeros in EQ. lia. }
    (* what is left of the old bits after the masked byte *)
    assert (EQ2 : Q = drop (8 - r) Y ++ zeros (k - ((8 - r) - N.to_nat bits))).
    { apply (f_equal (drop (8 - r))) in EQ. rewrite (drop_app_alt X Q) in EQ by lia.
      rewrite <- EQ. destruct (Nat.le_gt_cases (8 - r) (length Y)) as [G|G].
      - rewrite drop_app_le by exact G. do 2 f_equal. lia.
      - rewrite drop_app_ge by lia. rewrite (drop_ge Y) by lia. rewrite app_nil_l.
        unfold zeros. rewrite drop_replicate. f_equal. lia. }
    destruct (cpy_zero_rep d1 (take m B ++ zeros (8 - r)) (drop (8 - r) Y) (q + 1)
                (N.to_nat ((bits - (8 - N.of_nat r) + 7) / 8))) as (d2 & Hc & HR2).
    { split; [lia|]. split; [exact Hd1|].
      eexists. rewrite E1, EQ2. rewrite <- !app_assoc. reflexivity. }
    { rewrite app_length, length_zeros. lia. }
    { rewrite drop_length. lia. }
    { unfold m in *. lia. }
    assert (HRm : rep d2 (take m B)).
    { destruct HR2 as (L2 & Hd2 & k2 & E2). split; [exact L2|]. split; [exact Hd2|].
      eexists. rewrite E2, <- app_assoc, <- zeros_app. reflexivity. }
    replace (N.of_nat (8 - r)) with (8 - N.of_nat r)%N in Ha by lia.
    rewrite mbind_assoc. step Ha. step Hc. apply FIN, HRm.
Qed.
