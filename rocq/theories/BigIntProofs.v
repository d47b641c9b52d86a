(** * Big integers *)
From Verif Require Import Err BitsProofs BufProofs BuilderModel BuilderProofs SliceModel SliceSpec SliceProofs SliceCmpProofs
  CellBuilderModel BuilderSpec CellBuilderProofs IntProofs BigIntModel BigIntSpec.
Local Open Scope nat_scope.
Ltac Zify.zify_post_hook ::= Z.div_mod_to_equations.

Lemma length_zbits w x : length (zbits w x) = w.
Proof. apply length_nbits. Qed.

Lemma zmod_pow_bits x w j : (0 <= j < w)%Z -> Z.testbit (x mod 2 ^ w) j = Z.testbit x j.
Proof. intros H. apply Z.mod_pow2_bits_low. lia. Qed.

Lemma zbits_lookup w x i : i < w -> zbits w x !! i = Some (Z.testbit x (Z.of_nat (w - 1 - i))).
Proof.
  intros H. unfold zbits. rewrite nbits_lookup by exact H. f_equal.
  rewrite <- (Z.mod_pow2_bits_low x (Z.of_nat w)) by lia.
  assert (0 <= x mod 2 ^ Z.of_nat w)%Z by (apply Z.mod_pos_bound, Z.pow_pos_nonneg; lia).
  rewrite <- (Z2N.id (x mod 2 ^ Z.of_nat w)) at 2 by assumption.
  rewrite <- (nat_N_Z (w - 1 - i)), Z.testbit_of_N. reflexivity.
Qed.

Lemma zbits_app a b x : zbits (a + b) x = zbits a (Z.shiftr x (Z.of_nat b)) ++ zbits b x.
Proof.
  apply list_eq_bounded; [rewrite app_length, !length_zbits; reflexivity|].
  intros i Hi. rewrite length_zbits in Hi. rewrite zbits_lookup by exact Hi.
  destruct (Nat.lt_ge_cases i a) as [H|H].
  - rewrite lookup_app_l by (rewrite length_zbits; exact H). rewrite zbits_lookup by exact H. f_equal.
    rewrite Z.shiftr_spec by lia. f_equal. lia.
  - rewrite lookup_app_r by (rewrite length_zbits; exact H). rewrite length_zbits, zbits_lookup by lia.
    f_equal. f_equal. lia.
Qed.

Lemma zbits_shiftl a b x : zbits (a + b) (Z.shiftl x (Z.of_nat b)) = zbits a x ++ zeros b.
Proof.
  rewrite zbits_app. f_equal.
  - f_equal. rewrite Z.shiftr_shiftl_l by lia. rewrite Z.sub_diag. apply Z.shiftl_0_r.
  - apply list_eq_bounded; [rewrite length_zbits, length_zeros; reflexivity|].
    intros i Hi. rewrite length_zbits in Hi. rewrite zbits_lookup by exact Hi.
    rewrite Z.shiftl_spec_low by lia. unfold zeros. rewrite lookup_replicate_2 by exact Hi. reflexivity.
Qed.

Lemma zbits_0 w : zbits w 0 = zeros w.
Proof. unfold zbits. rewrite Z.mod_0_l by (apply Z.pow_nonzero; lia). apply nbits_zero. Qed.
Lemma zbits_m1 w : zbits w (-1) = replicate w true.
Proof.
  apply list_eq_bounded; [rewrite length_zbits, replicate_length; reflexivity|].
  intros i Hi. rewrite length_zbits in Hi. rewrite zbits_lookup by exact Hi.
  rewrite lookup_replicate_2 by exact Hi. f_equal. apply Z.bits_m1. lia.
Qed.

Lemma zbits_nbits w v : zbits w (Z.of_N v) = nbits w v.
Proof.
  unfold zbits. rewrite <- (nbits_mod w w v) by lia. f_equal.
  rewrite <- (N2Z.id (v mod 2 ^ N.of_nat w)). f_equal. rewrite N2Z.inj_mod, N2Z.inj_pow, nat_N_Z. reflexivity.
Qed.

Lemma zbits_to_be n x : bytes_bits (to_be n (Z.to_N (x mod 2 ^ (8 * Z.of_nat n)))) = zbits (8 * n) x.
Proof. rewrite bytes_bits_to_be. unfold zbits. do 3 f_equal. lia. Qed.

(** ** The shortest signed form *)
Lemma size_lt (v : N) (k : N) : (v < 2 ^ k <-> N.size v <= k)%N.
Proof.
  destruct (N.eq_dec v 0) as [->|H]; [cbn; split; [lia|intros _; apply N.neq_0_lt_0, N.pow_nonzero; lia]|].
  rewrite N.size_log2 by exact H. rewrite N.log2_lt_pow2 by lia. lia.
Qed.

Lemma signed_len_range x : let n := signed_len x in
  (- 2 ^ (8 * Z.of_nat n - 1) <= x < 2 ^ (8 * Z.of_nat n - 1))%Z.
Proof.
  cbv zeta. unfold signed_len. set (y := if (0 <=? x)%Z then x else (- x - 1)%Z).
  set (n := (N.size (Z.to_N y) / 8 + 1)%N).
  assert (H : (Z.to_N y < 2 ^ (8 * n - 1))%N) by (apply size_lt; unfold n; lia).
  apply N2Z.inj_lt in H. rewrite N2Z.inj_pow in H.
  replace (Z.of_N (8 * n - 1)) with (8 * Z.of_nat (N.to_nat n) - 1)%Z in H by (unfold n; lia).
  change (Z.of_N 2) with 2%Z in H. unfold y in *. destruct (Z.leb_spec 0 x); lia.
Qed.

Lemma shiftr_small x n : (0 <= n)%Z -> (- 2 ^ n <= x < 2 ^ n)%Z -> Z.shiftr x n = if (x <? 0)%Z then (-1)%Z else 0%Z.
Proof.
  intros Hn H. rewrite Z.shiftr_div_pow2 by exact Hn. assert (0 < 2 ^ n)%Z by (apply Z.pow_pos_nonneg; lia).
  destruct (Z.ltb_spec x 0).
  - symmetry. apply (Z.div_unique_pos _ _ _ (x + 2 ^ n)); lia.
  - apply Z.div_small. lia.
Qed.

Lemma zbits_extend k n x : 0 < n -> (- 2 ^ (Z.of_nat n - 1) <= x < 2 ^ (Z.of_nat n - 1))%Z ->
  zbits (k + n) x = replicate k (x <? 0)%Z ++ zbits n x.
Proof.
  intros Hn H. rewrite zbits_app. f_equal.
  rewrite shiftr_small; [|lia|].
  2:{ assert (2 ^ Z.of_nat n = 2 * 2 ^ (Z.of_nat n - 1))%Z by (rewrite <- Z.pow_succ_r by lia; f_equal; lia).
      assert (0 < 2 ^ (Z.of_nat n - 1))%Z by (apply Z.pow_pos_nonneg; lia). lia. }
  destruct (x <? 0)%Z; [apply zbits_m1|apply zbits_0].
Qed.

Lemma zbits_head n x : 0 < n -> zbits n x !! 0 = Some (Z.testbit x (Z.of_nat n - 1)).
Proof. intros H. rewrite zbits_lookup by exact H. do 2 f_equal. lia. Qed.

Lemma sign_bit n x : 0 < n -> (- 2 ^ (Z.of_nat n - 1) <= x < 2 ^ (Z.of_nat n - 1))%Z ->
  Z.testbit x (Z.of_nat n - 1) = (x <? 0)%Z.
Proof.
  intros Hn H. rewrite Z.testbit_odd. rewrite shiftr_small by lia. destruct (x <? 0)%Z; reflexivity.
Qed.

(** ** Resizing little-endian bytes *)
Lemma rev_resize m p (L : list N) :
  rev (resize m p (rev L)) = replicate (m - length L) p ++ drop (length L - m) L.
Proof.
  unfold resize. rewrite rev_app_distr, rev_length.
  assert (HR : forall k, rev (replicate k p) = replicate k p).
  { intros k. rewrite rev_alt. apply reverse_replicate. }
  rewrite HR. f_equal. rewrite <- (rev_involutive (drop (length L - m) L)). f_equal.
  rewrite <- (take_drop (length L - m) L) at 1. rewrite rev_app_distr.
  destruct (Nat.le_gt_cases m (length L)) as [H|H].
  - apply take_app_alt. rewrite rev_length, drop_length. lia.
  - replace (length L - m) with 0 by lia. rewrite drop_0. cbn [take rev]. rewrite app_nil_r.
    apply take_ge. rewrite rev_length. lia.
Qed.

Lemma bytes_bits_replicate255 k : bytes_bits (replicate k 255%N) = replicate (8 * k) true.
Proof.
  induction k as [|k IH]; [reflexivity|]. cbn [replicate]. rewrite bytes_bits_cons, IH.
  replace (8 * S k) with (8 + 8 * k) by lia. rewrite replicate_add. reflexivity.
Qed.

Lemma bytes_bits_drop k bs : bytes_bits (drop k bs) = drop (8 * k) (bytes_bits bs).
Proof.
  destruct (Nat.le_gt_cases k (length bs)) as [H|H].
  - rewrite <- (take_drop k bs) at 2. rewrite bytes_bits_app, drop_app_alt; [reflexivity|].
    rewrite length_bytes_bits, take_length. lia.
  - rewrite !drop_ge; [reflexivity|rewrite length_bytes_bits; lia|lia].
Qed.

Definition signed_prefix (l : list N) : N :=
  match list.last l with Some b => (N.shiftr b 7 * 255)%N | None => 0%N end.

Lemma signed_resize_bits x m :
  let bytes := to_signed_bytes_le x in
  bytes_bits (rev (resize m (signed_prefix bytes) bytes)) = zbits (8 * m) x /\
  Forall byte_ok (rev (resize m (signed_prefix bytes) bytes)) /\
  length (rev (resize m (signed_prefix bytes) bytes)) = m.
Proof.
  cbv zeta. unfold to_signed_bytes_le. set (n := signed_len x). pose proof (signed_len_range x) as HR.
  cbv zeta in HR. fold n in HR.
  assert (Hn : 1 <= n) by (unfold n, signed_len; lia).
  set (L := to_be n (Z.to_N (x mod 2 ^ (8 * Z.of_nat n)))).
  assert (LL : length L = n) by apply to_be_length.
  assert (BL : bytes_bits L = zbits (8 * n) x) by apply zbits_to_be.
  assert (OL : Forall byte_ok L) by apply to_be_ok.
  assert (HP : signed_prefix (rev L) = if (x <? 0)%Z then 255%N else 0%N).
  { destruct L as [|b L'] eqn:EL; [cbn in LL; lia|]. unfold signed_prefix. cbn [rev].
    rewrite last_snoc.
    assert (Hb : byte_ok b) by (inversion OL; assumption).
    assert (T : N.testbit b 7 = (x <? 0)%Z).
    { pose proof (zbits_head (8 * n) x ltac:(lia)) as Q. rewrite <- BL, bytes_bits_cons in Q.
      rewrite lookup_app_l in Q by (rewrite length_byte_bits; lia). unfold byte_bits in Q.
      rewrite nbits_lookup in Q by lia. injection Q as Q. etransitivity; [exact Q|].
      apply (sign_bit (8 * n)); [lia|]. replace (Z.of_nat (8 * n) - 1)%Z with (8 * Z.of_nat n - 1)%Z by lia. exact HR. }
    rewrite <- T. rewrite N.testbit_odd. unfold byte_ok in Hb.
    assert (Hs : (N.shiftr b 7 = 0 \/ N.shiftr b 7 = 1)%N).
    { rewrite N.shiftr_div_pow2. change (2 ^ 7)%N with 128%N. lia. }
    destruct Hs as [-> | ->]; reflexivity. }
  rewrite HP, rev_resize, LL.
  split; [|split].
  - rewrite bytes_bits_app, bytes_bits_drop, BL.
    destruct (Nat.le_gt_cases m n) as [H|H].
    + replace (m - n) with 0 by lia. cbn [replicate app bytes_bits map concat].
      replace (8 * n) with (8 * (n - m) + 8 * m) by lia. rewrite zbits_app, drop_app_alt; [reflexivity|].
      rewrite length_zbits. reflexivity.
    + replace (n - m) with 0 by lia. rewrite drop_0.
      replace (8 * m) with (8 * (m - n) + 8 * n) by lia. rewrite zbits_extend; [|lia|].
      2:{ replace (Z.of_nat (8 * n) - 1)%Z with (8 * Z.of_nat n - 1)%Z by lia. exact HR. }
      f_equal. destruct (x <? 0)%Z; [apply bytes_bits_replicate255|apply bytes_bits_replicate0].
  - apply Forall_app. split; [|apply Forall_drop, OL]. apply Forall_replicate.
    destruct (x <? 0)%Z; reflexivity.
  - rewrite app_length, replicate_length, drop_length, LL. lia.
Qed.

Lemma unsigned_resize_bits (x : N) m :
  bytes_bits (rev (resize m 0 (to_bytes_le x))) = zbits (8 * m) (Z.of_N x) /\
  Forall byte_ok (rev (resize m 0 (to_bytes_le x))) /\
  length (rev (resize m 0 (to_bytes_le x))) = m.
Proof.
  unfold to_bytes_le. set (n := N.to_nat (N.max 1 ((N.size x + 7) / 8))).
  assert (Hx : (x < 2 ^ N.of_nat (8 * n))%N) by (apply size_lt; unfold n; lia).
  rewrite rev_resize, to_be_length. rewrite zbits_nbits. split; [|split].
  - rewrite bytes_bits_app, bytes_bits_drop, bytes_bits_replicate0, bytes_bits_to_be.
    destruct (Nat.le_gt_cases m n) as [H|H].
    + replace (m - n) with 0 by lia. change (zeros (8 * 0)) with (@nil bool). rewrite app_nil_l.
      replace (8 * n) with (8 * (n - m) + 8 * m) by lia. rewrite nbits_app, drop_app_alt; [reflexivity|].
      rewrite length_nbits. reflexivity.
    + replace (n - m) with 0 by lia. rewrite drop_0. rewrite (nbits_small (8 * m) (8 * n)) by (exact Hx || lia).
      do 2 f_equal. lia.
  - apply Forall_app. split; [apply Forall_replicate; reflexivity|apply Forall_drop, to_be_ok].
  - rewrite app_length, replicate_length, drop_length, to_be_length. lia.
Qed.

(** ** Stores *)
Lemma align_bits (bits : N) : N.to_nat bits + N.to_nat (align_of bits) = 8 * N.to_nat ((bits + 7) / 8).
Proof. unfold align_of. destruct (N.eqb_spec (bits mod 8) 0); lia. Qed.

Lemma raw_of_aligned bytes (bits : N) x :
  bytes_bits bytes = zbits (8 * N.to_nat ((bits + 7) / 8)) (Z.shiftl x (Z.of_N (align_of bits))) ->
  length bytes = N.to_nat ((bits + 7) / 8) ->
  raw_bits bytes (N.to_nat bits) = zbits (N.to_nat bits) x.
Proof.
  intros E L. unfold raw_bits. rewrite L, E. replace (N.to_nat bits - _) with 0 by lia. cbn [zeros replicate app].
  rewrite <- align_bits. rewrite <- N_nat_Z, zbits_shiftl. apply take_app_alt. rewrite length_zbits. reflexivity.
Qed.

Lemma to_u64_spec x : match to_u64 x with Some v => Z.of_N v = x /\ (v < 2 ^ 64)%N | None => ~ (0 <= x < 2 ^ 64)%Z end.
Proof.
  unfold to_u64. destruct (Z.leb_spec 0 x); cbn [andb]; [|lia].
  destruct (Z.ltb_spec x (2 ^ 64)); cbn [andb]; [|lia].
  split; [lia|]. apply N2Z.inj_lt. rewrite Z2N.id by lia. exact H0.
Qed.

Lemma store_bigint_truncate_appends x bits signed :
  (bits <= 64512)%N -> (signed = true \/ (0 <= x)%Z) ->
  appends (store_bigint_truncate x bits signed) (zbits (N.to_nat bits) x).
Proof.
  intros Hb Hx. unfold store_bigint_truncate. pose proof (to_u64_spec x) as H64. destruct (to_u64 x) as [v|].
  - destruct H64 as [<- Hv]. rewrite zbits_nbits. apply store_uint_appends; assumption.
  - destruct signed.
    + destruct (signed_resize_bits (Z.shiftl x (Z.of_N (align_of bits))) (N.to_nat ((bits + 7) / 8))) as (A & B & C).
      fold (signed_prefix (to_signed_bytes_le (Z.shiftl x (Z.of_N (align_of bits))))).
      rewrite <- (raw_of_aligned _ bits x A C). apply store_raw_appends; [exact B|lia|exact Hb].
    + destruct Hx as [Hx|Hx]; [discriminate|].
      assert (E : Z.of_N (Z.abs_N (Z.shiftl x (Z.of_N (align_of bits)))) = Z.shiftl x (Z.of_N (align_of bits))).
      { rewrite N2Z.inj_abs_N. apply Z.abs_eq. apply Z.shiftl_nonneg. exact Hx. }
      destruct (unsigned_resize_bits (Z.abs_N (Z.shiftl x (Z.of_N (align_of bits)))) (N.to_nat ((bits + 7) / 8))) as (A & B & C).
      rewrite E in A.
      rewrite <- (raw_of_aligned _ bits x A C). apply store_raw_appends; [exact B|lia|exact Hb].
Qed.

Lemma store_biguint_truncate_appends x bits :
  (bits <= 64512)%N -> appends (store_biguint_truncate x bits) (zbits (N.to_nat bits) (Z.of_N x)).
Proof.
  intros Hb. unfold store_biguint_truncate. pose proof (to_u64_spec (Z.of_N x)) as H64. destruct (to_u64 (Z.of_N x)) as [v|].
  - destruct H64 as [E Hv]. rewrite <- E, zbits_nbits. apply store_uint_appends; assumption.
  - destruct (unsigned_resize_bits (N.shiftl x (align_of bits)) (N.to_nat ((bits + 7) / 8))) as (A & B & C).
    replace (Z.of_N (N.shiftl x (align_of bits))) with (Z.shiftl (Z.of_N x) (Z.of_N (align_of bits))) in A.
    2:{ rewrite N.shiftl_mul_pow2, Z.shiftl_mul_pow2 by lia. rewrite N2Z.inj_mul, N2Z.inj_pow. reflexivity. }
    rewrite <- (raw_of_aligned _ bits (Z.of_N x) A C). apply store_raw_appends; [exact B|lia|exact Hb].
Qed.

(** ** [bitsize] decides whether the value fits *)
Lemma zsize_lt x (k : N) : (Z.abs x < 2 ^ Z.of_N k)%Z <-> (zsize x <= k)%N.
Proof.
  unfold zsize. rewrite <- size_lt. rewrite <- N2Z.inj_abs_N. rewrite N2Z.inj_lt, N2Z.inj_pow. reflexivity.
Qed.

Lemma zsize_65000 x : (Z.abs x < 2 ^ 65000)%Z -> (zsize x <= 65000)%N.
Proof. exact (proj1 (zsize_lt x 65000%N)). Qed.
Lemma zsize_64000 x : (Z.abs x < 2 ^ 64000)%Z -> (zsize x <= 64000)%N.
Proof. exact (proj1 (zsize_lt x 64000%N)). Qed.

Lemma bitsize_fits x bits signed :
  (zsize x <= 65000)%N -> (signed = true \/ (0 <= x)%Z) ->
  (bitsize x signed <= bits)%N <-> fits_in x bits signed.
Proof.
  intros HS Hs. unfold bitsize. rewrite (w16_small (zsize x)) by lia. unfold fits_in.
  destruct signed.
  - assert (Hhalf : (0 < bits)%N -> Z.of_N (bits - 1) = (Z.of_N bits - 1)%Z) by lia.
    destruct x as [|p|p].
    + cbn. split; [auto|lia].
    + rewrite w16_small by lia. split.
      * intros H. right. split; [lia|]. assert (Q : (zsize (Zpos p) <= bits - 1)%N) by lia.
        apply zsize_lt in Q. rewrite Hhalf in Q by lia. lia.
      * intros [H|[H1 H2]]; [discriminate|]. assert (Q : (zsize (Zpos p) <= bits - 1)%N).
        { apply zsize_lt. rewrite Hhalf by lia. lia. }
        lia.
    + assert (HZ : (zsize (Zneg p) = N.log2 (N.pos p) + 1)%N).
      { unfold zsize. cbn [Z.abs_N]. rewrite N.size_log2 by lia. lia. }
      assert (HL : (2 ^ N.log2 (N.pos p) <= N.pos p)%N) by (apply N.log2_spec; lia).
      destruct (N.eqb_spec (N.pos p) (2 ^ N.log2 (N.pos p))) as [E|E].
      * split.
        -- intros H. right. split; [lia|]. assert (Q : (N.pos p <= 2 ^ (bits - 1))%N).
           { rewrite E. apply N.pow_le_mono_r; lia. }
           apply N2Z.inj_le in Q. rewrite N2Z.inj_pow, Hhalf in Q by lia. change (Z.of_N 2) with 2%Z in Q.
           assert (0 < 2 ^ (Z.of_N bits - 1))%Z by (apply Z.pow_pos_nonneg; lia). lia.
        -- intros [H|[H1 H2]]; [discriminate|].
           assert (Q : (N.pos p <= 2 ^ (bits - 1))%N).
           { apply N2Z.inj_le. rewrite N2Z.inj_pow, Hhalf by lia. change (Z.of_N 2) with 2%Z. lia. }
           rewrite E in Q. apply N.pow_le_mono_r_iff in Q; lia.
      * rewrite w16_small by lia. split.
        -- intros H. right. split; [lia|]. assert (Q : (zsize (Zneg p) <= bits - 1)%N) by lia.
           apply zsize_lt in Q. rewrite Hhalf in Q by lia. lia.
        -- intros [H|[H1 H2]]; [discriminate|].
           assert (Q : (N.pos p <= 2 ^ (bits - 1))%N).
           { apply N2Z.inj_le. rewrite N2Z.inj_pow, Hhalf by lia. change (Z.of_N 2) with 2%Z. lia. }
           rewrite HZ. assert (N.log2 (N.pos p) < bits - 1)%N; [|lia].
           apply N.nle_gt. intros G. apply E. apply N.le_antisymm; [|exact HL].
           eapply N.le_trans; [exact Q|]. apply N.pow_le_mono_r; lia.
  - destruct Hs as [Hs|Hs]; [discriminate|]. rewrite <- zsize_lt. lia.
Qed.

Lemma ubitsize_fits x bits signed :
  (N.size x <= 65000)%N -> (ubitsize x signed <= bits)%N <-> fits_in (Z.of_N x) bits signed.
Proof.
  intros HX. transitivity (bitsize (Z.of_N x) signed <= bits)%N.
  - unfold ubitsize, bitsize, zsize. rewrite Zabs2N.id. rewrite (w16_small (N.size x)) by lia.
    destruct x as [|p]; cbn [Z.of_N].
    + cbn. destruct signed; reflexivity.
    + assert (N.size (N.pos p) <> 0)%N by (cbn; lia). destruct (N.eqb_spec (N.size (N.pos p)) 0); [lia|].
      cbn [negb]. rewrite andb_true_r. reflexivity.
  - apply bitsize_fits; [|right; lia]. unfold zsize. rewrite Zabs2N.id. exact HX.
Qed.

(** ** Loads *)
Lemma bval_zbits_bound (X : list bool) : (0 <= Z.of_N (bval X) < 2 ^ Z.of_nat (length X))%Z.
Proof.
  pose proof (bval_lt X) as H. apply N2Z.inj_lt in H. rewrite N2Z.inj_pow, nat_N_Z in H. lia.
Qed.

(** Value of a bit string read as a two's complement number. *)
Definition sval (X : list bool) : Z :=
  match X with
  | [] => 0%Z
  | b :: _ => if b then (Z.of_N (bval X) - 2 ^ Z.of_nat (length X))%Z else Z.of_N (bval X)
  end.

Lemma sval_zbits w x : 0 < w -> (- 2 ^ (Z.of_nat w - 1) <= x < 2 ^ (Z.of_nat w - 1))%Z -> sval (zbits w x) = x.
Proof.
  intros Hw H. pose proof (zbits_head w x Hw) as HH. rewrite sign_bit in HH by assumption.
  assert (HV : Z.of_N (bval (zbits w x)) = (x mod 2 ^ Z.of_nat w)%Z).
  { unfold zbits. assert (0 <= x mod 2 ^ Z.of_nat w < 2 ^ Z.of_nat w)%Z by (apply Z.mod_pos_bound, Z.pow_pos_nonneg; lia).
    rewrite bval_nbits_small; [lia|]. apply N2Z.inj_lt. rewrite N2Z.inj_pow, nat_N_Z. rewrite Z2N.id by lia. apply H0. }
  unfold sval. pose proof (length_zbits w x) as L. destruct (zbits w x) as [|b X] eqn:E; [cbn in L; lia|].
  cbn in HH. injection HH as ->. rewrite L, HV.
  assert (2 ^ Z.of_nat w = 2 * 2 ^ (Z.of_nat w - 1))%Z by (rewrite <- Z.pow_succ_r by lia; f_equal; lia).
  destruct (Z.ltb_spec x 0).
  - assert (x mod 2 ^ Z.of_nat w = x + 2 ^ Z.of_nat w)%Z by (symmetry; apply (Z.mod_unique _ _ (-1)%Z); lia). lia.
  - apply Z.mod_small. lia.
Qed.

Lemma uval_zbits w x : (0 <= x < 2 ^ Z.of_nat w)%Z -> Z.of_N (bval (zbits w x)) = x.
Proof.
  intros H. unfold zbits. rewrite Z.mod_small by exact H. rewrite bval_nbits_small; [lia|].
  apply N2Z.inj_lt. rewrite N2Z.inj_pow, nat_N_Z, Z2N.id by lia. apply H.
Qed.

(** Sign extension of the n-bit load (slice.rs:1572-1577). *)
Lemma sign_extend64 X : 0 < length X <= 64 ->
  let bits := N.of_nat (length X) in
  let v := bval X in
  let v := if (bits <? 64)%N
           then N.lor v (shl 64 (N.shiftr v (bits - 1) * (2 ^ 64 - 1) mod 2 ^ 64) (bits - 1)) else v in
  as_i64 v = sval X.
Proof.
  intros H. cbv zeta. destruct X as [|b X']; [cbn in H; lia|]. cbn [length] in H.
  set (n := length X') in *. cbn [length]. fold n.
  assert (HV : bval (b :: X') = (N.b2n b * 2 ^ N.of_nat n + bval X')%N) by apply bval_cons.
  pose proof (bval_lt X') as HX. fold n in HX.
  assert (Hp : (2 ^ Z.of_nat (S n) = 2 * 2 ^ Z.of_nat n)%Z) by (rewrite <- Z.pow_succ_r by lia; f_equal; lia).
  assert (Hc : Z.of_N (2 ^ N.of_nat n) = (2 ^ Z.of_nat n)%Z) by (rewrite N2Z.inj_pow, nat_N_Z; reflexivity).
  unfold sval. cbn [length]. fold n.
  destruct (N.ltb_spec (N.of_nat (S n)) 64) as [G|G].
  - replace (N.of_nat (S n) - 1)%N with (N.of_nat n) by lia.
    assert (HS : N.shiftr (bval (b :: X')) (N.of_nat n) = N.b2n b).
    { rewrite HV, N.shiftr_div_pow2. rewrite N.div_add_l by (apply N.pow_nonzero; lia).
      rewrite N.div_small by exact HX. lia. }
    rewrite HS. destruct b; cbn [N.b2n] in *.
    + (* all high bits become ones *)
      assert (HF : N.lor (bval (true :: X')) (shl 64 (1 * (2 ^ 64 - 1) mod 2 ^ 64) (N.of_nat n)) =
                   (2 ^ 64 - 2 ^ N.of_nat n + bval X')%N).
      { apply N.bits_inj. intros i.
        rewrite N.lor_spec. change (1 * (2 ^ 64 - 1) mod 2 ^ 64)%N with (N.ones 64). unfold shl.
        assert (ER : (2 ^ 64 - 2 ^ N.of_nat n + bval X' = N.shiftl (N.ones (64 - N.of_nat n)) (N.of_nat n) + bval X')%N).
        { f_equal. rewrite N.shiftl_mul_pow2, N.ones_equiv, <- N.sub_1_r, N.mul_sub_distr_r, <- N.pow_add_r, N.mul_1_l.
          do 2 f_equal. lia. }
        rewrite ER. rewrite N.add_nocarry_lxor.
        2:{ apply N.bits_inj. intros j. rewrite N.land_spec, N.bits_0.
            destruct (N.lt_ge_cases j (N.of_nat n)) as [J|J].
            - rewrite N.shiftl_spec_low by exact J. reflexivity.
            - rewrite (bits_high_lt (bval X') (N.of_nat n)) by (exact HX || exact J). apply andb_false_r. }
        rewrite N.lxor_spec.
        destruct (N.lt_ge_cases i (N.of_nat n)) as [I|I].
        - rewrite (N.shiftl_spec_low _ (N.of_nat n)) by exact I. rewrite xorb_false_l.
          destruct (N.lt_ge_cases i 64) as [I6|I6].
          + rewrite N.mod_pow2_bits_low by exact I6. rewrite N.shiftl_spec_low by exact I. rewrite orb_false_r.
            rewrite HV. rewrite N.mul_1_l. rewrite <- (N.mod_pow2_bits_low _ (N.of_nat n)) by exact I.
            rewrite <- (N.mul_1_l (2 ^ _)%N) at 1. rewrite N.add_comm, N.mod_add by (apply N.pow_nonzero; lia).
            rewrite N.mod_small by exact HX. reflexivity.
          + lia.
        - rewrite (bits_high_lt (bval X') (N.of_nat n)) by assumption. rewrite xorb_false_r.
          rewrite N.shiftl_spec_high' by exact I.
          destruct (N.lt_ge_cases i 64) as [I6|I6].
          + rewrite N.mod_pow2_bits_low by exact I6. rewrite N.shiftl_spec_high' by exact I.
            rewrite !N.ones_spec_low by lia. apply orb_true_r.
          + rewrite N.mod_pow2_bits_high by exact I6. rewrite N.ones_spec_high by lia. rewrite orb_false_r.
            apply (bits_high_lt _ (N.of_nat (S n))); [|lia].
            pose proof (bval_lt (true :: X')) as Q. exact Q. }
      rewrite HF. unfold as_i64.
      assert (2 ^ N.of_nat n <= 2 ^ 62)%N by (apply N.pow_le_mono_r; lia).
      assert (2 ^ 62 + 2 ^ 62 = 2 ^ 63)%N by reflexivity. assert (2 ^ 63 + 2 ^ 63 = 2 ^ 64)%N by reflexivity.
      destruct (N.ltb_spec (2 ^ 64 - 2 ^ N.of_nat n + bval X') (2 ^ 63)); [lia|].
      rewrite HV. lia.
    + change (0 * (2 ^ 64 - 1) mod 2 ^ 64)%N with 0%N.
      assert (HZ : shl 64 0 (N.of_nat n) = 0%N) by (unfold shl; rewrite N.shiftl_0_l; reflexivity).
      rewrite HZ, N.lor_0_r. unfold as_i64. rewrite HV.
      assert (2 ^ N.of_nat n <= 2 ^ 62)%N by (apply N.pow_le_mono_r; lia).
      assert (2 ^ 62 + 2 ^ 62 = 2 ^ 63)%N by reflexivity.
      destruct (N.ltb_spec (0 * 2 ^ N.of_nat n + bval X') (2 ^ 63)); lia.
  - assert (n = 63) as En by lia. clearbody n. subst n. unfold as_i64. rewrite HV in *.
    change (N.of_nat 63) with 63%N in *. change (2 ^ Z.of_nat 64)%Z with (2 ^ 64)%Z.
    destruct b; cbn [N.b2n] in *.
    + destruct (N.ltb_spec (1 * 2 ^ 63 + bval X') (2 ^ 63)); lia.
    + destruct (N.ltb_spec (0 * 2 ^ 63 + bval X') (2 ^ 63)); lia.
Qed.

Lemma shift_exact v e : (0 <= e)%Z -> Z.shiftr (v * 2 ^ e) e = v.
Proof. intros H. rewrite Z.shiftr_div_pow2 by exact H. apply Z.div_mul. apply Z.pow_nonzero; lia. Qed.

Lemma from_be_pack X : from_be (pack X) = (bval X * 2 ^ N.of_nat (8 * ((length X + 7) / 8) - length X))%N.
Proof.
  rewrite from_be_bval by apply pack_ok. rewrite bytes_bits_pack, bval_app, bval_zeros, length_zeros, length_pack. lia.
Qed.

Lemma from_signed_pack X : X <> [] ->
  from_signed_bytes_be (pack X) = (sval X * 2 ^ Z.of_nat (8 * ((length X + 7) / 8) - length X))%Z.
Proof.
  intros HX. unfold from_signed_bytes_be. pose proof (bytes_bits_pack X) as E. pose proof (length_pack X) as L.
  rewrite from_be_pack. rewrite L. set (e := 8 * ((length X + 7) / 8) - length X) in *.
  destruct (pack X) as [|b P] eqn:EP.
  { destruct X; [congruence|]. cbn [length] in L. lia. }
  assert (Hb : byte_ok b) by (pose proof (pack_ok X) as Q; rewrite EP in Q; inversion Q; assumption).
  destruct X as [|x X']; [congruence|].
  rewrite bytes_bits_cons in E. 
  assert (T : N.testbit b 7 = x).
  { assert (Q : (byte_bits b ++ bytes_bits P) !! 0 = Some x) by (rewrite E; reflexivity).
    rewrite lookup_app_l in Q by (rewrite length_byte_bits; lia). unfold byte_bits in Q.
    rewrite nbits_lookup in Q by lia. injection Q as Q. exact Q. }
  assert (HB : (128 <=? b)%N = x).
  { rewrite <- T, N.testbit_odd, N.shiftr_div_pow2. change (2 ^ 7)%N with 128%N. unfold byte_ok in Hb.
    destruct (N.leb_spec 128 b).
    - replace (b / 128)%N with 1%N by lia. reflexivity.
    - replace (b / 128)%N with 0%N by lia. reflexivity. }
  rewrite HB. unfold sval. rewrite N2Z.inj_mul, N2Z.inj_pow, nat_N_Z. change (Z.of_N 2) with 2%Z.
  destruct x; [|reflexivity]. rewrite Z.mul_sub_distr_r. f_equal. rewrite <- Z.pow_add_r by lia. f_equal.
  unfold e. cbn [length] in *. lia.
Qed.

Section L.
Context {R : Type}.
Implicit Types (s : slice R).

Lemma load_bigint_spec s X Z (bits : N) signed :
  s_ok s -> sbits s = X ++ Z -> length X = N.to_nat bits -> 
  exists s', load_bigint s bits signed = (Ok (if signed then sval X else Z.of_N (bval X)), s') /\
    s_ok s' /\ sbits s' = Z /\ srefs s' = srefs s /\ sc s' = sc s.
Proof.
  intros Hs E L. unfold load_bigint. destruct (N.eqb_spec bits 0) as [->|H0].
  { destruct X; [|cbn in L; lia]. exists s. split; [destruct signed; reflexivity|]. auto. }
  destruct (N.leb_spec bits 64) as [G|G].
  - unfold load_uint.
    assert (EX : X = nbits (N.to_nat bits) (bval X)) by (rewrite nbits_bval'; auto).
    assert (Hlt : (bval X < 2 ^ bits)%N) by (pose proof (bval_lt X) as Q; rewrite L, N2Nat.id in Q; exact Q).
    rewrite EX in E.
    destruct (load_with_ok s bits _ Z _ _ Hs E ltac:(rewrite length_nbits; reflexivity)
      (get_uint_at s (bval X) bits Z Hs G Hlt E)) as (s' & -> & H').
    exists s'. split; [|exact H']. cbn [rbind]. f_equal. destruct signed; [|reflexivity].
    rewrite <- (sign_extend64 X) by lia. replace bits with (N.of_nat (length X)) by lia. reflexivity.
  - assert (HG : get_raw s 0 128 bits = Ok (pack X)).
    { pose proof (sbits_length s Hs) as LS. pose proof Hs as ((_ & HC & _) & HW & _).
      assert (LX : length X + length Z <= 1023) by (rewrite E, app_length in LS; lia).
      rewrite get_raw_spec; [|exact Hs|rewrite E, app_length; lia|lia].
      change (N.to_nat 0) with 0. rewrite drop_0, E, take_app_alt by lia. reflexivity. }
    unfold load_raw. destruct (load_with_ok s bits _ Z _ _ Hs E ltac:(lia) HG) as (s' & -> & H').
    exists s'. split; [|exact H']. cbn [rbind]. f_equal. f_equal.
    assert (HX : X <> []) by (intros ->; cbn in L; lia).
    assert (EI : (if signed then from_signed_bytes_be (pack X) else Z.of_N (from_be (pack X))) =
      ((if signed then sval X else Z.of_N (bval X)) * 2 ^ Z.of_nat (8 * ((length X + 7) / 8) - length X))%Z).
    { destruct signed; [apply from_signed_pack, HX|]. rewrite from_be_pack, N2Z.inj_mul, N2Z.inj_pow, nat_N_Z. reflexivity. }
    rewrite EI. destruct (N.eqb_spec (bits mod 8) 0) as [M|M].
    + replace (8 * ((length X + 7) / 8) - length X) with 0 by lia. change (2 ^ Z.of_nat 0)%Z with 1%Z. lia.
    + replace (Z.of_N (8 - bits mod 8)) with (Z.of_nat (8 * ((length X + 7) / 8) - length X)) by lia.
      apply shift_exact. lia.
Qed.

Lemma load_biguint_spec s X Z (bits : N) :
  s_ok s -> sbits s = X ++ Z -> length X = N.to_nat bits ->
  exists s', load_biguint s bits = (Ok (bval X), s') /\
    s_ok s' /\ sbits s' = Z /\ srefs s' = srefs s /\ sc s' = sc s.
Proof.
  intros Hs E L. unfold load_biguint. destruct (N.eqb_spec bits 0) as [->|H0].
  { destruct X; [|cbn in L; lia]. exists s. split; [reflexivity|]. auto. }
  destruct (N.leb_spec bits 64) as [G|G].
  - unfold load_uint.
    assert (EX : X = nbits (N.to_nat bits) (bval X)) by (rewrite nbits_bval'; auto).
    assert (Hlt : (bval X < 2 ^ bits)%N) by (pose proof (bval_lt X) as Q; rewrite L, N2Nat.id in Q; exact Q).
    rewrite EX in E.
    exact (load_with_ok s bits _ Z _ _ Hs E ltac:(rewrite length_nbits; reflexivity)
      (get_uint_at s (bval X) bits Z Hs G Hlt E)).
  - assert (HG : get_raw s 0 128 bits = Ok (pack X)).
    { pose proof (sbits_length s Hs) as LS. pose proof Hs as ((_ & HC & _) & HW & _).
      assert (LX : length X + length Z <= 1023) by (rewrite E, app_length in LS; lia).
      rewrite get_raw_spec; [|exact Hs|rewrite E, app_length; lia|lia].
      change (N.to_nat 0) with 0. rewrite drop_0, E, take_app_alt by lia. reflexivity. }
    unfold load_raw. destruct (load_with_ok s bits _ Z _ _ Hs E ltac:(lia) HG) as (s' & -> & H').
    exists s'. split; [|exact H']. cbn [rbind]. f_equal. f_equal.
    rewrite from_be_pack. destruct (N.eqb_spec (bits mod 8) 0) as [M|M].
    + replace (8 * ((length X + 7) / 8) - length X) with 0 by lia. change (2 ^ N.of_nat 0)%N with 1%N. lia.
    + replace (8 - bits mod 8)%N with (N.of_nat (8 * ((length X + 7) / 8) - length X)) by lia.
      rewrite N.shiftr_div_pow2. apply N.div_mul, N.pow_nonzero. lia.
Qed.

(** Not enough bits: [CellUnderflow], nothing moves. *)
Lemma load_bigint_underflow s (bits : N) signed :
  s_ok s -> length (sbits s) < N.to_nat bits -> (bits <= 64000)%N ->
  load_bigint s bits signed = (Err CellUnderflow, s).
Proof.
  intros Hs L Hb. unfold load_bigint. destruct (N.eqb_spec bits 0) as [->|H0]; [lia|].
  destruct (N.leb_spec bits 64) as [G|G].
  - unfold load_uint. rewrite get_uint_spec by (assumption || lia).
    destruct (N.eqb_spec bits 0); [lia|]. destruct (Nat.leb_spec (N.to_nat 0 + N.to_nat bits) (length (sbits s))); [lia|].
    reflexivity.
  - unfold load_raw. rewrite get_raw_underflow by (assumption || lia). reflexivity.
Qed.
End L.

(** ** From stored bits to the slice at that position *)
Section S.
Context {R : Type}.

Lemma stored_slice (c c1 : cb R) B r X v :
  cbrep c (B, r) -> cbrep c1 (B ++ X, r) -> build_view c1 = Some v ->
  exists x, skip_first (rng_full v) (bl (cbd c)) 0%N = Ok x /\ s_ok (mkS v x) /\ sbits (mkS v x) = X.
Proof.
  intros Hx H1 Hv.
  destruct (build_view_spec c1 _ _ H1) as (v' & E' & Hvok & _ & SB & _ & _).
  rewrite Hv in E'. injection E' as <-.
  destruct (slice_new_full v Hvok) as (Hs & _ & _).
  destruct Hx as (Hx & _). cbn [fst] in Hx. pose proof Hx as (_ & L0 & HB0).
  pose proof (skip_first_cuts (slice_new_allow_exotic v) (bl (cbd c)) 0%N Hs ltac:(lia) ltac:(lia)) as Q.
  rewrite SB in Q. rewrite L0, Nat2N.id in Q. rewrite app_length in Q.
  rewrite (proj2 (Nat.leb_le (length B) (length B + length X))) in Q by lia.
  cbn [andb] in Q. change (N.to_nat 0) with 0 in Q. cbn [Nat.leb] in Q.
  destruct Q as (x & Ex & Hx' & Bx & _). exists x. cbn [slice_new_allow_exotic sr] in Ex.
  split; [rewrite L0; exact Ex|]. rewrite drop_app in Bx. split; assumption.
Qed.

Lemma on_data_cbrep (op : M unit) (c c1 : cb R) B r X :
  cbrep c (B, r) -> on_data op c = (Ok tt, c1) ->
  (forall b1, op (cbd c) = (Ok tt, b1) -> brep b1 (B ++ X)) -> cbrep c1 (B ++ X, r).
Proof.
  intros (Hb & Hr & Hl) E H. unfold on_data in E. destruct (op (cbd c)) as [r1 b1] eqn:Eo.
  injection E as -> <-. cbn [fst snd] in *. split; [|split]; cbn [cbd cb_refs fst snd]; auto.
Qed.

Lemma appends_seq a b X Y s B s' : appends a X -> appends b Y -> brep s B ->
  (a ;;; b) s = (Ok tt, s') -> brep s' (B ++ X ++ Y) /\ length B + length X + length Y <= 1023.
Proof.
  intros Ha Hb Hs E. destruct (Ha s B Hs) as [A1 A2].
  destruct (Nat.le_gt_cases (length B + length X) 1023) as [G|G].
  - destruct (A1 G) as (s1 & E1 & H1). erewrite mbind_ok in E by exact E1. cbv beta in E.
    destruct (Hb s1 _ H1) as [B1 B2]. rewrite app_length in *.
    destruct (Nat.le_gt_cases (length B + length X + length Y) 1023) as [K|K].
    + destruct (B1 K) as (s2 & E2 & H2). rewrite E2 in E. injection E as <-. rewrite app_assoc. auto.
    + rewrite (B2 K) in E. discriminate.
  - unfold BuilderModel.mbind in E. rewrite (A2 G) in E. discriminate.
Qed.

Lemma appends_only_ok a X s B s' : appends a X -> brep s B -> a s = (Ok tt, s') ->
  brep s' (B ++ X) /\ length B + length X <= 1023.
Proof.
  intros Ha Hs E. destruct (Ha s B Hs) as [A1 A2].
  destruct (Nat.le_gt_cases (length B + length X) 1023) as [G|G].
  - destruct (A1 G) as (s1 & E1 & H1). rewrite E in E1. injection E1 as <-. auto.
  - rewrite (A2 G) in E. discriminate.
Qed.
End S.

(** The byte length used by the variable-length form. *)
Definition var_len (x : Z) (signed : bool) : N := (bitsize x signed + 7) / 8.

Lemma var_len_minimal x signed k : (zsize x <= 64000)%N -> (signed = true \/ (0 <= x)%Z) ->
  (var_len x signed <= k)%N <-> fits_in x (8 * k) signed.
Proof.
  intros HX Hs. rewrite <- bitsize_fits.
  - unfold var_len. lia.
  - lia.
  - exact Hs.
Qed.

Lemma bitsize_bound x signed : (zsize x <= 64000)%N -> (signed = true \/ (0 <= x)%Z) -> (bitsize x signed <= 64001)%N.
Proof.
  intros HX Hs. unfold bitsize. rewrite (w16_small (zsize x)) by lia.
  destruct signed, x; rewrite ?w16_small by lia; try lia.
  match goal with |- context [if ?b then _ else _] => destruct b end; lia.
Qed.

Lemma pow2_16 k : (k <= 15)%N -> w16 (N.shiftl 1 k) = (2 ^ k)%N.
Proof.
  intros H. rewrite N.shiftl_1_l. apply w16_small.
  assert (2 ^ k <= 2 ^ 15)%N by (apply N.pow_le_mono_r; lia). change (2 ^ 15)%N with 32768%N in *. lia.
Qed.

Lemma store_var_bigint_ok x len_bits signed s B s' :
  (zsize x <= 64000)%N -> (signed = true \/ (0 <= x)%Z) -> (len_bits <= 15)%N -> brep s B ->
  store_var_bigint x len_bits signed s = (Ok tt, s') ->
  (var_len x signed < 2 ^ len_bits)%N /\ (var_len x signed <= 127)%N /\
  brep s' (B ++ nbits (N.to_nat len_bits) (var_len x signed) ++ zbits (N.to_nat (8 * var_len x signed)) x).
Proof.
  intros HX Hs Hl HB E. unfold store_var_bigint in E. fold (var_len x signed) in E. rewrite pow2_16 in E by exact Hl.
  pose proof (bitsize_bound x signed HX Hs) as Hbs.
  assert (HV : (var_len x signed <= 8001)%N) by (unfold var_len; lia).
  rewrite w16_small in E by lia.
  destruct (N.leb_spec (2 ^ len_bits) (var_len x signed)) as [G|G]; [discriminate|].
  assert (Hw8 : (w8 (var_len x signed) < 2 ^ 8)%N) by (unfold w8; apply N.mod_lt; discriminate).
  assert (A1 : appends (store_small_uint (w8 (var_len x signed)) len_bits) (nbits (N.to_nat len_bits) (w8 (var_len x signed))))
    by (apply store_small_uint_appends; [exact Hw8|lia]).
  assert (A2 := store_bigint_truncate_appends x (var_len x signed * 8) signed ltac:(lia) Hs).
  destruct (appends_seq _ _ _ _ _ _ _ A1 A2 HB E) as [H1 H2].
  rewrite length_zbits, length_nbits in H2.
  assert (H127 : (var_len x signed <= 127)%N) by lia.
  unfold w8 in H1. rewrite N.mod_small in H1 by (change (2 ^ 8)%N with 256%N; lia).
  replace (var_len x signed * 8)%N with (8 * var_len x signed)%N in H1 by lia. auto.
Qed.

Definition uvar_len (x : N) : N := (N.size x + 7) / 8.
Lemma store_var_biguint_ok x len_bits s B s' :
  (N.size x <= 64000)%N -> (len_bits <= 15)%N -> brep s B ->
  store_var_biguint x len_bits s = (Ok tt, s') ->
  (uvar_len x < 2 ^ len_bits)%N /\ (uvar_len x <= 127)%N /\
  brep s' (B ++ nbits (N.to_nat len_bits) (uvar_len x) ++ zbits (N.to_nat (8 * uvar_len x)) (Z.of_N x)).
Proof.
  intros HX Hl HB E. unfold store_var_biguint in E. rewrite (w16_small (N.size x)) in E by lia.
  fold (uvar_len x) in E. rewrite pow2_16 in E by exact Hl.
  assert (HV : (uvar_len x <= 8001)%N) by (unfold uvar_len; lia).
  rewrite w16_small in E by lia.
  destruct (N.leb_spec (2 ^ len_bits) (uvar_len x)) as [G|G]; [discriminate|].
  assert (Hw8 : (w8 (uvar_len x) < 2 ^ 8)%N) by (unfold w8; apply N.mod_lt; discriminate).
  assert (A1 : appends (store_small_uint (w8 (uvar_len x)) len_bits) (nbits (N.to_nat len_bits) (w8 (uvar_len x))))
    by (apply store_small_uint_appends; [exact Hw8|lia]).
  assert (A2 := store_biguint_truncate_appends x (uvar_len x * 8) ltac:(lia)).
  destruct (appends_seq _ _ _ _ _ _ _ A1 A2 HB E) as [H1 H2].
  rewrite length_zbits, length_nbits in H2.
  assert (H127 : (uvar_len x <= 127)%N) by lia.
  unfold w8 in H1. rewrite N.mod_small in H1 by (change (2 ^ 8)%N with 256%N; lia).
  replace (uvar_len x * 8)%N with (8 * uvar_len x)%N in H1 by lia. auto.
Qed.

Lemma uvar_len_fits x : fits_in (Z.of_N x) (8 * uvar_len x) false.
Proof.
  unfold fits_in. split; [lia|]. assert (x < 2 ^ (8 * uvar_len x))%N as H by (apply size_lt; unfold uvar_len; lia).
  apply N2Z.inj_lt in H. rewrite N2Z.inj_pow in H. exact H.
Qed.

Lemma fits_val x bits signed : fits_in x bits signed ->
  (if signed then sval (zbits (N.to_nat bits) x) else Z.of_N (bval (zbits (N.to_nat bits) x))) = x.
Proof.
  unfold fits_in. destruct signed; intros H.
  - destruct H as [->|[H1 H2]].
    + rewrite zbits_0. destruct (N.to_nat bits) as [|n]; [reflexivity|]. unfold sval.
      change (zeros (S n)) with (false :: zeros n). rewrite bval_cons, bval_zeros. reflexivity.
    + apply sval_zbits; [lia|]. rewrite N_nat_Z. exact H2.
  - apply uval_zbits. rewrite N_nat_Z. exact H.
Qed.
