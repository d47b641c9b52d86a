(** * Proofs about shard identifiers. *)
From Verif Require Import Err BitsProofs WordProofs IntModel IntProofs CellModel TextModel ShardModel ShardSpec.
Local Open Scope N_scope.

Definition word (path : list bool) : list bool := path ++ [true] ++ zeros (63 - length path).
Lemma length_word p : (length p <= 63)%nat -> length (word p) = 64%nat.
Proof. intros H. unfold word. rewrite !app_length, length_zeros. cbn [length]. lia. Qed.
Lemma path_prefix_word p : path_prefix p = bval (word p).
Proof. reflexivity. Qed.
Lemma bval_tag p k : bval (p ++ [true] ++ zeros k) = bval p * 2 ^ N.of_nat (S k) + 2 ^ N.of_nat k.
Proof.
  rewrite bval_app. cbn [app]. rewrite bval_cons, bval_zeros. cbn [length N.b2n]. rewrite length_zeros. lia.
Qed.
Lemma bval_clear p k : bval (p ++ [false] ++ zeros k) = bval p * 2 ^ N.of_nat (S k).
Proof. rewrite bval_app. cbn [app]. rewrite bval_cons, bval_zeros. cbn [length N.b2n]. rewrite length_zeros. lia. Qed.
Lemma word_pos p : 0 < bval (word p).
Proof. unfold word. rewrite bval_tag. pose proof (N.pow_nonzero 2 (N.of_nat (63 - length p))). lia. Qed.
Lemma word_lt p : (length p <= 63)%nat -> bval (word p) < 2 ^ 64.
Proof. intros H. pose proof (bval_lt (word p)) as L. rewrite length_word in L by exact H. exact L. Qed.

Lemma xorb_ones a : zip_with xorb a (replicate (length a) true) = map negb a.
Proof. induction a as [|x a IH]; [reflexivity|]. cbn. rewrite IH. destruct x; reflexivity. Qed.
Lemma neg64_word p k : (length p + S k = 64)%nat -> neg64 (bval (p ++ [true] ++ zeros k)) = bval (map negb p ++ [true] ++ zeros k).
Proof.
  intros Hl. unfold neg64, not64. change MAX64 with (bval (replicate 64 true)).
  assert (La : length (p ++ [true] ++ zeros k) = 64%nat) by (rewrite !app_length, length_zeros; cbn [length]; lia).
  rewrite lxor_bval by (rewrite La, replicate_length; reflexivity). rewrite <- La, xorb_ones.
  pose proof (bval_negb (p ++ [true] ++ zeros k)) as E. rewrite La in E.
  pose proof (bval_negb p) as Ep. rewrite !bval_tag in *. revert E.
  set (x := bval (map negb (p ++ [true] ++ zeros k))). intros E.
  pose proof (N.pow_nonzero 2 (N.of_nat k)) as Hk.
  assert (E64 : 2 ^ N.of_nat 64 = 2 ^ N.of_nat (length p) * (2 * 2 ^ N.of_nat k)).
  { rewrite <- N.pow_succ_r', <- N.pow_add_r. f_equal. lia. }
  assert (ES : 2 ^ N.of_nat (S k) = 2 * 2 ^ N.of_nat k) by (rewrite Nat2N.inj_succ; apply N.pow_succ_r').
  rewrite ES in *. rewrite E64 in E.
  assert (Ex : x + 1 = bval (map negb p) * (2 * 2 ^ N.of_nat k) + 2 ^ N.of_nat k) by nia.
  rewrite Ex. unfold w64. apply N.mod_small. change (2 ^ 64) with (2 ^ N.of_nat 64). rewrite E64. nia.
Qed.
Lemma neg64_path p : (length p <= 63)%nat -> neg64 (bval (word p)) = bval (map negb p ++ [true] ++ zeros (63 - length p)).
Proof. intros H. apply neg64_word. lia. Qed.
Lemma zip_andb_negb p : zip_with andb p (map negb p) = zeros (length p).
Proof. induction p as [|x p IH]; [reflexivity|]. cbn. rewrite IH. destruct x; reflexivity. Qed.
Lemma zip_andb_self p : zip_with andb p p = p.
Proof. induction p as [|x p IH]; [reflexivity|]. cbn. rewrite IH, andb_diag. reflexivity. Qed.
Lemma zip_app {A B C} (f : A -> B -> C) a b c d : length a = length c -> zip_with f (a ++ b) (c ++ d) = zip_with f a c ++ zip_with f b d.
Proof. intros H. apply zip_with_app. exact H. Qed.
Lemma tag_path wc p : (length p <= 63)%nat -> prefix_tag (shard_at wc p) = bval (word (zeros (length p))).
Proof.
  intros H. unfold prefix_tag, tag_mask, shard_at. cbn [sh_prefix]. rewrite path_prefix_word, neg64_path by exact H.
  unfold word. rewrite land_bval by (rewrite !app_length, map_length; reflexivity).
  rewrite zip_app by (rewrite map_length; reflexivity). rewrite zip_andb_negb, zip_andb_self, length_zeros. reflexivity.
Qed.
Lemma tag_val wc p : (length p <= 63)%nat -> prefix_tag (shard_at wc p) = 2 ^ N.of_nat (63 - length p).
Proof. intros H. rewrite tag_path by exact H. unfold word. rewrite bval_tag, bval_zeros, length_zeros. lia. Qed.
(** The tag shifted left by one: the bit of the last step of the path. *)
Lemma tag_shl_snoc wc p b : (length p <= 62)%nat -> shl 64 (prefix_tag (shard_at wc (p ++ [b]))) 1 = bval (zeros (length p) ++ [true] ++ [false] ++ zeros (62 - length p)).
Proof.
  intros H. assert (Hl : length (p ++ [b]) = S (length p)) by (rewrite app_length; cbn [length]; lia).
  rewrite tag_path by (rewrite Hl; lia). rewrite Hl. unfold word. rewrite length_zeros.
  change (zeros (S (length p)) ++ [true] ++ zeros (63 - S (length p))) with (false :: (zeros (length p) ++ [true] ++ zeros (63 - S (length p)))).
  rewrite shl1_bval by (rewrite !app_length, !length_zeros; cbn [length]; lia).
  f_equal. rewrite <- !app_assoc. do 2 f_equal. replace (63 - S (length p))%nat with (62 - length p)%nat by lia.
  change [false] with (zeros 1). rewrite <- !zeros_app. f_equal. lia.
Qed.
Lemma word_snoc p b : (length p <= 62)%nat -> word (p ++ [b]) = p ++ [b] ++ [true] ++ zeros (62 - length p).
Proof. intros H. unfold word. rewrite app_length, <- app_assoc. cbn [length]. do 4 f_equal. lia. Qed.
Lemma word_zero p : (length p <= 62)%nat -> word p = p ++ [true] ++ [false] ++ zeros (62 - length p).
Proof. intros H. unfold word. do 2 f_equal. change ([false] ++ zeros (62 - length p)) with (zeros (S (62 - length p))). f_equal. lia. Qed.
Lemma andb_zeros a : forall n, length a = n -> zip_with andb a (zeros n) = zeros n.
Proof. induction a as [|x a IH]; intros [|n] H; try discriminate; [reflexivity|]. cbn. rewrite andb_false_r. f_equal. apply IH. cbn in H. lia. Qed.
Lemma orb_zeros a : forall n, length a = n -> zip_with orb a (zeros n) = a.
Proof. induction a as [|x a IH]; intros [|n] H; try discriminate; [reflexivity|]. cbn. rewrite orb_false_r. f_equal. apply IH. cbn in H. lia. Qed.
Lemma xorb_zeros a : forall n, length a = n -> zip_with xorb a (zeros n) = a.
Proof. induction a as [|x a IH]; intros [|n] H; try discriminate; [reflexivity|]. cbn. rewrite xorb_false_r. f_equal. apply IH. cbn in H. lia. Qed.

Lemma word_inj p q : (length p <= 63)%nat -> (length q <= 63)%nat -> bval (word p) = bval (word q) -> p = q.
Proof.
  intros Hp Hq H. apply bval_inj in H; [|rewrite !length_word by assumption; reflexivity]. unfold word in H.
  assert (Z : forall k b j, [true] ++ zeros k = b ++ [true] ++ zeros j -> b = []).
  { intros k [|y b] j E; [reflexivity|]. cbn [app] in E. injection E as _ E. exfalso.
    assert (X : true ∈ zeros k) by (rewrite E; apply elem_of_app; right; left).
    unfold zeros in X. apply elem_of_replicate in X. destruct X; discriminate. }
  revert H. generalize (63 - length p)%nat (63 - length q)%nat. clear Hp Hq. revert q.
  induction p as [|x p IH]; intros [|y q] k j H; [reflexivity|apply Z in H; discriminate|symmetry in H; apply Z in H; discriminate|].
  cbn [app] in H. injection H as -> H. f_equal. eapply IH. exact H.
Qed.
Lemma is_full_path wc p : is_path p -> is_full (shard_at wc p) = true <-> p = [].
Proof.
  intros H. unfold is_path in H. unfold is_full, shard_at. cbn [sh_prefix]. change PREFIX_FULL with (bval (word [])).
  rewrite path_prefix_word, N.eqb_eq. split; [|intros ->; reflexivity]. apply word_inj; cbn [length]; lia.
Qed.
Lemma is_full_snoc wc p b : is_path (p ++ [b]) -> is_full (shard_at wc (p ++ [b])) = false.
Proof.
  intros H. destruct (is_full (shard_at wc (p ++ [b]))) eqn:E; [|reflexivity]. apply is_full_path in E; [|exact H]. destruct p; discriminate.
Qed.

Lemma is_right_snoc wc p b : is_path (p ++ [b]) -> is_right_child (shard_at wc (p ++ [b])) = b.
Proof.
  unfold is_path. rewrite app_length. cbn [length]. intros H. unfold is_right_child. rewrite tag_shl_snoc by lia.
  unfold shard_at. cbn [sh_prefix]. rewrite path_prefix_word, word_snoc by lia.
  rewrite land_bval by (rewrite !app_length, !length_zeros; reflexivity).
  rewrite zip_app by (rewrite length_zeros; reflexivity). rewrite andb_zeros by reflexivity.
  cbn [zip_with app]. rewrite andb_true_r, andb_false_r, zip_andb_self.
  destruct b.
  - destruct (N.eqb_spec (bval (zeros (length p) ++ true :: false :: zeros (62 - length p))) 0) as [E|E]; [|reflexivity].
    apply bval_eq0 in E. exfalso.
    assert (X : true ∈ zeros (length (zeros (length p) ++ true :: false :: zeros (62 - length p)))) by (rewrite <- E; apply elem_of_app; right; left).
    unfold zeros in X at 1. apply elem_of_replicate in X. destruct X; discriminate.
  - change (false :: false :: zeros (62 - length p)) with (zeros (2 + (62 - length p))). rewrite <- zeros_app, bval_zeros. reflexivity.
Qed.
Lemma is_right_full wc : is_right_child (shard_full wc) = false.
Proof. reflexivity. Qed.

Lemma sub_tag wc p : (length p <= 63)%nat -> path_prefix p - prefix_tag (shard_at wc p) = bval (p ++ [false] ++ zeros (63 - length p)).
Proof. intros H. rewrite tag_val by exact H. rewrite path_prefix_word. unfold word. rewrite bval_tag, bval_clear. lia. Qed.
Lemma parent_snoc wc p b : is_path (p ++ [b]) -> parent_prefix (shard_at wc (p ++ [b])) = path_prefix p.
Proof.
  unfold is_path. rewrite app_length. cbn [length]. intros H. unfold parent_prefix. cbn [sh_prefix shard_at].
  change (sh_prefix (shard_at wc (p ++ [b]))) with (path_prefix (p ++ [b])).
  cbn zeta. rewrite sub_tag by (rewrite app_length; cbn [length]; lia). rewrite tag_shl_snoc by lia.
  rewrite path_prefix_word, word_zero by lia.
  assert (E : (p ++ [b]) ++ [false] ++ zeros (63 - length (p ++ [b])) = p ++ [b] ++ [false] ++ zeros (62 - length p)).
  { rewrite <- app_assoc, app_length. cbn [length]. do 4 f_equal. lia. }
  rewrite E. rewrite lor_bval by (rewrite !app_length, !length_zeros; reflexivity).
  rewrite zip_app by (rewrite length_zeros; reflexivity). rewrite orb_zeros by reflexivity. f_equal. f_equal.
  cbn [zip_with app]. rewrite orb_true_r, orb_zeros by (rewrite length_zeros; reflexivity). reflexivity.
Qed.
Lemma opposite_snoc wc p b : is_path (p ++ [b]) -> opposite (shard_at wc (p ++ [b])) = Some (shard_at wc (p ++ [negb b])).
Proof.
  intros H. unfold opposite. rewrite is_full_snoc by exact H. unfold is_path in H. rewrite app_length in H. cbn [length] in H.
  rewrite tag_shl_snoc by lia. unfold shard_at at 1 2. cbn [sh_wc sh_prefix]. unfold shard_at. do 2 f_equal.
  rewrite !path_prefix_word, !word_snoc by lia.
  rewrite lxor_bval by (rewrite !app_length, !length_zeros; reflexivity).
  rewrite zip_app by (rewrite length_zeros; reflexivity). rewrite xorb_zeros by reflexivity. do 2 f_equal.
  cbn [zip_with app]. rewrite xorb_zeros by (rewrite length_zeros; reflexivity). destruct b; reflexivity.
Qed.

(** ** Splitting *)
Lemma low_bits a b m : m = N.of_nat (length b) -> N.land (bval (a ++ b)) (2 ^ m - 1) = bval b.
Proof.
  intros ->. replace (2 ^ N.of_nat (length b) - 1) with (N.ones (N.of_nat (length b))) by (rewrite N.ones_equiv; lia). rewrite N.land_ones.
  rewrite bval_app, N.add_comm, N.mod_add by (apply N.pow_nonzero; lia). apply N.mod_small, bval_lt.
Qed.
Lemma low_bits_word p m : (m <= 63)%nat -> (length p <= 63)%nat -> N.land (path_prefix p) (2 ^ N.of_nat m - 1) = 0 <-> (length p + m <= 63)%nat.
Proof.
  intros Hm Hp. rewrite path_prefix_word.
  rewrite <- (take_drop (64 - m) (word p)). rewrite low_bits by (rewrite drop_length, length_word by exact Hp; lia).
  rewrite bval_eq0. rewrite drop_length, length_word by exact Hp. unfold word.
  destruct (decide (length p + m <= 63)%nat) as [L|L].
  - split; [intros _; exact L|]. intros _. rewrite drop_app_ge by lia. rewrite drop_app_ge by (cbn [length]; lia). unfold zeros. rewrite drop_replicate. f_equal. cbn [length]. lia.
  - split; [|lia]. intros E. exfalso.
    assert (X : true ∈ drop (64 - m) (p ++ [true] ++ zeros (63 - length p))) by (rewrite drop_app_le by lia; apply elem_of_app; right; left).
    rewrite E in X. unfold zeros in X. apply elem_of_replicate in X. destruct X; discriminate.
Qed.
Lemma split_ok wc p : is_path p ->
  split (shard_at wc p) = if (length p <? 60)%nat then Some (shard_at wc (p ++ [false]), shard_at wc (p ++ [true])) else None.
Proof.
  unfold is_path. intros H. unfold split. change (sh_prefix (shard_at wc p)) with (path_prefix p). change (sh_wc (shard_at wc p)) with wc.
  replace (shl 64 UNUSED_BITS_MASK 1 + 1) with (2 ^ N.of_nat 4 - 1) by reflexivity.
  pose proof (low_bits_word p 4 ltac:(lia) ltac:(lia)) as L.
  destruct (Nat.ltb_spec (length p) 60) as [L1|L1].
  - assert (N.land (path_prefix p) (2 ^ N.of_nat 4 - 1) = 0) as -> by (apply L; lia). cbn [N.eqb negb].
    rewrite tag_val by lia. unfold shard_at. rewrite !path_prefix_word, !word_snoc by lia. rewrite word_zero by lia.
    rewrite N.shiftr_div_pow2, N.pow_1_r.
    assert (E2 : 2 ^ N.of_nat (63 - length p) = 2 * 2 ^ N.of_nat (62 - length p)) by (rewrite <- N.pow_succ_r'; f_equal; lia).
    rewrite E2, (N.mul_comm 2), N.div_mul by lia.
    set (t := 2 ^ N.of_nat (62 - length p)) in *.
    assert (B : forall b c, bval (p ++ [b] ++ [c] ++ zeros (62 - length p)) = bval p * (4 * t) + N.b2n b * (2 * t) + N.b2n c * t).
    { intros b c. rewrite bval_app. cbn [app]. rewrite !bval_cons, bval_zeros. cbn [length]. rewrite length_zeros, !Nat2N.inj_succ, !N.pow_succ_r'. fold t. lia. }
    rewrite !B. cbn [N.b2n].
    assert (Hlt : bval p * (4 * t) + 1 * (2 * t) + 1 * t < 2 ^ 64).
    { pose proof (bval_lt p) as Lp. assert (2 ^ 64 = 2 ^ N.of_nat (length p) * (4 * t)).
      { unfold t. change 4 with (2 ^ 2). rewrite <- !N.pow_add_r. f_equal. lia. } nia. }
    f_equal. f_equal; f_equal; [lia|]. unfold w64. rewrite N.mod_small by lia. lia.
  - destruct (N.eqb_spec (N.land (path_prefix p) (2 ^ N.of_nat 4 - 1)) 0) as [E|E]; [|reflexivity]. apply L in E. lia.
Qed.

(** ** Order *)
Lemma take_word p n : (n <= length p)%nat -> take n (word p) = take n p.
Proof. intros H. unfold word. apply take_app_le. exact H. Qed.
Lemma ones_shl n : (n <= 63)%nat -> shl 64 (neg64 (bval (word (zeros n)))) 1 = bval (replicate n true ++ zeros (64 - n)).
Proof.
  intros H. rewrite neg64_path by (rewrite length_zeros; exact H). rewrite length_zeros.
  assert (E : map negb (zeros n) = replicate n true).
  { clear. induction n as [|n IH]; [reflexivity|]. cbn. f_equal. exact IH. }
  rewrite E. destruct n as [|n].
  - cbn [replicate app]. rewrite shl1_bval by reflexivity. f_equal.
  - cbn [replicate app]. rewrite shl1_bval by (rewrite app_length, replicate_length; cbn [length]; rewrite length_zeros; lia).
    f_equal. rewrite <- app_assoc. cbn [app].
    change (true :: zeros (63 - S n) ++ [false]) with ([true] ++ (zeros (63 - S n) ++ [false])).
    rewrite app_assoc. change (true :: replicate n true ++ zeros (64 - S n)) with (replicate (S n) true ++ zeros (64 - S n)).
    f_equal.
    + change [true] with (replicate 1 true). rewrite <- replicate_add. f_equal. lia.
    + change [false] with (zeros 1). rewrite <- zeros_app. f_equal. lia.
Qed.
Lemma prefix_take (p q : list bool) : p `prefix_of` q <-> take (length p) q = p.
Proof.
  split; [intros [r ->]; apply take_app|]. intros H. exists (drop (length p) q). rewrite <- H at 1. symmetry. rewrite H. rewrite <- H at 1. apply take_drop.
Qed.
Lemma intersects_ok wa a wb b : is_path a -> is_path b ->
  intersects (shard_at wa a) (shard_at wb b) = true <-> wa = wb /\ (a `prefix_of` b \/ b `prefix_of` a).
Proof.
  unfold is_path. intros Ha Hb. unfold intersects. change (sh_wc (shard_at wa a)) with wa. change (sh_wc (shard_at wb b)) with wb.
  destruct (Z.eqb_spec wa wb) as [ -> |Hw]; cbn [negb]; [|split; [discriminate|intros [? _]; contradiction]].
  rewrite !tag_path by lia.
  set (m := (length a `min` length b)%nat).
  assert (E : (if bval (word (zeros (length a))) <? bval (word (zeros (length b))) then bval (word (zeros (length b))) else bval (word (zeros (length a)))) = bval (word (zeros m))).
  { assert (V : forall n, (n <= 63)%nat -> bval (word (zeros n)) = 2 ^ N.of_nat (63 - n)) by (intros n Hn; unfold word; rewrite bval_tag, bval_zeros, length_zeros; lia).
    rewrite !V by lia. destruct (N.ltb_spec (2 ^ N.of_nat (63 - length a)) (2 ^ N.of_nat (63 - length b))) as [L|L].
    - apply N.pow_lt_mono_r_iff in L; [|lia]. do 2 f_equal. unfold m. lia.
    - apply N.pow_le_mono_r_iff in L; [|lia]. do 2 f_equal. unfold m. lia. }
  cbn zeta. rewrite E, ones_shl by (unfold m; lia).
  change (sh_prefix (shard_at wb a)) with (bval (word a)). change (sh_prefix (shard_at wb b)) with (bval (word b)).
  rewrite mask_zero by (rewrite length_word by lia; unfold m; lia).
  rewrite !take_word by (unfold m; lia). rewrite !prefix_take.
  unfold m. destruct (Nat.le_ge_cases (length a) (length b)) as [L|L].
  - rewrite Nat.min_l by exact L. rewrite (take_ge a) by lia. split.
    + intros ->. split; [reflexivity|]. left. f_equal. rewrite take_length. lia.
    + intros [_ [H|H]]; [symmetry; exact H|]. assert (length b <= length a)%nat by (rewrite <- H, take_length; lia).
      assert (length a = length b) as -> by lia. rewrite (take_ge b) by lia. rewrite <- H. symmetry. apply take_ge. lia.
  - rewrite Nat.min_r by exact L. rewrite (take_ge b) by lia. split.
    + intros <-. split; [reflexivity|]. right. f_equal. rewrite take_length. lia.
    + intros [_ [H|H]]; [|exact H]. assert (length a <= length b)%nat by (rewrite <- H, take_length; lia).
      assert (length b = length a) as -> by lia. rewrite (take_ge a) by lia. rewrite <- H. apply take_ge. lia.
Qed.
Lemma parent_ok wa a wb b : is_path a -> is_path b ->
  is_parent_of (shard_at wa a) (shard_at wb b) = true <-> wa = wb /\ exists x, b = a ++ [x].
Proof.
  intros Ha Hb. unfold is_parent_of. change (sh_wc (shard_at wa a)) with wa. change (sh_wc (shard_at wb b)) with wb.
  destruct (Z.eqb_spec wa wb) as [ -> |Hw]; cbn [negb orb]; [|split; [discriminate|intros [? _]; contradiction]].
  destruct b as [|x b _] using rev_ind.
  - assert (is_full (shard_at wb []) = true) as -> by (apply is_full_path; [exact Hb|reflexivity]).
    split; [discriminate|]. intros (_ & x & E). destruct a; discriminate.
  - rewrite is_full_snoc by exact Hb. rewrite parent_snoc by exact Hb. change (sh_prefix (shard_at wb a)) with (bval (word a)).
    rewrite path_prefix_word, N.eqb_eq. unfold is_path in *. rewrite app_length in Hb. cbn [length] in Hb. split.
    + intros E. apply word_inj in E; [|lia..]. subst b. split; [reflexivity|]. exists x. reflexivity.
    + intros (_ & y & E). apply app_inj_tail in E. destruct E as [-> _]. reflexivity.
Qed.
Lemma ancestor_complete wc a b : is_path a -> is_path b -> a `prefix_of` b -> is_ancestor_of (shard_at wc a) (shard_at wc b) = true.
Proof.
  unfold is_path. intros Ha Hb [r ->]. unfold is_ancestor_of. change (sh_wc (shard_at wc _)) with wc. rewrite Z.eqb_refl. cbn [negb].
  rewrite !tag_val by lia. rewrite app_length in *. apply andb_true_iff. split.
  - apply N.leb_le. apply N.pow_le_mono_r; lia.
  - unfold tag_mask. change (sh_prefix (shard_at wc a)) with (bval (word a)). change (sh_prefix (shard_at wc (a ++ r))) with (bval (word (a ++ r))).
    rewrite neg64_path by lia.
    assert (E : exists m, length m = length a /\ shl 64 (bval (map negb a ++ [true] ++ zeros (63 - length a))) 1 = bval (m ++ zeros (64 - length a))).
    { destruct a as [|x a].
      - exists []. split; [reflexivity|]. reflexivity.
      - exists (map negb a ++ [true]). split; [rewrite app_length, map_length; cbn [length]; lia|]. cbn [map app].
        rewrite shl1_bval by (rewrite !app_length, map_length; cbn [length] in *; rewrite length_zeros; lia).
        cbn [length] in *. f_equal. rewrite <- !app_assoc. f_equal. cbn [app]. f_equal. change [false] with (zeros 1). rewrite <- zeros_app. f_equal. lia. }
    destruct E as (m & Lm & ->).
    rewrite lxor_bval by (rewrite !length_word by (rewrite ?app_length; lia); reflexivity).
    assert (Lx : length (word a) = 64%nat) by (apply length_word; lia).
    assert (Ly : length (word (a ++ r)) = 64%nat) by (apply length_word; rewrite app_length; lia).
    rewrite land_bval by (rewrite zip_with_length, app_length, length_zeros; lia).
    apply N.eqb_eq, bval_eq0. rewrite !zip_with_length, app_length, Lx, Ly, Lm, length_zeros.
    unfold word. unfold word in Lx, Ly. rewrite <- (app_assoc a r) in *. rewrite app_length in Lx, Ly.
    rewrite zip_app by reflexivity. rewrite zip_app by (rewrite zip_with_length; lia).
    rewrite andb_zeros by (rewrite zip_with_length; lia).
    assert (Ez : zip_with andb (zip_with xorb a a) m = zeros (length a)).
    { clear - Lm. revert m Lm. induction a as [|x a IH]; intros [|y m] L; try discriminate; [reflexivity|]. cbn in L. cbn [zip_with]. rewrite xorb_nilpotent. cbn [andb length]. change (zeros (S (length a))) with (false :: zeros (length a)). f_equal. apply IH. lia. }
    rewrite Ez, <- zeros_app. f_equal. lia.
Qed.

(** ** Length and containment *)
Lemma tz_double n : n <> 0 -> trailing_zeros64 (2 * n) = trailing_zeros64 n + 1.
Proof. destruct n as [|p]; [congruence|]. intros _. change (2 * N.pos p) with (N.pos (xO p)). cbn [trailing_zeros64 tz_pos]. lia. Qed.
Lemma tz_odd n : trailing_zeros64 (2 * n + 1) = 0.
Proof. destruct n; reflexivity. Qed.
Lemma tz_word p k : trailing_zeros64 (bval (p ++ [true] ++ zeros k)) = N.of_nat k.
Proof.
  rewrite bval_tag. induction k as [|k IH].
  - change (2 ^ N.of_nat 1) with 2. change (2 ^ N.of_nat 0) with 1. rewrite N.mul_comm. apply tz_odd.
  - rewrite !Nat2N.inj_succ, !N.pow_succ_r' in *. pose proof (N.pow_nonzero 2 (N.of_nat k)).
    replace (bval p * (2 * (2 * 2 ^ N.of_nat k)) + 2 * 2 ^ N.of_nat k) with (2 * (bval p * (2 * 2 ^ N.of_nat k) + 2 ^ N.of_nat k)) by lia.
    rewrite tz_double by lia. rewrite IH. lia.
Qed.
Lemma prefix_len_path wc p : (length p <= 63)%nat -> prefix_len (shard_at wc p) = N.of_nat (length p).
Proof.
  intros H. unfold prefix_len. change (sh_prefix (shard_at wc p)) with (bval (word p)).
  pose proof (word_pos p). destruct (N.eqb_spec (bval (word p)) 0); [lia|]. unfold word. rewrite tz_word. lia.
Qed.
Lemma mask8 b : (1 <= b <= 7)%nat -> shl 8 255 (8 - N.of_nat b) = bval (replicate b true ++ zeros (8 - b)).
Proof.
  intros H. assert (C : b = 1%nat \/ b = 2%nat \/ b = 3%nat \/ b = 4%nat \/ b = 5%nat \/ b = 6%nat \/ b = 7%nat) by lia.
  repeat (destruct C as [ -> |C]; [reflexivity|]). subst b. reflexivity.
Qed.
Lemma contains_loop_ok p : forall bits a, Forall byte_ok p -> Forall byte_ok a -> length p = length a -> (bits <= 8 * length p)%nat ->
  contains_loop (N.of_nat bits) p a = Ok (bool_decide (take bits (bytes_bits p) = take bits (bytes_bits a))).
Proof.
  induction p as [|x p IH]; intros bits a Hp Ha Hl Hb.
  - cbn [length] in Hb. assert (bits = 0%nat) as -> by lia. cbn [contains_loop]. reflexivity.
  - destruct a as [|y a]; [discriminate|]. inversion_clear Hp as [|? ? Hx Hp']. inversion_clear Ha as [|? ? Hy Ha'].
    cbn [contains_loop]. destruct (N.eqb_spec (N.of_nat bits) 0) as [E|E].
    { assert (bits = 0%nat) as -> by lia. reflexivity. }
    rewrite !bytes_bits_cons. destruct (N.leb_spec 8 (N.of_nat bits)) as [L|L].
    + rewrite !take_app_ge by (rewrite length_byte_bits; lia). rewrite !length_byte_bits.
      destruct (N.eqb_spec x y) as [ -> |Hne]; cbn [negb].
      * replace (N.of_nat bits - 8) with (N.of_nat (bits - 8)) by lia.
        rewrite IH; [|assumption|assumption|cbn [length] in Hl; lia|cbn [length] in Hb; lia].
        f_equal. apply bool_decide_ext. split; [intros ->; reflexivity|intros H; apply app_inv_head in H; exact H].
      * f_equal. symmetry. apply bool_decide_eq_false. intros H. apply app_inj_1 in H; [|rewrite !length_byte_bits; reflexivity].
        destruct H as [H _]. apply byte_bits_inj in H; [|assumption..]. contradiction.
    + rewrite !take_app_le by (rewrite length_byte_bits; lia). cbn zeta. rewrite mask8 by lia. f_equal.
      pose proof (mask_zero bits (8 - bits) (byte_bits x) (byte_bits y) ltac:(rewrite length_byte_bits; lia) ltac:(rewrite length_byte_bits; lia)) as M.
      unfold byte_bits in M at 1 2. rewrite !bval_nbits_small in M by assumption.
      destruct (N.land _ _ =? 0).
      * symmetry. apply bool_decide_eq_true. apply M. reflexivity.
      * symmetry. apply bool_decide_eq_false. intros H. apply M in H. discriminate.
Qed.
Lemma contains_prefix_ok wc p a : is_path p -> Forall byte_ok a -> length a = 8%nat ->
  contains_prefix (shard_at wc p) a = Ok (bool_decide (p `prefix_of` bytes_bits a)).
Proof.
  unfold is_path. intros Hp Ha Hl. unfold contains_prefix. rewrite prefix_len_path by lia.
  rewrite contains_loop_ok; [|apply to_be_ok|exact Ha|rewrite to_be_length; lia|rewrite to_be_length; lia].
  f_equal. apply bool_decide_ext. rewrite bytes_bits_to_be, prefix_take.
  change (sh_prefix (shard_at wc p)) with (bval (word p)). rewrite nbits_bval' by (apply length_word; lia).
  rewrite take_word by lia. rewrite take_ge by lia. split; intros H; symmetry; exact H.
Qed.

(** ** Validity *)
Lemma unused_mask : UNUSED_BITS_MASK = 2 ^ N.of_nat 3 - 1.
Proof. reflexivity. Qed.
(** Every prefix with a set bit and three unused zero bits is a path. *)
Lemma path_of x : x <> 0 -> x < 2 ^ 64 -> N.land x UNUSED_BITS_MASK = 0 -> exists p, is_path p /\ x = path_prefix p.
Proof.
  intros H0 Hlt Hm.
  assert (G : forall l : list bool, bval l <> 0 -> exists p k, l = p ++ [true] ++ zeros k).
  { intros l Hl. induction l as [|b l IH] using rev_ind; [exfalso; apply Hl; reflexivity|].
    destruct b; [exists l, 0%nat; reflexivity|].
    destruct IH as (p & k & ->).
    { intros E. apply Hl. rewrite bval_app, E. reflexivity. }
    exists p, (k + 1)%nat. rewrite zeros_app, <- !app_assoc. reflexivity. }
  destruct (G (nbits 64 x)) as (p & k & E).
  { rewrite bval_nbits_small by exact Hlt. exact H0. }
  assert (L : length p = (63 - k)%nat /\ (k <= 63)%nat).
  { apply (f_equal length) in E. rewrite length_nbits, !app_length, length_zeros in E. cbn [length] in E. lia. }
  destruct L as [L Hk].
  assert (Ew : x = path_prefix p).
  { rewrite <- (bval_nbits_small 64 x Hlt), E. unfold path_prefix. do 4 f_equal. lia. }
  exists p. split; [|exact Ew]. unfold is_path. rewrite unused_mask, Ew in Hm. apply low_bits_word in Hm; lia.
Qed.
Lemma path_prefix_valid p : is_path p -> path_prefix p <> 0 /\ path_prefix p < 2 ^ 64 /\ N.land (path_prefix p) UNUSED_BITS_MASK = 0.
Proof.
  unfold is_path. intros H. rewrite unused_mask. split_and!.
  - pose proof (word_pos p). rewrite path_prefix_word. lia.
  - apply word_lt. lia.
  - apply low_bits_word; lia.
Qed.
Lemma shard_new_ok wc x s : x < 2 ^ 64 ->
  shard_new wc x = Some s <-> exists p, is_path p /\ x = path_prefix p /\ s = shard_at wc p /\ (wc = (-1)%Z -> p = []).
Proof.
  intros Hx. unfold shard_new. split.
  - intros H. destruct (N.eqb_spec x 0) as [E|E]; [discriminate|]. destruct (N.eqb_spec (N.land x UNUSED_BITS_MASK) 0) as [E2|E2]; [|discriminate].
    cbn [negb orb] in H. destruct (path_of x E Hx E2) as (p & Hp & ->). exists p.
    destruct ((wc =? -1)%Z && negb (path_prefix p =? PREFIX_FULL)) eqn:Ew; [discriminate|]. injection H as <-. split_and!; [exact Hp|reflexivity|reflexivity|].
    intros ->. rewrite Z.eqb_refl in Ew. cbn [andb] in Ew. apply negb_false_iff in Ew. apply (is_full_path 0 p Hp). exact Ew.
  - intros (p & Hp & -> & -> & Hw). destruct (path_prefix_valid p Hp) as (A & B & C).
    apply N.eqb_neq in A. rewrite A, C. cbn [N.eqb negb orb].
    destruct (Z.eqb_spec wc (-1)) as [E|E]; cbn [andb]; [|reflexivity]. rewrite (Hw E). reflexivity.
Qed.

(** ** Cells *)
Lemma put_ok x b : (length b + length x <= MAX_BITS)%nat -> put x b = Ok (b ++ x).
Proof. intros H. unfold put. destruct (Nat.ltb_spec MAX_BITS (length b + length x)); [lia|reflexivity]. Qed.
Lemma put_inv x b r : put x b = Ok r -> r = b ++ x /\ (length b + length x <= MAX_BITS)%nat.
Proof. unfold put. destruct (Nat.ltb_spec MAX_BITS (length b + length x)); [discriminate|]. intros [= <-]. split; [reflexivity|lia]. Qed.
Lemma load_uint_nbits k v r : (v < 2 ^ N.of_nat k) -> load_uint k (nbits k v ++ r) = Ok (v, r).
Proof.
  intros H. unfold load_uint. destruct (Nat.ltb_spec (length (nbits k v ++ r)) k) as [L|_]; [rewrite app_length, length_nbits in L; lia|].
  rewrite take_app_alt by (rewrite length_nbits; reflexivity). rewrite drop_app_alt by (rewrite length_nbits; reflexivity).
  rewrite bval_nbits_small by exact H. reflexivity.
Qed.
Definition shard_bits (wc : Z) (p : list bool) : list bool :=
  nbits 8 (N.of_nat (length p)) ++ nbits 32 (as_unsigned 32 wc) ++ p ++ zeros (64 - length p).
Lemma store_shard_ok wc p b : is_path p ->
  store_shard (shard_at wc p) b = if (MAX_BITS <? length b + 104)%nat then Err CellOverflow else Ok (b ++ shard_bits wc p).
Proof.
  unfold is_path. intros Hp. unfold store_shard. rewrite prefix_len_path by lia.
  unfold w8. rewrite N.mod_small by lia.
  change (sh_prefix (shard_at wc p)) with (path_prefix p). change (sh_wc (shard_at wc p)) with wc. rewrite sub_tag by lia.
  rewrite nbits_bval' by (rewrite !app_length, length_zeros; cbn [length]; lia).
  assert (E : p ++ [false] ++ zeros (63 - length p) = p ++ zeros (64 - length p)).
  { f_equal. change [false] with (zeros 1). rewrite <- zeros_app. f_equal. lia. }
  rewrite E. unfold shard_bits.
  assert (Lp : length (p ++ zeros (64 - length p)) = 64%nat) by (rewrite app_length, length_zeros; lia).
  unfold put at 1. rewrite length_nbits. destruct (Nat.ltb_spec MAX_BITS (length b + 8)) as [L|L]; cbn [rbind].
  { destruct (Nat.ltb_spec MAX_BITS (length b + 104)); [reflexivity|lia]. }
  unfold put at 1. rewrite app_length, !length_nbits. destruct (Nat.ltb_spec MAX_BITS (length b + 8 + 32)) as [L2|L2]; cbn [rbind].
  { destruct (Nat.ltb_spec MAX_BITS (length b + 104)); [reflexivity|lia]. }
  unfold put. rewrite !app_length, !length_nbits, <- app_length, Lp. 
  destruct (Nat.ltb_spec MAX_BITS (length b + 8 + 32 + 64)) as [L3|L3]; destruct (Nat.ltb_spec MAX_BITS (length b + 104)); try lia; [reflexivity|].
  rewrite <- !app_assoc. reflexivity.
Qed.
Lemma mask_load x n : (n <= 63)%nat -> length x = 64%nat ->
  N.lor (N.land (bval x) (neg64 (bval (word (zeros n))))) (bval (word (zeros n))) = path_prefix (take n x).
Proof.
  intros Hn Hx. rewrite neg64_path by (rewrite length_zeros; lia). rewrite length_zeros.
  assert (E : map negb (zeros n) = replicate n true) by (clear; induction n as [|n IH]; [reflexivity|]; cbn; f_equal; exact IH).
  rewrite E. unfold word. rewrite length_zeros.
  rewrite <- (take_drop n x) at 1. assert (Lt : length (take n x) = n) by (rewrite take_length; lia).
  destruct (drop n x) as [|y r] eqn:Ed.
  { apply (f_equal length) in Ed. rewrite drop_length in Ed. cbn [length] in Ed. lia. }
  assert (Lr : length r = (63 - n)%nat).
  { apply (f_equal length) in Ed. rewrite drop_length in Ed. cbn [length] in Ed. lia. }
  rewrite land_bval by (rewrite !app_length, replicate_length; cbn [length]; rewrite length_zeros; lia).
  rewrite zip_app by (rewrite Lt, replicate_length; reflexivity). cbn [app zip_with].
  rewrite andb_zeros by exact Lr.
  assert (A : zip_with andb (take n x) (replicate n true) = take n x).
  { generalize (take n x) Lt. clear. intros l <-. induction l as [|b l IH]; [reflexivity|]. cbn. rewrite andb_true_r. f_equal. exact IH. }
  rewrite A, lor_bval by (rewrite !app_length; cbn [length]; rewrite Lt, !length_zeros; reflexivity).
  rewrite zip_app by (rewrite Lt, length_zeros; reflexivity). rewrite orb_zeros by exact Lt. cbn [zip_with].
  rewrite orb_true_r, orb_zeros by (rewrite length_zeros; reflexivity). unfold path_prefix. rewrite Lt. reflexivity.
Qed.
Lemma tag_of_len n : (n <= 60)%nat -> shl 64 1 (63 - N.of_nat n) = bval (word (zeros n)).
Proof.
  intros H. unfold shl. rewrite N.shiftl_1_l, N.mod_small by (apply N.pow_lt_mono_r; lia).
  unfold word. rewrite bval_tag, bval_zeros, length_zeros. replace (N.of_nat (63 - n)) with (63 - N.of_nat n) by lia. lia.
Qed.
Lemma load_uint_inv k b v r : load_uint k b = Ok (v, r) -> exists x, b = x ++ r /\ length x = k /\ v = bval x.
Proof.
  unfold load_uint. destruct (Nat.ltb_spec (length b) k) as [L|L]; [discriminate|]. intros [= <- <-].
  exists (take k b). split_and!; [symmetry; apply take_drop|rewrite take_length; lia|reflexivity].
Qed.
(** What is read is always a shard: the path is the leading bits of the 64 bits of the prefix. *)
Lemma load_shard_ok b s r : load_shard b = Ok (s, r) ->
  exists n wc x, b = nbits 8 (N.of_nat n) ++ nbits 32 wc ++ x ++ r /\ (n <= 60)%nat /\ wc < 2 ^ 32 /\ length x = 64%nat /\ s = shard_at (as_signed 32 wc) (take n x).
Proof.
  unfold load_shard. intros H.
  destruct (load_uint 8 b) as [[len b1]|] eqn:E1; cbn [rbind] in H; [|discriminate].
  destruct (N.ltb_spec MAX_SPLIT_DEPTH len) as [L|L]; [discriminate|].
  destruct (load_uint 32 b1) as [[wc b2]|] eqn:E2; cbn [rbind] in H; [|discriminate].
  destruct (load_uint 64 b2) as [[v b3]|] eqn:E3; cbn [rbind] in H; [|discriminate].
  injection H as <- <-.
  apply load_uint_inv in E1, E2, E3. destruct E1 as (x1 & -> & L1 & ->), E2 as (x2 & -> & L2 & ->), E3 as (x3 & -> & L3 & ->).
  unfold MAX_SPLIT_DEPTH in L.
  exists (N.to_nat (bval x1)), (bval x2), x3. split_and!.
  - rewrite N2Nat.id, !nbits_bval' by assumption. reflexivity.
  - lia.
  - pose proof (bval_lt x2) as B. rewrite L2 in B. exact B.
  - exact L3.
  - unfold shard_at. f_equal. replace (bval x1) with (N.of_nat (N.to_nat (bval x1))) at 1 2 by lia.
    rewrite tag_of_len by lia. apply mask_load; [lia|exact L3].
Qed.
Lemma load_shard_stored wc p r : is_path p -> (- 2 ^ 31 <= wc < 2 ^ 31)%Z -> load_shard (shard_bits wc p ++ r) = Ok (shard_at wc p, r).
Proof.
  unfold is_path. intros Hp Hw. unfold shard_bits. rewrite <- !app_assoc. unfold load_shard.
  rewrite load_uint_nbits by (change (2 ^ N.of_nat 8) with 256; lia). cbn [rbind].
  destruct (N.ltb_spec MAX_SPLIT_DEPTH (N.of_nat (length p))) as [L|_]; [unfold MAX_SPLIT_DEPTH in L; lia|].
  rewrite load_uint_nbits by apply (as_unsigned_lt 32). cbn [rbind].
  assert (Lx : length (p ++ zeros (64 - length p)) = 64%nat) by (rewrite app_length, length_zeros; lia).
  pose proof (load_uint_nbits 64 (bval (p ++ zeros (64 - length p))) r) as E.
  rewrite nbits_bval' in E by exact Lx. rewrite <- app_assoc in E. rewrite E.
  2:{ pose proof (bval_lt (p ++ zeros (64 - length p))) as B. rewrite Lx in B. exact B. }
  cbn [rbind]. rewrite tag_of_len by lia. rewrite mask_load by (assumption || lia).
  rewrite take_app. unfold shard_at. do 3 f_equal. apply as_signed_unsigned; [lia|exact Hw].
Qed.
