(** * Composing the storing and loading of fields. *)
From Verif Require Import Err BitsProofs IntModel IntProofs CellModel TextModel NumModel ShardProofs NumProofs AddrModel AddrSpec.
Local Open Scope N_scope.

(** ** Storing *)
Lemma put_unfold x b : put x b = if (MAX_BITS <? length b + length x)%nat then Err CellOverflow else Ok (b ++ x).
Proof. reflexivity. Qed.
Lemma bind_put x y f b : (forall b, f b = put y b) -> (let? b := put x b in f b) = put (x ++ y) b.
Proof.
  intros H. unfold put. destruct (Nat.ltb_spec MAX_BITS (length b + length x)) as [L|L].
  - cbn [rbind]. destruct (Nat.ltb_spec MAX_BITS (length b + length (x ++ y))) as [L2|L2]; [reflexivity|]. rewrite app_length in L2. lia.
  - cbn [rbind]. rewrite H. unfold put. rewrite !app_length, Nat.add_assoc.
    destruct (MAX_BITS <? length b + length x + length y)%nat; [reflexivity|]. rewrite app_assoc. reflexivity.
Qed.
Lemma bind_put' s x y f b : (forall b, s b = put x b) -> (forall b, f b = put y b) -> (let? b := s b in f b) = put (x ++ y) b.
Proof. intros Hs Hf. rewrite Hs. apply bind_put, Hf. Qed.
Lemma cap_put n x e b : n = N.of_nat (length x) -> e = put x b -> (if negb (has_capacity b n) then Err CellOverflow else e) = put x b.
Proof.
  intros -> H. unfold has_capacity. destruct (N.leb_spec (N.of_nat (length b) + N.of_nat (length x)) 1023) as [L|L]; cbn [negb]; [apply H|].
  unfold put. destruct (Nat.ltb_spec MAX_BITS (length b + length x)) as [L2|L2]; [reflexivity|]. unfold MAX_BITS in L2. lia.
Qed.
Lemma raw_data_pack x : raw_data (pack x) (count x) = x.
Proof.
  unfold raw_data, count. rewrite Nat2N.id, bytes_bits_pack, take_app. rewrite length_pack.
  assert (length x <= 8 * ((length x + 7) / 8))%nat by (pose proof (Nat.div_mod (length x + 7) 8 ltac:(lia)); pose proof (Nat.mod_upper_bound (length x + 7) 8 ltac:(lia)); lia).
  replace (length x - _)%nat with 0%nat by lia. reflexivity.
Qed.
Lemma store_raw_put x b : store_raw_bits (pack x) (count x) b = put x b.
Proof. unfold store_raw_bits. rewrite raw_data_pack. reflexivity. Qed.
Lemma store_opt_put {A} (R : A -> list bool -> Prop) s o x b : (forall a y b, R a y -> s a b = put y b) -> maybe R o x -> store_opt s o b = put x b.
Proof.
  intros H Hm. destruct Hm as [|a x Ha]; [reflexivity|]. cbn [store_opt]. change (true :: x) with ([true] ++ x). apply bind_put. intros b'. apply H, Ha.
Qed.
Lemma store_sk_put k v b : v < 2 ^ sk_bits k -> store_sk k v b = put (nbits (N.to_nat (sk_bits k)) v) b.
Proof.
  intros H. unfold store_sk, sk_valid. assert (sk_max k + 1 = 2 ^ sk_bits k) by (destruct k; reflexivity).
  destruct (N.leb_spec v (sk_max k)) as [L|L]; [reflexivity|lia].
Qed.
Lemma as_unsigned_bits w z : nbits w (as_unsigned (N.of_nat w) z) = int_bits w z.
Proof. unfold int_bits, as_unsigned. rewrite nat_N_Z. reflexivity. Qed.

(** ** Loading *)
Lemma load_bit_iff b x r : load_bit b = Ok (x, r) <-> b = x :: r.
Proof. destruct b as [|y b]; cbn; split; intros H; [discriminate|discriminate|congruence|congruence]. Qed.
Lemma load_raw_iff n b bs r : load_raw_bits n b = Ok (bs, r) <-> exists x, count x = n /\ bs = pack x /\ b = x ++ r.
Proof.
  unfold load_raw_bits, count. destruct (Nat.ltb_spec (length b) (N.to_nat n)) as [L|L].
  - split; [discriminate|]. intros (x & Hn & _ & ->). rewrite app_length in L. lia.
  - split.
    + intros [= <- <-]. exists (take (N.to_nat n) b). split_and!; [rewrite take_length; lia|reflexivity|symmetry; apply take_drop].
    + intros (x & Hn & -> & ->). replace (N.to_nat n) with (length x) by lia. rewrite take_app, drop_app. reflexivity.
Qed.
Lemma load_uint_iff' k b v r : load_uint k b = Ok (v, r) <-> v < 2 ^ N.of_nat k /\ b = nbits k v ++ r.
Proof.
  unfold load_uint. destruct (Nat.ltb_spec (length b) k) as [L|L].
  - split; [discriminate|]. intros [_ ->]. rewrite app_length, length_nbits in L. lia.
  - split.
    + intros [= <- <-]. split.
      * pose proof (bval_lt (take k b)) as B. rewrite take_length in B. replace (k `min` length b)%nat with k in B by lia. exact B.
      * rewrite nbits_bval' by (rewrite take_length; lia). symmetry. apply take_drop.
    + intros [Hv ->]. rewrite take_app_alt, drop_app_alt by (rewrite length_nbits; reflexivity). rewrite bval_nbits_small by exact Hv. reflexivity.
Qed.
Lemma load_sk_iff k b v r : load_sk k b = Ok (v, r) <-> v < 2 ^ sk_bits k /\ b = nbits (N.to_nat (sk_bits k)) v ++ r.
Proof.
  unfold load_sk. assert (B : 2 ^ sk_bits k <= 2 ^ 16) by (apply N.pow_le_mono_r; destruct k; cbn; lia). split.
  - destruct (load_uint (N.to_nat (sk_bits k)) b) as [[x b']|e] eqn:E; [|discriminate]. cbn [rbind]. intros [= <- <-].
    apply load_uint_iff' in E. rewrite N2Nat.id in E. destruct E as [L ->]. unfold w16. rewrite N.mod_small by lia. auto.
  - intros [L ->]. rewrite (proj2 (load_uint_iff' _ _ _ _) (conj (eq_ind_r (fun z => v < 2 ^ z) L (N2Nat.id _)) eq_refl)). cbn [rbind]. unfold w16. rewrite N.mod_small by lia. reflexivity.
Qed.
Lemma load_sd_iff b v r : load_sd b = Ok (v, r) <-> 1 <= v <= 31 /\ b = nbits 5 v ++ r.
Proof.
  unfold load_sd. split.
  - destruct (load_uint 5 b) as [[x b']|e] eqn:E; [|discriminate]. cbn [rbind]. unfold sd_new. destruct (N.eqb_spec x 0); [discriminate|].
    cbn [rbind]. intros [= <- <-]. apply load_uint_iff' in E. destruct E as [L ->]. change (2 ^ N.of_nat 5) with 32 in L. split; [lia|reflexivity].
  - intros [L ->]. assert (v < 2 ^ N.of_nat 5) by (change (2 ^ N.of_nat 5) with 32; lia). rewrite (proj2 (load_uint_iff' 5 _ v r) ltac:(auto)). cbn [rbind].
    unfold sd_new. destruct (N.eqb_spec v 0); [lia|reflexivity].
Qed.
Lemma load_int_iff w b z r : (0 < w)%nat -> (let? (x, b) := load_uint w b in Ok (as_signed (N.of_nat w) x, b)) = Ok (z, r) <-> in_int (Z.of_nat w) z /\ b = int_bits w z ++ r.
Proof.
  intros Hw. split.
  - destruct (load_uint w b) as [[x b']|e] eqn:E; [|discriminate]. cbn [rbind]. intros [= <- <-]. apply load_uint_iff' in E. destruct E as [L ->].
    assert (S : in_int (Z.of_nat w) (as_signed (N.of_nat w) x) /\ as_unsigned (N.of_nat w) (as_signed (N.of_nat w) x) = x).
    { unfold in_int, as_signed, as_unsigned. rewrite nat_N_Z.
      assert (P : 2 ^ N.of_nat w = 2 * 2 ^ (N.of_nat w - 1)) by (rewrite <- N.pow_succ_r'; f_equal; lia).
      assert (PZ : Z.of_N (2 ^ (N.of_nat w - 1)) = (2 ^ (Z.of_nat w - 1))%Z) by (rewrite N2Z.inj_pow; f_equal; lia).
      assert (PW : (2 ^ Z.of_nat w = 2 * 2 ^ (Z.of_nat w - 1))%Z) by (rewrite <- Z.pow_succ_r by lia; f_equal; lia).
      assert (0 < 2 ^ (Z.of_nat w - 1))%Z by (apply Z.pow_pos_nonneg; lia).
      destruct (N.ltb_spec x (2 ^ (N.of_nat w - 1))) as [C|C].
      - split; [lia|]. rewrite Z.mod_small by lia. lia.
      - split; [lia|]. replace (Z.of_N x - 2 ^ Z.of_nat w)%Z with (Z.of_N x + (-1) * 2 ^ Z.of_nat w)%Z by lia. rewrite Z.mod_add by lia. rewrite Z.mod_small by lia. lia. }
    destruct S as [S1 S2]. split; [exact S1|]. rewrite <- as_unsigned_bits, S2. reflexivity.
  - intros [Hz ->]. rewrite <- as_unsigned_bits.
    assert (Hw' : 0 < N.of_nat w) by lia.
    rewrite (proj2 (load_uint_iff' w _ (as_unsigned (N.of_nat w) z) r)); [|split; [apply as_unsigned_lt|reflexivity]].
    cbn [rbind]. rewrite as_signed_unsigned; [reflexivity|exact Hw'|]. unfold in_int in Hz. unfold IntSpec.in_i. rewrite ?nat_N_Z. exact Hz.
Qed.
Lemma load_bytes_iff n b bs r : (let? (x, b) := load_uint (8 * n) b in Ok (to_be n x, b)) = Ok (bs, r) <-> Forall byte_ok bs /\ length bs = n /\ b = bytes_bits bs ++ r.
Proof.
  split.
  - destruct (load_uint (8 * n) b) as [[x b']|e] eqn:E; [|discriminate]. cbn [rbind]. intros [= <- <-]. apply load_uint_iff' in E. destruct E as [L ->].
    split_and!; [apply to_be_ok|apply to_be_length|]. rewrite bytes_bits_to_be. reflexivity.
  - intros (F & <- & ->). pose proof (from_be_lt bs F) as L.
    assert (E : bytes_bits bs = nbits (8 * length bs) (from_be bs)).
    { rewrite from_be_bval by exact F. symmetry. apply nbits_bval'. apply length_bytes_bits. }
    rewrite (proj2 (load_uint_iff' (8 * length bs) _ (from_be bs) r)); [|split; [exact L|rewrite E; reflexivity]].
    cbn [rbind]. do 2 f_equal. apply bytes_bits_inj; [apply to_be_ok|exact F|]. rewrite bytes_bits_to_be. symmetry. exact E.
Qed.
Lemma load_opt_iff {A} (R : A -> list bool -> Prop) l b o r :
  (forall b a r, l b = Ok (a, r) <-> exists x, R a x /\ b = x ++ r) ->
  load_opt l b = Ok (o, r) <-> exists x, maybe R o x /\ b = x ++ r.
Proof.
  intros H. unfold load_opt. split.
  - destruct b as [|f b]; [discriminate|]. cbn [load_bit rbind]. destruct f.
    + destruct (l b) as [[a b']|e] eqn:E; [|discriminate]. cbn [rbind]. intros [= <- <-]. apply H in E. destruct E as (x & Hx & ->).
      exists (true :: x). split; [constructor; exact Hx|reflexivity].
    + intros [= <- <-]. exists [false]. split; [constructor|reflexivity].
  - intros (x & Hm & ->). destruct Hm as [|a x Ha]; [reflexivity|]. cbn [app load_bit rbind].
    rewrite (proj2 (H (x ++ r) a r)) by (exists x; auto). reflexivity.
Qed.
Lemma load_int_inv w b x r : (0 < w)%nat -> load_uint w b = Ok (x, r) ->
  in_int (Z.of_nat w) (as_signed (N.of_nat w) x) /\ b = int_bits w (as_signed (N.of_nat w) x) ++ r.
Proof. intros Hw E. apply load_int_iff; [exact Hw|]. rewrite E. reflexivity. Qed.
Lemma load_int_ok w z r : (0 < w)%nat -> in_int (Z.of_nat w) z ->
  load_uint w (int_bits w z ++ r) = Ok (as_unsigned (N.of_nat w) z, r) /\ as_signed (N.of_nat w) (as_unsigned (N.of_nat w) z) = z.
Proof.
  intros Hw Hz. split; [|apply as_signed_unsigned; [lia|unfold in_int in Hz; unfold IntSpec.in_i; rewrite ?nat_N_Z; exact Hz]].
  rewrite <- as_unsigned_bits. apply load_uint_iff'. split; [apply as_unsigned_lt|reflexivity].
Qed.
Lemma load_bytes_inv n b x r : load_uint (8 * n) b = Ok (x, r) -> b = bytes_bits (to_be n x) ++ r.
Proof. intros E. apply load_uint_iff' in E. destruct E as [_ ->]. rewrite bytes_bits_to_be. reflexivity. Qed.
Lemma load_bytes_ok n bs r : Forall byte_ok bs -> length bs = n -> exists x, load_uint (8 * n) (bytes_bits bs ++ r) = Ok (x, r) /\ to_be n x = bs.
Proof.
  intros F L. pose proof (proj2 (load_bytes_iff n (bytes_bits bs ++ r) bs r) (conj F (conj L eq_refl))) as E.
  destruct (load_uint (8 * n) (bytes_bits bs ++ r)) as [[x b']|e] eqn:EL; [|discriminate]. cbn [rbind] in E. injection E as E1 E2. exists x. subst. auto.
Qed.
Lemma has_remaining_count x b : has_remaining (x ++ b) (count x) = true.
Proof. unfold has_remaining, count. rewrite Nat2N.id, app_length. apply Nat.leb_le. lia. Qed.
