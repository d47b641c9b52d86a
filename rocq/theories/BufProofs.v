(** * Bit-level meaning of the checked buffer accesses of [Err.v]. *)
From Verif Require Import Err BitsProofs.
Local Open Scope nat_scope.

Ltac Zify.zify_post_hook ::= Z.div_mod_to_equations.

Lemma lookup_byte d P X Q q :
  bytes_bits d = P ++ X ++ Q -> length P = 8 * q -> length X = 8 ->
  exists b, d !! q = Some b /\ byte_bits b = X /\
    (forall x, bytes_bits (<[q:=x]> d) = P ++ byte_bits x ++ Q).
Proof.
  intros E HP HX.
  assert (Hq : q < length d).
  { pose proof (length_bytes_bits d) as L. rewrite E, !app_length in L. lia. }
  destruct (lookup_lt_is_Some_2 d q Hq) as [b Hb].
  pose proof (take_drop_middle d q b Hb) as Hd.
  assert (Lt : length (take q d) = q) by (rewrite take_length; lia).
  assert (E2 : bytes_bits (take q d) ++ byte_bits b ++ bytes_bits (drop (S q) d) = P ++ X ++ Q).
  { rewrite <- E. rewrite <- Hd at 3. rewrite bytes_bits_app, bytes_bits_cons. reflexivity. }
  apply app_inj_1 in E2 as [EP E2]; [|rewrite length_bytes_bits, Lt; lia].
  apply app_inj_1 in E2 as [EX EQ]; [|rewrite length_byte_bits; lia].
  exists b. split; [exact Hb|]. split; [exact EX|].
  intros x. rewrite insert_take_drop by exact Hq.
  rewrite bytes_bits_app, bytes_bits_cons, EP, EQ. reflexivity.
Qed.

Lemma app_split_at {A} (l : list A) n : n <= length l -> exists a b, l = a ++ b /\ length a = n.
Proof.
  intros H. exists (take n l), (drop n l). rewrite take_drop, take_length. split; [reflexivity|lia].
Qed.

(** The buffer [d] holds the bits [B] followed by zeros only. *)
Definition rep (d : list N) (B : list bool) : Prop :=
  length d = 128 /\ Forall byte_ok d /\ exists k, bytes_bits d = B ++ zeros k.

Lemma rep_len d B k : length d = 128 -> bytes_bits d = B ++ zeros k -> length B + k = 1024.
Proof.
  intros L E. pose proof (length_bytes_bits d) as H.
  rewrite E, app_length, length_zeros, L in H. lia.
Qed.

Lemma zip_orb_zeros_l l : zip_with orb (zeros (length l)) l = l.
Proof. induction l as [|b l IH]; [reflexivity|]. cbn [length zeros replicate zip_with]. fold (zeros (length l)). rewrite IH. reflexivity. Qed.
Lemma zip_orb_zeros_r l : zip_with orb l (zeros (length l)) = l.
Proof. induction l as [|b l IH]; [reflexivity|]. cbn [length zeros replicate zip_with]. fold (zeros (length l)). rewrite IH, orb_false_r. reflexivity. Qed.
Lemma zip_andb_zeros_r l n : length l = n -> zip_with andb l (zeros n) = zeros n.
Proof. intros <-. induction l as [|b l IH]; [reflexivity|]. cbn [length zeros replicate zip_with]. fold (zeros (length l)). rewrite IH, andb_false_r. reflexivity. Qed.
Lemma zip_andb_ones_r l n : length l = n -> zip_with andb l (replicate n true) = l.
Proof. intros <-. induction l as [|b l IH]; [reflexivity|]. cbn [length replicate zip_with]. rewrite IH, andb_true_r. reflexivity. Qed.

Lemma byte_ok_land a b : byte_ok a -> byte_ok (N.land a b).
Proof.
  unfold byte_ok. intros H. apply N.le_lt_trans with a; [|exact H].
  clear H. 
  rewrite <- (N.land_diag a) at 2.
  assert (E : N.land a b = N.ldiff a (N.ldiff a b)).
  { apply N.bits_inj. intros i. rewrite N.land_spec, !N.ldiff_spec.
    destruct (N.testbit a i), (N.testbit b i); reflexivity. }
  rewrite N.land_diag, E. apply N.ldiff_le. apply N.bits_inj. intros i.
  rewrite !N.ldiff_spec, N.bits_0. destruct (N.testbit a i), (N.testbit b i); reflexivity.
Qed.

Lemma lt_pow2_bits a n : (forall i, (n <= i)%N -> N.testbit a i = false) -> (a < 2 ^ n)%N.
Proof.
  intros H. assert (E : a = (a mod 2 ^ n)%N).
  { apply N.bits_inj. intros i. destruct (N.lt_ge_cases i n) as [L|L].
    - rewrite N.mod_pow2_bits_low by exact L. reflexivity.
    - rewrite N.mod_pow2_bits_high by exact L. apply H, L. }
  rewrite E. apply N.mod_lt. apply N.pow_nonzero. lia.
Qed.

Lemma bits_high_lt a n i : (a < 2 ^ n)%N -> (n <= i)%N -> N.testbit a i = false.
Proof.
  intros H L. rewrite <- (N.mod_small a (2 ^ n)) by exact H.
  apply N.mod_pow2_bits_high. exact L.
Qed.

Lemma byte_ok_lor a b : byte_ok a -> byte_ok b -> byte_ok (N.lor a b).
Proof.
  unfold byte_ok. change 256%N with (2 ^ 8)%N. intros Ha Hb. apply lt_pow2_bits.
  intros i Hi. rewrite N.lor_spec, (bits_high_lt a 8), (bits_high_lt b 8) by assumption. reflexivity.
Qed.

Lemma byte_ok_w8 a : byte_ok (w8 a).
Proof. unfold byte_ok, w8. apply N.mod_lt. lia. Qed.
Lemma byte_ok_shl8 a k : byte_ok (shl 8 a k).
Proof. unfold byte_ok, shl. apply N.mod_lt. change (2^8)%N with 256%N. lia. Qed.
Lemma byte_ok_shiftr a k : byte_ok a -> byte_ok (N.shiftr a k).
Proof.
  unfold byte_ok. intros H. rewrite N.shiftr_div_pow2.
  apply N.le_lt_trans with a; [|exact H]. apply N.div_le_upper_bound.
  - apply N.pow_nonzero; lia.
  - pose proof (N.pow_nonzero 2 k). nia.
Qed.

Lemma insert_ok d q x : Forall byte_ok d -> byte_ok x -> Forall byte_ok (<[q:=x]> d).
Proof. intros Hd Hx. apply Forall_insert; assumption. Qed.

(** ** Bit patterns of shifted values *)

Lemma byte_bits_w8 v : byte_bits (w8 v) = nbits 8 v.
Proof. unfold byte_bits, w8. change 256%N with (2 ^ N.of_nat 8)%N. apply nbits_mod. lia. Qed.

Lemma byte_bits_shl v k :
  k <= 8 -> byte_bits (shl 8 v (N.of_nat k)) = drop k (byte_bits v) ++ zeros k.
Proof.
  intros H. unfold byte_bits, shl. change (2 ^ 8)%N with (2 ^ N.of_nat 8)%N.
  rewrite nbits_mod by lia. apply nbits_shiftl. exact H.
Qed.

Lemma byte_bits_shiftr v k :
  byte_ok v -> k <= 8 -> byte_bits (N.shiftr v (N.of_nat k)) = zeros k ++ take (8 - k) (byte_bits v).
Proof. intros Hv H. unfold byte_bits. apply nbits_shiftr; [exact Hv|exact H]. Qed.

Lemma byte_bits_mask r :
  0 < r < 8 -> byte_bits (shl 8 255 (N.of_nat (8 - r))) = replicate r true ++ zeros (8 - r).
Proof.
  intros H. assert (C : r = 1 \/ r = 2 \/ r = 3 \/ r = 4 \/ r = 5 \/ r = 6 \/ r = 7) by lia.
  repeat (destruct C as [->|C]; [reflexivity|]). subst; reflexivity.
Qed.

(** ** Accesses on represented buffers *)

Lemma or_at_raw d P X Q q x r xs :
  bytes_bits d = P ++ zeros (8 - r) ++ Q -> length P = 8 * q + r -> r < 8 ->
  Forall byte_ok d -> byte_ok x ->
  byte_bits x = zeros r ++ xs -> X = xs ->
  exists d', or_at d q x = Some d' /\ length d' = length d /\ Forall byte_ok d' /\
    bytes_bits d' = P ++ xs ++ Q.
Proof.
  intros E HP Hr Hd Hx Ex _.
  destruct (app_split_at P (8 * q)) as (P1 & P2 & -> & LP1); [lia|].
  rewrite app_length in HP.
  rewrite <- app_assoc in E.
  destruct (lookup_byte d P1 (P2 ++ zeros (8 - r)) Q q) as (b & Hb & Eb & Hins).
  { rewrite E, <- !app_assoc. reflexivity. }
  { exact LP1. }
  { rewrite app_length, length_zeros. lia. }
  unfold or_at. rewrite Hb. eexists. split; [reflexivity|].
  split; [apply insert_length|].
  assert (byte_ok b) by (eapply Forall_lookup_1; eassumption).
  split; [apply insert_ok; [assumption|apply byte_ok_lor; assumption]|].
  rewrite Hins. unfold byte_bits at 1. rewrite nbits_lor.
  fold (byte_bits b). fold (byte_bits x). rewrite Eb, Ex.
  assert (Lx : length xs = 8 - r).
  { pose proof (length_byte_bits x) as L. rewrite Ex, app_length, length_zeros in L. lia. }
  rewrite zip_with_app by (rewrite length_zeros; lia).
  replace r with (length P2) at 1 by lia. rewrite zip_orb_zeros_r.
  rewrite <- Lx, zip_orb_zeros_l. rewrite <- !app_assoc. reflexivity.
Qed.

(** OR-ing the padded bits [xs] into the first unused byte appends them. *)
Lemma or_at_rep d B q r x xs :
  rep d B -> length B = 8 * q + r -> r < 8 -> length B < 1024 ->
  byte_ok x -> length xs <= 8 - r ->
  byte_bits x = zeros r ++ xs ++ zeros (8 - r - length xs) ->
  exists d', or_at d q x = Some d' /\ rep d' (B ++ xs).
Proof.
  intros (L & Hd & k & E) LB Hr HB Hx Hxs Ex.
  pose proof (rep_len _ _ _ L E) as Hk.
  destruct (or_at_raw d B (xs ++ zeros (8 - r - length xs)) (zeros (k - (8 - r))) q x r
              (xs ++ zeros (8 - r - length xs))) as (d' & Ho & L' & Hd' & E').
  { rewrite <- zeros_app. rewrite E. do 2 f_equal. lia. }
  { exact LB. } { exact Hr. } { exact Hd. } { exact Hx. } { exact Ex. } { reflexivity. }
  exists d'. split; [exact Ho|]. split; [lia|]. split; [exact Hd'|].
  exists (k - length xs). rewrite E', <- !app_assoc, <- zeros_app. do 3 f_equal. lia.
Qed.

Lemma cpy_raw d P X Q q bs :
  bytes_bits d = P ++ X ++ Q -> length P = 8 * q -> length X = 8 * length bs ->
  Forall byte_ok d -> Forall byte_ok bs ->
  exists d', cpy d q bs = Some d' /\ length d' = length d /\ Forall byte_ok d' /\
    bytes_bits d' = P ++ bytes_bits bs ++ Q.
Proof.
  intros E HP HX Hd Hbs.
  pose proof (length_bytes_bits d) as L. rewrite E, !app_length in L.
  unfold cpy. destruct (Nat.leb_spec (q + length bs) (length d)) as [Hle|Hgt]; [|lia].
  eexists. split; [reflexivity|].
  assert (Ed : d = take q d ++ take (length bs) (drop q d) ++ drop (q + length bs) d).
  { rewrite <- drop_drop, take_drop, take_drop. reflexivity. }
  assert (LA : length (bytes_bits (take q d)) = length P).
  { rewrite length_bytes_bits, take_length. lia. }
  assert (LB : length (bytes_bits (take (length bs) (drop q d))) = length X).
  { rewrite length_bytes_bits, take_length, drop_length. lia. }
  rewrite Ed, !bytes_bits_app in E.
  apply app_inj_1 in E as [EP E]; [|exact LA].
  apply app_inj_1 in E as [EX EQ]; [|exact LB].
  split; [rewrite !app_length, take_length, drop_length; lia|].
  split.
  - apply Forall_app; split; [apply Forall_take; exact Hd|].
    apply Forall_app; split; [exact Hbs|apply Forall_drop; exact Hd].
  - rewrite !bytes_bits_app, EP, EQ. reflexivity.
Qed.

(** Copying bytes at an aligned end appends their bits. *)
Lemma cpy_rep d B q bs xs j :
  rep d B -> length B = 8 * q -> q + length bs <= 128 ->
  Forall byte_ok bs -> bytes_bits bs = xs ++ zeros j ->
  exists d', cpy d q bs = Some d' /\ rep d' (B ++ xs).
Proof.
  intros (L & Hd & k & E) LB Hq Hbs Ebs.
  pose proof (rep_len _ _ _ L E) as Hk.
  pose proof (length_bytes_bits bs) as Lbs. rewrite Ebs, app_length, length_zeros in Lbs.
  destruct (cpy_raw d B (zeros (8 * length bs)) (zeros (k - 8 * length bs)) q bs)
    as (d' & Hc & L' & Hd' & E').
  { rewrite <- zeros_app, E. do 2 f_equal. lia. }
  { exact LB. } { apply length_zeros. } { exact Hd. } { exact Hbs. }
  exists d'. split; [exact Hc|]. split; [lia|]. split; [exact Hd'|].
  exists (k - length xs). rewrite E', Ebs, <- !app_assoc, <- zeros_app. do 3 f_equal. lia.
Qed.

Lemma wr_cpy d q v : wr d q v = cpy d q [v].
Proof.
  unfold wr, cpy. cbn [length].
  destruct (Nat.leb_spec (q + 1) (length d)) as [H|H].
  - destruct (lookup_lt_is_Some_2 d q) as [b ->]; [lia|]. f_equal.
    rewrite insert_take_drop by lia. do 2 f_equal. cbn [app]. do 2 f_equal. lia.
  - rewrite lookup_ge_None_2 by lia. reflexivity.
Qed.

Lemma wr_rep d B q x xs :
  rep d B -> length B = 8 * q -> q < 128 -> byte_ok x -> length xs <= 8 ->
  byte_bits x = xs ++ zeros (8 - length xs) ->
  exists d', wr d q x = Some d' /\ rep d' (B ++ xs).
Proof.
  intros HR LB Hq Hx Lxs Ex. rewrite wr_cpy.
  apply (cpy_rep d B q [x] xs (8 - length xs)); [exact HR|exact LB|cbn [length]; lia| |].
  - constructor; [exact Hx|constructor].
  - rewrite bytes_bits_cons. cbn [bytes_bits map concat]. rewrite app_nil_r. exact Ex.
Qed.

(** Masking the byte that contains the end of [P] clears the rest of that byte. *)
Lemma and_at_raw d P X Q q r :
  bytes_bits d = P ++ X ++ Q -> length P = 8 * q + r -> 0 < r < 8 -> length X = 8 - r ->
  Forall byte_ok d ->
  exists d', and_at d q (shl 8 255 (N.of_nat (8 - r))) = Some d' /\ length d' = length d /\
    Forall byte_ok d' /\ bytes_bits d' = P ++ zeros (8 - r) ++ Q.
Proof.
  intros E HP Hr HX Hd.
  destruct (app_split_at P (8 * q)) as (P1 & P2 & -> & LP1); [lia|].
  rewrite app_length in HP. rewrite <- app_assoc in E.
  destruct (lookup_byte d P1 (P2 ++ X) Q q) as (b & Hb & Eb & Hins).
  { rewrite E, <- !app_assoc. reflexivity. }
  { exact LP1. }
  { rewrite app_length. lia. }
  unfold and_at. rewrite Hb. eexists. split; [reflexivity|].
  split; [apply insert_length|].
  assert (byte_ok b) by (eapply Forall_lookup_1; eassumption).
  split; [apply insert_ok; [assumption|apply byte_ok_land; assumption]|].
  rewrite Hins. unfold byte_bits at 1. rewrite nbits_land.
  fold (byte_bits b). fold (byte_bits (shl 8 255 (N.of_nat (8 - r)))).
  rewrite Eb, byte_bits_mask by exact Hr.
  rewrite zip_with_app by (rewrite replicate_length; lia).
  rewrite zip_andb_ones_r by lia. rewrite zip_andb_zeros_r by lia.
  rewrite <- !app_assoc. reflexivity.
Qed.

Lemma and_at_rep d B xs q r :
  rep d (B ++ xs) -> length B = 8 * q + r -> 0 < r < 8 -> length xs <= 8 - r ->
  length B < 1024 ->
  exists d', and_at d q (shl 8 255 (N.of_nat (8 - r))) = Some d' /\ rep d' B.
Proof.
  intros (L & Hd & k & E) LB Hr Hxs HB.
  pose proof (rep_len _ _ _ L E) as Hk. rewrite app_length in Hk.
  destruct (and_at_raw d B (xs ++ zeros (8 - r - length xs))
              (zeros (k - (8 - r - length xs))) q r) as (d' & Ha & L' & Hd' & E').
  { rewrite E, <- !app_assoc, <- zeros_app. do 3 f_equal. lia. }
  { exact LB. } { exact Hr. } { rewrite app_length, length_zeros. lia. } { exact Hd. }
  exists d'. split; [exact Ha|]. split; [lia|]. split; [exact Hd'|].
  eexists. rewrite E', <- zeros_app. reflexivity.
Qed.

(** Reading. *)
Lemma rdn_spec d q n :
  q + n <= length d ->
  rdn d q n = Some (take n (drop q d)) /\
  bytes_bits (take n (drop q d)) = take (8 * n) (drop (8 * q) (bytes_bits d)).
Proof.
  intros H. unfold rdn. destruct (Nat.leb_spec (q + n) (length d)); [|lia].
  split; [reflexivity|].
  assert (E : d = take q d ++ take n (drop q d) ++ drop (q + n) d).
  { rewrite <- drop_drop, take_drop, take_drop. reflexivity. }
  rewrite E at 2. rewrite !bytes_bits_app.
  rewrite drop_app_alt by (rewrite length_bytes_bits, take_length; lia).
  rewrite take_app_alt by (rewrite length_bytes_bits, take_length, drop_length; lia).
  reflexivity.
Qed.

Lemma rd_spec d q :
  q < length d -> exists b, rd d q = Some b /\ byte_bits b = take 8 (drop (8 * q) (bytes_bits d)).
Proof.
  intros H. destruct (lookup_lt_is_Some_2 d q H) as [b Hb]. exists b. split; [exact Hb|].
  destruct (rdn_spec d q 1) as [_ E]; [lia|].
  rewrite (drop_S _ _ _ Hb) in E. cbn [take] in E. rewrite take_0 in E.
  rewrite bytes_bits_cons in E. change (bytes_bits []) with (@nil bool) in E.
  rewrite app_nil_r in E. exact E.
Qed.
