(** * Proofs about the byte-level slice reads. *)
From Verif Require Import Err BitsProofs BufProofs BuilderModel BuilderProofs SliceModel SliceSpec.
Local Open Scope nat_scope.

Ltac Zify.zify_post_hook ::= Z.div_mod_to_equations.

Lemma sub_sub {A} (l : list A) b m off k :
  off + k <= m -> take k (drop off (take m (drop b l))) = take k (drop (b + off) l).
Proof.
  intros H. rewrite skipn_firstn_comm, take_take, drop_drop. f_equal. lia.
Qed.

(** ** Numeric windows *)

Lemma nbits_window T X L k e :
  nbits T X = L -> k + e <= T -> nbits k (N.shiftr X (N.of_nat e)) = take k (drop (T - e - k) L).
Proof.
  intros <- H. replace T with ((T - (k + e)) + (k + e)) at 2 by lia.
  rewrite nbits_app, drop_app_alt by (rewrite length_nbits; lia).
  rewrite nbits_app, take_app_alt by (rewrite length_nbits; lia). reflexivity.
Qed.

Lemma val_of_bits k v l : (v < 2 ^ N.of_nat k)%N -> nbits k v = l -> v = bval l.
Proof. intros Hv <-. symmetry. apply bval_nbits_small. exact Hv. Qed.

Lemma shiftr_lt v T e : (v < 2 ^ N.of_nat T)%N -> e <= T -> (N.shiftr v (N.of_nat e) < 2 ^ N.of_nat (T - e))%N.
Proof.
  intros Hv He. rewrite N.shiftr_div_pow2. apply N.div_lt_upper_bound; [apply N.pow_nonzero; lia|].
  rewrite <- N.pow_add_r. replace (N.of_nat e + N.of_nat (T - e))%N with (N.of_nat T) by lia. exact Hv.
Qed.

Lemma lor_lt a b n : (a < 2 ^ n)%N -> (b < 2 ^ n)%N -> (N.lor a b < 2 ^ n)%N.
Proof.
  intros Ha Hb. apply lt_pow2_bits. intros i Hi.
  rewrite N.lor_spec, (bits_high_lt a n), (bits_high_lt b n) by assumption. reflexivity.
Qed.

Lemma lor_split w a b xs ys :
  nbits w a = xs ++ zeros (length ys) -> nbits w b = zeros (length xs) ++ ys ->
  nbits w (N.lor a b) = xs ++ ys.
Proof.
  intros Ha Hb. rewrite nbits_lor, Ha, Hb.
  rewrite zip_with_app by (rewrite length_zeros; reflexivity).
  rewrite zip_orb_zeros_r, zip_orb_zeros_l. reflexivity.
Qed.

Lemma from_be_bits bs : Forall byte_ok bs -> nbits (8 * length bs) (from_be bs) = bytes_bits bs.
Proof.
  intros H. rewrite from_be_bval by exact H. apply nbits_bval'. apply length_bytes_bits.
Qed.

Lemma shl_lt w v k : (shl w v k < 2 ^ w)%N.
Proof. unfold shl. apply N.mod_lt. apply N.pow_nonzero. lia. Qed.

Lemma rdn_some d q n : q + n <= length d -> rdn d q n = Some (take n (drop q d)).
Proof. intros H. apply rdn_spec. exact H. Qed.

Lemma drop_take_all {A} (l : list A) n m : n <= m -> drop m (take n l) = [].
Proof. intros H. apply drop_ge. rewrite take_length. lia. Qed.

Lemma take_take_split {A} (l : list A) n m : take n l ++ take m (drop n l) = take (n + m) l.
Proof. apply take_take_drop. Qed.

(** Reading [n] bytes at bit position [8q + r]. *)
Lemma shifted_read d q r n :
  Forall byte_ok d -> 0 < r < 8 -> q + (n + 1) <= length d ->
  nbits (8 * n) (N.shiftr (from_be (take (n + 1) (drop q d))) (N.of_nat (8 - r)))
  = take (8 * n) (drop (8 * q + r) (bytes_bits d)).
Proof.
  intros Hd Hr Hq. destruct (rdn_spec d q (n + 1) Hq) as [_ E].
  rewrite (nbits_window (8 * (n + 1)) _ (bytes_bits (take (n + 1) (drop q d)))).
  - rewrite E. replace (8 * (n + 1) - (8 - r) - 8 * n) with r by lia.
    apply sub_sub. lia.
  - rewrite <- from_be_bits by (apply Forall_take, Forall_drop, Hd).
    f_equal. rewrite take_length, drop_length. lia.
  - lia.
Qed.

Section S.
Context {R : Type}.
Implicit Types s : slice R.

Lemma sbits_length s : s_ok s -> length (sbits s) = N.to_nat (be (sr s) - bs (sr s)).
Proof.
  intros ((Hd & H1 & H2 & H3) & H4 & H5). unfold sbits.
  rewrite take_length, drop_length, length_bytes_bits. lia.
Qed.

Lemma srefs_length s : s_ok s -> length (srefs s) = N.to_nat (re (sr s) - rs (sr s)).
Proof.
  intros ((Hd & H1 & H2 & H3) & H4 & H5). unfold srefs.
  rewrite take_length, drop_length. lia.
Qed.

(** Everything a read needs to know. *)
Lemma win_facts s off k :
  s_ok s -> off + k <= length (sbits s) ->
  take k (drop off (sbits s)) = take k (drop (N.to_nat (bs (sr s)) + off) (bytes_bits (cv_data (sc s)))) /\
  N.to_nat (bs (sr s)) + off + k <= 8 * length (cv_data (sc s)) /\
  N.to_nat (bs (sr s)) + off + k <= N.to_nat (be (sr s)) /\
  N.to_nat (be (sr s)) <= 1023.
Proof.
  intros Hs Hk. pose proof (sbits_length s Hs) as L.
  destruct Hs as ((Hd & H1 & H2 & H3) & H4 & H5).
  split; [|lia]. unfold sbits. apply sub_sub. lia.
Qed.

Lemma pos_split_nat n : exists q r, n = 8 * q + r /\ r < 8 /\ n / 8 = q /\ n mod 8 = r.
Proof. exists (n / 8), (n mod 8). lia. Qed.

Ltac idx s off :=
  let Hs := fresh in
  set (I := N.to_nat (bs (sr s)) + off) in *;
  assert (EI : (bs (sr s) + N.of_nat off)%N = N.of_nat I) by lia.

Lemma get_bit_spec s off :
  s_ok s -> (off <= 64000)%N ->
  get_bit s off = match sbits s !! N.to_nat off with Some b => Ok b | None => Err CellUnderflow end.
Proof.
  intros Hs Hoff. pose proof (sbits_length s Hs) as L. pose proof Hs as ((Hd & H1 & H2 & H3) & H4 & H5).
  unfold get_bit. rewrite w16_small by lia.
  destruct (N.ltb_spec (bs (sr s) + off) (be (sr s))) as [H|H].
  - set (i := (bs (sr s) + off)%N) in *.
    destruct (lookup_lt_is_Some_2 (sbits s) (N.to_nat off)) as [b Hb]; [lia|]. rewrite Hb.
    destruct (rd_spec (cv_data (sc s)) (N.to_nat (i / 8))) as (byte & Hrd & Eb); [lia|].
    rewrite Hrd. f_equal.
    unfold sbits in Hb. rewrite lookup_take in Hb by lia. rewrite lookup_drop in Hb.
    replace (N.to_nat (bs (sr s)) + N.to_nat off) with (8 * N.to_nat (i / 8) + N.to_nat (i mod 8)) in Hb by lia.
    rewrite <- lookup_drop in Hb.
    rewrite <- (lookup_take _ 8) in Hb by lia. rewrite <- Eb in Hb.
    unfold byte_bits in Hb. rewrite nbits_lookup in Hb by lia.
    injection Hb as <-.
    match goal with |- _ = N.testbit _ ?x => replace x with (7 - i mod 8)%N by lia end.
    change 1%N with (N.ones 1). rewrite N.land_ones. change (2 ^ 1)%N with 2%N.
    rewrite <- N.bit0_mod. rewrite N.shiftr_spec by lia. rewrite N.add_0_l.
    destruct (N.testbit byte (7 - i mod 8)); reflexivity.
  - rewrite lookup_ge_None_2 by lia. reflexivity.
Qed.

Lemma get_uW_spec n s off :
  s_ok s -> 1 <= n <= 16 -> (off <= 64000)%N ->
  get_uW n s off =
    if N.to_nat off + 8 * n <=? length (sbits s)
    then Ok (bval (take (8 * n) (drop (N.to_nat off) (sbits s)))) else Err CellUnderflow.
Proof.
  intros Hs Hn Hoff. pose proof (sbits_length s Hs) as L. pose proof Hs as ((Hd & H1 & H2 & H3) & H4 & H5).
  unfold get_uW. rewrite !w16_small by lia.
  destruct (Nat.leb_spec (N.to_nat off + 8 * n) (length (sbits s))) as [H|H];
    destruct (N.leb_spec (bs (sr s) + off + 8 * N.of_nat n) (be (sr s))) as [G|G]; try lia; [|reflexivity].
  destruct (win_facts s (N.to_nat off) (8 * n) Hs H) as (EW & F1 & F2 & F3). rewrite EW.
  set (I := N.to_nat (bs (sr s)) + N.to_nat off) in *.
  destruct (pos_split (bs (sr s) + off) I ltac:(lia)) as (q & r & Eq & Er & EB & Hr).
  rewrite Eq, Er, of_nat_eqb0. set (d := cv_data (sc s)) in *.
  destruct (Nat.eqb_spec r 0) as [->|Hr0]; cbn [andb negb].
  - destruct (Nat.leb_spec (q + n) (length d)) as [Hle|Hgt]; [|lia].
    rewrite rdn_some by exact Hle. cbn [of_opt rbind]. f_equal.
    rewrite from_be_bval by (apply Forall_take, Forall_drop, Hd). f_equal.
    destruct (rdn_spec d q n Hle) as [_ ->]. do 2 f_equal. lia.
  - destruct (Nat.leb_spec (q + (n + 1)) (length d)) as [Hle|Hgt]; [|lia].
    rewrite rdn_some by exact Hle. cbn [of_opt rbind]. f_equal.
    replace (8 * N.of_nat n)%N with (N.of_nat (8 * n)) by lia.
    apply (val_of_bits (8 * n)); [apply N.mod_lt, N.pow_nonzero; lia|].
    rewrite nbits_mod by lia. replace (8 - N.of_nat r)%N with (N.of_nat (8 - r)) by lia.
    rewrite shifted_read by (try exact Hd; lia). do 2 f_equal. lia.
Qed.

Lemma byte_wide w b : byte_ok b -> 8 <= w -> nbits w b = zeros (w - 8) ++ byte_bits b.
Proof. intros Hb Hw. apply nbits_small; [exact Hb|exact Hw]. Qed.

(** [(b << (w - 8 + r)) | (x >> (8 - r))] glues the low bits of [b] to the high bits of [x]. *)
Lemma glue_bits w b x (r : nat) :
  8 <= w -> 0 < r < 8 -> byte_ok b -> (x < 2 ^ N.of_nat w)%N ->
  nbits w (N.lor (shl (N.of_nat w) b (N.of_nat (w - 8 + r))) (N.shiftr x (N.of_nat (8 - r))))
  = take w (drop r (byte_bits b ++ nbits w x)).
Proof.
  intros Hw Hr Hb Hx.
  rewrite drop_app_le by (rewrite length_byte_bits; lia).
  rewrite take_app_mid by (rewrite drop_length, length_byte_bits; lia).
  rewrite drop_length, length_byte_bits.
  apply lor_split.
  - unfold shl. rewrite nbits_mod by lia. rewrite nbits_shiftl by lia.
    rewrite byte_wide by (try exact Hb; lia). rewrite drop_app_ge by (rewrite length_zeros; lia).
    rewrite length_zeros. rewrite take_length, length_nbits. f_equal; [f_equal; lia|f_equal; lia].
  - rewrite nbits_shiftr by (try exact Hx; lia). rewrite drop_length, length_byte_bits.
    f_equal.
Qed.

Lemma get_u128_spec s off :
  s_ok s -> (off <= 64000)%N ->
  get_u128 s off =
    if N.to_nat off + 128 <=? length (sbits s)
    then Ok (bval (take 128 (drop (N.to_nat off) (sbits s)))) else Err CellUnderflow.
Proof.
  intros Hs Hoff. pose proof (sbits_length s Hs) as L. pose proof Hs as ((Hd & H1 & H2 & H3) & H4 & H5).
  unfold get_u128. rewrite !w16_small by lia.
  destruct (Nat.leb_spec (N.to_nat off + 128) (length (sbits s))) as [H|H];
    destruct (N.leb_spec (bs (sr s) + off + 128) (be (sr s))) as [G|G]; try lia; [|reflexivity].
  destruct (win_facts s (N.to_nat off) 128 Hs H) as (EW & F1 & F2 & F3). rewrite EW.
  set (I := N.to_nat (bs (sr s)) + N.to_nat off) in *.
  destruct (pos_split (bs (sr s) + off) I ltac:(lia)) as (q & r & Eq & Er & EB & Hr).
  rewrite Eq, Er, of_nat_eqb0. set (d := cv_data (sc s)) in *.
  destruct (Nat.eqb_spec r 0) as [->|Hr0]; cbn [andb negb].
  - destruct (Nat.leb_spec (q + 16) (length d)) as [Hle|Hgt]; [|lia].
    rewrite rdn_some by exact Hle. cbn [of_opt rbind]. f_equal.
    rewrite from_be_bval by (apply Forall_take, Forall_drop, Hd). f_equal.
    destruct (rdn_spec d q 16 Hle) as [_ ->]. do 2 f_equal. lia.
  - destruct (Nat.leb_spec (q + 17) (length d)) as [Hle|Hgt]; [|lia].
    destruct (rdn_spec d q 17 Hle) as [-> E17]. cbn [of_opt rbind]. f_equal.
    destruct (take 17 (drop q d)) as [|b rest] eqn:Ebs.
    { apply (f_equal length) in Ebs. rewrite take_length, drop_length in Ebs. cbn [length] in Ebs. lia. }
    assert (Lr : length rest = 16).
    { apply (f_equal length) in Ebs. rewrite take_length, drop_length in Ebs. cbn [length] in Ebs. lia. }
    assert (Hok : Forall byte_ok (b :: rest)).
    { rewrite <- Ebs. apply Forall_take, Forall_drop, Hd. }
    inversion Hok as [|? ? Hb Hrest]; subst.
    change (default 0%N ((b :: rest) !! 0)) with b. change (drop 1 (b :: rest)) with rest.
    pose proof (from_be_lt rest Hrest) as Hlt. rewrite Lr in Hlt. change (8 * 16) with 128 in Hlt.
    pose proof (from_be_bits rest Hrest) as Hbits. rewrite Lr in Hbits. change (8 * 16) with 128 in Hbits.
    replace (8 - N.of_nat r)%N with (N.of_nat (8 - r)) by lia.
    replace (120 + N.of_nat r)%N with (N.of_nat (128 - 8 + r)) by lia.
    apply (val_of_bits 128).
    { apply lor_lt; [apply shl_lt|].
      eapply N.lt_le_trans; [apply (shiftr_lt _ 128); [exact Hlt|lia]|].
      apply N.pow_le_mono_r; lia. }
    change 128%N with (N.of_nat 128). rewrite glue_bits by (try assumption; lia).
    rewrite Hbits, <- bytes_bits_cons, E17. rewrite sub_sub by lia. do 2 f_equal. lia.
Qed.

Lemma get_u256_spec s off :
  s_ok s -> (off <= 64000)%N ->
  exists v, Forall byte_ok v /\
  get_u256 s off = (if N.to_nat off + 256 <=? length (sbits s) then Ok v else Err CellUnderflow) /\
  (N.to_nat off + 256 <= length (sbits s) ->
     length v = 32 /\ bytes_bits v = take 256 (drop (N.to_nat off) (sbits s))).
Proof.
  intros Hs Hoff. pose proof (sbits_length s Hs) as L. pose proof Hs as ((Hd & H1 & H2 & H3) & H4 & H5).
  unfold get_u256. rewrite !w16_small by lia.
  destruct (Nat.leb_spec (N.to_nat off + 256) (length (sbits s))) as [H|H];
    destruct (N.leb_spec (bs (sr s) + off + 256) (be (sr s))) as [G|G]; try lia;
    [|exists []; split; [constructor|split; [reflexivity|lia]]].
  destruct (win_facts s (N.to_nat off) 256 Hs H) as (EW & F1 & F2 & F3). rewrite EW.
  set (I := N.to_nat (bs (sr s)) + N.to_nat off) in *.
  destruct (pos_split (bs (sr s) + off) I ltac:(lia)) as (q & r & Eq & Er & EB & Hr).
  rewrite Eq, Er, of_nat_eqb0. set (d := cv_data (sc s)) in *.
  destruct (Nat.eqb_spec r 0) as [->|Hr0]; cbn [andb negb].
  - destruct (Nat.leb_spec (q + 32) (length d)) as [Hle|Hgt]; [|lia].
    destruct (rdn_spec d q 32 Hle) as [-> E32].
    exists (take 32 (drop q d)). split; [apply Forall_take, Forall_drop, Hd|].
    split; [reflexivity|]. intros _. split; [rewrite take_length, drop_length; lia|].
    rewrite E32. do 2 f_equal. lia.
  - destruct (Nat.leb_spec (q + 33) (length d)) as [Hle|Hgt]; [|lia].
    destruct (rdn_spec d q 33 Hle) as [-> E33]. cbn [of_opt rbind].
    destruct (take 33 (drop q d)) as [|b rest] eqn:Ebs.
    { apply (f_equal length) in Ebs. rewrite take_length, drop_length in Ebs. cbn [length] in Ebs. lia. }
    assert (Lr : length rest = 32).
    { apply (f_equal length) in Ebs. rewrite take_length, drop_length in Ebs. cbn [length] in Ebs. lia. }
    assert (Hok : Forall byte_ok (b :: rest)).
    { rewrite <- Ebs. apply Forall_take, Forall_drop, Hd. }
    inversion Hok as [|? ? Hb Hrest]; subst.
    change (default 0%N ((b :: rest) !! 0)) with b.
    change (drop 1 (b :: rest)) with rest. change (drop 17 (b :: rest)) with (drop 16 rest).
    set (hb := take 16 rest). set (lb := drop 16 rest).
    assert (Lh : length hb = 16) by (unfold hb; rewrite take_length; lia).
    assert (Ll : length lb = 16) by (unfold lb; rewrite drop_length; lia).
    assert (Hh : Forall byte_ok hb) by (apply Forall_take, Hrest).
    assert (Hl : Forall byte_ok lb) by (apply Forall_drop, Hrest).
    pose proof (from_be_lt hb Hh) as Hhlt. rewrite Lh in Hhlt. change (8 * 16) with 128 in Hhlt.
    pose proof (from_be_bits hb Hh) as Hhbits. rewrite Lh in Hhbits. change (8 * 16) with 128 in Hhbits.
    pose proof (from_be_lt lb Hl) as Hllt. rewrite Ll in Hllt. change (8 * 16) with 128 in Hllt.
    pose proof (from_be_bits lb Hl) as Hlbits. rewrite Ll in Hlbits. change (8 * 16) with 128 in Hlbits.
    eexists. split; [|split; [reflexivity|intros _; split]].
    { apply Forall_app; split; apply to_be_ok. }
    { rewrite app_length, !to_be_length. reflexivity. }
    rewrite bytes_bits_app, !bytes_bits_to_be. change (8 * 16) with 128.
    replace (8 - N.of_nat r)%N with (N.of_nat (8 - r)) by lia.
    replace (120 + N.of_nat r)%N with (N.of_nat (128 - 8 + r)) by lia.
    rewrite (N.lor_comm (N.shiftr (from_be hb) _)), (N.lor_comm (N.shiftr (from_be lb) _)).
    change 128%N with (N.of_nat 128). rewrite glue_bits by (try assumption; lia).
    (* low half: glue with the last byte of the high half *)
    assert (Elow : nbits 128 (N.lor (shl (N.of_nat 128) (from_be hb) (N.of_nat (128 - 8 + r)))
                                    (N.shiftr (from_be lb) (N.of_nat (8 - r))))
                   = drop (128 - 8 + r) (nbits 128 (from_be hb)) ++
                     take (128 - 8 + r) (nbits 128 (from_be lb))).
    { apply lor_split.
      - unfold shl. rewrite nbits_mod by lia. rewrite nbits_shiftl by lia.
        rewrite take_length, length_nbits. f_equal; f_equal; lia.
      - rewrite nbits_shiftr by (try exact Hllt; lia). rewrite drop_length, length_nbits.
        f_equal; f_equal; lia. }
    rewrite Elow, Hhbits, Hlbits. clear Elow.
    replace (take 256 (drop I (bytes_bits d))) with (take 256 (drop r (bytes_bits (b :: rest)))).
    2:{ rewrite E33, sub_sub by lia. do 2 f_equal. lia. }
    rewrite bytes_bits_cons. replace rest with (hb ++ lb) by (unfold hb, lb; apply take_drop).
    rewrite bytes_bits_app.
    assert (LH : length (bytes_bits hb) = 128) by (rewrite length_bytes_bits; lia).
    assert (LL : length (bytes_bits lb) = 128) by (rewrite length_bytes_bits; lia).
    rewrite !drop_app_le by (rewrite length_byte_bits; lia).
    rewrite !take_app_mid by (rewrite drop_length, length_byte_bits; lia).
    rewrite drop_length, length_byte_bits.
    rewrite LH.
    replace (128 - (8 - r)) with (128 - 8 + r) by lia.
    rewrite <- !app_assoc. f_equal. rewrite (app_assoc (take _ (bytes_bits hb))), take_drop.
    do 2 f_equal. lia.
Qed.

Lemma get_small_uint_spec s off bits :
  s_ok s -> (off <= 64000)%N -> (bits <= 8)%N ->
  get_small_uint s off bits =
    if (bits =? 0)%N then Ok 0%N else
    if N.to_nat off + N.to_nat bits <=? length (sbits s)
    then Ok (bval (take (N.to_nat bits) (drop (N.to_nat off) (sbits s)))) else Err CellUnderflow.
Proof.
  intros Hs Hoff Hbits. pose proof (sbits_length s Hs) as L. pose proof Hs as ((Hd & H1 & H2 & H3) & H4 & H5).
  unfold get_small_uint. destruct (N.eqb_spec bits 0) as [->|Hb0]; [reflexivity|].
  rewrite !w16_small by lia.
  destruct (N.leb_spec bits 8) as [_|]; [|lia]. cbn [andb].
  destruct (Nat.leb_spec (N.to_nat off + N.to_nat bits) (length (sbits s))) as [H|H];
    destruct (N.leb_spec (bs (sr s) + off + bits) (be (sr s))) as [G|G]; try lia; [|reflexivity].
  destruct (win_facts s (N.to_nat off) (N.to_nat bits) Hs H) as (EW & F1 & F2 & F3). rewrite EW.
  set (I := N.to_nat (bs (sr s)) + N.to_nat off) in *.
  destruct (pos_split (bs (sr s) + off) I ltac:(lia)) as (q & r & Eq & Er & EB & Hr).
  rewrite Eq, Er, of_nat_eqb0. set (d := cv_data (sc s)) in *.
  set (k := N.to_nat bits) in *. replace bits with (N.of_nat k) by lia.
  assert (Hk : 1 <= k <= 8) by lia. clearbody k. clear Hbits Hb0 G.
  destruct (rd_spec d q) as (byte & Hrd & Eb); [lia|]. rewrite Hrd.
  assert (Hbok : byte_ok byte) by (eapply Forall_lookup_1; [exact Hd|exact Hrd]).
  unfold byte_bits in Eb.
  destruct (Nat.eqb_spec r 0) as [->|Hr0].
  - f_equal. replace (8 - N.of_nat k)%N with (N.of_nat (8 - k)) by lia.
    apply (val_of_bits k).
    { replace k with (8 - (8 - k)) at 2 by lia. apply shiftr_lt; [exact Hbok|lia]. }
    rewrite (nbits_window 8 _ _ _ _ Eb) by lia. rewrite sub_sub by lia. do 2 f_equal. lia.
  - destruct (N.leb_spec (N.of_nat k) (8 - N.of_nat r)) as [Hle|Hgt].
    + f_equal. replace (8 - N.of_nat r - N.of_nat k)%N with (N.of_nat (8 - r - k)) by lia.
      assert (EM : (shl 8 1 (N.of_nat k) - 1 = N.ones (N.of_nat k))%N).
      { unfold shl. rewrite N.shiftl_1_l, N.mod_small.
        - rewrite N.ones_equiv. lia.
        - apply N.pow_lt_mono_r; lia. }
      rewrite EM, N.land_ones.
      apply (val_of_bits k); [apply N.mod_lt, N.pow_nonzero; lia|].
      rewrite nbits_mod by lia.
      rewrite (nbits_window 8 _ _ _ _ Eb) by lia. rewrite sub_sub by lia. do 2 f_equal. lia.
    + destruct (rd_spec d (q + 1)) as (next & Hrd2 & Eb2); [lia|]. rewrite Hrd2.
      assert (Hnok : byte_ok next) by (eapply Forall_lookup_1; [exact Hd|exact Hrd2]).
      f_equal. unfold byte_bits in Eb2.
      assert (E16 : nbits 16 (N.lor (shl 16 byte 8) next) = take 16 (drop (8 * q) (bytes_bits d))).
      { replace (take 16 (drop (8 * q) (bytes_bits d)))
          with (nbits 8 byte ++ nbits 8 next).
        - apply lor_split; rewrite length_nbits.
          + unfold shl. change 16%N with (N.of_nat 16). rewrite nbits_mod by lia.
            change 8%N with (N.of_nat 8). rewrite nbits_shiftl by lia.
            rewrite byte_wide by (try exact Hbok; lia). reflexivity.
          + rewrite byte_wide by (try exact Hnok; lia). reflexivity.
        - rewrite Eb, Eb2. replace (8 * (q + 1)) with (8 * q + 8) by lia.
          rewrite <- drop_drop. rewrite take_take_drop. reflexivity. }
      replace (8 - N.of_nat k)%N with (N.of_nat (8 - k)) by lia.
      replace (8 - N.of_nat r)%N with (N.of_nat (8 - r)) by lia.
      pose proof (nbits_window 16 _ _ 8 (8 - r) E16 ltac:(lia)) as E8.
      assert (E8' : nbits 8 (w8 (N.shiftr (N.lor (shl 16 byte 8) next) (N.of_nat (8 - r))))
                    = take 8 (drop (8 * q + r) (bytes_bits d))).
      { unfold w8. change 256%N with (2 ^ N.of_nat 8)%N. rewrite nbits_mod by lia. rewrite E8.
        rewrite sub_sub by lia. do 2 f_equal. lia. }
      apply (val_of_bits k).
      { replace k with (8 - (8 - k)) at 2 by lia. apply shiftr_lt; [apply byte_ok_w8|lia]. }
      rewrite (nbits_window 8 _ _ _ _ E8') by lia. rewrite sub_sub by lia. do 2 f_equal. lia.
Qed.

Lemma get_small_uint_big s off bits :
  (8 < bits)%N -> get_small_uint s off bits = Err CellUnderflow.
Proof.
  intros H. unfold get_small_uint. destruct (N.eqb_spec bits 0); [lia|].
  destruct (N.leb_spec bits 8); [lia|]. reflexivity.
Qed.

Lemma get_uint_big s off bits :
  (64 < bits)%N -> get_uint s off bits = Err CellUnderflow.
Proof.
  intros H. unfold get_uint. destruct (N.eqb_spec bits 0); [lia|].
  destruct (N.leb_spec bits 64); [lia|]. reflexivity.
Qed.

Lemma ones_mask_bits r : r < 8 -> nbits 8 (N.shiftr 255 (N.of_nat r)) = zeros r ++ replicate (8 - r) true.
Proof.
  intros H. assert (C : r = 0 \/ r = 1 \/ r = 2 \/ r = 3 \/ r = 4 \/ r = 5 \/ r = 6 \/ r = 7) by lia.
  repeat (destruct C as [->|C]; [reflexivity|]). subst; reflexivity.
Qed.

Lemma masked_high_bits r b :
  r < 8 -> nbits 8 (N.land b (N.shiftr 255 (N.of_nat r))) = zeros r ++ drop r (nbits 8 b).
Proof.
  intros H. rewrite nbits_land, ones_mask_bits by exact H.
  rewrite <- (take_drop r (nbits 8 b)) at 1.
  rewrite zip_with_app by (rewrite take_length, length_nbits, length_zeros; lia).
  rewrite zip_andb_zeros_r by (rewrite take_length, length_nbits; lia).
  rewrite zip_andb_ones_r by (rewrite drop_length, length_nbits; lia). reflexivity.
Qed.

Lemma lt_of_bits_zero w v k l :
  (v < 2 ^ N.of_nat w)%N -> k <= w -> nbits w v = zeros k ++ l -> (v < 2 ^ N.of_nat (w - k))%N.
Proof.
  intros Hv Hk E. rewrite <- (bval_nbits_small w v Hv), E, bval_app, bval_zeros.
  assert (Ll : length l = w - k).
  { apply (f_equal length) in E. rewrite length_nbits, app_length, length_zeros in E. lia. }
  pose proof (bval_lt l) as B. rewrite Ll in B. lia.
Qed.

Lemma get_uint_spec s off bits :
  s_ok s -> (off <= 64000)%N -> (bits <= 64)%N ->
  get_uint s off bits =
    if (bits =? 0)%N then Ok 0%N else
    if N.to_nat off + N.to_nat bits <=? length (sbits s)
    then Ok (bval (take (N.to_nat bits) (drop (N.to_nat off) (sbits s)))) else Err CellUnderflow.
Proof.
  intros Hs Hoff Hbits. pose proof (sbits_length s Hs) as L. pose proof Hs as ((Hd & H1 & H2 & H3) & H4 & H5).
  unfold get_uint. destruct (N.eqb_spec bits 0) as [->|Hb0]; [reflexivity|].
  rewrite !w16_small by lia.
  destruct (N.leb_spec bits 64) as [_|]; [|lia]. cbn [andb].
  destruct (Nat.leb_spec (N.to_nat off + N.to_nat bits) (length (sbits s))) as [H|H];
    destruct (N.leb_spec (bs (sr s) + off + bits) (be (sr s))) as [G|G]; try lia; [|reflexivity].
  destruct (win_facts s (N.to_nat off) (N.to_nat bits) Hs H) as (EW & F1 & F2 & F3). rewrite EW.
  destruct (Nat.ltb_spec (length (cv_data (sc s))) (N.to_nat ((be (sr s) + 7) / 8))) as [Hx|_]; [lia|].
  set (I := N.to_nat (bs (sr s)) + N.to_nat off) in *.
  destruct (pos_split (bs (sr s) + off) I ltac:(lia)) as (q & r & Eq & Er & EB & Hr).
  rewrite Eq, Er. set (d := cv_data (sc s)) in *.
  set (k := N.to_nat bits) in *. replace bits with (N.of_nat k) by lia.
  assert (Hk : 1 <= k <= 64) by lia. clearbody k. clear Hbits Hb0 G.
  destruct (rd_spec d q) as (byte & Hrd & Eb); [lia|]. rewrite Hrd. cbn [of_opt rbind].
  unfold byte_bits in Eb. set (fb := N.land byte (N.shiftr 255 (N.of_nat r))).
  assert (Hbok : byte_ok byte) by (eapply Forall_lookup_1; [exact Hd|exact Hrd]).
  assert (Efb : nbits 8 fb = zeros r ++ drop r (nbits 8 byte)) by (apply masked_high_bits; exact Hr).
  assert (Hfb : (fb < 2 ^ N.of_nat (8 - r))%N).
  { eapply lt_of_bits_zero; [|lia|exact Efb]. apply byte_ok_land. exact Hbok. }
  destruct (N.leb_spec (N.of_nat r + N.of_nat k) 8) as [Hle|Hgt].
  - f_equal. replace ((8 - (N.of_nat k + N.of_nat r) mod 8) mod 8)%N with (N.of_nat (8 - r - k)) by lia.
    apply (val_of_bits k).
    { replace k with ((8 - r) - (8 - r - k)) at 2 by lia. apply shiftr_lt; [exact Hfb|lia]. }
    rewrite (nbits_window 8 _ _ _ _ Efb) by lia.
    rewrite drop_app_ge by (rewrite length_zeros; lia). rewrite length_zeros.
    replace (8 - (8 - r - k) - k - r) with 0 by lia. rewrite drop_0, Eb.
    rewrite sub_sub by lia. do 2 f_equal. lia.
  - set (k' := k - (8 - r)). set (n := N.to_nat ((N.of_nat k - (8 - N.of_nat r) + 7) / 8)).
    assert (Hn : k' <= 8 * n /\ 8 * n < k' + 8) by (unfold n, k'; lia).
    clearbody n.
    destruct (rdn_spec d (q + 1) n) as [-> Et]; [unfold k' in *; lia|]. cbn [of_opt rbind]. f_equal.
    set (tl := take n (drop (q + 1) d)) in *.
    assert (Ltl : length tl = n).
    { unfold tl. rewrite take_length, drop_length. unfold k' in *; lia. }
    assert (Htl : Forall byte_ok (tl ++ replicate (8 - n) 0%N)).
    { apply Forall_app; split; [apply Forall_take, Forall_drop, Hd|].
      apply Forall_replicate. unfold byte_ok; lia. }
    assert (L8 : length (tl ++ replicate (8 - n) 0%N) = 8).
    { rewrite app_length, replicate_length. unfold k' in *; lia. }
    set (X := from_be (tl ++ replicate (8 - n) 0%N)).
    assert (EX : nbits 64 X = bytes_bits tl ++ zeros (8 * (8 - n))).
    { pose proof (from_be_bits _ Htl) as E. rewrite L8 in E. fold X in E. change (8 * 8) with 64 in E.
      rewrite E, bytes_bits_app, bytes_bits_replicate0. reflexivity. }
    assert (HX : (X < 2 ^ N.of_nat 64)%N).
    { pose proof (from_be_lt _ Htl) as E. rewrite L8 in E. exact E. }
    replace (N.of_nat k - (8 - N.of_nat r))%N with (N.of_nat k') by (unfold k'; lia).
    replace (64 - N.of_nat k')%N with (N.of_nat (64 - k')) by (unfold k'; lia).
    assert (HXs : (N.shiftr X (N.of_nat (64 - k')) < 2 ^ N.of_nat k')%N).
    { replace k' with (64 - (64 - k')) at 2 by (unfold k'; lia). apply shiftr_lt; [exact HX|lia]. }
    assert (Hfs : (shl 64 fb (N.of_nat k') < 2 ^ N.of_nat k)%N).
    { unfold shl. eapply N.le_lt_trans; [apply N.mod_le, N.pow_nonzero; lia|].
      rewrite N.shiftl_mul_pow2.
      replace (N.of_nat k) with (N.of_nat (8 - r) + N.of_nat k')%N by (unfold k'; lia).
      rewrite N.pow_add_r. apply N.mul_lt_mono_pos_r; [|exact Hfb].
      pose proof (N.pow_nonzero 2 (N.of_nat k')). lia. }
    apply (val_of_bits k).
    { apply lor_lt; [|exact Hfs]. eapply N.lt_le_trans; [exact HXs|].
      apply N.pow_le_mono_r; unfold k'; lia. }
    rewrite N.lor_comm.
    replace (take k (drop I (bytes_bits d))) with
      (drop r (nbits 8 byte) ++ take k' (bytes_bits tl)).
    2:{ rewrite Eb, Et. rewrite take_take, Nat.min_l by lia.
        replace (8 * (q + 1)) with (8 * q + 8) by lia.
        replace k with ((8 - r) + k') by (unfold k'; lia).
        rewrite <- take_take_drop. f_equal.
        - rewrite skipn_firstn_comm, drop_drop. do 2 f_equal. lia.
        - rewrite drop_drop. do 2 f_equal. lia. }
    apply lor_split.
    + rewrite take_length, length_bytes_bits, Ltl. rewrite Nat.min_l by lia.
      unfold shl. change 64%N with (N.of_nat 64). rewrite nbits_mod by lia.
      rewrite nbits_shiftl by (unfold k'; lia). f_equal.
      replace k with (k' + (8 - r)) at 1 by (unfold k'; lia).
      rewrite nbits_app, drop_app_alt by (rewrite length_nbits; reflexivity).
      rewrite (nbits_low 8) by lia. rewrite Efb. rewrite drop_app_alt by (rewrite length_zeros; lia).
      reflexivity.
    + rewrite drop_length, length_nbits.
      replace k with ((8 - r) + k') at 1 by (unfold k'; lia). rewrite nbits_app.
      rewrite nbits_shiftr_hi by exact HXs. f_equal.
      rewrite (nbits_window 64 _ _ _ _ EX) by (unfold k'; lia).
      replace (64 - (64 - k') - k') with 0 by (unfold k'; lia). rewrite drop_0.
      apply take_app_le. rewrite length_bytes_bits. lia.
Qed.

(** ** Raw reads *)

Lemma raw_read_spec n d q r :
  Forall byte_ok d -> 0 < r < 8 -> q + n < length d ->
  exists l, raw_read n d q (N.of_nat r) = Some l /\ Forall byte_ok l /\ length l = n /\
    bytes_bits l = take (8 * n) (drop (8 * q + r) (bytes_bits d)).
Proof.
  intros Hd Hr. revert q. induction n as [|n IH]; intros q Hq.
  - exists []. repeat split; constructor.
  - cbn [raw_read].
    destruct (rd_spec d q) as (a & Ha & Ea); [lia|].
    destruct (rd_spec d (q + 1)) as (b & Hb & Eb); [lia|]. rewrite Ha, Hb.
    destruct (IH (S q)) as (l & Hl & Hok & Ll & El); [lia|]. rewrite Hl.
    assert (Haok : byte_ok a) by (eapply Forall_lookup_1; [exact Hd|exact Ha]).
    assert (Hbok : byte_ok b) by (eapply Forall_lookup_1; [exact Hd|exact Hb]).
    eexists. split; [reflexivity|]. split; [|split].
    + constructor; [|exact Hok]. apply byte_ok_lor; [apply byte_ok_shl8|apply byte_ok_shiftr, Hbok].
    + cbn [length]. lia.
    + rewrite bytes_bits_cons, El.
      replace (8 * S n) with (8 + 8 * n) by lia. rewrite <- take_take_drop.
      f_equal.
      * replace (8 - N.of_nat r)%N with (N.of_nat (8 - r)) by lia.
        change (byte_bits (N.lor (shl 8 a (N.of_nat r)) (N.shiftr b (N.of_nat (8 - r))))
                = take 8 (drop (8 * q + r) (bytes_bits d))).
        replace (take 8 (drop (8 * q + r) (bytes_bits d)))
          with (drop r (byte_bits a) ++ take r (byte_bits b)).
        -- unfold byte_bits at 1. apply lor_split.
           ++ fold (byte_bits (shl 8 a (N.of_nat r))). rewrite byte_bits_shl by lia.
              rewrite take_length, length_byte_bits. f_equal. f_equal. lia.
           ++ fold (byte_bits (N.shiftr b (N.of_nat (8 - r)))).
              rewrite byte_bits_shiftr by (try exact Hbok; lia).
              rewrite drop_length, length_byte_bits. f_equal. f_equal. lia.
        -- rewrite Ea, Eb. rewrite take_take, Nat.min_l by lia.
           replace (take 8 (drop (8 * q + r) (bytes_bits d)))
             with (take ((8 - r) + r) (drop (8 * q + r) (bytes_bits d))) by (f_equal; lia).
           rewrite <- take_take_drop. f_equal.
           ++ rewrite skipn_firstn_comm, drop_drop. reflexivity.
           ++ rewrite drop_drop. do 2 f_equal. lia.
      * rewrite drop_drop. do 2 f_equal. lia.
Qed.

Lemma mask_last_spec l X Y bits :
  Forall byte_ok l -> bytes_bits l = X ++ Y -> length X = bits -> 0 < bits ->
  length l = (bits + 7) / 8 ->
  exists l', mask_last (N.of_nat bits mod 8) l = Some l' /\ Forall byte_ok l' /\
    length l' = length l /\ bytes_bits l' = X ++ zeros (8 * length l - bits).
Proof.
  intros Hl E LX Hb Ll. unfold mask_last.
  pose proof (length_bytes_bits l) as Lb. rewrite E, app_length in Lb.
  replace (N.of_nat bits mod 8)%N with (N.of_nat (bits mod 8)) by lia. rewrite of_nat_eqb0.
  destruct (Nat.eqb_spec (bits mod 8) 0) as [Hm|Hm].
  - exists l. split; [reflexivity|]. split; [exact Hl|]. split; [reflexivity|].
    rewrite E. f_equal. replace (8 * length l - bits) with 0 by lia.
    destruct Y as [|y Y]; [reflexivity|]. cbn [length] in Lb. lia.
  - destruct (and_at_raw l X Y [] (length l - 1) (bits mod 8)) as (l' & Ha & L' & Hl' & E').
    { rewrite app_nil_r. exact E. } { lia. } { lia. } { lia. } { exact Hl. }
    exists l'. replace (8 - N.of_nat (bits mod 8))%N with (N.of_nat (8 - bits mod 8)) by lia.
    split; [exact Ha|]. split; [exact Hl'|]. split; [exact L'|].
    rewrite E', app_nil_r. do 2 f_equal. lia.
Qed.

(** Reads inside of the window return exactly the window's bits, left aligned. *)
Lemma get_raw_spec s off tlen bits :
  s_ok s -> N.to_nat off + N.to_nat bits <= length (sbits s) ->
  (N.to_nat bits + 7) / 8 <= tlen ->
  get_raw s off tlen bits = Ok (pack (take (N.to_nat bits) (drop (N.to_nat off) (sbits s)))).
Proof.
  intros Hs H Ht. pose proof (sbits_length s Hs) as L. pose proof Hs as ((Hd & H1 & H2 & H3) & H4 & H5).
  unfold get_raw. destruct (N.eqb_spec bits 0) as [->|Hb0]; [reflexivity|].
  rewrite !w16_small by lia.
  destruct (N.leb_spec (bs (sr s) + bits) (be (sr s))) as [G|G]; [|lia].
  destruct (win_facts s (N.to_nat off) (N.to_nat bits) Hs H) as (EW & F1 & F2 & F3). rewrite EW.
  set (I := N.to_nat (bs (sr s)) + N.to_nat off) in *.
  destruct (pos_split (bs (sr s) + off) I ltac:(lia)) as (q & r & Eq & Er & EB & Hr).
  rewrite Eq, Er, of_nat_eqb0. set (d := cv_data (sc s)) in *.
  set (k := N.to_nat bits) in *. replace bits with (N.of_nat k) by lia.
  assert (Hk : 1 <= k) by lia. clearbody k. clear Hb0 G.
  set (tl := N.to_nat ((N.of_nat k + 7) / 8)). assert (Htl : tl = (k + 7) / 8) by (unfold tl; lia).
  clearbody tl.
  destruct (Nat.ltb_spec tlen tl) as [?|_]; [lia|].
  pose proof (length_bytes_bits d) as LD.
  assert (LW : length (take k (drop I (bytes_bits d))) = k) by (rewrite take_length, drop_length; lia).
  assert (FIN : forall t Y, Forall byte_ok t -> length t = tl ->
            bytes_bits t = take k (drop I (bytes_bits d)) ++ Y ->
            of_opt UB (mask_last (N.of_nat k mod 8) t) = Ok (pack (take k (drop I (bytes_bits d))))).
  { intros t Y Hok Lt Et.
    destruct (mask_last_spec t _ Y k Hok Et) as (l' & -> & Hl' & Ll' & El'); [lia|lia|lia|].
    cbn [of_opt]. f_equal. apply bytes_bits_inj; [exact Hl'|apply pack_ok|].
    rewrite El', bytes_bits_pack, LW, length_pack, LW. do 3 f_equal. lia. }
  destruct (Nat.eqb_spec r 0) as [->|Hr0]; cbn [andb negb].
  - destruct (Nat.leb_spec (q + tl) (length d)) as [Hle|Hgt]; [|lia].
    destruct (rdn_spec d q tl Hle) as [-> Et]. cbn [of_opt rbind].
    apply (FIN _ (drop k (take (8 * tl) (drop (8 * q) (bytes_bits d))))).
    + apply Forall_take, Forall_drop, Hd.
    + rewrite take_length, drop_length. lia.
    + replace I with (8 * q) by lia. rewrite Et. apply take_split_le. lia.
  - set (n := N.to_nat ((N.of_nat k + N.of_nat r + 7) / 8 - 1)).
    assert (Hn : k + r <= 8 * (n + 1) /\ 8 * (n + 1) < k + r + 8) by (unfold n; lia).
    clearbody n.
    destruct (Nat.ltb_spec (length d) (q + n)) as [?|_]; [lia|].
    destruct (raw_read_spec n d q r Hd) as (l & -> & Hok & Ll & El); [lia|lia|]. cbn [of_opt rbind].
    destruct (Nat.ltb_spec n tl) as [Hlt|Hge].
    + destruct (rd_spec d (q + n)) as (a & -> & Ea); [lia|]. cbn [of_opt rbind].
      apply (FIN _ (drop k (take (8 * n + (8 - r)) (drop I (bytes_bits d))) ++ zeros r)).
      * apply Forall_app; split; [exact Hok|]. constructor; [apply byte_ok_shl8|constructor].
      * rewrite app_length. cbn [length]. lia.
      * rewrite bytes_bits_app, bytes_bits_cons. change (bytes_bits []) with (@nil bool).
        rewrite app_nil_r, byte_bits_shl by lia. rewrite !app_assoc. f_equal.
        rewrite <- take_split_le by lia. rewrite <- take_take_drop, El. f_equal.
        -- do 2 f_equal. lia.
        -- rewrite Ea, skipn_firstn_comm, !drop_drop. do 2 f_equal. lia.
    + apply (FIN _ (drop k (take (8 * n) (drop I (bytes_bits d))))).
      * exact Hok.
      * lia.
      * rewrite <- take_split_le by lia. rewrite El. do 2 f_equal. lia.
Qed.

(** A request longer than the window is rejected. *)
Lemma get_raw_underflow s off tlen bits :
  s_ok s -> length (sbits s) < N.to_nat bits -> (bits <= 64000)%N ->
  get_raw s off tlen bits = Err CellUnderflow.
Proof.
  intros Hs H Hb. pose proof (sbits_length s Hs) as L. pose proof Hs as ((Hd & H1 & H2 & H3) & H4 & H5).
  unfold get_raw. destruct (N.eqb_spec bits 0) as [->|Hb0]; [lia|].
  rewrite w16_small by lia. destruct (N.leb_spec (bs (sr s) + bits) (be (sr s))) as [G|G]; [lia|].
  reflexivity.
Qed.

End S.
