(** * Proofs about common prefixes and run counting of slices. *)
From Verif Require Import Err BitsProofs BufProofs BuilderModel BuilderProofs SliceModel SliceSpec SliceProofs SliceCmpProofs.
Local Open Scope nat_scope.

Ltac Zify.zify_post_hook ::= Z.div_mod_to_equations.

Lemma byte_at d q : Forall byte_ok d -> q < length d ->
  exists b, rd d q = Some b /\ byte_ok b /\ nbits 8 b = take 8 (drop (8 * q) (bytes_bits d)).
Proof.
  intros Hd Hq. destruct (rd_spec d q Hq) as (b & Hb & E). exists b. split; [exact Hb|].
  split; [eapply Forall_lookup_1; [exact Hd|exact Hb]|exact E].
Qed.

Lemma lead_step c l w :
  w <= length l ->
  (lead c (take w l) < w -> lead c l = lead c (take w l)) /\
  (lead c (take w l) = w -> lead c l = w + lead c (drop w l)).
Proof.
  intros H. assert (L : length (take w l) = w) by (rewrite take_length; lia). split; intros E.
  - rewrite <- (take_drop w l) at 1. apply lead_app_lt. lia.
  - rewrite <- (take_drop w l) at 1. rewrite lead_app_full by lia. lia.
Qed.

Lemma byte_ok_lxor a b : byte_ok a -> byte_ok b -> byte_ok (N.lxor a b).
Proof. unfold byte_ok. change 256%N with (2 ^ 8)%N. apply lxor_lt. Qed.
Lemma xmask8_ok c : byte_ok (xmask 8 c).
Proof. destruct c; reflexivity. Qed.

Lemma lead_zeros n : lead false (zeros n) = n.
Proof. unfold zeros. induction n as [|n IH]; cbn; [reflexivity|]. f_equal. exact IH. Qed.

(** ** Forward scan *)
Lemma scan8_spec aligned d c fuel p rem :
  Forall byte_ok d -> 8 * p + rem <= 8 * length d -> rem < fuel ->
  match scan8 fuel aligned d (xmask 8 c) p rem with
  | None => False
  | Some (inl n) => n < rem /\ lead c (drop (8 * p) (bytes_bits d)) = n
  | Some (inr (p1, rem1)) =>
      8 * p + rem = 8 * p1 + rem1 /\ rem1 <= rem /\
      lead c (drop (8 * p) (bytes_bits d)) = 8 * (p1 - p) + lead c (drop (8 * p1) (bytes_bits d)) /\
      ((forall i, aligned i = false) -> rem1 < 8)
  end.
Proof.
  intros Hd. revert p rem. induction fuel as [|f IH]; intros p rem Hp Hf; [lia|].
  pose proof (length_bytes_bits d) as LD.
  cbn [scan8]. destruct (Nat.leb_spec 8 rem) as [H8|H8]; cbn [andb].
  2:{ split; [lia|]. split; [lia|]. split; [replace (p - p) with 0 by lia; reflexivity|lia]. }
  destruct (aligned p) eqn:Ea; cbn [negb].
  { split; [lia|]. split; [lia|]. split; [replace (p - p) with 0 by lia; reflexivity|].
    intros A. rewrite A in Ea. discriminate. }
  destruct (byte_at d p Hd) as (b & -> & Hb & Eb); [lia|].
  destruct (lead_step c (drop (8 * p) (bytes_bits d)) 8) as [S1 S2]; [rewrite drop_length; lia|].
  rewrite <- Eb in S1, S2.
  assert (LB : lead c (nbits 8 b) <= 8) by (pose proof (lead_le c (nbits 8 b)) as Q; rewrite length_nbits in Q; exact Q).
  pose proof (lead_nbits_full 8 c b Hb) as LF.
  destruct (N.ltb_spec 0 (N.lxor b (xmask 8 c))) as [Hv|Hv].
  - rewrite clz_xmask. assert (lead c (nbits 8 b) <> 8) by (intros Q; apply LF in Q; lia).
    rewrite S1 by lia. lia.
  - assert (E8 : lead c (nbits 8 b) = 8) by (apply LF; lia).
    specialize (S2 E8). rewrite drop_drop in S2. replace (8 * p + 8) with (8 * S p) in S2 by lia.
    specialize (IH (S p) (rem - 8) ltac:(lia) ltac:(lia)).
    destruct (scan8 f aligned d (xmask 8 c) (S p) (rem - 8)) as [[n|[p1 rem1]]|]; [| |exact IH].
    + lia.
    + destruct IH as (I1 & I2 & I3 & I4). split; [lia|]. split; [lia|]. split; [|exact I4].
      rewrite S2, I3. lia.
Qed.

Lemma scan64_spec d c fuel p rem :
  Forall byte_ok d -> 8 * p + rem <= 8 * length d -> rem < fuel ->
  match scan64 fuel d (xmask 64 c) p rem with
  | None => False
  | Some (inl n) => n < rem /\ lead c (drop (8 * p) (bytes_bits d)) = n
  | Some (inr (p1, rem1)) =>
      8 * p + rem = 8 * p1 + rem1 /\ rem1 <= rem /\
      lead c (drop (8 * p) (bytes_bits d)) = 8 * (p1 - p) + lead c (drop (8 * p1) (bytes_bits d))
  end.
Proof.
  intros Hd. revert p rem. induction fuel as [|f IH]; intros p rem Hp Hf; [lia|].
  pose proof (length_bytes_bits d) as LD.
  cbn [scan64]. destruct (Nat.leb_spec 64 rem) as [H8|H8]; cbn [andb].
  2:{ split; [lia|]. split; [lia|]. replace (p - p) with 0 by lia; reflexivity. }
  destruct (rdn_spec d p 8) as [-> Ev]; [lia|].
  set (v := from_be (take 8 (drop p d))).
  assert (Hok : Forall byte_ok (take 8 (drop p d))) by (apply Forall_take, Forall_drop, Hd).
  assert (L8 : length (take 8 (drop p d)) = 8) by (rewrite take_length, drop_length; lia).
  assert (Hv64 : (v < 2 ^ N.of_nat 64)%N).
  { pose proof (from_be_lt _ Hok) as Q. rewrite L8 in Q. exact Q. }
  assert (Eb : nbits 64 v = take 64 (drop (8 * p) (bytes_bits d))).
  { pose proof (from_be_bits _ Hok) as Q. rewrite L8 in Q. fold v in Q. change (8 * 8) with 64 in Q.
    rewrite Q, Ev. reflexivity. }
  destruct (lead_step c (drop (8 * p) (bytes_bits d)) 64) as [S1 S2]; [rewrite drop_length; lia|].
  rewrite <- Eb in S1, S2.
  assert (LB : lead c (nbits 64 v) <= 64) by (pose proof (lead_le c (nbits 64 v)) as Q; rewrite length_nbits in Q; exact Q).
  pose proof (lead_nbits_full 64 c v Hv64) as LF.
  destruct (N.ltb_spec 0 (N.lxor v (xmask 64 c))) as [Hv|Hv].
  - rewrite clz_xmask. assert (lead c (nbits 64 v) <> 64) by (intros Q; apply LF in Q; lia).
    rewrite S1 by lia. lia.
  - assert (E8 : lead c (nbits 64 v) = 64) by (apply LF; lia).
    specialize (S2 E8). rewrite drop_drop in S2. replace (8 * p + 64) with (8 * (p + 8)) in S2 by lia.
    specialize (IH (p + 8) (rem - 64) ltac:(lia) ltac:(lia)).
    destruct (scan64 f d (xmask 64 c) (p + 8) (rem - 64)) as [[n|[p1 rem1]]|]; [| |exact IH].
    + lia.
    + destruct IH as (I1 & I2 & I3). split; [lia|]. split; [lia|]. rewrite S2, I3. lia.
Qed.

Lemma xmask64 (c : bool) : (if c then 2 ^ 64 - 1 else 0)%N = xmask 64 c.
Proof. destruct c; reflexivity. Qed.
Lemma xmask32 (c : bool) : (if c then 2 ^ 32 - 1 else 0)%N = xmask 32 c.
Proof. destruct c; reflexivity. Qed.

Lemma lead_drop_ge c l n : length l <= n -> lead c (drop n l) = 0.
Proof. intros H. rewrite drop_ge by exact H. reflexivity. Qed.

Lemma bits_memscan_spec aligned d offset cnt c :
  Forall byte_ok d -> offset + cnt <= 8 * length d ->
  bits_memscan aligned d offset cnt c = Some (lead c (take cnt (drop offset (bytes_bits d)))).
Proof.
  intros Hd H. pose proof (length_bytes_bits d) as LD. rewrite lead_take.
  unfold bits_memscan. destruct (Nat.eqb_spec cnt 0) as [->|Hc]; [f_equal; lia|].
  rewrite xmask8, xmask64. cbv zeta.
  assert (CONT : forall p rem, 8 * p + rem <= 8 * length d -> rem <= cnt ->
     memscan_tail aligned d (xmask 8 c) (xmask 64 c) cnt p rem
     = Some (cnt - rem + Nat.min (lead c (drop (8 * p) (bytes_bits d))) rem)).
  { intros p rem Hp Hr. unfold memscan_tail.
    pose proof (scan8_spec aligned d c (S cnt) p rem Hd Hp ltac:(lia)) as A.
    destruct (scan8 (S cnt) aligned d (xmask 8 c) p rem) as [[n|[p1 rem1]]|]; [| |contradiction].
    { f_equal. lia. }
    destruct A as (A1 & A2 & A3 & _).
    pose proof (scan64_spec d c (S cnt) p1 rem1 Hd ltac:(lia) ltac:(lia)) as B.
    destruct (scan64 (S cnt) d (xmask 64 c) p1 rem1) as [[n|[p2 rem2]]|]; [| |contradiction].
    { f_equal. lia. }
    destruct B as (B1 & B2 & B3).
    pose proof (scan8_spec (fun _ => false) d c (S cnt) p2 rem2 Hd ltac:(lia) ltac:(lia)) as C.
    destruct (scan8 (S cnt) (fun _ => false) d (xmask 8 c) p2 rem2) as [[n|[p3 rem3]]|]; [| |contradiction].
    { f_equal. lia. }
    destruct C as (C1 & C2 & C3 & C4). specialize (C4 (fun _ => eq_refl)).
    destruct (Nat.ltb_spec 0 rem3) as [Hr3|Hr3]; [|f_equal; lia].
    destruct (byte_at d p3 Hd) as (b & -> & Hb & Eb); [lia|].
    rewrite clz_xmask.
    destruct (lead_step c (drop (8 * p3) (bytes_bits d)) 8) as [S1 S2]; [rewrite drop_length; lia|].
    rewrite <- Eb in S1, S2.
    pose proof (lead_le c (nbits 8 b)) as Q; rewrite length_nbits in Q.
    destruct (Nat.ltb_spec (lead c (nbits 8 b)) rem3); f_equal; lia. }
  destruct (Nat.ltb_spec 0 (offset mod 8)) as [Ho|Ho].
  - destruct (byte_at d (offset / 8) Hd) as (b & -> & Hb & Eb); [lia|].
    set (r := offset mod 8) in *. set (q := offset / 8) in *.
    assert (EO : offset = 8 * q + r) by (unfold q, r; lia).
    assert (EC : clz 8 (shl 8 (N.lxor b (xmask 8 c)) (N.of_nat r)) =
                 lead c (drop r (nbits 8 b)) + (if lead c (drop r (nbits 8 b)) =? 8 - r then r else 0)).
    { unfold clz, shl. change (2 ^ 8)%N with (2 ^ N.of_nat 8)%N. rewrite nbits_mod by lia.
      rewrite nbits_shiftl by (unfold r; lia). rewrite nbits_xmask.
      assert (EM : forall l, drop r (map (xorb c) l) = map (xorb c) (drop r l)) by (intros; apply skipn_map).
      rewrite EM. rewrite <- (lead_xor c (drop r (nbits 8 b))).
      assert (LM : length (map (xorb c) (drop r (nbits 8 b))) = 8 - r).
      { rewrite map_length, drop_length, length_nbits. reflexivity. }
      pose proof (lead_le false (map (xorb c) (drop r (nbits 8 b)))) as Q. rewrite LM in Q.
      destruct (Nat.eqb_spec (lead false (map (xorb c) (drop r (nbits 8 b)))) (8 - r)) as [E|E].
      - rewrite lead_app_full by lia. rewrite LM, E. f_equal.
        apply lead_zeros.
      - rewrite lead_app_lt by lia. lia. }
    rewrite EC.
    destruct (lead_step c (drop offset (bytes_bits d)) (8 - r)) as [S1 S2]; [rewrite drop_length; lia|].
    assert (ET : take (8 - r) (drop offset (bytes_bits d)) = drop r (nbits 8 b)).
    { rewrite Eb, skipn_firstn_comm, drop_drop. do 2 f_equal. lia. }
    rewrite ET in S1, S2. rewrite drop_drop in S2. replace (offset + (8 - r)) with (8 * S q) in S2 by lia.
    pose proof (lead_le c (drop r (nbits 8 b))) as Q. rewrite drop_length, length_nbits in Q.
    destruct (Nat.eqb_spec (lead c (drop r (nbits 8 b))) (8 - r)) as [E|E].
    + specialize (S2 E). destruct (Nat.ltb_spec (lead c (drop r (nbits 8 b)) + r) (8 - r)) as [X|X].
      * exfalso. lia.
      * cbn [orb]. destruct (Nat.leb_spec cnt (8 - r)); [f_equal; lia|].
        rewrite CONT by lia. f_equal. lia.
    + specialize (S1 ltac:(lia)). destruct (Nat.ltb_spec (lead c (drop r (nbits 8 b)) + 0) (8 - r)) as [X|X]; [|lia].
      cbn [orb]. f_equal. lia.
  - rewrite CONT by lia. f_equal. replace (8 * (offset / 8)) with offset by lia. lia.
Qed.

(** ** Backward scan *)
Lemma lead_rev_step c l w n :
  w <= n -> n <= length l ->
  let x := take w (drop (n - w) l) in
  (lead c (rev x) < w -> lead c (rev (take n l)) = lead c (rev x)) /\
  (lead c (rev x) = w -> lead c (rev (take n l)) = w + lead c (rev (take (n - w) l))).
Proof.
  intros H1 H2 x. assert (L : length (rev x) = w).
  { rewrite rev_length. unfold x. rewrite take_length, drop_length. lia. }
  assert (E : take n l = take (n - w) l ++ x).
  { unfold x. rewrite take_take_drop. f_equal. lia. }
  rewrite E, rev_app_distr. split; intros Q.
  - apply lead_app_lt. lia.
  - rewrite lead_app_full by lia. lia.
Qed.

Lemma rscan_spec w d c fuel p cnt res :
  0 < w -> Forall byte_ok d -> p <= length d -> cnt <= 8 * p -> cnt < fuel ->
  match rscan w fuel d (xmask (8 * w) c) p cnt res with
  | None => False
  | Some (inl n) => res + Nat.min (lead c (rev (take (8 * p) (bytes_bits d)))) cnt = n
  | Some (inr (p1, cnt1, res1)) =>
      p1 <= p /\ cnt1 <= 8 * p1 /\ cnt1 <= cnt /\ cnt1 < 8 * w /\
      res + Nat.min (lead c (rev (take (8 * p) (bytes_bits d)))) cnt =
      res1 + Nat.min (lead c (rev (take (8 * p1) (bytes_bits d)))) cnt1
  end.
Proof.
  intros Hw Hd. revert p cnt res. induction fuel as [|f IH]; intros p cnt res Hp Hc Hf; [lia|].
  pose proof (length_bytes_bits d) as LD.
  cbn [rscan]. destruct (Nat.leb_spec (8 * w) cnt) as [H8|H8]; [|lia].
  destruct (Nat.ltb_spec p w) as [?|Hpw]; [lia|].
  destruct (rdn_spec d (p - w) w) as [-> Ev]; [lia|].
  set (v := from_be (take w (drop (p - w) d))).
  assert (Hok : Forall byte_ok (take w (drop (p - w) d))) by (apply Forall_take, Forall_drop, Hd).
  assert (L8 : length (take w (drop (p - w) d)) = w) by (rewrite take_length, drop_length; lia).
  assert (Hvw : (v < 2 ^ N.of_nat (8 * w))%N).
  { pose proof (from_be_lt _ Hok) as Q. rewrite L8 in Q. exact Q. }
  assert (Eb : nbits (8 * w) v = take (8 * w) (drop (8 * p - 8 * w) (bytes_bits d))).
  { pose proof (from_be_bits _ Hok) as Q. rewrite L8 in Q. fold v in Q.
    rewrite Q, Ev. do 2 f_equal. lia. }
  destruct (lead_rev_step c (bytes_bits d) (8 * w) (8 * p)) as [S1 S2]; [lia|lia|].
  rewrite <- Eb in S1, S2.
  assert (LB : lead c (rev (nbits (8 * w) v)) <= 8 * w).
  { pose proof (lead_le c (rev (nbits (8 * w) v))) as Q; rewrite rev_length, length_nbits in Q; exact Q. }
  pose proof (lead_rev_full (8 * w) c v Hvw) as LF.
  destruct (N.ltb_spec 0 (N.lxor v (xmask (8 * w) c))) as [Hv|Hv].
  - rewrite ctz_xmask. assert (lead c (rev (nbits (8 * w) v)) <> 8 * w) by (intros Q; apply LF in Q; lia).
    rewrite S1 by lia. lia.
  - assert (E8 : lead c (rev (nbits (8 * w) v)) = 8 * w) by (apply LF; lia).
    specialize (S2 E8). replace (8 * p - 8 * w) with (8 * (p - w)) in S2 by lia.
    specialize (IH (p - w) (cnt - 8 * w) (res + 8 * w) ltac:(lia) ltac:(lia) ltac:(lia)).
    destruct (rscan w f d (xmask (8 * w) c) (p - w) (cnt - 8 * w) (res + 8 * w)) as [[n|[[p1 cnt1] res1]]|];
      [| |exact IH]; rewrite S2; lia.
Qed.

Lemma bits_memscan_rev_spec d offset cnt c :
  Forall byte_ok d -> offset + cnt <= 8 * length d ->
  bits_memscan_rev d offset cnt c = Some (lead c (rev (take cnt (drop offset (bytes_bits d))))).
Proof.
  intros Hd H. pose proof (length_bytes_bits d) as LD.
  assert (GOAL : lead c (rev (take cnt (drop offset (bytes_bits d)))) =
                 Nat.min (lead c (rev (take (offset + cnt) (bytes_bits d)))) cnt).
  { rewrite <- take_take_drop, rev_app_distr. rewrite <- lead_take. f_equal.
    rewrite take_app_alt; [reflexivity|]. rewrite rev_length, take_length, drop_length. lia. }
  rewrite GOAL. clear GOAL.
  unfold bits_memscan_rev. destruct (Nat.eqb_spec cnt 0) as [->|Hc]; [f_equal; lia|].
  rewrite xmask8, xmask32. cbv zeta. set (E := offset + cnt) in *.
  assert (CONT : forall m res, m <= 8 * (E / 8) -> m <= cnt ->
     memscan_rev_tail d (xmask 8 c) (xmask 32 c) (S cnt) (E / 8) m res
     = Some (res + Nat.min (lead c (rev (take (8 * (E / 8)) (bytes_bits d)))) m)).
  { intros m res Hm Hmc. unfold memscan_rev_tail.
    pose proof (rscan_spec 4 d c (S cnt) (E / 8) m res ltac:(lia) Hd ltac:(lia) Hm ltac:(lia)) as A.
    change (8 * 4) with 32 in A.
    destruct (rscan 4 (S cnt) d (xmask 32 c) (E / 8) m res) as [[n|[[p1 m1] res1]]|]; [| |contradiction].
    { f_equal. lia. }
    destruct A as (A1 & A2 & A3 & A4 & A5).
    pose proof (rscan_spec 1 d c (S cnt) p1 m1 res1 ltac:(lia) Hd ltac:(lia) A2 ltac:(lia)) as B.
    change (8 * 1) with 8 in B.
    destruct (rscan 1 (S cnt) d (xmask 8 c) p1 m1 res1) as [[n|[[p2 m2] res2]]|]; [| |contradiction].
    { f_equal. lia. }
    destruct B as (B1 & B2 & B3 & B4 & B5).
    destruct (Nat.ltb_spec 0 m2) as [Hm2|Hm2]; [|f_equal; lia].
    destruct (Nat.eqb_spec p2 0) as [?|_]; [lia|].
    destruct (byte_at d (p2 - 1) Hd) as (b & -> & Hb & Eb); [lia|].
    rewrite ctz_xmask.
    destruct (lead_rev_step c (bytes_bits d) 8 (8 * p2)) as [S1 S2]; [lia|lia|].
    replace (8 * p2 - 8) with (8 * (p2 - 1)) in S1, S2 by lia. rewrite <- Eb in S1, S2.
    pose proof (lead_le c (rev (nbits 8 b))) as Q; rewrite rev_length, length_nbits in Q.
    f_equal. lia. }
  destruct (Nat.ltb_spec 0 (E mod 8)) as [Ho|Ho].
  - set (r := E mod 8) in *. set (q := E / 8) in *.
    assert (EE : E = 8 * q + r) by (unfold q, r; lia).
    destruct (byte_at d q Hd) as (b & -> & Hb & Eb); [lia|].
    assert (EC : ctz 8 (N.lxor (N.shiftr b (8 - N.of_nat r)) (xmask 8 c)) =
                 lead c (rev (take r (nbits 8 b)) ++ zeros (8 - r))).
    { rewrite ctz_xmask. replace (8 - N.of_nat r)%N with (N.of_nat (8 - r)) by (unfold r; lia).
      rewrite nbits_shiftr by (exact Hb || lia). rewrite rev_app_distr. unfold zeros at 1.
      rewrite rev_replicate'. do 3 f_equal. f_equal. unfold r; lia. }
    rewrite EC.
    destruct (lead_rev_step c (bytes_bits d) r E) as [S1 S2]; [unfold r; lia|lia|].
    assert (ET : take r (drop (E - r) (bytes_bits d)) = take r (nbits 8 b)).
    { rewrite Eb, take_take. f_equal; [unfold r; lia|]. f_equal. lia. }
    rewrite ET in S1, S2. replace (E - r) with (8 * q) in S2 by lia.
    assert (LT : length (rev (take r (nbits 8 b))) = r).
    { rewrite rev_length, take_length, length_nbits. unfold r; lia. }
    pose proof (lead_le c (rev (take r (nbits 8 b)))) as Q. rewrite LT in Q.
    destruct (Nat.eq_dec (lead c (rev (take r (nbits 8 b)))) r) as [Er|Er].
    + specialize (S2 Er). rewrite lead_app_full by lia. rewrite LT.
      destruct (Nat.ltb_spec (r + lead c (zeros (8 - r))) r) as [X|X]; [lia|].
      cbn [orb]. destruct (Nat.leb_spec cnt r); [f_equal; lia|].
      rewrite CONT by lia. f_equal. lia.
    + specialize (S1 ltac:(lia)). rewrite lead_app_lt by lia.
      destruct (Nat.ltb_spec (lead c (rev (take r (nbits 8 b)))) r) as [X|X]; [|lia].
      cbn [orb]. f_equal. lia.
  - rewrite CONT by lia. f_equal. replace (8 * (E / 8)) with E by lia. lia.
Qed.

(** ** Longest common prefix *)

(** The byte [b << r] completed with the high bits of the next one. *)
Lemma joined_byte d q r b1 n1 (i : nat) :
  Forall byte_ok d -> r < 8 -> q + i < length d -> 0 < i ->
  byte_bits b1 = drop r (take 8 (drop (8 * (q + i - 1)) (bytes_bits d))) ++ zeros r ->
  rd d (q + i) = Some n1 ->
  byte_bits (N.lor b1 (w8 (N.shiftr n1 (8 - N.of_nat r)))) =
    take 8 (drop (8 * (i - 1)) (drop (8 * q + r) (bytes_bits d))).
Proof.
  intros Hd Hr Hq Hi E1 Hn. destruct (byte_at d (q + i) Hd Hq) as (n & Hn' & Hb & Eb).
  rewrite Hn in Hn'. injection Hn' as <-. pose proof (length_bytes_bits d) as LD.
  replace (8 - N.of_nat r)%N with (N.of_nat (8 - r)) by lia.
  rewrite drop_drop.
  replace (take 8 (drop (8 * q + r + 8 * (i - 1)) (bytes_bits d))) with
    (drop r (take 8 (drop (8 * (q + i - 1)) (bytes_bits d))) ++ take r (nbits 8 n1)).
  - unfold byte_bits. apply lor_split.
    + change (nbits 8 b1) with (byte_bits b1). rewrite E1. rewrite take_length, length_nbits.
      f_equal. f_equal. lia.
    + unfold w8. change 256%N with (2 ^ N.of_nat 8)%N. rewrite nbits_mod by lia.
      rewrite nbits_shiftr by (exact Hb || lia). rewrite drop_length, take_length, drop_length, LD.
      f_equal; f_equal; lia.
  - rewrite Eb, take_take, Nat.min_l by lia.
    replace (take 8 (drop (8 * q + r + 8 * (i - 1)) (bytes_bits d)))
      with (take ((8 - r) + r) (drop (8 * q + r + 8 * (i - 1)) (bytes_bits d))) by (f_equal; lia).
    rewrite <- take_take_drop. f_equal.
    + rewrite skipn_firstn_comm, drop_drop. do 2 f_equal. lia.
    + rewrite drop_drop. do 2 f_equal. lia.
Qed.

Lemma shl_byte_bits d q r n1 :
  Forall byte_ok d -> r < 8 -> rd d q = Some n1 -> q < length d ->
  byte_bits (shl 8 n1 (N.of_nat r)) = drop r (take 8 (drop (8 * q) (bytes_bits d))) ++ zeros r.
Proof.
  intros Hd Hr Hn Hq. destruct (byte_at d q Hd Hq) as (n & Hn' & Hb & Eb).
  rewrite Hn in Hn'. injection Hn' as <-. rewrite byte_bits_shl by lia. unfold byte_bits. rewrite Eb.
  reflexivity.
Qed.

Lemma clz_xor_lcp a b : clz 8 (N.lxor a b) = lcp (byte_bits a) (byte_bits b).
Proof.
  unfold clz. rewrite nbits_lxor. apply lead_zip_xor. rewrite !length_byte_bits. reflexivity.
Qed.

Lemma lcp_split l1 l2 n : n <= length l1 -> n <= length l2 -> take n l1 = take n l2 ->
  lcp l1 l2 = n + lcp (drop n l1) (drop n l2).
Proof.
  intros H1 H2 E. rewrite <- (take_drop n l1) at 1. rewrite <- (take_drop n l2) at 1.
  rewrite E, lcp_app_same, take_length. lia.
Qed.

(** The last, partial byte. *)
Lemma masked_lcp c1 c2 k :
  0 < k <= 8 -> byte_ok c1 -> byte_ok c2 ->
  let mask := shl 8 255 (N.of_nat (8 - k)) in
  Nat.min (clz 8 (N.lxor (N.land c1 mask) (N.land c2 mask))) k = lcp (take k (byte_bits c1)) (take k (byte_bits c2)).
Proof.
  intros Hk K1 K2 mask. rewrite clz_xor_lcp.
  assert (EM : byte_bits mask = replicate k true ++ zeros (8 - k)).
  { unfold mask. clear -Hk. assert (C : k = 1 \/ k = 2 \/ k = 3 \/ k = 4 \/ k = 5 \/ k = 6 \/ k = 7 \/ k = 8) by lia.
    repeat (destruct C as [->|C]; [reflexivity|]). subst; reflexivity. }
  assert (EL : forall c, byte_bits (N.land c mask) = take k (byte_bits c) ++ zeros (8 - k)).
  { intros c. unfold byte_bits at 1. rewrite nbits_land. change (nbits 8 mask) with (byte_bits mask).
    rewrite EM. change (nbits 8 c) with (byte_bits c). rewrite <- (take_drop k (byte_bits c)) at 1.
    rewrite zip_with_app by (rewrite take_length, length_byte_bits, replicate_length; lia).
    rewrite zip_andb_ones_r by (rewrite take_length, length_byte_bits; lia).
    rewrite zip_andb_zeros_r by (rewrite drop_length, length_byte_bits; lia). reflexivity. }
  rewrite !EL.
  assert (LT : forall c, length (take k (byte_bits c)) = k) by (intros; rewrite take_length, length_byte_bits; lia).
  rewrite <- (lcp_app_min (take k (byte_bits c1)) (take k (byte_bits c2)) (zeros (8 - k)) (zeros (8 - k))) by (rewrite !LT; reflexivity).
  rewrite LT. reflexivity.
Qed.

Section LCP.
Variables (d1 d2 : list N) (q1 r1 q2 r2 m : nat).
Hypothesis (Hd1 : Forall byte_ok d1) (Hd2 : Forall byte_ok d2).
Hypothesis (Hr1 : r1 < 8) (Hr2 : r2 < 8).
Hypothesis (HL1 : 8 * q1 + r1 + m <= 8 * length d1) (HL2 : 8 * q2 + r2 + m <= 8 * length d2).
Let A := drop (8 * q1 + r1) (bytes_bits d1).
Let B := drop (8 * q2 + r2) (bytes_bits d2).

Lemma lcp_loop_spec n i b1 b2 :
  0 < i -> q1 + i + n <= length d1 -> q2 + i + n <= length d2 ->
  take (8 * (i - 1)) A = take (8 * (i - 1)) B -> byte_ok b1 -> byte_ok b2 ->
  byte_bits b1 = drop r1 (take 8 (drop (8 * (q1 + i - 1)) (bytes_bits d1))) ++ zeros r1 ->
  byte_bits b2 = drop r2 (take 8 (drop (8 * (q2 + i - 1)) (bytes_bits d2))) ++ zeros r2 ->
  match lcp_loop n i d1 q1 (N.of_nat r1) d2 q2 (N.of_nat r2) m (8 * (i - 1)) b1 b2 with
  | None => False
  | Some (inl x) => x = Nat.min (lcp A B) m
  | Some (inr (plen, c1, c2)) =>
      plen = 8 * (i + n - 1) /\ take plen A = take plen B /\ byte_ok c1 /\ byte_ok c2 /\
      byte_bits c1 = drop r1 (take 8 (drop (8 * (q1 + (i + n) - 1)) (bytes_bits d1))) ++ zeros r1 /\
      byte_bits c2 = drop r2 (take 8 (drop (8 * (q2 + (i + n) - 1)) (bytes_bits d2))) ++ zeros r2
  end.
Proof.
  pose proof (length_bytes_bits d1) as LD1. pose proof (length_bytes_bits d2) as LD2.
  assert (LA : length A = 8 * length d1 - (8 * q1 + r1)) by (unfold A; rewrite drop_length; lia).
  assert (LB : length B = 8 * length d2 - (8 * q2 + r2)) by (unfold B; rewrite drop_length; lia).
  revert i b1 b2. induction n as [|n IH]; intros i b1 b2 Hi H1 H2 EQ K1 K2 E1 E2.
  - cbn [lcp_loop]. rewrite Nat.add_0_r. repeat split; assumption.
  - cbn [lcp_loop].
    destruct (byte_at d1 (q1 + i) Hd1) as (n1 & Hn1 & Hb1 & _); [lia|]. rewrite Hn1.
    destruct (byte_at d2 (q2 + i) Hd2) as (n2 & Hn2 & Hb2 & _); [lia|]. rewrite Hn2.
    set (c1 := N.lor b1 (w8 (N.shiftr n1 (8 - N.of_nat r1)))).
    set (c2 := N.lor b2 (w8 (N.shiftr n2 (8 - N.of_nat r2)))).
    assert (C1 : byte_bits c1 = take 8 (drop (8 * (i - 1)) A)) by (apply joined_byte; (assumption || lia)).
    assert (C2 : byte_bits c2 = take 8 (drop (8 * (i - 1)) B)) by (apply joined_byte; (assumption || lia)).
    assert (LAi : 8 * (i - 1) + 8 <= length A) by lia. assert (LBi : 8 * (i - 1) + 8 <= length B) by lia.
    destruct (N.eqb_spec (N.lxor c1 c2) 0) as [Hx|Hx].
    + apply N.lxor_eq in Hx.
      assert (EQ' : take (8 * (S i - 1)) A = take (8 * (S i - 1)) B).
      { replace (8 * (S i - 1)) with (8 * (i - 1) + 8) by lia. rewrite <- !take_take_drop.
        rewrite EQ, <- C1, <- C2, Hx. reflexivity. }
      assert (E1' : byte_bits (shl 8 n1 (N.of_nat r1)) = drop r1 (take 8 (drop (8 * (q1 + S i - 1)) (bytes_bits d1))) ++ zeros r1).
      { replace (q1 + S i - 1) with (q1 + i) by lia. apply shl_byte_bits; (assumption || lia). }
      assert (E2' : byte_bits (shl 8 n2 (N.of_nat r2)) = drop r2 (take 8 (drop (8 * (q2 + S i - 1)) (bytes_bits d2))) ++ zeros r2).
      { replace (q2 + S i - 1) with (q2 + i) by lia. apply shl_byte_bits; (assumption || lia). }
      specialize (IH (S i) _ _ ltac:(lia) ltac:(lia) ltac:(lia) EQ' (byte_ok_shl8 _ _) (byte_ok_shl8 _ _) E1' E2').
      replace (8 * (S i - 1)) with (8 * (i - 1) + 8) in IH by lia.
      replace (i + S n) with (S i + n) by lia. exact IH.
    + rewrite clz_xor_lcp. f_equal.
      rewrite (lcp_split A B (8 * (i - 1))) by (exact EQ || lia). f_equal.
      rewrite <- (take_drop 8 (drop (8 * (i - 1)) A)). rewrite <- (take_drop 8 (drop (8 * (i - 1)) B)).
      rewrite <- C1, <- C2. symmetry.
      apply lcp_app_lt; [rewrite !length_byte_bits; reflexivity|]. rewrite length_byte_bits.
      pose proof (lcp_le_l (byte_bits c1) (byte_bits c2)) as Q. rewrite length_byte_bits in Q.
      destruct (Nat.eq_dec (lcp (byte_bits c1) (byte_bits c2)) 8) as [E8|E8]; [|lia].
      exfalso. apply Hx. apply lcp_full_eq in E8; [|rewrite !length_byte_bits; reflexivity].
      assert (Hc : nbits 8 (N.lxor c1 c2) = nbits 8 0).
      { rewrite nbits_lxor. change (nbits 8 c1) with (byte_bits c1). rewrite E8.
        unfold byte_bits. rewrite <- nbits_lxor, N.lxor_nilpotent. reflexivity. }
      assert (Kc1 : byte_ok c1) by (apply byte_ok_lor; [assumption|apply byte_ok_w8]).
      assert (Kc2 : byte_ok c2) by (apply byte_ok_lor; [assumption|apply byte_ok_w8]).
      apply (nbits_inj 8); [apply byte_ok_lxor; assumption|reflexivity|exact Hc].
Qed.

End LCP.

Section S.
Context {R : Type}.
Implicit Types s : slice R.

Lemma lcp_impl_spec s1 s2 hint :
  s_ok s1 -> s_ok s2 ->
  lcp_impl s1 s2 hint = Some (Nat.min (lcp (sbits s1) (sbits s2)) (N.to_nat hint)).
Proof.
  intros Hs1 Hs2. pose proof (sbits_length s1 Hs1) as L1. pose proof (sbits_length s2 Hs2) as L2.
  pose proof Hs1 as ((Hd1 & A1 & A2 & _) & A3 & _). pose proof Hs2 as ((Hd2 & B1 & B2 & _) & B3 & _).
  unfold lcp_impl.
  destruct (N.leb_spec (be (sr s1)) (bs (sr s1))) as [E1|E1]; cbn [orb].
  { f_equal. pose proof (lcp_le_l (sbits s1) (sbits s2)). lia. }
  destruct (N.leb_spec (be (sr s2)) (bs (sr s2))) as [E2|E2]; cbn [orb].
  { f_equal. pose proof (lcp_le_r (sbits s1) (sbits s2)). lia. }
  set (d1 := cv_data (sc s1)) in *. set (d2 := cv_data (sc s2)) in *.
  set (m := N.to_nat (N.min (N.min (be (sr s1) - bs (sr s1)) (be (sr s2) - bs (sr s2))) hint)).
  pose proof (length_bytes_bits d1) as LD1. pose proof (length_bytes_bits d2) as LD2.
  destruct (pos_split (bs (sr s1)) (N.to_nat (bs (sr s1))) ltac:(lia)) as (q1 & r1 & Eq1 & Er1 & EB1 & Hr1).
  destruct (pos_split (bs (sr s2)) (N.to_nat (bs (sr s2))) ltac:(lia)) as (q2 & r2 & Eq2 & Er2 & EB2 & Hr2).
  rewrite Eq1, Er1, Eq2, Er2, !Nat2N.id.
  set (A := drop (8 * q1 + r1) (bytes_bits d1)). set (B := drop (8 * q2 + r2) (bytes_bits d2)).
  assert (SA : sbits s1 = take (N.to_nat (be (sr s1) - bs (sr s1))) A).
  { unfold sbits, A. do 2 f_equal. lia. }
  assert (SB : sbits s2 = take (N.to_nat (be (sr s2) - bs (sr s2))) B).
  { unfold sbits, B. do 2 f_equal. lia. }
  (* the target *)
  assert (GOAL : Nat.min (lcp (sbits s1) (sbits s2)) (N.to_nat hint) = Nat.min (lcp A B) m).
  { pose proof (lcp_take m (sbits s1) (sbits s2)) as T. pose proof (lcp_take m A B) as U.
    replace (take m (sbits s1)) with (take m A) in T by (rewrite SA, take_take; f_equal; unfold m; lia).
    replace (take m (sbits s2)) with (take m B) in T by (rewrite SB, take_take; f_equal; unfold m; lia).
    pose proof (lcp_le_l (sbits s1) (sbits s2)). pose proof (lcp_le_r (sbits s1) (sbits s2)).
    unfold m in *. lia. }
  rewrite GOAL. clear GOAL.
  assert (M1 : 8 * q1 + r1 + m <= 8 * length d1) by (unfold m; lia).
  assert (M2 : 8 * q2 + r2 + m <= 8 * length d2) by (unfold m; lia).
  assert (LA : length A = 8 * length d1 - (8 * q1 + r1)) by (unfold A; rewrite drop_length; lia).
  assert (LB : length B = 8 * length d2 - (8 * q2 + r2)) by (unfold B; rewrite drop_length; lia).
  set (n1 := (r1 + m + 7) / 8). set (n2 := (r2 + m + 7) / 8). set (al := Nat.min n1 n2).
  assert (N1 : q1 + n1 <= length d1) by (unfold n1; lia).
  assert (N2 : q2 + n2 <= length d2) by (unfold n2; lia).
  destruct (byte_at d1 q1 Hd1) as (x1 & Hx1 & Kx1 & Ex1); [lia|]. rewrite Hx1.
  destruct (byte_at d2 q2 Hd2) as (x2 & Hx2 & Kx2 & Ex2); [lia|]. rewrite Hx2.
  assert (Q1 : q1 < length d1) by lia. assert (Q2 : q2 < length d2) by lia.
  clear L1 L2 SA SB A1 A2 A3 B1 B2 B3 Eq1 Er1 Eq2 Er2.
  pose proof (lcp_loop_spec d1 d2 q1 r1 q2 r2 m Hd1 Hd2 Hr1 Hr2 M1 M2 (al - 1) 1
                (shl 8 x1 (N.of_nat r1)) (shl 8 x2 (N.of_nat r2))) as LOOP.
  fold A B in LOOP. change (8 * (1 - 1)) with 0 in LOOP.
  specialize (LOOP ltac:(lia) ltac:(unfold al in *; lia) ltac:(unfold al in *; lia) eq_refl
                (byte_ok_shl8 _ _) (byte_ok_shl8 _ _)).
  replace (q1 + 1 - 1) with q1 in LOOP by lia. replace (q2 + 1 - 1) with q2 in LOOP by lia.
  specialize (LOOP ltac:(apply shl_byte_bits; (assumption || lia)) ltac:(apply shl_byte_bits; (assumption || lia))).
  replace (1 + (al - 1)) with (Nat.max al 1) in LOOP by lia.
  destruct (lcp_loop (al - 1) 1 d1 q1 (N.of_nat r1) d2 q2 (N.of_nat r2) m 0 _ _) as [[x|[[plen c1] c2]]|];
    [subst x; reflexivity| |contradiction].
  destruct LOOP as (Ep & EQ & K1 & K2 & C1 & C2).
  set (o1 := if _ && _ then match rd d1 (q1 + al) with _ => _ end else _).
  set (o2 := if _ && _ then match rd d2 (q2 + al) with _ => _ end else _).
  assert (O1 : exists e1, o1 = Some e1 /\ byte_ok e1 /\
             (plen < m -> take (m - plen) (byte_bits e1) = take (m - plen) (drop plen A))).
  { assert (BASE : plen < m -> al = n1 \/ r1 = 0 -> take (m - plen) (byte_bits c1) = take (m - plen) (drop plen A)).
    { intros Hpm Hal.
      assert (al >= 1) by (unfold al, n1, n2; lia). rewrite C1.
      rewrite take_app_le by (rewrite drop_length, take_length, drop_length; unfold al, n1, n2 in *; lia).
      rewrite skipn_firstn_comm, take_take. unfold A. rewrite !drop_drop. f_equal; [|f_equal; lia].
      unfold al, n1, n2 in *; lia. }
    unfold o1. destruct (N.ltb_spec 0 (N.of_nat r1)) as [Hr|Hr]; cbn [andb].
    - destruct (Nat.ltb_spec al n1) as [Hal|Hal].
      + destruct (byte_at d1 (q1 + al) Hd1) as (y & Hy & Ky & Ey); [lia|]. rewrite Hy.
        eexists. split; [reflexivity|].
        assert (Ew : N.shiftr y (8 - N.of_nat r1) = w8 (N.shiftr y (8 - N.of_nat r1))).
        { symmetry. apply N.mod_small. apply byte_ok_shiftr, Ky. }
        rewrite Ew. split; [apply byte_ok_lor; [exact K1|apply byte_ok_w8]|].
        intros Hpm. assert (al >= 1) by (unfold al, n1, n2; lia).
        rewrite (joined_byte d1 q1 r1 c1 y al) by
          (assumption || lia || (rewrite C1; do 4 f_equal; lia)).
        fold A. replace (8 * (al - 1)) with plen by lia. rewrite take_take. f_equal. unfold al, n1, n2 in *; lia.
      + exists c1. split; [reflexivity|]. split; [exact K1|]. intros Hpm. apply BASE; [exact Hpm|lia].
    - exists c1. split; [reflexivity|]. split; [exact K1|]. intros Hpm. apply BASE; [exact Hpm|lia]. }
  assert (O2 : exists e2, o2 = Some e2 /\ byte_ok e2 /\
             (plen < m -> take (m - plen) (byte_bits e2) = take (m - plen) (drop plen B))).
  { assert (BASE : plen < m -> al = n2 \/ r2 = 0 -> take (m - plen) (byte_bits c2) = take (m - plen) (drop plen B)).
    { intros Hpm Hal.
      assert (al >= 1) by (unfold al, n1, n2; lia). rewrite C2.
      rewrite take_app_le by (rewrite drop_length, take_length, drop_length; unfold al, n1, n2 in *; lia).
      rewrite skipn_firstn_comm, take_take. unfold B. rewrite !drop_drop. f_equal; [|f_equal; lia].
      unfold al, n1, n2 in *; lia. }
    unfold o2. destruct (N.ltb_spec 0 (N.of_nat r2)) as [Hr|Hr]; cbn [andb].
    - destruct (Nat.ltb_spec al n2) as [Hal|Hal].
      + destruct (byte_at d2 (q2 + al) Hd2) as (y & Hy & Ky & Ey); [lia|]. rewrite Hy.
        eexists. split; [reflexivity|].
        assert (Ew : N.shiftr y (8 - N.of_nat r2) = w8 (N.shiftr y (8 - N.of_nat r2))).
        { symmetry. apply N.mod_small. apply byte_ok_shiftr, Ky. }
        rewrite Ew. split; [apply byte_ok_lor; [exact K2|apply byte_ok_w8]|].
        intros Hpm. assert (al >= 1) by (unfold al, n1, n2; lia).
        rewrite (joined_byte d2 q2 r2 c2 y al) by
          (assumption || lia || (rewrite C2; do 4 f_equal; lia)).
        fold B. replace (8 * (al - 1)) with plen by lia. rewrite take_take. f_equal. unfold al, n1, n2 in *; lia.
      + exists c2. split; [reflexivity|]. split; [exact K2|]. intros Hpm. apply BASE; [exact Hpm|lia].
    - exists c2. split; [reflexivity|]. split; [exact K2|]. intros Hpm. apply BASE; [exact Hpm|lia]. }
  destruct O1 as (e1 & -> & Ke1 & Ee1). destruct O2 as (e2 & -> & Ke2 & Ee2).
  f_equal.
  destruct (Nat.le_gt_cases m plen) as [Hmp|Hmp].
  - (* every bit up to [m] has been compared by the loop *)
    assert (m <= lcp A B).
    { assert (T : lcp (take m A) (take m B) = m).
      { replace (take m A) with (take m (take plen A)) by (rewrite take_take; f_equal; lia).
        rewrite EQ, take_take, Nat.min_l by lia.
        rewrite <- (app_nil_r (take m B)), lcp_app_same. cbn [lcp]. rewrite take_length. lia. }
      rewrite lcp_take in T. lia. }
    lia.
  - specialize (Ee1 Hmp). specialize (Ee2 Hmp).
    set (k := m - plen) in *.
    assert (Hk : 0 < k <= 8) by (unfold k, al, n1, n2 in *; lia).
    replace ((8 - m mod 8) mod 8) with (8 - k) by (unfold k in *; lia).
    pose proof (masked_lcp e1 e2 k Hk Ke1 Ke2) as ML. cbv zeta in ML.
    rewrite Ee1, Ee2, lcp_take in ML.
    rewrite (lcp_split A B plen) by (exact EQ || lia). lia.
Qed.

Lemma longest_common_data_prefix_spec s1 s2 :
  s_ok s1 -> s_ok s2 ->
  exists p, longest_common_data_prefix s1 s2 = Ok p /\ s_ok p /\ sc p = sc s1 /\
    sbits p = take (lcp (sbits s1) (sbits s2)) (sbits s1) /\ srefs p = [].
Proof.
  intros Hs1 Hs2. unfold longest_common_data_prefix. rewrite lcp_impl_spec by assumption.
  pose proof (lcp_le_l (sbits s1) (sbits s2)) as Q. pose proof (sbits_length s1 Hs1) as L1.
  pose proof Hs1 as ((Hd1 & A1 & A2 & _) & A3 & _).
  rewrite Nat.min_l by lia. cbn [of_opt rbind].
  destruct (get_prefix_spec s1 (N.of_nat (lcp (sbits s1) (sbits s2))) 0 Hs1) as (P1 & P2 & P3); [lia|lia|].
  eexists. split; [reflexivity|]. split; [exact P1|]. split; [reflexivity|].
  rewrite Nat2N.id in P2. split; [exact P2|]. exact P3.
Qed.

Lemma strip_data_prefix_spec s1 s2 :
  s_ok s1 -> s_ok s2 ->
  if bool_decide (take (length (sbits s2)) (sbits s1) = sbits s2) then
    exists p, strip_data_prefix s1 s2 = Ok (Some p) /\ s_ok p /\
      sbits p = drop (length (sbits s2)) (sbits s1) /\ srefs p = srefs s1
  else strip_data_prefix s1 s2 = Ok None.
Proof.
  intros Hs1 Hs2. unfold strip_data_prefix, size_bits_r.
  pose proof (sbits_length s1 Hs1) as L1. pose proof (sbits_length s2 Hs2) as L2.
  pose proof Hs2 as ((Hd2 & A1 & A2 & _) & A3 & _).
  rewrite lcp_impl_spec by assumption. cbn [of_opt rbind].
  set (pl := (be (sr s2) - bs (sr s2))%N) in *.
  destruct (bool_decide_reflect (take (length (sbits s2)) (sbits s1) = sbits s2)) as [E|E].
  - assert (Hle : length (sbits s2) <= length (sbits s1)).
    { apply (f_equal length) in E. rewrite take_length in E. lia. }
    destruct (N.eqb_spec pl 0) as [H0|H0].
    { exists s1. split; [reflexivity|]. split; [exact Hs1|]. replace (length (sbits s2)) with 0 by lia.
      split; reflexivity. }
    destruct (N.ltb_spec (be (sr s1) - bs (sr s1)) pl) as [?|_]; [lia|].
    assert (lcp (sbits s1) (sbits s2) = length (sbits s2)).
    { rewrite <- E at 1. rewrite <- (take_drop (length (sbits s2)) (sbits s1)) at 1.
      rewrite <- (app_nil_r (take (length (sbits s2)) (sbits s1))) at 2.
      rewrite lcp_app_same, take_length. destruct (drop _ _); cbn; lia. }
    destruct (N.leb_spec pl (N.of_nat (Nat.min (lcp (sbits s1) (sbits s2)) (N.to_nat pl)))) as [_|?]; [|lia].
    pose proof (skip_first_cuts s1 pl 0%N Hs1 ltac:(lia) ltac:(lia)) as C.
    destruct (Nat.leb_spec (N.to_nat pl) (length (sbits s1))); [|lia].
    cbn [andb] in C. change (N.to_nat 0 <=? length (srefs s1)) with true in C. cbn match in C.
    destruct C as (x & -> & Hx & Bx & Rx). eexists. split; [reflexivity|].
    split; [exact Hx|]. split; [|exact Rx]. rewrite L2. exact Bx.
  - destruct (N.eqb_spec pl 0) as [H0|H0].
    { exfalso. apply E. replace (length (sbits s2)) with 0 by lia. rewrite take_0.
      destruct (sbits s2); [reflexivity|cbn [length] in L2; lia]. }
    destruct (N.ltb_spec (be (sr s1) - bs (sr s1)) pl) as [?|?]; [reflexivity|].
    destruct (N.leb_spec pl (N.of_nat (Nat.min (lcp (sbits s1) (sbits s2)) (N.to_nat pl)))) as [?|?]; [|reflexivity].
    exfalso. apply E. pose proof (lcp_take_eq (sbits s1) (sbits s2)) as T.
    pose proof (lcp_le_r (sbits s1) (sbits s2)).
    replace (lcp (sbits s1) (sbits s2)) with (length (sbits s2)) in T by lia.
    rewrite T. apply firstn_all.
Qed.

(** ** Run counts *)
Lemma empty_bits s : s_ok s -> (be (sr s) <= bs (sr s))%N -> sbits s = [].
Proof.
  intros Hs H. pose proof (sbits_length s Hs) as L. destruct (sbits s); [reflexivity|cbn [length] in L; lia].
Qed.

Lemma count_leading_spec al s b : s_ok s -> count_leading al s b = Ok (lead b (sbits s)).
Proof.
  intros Hs. unfold count_leading. destruct (N.leb_spec (be (sr s)) (bs (sr s))) as [H|H].
  { rewrite empty_bits by assumption. reflexivity. }
  pose proof Hs as ((Hd & A1 & A2 & _) & A3 & _).
  destruct (Nat.ltb_spec (length (cv_data (sc s))) (N.to_nat ((be (sr s) + 7) / 8))) as [?|_]; [lia|].
  rewrite bits_memscan_spec by (assumption || lia). reflexivity.
Qed.

Lemma count_trailing_spec s b : s_ok s -> count_trailing s b = Ok (lead b (rev (sbits s))).
Proof.
  intros Hs. unfold count_trailing. destruct (N.leb_spec (be (sr s)) (bs (sr s))) as [H|H].
  { rewrite empty_bits by assumption. reflexivity. }
  pose proof Hs as ((Hd & A1 & A2 & _) & A3 & _).
  destruct (Nat.ltb_spec (length (cv_data (sc s))) (N.to_nat ((be (sr s) + 7) / 8))) as [?|_]; [lia|].
  rewrite bits_memscan_rev_spec by (assumption || lia). reflexivity.
Qed.

(** ** Uniformity *)
Definition uniform (l : list bool) : option bool :=
  match l with [] => None | b :: _ => if lead b l =? length l then Some b else None end.

Lemma all_bytes_spec n d p c :
  Forall byte_ok d -> p + n <= length d ->
  all_bytes n d p (xmask 8 c) =
    Some (lead c (take (8 * n) (drop (8 * p) (bytes_bits d))) =? 8 * n).
Proof.
  intros Hd. revert p. pose proof (length_bytes_bits d) as LD.
  induction n as [|n IH]; intros p Hp; [reflexivity|].
  cbn [all_bytes]. destruct (byte_at d p Hd) as (b & -> & Kb & Eb); [lia|].
  replace (8 * S n) with (8 + 8 * n) by lia. rewrite <- take_take_drop, <- Eb.
  pose proof (lead_nbits_full 8 c b Kb) as LF.
  pose proof (lead_le c (nbits 8 b)) as Q. rewrite length_nbits in Q.
  destruct (N.eqb_spec b (xmask 8 c)) as [E|E].
  - assert (E8 : lead c (nbits 8 b) = 8) by (apply LF; rewrite E; apply N.lxor_nilpotent).
    rewrite lead_app_full by (rewrite length_nbits; exact E8). rewrite length_nbits.
    rewrite IH by lia. rewrite drop_drop. replace (8 * S p) with (8 * p + 8) by lia. f_equal.
  - assert (E8 : lead c (nbits 8 b) <> 8) by (intros X; apply LF, N.lxor_eq in X; contradiction).
    rewrite lead_app_lt by (rewrite length_nbits; lia). f_equal. symmetry. apply Nat.eqb_neq. lia.
Qed.

Lemma land_zero_window c b r k :
  byte_ok b -> r + k <= 8 ->
  (N.land (N.land (N.lxor b (xmask 8 c)) (N.shiftr 255 (N.of_nat r))) (shl 8 255 (N.of_nat (8 - (r + k)))) =? 0)%N
  = (lead c (take k (drop r (nbits 8 b))) =? k).
Proof.
  intros Kb Hrk.
  set (v := N.land (N.land _ _) _).
  set (w := map (xorb c) (take k (drop r (nbits 8 b)))).
  assert (Lw : length w = k) by (unfold w; rewrite map_length, take_length, drop_length, length_nbits; lia).
  assert (Ev : nbits 8 v = zeros r ++ w ++ zeros (8 - (r + k))).
  { unfold v.
    destruct (Nat.eq_dec r 8) as [->|Hr8].
    { change (N.shiftr 255 (N.of_nat 8)) with 0%N. rewrite N.land_0_r, N.land_0_l, nbits_zero.
      destruct w; [|cbn [length] in Lw; lia]. replace (8 - (8 + k)) with 0 by lia. reflexivity. }
    rewrite nbits_land.
    rewrite masked_high_bits by lia. rewrite nbits_xmask.
    assert (EM : nbits 8 (shl 8 255 (N.of_nat (8 - (r + k)))) = replicate (r + k) true ++ zeros (8 - (r + k))).
    { clear -Hrk. set (j := r + k) in *. clearbody j.
      assert (C : j = 0 \/ j = 1 \/ j = 2 \/ j = 3 \/ j = 4 \/ j = 5 \/ j = 6 \/ j = 7 \/ j = 8) by lia.
      repeat (destruct C as [->|C]; [reflexivity|]). subst; reflexivity. }
    rewrite EM.
    replace (drop r (map (xorb c) (nbits 8 b))) with (w ++ drop (r + k) (map (xorb c) (nbits 8 b))).
    2:{ unfold w. rewrite <- (firstn_map (xorb c) k), <- (skipn_map (xorb c) r).
        rewrite <- (drop_drop _ k r). apply take_drop. }
    rewrite app_assoc.
    rewrite zip_with_app by (rewrite app_length, length_zeros, replicate_length; lia).
    rewrite zip_andb_ones_r by (rewrite app_length, length_zeros; lia).
    rewrite zip_andb_zeros_r by (rewrite drop_length, map_length, length_nbits; lia).
    rewrite <- app_assoc. reflexivity. }
  assert (Kv : byte_ok v).
  { unfold v. apply byte_ok_land, byte_ok_land. apply byte_ok_lxor; [exact Kb|apply xmask8_ok]. }
  rewrite <- lead_xor. fold w.
  destruct (N.eqb_spec v 0) as [E|E]; symmetry.
  - apply Nat.eqb_eq. rewrite E, nbits_zero in Ev.
    pose proof (lead_full false w) as F. rewrite Lw in F. apply F.
    replace 8 with (r + (k + (8 - (r + k)))) in Ev at 1 by lia. rewrite !zeros_app in Ev.
    apply app_inj_1 in Ev as [_ Ev]; [|reflexivity].
    apply app_inj_1 in Ev as [Ev _]; [|rewrite length_zeros; lia]. symmetry. exact Ev.
  - apply Nat.eqb_neq. intros X. apply E. pose proof (lead_full false w) as F. rewrite Lw in F.
    apply F in X. apply (nbits_inj 8); [exact Kv|reflexivity|]. rewrite Ev, X, nbits_zero.
    change (replicate k false) with (zeros k). rewrite <- !zeros_app. f_equal. lia.
Qed.

Lemma lead_eqb_app c a b n m :
  length a = n -> length b = m ->
  (lead c (a ++ b) =? n + m) = (lead c a =? n) && (lead c b =? m).
Proof.
  intros <- <-. pose proof (lead_le c a) as Qa. pose proof (lead_le c b) as Qb.
  destruct (Nat.eqb_spec (lead c a) (length a)) as [E|E]; cbn [andb].
  - rewrite lead_app_full by exact E. lia.
  - rewrite lead_app_lt by lia. lia.
Qed.

Lemma test_uniform_spec al s : s_ok s -> test_uniform al s = Ok (uniform (sbits s)).
Proof.
  intros Hs. unfold test_uniform. destruct (N.leb_spec (be (sr s)) (bs (sr s))) as [H|H].
  { rewrite empty_bits by assumption. reflexivity. }
  pose proof Hs as ((Hd & A1 & A2 & _) & A3 & _). pose proof (sbits_length s Hs) as L.
  destruct (Nat.ltb_spec (length (cv_data (sc s))) (N.to_nat ((be (sr s) + 7) / 8))) as [?|_]; [lia|].
  set (d := cv_data (sc s)) in *. set (cnt := N.to_nat (be (sr s) - bs (sr s))) in *.
  destruct (pos_split (bs (sr s)) (N.to_nat (bs (sr s))) ltac:(lia)) as (q & r & Eq & Er & EB & Hr).
  rewrite Eq, Er, Nat2N.id. pose proof (length_bytes_bits d) as LD.
  destruct (byte_at d q Hd) as (fb & -> & Kfb & Efb); [lia|]. cbn [of_opt rbind].
  assert (SB : sbits s = take cnt (drop (8 * q + r) (bytes_bits d))) by (unfold sbits; do 2 f_equal; lia).
  (* the first bit *)
  set (bit := negb (N.land (N.shiftr fb (7 - N.of_nat r)) 1 =? 0)%N).
  assert (HB : sbits s !! 0 = Some bit).
  { rewrite SB, lookup_take by lia. rewrite lookup_drop, Nat.add_0_r.
    assert (X : nbits 8 fb !! r = Some bit).
    { rewrite nbits_lookup by lia. f_equal. unfold bit.
      change 1%N with (N.ones 1). rewrite N.land_ones. change (2 ^ 1)%N with 2%N.
      rewrite <- N.bit0_mod, N.shiftr_spec, N.add_0_l by lia.
      replace (N.of_nat (8 - 1 - r)) with (7 - N.of_nat r)%N by lia.
      destruct (N.testbit fb (7 - N.of_nat r)); reflexivity. }
    rewrite Efb, lookup_take, lookup_drop in X by lia. exact X. }
  assert (GOAL : uniform (sbits s) = if lead bit (sbits s) =? cnt then Some bit else None).
  { unfold uniform. destruct (sbits s) as [|b0 l]; [discriminate|]. injection HB as ->. rewrite L. reflexivity. }
  rewrite GOAL. clear GOAL HB.
  destruct (Nat.ltb_spec cnt 64) as [H64|H64].
  2:{ rewrite bits_memscan_spec by (assumption || lia). cbn [of_opt rbind].
      replace (N.to_nat (bs (sr s))) with (8 * q + r) by lia. rewrite <- SB. reflexivity. }
  rewrite xmask8.
  destruct (Nat.leb_spec (r + cnt) 8) as [H8|H8].
  - replace ((8 - (cnt + r) mod 8) mod 8) with (8 - (r + cnt)) by lia.
    rewrite land_zero_window by (assumption || lia).
    replace (take cnt (drop r (nbits 8 fb))) with (sbits s).
    + destruct (lead bit (sbits s) =? cnt); reflexivity.
    + rewrite SB, Efb. rewrite sub_sub by lia. reflexivity.
  - (* first byte, full bytes, last byte *)
    set (k := cnt - (8 - r)).
    assert (W1 : (N.land (N.lxor fb (xmask 8 bit)) (N.shiftr 255 (N.of_nat r)) =? 0)%N
                 = (lead bit (drop r (nbits 8 fb)) =? 8 - r)).
    { rewrite <- (take_ge (drop r (nbits 8 fb)) (8 - r)) by (rewrite drop_length, length_nbits; lia).
      rewrite <- (land_zero_window bit fb r (8 - r)) by (assumption || lia).
      replace (8 - (r + (8 - r))) with 0 by lia. f_equal.
      change (shl 8 255 (N.of_nat 0)) with (N.ones 8). rewrite N.land_ones. symmetry. apply N.mod_small.
      apply byte_ok_land. apply byte_ok_lxor; [exact Kfb|apply xmask8_ok]. }
    rewrite W1.
    assert (SP : sbits s = drop r (nbits 8 fb) ++
              take (8 * (k / 8)) (drop (8 * S q) (bytes_bits d)) ++
              take (k mod 8) (drop (8 * (S q + k / 8)) (bytes_bits d))).
    { rewrite SB, Efb. replace cnt with ((8 - r) + (8 * (k / 8) + k mod 8)) by lia.
      rewrite <- take_take_drop. f_equal.
      - rewrite skipn_firstn_comm, drop_drop. reflexivity.
      - rewrite <- take_take_drop, !drop_drop. f_equal; do 2 f_equal; lia. }
    assert (LDEC : (lead bit (sbits s) =? cnt) =
        (lead bit (drop r (nbits 8 fb)) =? 8 - r) &&
        ((lead bit (take (8 * (k / 8)) (drop (8 * S q) (bytes_bits d))) =? 8 * (k / 8)) &&
         (lead bit (take (k mod 8) (drop (8 * (S q + k / 8)) (bytes_bits d))) =? k mod 8))).
    { rewrite SP. replace cnt with ((8 - r) + (8 * (k / 8) + k mod 8)) by lia.
      rewrite (lead_eqb_app _ _ _ (8 - r) (8 * (k / 8) + k mod 8)).
      - f_equal. apply lead_eqb_app; rewrite take_length, drop_length; lia.
      - rewrite drop_length, length_nbits; lia.
      - rewrite app_length, !take_length, !drop_length; lia. }
    rewrite LDEC. clear LDEC SP SB.
    destruct (lead bit (drop r (nbits 8 fb)) =? 8 - r); cbn [negb andb]; [|reflexivity].
    rewrite all_bytes_spec by (assumption || lia). cbn [of_opt rbind].
    destruct (lead bit (take (8 * (k / 8)) _) =? 8 * (k / 8)); cbn [andb]; [|reflexivity].
    destruct (Nat.eqb_spec (k mod 8) 0) as [K0|K0].
    + rewrite K0, take_0. reflexivity.
    + destruct (byte_at d (S q + k / 8) Hd) as (lb & -> & Klb & Elb); [lia|]. cbn [of_opt rbind].
      pose proof (land_zero_window bit lb 0 (k mod 8) Klb ltac:(lia)) as W2.
      rewrite drop_0, Elb, take_take, Nat.min_l in W2 by lia. rewrite <- W2.
      replace ((8 - (cnt + r) mod 8) mod 8) with (8 - (0 + k mod 8)) by lia.
      assert (EL : N.land (N.lxor lb (xmask 8 bit)) (N.shiftr 255 (N.of_nat 0)) = N.lxor lb (xmask 8 bit)).
      { change (N.shiftr 255 (N.of_nat 0)) with (N.ones 8). rewrite N.land_ones. apply N.mod_small.
        apply byte_ok_lxor; [exact Klb|apply xmask8_ok]. }
      rewrite EL. clearbody bit.
      match goal with |- (if ?c then _ else _) = _ => destruct c end; reflexivity.
Qed.

End S.
