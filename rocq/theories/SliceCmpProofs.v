(** * Proofs about windows, comparison and scanning of slices. *)
From Verif Require Import Err BitsProofs BufProofs BuilderModel BuilderProofs SliceModel SliceSpec SliceProofs.
Local Open Scope nat_scope.

Ltac Zify.zify_post_hook ::= Z.div_mod_to_equations.

Lemma lexc_app a b c d :
  length a = length b ->
  lexc (a ++ c) (b ++ d) = match lexc a b with Eq => lexc c d | o => o end.
Proof.
  revert b. induction a as [|x a IH]; intros [|y b] E; try discriminate; [reflexivity|].
  cbn [lexc app]. destruct (Bool.eqb x y); [apply IH; cbn in E; lia|]. destruct y; reflexivity.
Qed.

Lemma lexc_bval a b :
  length a = length b -> N.compare (bval a) (bval b) = lexc a b.
Proof.
  revert b. induction a as [|x a IH]; intros [|y b] E; try discriminate; [reflexivity|].
  rewrite !bval_cons. cbn [lexc]. cbn [length] in E. injection E as E.
  pose proof (bval_lt a) as Ha. pose proof (bval_lt b) as Hb.
  rewrite <- (IH b E). rewrite E in *. set (p := (2 ^ N.of_nat (length b))%N) in *.
  destruct x, y; cbn [Bool.eqb N.b2n]; rewrite ?N.mul_1_l, ?N.mul_0_l, ?N.add_0_l.
  - rewrite !(N.add_comm p). destruct (N.compare_spec (bval a) (bval b)) as [C|C|C].
    + rewrite C. apply N.compare_refl.
    + apply N.compare_lt_iff. lia.
    + apply N.compare_gt_iff. lia.
  - apply N.compare_gt_iff. lia.
  - apply N.compare_lt_iff. lia.
  - reflexivity.
Qed.

Lemma lexc_refl a : lexc a a = Eq.
Proof. induction a as [|x a IH]; [reflexivity|]. cbn. rewrite Bool.eqb_reflx. exact IH. Qed.

Lemma lexc_nil_compare c d :
  length c = 0 \/ length d = 0 -> lexc c d = Nat.compare (length c) (length d).
Proof.
  intros [H|H]; [destruct c; [|discriminate]|destruct d; [|discriminate]].
  - destruct d; reflexivity.
  - destruct c; reflexivity.
Qed.

Lemma lexc_eq a b : lexc a b = Eq <-> a = b.
Proof.
  split; [|intros ->; apply lexc_refl].
  revert b. induction a as [|x a IH]; intros [|y b]; cbn; try discriminate; [reflexivity|].
  destruct (Bool.eqb x y) eqn:E; [|destruct y; discriminate].
  apply Bool.eqb_prop in E as ->. intros H. f_equal. apply IH, H.
Qed.

Lemma lcp_app_same p a b : lcp (p ++ a) (p ++ b) = length p + lcp a b.
Proof.
  induction p as [|x p IH]; [reflexivity|]. cbn [lcp app length]. rewrite Bool.eqb_reflx, IH. reflexivity.
Qed.

Lemma lcp_le_l a b : lcp a b <= length a.
Proof.
  revert b; induction a as [|x a IH]; intros [|y b]; cbn; try lia.
  destruct (Bool.eqb x y); [|lia]. specialize (IH b). lia.
Qed.
Lemma lcp_le_r a b : lcp a b <= length b.
Proof.
  revert b; induction a as [|x a IH]; intros [|y b]; cbn; try lia.
  destruct (Bool.eqb x y); [|lia]. specialize (IH b). lia.
Qed.

Lemma lcp_app_min a b c d :
  length a = length b -> Nat.min (lcp (a ++ c) (b ++ d)) (length a) = lcp a b.
Proof.
  revert b. induction a as [|x a IH]; intros [|y b] E; try discriminate; [cbn; lia|].
  cbn [lcp app length]. destruct (Bool.eqb x y); [|reflexivity].
  rewrite <- (IH b) by (cbn in E; lia). lia.
Qed.

Lemma lcp_app_lt a b c d :
  length a = length b -> lcp a b < length a -> lcp (a ++ c) (b ++ d) = lcp a b.
Proof. intros E H. pose proof (lcp_app_min a b c d E). lia. Qed.

Lemma lcp_take m a b : lcp (take m a) (take m b) = Nat.min (lcp a b) m.
Proof.
  revert a b. induction m as [|m IH]; intros a b; [rewrite !take_0; cbn; lia|].
  destruct a as [|x a], b as [|y b]; cbn [lcp take]; try lia.
  destruct (Bool.eqb x y); [|reflexivity]. rewrite IH. lia.
Qed.

Lemma lcp_full_eq a b : length a = length b -> lcp a b = length a -> a = b.
Proof.
  revert b. induction a as [|x a IH]; intros [|y b] E; try discriminate; [reflexivity|].
  cbn. destruct (Bool.eqb x y) eqn:Exy; [|discriminate]. apply Bool.eqb_prop in Exy as ->.
  intros H. f_equal. apply IH; cbn in E; lia.
Qed.

Lemma lcp_take_eq a b : take (lcp a b) a = take (lcp a b) b.
Proof.
  revert b; induction a as [|x a IH]; intros [|y b]; cbn; try reflexivity.
  destruct (Bool.eqb x y) eqn:E; [|reflexivity]. apply Bool.eqb_prop in E as ->.
  cbn. f_equal. apply IH.
Qed.

Lemma lcp_stop a b x y :
  a !! lcp a b = Some x -> b !! lcp a b = Some y -> x <> y.
Proof.
  revert b; induction a as [|z a IH]; intros [|w b]; cbn; try discriminate.
  destruct (Bool.eqb z w) eqn:E; [apply IH|].
  cbn. intros [= ->] [= ->] ->. rewrite Bool.eqb_reflx in E. discriminate.
Qed.

(** ** Leading runs *)
Lemma lead_le b l : lead b l <= length l.
Proof. induction l as [|x l IH]; cbn; [lia|]. destruct (Bool.eqb x b); lia. Qed.

Lemma lead_app_lt b l m : lead b l < length l -> lead b (l ++ m) = lead b l.
Proof.
  induction l as [|x l IH]; cbn; [lia|]. destruct (Bool.eqb x b); [|reflexivity].
  intros H. rewrite IH by lia. reflexivity.
Qed.

Lemma lead_app_full b l m : lead b l = length l -> lead b (l ++ m) = length l + lead b m.
Proof.
  induction l as [|x l IH]; cbn; [reflexivity|]. destruct (Bool.eqb x b); [|discriminate].
  intros H. rewrite IH by lia. reflexivity.
Qed.

Lemma lead_take b n l : lead b (take n l) = Nat.min (lead b l) n.
Proof.
  revert n; induction l as [|x l IH]; intros [|n]; cbn; try lia.
  destruct (Bool.eqb x b); [|reflexivity]. rewrite IH. lia.
Qed.

Lemma lead_full b l : lead b l = length l <-> l = replicate (length l) b.
Proof.
  induction l as [|x l IH]; cbn; [tauto|]. destruct (Bool.eqb x b) eqn:E.
  - apply Bool.eqb_prop in E as ->. split; intros H.
    + f_equal. apply IH. lia.
    + f_equal. apply IH. injection H as H. exact H.
  - split; [discriminate|]. intros [= -> ]. rewrite Bool.eqb_reflx in E. discriminate.
Qed.

Lemma lead_is_run b l :
  take (lead b l) l = replicate (lead b l) b /\
  (forall x, l !! lead b l = Some x -> x = negb b).
Proof.
  induction l as [|x l [IH1 IH2]]; cbn; [split; [reflexivity|discriminate]|].
  destruct (Bool.eqb x b) eqn:E; cbn.
  - apply Bool.eqb_prop in E as ->. split; [f_equal; exact IH1|exact IH2].
  - split; [reflexivity|]. intros y [= <-]. destruct x, b; cbn in *; congruence.
Qed.

Lemma lead_xor c l : lead false (map (xorb c) l) = lead c l.
Proof.
  induction l as [|x l IH]; [reflexivity|]. cbn. rewrite IH. destruct c, x; reflexivity.
Qed.

Lemma lead_zip_xor a b : length a = length b -> lead false (zip_with xorb a b) = lcp a b.
Proof.
  revert b. induction a as [|x a IH]; intros [|y b] E; try discriminate; [reflexivity|].
  cbn. rewrite IH by (cbn in E; lia). destruct x, y; reflexivity.
Qed.

Lemma nbits_allones w : nbits w (2 ^ N.of_nat w - 1) = replicate w true.
Proof.
  apply list_eq_bounded; [rewrite length_nbits, replicate_length; reflexivity|].
  intros i Hi. rewrite length_nbits in Hi. rewrite nbits_lookup by exact Hi.
  rewrite lookup_replicate_2 by exact Hi. f_equal.
  replace (2 ^ N.of_nat w - 1)%N with (N.ones (N.of_nat w)) by (rewrite N.ones_equiv; lia).
  apply N.ones_spec_low. lia.
Qed.

Lemma zip_xor_const c l : zip_with xorb l (replicate (length l) c) = map (xorb c) l.
Proof. induction l as [|x l IH]; [reflexivity|]. cbn. rewrite IH. destruct c, x; reflexivity. Qed.

Definition xmask (w : nat) (c : bool) : N := if c then (2 ^ N.of_nat w - 1)%N else 0%N.

Lemma nbits_xmask w c v : nbits w (N.lxor v (xmask w c)) = map (xorb c) (nbits w v).
Proof.
  rewrite nbits_lxor.
  replace (nbits w (xmask w c)) with (replicate (length (nbits w v)) c).
  - apply zip_xor_const.
  - rewrite length_nbits. destruct c; cbn [xmask]; [rewrite nbits_allones|rewrite nbits_zero]; reflexivity.
Qed.

Lemma clz_xmask w c v : clz w (N.lxor v (xmask w c)) = lead c (nbits w v).
Proof. unfold clz. rewrite nbits_xmask. apply lead_xor. Qed.

Lemma ctz_xmask w c v : ctz w (N.lxor v (xmask w c)) = lead c (rev (nbits w v)).
Proof. unfold ctz. rewrite nbits_xmask, <- map_rev. apply lead_xor. Qed.

Lemma lxor_lt a b n : (a < 2 ^ n)%N -> (b < 2 ^ n)%N -> (N.lxor a b < 2 ^ n)%N.
Proof.
  intros Ha Hb. apply lt_pow2_bits. intros i Hi.
  rewrite N.lxor_spec, (bits_high_lt a n), (bits_high_lt b n) by assumption. reflexivity.
Qed.

Lemma xmask_lt w c : (xmask w c < 2 ^ N.of_nat w)%N.
Proof. pose proof (N.pow_nonzero 2 (N.of_nat w)). destruct c; cbn [xmask]; lia. Qed.

Lemma xmask_zero w c v :
  (v < 2 ^ N.of_nat w)%N ->
  (N.lxor v (xmask w c) = 0%N <-> nbits w v = replicate w c).
Proof.
  intros Hv. rewrite N.lxor_eq_0_iff. split.
  - intros ->. destruct c; cbn [xmask]; [apply nbits_allones|apply nbits_zero].
  - intros E. apply (nbits_inj w); [exact Hv|apply xmask_lt|]. rewrite E.
    destruct c; cbn [xmask]; [rewrite nbits_allones|rewrite nbits_zero]; reflexivity.
Qed.

Lemma lead_nbits_full w c v :
  (v < 2 ^ N.of_nat w)%N ->
  (N.lxor v (xmask w c) = 0%N <-> lead c (nbits w v) = w).
Proof.
  intros Hv. rewrite (xmask_zero w c v Hv).
  pose proof (lead_full c (nbits w v)) as F. rewrite length_nbits in F. tauto.
Qed.

Lemma rev_replicate' {A} n (x : A) : rev (replicate n x) = replicate n x.
Proof.
  induction n as [|n IH]; [reflexivity|]. cbn. 
  rewrite IH. clear. induction n as [|n IH]; [reflexivity|]. cbn. f_equal. exact IH.
Qed.

Lemma lead_rev_full w c v :
  (v < 2 ^ N.of_nat w)%N ->
  (N.lxor v (xmask w c) = 0%N <-> lead c (rev (nbits w v)) = w).
Proof.
  intros Hv. rewrite (xmask_zero w c v Hv).
  pose proof (lead_full c (rev (nbits w v))) as F. rewrite rev_length, length_nbits in F.
  rewrite F. split; intros E.
  - rewrite E. apply rev_replicate'.
  - rewrite <- (rev_involutive (nbits w v)), E. apply rev_replicate'.
Qed.

Lemma xmask8 (c : bool) : (if c then 255 else 0)%N = xmask 8 c.
Proof. destruct c; reflexivity. Qed.

Section S.
Context {R : Type}.
Implicit Types s : slice R.

(** ** Windows *)
Definition win (s : slice R) (x : rng) : slice R := mkS (sc s) x.

Lemma w8_small x : (x < 256)%N -> w8 x = x.
Proof. intros H. unfold w8. apply N.mod_small. exact H. Qed.

Lemma rng_over_spec s bits refs :
  s_ok s -> (bits <= 64000)%N -> (refs <= 250)%N ->
  rng_over (sr s) bits refs =
    negb ((N.to_nat bits <=? length (sbits s)) && (N.to_nat refs <=? length (srefs s))).
Proof.
  intros Hs Hb Hr. rewrite (sbits_length s Hs), (srefs_length s Hs).
  destruct Hs as ((Hd & H1 & H2 & H3) & H4 & H5).
  unfold rng_over. rewrite w16_small, w8_small by lia. lia.
Qed.

Lemma win_bits s x :
  sbits (win s x) = take (N.to_nat (be x - bs x)) (drop (N.to_nat (bs x)) (bytes_bits (cv_data (sc s)))).
Proof. reflexivity. Qed.
Lemma win_refs s x :
  srefs (win s x) = take (N.to_nat (re x - rs x)) (drop (N.to_nat (rs x)) (cv_refs (sc s))).
Proof. reflexivity. Qed.

Lemma sub_window {A} (l : list A) b e b' e' :
  (b <= b' <= e')%N -> (e' <= e)%N ->
  take (N.to_nat (e' - b')) (drop (N.to_nat b') l) =
  take (N.to_nat (e' - b')) (drop (N.to_nat (b' - b)) (take (N.to_nat (e - b)) (drop (N.to_nat b) l))).
Proof.
  intros H1 H2. rewrite sub_sub by lia. do 2 f_equal. lia.
Qed.

Lemma win_sub_bits s b' e' r' t' :
  s_ok s -> (bs (sr s) <= b' <= e')%N -> (e' <= be (sr s))%N ->
  sbits (win s (mkR b' e' r' t')) = take (N.to_nat (e' - b')) (drop (N.to_nat (b' - bs (sr s))) (sbits s)).
Proof. intros Hs H1 H2. unfold sbits at 2. rewrite <- sub_window by assumption. reflexivity. Qed.
Lemma win_sub_refs s b' e' r' t' :
  s_ok s -> (rs (sr s) <= r' <= t')%N -> (t' <= re (sr s))%N ->
  srefs (win s (mkR b' e' r' t')) = take (N.to_nat (t' - r')) (drop (N.to_nat (r' - rs (sr s))) (srefs s)).
Proof. intros Hs H1 H2. unfold srefs at 2. rewrite <- sub_window by assumption. reflexivity. Qed.

Lemma win_ok s b' e' r' t' :
  s_ok s -> (bs (sr s) <= b' <= e')%N -> (e' <= be (sr s))%N ->
  (rs (sr s) <= r' <= t')%N -> (t' <= re (sr s))%N -> s_ok (win s (mkR b' e' r' t')).
Proof.
  intros ((Hd & H1 & H2 & H3) & H4 & H5) A B C D. unfold s_ok, cv_ok, win. cbn [sc sr bs be rs re].
  repeat split; try assumption; lia.
Qed.

(** The four trimming operations. *)
Definition cuts (op : rng -> N -> N -> res rng) (f : forall A, nat -> list A -> list A) : Prop :=
  forall s bits refs, s_ok s -> (bits <= 64000)%N -> (refs <= 250)%N ->
    if (N.to_nat bits <=? length (sbits s)) && (N.to_nat refs <=? length (srefs s)) then
      exists x, op (sr s) bits refs = Ok x /\ s_ok (win s x) /\
        sbits (win s x) = f _ (N.to_nat bits) (sbits s) /\ srefs (win s x) = f _ (N.to_nat refs) (srefs s)
    else op (sr s) bits refs = Err CellUnderflow.

Ltac cut_start s bits refs Hs Hb Hr C op :=
  intros s bits refs Hs Hb Hr; unfold op; rewrite (rng_over_spec s bits refs Hs Hb Hr);
  destruct ((N.to_nat bits <=? length (sbits s)) && (N.to_nat refs <=? length (srefs s))) eqn:C;
  [|reflexivity]; cbn [negb];
  pose proof (sbits_length s Hs) as LB; pose proof (srefs_length s Hs) as LR;
  apply andb_true_iff in C as [C1 C2]; apply Nat.leb_le in C1; apply Nat.leb_le in C2;
  pose proof Hs as ((Hd & H1 & H2 & H3) & H4 & H5).

Lemma take_all_le {A} (l : list A) n : length l <= n -> take n l = l.
Proof. apply take_ge. Qed.

Lemma skip_first_cuts : cuts skip_first (fun A => @drop A).
Proof.
  cut_start s bits refs Hs Hb Hr C skip_first.
  rewrite w16_small, w8_small by lia. eexists. split; [reflexivity|].
  split; [apply win_ok; (exact Hs || lia)|].
  rewrite win_sub_bits, win_sub_refs by (exact Hs || lia).
  split; (rewrite take_ge; [f_equal; lia|rewrite drop_length; lia]).
Qed.
Lemma only_first_cuts : cuts only_first (fun A => @take A).
Proof.
  cut_start s bits refs Hs Hb Hr C only_first.
  rewrite w16_small, w8_small by lia. eexists. split; [reflexivity|].
  split; [apply win_ok; (exact Hs || lia)|].
  rewrite win_sub_bits, win_sub_refs by (exact Hs || lia).
  rewrite !N.sub_diag, !drop_0. split; f_equal; lia.
Qed.
Lemma w16_sub (x y : N) : (y <= x < 65536)%N -> w16 (x + 65536 - y) = (x - y)%N.
Proof. intros H. unfold w16. lia. Qed.
Lemma w8_sub (x y : N) : (y <= x < 256)%N -> w8 (x + 256 - y) = (x - y)%N.
Proof. intros H. unfold w8. lia. Qed.
Lemma skip_last_cuts : cuts skip_last (fun A n l => take (length l - n) l).
Proof.
  cut_start s bits refs Hs Hb Hr C skip_last.
  rewrite w16_sub, w8_sub by lia. eexists. split; [reflexivity|].
  split; [apply win_ok; (exact Hs || lia)|].
  rewrite win_sub_bits, win_sub_refs by (exact Hs || lia).
  rewrite !N.sub_diag, !drop_0. split; f_equal; lia.
Qed.
Lemma only_last_cuts : cuts only_last (fun A n l => drop (length l - n) l).
Proof.
  cut_start s bits refs Hs Hb Hr C only_last.
  rewrite w16_sub, w8_sub by lia. eexists. split; [reflexivity|].
  split; [apply win_ok; (exact Hs || lia)|].
  rewrite win_sub_bits, win_sub_refs by (exact Hs || lia).
  split; (rewrite take_ge; [f_equal; lia|rewrite drop_length; lia]).
Qed.

Lemma split_prefix_eq x bits refs :
  split_prefix x bits refs =
    match only_first x bits refs, skip_first x bits refs with
    | Ok a, Ok b => Ok (a, b) | _, _ => Err CellUnderflow end.
Proof. unfold split_prefix, only_first, skip_first. destruct (rng_over x bits refs); reflexivity. Qed.
Lemma split_suffix_eq x bits refs :
  split_suffix x bits refs =
    match only_last x bits refs, skip_last x bits refs with
    | Ok a, Ok b => Ok (a, b) | _, _ => Err CellUnderflow end.
Proof. unfold split_suffix, only_last, skip_last. destruct (rng_over x bits refs); reflexivity. Qed.

Lemma get_prefix_spec s bits refs :
  s_ok s -> (bits <= 64000)%N -> (refs <= 250)%N ->
  s_ok (win s (get_prefix (sr s) bits refs)) /\
  sbits (win s (get_prefix (sr s) bits refs)) = take (N.to_nat bits) (sbits s) /\
  srefs (win s (get_prefix (sr s) bits refs)) = take (N.to_nat refs) (srefs s).
Proof.
  intros Hs Hb Hr. pose proof Hs as ((Hd & H1 & H2 & H3) & H4 & H5).
  pose proof (sbits_length s Hs) as LB; pose proof (srefs_length s Hs) as LR.
  unfold get_prefix. rewrite w16_small, w8_small by lia.
  split; [apply win_ok; (exact Hs || lia)|].
  rewrite win_sub_bits, win_sub_refs by (exact Hs || lia).
  rewrite !N.sub_diag, !drop_0.
  split.
  - destruct (Nat.le_gt_cases (length (sbits s)) (N.to_nat bits)).
    + rewrite !take_ge by lia. reflexivity.
    + f_equal. lia.
  - destruct (Nat.le_gt_cases (length (srefs s)) (N.to_nat refs)).
    + rewrite !take_ge by lia. reflexivity.
    + f_equal. lia.
Qed.

Lemma has_remaining_spec s bits refs :
  s_ok s -> (bits <= 64000)%N -> (refs <= 250)%N ->
  has_remaining (sr s) bits refs =
    (N.to_nat bits <=? length (sbits s)) && (N.to_nat refs <=? length (srefs s)).
Proof.
  intros Hs Hb Hr. rewrite (sbits_length s Hs), (srefs_length s Hs).
  destruct Hs as ((Hd & H1 & H2 & H3) & H4 & H5).
  unfold has_remaining. rewrite w16_small, w8_small by lia. lia.
Qed.

Lemma slice_new_full (c : cellv R) :
  cv_ok c ->
  let s := slice_new_allow_exotic c in
  s_ok s /\ sbits s = take (N.to_nat (cv_bits c)) (bytes_bits (cv_data c)) /\ srefs s = cv_refs c.
Proof.
  intros Hc. cbn zeta. unfold slice_new_allow_exotic, rng_full, s_ok, sbits, srefs.
  cbn [sc sr bs be rs re]. change (N.to_nat 0) with 0. rewrite !drop_0, !N.sub_0_r, Nat2N.id.
  rewrite firstn_all. split; [|split; reflexivity]. split; [exact Hc|lia].
Qed.

Lemma rng_apply_ok x (c : cellv R) :
  cv_ok c -> cv_exotic c = false ->
  exists s, rng_apply x c = Ok s /\ sc s = c /\ s_ok s /\
    ((be x <= cv_bits c)%N -> (re x <= N.of_nat (length (cv_refs c)))%N ->
     (bs x <= be x)%N -> (rs x <= re x)%N -> sr s = x).
Proof.
  intros Hc He. unfold rng_apply. rewrite He. eexists. split; [reflexivity|]. split; [reflexivity|].
  split.
  - unfold s_ok. cbn [sc sr bs be rs re]. split; [exact Hc|lia].
  - intros. cbn [sr]. destruct x as [a b c' d]. cbn [bs be rs re] in *. f_equal; lia.
Qed.

(** ** References *)
Lemma get_reference_spec s i :
  s_ok s -> (i <= 250)%N ->
  get_reference s i = of_opt CellUnderflow (srefs s !! N.to_nat i).
Proof.
  intros Hs Hi. pose proof Hs as ((Hd & H1 & H2 & H3) & H4 & H5).
  unfold get_reference. rewrite w8_small by lia. unfold srefs.
  destruct (N.ltb_spec (rs (sr s) + i) (re (sr s))) as [H|H].
  - rewrite lookup_take by lia. rewrite lookup_drop. do 2 f_equal. lia.
  - rewrite lookup_take_ge by lia. reflexivity.
Qed.

Lemma load_reference_spec s :
  s_ok s ->
  match srefs s with
  | [] => load_reference s = (Err CellUnderflow, s)
  | c :: l => exists s', load_reference s = (Ok c, s') /\ s_ok s' /\ sbits s' = sbits s /\ srefs s' = l
  end.
Proof.
  intros Hs. pose proof Hs as ((Hd & H1 & H2 & H3) & H4 & H5).
  pose proof (srefs_length s Hs) as LR. unfold load_reference.
  destruct (N.ltb_spec (rs (sr s)) (re (sr s))) as [H|H].
  - destruct (srefs s) as [|c l] eqn:E; [cbn [length] in LR; lia|].
    assert (Hl : cv_refs (sc s) !! N.to_nat (rs (sr s)) = Some c).
    { assert (X : srefs s !! 0 = Some c) by (rewrite E; reflexivity).
      unfold srefs in X. rewrite lookup_take in X by lia. rewrite lookup_drop in X.
      rewrite Nat.add_0_r in X. exact X. }
    rewrite Hl. eexists. split; [reflexivity|]. split; [|split].
    + apply (win_ok s); (exact Hs || lia).
    + reflexivity.
    + change (srefs (win s (mkR (bs (sr s)) (be (sr s)) (rs (sr s) + 1) (re (sr s)))) = l).
      rewrite win_sub_refs by (exact Hs || lia). rewrite E.
      replace (N.to_nat (rs (sr s) + 1 - rs (sr s))) with 1 by lia. cbn [drop].
      apply take_ge. cbn [length] in LR. lia.
  - destruct (srefs s) as [|c l] eqn:E; [reflexivity|]. cbn [length] in LR. lia.
Qed.

(** ** Sequential loads: every [load_*] is [get_*] at offset 0 followed by dropping the bits. *)
Lemma advance_spec s bits :
  s_ok s -> N.to_nat bits <= length (sbits s) ->
  s_ok (advance s bits) /\ sbits (advance s bits) = drop (N.to_nat bits) (sbits s) /\
  srefs (advance s bits) = srefs s.
Proof.
  intros Hs Hb. pose proof Hs as ((Hd & H1 & H2 & H3) & H4 & H5).
  pose proof (sbits_length s Hs) as LB. unfold advance. rewrite w16_small by lia.
  split; [apply (win_ok s); (exact Hs || lia)|]. split; [|reflexivity].
  change (sbits (win s (mkR (bs (sr s) + bits) (be (sr s)) (rs (sr s)) (re (sr s))))
          = drop (N.to_nat bits) (sbits s)).
  rewrite win_sub_bits by (exact Hs || lia).
  rewrite take_ge; [f_equal; lia|rewrite drop_length; lia].
Qed.

(** ** Lexicographic comparison *)
Lemma lex_words_spec n s1 s2 off :
  s_ok s1 -> s_ok s2 -> 
  N.to_nat off + 32 * n <= length (sbits s1) -> N.to_nat off + 32 * n <= length (sbits s2) ->
  lex_words n s1 s2 off =
    Ok (lexc (take (32 * n) (drop (N.to_nat off) (sbits s1))) (take (32 * n) (drop (N.to_nat off) (sbits s2)))).
Proof.
  intros Hs1 Hs2. revert off. induction n as [|n IH]; intros off L1 L2; [reflexivity|].
  assert (Hoff : (off <= 64000)%N).
  { pose proof (sbits_length s1 Hs1). destruct Hs1 as ((? & ? & ? & ?) & ? & ?). lia. }
  cbn [lex_words].
  rewrite !get_uW_spec by (assumption || lia).
  destruct (Nat.leb_spec (N.to_nat off + 8 * 4) (length (sbits s1))); [|lia].
  destruct (Nat.leb_spec (N.to_nat off + 8 * 4) (length (sbits s2))); [|lia].
  cbn [rbind]. rewrite lexc_bval.
  2:{ rewrite !take_length, !drop_length. lia. }
  replace (32 * S n) with (32 + 32 * n) by lia. rewrite <- !take_take_drop.
  rewrite lexc_app by (rewrite !take_length, !drop_length; lia).
  change (8 * 4) with 32.
  destruct (lexc (take 32 _) (take 32 _)); try reflexivity.
  rewrite IH by lia. rewrite !drop_drop. do 5 f_equal; lia.
Qed.

Lemma compare_nat_N a b : N.compare (N.of_nat a) (N.of_nat b) = Nat.compare a b.
Proof. symmetry. apply Nat2N.inj_compare. Qed.

Lemma lex_cmp_spec same s1 s2 :
  s_ok s1 -> s_ok s2 -> (same = true -> sc s1 = sc s2) ->
  lex_cmp same s1 s2 = Ok (lexc (sbits s1) (sbits s2)).
Proof.
  intros Hs1 Hs2 Hp. pose proof (sbits_length s1 Hs1) as L1. pose proof (sbits_length s2 Hs2) as L2.
  pose proof Hs1 as ((_ & A1 & A2 & _) & A3 & _). pose proof Hs2 as ((_ & B1 & B2 & _) & B3 & _).
  unfold lex_cmp, size_bits_r.
  set (la := (be (sr s1) - bs (sr s1))%N) in *. set (lb := (be (sr s2) - bs (sr s2))%N) in *.
  (* comparing tails after a common part *)
  assert (TAIL : forall m, m = Nat.min (length (sbits s1)) (length (sbits s2)) ->
      lexc (sbits s1) (sbits s2) =
      match lexc (take m (sbits s1)) (take m (sbits s2)) with Eq => (la ?= lb)%N | o => o end).
  { intros m Hm. rewrite <- (take_drop m (sbits s1)) at 1. rewrite <- (take_drop m (sbits s2)) at 1.
    rewrite lexc_app by (rewrite !take_length; lia).
    destruct (lexc (take m _) (take m _)); try reflexivity.
    rewrite lexc_nil_compare by (rewrite !drop_length; lia).
    rewrite !drop_length, L1, L2.
    rewrite <- (N2Nat.id la), <- (N2Nat.id lb), compare_nat_N, !N2Nat.id.
    destruct (Nat.compare_spec (N.to_nat la - m) (N.to_nat lb - m));
      destruct (Nat.compare_spec (N.to_nat la) (N.to_nat lb)); try reflexivity; lia. }
  destruct (same && (bs (sr s1) =? bs (sr s2))%N) eqn:E.
  - apply andb_true_iff in E as [-> E]. apply N.eqb_eq in E. specialize (Hp eq_refl).
    f_equal. rewrite (TAIL _ eq_refl). 
    replace (take (Nat.min _ _) (sbits s2)) with (take (Nat.min (length (sbits s1)) (length (sbits s2))) (sbits s1)).
    + rewrite lexc_refl. reflexivity.
    + rewrite L1, L2. unfold sbits. rewrite !take_take, Hp, E. f_equal. unfold la, lb. lia.
  - clear E Hp. set (bits := N.min la lb).
    set (rem := (bits mod 32)%N). set (n := N.to_nat (bits / 32)).
    assert (Hbits : N.to_nat bits = Nat.min (length (sbits s1)) (length (sbits s2))) by (unfold bits; lia).
    assert (Hn : N.to_nat bits = 32 * n + N.to_nat rem) by (unfold n, rem; lia).
    rewrite lex_words_spec by (assumption || lia). cbn [rbind]. change (N.to_nat 0) with 0. rewrite !drop_0.
    rewrite (TAIL (N.to_nat bits) Hbits). rewrite Hn, <- !take_take_drop.
    rewrite lexc_app by (rewrite !take_length; lia).
    destruct (lexc (take (32 * n) _) (take (32 * n) _)); try reflexivity.
    destruct (N.ltb_spec 0 rem) as [Hr|Hr].
    + rewrite !get_uint_spec by (assumption || (unfold rem in *; lia)).
      destruct (N.eqb_spec rem 0); [lia|].
      destruct (Nat.leb_spec (N.to_nat (bits - rem) + N.to_nat rem) (length (sbits s1))); [|lia].
      destruct (Nat.leb_spec (N.to_nat (bits - rem) + N.to_nat rem) (length (sbits s2))); [|lia].
      cbn [rbind]. rewrite lexc_bval by (rewrite !take_length, !drop_length; lia).
      replace (N.to_nat (bits - rem)) with (32 * n) by lia.
      destruct (lexc (take (N.to_nat rem) _) _); reflexivity.
    + replace (N.to_nat rem) with 0 by lia. reflexivity.
Qed.

Lemma lexc_dec_eq a b : (match lexc a b with Eq => true | _ => false end) = bool_decide (a = b).
Proof.
  destruct (lexc a b) eqn:E; symmetry;
    [apply bool_decide_eq_true_2, lexc_eq, E| |];
    (apply bool_decide_eq_false_2; intros ->; rewrite lexc_refl in E; discriminate).
Qed.

Lemma is_data_prefix_of_spec same s1 s2 :
  s_ok s1 -> s_ok s2 -> (same = true -> sc s1 = sc s2) ->
  is_data_prefix_of same s1 s2 = Ok (bool_decide (take (length (sbits s1)) (sbits s2) = sbits s1)).
Proof.
  intros Hs1 Hs2 Hp. pose proof (sbits_length s1 Hs1) as L1. pose proof (sbits_length s2 Hs2) as L2.
  pose proof Hs1 as ((_ & A1 & A2 & _) & A3 & _).
  unfold is_data_prefix_of, size_bits_r.
  destruct (N.ltb_spec (be (sr s2) - bs (sr s2)) (be (sr s1) - bs (sr s1))) as [H|H].
  - f_equal. symmetry. apply bool_decide_eq_false_2. intros E.
    apply (f_equal length) in E. rewrite take_length in E. lia.
  - pose proof (only_first_cuts s2 (be (sr s1) - bs (sr s1))%N 0%N Hs2 ltac:(lia) ltac:(lia)) as C.
    destruct (Nat.leb_spec (N.to_nat (be (sr s1) - bs (sr s1))) (length (sbits s2))); [|lia].
    cbn [andb] in C. change (N.to_nat 0 <=? length (srefs s2)) with true in C. cbn match in C.
    destruct C as (x & -> & Hx & Bx & _).
    rewrite lex_cmp_spec; [|exact Hs1|exact Hx|exact Hp]. cbn [rbind]. f_equal.
    rewrite lexc_dec_eq. change (mkS (sc s2) x) with (win s2 x). rewrite Bx, <- L1.
    apply bool_decide_ext. split; congruence.
Qed.

Lemma is_data_suffix_of_spec same s1 s2 :
  s_ok s1 -> s_ok s2 -> (same = true -> sc s1 = sc s2) ->
  is_data_suffix_of same s1 s2 =
    Ok (bool_decide (length (sbits s1) <= length (sbits s2) /\
                     drop (length (sbits s2) - length (sbits s1)) (sbits s2) = sbits s1)).
Proof.
  intros Hs1 Hs2 Hp. pose proof (sbits_length s1 Hs1) as L1. pose proof (sbits_length s2 Hs2) as L2.
  pose proof Hs1 as ((_ & A1 & A2 & _) & A3 & _).
  unfold is_data_suffix_of, size_bits_r.
  destruct (N.ltb_spec (be (sr s2) - bs (sr s2)) (be (sr s1) - bs (sr s1))) as [H|H].
  - f_equal. symmetry. apply bool_decide_eq_false_2. intros [E _]. lia.
  - pose proof (only_last_cuts s2 (be (sr s1) - bs (sr s1))%N 0%N Hs2 ltac:(lia) ltac:(lia)) as C.
    destruct (Nat.leb_spec (N.to_nat (be (sr s1) - bs (sr s1))) (length (sbits s2))); [|lia].
    cbn [andb] in C. change (N.to_nat 0 <=? length (srefs s2)) with true in C. cbn match in C.
    destruct C as (x & -> & Hx & Bx & _).
    rewrite lex_cmp_spec; [|exact Hs1|exact Hx|exact Hp]. cbn [rbind]. f_equal.
    rewrite lexc_dec_eq. change (mkS (sc s2) x) with (win s2 x). rewrite Bx, <- L1.
    apply bool_decide_ext. split; [intros E; split; [lia|congruence]|intros [_ E]; congruence].
Qed.

End S.
