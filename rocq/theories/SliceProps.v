(** * C04, C05, C06, C07: slices are windows; reads, comparisons and scans see exactly the window. *)
From Verif Require Import Err SliceModel SliceSpec BitsProofs BufProofs BuilderProofs SliceProofs SliceCmpProofs SliceScanProofs SliceWindowProofs.
Local Open Scope nat_scope.

(** ** C04 *)
(** Any history of window operations does to (bits, references) what the same list
    operations do, reports success exactly then, and keeps the cell. *)
Theorem C04_window_history : forall R (l : list wop) (s : slice R) rs s',
  s_ok s -> Forall wop_ok l -> run_wops l s = (rs, s') ->
  (rs, (sbits s', srefs s')) = spec_wops l (sbits s, srefs s) /\ sc s' = sc s /\ s_ok s'.
Proof.
  intros R l s rs s' Hs Hl E.
  destruct (run_wops_spec l Hl s (sbits s, srefs s)) as (s2 & E2 & C & H2 & B & F); [split; auto|].
  rewrite E in E2. injection E2 as -> <-. rewrite B, F.
  destruct (spec_wops l (sbits s, srefs s)) as [a [b c]]. auto.
Qed.
Print Assumptions C04_window_history.

(** No history can widen a window: its end points stay inside of the initial ones. *)
Theorem C04_never_widens : forall R (l : list wop) (s : slice R),
  s_ok s -> Forall wop_ok l ->
  (bs (sr s) <= bs (sr (snd (run_wops l s))) /\ be (sr (snd (run_wops l s))) <= be (sr s) /\
   rs (sr s) <= rs (sr (snd (run_wops l s))) /\ re (sr (snd (run_wops l s))) <= re (sr s))%N.
Proof. intros R l s Hs Hl. exact (run_wops_inside l Hl s Hs). Qed.
Print Assumptions C04_never_widens.

(** The two halves returned by the split operations. *)
Theorem C04_load_prefix : forall R (s : slice R) bits refs,
  s_ok s -> (bits <= 64000)%N -> (refs <= 250)%N ->
  if (N.to_nat bits <=? length (sbits s)) && (N.to_nat refs <=? length (srefs s)) then
    exists p t, load_prefix s bits refs = Ok (p, t) /\ s_ok p /\ s_ok t /\
      sbits p ++ sbits t = sbits s /\ length (sbits p) = N.to_nat bits /\
      srefs p ++ srefs t = srefs s /\ length (srefs p) = N.to_nat refs
  else load_prefix s bits refs = Err CellUnderflow.
Proof.
  intros R s bits refs Hs Hb Hr. unfold load_prefix. rewrite split_prefix_eq.
  pose proof (only_first_cuts s bits refs Hs Hb Hr) as Q1. pose proof (skip_first_cuts s bits refs Hs Hb Hr) as Q2.
  destruct ((N.to_nat bits <=? length (sbits s)) && (N.to_nat refs <=? length (srefs s))) eqn:C.
  - destruct Q1 as (x & -> & A1 & A2 & A3), Q2 as (y & -> & B1 & B2 & B3). cbn [rbind fst snd].
    exists (win s x), (win s y). split; [reflexivity|]. split; [exact A1|]. split; [exact B1|].
    rewrite A2, A3, B2, B3, !take_drop, !take_length. apply andb_true_iff in C as [C1 C2].
    apply Nat.leb_le in C1, C2. repeat split; lia.
  - rewrite Q1. reflexivity.
Qed.
Print Assumptions C04_load_prefix.

Theorem C04_load_suffix : forall R (s : slice R) bits refs,
  s_ok s -> (bits <= 64000)%N -> (refs <= 250)%N ->
  if (N.to_nat bits <=? length (sbits s)) && (N.to_nat refs <=? length (srefs s)) then
    exists p t, load_suffix s bits refs = Ok (p, t) /\ s_ok p /\ s_ok t /\
      sbits t ++ sbits p = sbits s /\ length (sbits p) = N.to_nat bits /\
      srefs t ++ srefs p = srefs s /\ length (srefs p) = N.to_nat refs
  else load_suffix s bits refs = Err CellUnderflow.
Proof.
  intros R s bits refs Hs Hb Hr. unfold load_suffix. rewrite split_suffix_eq.
  pose proof (only_last_cuts s bits refs Hs Hb Hr) as Q1. pose proof (skip_last_cuts s bits refs Hs Hb Hr) as Q2.
  destruct ((N.to_nat bits <=? length (sbits s)) && (N.to_nat refs <=? length (srefs s))) eqn:C.
  - destruct Q1 as (x & -> & A1 & A2 & A3), Q2 as (y & -> & B1 & B2 & B3). cbn [rbind fst snd].
    exists (win s x), (win s y). split; [reflexivity|]. split; [exact A1|]. split; [exact B1|].
    rewrite A2, A3, B2, B3, !take_drop, !drop_length. apply andb_true_iff in C as [C1 C2].
    apply Nat.leb_le in C1, C2. repeat split; lia.
  - rewrite Q1. reflexivity.
Qed.
Print Assumptions C04_load_suffix.

(** Opening a cell shows all of it; a range kept from elsewhere is clamped to the cell. *)
Theorem C04_open : forall R (c : cellv R), cv_ok c ->
  let s := slice_new_allow_exotic c in
  s_ok s /\ sbits s = take (N.to_nat (cv_bits c)) (bytes_bits (cv_data c)) /\ srefs s = cv_refs c.
Proof. intros R c. exact (slice_new_full c). Qed.
Print Assumptions C04_open.

Theorem C04_apply_range : forall R x (c : cellv R), cv_ok c -> cv_exotic c = false ->
  exists s, rng_apply x c = Ok s /\ sc s = c /\ s_ok s /\
    ((be x <= cv_bits c)%N -> (re x <= N.of_nat (length (cv_refs c)))%N ->
     (bs x <= be x)%N -> (rs x <= re x)%N -> sr s = x).
Proof. intros R. exact rng_apply_ok. Qed.
Print Assumptions C04_apply_range.

(** The restriction on the arguments is needed: in a release build [skip_first] with a
    count near 2^16 wraps and moves the start of the window backwards. *)
Definition ex_c : cellv unit := mkCV [171; 205; 239; 128]%N 25 [tt; tt] false.
Definition ex_s : slice unit := mkS ex_c (mkR 3 22 1 2).
Lemma ex_s_ok : s_ok ex_s.
Proof. unfold s_ok, cv_ok, ex_s, ex_c. cbn. repeat split; try lia. repeat constructor. Qed.
Theorem C04_wrap_refuted : exists (s : slice unit) (n : N) x,
  s_ok s /\ (n < 65536)%N /\ skip_first (sr s) n 0 = Ok x /\ (bs x < bs (sr s))%N.
Proof.
  exists ex_s, 65534%N. eexists. split; [exact ex_s_ok|]. split; [lia|].
  split; [vm_compute; reflexivity|]. cbn. lia.
Qed.
Print Assumptions C04_wrap_refuted.

Example C04_case :
  let l := [W_skip_first 2 0; W_skip_last 1 1; W_only_first 20 0; W_load_uint 5; W_only_last 7 0] in
  s_ok ex_s /\ Forall wop_ok l /\ fst (run_wops l ex_s) = [true; true; false; true; true] /\
  sbits (snd (run_wops l ex_s)) = [false; true; true; true; true; false; true].
Proof. cbn zeta. split; [exact ex_s_ok|]. split; [repeat constructor; vm_compute; discriminate|]. vm_compute. split; reflexivity. Qed.

(** ** C05 *)
Theorem C05_get_bit_partial : forall R (s : slice R) off, s_ok s -> (off <= 64000)%N ->
  get_bit s off = match sbits s !! N.to_nat off with Some b => Ok b | None => Err CellUnderflow end.
Proof. intros R. exact get_bit_spec. Qed.
Print Assumptions C05_get_bit_partial.

(** 16, 32 and 64-bit integers ([n] bytes) *)
Theorem C05_get_uint_fixed_partial : forall R n (s : slice R) off,
  s_ok s -> 1 <= n <= 16 -> (off <= 64000)%N ->
  get_uW n s off =
    if N.to_nat off + 8 * n <=? length (sbits s)
    then Ok (bval (take (8 * n) (drop (N.to_nat off) (sbits s)))) else Err CellUnderflow.
Proof. intros R. exact get_uW_spec. Qed.
Print Assumptions C05_get_uint_fixed_partial.

Theorem C05_get_u128_partial : forall R (s : slice R) off, s_ok s -> (off <= 64000)%N ->
  get_u128 s off =
    if N.to_nat off + 128 <=? length (sbits s)
    then Ok (bval (take 128 (drop (N.to_nat off) (sbits s)))) else Err CellUnderflow.
Proof. intros R. exact get_u128_spec. Qed.
Print Assumptions C05_get_u128_partial.

Theorem C05_get_u256_partial : forall R (s : slice R) off, s_ok s -> (off <= 64000)%N ->
  if N.to_nat off + 256 <=? length (sbits s)
  then exists v, get_u256 s off = Ok v /\ Forall byte_ok v /\ length v = 32 /\
         bytes_bits v = take 256 (drop (N.to_nat off) (sbits s))
  else get_u256 s off = Err CellUnderflow.
Proof.
  intros R s off Hs Ho. destruct (get_u256_spec s off Hs Ho) as (v & Hv & E & H).
  destruct (Nat.leb_spec (N.to_nat off + 256) (length (sbits s))) as [G|G]; [|exact E].
  exists v. destruct (H G). auto.
Qed.
Print Assumptions C05_get_u256_partial.

Theorem C05_get_small_uint_partial : forall R (s : slice R) off bits,
  s_ok s -> (off <= 64000)%N ->
  get_small_uint s off bits =
    if (bits =? 0)%N then Ok 0%N else
    if (bits <=? 8)%N && (N.to_nat off + N.to_nat bits <=? length (sbits s))
    then Ok (bval (take (N.to_nat bits) (drop (N.to_nat off) (sbits s)))) else Err CellUnderflow.
Proof.
  intros R s off bits Hs Ho. destruct (N.leb_spec bits 8) as [H|H].
  - rewrite get_small_uint_spec by assumption. reflexivity.
  - rewrite get_small_uint_big by assumption. destruct (N.eqb_spec bits 0); [lia|reflexivity].
Qed.
Print Assumptions C05_get_small_uint_partial.

Theorem C05_get_uint_partial : forall R (s : slice R) off bits,
  s_ok s -> (off <= 64000)%N ->
  get_uint s off bits =
    if (bits =? 0)%N then Ok 0%N else
    if (bits <=? 64)%N && (N.to_nat off + N.to_nat bits <=? length (sbits s))
    then Ok (bval (take (N.to_nat bits) (drop (N.to_nat off) (sbits s)))) else Err CellUnderflow.
Proof.
  intros R s off bits Hs Ho. destruct (N.leb_spec bits 64) as [H|H].
  - rewrite get_uint_spec by assumption. reflexivity.
  - rewrite get_uint_big by assumption. destruct (N.eqb_spec bits 0); [lia|reflexivity].
Qed.
Print Assumptions C05_get_uint_partial.

(** Raw bits: correct whenever the requested range lies inside of the window, and
    [CellUnderflow] for more bits than the window has. *)
Theorem C05_get_raw_partial : forall R (s : slice R) off tlen bits, s_ok s ->
  (N.to_nat off + N.to_nat bits <= length (sbits s) -> (N.to_nat bits + 7) / 8 <= tlen ->
   get_raw s off tlen bits = Ok (pack (take (N.to_nat bits) (drop (N.to_nat off) (sbits s))))) /\
  (length (sbits s) < N.to_nat bits -> (bits <= 64000)%N -> get_raw s off tlen bits = Err CellUnderflow).
Proof.
  intros R s off tlen bits Hs. split.
  - apply get_raw_spec. exact Hs.
  - apply get_raw_underflow. exact Hs.
Qed.
Print Assumptions C05_get_raw_partial.

(** Loading raw bits ([get_raw] at offset 0) is always right. *)
Theorem C05_load_raw : forall R (s : slice R) tlen bits, s_ok s -> (bits <= 64000)%N ->
  (N.to_nat bits + 7) / 8 <= tlen ->
  if N.to_nat bits <=? length (sbits s)
  then load_raw s tlen bits = (Ok (pack (take (N.to_nat bits) (sbits s))), advance s bits)
  else load_raw s tlen bits = (Err CellUnderflow, s).
Proof.
  intros R s tlen bits Hs Hb Ht. unfold load_raw.
  destruct (Nat.leb_spec (N.to_nat bits) (length (sbits s))) as [G|G].
  - rewrite get_raw_spec; [reflexivity|exact Hs|exact G|exact Ht].
  - rewrite get_raw_underflow; [reflexivity|exact Hs|exact G|exact Hb].
Qed.
Print Assumptions C05_load_raw.

(** No out-of-bounds read, for every slice value and every argument. *)
Theorem C05_no_out_of_bounds_partial : forall R (s : slice R) off bits n,
  get_bit s off <> Err UB /\ get_uW n s off <> Err UB /\ get_u128 s off <> Err UB /\
  get_u256 s off <> Err UB /\ get_small_uint s off bits <> Err UB.
Proof.
  intros R s off bits n. split; [apply get_bit_safe|]. split; [apply get_uW_safe|].
  split; [apply get_u128_safe|]. split; [apply get_u256_safe|apply get_small_uint_safe].
Qed.
Print Assumptions C05_no_out_of_bounds_partial.

(** Finding: [get_raw] compares the length without the offset with the window.  Inside
    of the cell it returns bits beyond the window, and one byte past the cell's data is
    read when the position is not byte-aligned. *)
Theorem C05_get_raw_beyond_window_refuted : exists (s : slice unit) off tlen bits v,
  s_ok s /\ length (sbits s) < N.to_nat off + N.to_nat bits /\ get_raw s off tlen bits = Ok v.
Proof.
  exists (mkS ex_c (mkR 0 12 0 0)), 8%N, 1, 8%N. eexists.
  split; [unfold s_ok, cv_ok, ex_c; cbn; repeat split; try lia; repeat constructor|].
  split; vm_compute; [lia|reflexivity].
Qed.
Print Assumptions C05_get_raw_beyond_window_refuted.

Theorem C05_get_raw_out_of_bounds_refuted : exists (s : slice unit) off tlen bits,
  s_ok s /\ (off + bits < 65536)%N /\ get_raw s off tlen bits = Err UB.
Proof.
  exists (mkS (mkCV [171]%N 8 [] false) (mkR 0 8 0 0)), 1%N, 1, 8%N.
  split; [unfold s_ok, cv_ok; cbn; repeat split; try lia; repeat constructor|].
  split; [lia|]. vm_compute. reflexivity.
Qed.
Print Assumptions C05_get_raw_out_of_bounds_refuted.

(** Finding: in a release build [get_uint] with an offset near 2^16 wraps the end of
    the range but not its start, and reads far outside of the data. *)
Theorem C05_get_uint_wrap_refuted : exists (s : slice unit) off bits,
  s_ok s /\ (off < 65536)%N /\ (bits <= 64)%N /\ get_uint s off bits = Err UB.
Proof.
  exists ex_s, 65530%N, 8%N. split; [exact ex_s_ok|]. split; [lia|]. split; [lia|]. vm_compute. reflexivity.
Qed.
Print Assumptions C05_get_uint_wrap_refuted.

Example C05_case : s_ok ex_s /\ get_uint ex_s 4 11 = Ok (bval (take 11 (drop 4 (sbits ex_s)))) /\
  get_raw ex_s 3 2 13 = Ok [243; 120]%N /\ get_uW 2 ex_s 4 = Err CellUnderflow.
Proof. split; [exact ex_s_ok|]. vm_compute. auto. Qed.

(** ** C06 *)
(** [same] tells whether the two slices point to the same cell object. *)
Theorem C06_lex_cmp : forall R same (s1 s2 : slice R),
  s_ok s1 -> s_ok s2 -> (same = true -> sc s1 = sc s2) ->
  lex_cmp same s1 s2 = Ok (lexc (sbits s1) (sbits s2)).
Proof. intros R. exact lex_cmp_spec. Qed.
Print Assumptions C06_lex_cmp.

Theorem C06_contents_eq : forall R req same (s1 s2 : slice R),
  s_ok s1 -> s_ok s2 -> (same = true -> sc s1 = sc s2) ->
  exists b, contents_eq req same s1 s2 = Ok b /\
    (b = true <-> sbits s1 = sbits s2 /\ Forall2 (fun x y => req x y = true) (srefs s1) (srefs s2)).
Proof. intros R. exact contents_eq_spec. Qed.
Print Assumptions C06_contents_eq.

Lemma lcp_is_lcp a b : is_lcp a b (lcp a b).
Proof.
  revert b. induction a as [|x a IH]; intros b.
  - unfold is_lcp. cbn. repeat split; try lia. discriminate.
  - destruct b as [|y b]; [unfold is_lcp; cbn; repeat split; try lia; discriminate|].
    cbn [lcp]. destruct (Bool.eqb x y) eqn:E.
    + apply Bool.eqb_prop in E. subst y. destruct (IH b) as (A1 & A2 & A3 & A4).
      unfold is_lcp. cbn [length take]. repeat split; [lia|lia|f_equal; exact A3|exact A4].
    + unfold is_lcp. cbn [length take]. repeat split; try lia. cbn. intros u v Hu Hv.
      injection Hu as <-. injection Hv as <-. intros ->. rewrite Bool.eqb_reflx in E. discriminate.
Qed.

(** The longest common prefix, as a sub-slice of the first argument. *)
Theorem C06_longest_common_data_prefix : forall R (s1 s2 : slice R), s_ok s1 -> s_ok s2 ->
  exists p n, longest_common_data_prefix s1 s2 = Ok p /\ s_ok p /\ sc p = sc s1 /\
    sbits p = take n (sbits s1) /\ is_lcp (sbits s1) (sbits s2) n.
Proof.
  intros R s1 s2 H1 H2. destruct (longest_common_data_prefix_spec s1 s2 H1 H2) as (p & E & A & B & C & _).
  exists p, (lcp (sbits s1) (sbits s2)). split; [exact E|]. split; [exact A|]. split; [exact B|]. split; [exact C|apply lcp_is_lcp].
Qed.
Print Assumptions C06_longest_common_data_prefix.

Theorem C06_strip_data_prefix : forall R (s1 s2 : slice R), s_ok s1 -> s_ok s2 ->
  (forall t, sbits s1 = sbits s2 ++ t ->
     exists p, strip_data_prefix s1 s2 = Ok (Some p) /\ s_ok p /\ sbits p = t /\ srefs p = srefs s1) /\
  ((forall t, sbits s1 <> sbits s2 ++ t) -> strip_data_prefix s1 s2 = Ok None).
Proof.
  intros R s1 s2 H1 H2. pose proof (strip_data_prefix_spec s1 s2 H1 H2) as Q.
  case_bool_decide as C.
  - split.
    + intros t Ht. destruct Q as (p & E & A & B & F). exists p. rewrite B, F, Ht, drop_app. auto.
    + intros N. exfalso. apply (N (drop (length (sbits s2)) (sbits s1))). rewrite <- C at 1. symmetry. apply take_drop.
  - split; [|intros _; exact Q]. intros t Ht. exfalso. apply C. rewrite Ht, take_app. reflexivity.
Qed.
Print Assumptions C06_strip_data_prefix.

Theorem C06_is_data_prefix_of : forall R same (s1 s2 : slice R),
  s_ok s1 -> s_ok s2 -> (same = true -> sc s1 = sc s2) ->
  exists b, is_data_prefix_of same s1 s2 = Ok b /\ (b = true <-> exists t, sbits s2 = sbits s1 ++ t).
Proof.
  intros R same s1 s2 H1 H2 Hp. eexists. split; [apply is_data_prefix_of_spec; assumption|].
  rewrite bool_decide_eq_true. split.
  - intros E. exists (drop (length (sbits s1)) (sbits s2)). rewrite <- E at 1. symmetry. apply take_drop.
  - intros [t E]. rewrite E, take_app. reflexivity.
Qed.
Print Assumptions C06_is_data_prefix_of.

Theorem C06_is_data_suffix_of : forall R same (s1 s2 : slice R),
  s_ok s1 -> s_ok s2 -> (same = true -> sc s1 = sc s2) ->
  exists b, is_data_suffix_of same s1 s2 = Ok b /\ (b = true <-> exists t, sbits s2 = t ++ sbits s1).
Proof.
  intros R same s1 s2 H1 H2 Hp. eexists. split; [apply is_data_suffix_of_spec; assumption|].
  rewrite bool_decide_eq_true. split.
  - intros [L E]. exists (take (length (sbits s2) - length (sbits s1)) (sbits s2)).
    rewrite <- E at 2. symmetry. apply take_drop.
  - intros [t E]. rewrite E, app_length. split; [lia|].
    replace (length t + length (sbits s1) - length (sbits s1)) with (length t) by lia. apply drop_app.
Qed.
Print Assumptions C06_is_data_suffix_of.

Definition ex_s2 : slice unit := mkS (mkCV [94; 111; 247; 120]%N 29 [tt] false) (mkR 0 25 0 1).
Example C06_case : s_ok ex_s /\ s_ok ex_s2 /\
  lcp (sbits ex_s) (sbits ex_s2) = 16 /\ is_data_prefix_of false ex_s ex_s2 = Ok false /\
  lex_cmp false ex_s ex_s2 = Ok Lt.
Proof.
  split; [exact ex_s_ok|].
  split; [unfold s_ok, cv_ok, ex_s2; cbn; repeat split; try lia; repeat constructor|].
  vm_compute. auto.
Qed.

(** ** C07 *)
(** [al] is the alignment of the data pointer, which the scan depends on. *)
Theorem C07_count_leading : forall R al (s : slice R) b, s_ok s ->
  exists n, count_leading al s b = Ok n /\ is_run b (sbits s) n.
Proof.
  intros R al s b Hs. eexists. split; [apply count_leading_spec, Hs|].
  split; [apply lead_le|apply lead_is_run].
Qed.
Print Assumptions C07_count_leading.

Theorem C07_count_trailing : forall R (s : slice R) b, s_ok s ->
  exists n, count_trailing s b = Ok n /\ is_run b (rev (sbits s)) n.
Proof.
  intros R s b Hs. eexists. split; [apply count_trailing_spec, Hs|].
  split; [apply lead_le|apply lead_is_run].
Qed.
Print Assumptions C07_count_trailing.

Theorem C07_test_uniform : forall R al (s : slice R), s_ok s ->
  exists o, test_uniform al s = Ok o /\
    forall b, o = Some b <-> sbits s <> [] /\ Forall (fun x => x = b) (sbits s).
Proof.
  intros R al s Hs. eexists. split; [apply test_uniform_spec, Hs|]. intros b.
  assert (HF : forall l, lead b l = length l <-> Forall (fun x => x = b) l).
  { intros l. rewrite lead_full. split.
    - intros ->. apply Forall_replicate. reflexivity.
    - intros H. induction H as [|x l -> Hl IH]; [reflexivity|]. cbn [length replicate]. f_equal. exact IH. }
  unfold uniform. destruct (sbits s) as [|x l] eqn:E; [split; [discriminate|intros [H _]; congruence]|].
  destruct (Nat.eqb_spec (lead x (x :: l)) (length (x :: l))) as [H|H].
  - split.
    + intros Q. injection Q as ->. split; [discriminate|]. apply HF, H.
    + intros [_ Q]. inversion Q; subst. reflexivity.
  - split; [discriminate|]. intros [_ Q]. exfalso. apply H. inversion Q; subst. apply HF. constructor; auto.
Qed.
Print Assumptions C07_test_uniform.

Example C07_case :
  let s := mkS (mkCV (replicate 100 0%N ++ replicate 20 255%N) 960 ([] : list unit) false) (mkR 5 957 0 0) in
  s_ok s /\ count_leading (fun _ => false) s false = Ok 795 /\ count_trailing s true = Ok 157 /\
  test_uniform (fun _ => true) s = Ok None.
Proof.
  cbn zeta. split.
  - unfold s_ok, cv_ok. cbn. repeat split; try lia. repeat constructor.
  - vm_compute. auto.
Qed.
