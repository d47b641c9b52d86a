(** * C01, C02, C03, C08: builders are bit strings with references; values survive a round trip. *)
From Verif Require Import Err BuilderModel SliceModel SliceSpec CellBuilderModel BuilderSpec IntModel IntSpec
  BitsProofs BufProofs BuilderProofs CellBuilderProofs IntProofs SliceCmpProofs SliceProofs.
Local Open Scope nat_scope.

(** ** C01 *)
(** Any history of calls on an empty builder returns the results the specification
    returns, and the content is the one of the specification. *)
Theorem C01_builder_history : forall R (l : list (bop R)) rs c,
  Forall op_ok l -> run_ops l cb_new = (rs, c) ->
  (rs, obs c) = spec_ops l ([], []).
Proof.
  intros R l rs c Hl E. destruct (ops_refine l Hl cb_new _ cbrep_new) as (c' & E' & H').
  rewrite E in E'. injection E' as -> <-. rewrite (cbrep_obs _ _ H').
  destruct (spec_ops l ([], [])). reflexivity.
Qed.
Print Assumptions C01_builder_history.

(** The unused tail of the 128-byte buffer is zero. *)
Theorem C01_tail_zero : forall R (c : cb R), reachable c ->
  length (bd (cbd c)) = 128 /\
  bytes_bits (bd (cbd c)) = data_bits (cbd c) ++ zeros (1024 - length (data_bits (cbd c))).
Proof.
  intros R c Hc. destruct (reach_cbrep c Hc) as ([B r] & H1 & _). cbn [fst] in H1.
  rewrite (brep_data_bits _ _ H1). destruct H1 as ((L & _ & k & E) & _). split; [exact L|].
  rewrite E. f_equal. f_equal. pose proof (rep_len _ _ _ L E). lia.
Qed.
Print Assumptions C01_tail_zero.

(** Two builders with the same bits are equal as Rust values ([PartialEq] compares the
    bit length and all 128 bytes). *)
Theorem C01_equal_data_equal_builder : forall R (c1 c2 : cb R), reachable c1 -> reachable c2 ->
  data_bits (cbd c1) = data_bits (cbd c2) -> cbd c1 = cbd c2.
Proof.
  intros R c1 c2 H1 H2 E. destruct (reach_cbrep c1 H1) as ([B1 r1] & A1 & _).
  destruct (reach_cbrep c2 H2) as ([B2 r2] & A2 & _). cbn [fst] in *.
  rewrite (brep_data_bits _ _ A1), (brep_data_bits _ _ A2) in E. subst B2.
  eapply brep_inj; eassumption.
Qed.
Print Assumptions C01_equal_data_equal_builder.

(** A built cell, opened as a slice, shows exactly the content of the builder. *)
Theorem C01_build_shows_content : forall R (c : cb R), reachable c ->
  exists v, build_view c = Some v /\ cv_ok v /\ length (cv_data v) <= 128 /\
    (sbits (slice_new_allow_exotic v), srefs (slice_new_allow_exotic v)) = obs c.
Proof.
  intros R c Hc. destruct (reach_cbrep c Hc) as ([B r] & H).
  destruct (build_view_spec c B r H) as (v & E & Hv & L & SB & SR & _).
  exists v. rewrite SB, SR, (cbrep_obs _ _ H). auto.
Qed.
Print Assumptions C01_build_shows_content.

(** ** C02 *)
(** A call that appends succeeds exactly when the result has at most 1023 bits and at
    most 4 references; otherwise it reports [CellOverflow] and the builder is unchanged. *)
Theorem C02_capacity : forall R (c : cb R) o x r,
  reachable c -> op_ok o -> appended o = Some (x, r) ->
  if (length (data_bits (cbd c)) + length x <=? 1023) && (length (cb_refs c) + length r <=? 4)
  then exists c', run_op o c = (Ok tt, c') /\
         data_bits (cbd c') = data_bits (cbd c) ++ x /\ cb_refs c' = cb_refs c ++ r
  else exists c', run_op o c = (Err CellOverflow, c') /\ cbd c' = cbd c /\ cb_refs c' = cb_refs c.
Proof.
  intros R c o x r Hc Ho Ha. destruct (reach_cbrep c Hc) as ([B l] & H). pose proof H as (H1 & H2 & H3).
  cbn [fst snd] in *. rewrite (brep_data_bits _ _ H1), H2.
  destruct (op_refines o Ho c _ H) as (c' & E & H'). unfold spec_op in E, H'. rewrite Ha in E, H'.
  cbn [fst snd] in E, H'. unfold fits in E, H'. cbn [fst snd] in E, H'. rewrite !app_length in E, H'.
  destruct ((length B + length x <=? 1023) && (length l + length r <=? 4)); cbn [fst snd] in E, H';
    exists c'; (split; [exact E|]); destruct H' as (A1 & A2 & A3); cbn [fst snd] in *.
  - rewrite (brep_data_bits _ _ A1). auto.
  - split; [|congruence]. eapply brep_inj; eassumption.
Qed.
Print Assumptions C02_capacity.

(** The capacity is never exceeded. *)
Theorem C02_invariant : forall R (c : cb R), reachable c ->
  (bl (cbd c) <= 1023)%N /\ length (cb_refs c) <= 4 /\
  length (data_bits (cbd c)) = N.to_nat (bl (cbd c)).
Proof.
  intros R c Hc. destruct (reach_cbrep c Hc) as ([B r] & H1 & H2 & H3). cbn [fst snd] in *.
  rewrite (brep_data_bits _ _ H1), H2. destruct H1 as (_ & L & HB). rewrite L. lia.
Qed.
Print Assumptions C02_invariant.

(** The restriction to counts that do not wrap is needed: in a release build a count
    close to 2^16 wraps the 16-bit sum and the call succeeds on a non-empty builder. *)
Definition wrap_builder : cb unit := snd (run_ops [B_u16 1; B_u8 2] cb_new).
Theorem C02_wrap_refuted : exists c (n : N),
  reachable (R := unit) c /\ (n < 65536)%N /\
  1023 < length (data_bits (cbd c)) + N.to_nat n /\
  exists c', run_op (B_zeros n) c = (Ok tt, c').
Proof.
  exists wrap_builder, 65520%N. split; [|split; [lia|split]].
  - eapply (reach_op (B_u8 2) (snd (run_op (B_u16 1) cb_new))).
    + eapply (reach_op (B_u16 1) cb_new); [constructor|constructor; reflexivity|reflexivity].
    + constructor. reflexivity.
    + reflexivity.
  - apply Nat.lt_le_trans with (N.to_nat 65520); [lia|lia].
  - eexists. vm_compute. reflexivity.
Qed.
Print Assumptions C02_wrap_refuted.

(** ** C03 *)
(** Store any list of values behind any content, let anything be appended afterwards,
    build: loading the same types from that position returns the values, and exactly
    the bits that followed remain. *)
Theorem C03_values_round_trip : forall R (c0 : cb R) vs rs c1 suffix rs' c2 v,
  reachable c0 -> Forall ival_ok vs ->
  run_ops (map store_ival vs) c0 = (rs, c1) -> Forall (fun r => r = Ok tt) rs ->
  Forall op_ok suffix -> Forall (fun o => is_Some (appended o)) suffix ->
  run_ops suffix c1 = (rs', c2) ->
  build_view c2 = Some v ->
  exists x s', skip_first (rng_full v) (bl (cbd c0)) 0%N = Ok x /\
    load_all vs (mkS v x) = (Ok vs, s') /\
    sc s' = v /\ sbits s' = drop (N.to_nat (bl (cbd c1))) (data_bits (cbd c2)) /\
    be (sr s') = cv_bits v.
Proof. intros R. exact int_roundtrip. Qed.
Print Assumptions C03_values_round_trip.

(** Every such list is appended in its big-endian two's complement form. *)
Theorem C03_wire_format : forall R (c0 : cb R) vs rs c1,
  reachable c0 -> Forall ival_ok vs ->
  run_ops (map store_ival vs) c0 = (rs, c1) -> Forall (fun r => r = Ok tt) rs ->
  data_bits (cbd c1) = data_bits (cbd c0) ++ concat (map ival_bits vs).
Proof.
  intros R c0 vs rs c1 H0 Hvs E Hok. destruct (reach_cbrep c0 H0) as ([B r] & Hx).
  assert (Hops : Forall op_ok (map (store_ival (R := R)) vs)).
  { clear -Hvs. induction Hvs; constructor; [apply store_ival_ok; assumption|assumption]. }
  destruct (ops_refine _ Hops c0 _ Hx) as (c1' & F & H1). rewrite E in F.
  destruct (spec_ops (map store_ival vs) (B, r)) as [rsx x1] eqn:S1. cbn [fst snd] in *.
  injection F as -> <-. pose proof (spec_ops_ivals vs Hvs _ _ _ S1 Hok) as ->.
  destruct H1 as (H1 & _). destruct Hx as (Hx & _). cbn [fst] in *.
  rewrite (brep_data_bits _ _ H1), (brep_data_bits _ _ Hx). reflexivity.
Qed.
Print Assumptions C03_wire_format.

(** The hypotheses of C03 are met by a mixed list of values at an odd position. *)
Example C03_case :
  let vs := [V_i16 (-2); V_u128 (2 ^ 127 + 5); V_uint 1234567 23; V_small 5 3; V_bool true;
             V_hash (replicate 32 7%N); V_raw [171; 192]%N 11] in
  Forall ival_ok vs /\
  let (rs, c1) := run_ops (R := unit) (map store_ival vs) (snd (run_ops [B_uint 5 3; B_ref tt] cb_new)) in
  Forall (fun r => r = Ok tt) rs /\
  let (_, c2) := run_ops [B_u8 3; B_ref tt; B_zeros 1000] c1 in
  exists v, build_view c2 = Some v.
Proof.
  cbn zeta. split.
  - repeat constructor; try (vm_compute; reflexivity || discriminate || lia);
      try (unfold in_i; lia).
    + exists (nbits 8 171 ++ nbits 3 6). split; vm_compute; reflexivity.
  - vm_compute. split; [repeat constructor|]. eexists. reflexivity.
Qed.

(** ** C08 *)
(** Raw data: storing the first [bits] bits of any byte string and loading [bits] raw
    bits back gives those bits, packed, with a zero-padded last byte. *)
Theorem C08_raw_round_trip : forall R (c : cb R) bytes bits c1 v,
  reachable c -> bytes_arg bytes -> (bits <= 8 * N.of_nat (length bytes))%N -> (bits <= 1023)%N ->
  run_op (B_raw bytes bits) c = (Ok tt, c1) -> build_view c1 = Some v ->
  exists x, skip_first (rng_full v) (bl (cbd c)) 0%N = Ok x /\
    fst (load_raw (mkS v x) (N.to_nat ((bits + 7) / 8)) bits) =
      Ok (pack (take (N.to_nat bits) (bytes_bits bytes))).
Proof.
  intros R c bytes bits c1 v Hc Hb Hlen H1023 E Hv.
  assert (Hops : op_ok (R := R) (B_raw bytes bits)) by (constructor; [exact Hb|unfold count_ok; lia]).
  destruct (reach_cbrep c Hc) as ([B r] & Hx).
  destruct (op_refines _ Hops c _ Hx) as (c1' & F & H1). rewrite E in F.
  unfold spec_op in F, H1. cbn [appended fst snd] in F, H1.
  match goal with H : context [if ?b then _ else _] |- _ => destruct b end;
    cbn [fst snd] in F, H1; [|discriminate]. injection F as <-.
  destruct (build_view_spec c1 _ _ H1) as (v' & E' & Hvok & _ & SB & _ & _).
  rewrite Hv in E'. injection E' as <-.
  destruct (slice_new_full v Hvok) as (Hs & _ & _).
  destruct Hx as (Hx & _). cbn [fst] in Hx. pose proof Hx as (_ & L0 & HB0).
  pose proof (skip_first_cuts (slice_new_allow_exotic v) (bl (cbd c)) 0%N Hs ltac:(lia) ltac:(lia)) as Q.
  rewrite SB in Q. rewrite L0, Nat2N.id in Q. rewrite app_length in Q.
  rewrite (proj2 (Nat.leb_le (length B) (length B + length (raw_value bytes (N.to_nat bits))))) in Q by lia.
  cbn [andb] in Q. change (N.to_nat 0) with 0 in Q. cbn [Nat.leb] in Q.
  destruct Q as (x & Ex & Hx' & Bx & _). exists x. cbn [slice_new_allow_exotic sr] in Ex.
  split; [rewrite L0; exact Ex|]. rewrite drop_app in Bx.
  unfold raw_value in Bx. replace (N.to_nat bits - 8 * length bytes) with 0 in Bx by lia. cbn [zeros replicate app] in Bx.
  change (win (slice_new_allow_exotic v) x) with (mkS v x) in *.
  unfold load_raw, load_with.
  rewrite (get_raw_at (mkS v x) (take (N.to_nat bits) (bytes_bits bytes)) [] bits); [reflexivity|exact Hx'| |].
  - rewrite take_length, length_bytes_bits. lia.
  - rewrite app_nil_r. exact Bx.
Qed.
Print Assumptions C08_raw_round_trip.

(** A slice stored into a builder adds exactly the bits and references of the slice;
    stored into an empty builder and built, the cell shows the same window. *)
Theorem C08_slice_round_trip : forall R (s : slice R) c1 v,
  s_ok s -> run_op (B_slice s) cb_new = (Ok tt, c1) -> build_view c1 = Some v ->
  sbits (slice_new_allow_exotic v) = sbits s /\ srefs (slice_new_allow_exotic v) = srefs s.
Proof.
  intros R s c1 v Hs E Hv. destruct (op_refines _ (ok_slice s Hs) cb_new _ cbrep_new) as (c1' & F & H1).
  rewrite E in F. unfold spec_op in F, H1. cbn [appended fst snd app] in F, H1.
  match goal with H : context [if ?b then _ else _] |- _ => destruct b end;
    cbn [fst snd] in F, H1; [|discriminate]. injection F as <-.
  destruct (build_view_spec c1 _ _ H1) as (v' & E' & _ & _ & SB & SR & _).
  rewrite Hv in E'. injection E' as <-. auto.
Qed.
Print Assumptions C08_slice_round_trip.

(** ... and that never fails. *)
Theorem C08_slice_always_fits : forall R (s : slice R), s_ok s ->
  exists c1, run_op (B_slice s) cb_new = (Ok tt, c1).
Proof.
  intros R s Hs. destruct (op_refines _ (ok_slice s Hs) cb_new _ cbrep_new) as (c1 & F & _).
  exists c1. rewrite F. f_equal. unfold spec_op, fits. cbn [appended fst snd app].
  rewrite (sbits_length s Hs), (srefs_length s Hs).
  destruct Hs as ((_ & H1 & _ & H3) & H4 & H5).
  rewrite (proj2 (Nat.leb_le _ 1023)) by lia. rewrite (proj2 (Nat.leb_le _ 4)) by lia. reflexivity.
Qed.
Print Assumptions C08_slice_always_fits.

(** Prepending raw data puts the bits in front of the old content. *)
Theorem C08_prepend : forall R (c : cb R) bytes bits,
  reachable c -> bytes_arg bytes -> (bits <= 8 * N.of_nat (length bytes))%N -> (bits <= 1023)%N ->
  if length (data_bits (cbd c)) + N.to_nat bits <=? 1023
  then exists c', run_op (B_prepend bytes bits) c = (Ok tt, c') /\
         data_bits (cbd c') = take (N.to_nat bits) (bytes_bits bytes) ++ data_bits (cbd c) /\
         cb_refs c' = cb_refs c
  else exists c', run_op (B_prepend bytes bits) c = (Err CellOverflow, c') /\
         data_bits (cbd c') = data_bits (cbd c) /\ cb_refs c' = cb_refs c.
Proof.
  intros R c bytes bits Hc Hb Hlen H1023. destruct (reach_cbrep c Hc) as ([B l] & H). pose proof H as (H1 & H2 & H3).
  cbn [fst snd] in *. rewrite (brep_data_bits _ _ H1), H2.
  assert (Ho : op_ok (R := R) (B_prepend bytes bits)) by (constructor; [exact Hb|unfold count_ok; lia]).
  destruct (op_refines _ Ho c _ H) as (c' & E & H'). unfold spec_op in E, H'. cbn [appended] in E, H'.
  cbn [fst snd] in E, H'. unfold fits in E, H'. cbn [fst snd] in E, H'.
  rewrite app_length in E, H'. change (raw_value bytes (N.to_nat bits)) with (raw_bits bytes (N.to_nat bits)) in E, H'.
  rewrite raw_bits_length in E, H'. rewrite (Nat.add_comm _ (length B)) in E, H'.
  rewrite (proj2 (Nat.leb_le (length l) 4) H3), andb_true_r in E, H'.
  destruct (length B + N.to_nat bits <=? 1023); cbn [fst snd] in E, H';
    exists c'; (split; [exact E|]); destruct H' as (A1 & A2 & A3); cbn [fst snd] in *.
  - rewrite (brep_data_bits _ _ A1). unfold raw_bits.
    replace (N.to_nat bits - 8 * length bytes) with 0 by lia. auto.
  - rewrite (brep_data_bits _ _ A1). auto.
Qed.
Print Assumptions C08_prepend.

(** Rewinding removes exactly the last bits; more than there are is [CellUnderflow]. *)
Theorem C08_rewind : forall R (c : cb R) bits, reachable c ->
  if N.to_nat bits <=? length (data_bits (cbd c))
  then exists c', run_op (B_rewind bits) c = (Ok tt, c') /\
         data_bits (cbd c') = take (length (data_bits (cbd c)) - N.to_nat bits) (data_bits (cbd c)) /\
         cb_refs c' = cb_refs c
  else exists c', run_op (B_rewind bits) c = (Err CellUnderflow, c') /\ cbd c' = cbd c /\ cb_refs c' = cb_refs c.
Proof.
  intros R c bits Hc. destruct (reach_cbrep c Hc) as ([B l] & H). pose proof H as (H1 & H2 & H3).
  cbn [fst snd] in *. rewrite (brep_data_bits _ _ H1), H2.
  destruct (op_refines _ (ok_rewind bits) c _ H) as (c' & E & H'). unfold spec_op in E, H'. cbn [appended fst snd] in E, H'.
  destruct (N.to_nat bits <=? length B); cbn [fst snd] in E, H';
    exists c'; (split; [exact E|]); destruct H' as (A1 & A2 & A3); cbn [fst snd] in *.
  - rewrite (brep_data_bits _ _ A1). auto.
  - split; [|congruence]. eapply brep_inj; eassumption.
Qed.
Print Assumptions C08_rewind.

(** Rewinding over what was just appended restores the very same builder data. *)
Theorem C08_rewind_undoes_append : forall R (c : cb R) o x r c1 c2,
  reachable c -> op_ok o -> appended o = Some (x, r) -> run_op o c = (Ok tt, c1) ->
  run_op (B_rewind (N.of_nat (length x))) c1 = (Ok tt, c2) -> cbd c2 = cbd c.
Proof.
  intros R c o x r c1 c2 Hc Ho Ha E1 E2. pose proof (C02_capacity R c o x r Hc Ho Ha) as Q.
  rewrite E1 in Q.
  destruct ((length (data_bits (cbd c)) + length x <=? 1023) && (length (cb_refs c) + length r <=? 4)) eqn:G.
  2:{ destruct Q as (c' & F & _). discriminate. }
  destruct Q as (c' & F & D & _). injection F as <-.
  assert (Hc1 : reachable c1) by (eapply reach_op; eassumption).
  assert (Hc2 : reachable c2) by (eapply (reach_op (B_rewind _) c1); [exact Hc1|constructor|exact E2]).
  pose proof (C08_rewind R c1 (N.of_nat (length x)) Hc1) as Q2. rewrite E2, Nat2N.id in Q2.
  rewrite D, app_length in Q2.
  rewrite (proj2 (Nat.leb_le (length x) (length (data_bits (cbd c)) + length x)) ltac:(lia)) in Q2.
  destruct Q2 as (c' & F2 & D2 & _). injection F2 as <-.
  replace (length (data_bits (cbd c)) + length x - length x) with (length (data_bits (cbd c))) in D2 by lia.
  rewrite take_app in D2. eapply C01_equal_data_equal_builder; eassumption.
Qed.
Print Assumptions C08_rewind_undoes_append.

(** A non-trivial history meets all hypotheses: mixed stores, a failing store, a
    prepend, a rewind and a slice of another cell. *)
Definition ex_cell : cellv unit := mkCV [171; 205; 239; 128]%N 25 [tt; tt] false.
Definition ex_slice : slice unit := mkS ex_cell (mkR 3 22 1 2).
Example C01_case :
  let l := [B_uint 1234 13; B_slice ex_slice; B_prepend [255; 240]%N 11; B_ones 990; B_zeros 2000;
            B_rewind 7; B_ref tt; B_raw [1; 2; 3]%N 21; B_bit true; B_slice ex_slice; B_slice ex_slice; B_slice ex_slice] in
  Forall op_ok l /\
  fst (run_ops l cb_new) =
    [Ok tt; Ok tt; Ok tt; Err CellOverflow; Err CellOverflow; Ok tt; Ok tt; Ok tt; Ok tt; Ok tt; Ok tt; Err CellOverflow] /\
  length (fst (obs (snd (run_ops l cb_new)))) = 96.
Proof.
  assert (Hs : s_ok ex_slice).
  { unfold s_ok, cv_ok, ex_slice, ex_cell. cbn. repeat split; try lia. repeat constructor. }
  cbn zeta. split.
  - repeat constructor; try exact Hs; try (unfold count_ok; lia); try (vm_compute; reflexivity); try (cbn; lia).
  - vm_compute. split; reflexivity.
Qed.
