(** * C09: big integers of arbitrary width *)
From Verif Require Import Err BitsProofs BufProofs BuilderModel BuilderProofs SliceModel SliceSpec SliceProofs SliceCmpProofs
  CellBuilderModel BuilderSpec CellBuilderProofs IntProofs BigIntModel BigIntSpec BigIntProofs.
Local Open Scope nat_scope.
Ltac Zify.zify_post_hook ::= Z.div_mod_to_equations.

(** [store_bigint]: a value that fits is appended as exactly [bits] bits of two's
    complement (if there is room); one that does not is refused with [IntOverflow];
    no failure changes the builder.  (Integers of 65000 bits and more wrap the 16-bit
    size counter and are excluded; so is the unsigned store of a negative number, see
    [C09_negative_unsigned_refuted].) *)
Theorem C09_store_bigint : forall R (c : cb R) x bits signed,
  reachable c -> (Z.abs x < 2 ^ 65000)%Z -> (bits <= 64512)%N -> (signed = true \/ (0 <= x)%Z) ->
  (~ fits_in x bits signed -> on_data (store_bigint x bits signed) c = (Err IntOverflow, c)) /\
  (fits_in x bits signed -> 1023 < length (data_bits (cbd c)) + N.to_nat bits ->
     on_data (store_bigint x bits signed) c = (Err CellOverflow, c)) /\
  (fits_in x bits signed -> length (data_bits (cbd c)) + N.to_nat bits <= 1023 ->
     exists c', on_data (store_bigint x bits signed) c = (Ok tt, c') /\
       data_bits (cbd c') = data_bits (cbd c) ++ zbits (N.to_nat bits) x /\ cb_refs c' = cb_refs c).
Proof.
  intros R c x bits signed Hc HX Hb Hs. apply zsize_65000 in HX. destruct (reach_cbrep c Hc) as ([B r] & (HB & _)). cbn [fst] in HB.
  rewrite (brep_data_bits _ _ HB). pose proof (bitsize_fits x bits signed HX Hs) as HF.
  assert (EC : forall e, (e, mkCB (cbd c) (cb_exotic c) (cb_refs c)) = (e, c) :> res unit * cb R) by (intros e; destruct c; reflexivity).
  destruct (store_bigint_truncate_appends x bits signed Hb Hs _ _ HB) as [A1 A2]. rewrite length_zbits in A1, A2.
  unfold on_data, store_bigint. destruct (N.ltb_spec bits (bitsize x signed)) as [G|G].
  - split; [intros _; apply EC|]. split; intros F; apply HF in F; lia.
  - apply HF in G. split; [tauto|]. split; intros _ L.
    + rewrite (A2 L). apply EC.
    + destruct (A1 L) as (b' & E & H'). rewrite E. eexists. split; [reflexivity|]. cbn [cbd cb_refs].
      rewrite (brep_data_bits _ _ H'). auto.
Qed.
Print Assumptions C09_store_bigint.

(** [store_biguint] likewise; [signed] asks for a leading zero bit. *)
Theorem C09_store_biguint : forall R (c : cb R) x bits signed,
  reachable c -> (x < 2 ^ 65000)%N -> (bits <= 64512)%N ->
  (~ fits_in (Z.of_N x) bits signed -> on_data (store_biguint x bits signed) c = (Err IntOverflow, c)) /\
  (fits_in (Z.of_N x) bits signed -> 1023 < length (data_bits (cbd c)) + N.to_nat bits ->
     on_data (store_biguint x bits signed) c = (Err CellOverflow, c)) /\
  (fits_in (Z.of_N x) bits signed -> length (data_bits (cbd c)) + N.to_nat bits <= 1023 ->
     exists c', on_data (store_biguint x bits signed) c = (Ok tt, c') /\
       data_bits (cbd c') = data_bits (cbd c) ++ zbits (N.to_nat bits) (Z.of_N x) /\ cb_refs c' = cb_refs c).
Proof.
  intros R c x bits signed Hc HX Hb. apply size_lt in HX. destruct (reach_cbrep c Hc) as ([B r] & (HB & _)). cbn [fst] in HB.
  rewrite (brep_data_bits _ _ HB). pose proof (ubitsize_fits x bits signed HX) as HF.
  assert (EC : forall e, (e, mkCB (cbd c) (cb_exotic c) (cb_refs c)) = (e, c) :> res unit * cb R) by (intros e; destruct c; reflexivity).
  destruct (store_biguint_truncate_appends x bits Hb _ _ HB) as [A1 A2]. rewrite length_zbits in A1, A2.
  unfold on_data, store_biguint. destruct (N.ltb_spec bits (ubitsize x signed)) as [G|G].
  - split; [intros _; apply EC|]. split; intros F; apply HF in F; lia.
  - apply HF in G. split; [tauto|]. split; intros _ L.
    + rewrite (A2 L). apply EC.
    + destruct (A1 L) as (b' & E & H'). rewrite E. eexists. split; [reflexivity|]. cbn [cbd cb_refs].
      rewrite (brep_data_bits _ _ H'). auto.
Qed.
Print Assumptions C09_store_biguint.

(** Loading: on any slice that starts with the two's complement form of [x], at any
    position, the load returns [x] and advances by exactly that width. *)
Theorem C09_load_bigint : forall R (s : slice R) x bits signed rest,
  s_ok s -> fits_in x bits signed -> sbits s = zbits (N.to_nat bits) x ++ rest ->
  exists s', load_bigint s bits signed = (Ok x, s') /\ s_ok s' /\ sbits s' = rest /\ srefs s' = srefs s /\ sc s' = sc s.
Proof.
  intros R s x bits signed rest Hs HF E.
  destruct (load_bigint_spec s _ _ bits signed Hs E ltac:(apply length_zbits)) as (s' & L & H').
  exists s'. rewrite L, (fits_val x bits signed HF). auto.
Qed.
Print Assumptions C09_load_bigint.

Theorem C09_load_biguint : forall R (s : slice R) x bits rest,
  s_ok s -> (x < 2 ^ bits)%N -> sbits s = nbits (N.to_nat bits) x ++ rest ->
  exists s', load_biguint s bits = (Ok x, s') /\ s_ok s' /\ sbits s' = rest /\ srefs s' = srefs s /\ sc s' = sc s.
Proof.
  intros R s x bits rest Hs HF E.
  destruct (load_biguint_spec s _ _ bits Hs E ltac:(apply length_nbits)) as (s' & L & H').
  exists s'. rewrite L, bval_nbits_small by (rewrite N2Nat.id; exact HF). auto.
Qed.
Print Assumptions C09_load_biguint.

(** Too few bits left: [CellUnderflow] and the slice is untouched. *)
Theorem C09_load_underflow : forall R (s : slice R) bits signed,
  s_ok s -> length (sbits s) < N.to_nat bits -> (bits <= 64000)%N ->
  load_bigint s bits signed = (Err CellUnderflow, s).
Proof. intros R. exact load_bigint_underflow. Qed.
Print Assumptions C09_load_underflow.

(** Store, build, read back. *)
Theorem C09_bigint_round_trip : forall R (c c1 : cb R) x bits signed v,
  reachable c -> (Z.abs x < 2 ^ 65000)%Z -> (bits <= 64512)%N -> (signed = true \/ (0 <= x)%Z) ->
  on_data (store_bigint x bits signed) c = (Ok tt, c1) -> build_view c1 = Some v ->
  exists w, skip_first (rng_full v) (bl (cbd c)) 0%N = Ok w /\ fst (load_bigint (mkS v w) bits signed) = Ok x.
Proof.
  intros R c c1 x bits signed v Hc HX Hb Hs E Hv. apply zsize_65000 in HX. destruct (reach_cbrep c Hc) as ([B r] & Hx).
  pose proof Hx as (HB & _). cbn [fst] in HB.
  assert (HF : fits_in x bits signed).
  { destruct (N.ltb_spec bits (bitsize x signed)) as [G|G].
    - unfold on_data, store_bigint in E. rewrite (proj2 (N.ltb_lt _ _) G) in E. discriminate.
    - apply bitsize_fits; assumption. }
  assert (H1 : cbrep c1 (B ++ zbits (N.to_nat bits) x, r)).
  { eapply on_data_cbrep; [exact Hx|exact E|]. intros b1 E1. unfold store_bigint in E1.
    destruct (N.ltb_spec bits (bitsize x signed)) as [G|G]; [discriminate|].
    eapply appends_only_ok; [apply store_bigint_truncate_appends; eassumption|exact HB|exact E1]. }
  destruct (stored_slice _ _ _ _ _ _ Hx H1 Hv) as (w & E2 & Hw & SB). exists w. split; [exact E2|].
  destruct (C09_load_bigint R (mkS v w) x bits signed [] Hw HF) as (s' & -> & _); [rewrite app_nil_r; exact SB|reflexivity].
Qed.
Print Assumptions C09_bigint_round_trip.

Theorem C09_biguint_round_trip : forall R (c c1 : cb R) x bits signed v,
  reachable c -> (x < 2 ^ 65000)%N -> (bits <= 64512)%N ->
  on_data (store_biguint x bits signed) c = (Ok tt, c1) -> build_view c1 = Some v ->
  exists w, skip_first (rng_full v) (bl (cbd c)) 0%N = Ok w /\
    fst (load_biguint (mkS v w) bits) = Ok x /\ fst (load_bigint (mkS v w) bits signed) = Ok (Z.of_N x).
Proof.
  intros R c c1 x bits signed v Hc HX Hb E Hv. apply size_lt in HX. destruct (reach_cbrep c Hc) as ([B r] & Hx).
  pose proof Hx as (HB & _). cbn [fst] in HB.
  assert (HF : fits_in (Z.of_N x) bits signed).
  { destruct (N.ltb_spec bits (ubitsize x signed)) as [G|G].
    - unfold on_data, store_biguint in E. rewrite (proj2 (N.ltb_lt _ _) G) in E. discriminate.
    - apply ubitsize_fits; assumption. }
  assert (H1 : cbrep c1 (B ++ zbits (N.to_nat bits) (Z.of_N x), r)).
  { eapply on_data_cbrep; [exact Hx|exact E|]. intros b1 E1. unfold store_biguint in E1.
    destruct (N.ltb_spec bits (ubitsize x signed)) as [G|G]; [discriminate|].
    eapply appends_only_ok; [apply store_biguint_truncate_appends; eassumption|exact HB|exact E1]. }
  destruct (stored_slice _ _ _ _ _ _ Hx H1 Hv) as (w & E2 & Hw & SB). exists w. split; [exact E2|].
  assert (HU : (x < 2 ^ bits)%N).
  { apply N2Z.inj_lt. rewrite N2Z.inj_pow. change (Z.of_N 2) with 2%Z. unfold fits_in in HF. destruct signed.
    - destruct HF as [E0|[H0 [_ H2]]]; [rewrite E0; apply Z.pow_pos_nonneg; lia|].
      eapply Z.lt_le_trans; [exact H2|]. apply Z.pow_le_mono_r; lia.
    - apply HF. }
  split.
  - destruct (C09_load_biguint R (mkS v w) x bits [] Hw HU) as (s' & -> & _); [|reflexivity].
    rewrite app_nil_r, SB. apply zbits_nbits.
  - destruct (C09_load_bigint R (mkS v w) (Z.of_N x) bits signed [] Hw HF) as (s' & -> & _);
      [rewrite app_nil_r; exact SB|reflexivity].
Qed.
Print Assumptions C09_biguint_round_trip.

(** The variable-length forms: when the store succeeds, the byte count written is the
    smallest that holds the value, and the load returns the value. *)
Theorem C09_var_bigint_round_trip : forall R (c c1 : cb R) x len_bits signed v,
  reachable c -> (Z.abs x < 2 ^ 64000)%Z -> (len_bits <= 15)%N -> (signed = true \/ (0 <= x)%Z) ->
  on_data (store_var_bigint x len_bits signed) c = (Ok tt, c1) -> build_view c1 = Some v ->
  exists n w, (n < 2 ^ len_bits)%N /\ (forall k, (n <= k)%N <-> fits_in x (8 * k) signed) /\
    data_bits (cbd c1) = data_bits (cbd c) ++ nbits (N.to_nat len_bits) n ++ zbits (N.to_nat (8 * n)) x /\
    skip_first (rng_full v) (bl (cbd c)) 0%N = Ok w /\ fst (load_var_bigint (mkS v w) len_bits signed) = Ok x.
Proof.
  intros R c c1 x len_bits signed v Hc HX Hl Hs E Hv. apply zsize_64000 in HX. destruct (reach_cbrep c Hc) as ([B r] & Hx).
  pose proof Hx as (HB & _). cbn [fst] in HB.
  assert (HO : exists b1, store_var_bigint x len_bits signed (cbd c) = (Ok tt, b1)).
  { unfold on_data in E. destruct (store_var_bigint x len_bits signed (cbd c)) as [r1 b1]. injection E as -> _. eauto. }
  destruct HO as (b1 & EO). destruct (store_var_bigint_ok _ _ _ _ _ _ HX Hs Hl HB EO) as (HL & H127 & Hb1).
  set (n := var_len x signed) in *.
  assert (H1 : cbrep c1 (B ++ nbits (N.to_nat len_bits) n ++ zbits (N.to_nat (8 * n)) x, r)).
  { eapply on_data_cbrep; [exact Hx|exact E|]. intros b2 E2. rewrite EO in E2. injection E2 as <-. exact Hb1. }
  destruct (stored_slice _ _ _ _ _ _ Hx H1 Hv) as (w & E2 & Hw & SB). exists n, w.
  split; [exact HL|]. split; [intros k; apply var_len_minimal; assumption|].
  split. { destruct H1 as (H1 & _). cbn [fst] in H1. rewrite (brep_data_bits _ _ H1), (brep_data_bits _ _ HB). reflexivity. }
  split; [exact E2|]. unfold load_var_bigint, load_uint.
  destruct (load_with_ok (mkS v w) len_bits _ _ _ _ Hw SB ltac:(rewrite length_nbits; reflexivity)
    (get_uint_at (mkS v w) n len_bits _ Hw ltac:(lia) HL SB)) as (s1 & -> & Hs1 & B1 & _).
  rewrite !w16_small by (rewrite ?w16_small; lia). rewrite N.mul_comm.
  destruct (C09_load_bigint R s1 x (8 * n) signed [] Hs1) as (s' & -> & _); [|rewrite app_nil_r; exact B1|reflexivity].
  apply var_len_minimal; [assumption|assumption|]. unfold n. lia.
Qed.
Print Assumptions C09_var_bigint_round_trip.

Theorem C09_var_biguint_round_trip : forall R (c c1 : cb R) x len_bits v,
  reachable c -> (x < 2 ^ 64000)%N -> (len_bits <= 15)%N ->
  on_data (store_var_biguint x len_bits) c = (Ok tt, c1) -> build_view c1 = Some v ->
  exists n w, (n < 2 ^ len_bits)%N /\
    data_bits (cbd c1) = data_bits (cbd c) ++ nbits (N.to_nat len_bits) n ++ nbits (N.to_nat (8 * n)) x /\
    skip_first (rng_full v) (bl (cbd c)) 0%N = Ok w /\ fst (load_var_biguint (mkS v w) len_bits) = Ok x.
Proof.
  intros R c c1 x len_bits v Hc HX Hl E Hv. apply size_lt in HX. destruct (reach_cbrep c Hc) as ([B r] & Hx).
  pose proof Hx as (HB & _). cbn [fst] in HB.
  assert (HO : exists b1, store_var_biguint x len_bits (cbd c) = (Ok tt, b1)).
  { unfold on_data in E. destruct (store_var_biguint x len_bits (cbd c)) as [r1 b1]. injection E as -> _. eauto. }
  destruct HO as (b1 & EO). destruct (store_var_biguint_ok _ _ _ _ _ HX Hl HB EO) as (HL & H127 & Hb1).
  set (n := uvar_len x) in *. rewrite zbits_nbits in Hb1.
  assert (H1 : cbrep c1 (B ++ nbits (N.to_nat len_bits) n ++ nbits (N.to_nat (8 * n)) x, r)).
  { eapply on_data_cbrep; [exact Hx|exact E|]. intros b2 E2. rewrite EO in E2. injection E2 as <-. exact Hb1. }
  destruct (stored_slice _ _ _ _ _ _ Hx H1 Hv) as (w & E2 & Hw & SB). exists n, w.
  split; [exact HL|].
  split. { destruct H1 as (H1 & _). cbn [fst] in H1. rewrite (brep_data_bits _ _ H1), (brep_data_bits _ _ HB). reflexivity. }
  split; [exact E2|]. unfold load_var_biguint, load_uint.
  destruct (load_with_ok (mkS v w) len_bits _ _ _ _ Hw SB ltac:(rewrite length_nbits; reflexivity)
    (get_uint_at (mkS v w) n len_bits _ Hw ltac:(lia) HL SB)) as (s1 & -> & Hs1 & B1 & _).
  rewrite !w16_small by (rewrite ?w16_small; lia). rewrite N.mul_comm.
  destruct (C09_load_biguint R s1 x (8 * n) [] Hs1) as (s' & -> & _); [|rewrite app_nil_r; exact B1|reflexivity].
  apply size_lt. unfold n, uvar_len. lia.
Qed.
Print Assumptions C09_var_biguint_round_trip.

(** Finding: with [signed = false] a negative integer is accepted and its magnitude is
    stored, so the value read back is a different one. *)
Theorem C09_negative_unsigned_refuted : exists (x : Z) (bits : N) c1 v,
  on_data (store_bigint x bits false) (cb_new (R := unit)) = (Ok tt, c1) /\ build_view c1 = Some v /\
  fst (load_bigint (slice_new_allow_exotic v) bits false) = Ok (- x)%Z /\ (x < 0)%Z.
Proof.
  exists (-5)%Z, 100%N, (snd (on_data (store_bigint (-5) 100 false) cb_new)).
  eexists. split; [reflexivity|]. split; [vm_compute; reflexivity|]. split; [vm_compute; reflexivity|lia].
Qed.
Print Assumptions C09_negative_unsigned_refuted.

(** Finding: the variable-length stores are not atomic; on [CellOverflow] of the payload
    the length prefix stays in the builder. *)
Theorem C09_var_store_atomic_refuted : exists (c c1 : cb unit) (x : Z),
  reachable c /\ on_data (store_var_bigint x 4 true) c = (Err CellOverflow, c1) /\ data_bits (cbd c1) <> data_bits (cbd c).
Proof.
  exists (snd (run_op (B_zeros 1015) cb_new)), (snd (on_data (store_var_bigint 300 4 true) (snd (run_op (B_zeros 1015) cb_new)))), 300%Z.
  split. { eapply reach_op; [apply reach_new|apply (ok_zeros 1015); unfold count_ok; lia|]. apply surjective_pairing. }
  split; [vm_compute; reflexivity|]. intros H. apply (f_equal (@length bool)) in H. vm_compute in H. discriminate.
Qed.
Print Assumptions C09_var_store_atomic_refuted.

(** Non-vacuity: a 257-bit negative number at an odd position, and a 70-bit unsigned one. *)
Example C09_case :
  fits_in (- 2 ^ 256)%Z 257 true /\ ~ fits_in (2 ^ 256)%Z 257 true /\ fits_in (2 ^ 69 + 1)%Z 70 false /\
  let c := snd (run_op (B_uint 5 3) (cb_new (R := unit))) in
  fst (on_data (store_bigint (- 2 ^ 256) 257 true) c) = Ok tt /\
  fst (on_data (store_bigint (2 ^ 256) 257 true) c) = Err IntOverflow /\
  (exists v, build_view (snd (on_data (store_var_bigint (- 2 ^ 100) 5 true) c)) = Some v) /\
  fst (on_data (store_var_bigint (- 2 ^ 100) 5 true) c) = Ok tt /\
  fst (on_data (store_biguint (2 ^ 69 + 1) 70 false) c) = Ok tt.
Proof.
  split; [right; split; [lia|vm_compute; split; congruence]|].
  split; [intros [H|[_ [_ H]]]; [discriminate|vm_compute in H; discriminate]|].
  split; [split; [vm_compute; congruence|vm_compute; reflexivity]|]. cbv zeta.
  split; [vm_compute; reflexivity|]. split; [vm_compute; reflexivity|].
  split; [eexists; vm_compute; reflexivity|]. split; vm_compute; reflexivity.
Qed.
