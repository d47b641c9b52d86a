(** * Round trip of primitive values *)
From Verif Require Import Err BitsProofs BufProofs BuilderModel BuilderProofs SliceModel SliceSpec SliceProofs SliceCmpProofs
  CellBuilderModel BuilderSpec CellBuilderProofs IntModel IntSpec.
Local Open Scope nat_scope.
Ltac Zify.zify_post_hook ::= Z.div_mod_to_equations.

Section P.
Context {R : Type}.
Implicit Types (s : slice R).

Lemma as_unsigned_lt (w : N) v : (as_unsigned w v < 2 ^ w)%N.
Proof.
  unfold as_unsigned. pose proof (Z.mod_pos_bound v (2 ^ Z.of_N w) ltac:(apply Z.pow_pos_nonneg; lia)) as H.
  apply N2Z.inj_lt. rewrite Z2N.id by lia. rewrite N2Z.inj_pow. lia.
Qed.

Lemma as_signed_unsigned (w : N) v : (0 < w)%N -> in_i (Z.of_N w) v -> as_signed w (as_unsigned w v) = v.
Proof.
  intros Hw [H1 H2]. unfold as_signed, as_unsigned.
  assert (HP : (2 ^ Z.of_N w = 2 * 2 ^ (Z.of_N w - 1))%Z).
  { rewrite <- Z.pow_succ_r by lia. f_equal. lia. }
  assert (HQ : Z.of_N (2 ^ (w - 1)) = (2 ^ (Z.of_N w - 1))%Z).
  { rewrite N2Z.inj_pow. f_equal. lia. }
  assert (0 < 2 ^ (Z.of_N w - 1))%Z by (apply Z.pow_pos_nonneg; lia).
  destruct (Z.le_gt_cases 0 v) as [Hv|Hv].
  - rewrite Z.mod_small by lia. destruct (N.ltb_spec (Z.to_N v) (2 ^ (w - 1))); lia.
  - assert (E : (v mod 2 ^ Z.of_N w = v + 2 ^ Z.of_N w)%Z).
    { symmetry. apply (Z.mod_unique _ _ (-1)%Z); lia. }
    rewrite E. destruct (N.ltb_spec (Z.to_N (v + 2 ^ Z.of_N w)) (2 ^ (w - 1))); lia.
Qed.

Lemma load_with_ok {A} s (bits : N) X Z (x : res A) a :
  s_ok s -> sbits s = X ++ Z -> N.to_nat bits = length X -> x = Ok a ->
  exists s', load_with s bits x = (Ok a, s') /\ s_ok s' /\ sbits s' = Z /\ srefs s' = srefs s /\ sc s' = sc s.
Proof.
  intros Hs E L ->. exists (advance s bits).
  destruct (advance_spec s bits Hs ltac:(rewrite E, app_length; lia)) as (A1 & A2 & A3).
  split; [reflexivity|]. split; [exact A1|]. split; [|split; [exact A3|reflexivity]].
  rewrite A2, E, L, drop_app. reflexivity.
Qed.

Lemma get_bit_at s b Z : s_ok s -> sbits s = b :: Z -> get_bit s 0 = Ok b.
Proof. intros Hs E. rewrite get_bit_spec by (assumption || lia). rewrite E. reflexivity. Qed.
Lemma get_uW_at n s v Z : s_ok s -> 1 <= n <= 16 -> (v < 2 ^ N.of_nat (8 * n))%N ->
  sbits s = nbits (8 * n) v ++ Z -> get_uW n s 0 = Ok v.
Proof.
  intros Hs Hn Hv E. rewrite get_uW_spec by (assumption || lia). rewrite E, app_length, length_nbits.
  change (N.to_nat 0) with 0. rewrite drop_0.
  destruct (Nat.leb_spec (0 + 8 * n) (8 * n + length Z)); [|lia].
  rewrite take_app_alt by (rewrite length_nbits; reflexivity). f_equal. apply bval_nbits_small. exact Hv.
Qed.
Lemma get_u128_at s v Z : s_ok s -> (v < 2 ^ 128)%N -> sbits s = nbits 128 v ++ Z -> get_u128 s 0 = Ok v.
Proof.
  intros Hs Hv E. rewrite get_u128_spec by (assumption || lia). rewrite E, app_length, length_nbits.
  change (N.to_nat 0) with 0. rewrite drop_0.
  destruct (Nat.leb_spec (0 + 128) (128 + length Z)); [|lia].
  rewrite take_app_alt by (rewrite length_nbits; reflexivity). f_equal. apply bval_nbits_small. exact Hv.
Qed.
Lemma get_u256_at s v Z : s_ok s -> Forall byte_ok v -> length v = 32 -> sbits s = bytes_bits v ++ Z -> get_u256 s 0 = Ok v.
Proof.
  intros Hs Hv L E. destruct (get_u256_spec s 0 Hs ltac:(lia)) as (u & Hu & G & F).
  rewrite E, app_length, length_bytes_bits, L in *. change (N.to_nat 0) with 0 in *. rewrite drop_0 in F.
  destruct (F ltac:(lia)) as [Lu Bu]. rewrite take_app_alt in Bu by (rewrite length_bytes_bits; lia).
  apply bytes_bits_inj in Bu; [|assumption..]. subst u. rewrite G.
  destruct (Nat.leb_spec (0 + 256) (8 * 32 + length Z)); [reflexivity|lia].
Qed.
Lemma get_small_at s v bits Z : s_ok s -> (bits <= 8)%N -> (v < 2 ^ bits)%N ->
  sbits s = nbits (N.to_nat bits) v ++ Z -> get_small_uint s 0 bits = Ok v.
Proof.
  intros Hs Hb Hv E. rewrite get_small_uint_spec by (assumption || lia).
  destruct (N.eqb_spec bits 0) as [->|H0]; [f_equal; cbn in Hv; lia|].
  rewrite E, app_length, length_nbits. change (N.to_nat 0) with 0. rewrite drop_0.
  destruct (Nat.leb_spec (0 + N.to_nat bits) (N.to_nat bits + length Z)); [|lia].
  rewrite take_app_alt by (rewrite length_nbits; reflexivity). f_equal. apply bval_nbits_small.
  rewrite N2Nat.id. exact Hv.
Qed.
Lemma get_uint_at s v bits Z : s_ok s -> (bits <= 64)%N -> (v < 2 ^ bits)%N ->
  sbits s = nbits (N.to_nat bits) v ++ Z -> get_uint s 0 bits = Ok v.
Proof.
  intros Hs Hb Hv E. rewrite get_uint_spec by (assumption || lia).
  destruct (N.eqb_spec bits 0) as [->|H0]; [f_equal; cbn in Hv; lia|].
  rewrite E, app_length, length_nbits. change (N.to_nat 0) with 0. rewrite drop_0.
  destruct (Nat.leb_spec (0 + N.to_nat bits) (N.to_nat bits + length Z)); [|lia].
  rewrite take_app_alt by (rewrite length_nbits; reflexivity). f_equal. apply bval_nbits_small.
  rewrite N2Nat.id. exact Hv.
Qed.
Lemma get_raw_at s X Z (bits : N) : s_ok s -> length X = N.to_nat bits ->
  sbits s = X ++ Z -> get_raw s 0 (N.to_nat ((bits + 7) / 8)) bits = Ok (pack X).
Proof.
  intros Hs L E. rewrite get_raw_spec; [|assumption|rewrite E, app_length; lia|lia].
  change (N.to_nat 0) with 0. rewrite drop_0, E, take_app_alt by lia. reflexivity.
Qed.

Lemma load_like_ok v s Z : ival_ok v -> s_ok s -> sbits s = ival_bits v ++ Z ->
  exists s', load_like v s = (Ok v, s') /\ s_ok s' /\ sbits s' = Z /\ srefs s' = srefs s /\ sc s' = sc s.
Proof.
  intros Hv Hs E.
  assert (G : forall {A} (f : A -> ival) bits x a, load_like v s = rmap f (load_with s bits x) ->
    N.to_nat bits = length (ival_bits v) -> x = Ok a -> f a = v ->
    exists s', load_like v s = (Ok v, s') /\ s_ok s' /\ sbits s' = Z /\ srefs s' = srefs s /\ sc s' = sc s).
  { intros A f bits x a E1 L E2 E3. destruct (load_with_ok s bits _ _ x a Hs E L E2) as (s' & E4 & H).
    exists s'. split; [|exact H]. rewrite E1, E4. unfold rmap. cbn [fst snd rbind]. rewrite E3. reflexivity. }
  destruct v; cbn [ival_ok ival_bits] in *.
  - eapply G; [reflexivity|reflexivity| |reflexivity]. eapply get_bit_at; eassumption.
  - eapply G; [reflexivity|reflexivity| |reflexivity]. eapply get_small_at; [eassumption|lia|exact Hv|exact E].
  - eapply G; [reflexivity|reflexivity| |reflexivity]. eapply (get_uW_at 2); [eassumption|lia|exact Hv|exact E].
  - eapply G; [reflexivity|reflexivity| |reflexivity]. eapply (get_uW_at 4); [eassumption|lia|exact Hv|exact E].
  - eapply G; [reflexivity|reflexivity| |reflexivity]. eapply (get_uW_at 8); [eassumption|lia|exact Hv|exact E].
  - eapply G; [reflexivity|reflexivity| |reflexivity]. eapply get_u128_at; [eassumption|exact Hv|exact E].
  - eapply (G _ (fun x => V_i8 (as_signed 8 x)) _ _ (as_unsigned 8 v)); [reflexivity|reflexivity| |cbv beta; rewrite as_signed_unsigned by (lia || exact Hv); reflexivity].
    eapply get_small_at; [eassumption|lia|apply as_unsigned_lt|exact E].
  - eapply (G _ (fun x => V_i16 (as_signed 16 x)) _ _ (as_unsigned 16 v)); [reflexivity|reflexivity| |cbv beta; rewrite as_signed_unsigned by (lia || exact Hv); reflexivity].
    eapply (get_uW_at 2); [eassumption|lia|apply (as_unsigned_lt 16)|exact E].
  - eapply (G _ (fun x => V_i32 (as_signed 32 x)) _ _ (as_unsigned 32 v)); [reflexivity|reflexivity| |cbv beta; rewrite as_signed_unsigned by (lia || exact Hv); reflexivity].
    eapply (get_uW_at 4); [eassumption|lia|apply (as_unsigned_lt 32)|exact E].
  - eapply (G _ (fun x => V_i64 (as_signed 64 x)) _ _ (as_unsigned 64 v)); [reflexivity|reflexivity| |cbv beta; rewrite as_signed_unsigned by (lia || exact Hv); reflexivity].
    eapply (get_uW_at 8); [eassumption|lia|apply (as_unsigned_lt 64)|exact E].
  - eapply (G _ (fun x => V_i128 (as_signed 128 x)) _ _ (as_unsigned 128 v)); [reflexivity|reflexivity| |cbv beta; rewrite as_signed_unsigned by (lia || exact Hv); reflexivity].
    eapply get_u128_at; [eassumption|apply (as_unsigned_lt 128)|exact E].
  - destruct Hv as [Hv L]. eapply G; [reflexivity| | |reflexivity].
    + rewrite length_bytes_bits, L. reflexivity.
    + eapply get_u256_at; eassumption.
  - destruct Hv as [Hb Hv]. eapply (G _ (fun x => V_small x bits)); [reflexivity|rewrite length_nbits; reflexivity| |reflexivity].
    eapply get_small_at; eassumption.
  - destruct Hv as [Hb Hv]. eapply (G _ (fun x => V_uint x bits)); [reflexivity|rewrite length_nbits; reflexivity| |reflexivity].
    eapply get_uint_at; eassumption.
  - destruct Hv as (Hb & X & LX & ->).
    rewrite bytes_bits_pack in E. rewrite take_app_alt in E by lia.
    eapply (G _ (fun x => V_raw x bits)); [reflexivity| | |reflexivity].
    + rewrite take_length, length_bytes_bits, length_pack. lia.
    + eapply get_raw_at; eassumption.
Qed.

Lemma load_all_ok vs : Forall ival_ok vs -> forall s Z, s_ok s -> sbits s = concat (map ival_bits vs) ++ Z ->
  exists s', load_all vs s = (Ok vs, s') /\ s_ok s' /\ sbits s' = Z /\ srefs s' = srefs s /\ sc s' = sc s.
Proof.
  induction 1 as [|v vs Hv Hvs IH]; intros s Z Hs E.
  - exists s. cbn in E. cbn. auto.
  - cbn [map concat] in E. rewrite <- app_assoc in E.
    destruct (load_like_ok v s _ Hv Hs E) as (s1 & E1 & H1 & B1 & R1 & C1).
    destruct (IH s1 Z H1 B1) as (s2 & E2 & H2 & B2 & R2 & C2).
    exists s2. cbn [load_all]. rewrite E1, E2. split; [reflexivity|]. split; [exact H2|].
    split; [exact B2|]. split; congruence.
Qed.

Lemma store_ival_ok v : ival_ok v -> op_ok (R := R) (store_ival v) /\
  appended (R := R) (store_ival v) = Some (ival_bits v, []).
Proof.
  intros Hv. destruct v; cbn [ival_ok store_ival ival_bits appended] in *.
  - split; [constructor|reflexivity].
  - split; [constructor; exact Hv|reflexivity].
  - split; [constructor; exact Hv|reflexivity].
  - split; [constructor; exact Hv|reflexivity].
  - split; [constructor; exact Hv|reflexivity].
  - split; [constructor; exact Hv|reflexivity].
  - split; [constructor; apply (as_unsigned_lt 8)|reflexivity].
  - split; [constructor; apply (as_unsigned_lt 16)|reflexivity].
  - split; [constructor; apply (as_unsigned_lt 32)|reflexivity].
  - split; [constructor; apply (as_unsigned_lt 64)|reflexivity].
  - split; [constructor; apply (as_unsigned_lt 128)|reflexivity].
  - destruct Hv. split; [constructor; assumption|reflexivity].
  - destruct Hv as [Hb Hv]. split; [constructor; [|unfold count_ok; lia]|reflexivity].
    eapply N.lt_le_trans; [exact Hv|]. apply N.pow_le_mono_r; lia.
  - destruct Hv as [Hb Hv]. split; [constructor; [|unfold count_ok; lia]|reflexivity].
    eapply N.lt_le_trans; [exact Hv|]. apply N.pow_le_mono_r; lia.
  - destruct Hv as (Hb & X & LX & ->). split.
    + constructor; [|unfold count_ok; lia]. split; [apply pack_ok|rewrite length_pack; lia].
    + unfold raw_value. rewrite length_pack. replace (N.to_nat bits - 8 * _) with 0 by lia. reflexivity.
Qed.

(** All calls succeeded: the content is the old one followed by what was appended. *)
Definition all_ok (l : list (res unit)) : Prop := Forall (fun r => r = Ok tt) l.

Lemma spec_ops_append l : forall c rs c',
  Forall (fun o => is_Some (appended (R := R) o)) l -> spec_ops l c = (rs, c') ->
  exists Y, fst c' = fst c ++ Y.
Proof.
  induction l as [|o l IH]; intros c rs c' Hl E.
  - injection E as _ <-. exists []. rewrite app_nil_r. reflexivity.
  - inversion Hl as [|? ? [[X r] Ho] Hl']; subst. cbn [spec_ops] in E. unfold spec_op in E. rewrite Ho in E.
    destruct (fits (fst c ++ X, snd c ++ r)).
    + destruct (spec_ops l (fst c ++ X, snd c ++ r)) as [rs' c2] eqn:E2. injection E as _ <-.
      destruct (IH _ _ _ Hl' E2) as [Y HY]. exists (X ++ Y). rewrite HY. cbn [fst]. rewrite app_assoc. reflexivity.
    + destruct (spec_ops l c) as [rs' c2] eqn:E2. injection E as _ <-.
      destruct (IH _ _ _ Hl' E2) as [Y HY]. exists Y. exact HY.
Qed.

Lemma spec_ops_ivals vs : Forall ival_ok vs -> forall (c : content (R := R)) rs c',
  spec_ops (map store_ival vs) c = (rs, c') -> all_ok rs ->
  c' = (fst c ++ concat (map ival_bits vs), snd c).
Proof.
  induction 1 as [|v vs Hv Hvs IH]; intros c rs c' E Hok.
  - injection E as _ <-. cbn. rewrite app_nil_r. destruct c; reflexivity.
  - cbn [map spec_ops] in E. unfold spec_op in E. destruct (store_ival_ok v Hv) as [_ Ha].
    rewrite Ha in E. destruct (fits (fst c ++ ival_bits v, snd c ++ [])) eqn:F.
    + destruct (spec_ops (map store_ival vs) _) as [rs' c2] eqn:E2. injection E as <- <-.
      inversion Hok; subst. rewrite (IH _ _ _ E2 ltac:(assumption)). cbn [fst snd map concat].
      rewrite app_assoc, app_nil_r. reflexivity.
    + destruct (spec_ops (map store_ival vs) _) as [rs' c2] eqn:E2. injection E as <- <-.
      inversion Hok; discriminate.
Qed.

Lemma int_roundtrip c0 vs rs c1 suffix rs' c2 v :
  reachable (R := R) c0 -> Forall ival_ok vs ->
  run_ops (map store_ival vs) c0 = (rs, c1) -> all_ok rs ->
  Forall op_ok suffix -> Forall (fun o => is_Some (appended o)) suffix ->
  run_ops suffix c1 = (rs', c2) ->
  build_view c2 = Some v ->
  exists x s', skip_first (rng_full v) (bl (cbd c0)) 0%N = Ok x /\
    load_all vs (mkS v x) = (Ok vs, s') /\
    sc s' = v /\ sbits s' = drop (N.to_nat (bl (cbd c1))) (data_bits (cbd c2)) /\
    be (sr s') = cv_bits v.
Proof.
  intros Hr0 Hvs E1 Hok Hsuf Happ E2 Hb.
  destruct (reach_cbrep c0 Hr0) as ([B0 r0] & H0).
  assert (Hops : Forall op_ok (map (store_ival (R := R)) vs)).
  { apply Forall_map. induction Hvs as [|w l Hw Hl IHl]; constructor; [apply store_ival_ok, Hw|].
    clear -Hl. induction Hl; constructor; [apply store_ival_ok; assumption|assumption]. }
  destruct (ops_refine _ Hops c0 _ H0) as (c1' & F1 & H1). rewrite E1 in F1.
  destruct (spec_ops (map store_ival vs) (B0, r0)) as [rsx x1] eqn:S1. cbn [fst snd] in *.
  injection F1 as -> <-.
  pose proof (spec_ops_ivals vs Hvs _ _ _ S1 Hok) as X1. cbn [fst snd] in X1.
  destruct (ops_refine _ Hsuf c1 _ H1) as (c2' & F2 & H2). rewrite E2 in F2.
  destruct (spec_ops suffix x1) as [rsy x2] eqn:S2. cbn [fst snd] in *. injection F2 as -> <-.
  destruct (spec_ops_append _ _ _ _ Happ S2) as [Y HY].
  destruct x2 as [B2 r2]. cbn [fst] in HY. subst x1. cbn [fst] in *.
  destruct (build_view_spec c2 B2 r2 H2) as (v' & Hb' & Hv & Ld & SB & SR & CB).
  rewrite Hb in Hb'. injection Hb' as <-.
  destruct (slice_new_full v Hv) as (Hs & _ & _).
  pose proof H0 as ((_ & L0 & HB0) & _ & _). cbn [fst] in *.
  pose proof (skip_first_cuts (slice_new_allow_exotic v) (bl (cbd c0)) 0%N Hs ltac:(lia) ltac:(lia)) as Q.
  rewrite SB, HY in Q. rewrite L0, Nat2N.id in Q. rewrite app_length, app_length in Q.
  rewrite (proj2 (Nat.leb_le (length B0) (length B0 + length (concat (map ival_bits vs)) + length Y))) in Q by lia. cbn [andb] in Q.
  change (N.to_nat 0) with 0 in Q. cbn [Nat.leb] in Q.
  destruct Q as (x & Ex & Hx & Bx & _).
  cbn [slice_new_allow_exotic sr] in Ex. exists x.
  rewrite <- app_assoc, drop_app in Bx.
  destruct (load_all_ok vs Hvs (win (slice_new_allow_exotic v) x) Y Hx Bx) as (s' & EL & Hs' & Bs' & _ & Cs').
  exists s'. split; [rewrite L0; exact Ex|]. split; [exact EL|]. split; [rewrite Cs'; reflexivity|].
  destruct H1 as (H1 & _). cbn [fst] in H1. pose proof H1 as (_ & L1 & _).
  rewrite (brep_data_bits _ _ (proj1 H2)). cbn [fst]. rewrite HY, L1, Nat2N.id, drop_app.
  split; [exact Bs'|].
  (* the end of the window never moves *)
  assert (HE : forall vs s, be (sr (snd (load_all (R := R) vs s))) = be (sr s)).
  { clear. intros vs. assert (HL : forall A s bits (x : res A), be (sr (snd (load_with (R := R) s bits x))) = be (sr s))
      by (intros A s bits [a|e]; reflexivity).
    assert (H1 : forall v s, be (sr (snd (load_like (R := R) v s))) = be (sr s))
      by (intros [] s; apply HL).
    induction vs as [|w vs IH]; intros s; [reflexivity|]. cbn [load_all].
    specialize (H1 w s). destruct (load_like w s) as [[a|e] s1]; [|exact H1]. cbn [snd] in H1.
    specialize (IH s1). destruct (load_all vs s1) as [[xs|e] s2]; cbn [snd] in *; congruence. }
  specialize (HE vs (mkS v x)). change (win (slice_new_allow_exotic v) x) with (mkS v x) in EL.
  rewrite EL in HE. cbn [snd sr] in HE. rewrite HE.
  unfold skip_first in Ex. destruct (rng_over _ _ _); [discriminate|]. injection Ex as <-. reflexivity.
Qed.

End P.
