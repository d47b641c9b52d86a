(** * Histories of window operations; safety of reads for every argument. *)
From Verif Require Import Err BitsProofs BufProofs BuilderProofs SliceModel SliceSpec SliceProofs SliceCmpProofs SliceScanProofs.
Local Open Scope nat_scope.
Ltac Zify.zify_post_hook ::= Z.div_mod_to_equations.

Section P.
Context {R : Type}.
Implicit Types (s : slice R).

Definition wsees s (w : window (R := R)) := s_ok s /\ sbits s = fst w /\ srefs s = snd w.
Definition inside (x y : rng) : Prop :=
  (bs y <= bs x /\ be x <= be y /\ rs y <= rs x /\ re x <= re y)%N.

Lemma cut_step op f s w b n : cuts (R := R) op f -> wsees s w -> (b <= 64000)%N -> (n <= 250)%N ->
  exists s', keep s (mkS (sc s)) (op (sr s) b n) = (enough w b n, s') /\ sc s' = sc s /\
    wsees s' (if enough w b n then (f _ (N.to_nat b) (fst w), f _ (N.to_nat n) (snd w)) else w).
Proof.
  intros H (Hs & E1 & E2) Hb Hn. specialize (H s b n Hs Hb Hn). unfold enough. rewrite <- E1, <- E2.
  destruct ((N.to_nat b <=? length (sbits s)) && (N.to_nat n <=? length (srefs s))).
  - destruct H as (x & -> & H1 & H2 & H3). eexists. split; [reflexivity|].
    split; [reflexivity|]. split; [exact H1|]. auto.
  - rewrite H. eexists. split; [reflexivity|]. split; [reflexivity|]. split; [exact Hs|]. auto.
Qed.

Lemma keep_snd_prefix s b n :
  keep s snd (load_prefix s b n) = keep s (mkS (sc s)) (skip_first (sr s) b n).
Proof.
  unfold load_prefix. rewrite split_prefix_eq. unfold only_first, skip_first.
  destruct (rng_over (sr s) b n); reflexivity.
Qed.
Lemma keep_snd_suffix s b n :
  keep s snd (load_suffix s b n) = keep s (mkS (sc s)) (skip_last (sr s) b n).
Proof.
  unfold load_suffix. rewrite split_suffix_eq. unfold only_last, skip_last.
  destruct (rng_over (sr s) b n); reflexivity.
Qed.

Lemma run_wop_spec o s w : wop_ok o -> wsees s w ->
  exists s', run_wop o s = (fst (spec_wop o w), s') /\ sc s' = sc s /\ wsees s' (snd (spec_wop o w)).
Proof.
  intros Ho Hw. destruct w as [X r].
  assert (G : forall op f b n, cuts (R := R) op f -> (b <= 64000)%N -> (n <= 250)%N ->
    exists s', keep s (mkS (sc s)) (op (sr s) b n) =
      (fst (if enough (X, r) b n then (true, (f _ (N.to_nat b) X, f _ (N.to_nat n) r)) else (false, (X, r))), s')
      /\ sc s' = sc s /\
      wsees s' (snd (if enough (X, r) b n then (true, (f _ (N.to_nat b) X, f _ (N.to_nat n) r)) else (false, (X, r))))).
  { intros op f b n Hc Hb Hn. destruct (cut_step op f s (X, r) b n Hc Hw Hb Hn) as (s' & E & Hs' & H').
    exists s'. rewrite E. destruct (enough (X, r) b n); auto. }
  destruct o; cbn [run_wop spec_wop wop_ok] in *; lazymatch type of Ho with _ /\ _ => destruct Ho as [Ho1 Ho2] | _ => idtac end.
  - apply (G _ _ _ _ skip_first_cuts); assumption.
  - apply (G _ _ _ _ only_first_cuts); assumption.
  - apply (G _ _ _ _ skip_last_cuts); assumption.
  - apply (G _ _ _ _ only_last_cuts); assumption.
  - destruct Hw as (Hs & E1 & E2). destruct (get_prefix_spec s bits refs Hs Ho1 Ho2) as (P1 & P2 & P3).
    eexists. split; [reflexivity|]. split; [reflexivity|]. split; [exact P1|]. cbn [fst snd] in *.
    rewrite <- E1, <- E2. split; assumption.
  - rewrite keep_snd_prefix. apply (G _ _ _ _ skip_first_cuts); assumption.
  - rewrite keep_snd_suffix. apply (G _ _ _ _ skip_last_cuts); assumption.
  - destruct Hw as (Hs & E1 & E2). cbn [fst snd] in *. unfold load_uint, load_with.
    destruct (N.leb_spec bits 64) as [Hb|Hb].
    + rewrite get_uint_spec by (assumption || lia). unfold enough. cbn [fst snd].
      rewrite (proj2 (Nat.leb_le (N.to_nat 0) (length r)) ltac:(lia)), andb_true_r.
      destruct (N.eqb_spec bits 0) as [->|Hb0].
      * exists (advance s 0). rewrite <- E1.
        destruct (advance_spec s 0 Hs ltac:(lia)) as (A1 & A2 & A3).
        split; [reflexivity|]. split; [reflexivity|]. split; [exact A1|]. cbn [fst snd]. rewrite <- E2. auto.
      * change (N.to_nat 0) with 0. rewrite Nat.add_0_l. rewrite <- E1.
        destruct (Nat.leb_spec (N.to_nat bits) (length (sbits s))) as [G1|G1].
        -- destruct (advance_spec s bits Hs G1) as (A1 & A2 & A3).
           eexists. split; [reflexivity|]. split; [reflexivity|]. split; [exact A1|]. cbn [fst snd]. rewrite <- E2. auto.
        -- exists s. split; [reflexivity|]. split; [reflexivity|]. split; [exact Hs|]. auto.
    + rewrite get_uint_big by (assumption || lia). exists s. split; [reflexivity|]. split; [reflexivity|].
      split; [exact Hs|]. auto.
  - destruct Hw as (Hs & E1 & E2). cbn [fst snd] in *. unfold enough. cbn [fst snd].
    pose proof (load_reference_spec s Hs) as Q.
    assert (Hsc : sc (snd (load_reference s)) = sc s).
    { unfold load_reference. destruct (rs (sr s) <? re (sr s))%N; [|reflexivity].
      destruct (cv_refs (sc s) !! N.to_nat (rs (sr s))); reflexivity. }
    rewrite E2 in Q.
    destruct r as [|c l].
    + rewrite Q. eexists. split; [reflexivity|]. split; [reflexivity|]. split; [exact Hs|]. auto.
    + destruct Q as (s' & E & A1 & A2 & A3). rewrite E in *. exists s'. split; [reflexivity|].
      split; [exact Hsc|]. split; [exact A1|]. cbn [fst snd drop]. rewrite <- E1. auto.
  - destruct Hw as (Hs & E1 & E2). eexists. split; [reflexivity|]. cbn [load_remaining snd sc].
    split; [reflexivity|]. pose proof Hs as ((Hd & H1 & H2 & H3) & H4 & H5).
    split; [|unfold sbits, srefs; cbn [sr sc bs be rs re fst snd]; rewrite !N.sub_diag; split; reflexivity].
    split; [repeat split; assumption|]. cbn [sr sc bs be rs re]. lia.
Qed.

Lemma run_wops_spec l : Forall wop_ok l -> forall s w, wsees s w ->
  exists s', run_wops l s = (fst (spec_wops l w), s') /\ sc s' = sc s /\ wsees s' (snd (spec_wops l w)).
Proof.
  induction 1 as [|o l Ho Hl IH]; intros s w Hw.
  - exists s. auto.
  - cbn [run_wops spec_wops]. destruct (run_wop_spec o s w Ho Hw) as (s1 & E1 & C1 & H1).
    destruct (spec_wop o w) as [r w1]. cbn [fst snd] in *. rewrite E1.
    destruct (IH s1 w1 H1) as (s2 & E2 & C2 & H2).
    destruct (spec_wops l w1) as [rs w2]. cbn [fst snd] in *. rewrite E2.
    exists s2. split; [reflexivity|]. split; [congruence|exact H2].
Qed.

Lemma run_wop_inside o s : wop_ok o -> s_ok s -> inside (sr (snd (run_wop o s))) (sr s).
Proof.
  intros Ho Hs. pose proof Hs as ((Hd & H1 & H2 & H3) & H4 & H5).
  assert (Hrefl : inside (sr s) (sr s)) by (unfold inside; lia).
  assert (K : forall op b n, (op = skip_first \/ op = only_first \/ op = skip_last \/ op = only_last) ->
     (b <= 64000)%N -> (n <= 250)%N -> inside (sr (snd (keep s (mkS (sc s)) (op (sr s) b n)))) (sr s)).
  { intros op b n Hop Hb Hn. unfold keep.
    assert (Hov : rng_over (sr s) b n = false -> (bs (sr s) + b <= be (sr s) /\ rs (sr s) + n <= re (sr s))%N).
    { unfold rng_over, w16, w8. rewrite !N.mod_small by lia. lia. }
    destruct Hop as [->|[->|[->| ->]]]; unfold skip_first, only_first, skip_last, only_last;
      destruct (rng_over (sr s) b n); try exact Hrefl; specialize (Hov eq_refl);
      unfold inside, w16, w8; cbn [snd sr bs be rs re]; lia. }
  destruct o; cbn [run_wop wop_ok] in *; lazymatch type of Ho with _ /\ _ => destruct Ho as [Ho1 Ho2] | _ => idtac end; try (apply K; auto; fail).
  - cbn [snd sr]. unfold get_prefix, inside. cbn [bs be rs re]. lia.
  - rewrite keep_snd_prefix. apply K; auto.
  - rewrite keep_snd_suffix. apply K; auto.
  - destruct (run_wop_spec (W_load_uint bits) s (sbits s, srefs s) I ltac:(split; auto)) as (s' & E & C & W).
    cbn [run_wop] in E. unfold load_uint, load_with in *. destruct (get_uint s 0 bits) eqn:EG; [|exact Hrefl].
    cbn [snd fst is_ok] in *. unfold inside, advance. cbn [sr bs be rs re]. 
    injection E as E _. symmetry in E. cbn [spec_wop fst] in E.
    destruct (N.leb_spec bits 64); [|discriminate].
    unfold enough in E. cbn [fst snd] in E.
    destruct (Nat.leb_spec (N.to_nat bits) (length (sbits s))) as [G|G]; [|discriminate].
    rewrite (sbits_length s Hs) in G. unfold w16. lia.
  - unfold load_reference. destruct (N.ltb_spec (rs (sr s)) (re (sr s))); [|exact Hrefl].
    destruct (cv_refs (sc s) !! N.to_nat (rs (sr s))); [|exact Hrefl].
    unfold inside. cbn [snd sr bs be rs re]. lia.
  - unfold inside. cbn [snd load_remaining sr bs be rs re]. lia.
Qed.

Lemma run_wops_inside l : Forall wop_ok l -> forall s, s_ok s -> inside (sr (snd (run_wops l s))) (sr s).
Proof.
  induction 1 as [|o l Ho Hl IH]; intros s Hs; [unfold inside; cbn; lia|].
  cbn [run_wops]. pose proof (run_wop_inside o s Ho Hs) as H1.
  destruct (run_wop_spec o s (sbits s, srefs s) Ho ltac:(split; auto)) as (s1 & E1 & C1 & (Hs1 & _)).
  rewrite E1 in *. cbn [snd] in H1. specialize (IH s1 Hs1).
  destruct (run_wops l s1) as [rs s2]. cbn [snd] in *. unfold inside in *. lia.
Qed.

(** ** Reads never leave the data of the cell, whatever the offset *)
Lemma rdn_some d q n : q + n <= length d -> exists l, rdn d q n = Some l.
Proof. intros H. unfold rdn. rewrite (proj2 (Nat.leb_le _ _) H). eauto. Qed.

Lemma get_bit_safe s off : get_bit s off <> Err UB.
Proof.
  unfold get_bit. destruct (_ <? _)%N; [|discriminate]. destruct (rd _ _); discriminate.
Qed.
Lemma get_uW_safe n s off : get_uW n s off <> Err UB.
Proof.
  unfold get_uW. destruct (_ <=? be _)%N; [|discriminate].
  destruct (_ && _) eqn:E1.
  - apply andb_true_iff in E1 as [_ E1]. apply Nat.leb_le in E1.
    destruct (rdn_some _ _ _ E1) as [l ->]. discriminate.
  - destruct (negb _ && _) eqn:E2; [|discriminate].
    apply andb_true_iff in E2 as [_ E2]. apply Nat.leb_le in E2.
    destruct (rdn_some _ _ _ E2) as [l ->]. discriminate.
Qed.
Lemma get_u128_safe s off : get_u128 s off <> Err UB.
Proof.
  unfold get_u128. destruct (_ <=? be _)%N; [|discriminate].
  destruct (_ && _) eqn:E1.
  - apply andb_true_iff in E1 as [_ E1]. apply Nat.leb_le in E1.
    destruct (rdn_some _ _ _ E1) as [l ->]. discriminate.
  - destruct (negb _ && _) eqn:E2; [|discriminate].
    apply andb_true_iff in E2 as [_ E2]. apply Nat.leb_le in E2.
    destruct (rdn_some _ _ _ E2) as [l ->]. discriminate.
Qed.
Lemma get_u256_safe s off : get_u256 s off <> Err UB.
Proof.
  unfold get_u256. destruct (_ <=? be _)%N; [|discriminate].
  destruct (_ && _) eqn:E1.
  - apply andb_true_iff in E1 as [_ E1]. apply Nat.leb_le in E1.
    destruct (rdn_some _ _ _ E1) as [l ->]. discriminate.
  - destruct (negb _ && _) eqn:E2; [|discriminate].
    apply andb_true_iff in E2 as [_ E2]. apply Nat.leb_le in E2.
    destruct (rdn_some _ _ _ E2) as [l ->]. discriminate.
Qed.
Lemma get_small_uint_safe s off bits : get_small_uint s off bits <> Err UB.
Proof.
  unfold get_small_uint. destruct (bits =? 0)%N; [discriminate|].
  destruct (_ && _); [|discriminate]. destruct (rd _ _); [|discriminate].
  destruct (_ =? _)%N; [discriminate|]. destruct (_ <=? _)%N; [discriminate|].
  destruct (rd _ _); discriminate.
Qed.

(** ** Contents equality *)
Lemma forallb_zip_eq (req : R -> R -> bool) (a b : list R) :
  length a = length b ->
  forallb (fun p => req (fst p) (snd p)) (zip a b) = true <-> Forall2 (fun x y => req x y = true) a b.
Proof.
  revert b. induction a as [|x a IH]; intros [|y b] H; cbn in H; try lia; cbn.
  - split; [constructor|reflexivity].
  - rewrite andb_true_iff, IH by lia. split.
    + intros [H1 H2]. constructor; assumption.
    + inversion 1; subst. auto.
Qed.

Lemma contents_eq_spec req same s1 s2 :
  s_ok s1 -> s_ok s2 -> (same = true -> sc s1 = sc s2) ->
  exists b, contents_eq req same s1 s2 = Ok b /\
    (b = true <-> sbits s1 = sbits s2 /\ Forall2 (fun x y => req x y = true) (srefs s1) (srefs s2)).
Proof.
  intros Hs1 Hs2 Hp. unfold contents_eq. rewrite lex_cmp_spec by assumption. cbn [rbind].
  pose proof (sbits_length s1 Hs1) as L1. pose proof (sbits_length s2 Hs2) as L2.
  pose proof (srefs_length s1 Hs1) as M1. pose proof (srefs_length s2 Hs2) as M2.
  unfold size_bits_r, size_refs_r.
  destruct (N.eqb_spec (be (sr s1) - bs (sr s1)) (be (sr s2) - bs (sr s2))) as [E1|E1]; cbn [negb orb].
  2:{ eexists. split; [reflexivity|]. split; [discriminate|]. intros [E _]. rewrite E in L1. lia. }
  destruct (N.eqb_spec (re (sr s1) - rs (sr s1)) (re (sr s2) - rs (sr s2))) as [E2|E2]; cbn [negb].
  2:{ eexists. split; [reflexivity|]. split; [discriminate|]. intros [_ E].
      apply Forall2_length in E. lia. }
  fold (srefs s1) (srefs s2).
  destruct (lexc (sbits s1) (sbits s2)) eqn:E.
  - eexists. split; [reflexivity|]. rewrite forallb_zip_eq by lia. apply lexc_eq in E. tauto.
  - eexists. split; [reflexivity|]. split; [discriminate|]. intros [X _]. rewrite X, lexc_refl in E. discriminate.
  - eexists. split; [reflexivity|]. split; [discriminate|]. intros [X _]. rewrite X, lexc_refl in E. discriminate.
Qed.

End P.
