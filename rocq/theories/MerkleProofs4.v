(** * Merkle proofs: levels, loading, what a proof commits to, proofs for one cell. *)
From Verif Require Import Err BuilderModel CellBuilderModel SliceModel SliceSpec BuilderSpec CellModel HashSpec HashModel FcellSpec MerkleModel MerkleSpec
  BitsProofs BufProofs BuilderProofs CellBuilderProofs HashProofs HashProofs2 HashProofs3 MerkleProofs MerkleProofs2 MerkleProofs3.
Local Open Scope nat_scope.

Section Sha.
Context (sha : list N -> list N) (Hsha : sha_like sha).
Let Hlen : forall x, length (sha x) = 32 /\ Forall byte_ok (sha x) := proj1 Hsha.

(** ** Levels *)
Lemma lt_pow_bits m b : (m < 2 ^ N.of_nat b)%N <-> forall n, b <= n -> N.testbit m (N.of_nat n) = false.
Proof.
  split.
  - intros H n Hn. destruct (N.eq_dec m 0) as [->|Z]; [apply N.bits_0|]. apply N.bits_above_log2. apply N.log2_lt_pow2; [lia|].
    eapply N.lt_le_trans; [exact H|]. apply N.pow_le_mono_r; lia.
  - intros H. destruct (N.eq_dec m 0) as [->|Z]; [apply N.neq_0_lt_0, N.pow_nonzero; discriminate|].
    apply N.log2_lt_pow2; [lia|]. apply N.nle_gt. intros L. specialize (H (N.to_nat (N.log2 m)) ltac:(lia)).
    rewrite N2Nat.id, N.bit_log2 in H by exact Z. discriminate.
Qed.
Lemma child_mask c x b : valid_tree c -> In x (c_refs c) -> (i_mask (info_of sha c) < 2 ^ N.of_nat b)%N ->
  (i_mask (info_of sha x) < 2 ^ N.of_nat (b + c_merkle c))%N.
Proof.
  intros V I M. inversion V as [e bits refs V1 V2 V3 V4]; subst. cbn [c_refs] in I. cbn [info_of] in M. unfold cell_info in M.
  unfold c_merkle. cbn [c_exotic c_bits].
  rewrite lt_pow_bits in *. intros n Hn.
  assert (OR : N.testbit (or_all (map i_mask (map (info_of sha) refs))) (N.of_nat n) = false -> N.testbit (i_mask (info_of sha x)) (N.of_nat n) = false).
  { rewrite or_all_bits. intros E. destruct (N.testbit (i_mask (info_of sha x)) (N.of_nat n)) eqn:B; [|reflexivity]. exfalso.
    apply not_true_iff_false in E. apply E. apply existsb_exists. exists (i_mask (info_of sha x)). split; [|exact B].
    apply in_map, in_map. exact I. }
  apply OR. destruct (kind_of e bits) eqn:K; cbn [k_merkle i_mask cell_mask layout] in *.
  - apply M. lia.
  - destruct V3 as (_ & _ & R & _). destruct refs; [destruct I|discriminate].
  - destruct V3 as (_ & R & _). destruct refs; [destruct I|discriminate].
  - specialize (M (n - 1) ltac:(lia)). rewrite N.shiftr_spec in M by lia. replace (N.of_nat (n - 1) + 1)%N with (N.of_nat n) in M by lia. exact M.
  - specialize (M (n - 1) ltac:(lia)). rewrite N.shiftr_spec in M by lia. replace (N.of_nat (n - 1) + 1)%N with (N.of_nat n) in M by lia. exact M.
Qed.
Lemma occurs_mask d x c : occurs d x c -> forall b, valid_tree c -> (i_mask (info_of sha c) < 2 ^ N.of_nat b)%N -> (i_mask (info_of sha x) < 2 ^ N.of_nat (b + d))%N.
Proof.
  induction 1 as [x c I|d x y c I O IH]; intros b V M; [eapply child_mask; eassumption|].
  rewrite Nat.add_assoc. apply IH; [eapply valid_child; eassumption|]. eapply child_mask; eassumption.
Qed.
Lemma occurs_merkle_free d x c : occurs d x c -> merkle_free c -> d = 0 /\ merkle_free x.
Proof.
  induction 1 as [x c I|d x y c I O IH]; intros MF; inversion MF as [? Z F]; subst; rewrite List.Forall_forall in F.
  - split; [exact Z|apply F; exact I].
  - destruct (IH (F _ I)) as (-> & X). split; [lia|exact X].
Qed.
Lemma merkle_free_one_depth c : merkle_free c -> one_depth c.
Proof. intros MF d d' x O O' _. rewrite (proj1 (occurs_merkle_free _ _ _ O MF)), (proj1 (occurs_merkle_free _ _ _ O' MF)). reflexivity. Qed.
Lemma level0 c : valid_tree c -> i_mask (info_of sha c) = 0%N -> forall l, i_hash (info_of sha c) l = i_hash (info_of sha c) 0 /\ i_depth (info_of sha c) l = i_depth (info_of sha c) 0.
Proof. intros V M l. apply regular_skip; [apply info_regular; [exact Hlen|exact V]|lia|]. intros j _. rewrite M. apply N.bits_0. Qed.
Lemma complete_mask c : complete c -> i_mask (info_of sha c) = 0%N.
Proof.
  induction c as [e bits refs IH] using cell_tree_ind. intros C. inversion C as [? ? ? NP CF]; subst.
  cbn [info_of]. unfold cell_info.
  assert (Z : or_all (map i_mask (map (info_of sha) refs)) = 0%N).
  { clear - IH CF. induction refs as [|x refs IHr]; [reflexivity|]. inversion IH; inversion CF; subst. cbn [map or_all fold_right] in *. unfold or_all in IHr. rewrite IHr by assumption.
    match goal with H : complete x -> _ |- _ => rewrite H by assumption end. reflexivity. }
  destruct (kind_of e bits) as [|m| | |]; cbn [i_mask cell_mask]; try rewrite Z; try reflexivity. destruct (NP m eq_refl).
Qed.

Lemma cons_eq_inj {A} (x y : A) l k : x :: l = y :: k -> x = y /\ l = k.
Proof. intros E. injection E. auto. Qed.
(** ** What a hash commits to *)
Lemma shows_of_hash t : forall q, valid_tree t -> valid_tree q -> merkle_free t -> complete t ->
  (forall x y, In x (hashed sha q) -> In y (hashed sha t) -> sha x = sha y -> x = y) ->
  depths_fit sha q -> depths_fit sha t ->
  i_hash (info_of sha q) 0 = i_hash (info_of sha t) 0 -> i_depth (info_of sha q) 0 = i_depth (info_of sha t) 0 -> shows sha q t.
Proof.
  induction t as [e bits ts IH] using cell_tree_ind. intros [e' bits' qs] Vt Vq MF CP NC Dq Dt EH ED.
  pose proof (level0 _ Vt (complete_mask _ CP)) as L0.
  assert (D : (exists m, kind_of e' bits' = KPruned m) \/ forall m, kind_of e' bits' <> KPruned m).
  { destruct (kind_of e' bits') as [|m| | |]; [right; discriminate|left; eauto|right; discriminate..]. }
  destruct D as [(m & K')|NP'].
  { apply (shows_cut sha m); [exact K'|unfold t_hash; rewrite (proj1 (L0 3)); exact EH|unfold t_depth; rewrite (proj2 (L0 3)); exact ED]. }
  pose proof (rg_mask _ (info_regular sha Hlen _ Vq)) as M8'. pose proof (rg_mask _ (info_regular sha Hlen _ Vt)) as M8.
  inversion CP as [? ? ? NP CF]; subst. inversion MF as [? MK MFr]; subst. cbn [c_refs] in MFr. unfold c_merkle in MK. cbn [c_exotic c_bits] in MK.
  inversion Vt as [? ? ? A1 A2 A3 A4]; inversion Vq as [? ? ? B1 B2 B3 B4]; subst.
  assert (HT : i_hash (info_of sha (Cell e bits ts)) 0 = sha (level_repr e bits (kind_of e bits) (map (info_of sha) ts) 0 []))
      by (cbn [info_of]; unfold cell_info; destruct (kind_of e bits) as [|m| | |]; try reflexivity; destruct (NP m eq_refl)).
  assert (HQ : i_hash (info_of sha (Cell e' bits' qs)) 0 = sha (level_repr e' bits' (kind_of e' bits') (map (info_of sha) qs) 0 []))
      by (cbn [info_of]; unfold cell_info; destruct (kind_of e' bits') as [|m| | |]; try reflexivity; destruct (NP' m eq_refl)).
  rewrite HT, HQ in EH. apply NC in EH.
  2:{ apply (in_hashed_own sha e' bits' qs 0); [exact NP'| |left; reflexivity];
    cbn [info_of] in M8'; unfold cell_info in M8'; destruct (kind_of e' bits') as [|m| | |]; try exact M8'; destruct (NP' m eq_refl). }
  2:{ apply (in_hashed_own sha e bits ts 0); [exact NP| |left; reflexivity];
    cbn [info_of] in M8; unfold cell_info in M8; destruct (kind_of e bits) as [|m| | |]; try exact M8; destruct (NP m eq_refl). }
  unfold level_repr in EH. apply (repr_inj sha Hlen) in EH; [|apply mask_upto_lt|apply mask_upto_lt|unfold sub_depths; rewrite !map_length; assumption|unfold sub_depths; rewrite !map_length; assumption].
  destruct EH as (_ & -> & EL & EB & EQ). cbn [Nat.eqb] in EQ.
  apply app_inj_1 in EQ; [|rewrite !length_data; apply half_len; exact EB]. destruct EQ as (EQ1 & EQ2). apply data_bytes_inj2 in EQ1; [|exact EB]. subst bits'.
  rewrite !MK in EQ2, EL. cbn [plus] in EQ2, EL.
  apply app_inj_1 in EQ2; [|rewrite !(length_depths sha Hlen); lia]. destruct EQ2 as (EQD & EQH).
  unfold sub_depths in EL. rewrite !map_length in EL.
  assert (FQ : Forall (fun x => valid_tree x /\ depths_fit sha x) qs)
       by (rewrite List.Forall_forall in B4 |- *; intros x I; split; [apply B4; exact I|]; apply (depths_fit_child sha (Cell e bits qs) x Dq I)).
  assert (FT : Forall (fun x => valid_tree x /\ depths_fit sha x) ts)
       by (rewrite List.Forall_forall in A4 |- *; intros x I; split; [apply A4; exact I|]; apply (depths_fit_child sha (Cell e bits ts) x Dt I)).
  apply (concat_inj 2) in EQD; [|rewrite List.Forall_map; apply List.Forall_forall; intros; apply to_be_length|rewrite List.Forall_map; apply List.Forall_forall; intros; apply to_be_length|unfold sub_depths; rewrite !map_length; exact EL].
  apply (concat_inj 32) in EQH; [|unfold sub_hashes; rewrite !List.Forall_map; eapply List.Forall_impl; [|exact FQ]; intros x (V & _); apply (rg_len _ (info_regular sha Hlen x V))
                                      |unfold sub_hashes; rewrite !List.Forall_map; eapply List.Forall_impl; [|exact FT]; intros x (V & _); apply (rg_len _ (info_regular sha Hlen x V))
                                      |unfold sub_hashes; rewrite !map_length; exact EL].
  apply shows_cell.
  assert (NC' : forall x y a b, In a qs -> In b ts -> In x (hashed sha a) -> In y (hashed sha b) -> sha x = sha y -> x = y).
  { intros x y a b Ia Ib Ix Iy. apply NC; [exact (hashed_child sha (Cell e bits qs) a Ia x Ix)|exact (hashed_child sha (Cell e bits ts) b Ib y Iy)]. }
  clear - Hsha IH FQ FT EQD EQH EL NC' CF MFr.
  revert qs FQ EQD EQH EL NC'. induction ts as [|t ts IHt]; intros [|q qs] FQ EQD EQH EL NC'; try discriminate EL; [constructor|].
  inversion IH as [|? ? IHx IHl]; inversion FQ as [|? ? (Vq & Dq) FQ']; inversion FT as [|? ? (Vt & Dt) FT']; inversion CF; inversion MFr; subst;
    unfold sub_depths, sub_hashes in EQD, EQH; cbn [map] in EQD, EQH; apply cons_eq_inj in EQD; destruct EQD as (EQD1 & EQD2); apply cons_eq_inj in EQH; destruct EQH as (EQH1 & EQH2).
  constructor.
  - apply IHx; try assumption.
    + intros x y Ix Iy. apply (NC' x y q t); try assumption; left; reflexivity.
    + apply (f_equal from_be) in EQD1. rewrite !from_be_to_be in EQD1; [exact EQD1| |]; change (2 ^ N.of_nat (8 * 2))%N with 65536%N.
      * pose proof (proj1 Dt 0). lia.
      * pose proof (proj1 Dq 0). lia.
  - apply IHt; try assumption; [injection EL; auto|]. intros x y a b Ia Ib. apply (NC' x y a b); right; assumption.
Qed.
End Sha.
