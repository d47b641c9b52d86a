(** * Trees with the same hash (C12), depths and heights (C13). *)
From Verif Require Import Err BitsProofs BuilderModel BuilderSpec CellModel HashSpec HashModel FcellSpec HashProofs HashProofs2.
Local Open Scope nat_scope.

Section Sha.
Context (sha : list N -> list N) (Hlen : forall x, length (sha x) = 32 /\ Forall byte_ok (sha x)).

(** The string hashed for the highest level of the mask that is at most [l]. *)
Lemma level_hash_str e bits k ch m l :
  exists l0, l0 <= l /\
    level_hash sha e bits k ch m l = sha (level_repr e bits k ch l0 (level_hash sha e bits k ch m (l0 - 1))) /\
    (l0 = 0 \/ N.testbit m (N.of_nat (l0 - 1)) = true) /\
    (forall j, l0 <= j -> j < l -> N.testbit m (N.of_nat j) = false).
Proof.
  induction l as [|l IH].
  - exists 0. repeat split; auto; lia.
  - cbn [level_hash]. destruct (N.testbit m (N.of_nat l)) eqn:B.
    + exists (S l). replace (S l - 1) with l by lia. repeat split; auto; lia.
    + destruct IH as (l0 & L & E & S0 & A). exists l0. split; [lia|]. split; [exact E|]. split; [exact S0|].
      intros j J1 J2. destruct (Nat.eq_dec j l) as [->|]; [exact B|]. apply A; lia.
Qed.
Lemma level_repr_0 e bits k ch prev prev' : level_repr e bits k ch 0 prev = level_repr e bits k ch 0 prev'.
Proof. reflexivity. Qed.

Lemma in_hashed_own e bits refs l0 :
  let k := kind_of e bits in let ch := map (info_of sha) refs in let m := cell_mask k ch in
  (forall m, k <> KPruned m) -> (m < 8)%N ->
  (l0 = 0 \/ N.testbit m (N.of_nat (l0 - 1)) = true) ->
  In (level_repr e bits k ch l0 (level_hash sha e bits k ch m (l0 - 1))) (hashed sha (Cell e bits refs)).
Proof.
  cbn zeta. intros NP M8 S0. cbn [hashed]. apply in_or_app. left.
  remember (kind_of e bits) as k eqn:K.
  remember (map (info_of sha) refs) as ch eqn:Ch.
  assert (G : In (level_repr e bits k ch l0 (level_hash sha e bits k ch (cell_mask k ch) (l0 - 1)))
    (level_repr e bits k ch 0 [] ::
          concat (map (fun l => if N.testbit (cell_mask k ch) (N.of_nat l) then [level_repr e bits k ch (S l) (level_hash sha e bits k ch (cell_mask k ch) l)] else []) [0; 1; 2]))).
  { destruct (Nat.eq_dec l0 0) as [->|Z]; [left; reflexivity|]. right.
    destruct S0 as [S0|S0]; [lia|]. apply in_concat.
    exists [level_repr e bits k ch l0 (level_hash sha e bits k ch (cell_mask k ch) (l0 - 1))]. split; [|left; reflexivity].
    apply in_map_iff. exists (l0 - 1). rewrite S0. replace (S (l0 - 1)) with l0 by lia. split; [reflexivity|].
    destruct (le_lt_dec 3 (l0 - 1)) as [H|H]; [rewrite mask_high in S0 by assumption; discriminate|].
    destruct (l0 - 1) as [|[|[|]]]; cbn; try tauto; lia. }
  destruct k as [|m| | |]; try exact G. destruct (NP m eq_refl).
Qed.
Lemma in_hashed_child e bits refs c x : In c refs -> In x (hashed sha c) -> In x (hashed sha (Cell e bits refs)).
Proof.
  intros I X. cbn [hashed]. apply in_or_app. right. apply in_concat. exists (hashed sha c). split; [|exact X]. apply in_map. exact I.
Qed.
Lemma in_hashed_pruned e bits refs m : kind_of e bits = KPruned m -> In (pruned_repr bits m) (hashed sha (Cell e bits refs)).
Proof. intros K. cbn [hashed]. rewrite K. left. reflexivity. Qed.

(** Parts of a hashed string. *)
Lemma repr_inj m e bits body ds hs m' e' bits' body' ds' hs' :
  (m < 8)%N -> (m' < 8)%N -> length ds <= 4 -> length ds' <= 4 ->
  repr m e bits body ds hs = repr m' e' bits' body' ds' hs' ->
  m = m' /\ e = e' /\ length ds = length ds' /\
  length bits / 8 + (length bits + 7) / 8 = length bits' / 8 + (length bits' + 7) / 8 /\
  body ++ concat (map (to_be 2) ds) ++ concat hs = body' ++ concat (map (to_be 2) ds') ++ concat hs'.
Proof.
  intros M M' L L' E. unfold repr in E. cbn [app] in E. injection E as E1 E2 E3.
  assert (m = m' /\ e = e' /\ length ds = length ds') as (A & B & C).
  { destruct e, e'; cbn [N.b2n] in E1; repeat split; lia. }
  apply Nat2N.inj in E2. auto.
Qed.
Lemma concat_inj {A} (n : nat) (xs ys : list (list A)) :
  Forall (fun x => length x = n) xs -> Forall (fun x => length x = n) ys -> length xs = length ys -> concat xs = concat ys -> xs = ys.
Proof.
  intros Hx. revert ys. induction Hx as [|x xs Hx Hxs IH]; intros [|y ys] Hy L E; try discriminate; [reflexivity|].
  inversion Hy; subst. cbn [concat] in E. apply app_inj_1 in E; [|congruence]. destruct E as (-> & E). f_equal. apply IH; [assumption| |assumption]. cbn [length] in L. lia.
Qed.
Lemma length_depths (ds : list N) : length (concat (map (to_be 2) ds)) = 2 * length ds.
Proof. induction ds as [|d ds IH]; [reflexivity|]. cbn [map concat]. rewrite app_length, IH, to_be_length. cbn [length]. lia. Qed.
Lemma half_len x y : x / 8 + (x + 7) / 8 = y / 8 + (y + 7) / 8 -> (x + 7) / 8 = (y + 7) / 8.
Proof.
  intros L.
  assert (Q : forall x, (x + 7) / 8 = x / 8 + (if x mod 8 =? 0 then 0 else 1)).
  { clear. intros x. pose proof (Nat.div_mod x 8 ltac:(lia)). pose proof (Nat.mod_upper_bound x 8 ltac:(lia)).
    destruct (Nat.eqb_spec (x mod 8) 0).
    - replace (x + 7) with ((x / 8) * 8 + 7) by lia. rewrite Nat.div_add_l by lia. reflexivity.
    - replace (x + 7) with ((x / 8 + 1) * 8 + (x mod 8 - 1)) by lia. rewrite Nat.div_add_l by lia.
      rewrite (Nat.div_small (_ - 1)) by lia. lia. }
  rewrite !Q in *. destruct (x mod 8 =? 0), (y mod 8 =? 0); lia.
Qed.
Lemma mask_upto_inj a b : a <= 3 -> b <= 3 -> mask_upto a = mask_upto b -> a = b.
Proof. intros Ha Hb. destruct a as [|[|[|[|]]]], b as [|[|[|[|]]]]; try lia; intros E; try reflexivity; discriminate E. Qed.
Lemma regular_above i x : regular i -> (forall j, x <= j -> N.testbit (i_mask i) (N.of_nat j) = false) -> i_hash i x = i_hash i 3.
Proof.
  intros R A. destruct (le_lt_dec 3 x) as [H|H]; [apply (regular_const i x R H)|].
  assert (G : forall n, i_hash i (x + n) = i_hash i x).
  { induction n as [|n IH]; [rewrite Nat.add_0_r; reflexivity|]. rewrite Nat.add_succ_r, (rg_hash i R) by (apply A; lia). exact IH. }
  rewrite <- (G (3 - x)). f_equal. lia.
Qed.

Section Two.
Context (a b : cell) (NC : forall x y, In x (hashed sha a) -> In y (hashed sha b) -> sha x = sha y -> x = y).

(** The chain of hashes of the levels determines the data. *)
Lemma chain e bits refs e' bits' refs' l l' :
  a = Cell e bits refs -> b = Cell e' bits' refs' -> valid_tree a -> valid_tree b ->
  (forall m, kind_of e bits <> KPruned m) -> (forall m, kind_of e' bits' <> KPruned m) ->
  l <= 3 -> l' <= 3 ->
  let k := kind_of e bits in let ch := map (info_of sha) refs in
  let k' := kind_of e' bits' in let ch' := map (info_of sha) refs' in
  level_hash sha e bits k ch (cell_mask k ch) l = level_hash sha e' bits' k' ch' (cell_mask k' ch') l' ->
  bits = bits'.
Proof.
  intros -> -> Va Vb NP NP' Hl Hl'. cbn zeta.
  assert (M8 : (cell_mask (kind_of e bits) (map (info_of sha) refs) < 8)%N) by (pose proof (rg_mask _ (info_regular sha Hlen _ Va)) as M; cbn [info_of] in M; unfold cell_info in M; destruct (kind_of e bits); exact M).
  assert (M8' : (cell_mask (kind_of e' bits') (map (info_of sha) refs') < 8)%N) by (pose proof (rg_mask _ (info_regular sha Hlen _ Vb)) as M; cbn [info_of] in M; unfold cell_info in M; destruct (kind_of e' bits'); exact M).
  inversion Va as [? ? ? A1 A2 A3 A4]; subst. inversion Vb as [? ? ? B1 B2 B3 B4]; subst.
  revert l' Hl Hl'. induction l as [l IH] using lt_wf_ind. intros l' Hl Hl' E.
  destruct (level_hash_str e bits (kind_of e bits) (map (info_of sha) refs) (cell_mask (kind_of e bits) (map (info_of sha) refs)) l) as (l0 & L0 & E0 & S0 & _).
  destruct (level_hash_str e' bits' (kind_of e' bits') (map (info_of sha) refs') (cell_mask (kind_of e' bits') (map (info_of sha) refs')) l') as (l0' & L0' & E0' & S0' & _).
  rewrite E0, E0' in E.
  apply NC in E; [|apply in_hashed_own; assumption|apply in_hashed_own; assumption].
  unfold level_repr in E. apply repr_inj in E; [|apply mask_upto_lt|apply mask_upto_lt|unfold sub_depths; rewrite !map_length; assumption|unfold sub_depths; rewrite !map_length; assumption].
  destruct E as (EM & -> & _ & ED & EB).
  apply mask_upto_inj in EM; [|lia|lia]. subst l0'.
  destruct (Nat.eqb_spec l0 0) as [->|Z].
  - apply app_inj_1 in EB; [|rewrite !length_data; apply half_len; exact ED].
    apply data_bytes_inj2; [exact ED|apply EB].
  - apply app_inj_1 in EB.
    2:{ destruct (level_hash_sha sha e' bits (kind_of e' bits) (map (info_of sha) refs) (cell_mask (kind_of e' bits) (map (info_of sha) refs)) (l0 - 1)) as (? & ->).
        destruct (level_hash_sha sha e' bits' (kind_of e' bits') (map (info_of sha) refs') (cell_mask (kind_of e' bits') (map (info_of sha) refs')) (l0 - 1)) as (? & ->).
        rewrite (proj1 (Hlen _)), (proj1 (Hlen _)). reflexivity. }
    apply (IH (l0 - 1) ltac:(lia) (l0 - 1)); [lia|lia|]. apply EB.
Qed.
End Two.

Lemma hash_inj_nc a : forall b, valid_tree a -> valid_tree b ->
  (forall x y, In x (hashed sha a) -> In y (hashed sha b) -> sha x = sha y -> x = y) ->
  t_hash sha a = t_hash sha b -> a = b.
Proof.
  induction a as [e bits refs IH] using cell_tree_ind. intros [e' bits' refs'] Va Vb NC E.
  pose proof (info_regular sha Hlen _ Va) as RGa. pose proof (info_regular sha Hlen _ Vb) as RGb.
  assert (M8 : (cell_mask (kind_of e bits) (map (info_of sha) refs) < 8)%N) by (pose proof (rg_mask _ RGa) as M; cbn [info_of] in M; unfold cell_info in M; destruct (kind_of e bits); exact M).
  assert (M8' : (cell_mask (kind_of e' bits') (map (info_of sha) refs') < 8)%N) by (pose proof (rg_mask _ RGb) as M; cbn [info_of] in M; unfold cell_info in M; destruct (kind_of e' bits'); exact M).
  pose proof Va as Va0. pose proof Vb as Vb0.
  inversion Va as [? ? ? A1 A2 A3 A4]; subst. inversion Vb as [? ? ? B1 B2 B3 B4]; subst.
  assert (HP : forall e bits refs m, kind_of e bits = KPruned m -> valid_tree (Cell e bits refs) -> t_hash sha (Cell e bits refs) = sha (pruned_repr bits m)).
  { clear - Hlen. intros e bits refs m K V. inversion V as [? ? ? H1 H2 H3 H4]; subst. rewrite K in H3. unfold t_hash. cbn [info_of]. unfold cell_info. rewrite K. cbn [i_hash]. rewrite Nat.ltb_irrefl. reflexivity. }
  assert (HN : forall e bits refs, (forall m, kind_of e bits <> KPruned m) ->
    t_hash sha (Cell e bits refs) = level_hash sha e bits (kind_of e bits) (map (info_of sha) refs) (cell_mask (kind_of e bits) (map (info_of sha) refs)) 3).
  { clear - Hlen. intros e bits refs NP. unfold t_hash. cbn [info_of]. unfold cell_info. destruct (kind_of e bits) as [|m| | |]; try reflexivity. destruct (NP m eq_refl). }
  (* an ordinary, library or merkle cell against a pruned branch *)
  assert (MIX : forall e bits refs e' bits' refs' m, valid_tree (Cell e bits refs) -> (forall m, kind_of e bits <> KPruned m) ->
     kind_of e' bits' = KPruned m -> valid_tree (Cell e' bits' refs') ->
     forall l0 prev, (l0 = 0 \/ N.testbit (cell_mask (kind_of e bits) (map (info_of sha) refs)) (N.of_nat (l0 - 1)) = true) ->
     level_repr e bits (kind_of e bits) (map (info_of sha) refs) l0 prev = pruned_repr bits' m -> False).
  { clear - Hlen. intros e bits refs e' bits' refs' m Va NP K' Vb l0 prev S0 E.
    inversion Va as [? ? ? A1 A2 A3 A4]; subst. inversion Vb as [? ? ? B1 B2 B3 B4]; subst. rewrite K' in B3. destruct B3 as (B3a & B3b & B3c & _).
    unfold level_repr, pruned_repr in E. apply repr_inj in E; [|apply mask_upto_lt|lia|unfold sub_depths; rewrite !map_length; assumption|cbn; lia].
    destruct E as (EM & -> & EL & _). unfold sub_depths in EL. rewrite !map_length in EL. cbn [length] in EL.
    destruct (kind_of true bits) as [|m0| | |] eqn:K; cbn [layout] in A3; destruct_and?; try discriminate; try lia.
    - destruct (NP m0 eq_refl).
    - cbn [cell_mask] in S0. rewrite N.bits_0 in S0. destruct S0 as [->|S0]; [|discriminate]. change (mask_upto 0) with 0%N in EM. lia. }
  assert (DEC : forall e bits, (exists m', kind_of e bits = KPruned m') \/ forall m', kind_of e bits <> KPruned m').
  { clear. intros e bits. destruct (kind_of e bits); eauto; right; discriminate. }
  destruct (DEC e bits) as [(m & K)|NP], (DEC e' bits') as [(m' & K')|NP']; clear DEC.
  - pose proof A3 as P. rewrite K in P. destruct P as (P1 & P2 & P3 & P4 & P5 & P6).
    pose proof B3 as Q. rewrite K' in Q. destruct Q as (Q1 & Q2 & Q3 & Q4 & Q5 & Q6).
    rewrite (HP _ _ _ _ K Va0), (HP _ _ _ _ K' Vb0) in E.
    apply NC in E; [|apply in_hashed_pruned; assumption|apply in_hashed_pruned; assumption].
    unfold pruned_repr in E. apply repr_inj in E; [|lia|lia|cbn; lia|cbn; lia].
    destruct E as (_ & _ & _ & ED & EB). cbn [map concat app] in EB. rewrite !app_nil_r in EB.
    apply data_bytes_inj2 in EB; [|exact ED]. subst bits'.
    destruct refs; [|discriminate]. destruct refs'; [|discriminate]. congruence.
  - exfalso. rewrite (HP _ _ _ _ K Va0), (HN _ _ _ NP') in E.
    destruct (level_hash_str e' bits' (kind_of e' bits') (map (info_of sha) refs') (cell_mask (kind_of e' bits') (map (info_of sha) refs')) 3) as (l0 & L0 & E0 & S0 & _).
    rewrite E0 in E. apply NC in E; [|apply in_hashed_pruned; assumption|apply in_hashed_own; assumption].
    eapply (MIX e' bits' refs' e bits refs m); try eassumption. symmetry. exact E.
  - exfalso. rewrite (HP _ _ _ _ K' Vb0), (HN _ _ _ NP) in E.
    destruct (level_hash_str e bits (kind_of e bits) (map (info_of sha) refs) (cell_mask (kind_of e bits) (map (info_of sha) refs)) 3) as (l0 & L0 & E0 & S0 & _).
    rewrite E0 in E. apply NC in E; [|apply in_hashed_own; assumption|apply in_hashed_pruned; assumption].
    eapply (MIX e bits refs e' bits' refs' m'); eassumption.
  - rewrite (HN _ _ _ NP), (HN _ _ _ NP') in E.
    pose proof (chain _ _ NC e bits refs e' bits' refs' 3 3 eq_refl eq_refl Va0 Vb0 NP NP' (le_n 3) (le_n 3) E) as EB. subst bits'.
    destruct (level_hash_str e bits (kind_of e bits) (map (info_of sha) refs) (cell_mask (kind_of e bits) (map (info_of sha) refs)) 3) as (l0 & L0 & E0 & S0 & AB).
    destruct (level_hash_str e' bits (kind_of e' bits) (map (info_of sha) refs') (cell_mask (kind_of e' bits) (map (info_of sha) refs')) 3) as (l0' & L0' & E0' & S0' & AB').
    rewrite E0, E0' in E. apply NC in E; [|apply in_hashed_own; assumption|apply in_hashed_own; assumption].
    unfold level_repr in E. apply repr_inj in E; [|apply mask_upto_lt|apply mask_upto_lt|unfold sub_depths; rewrite !map_length; assumption|unfold sub_depths; rewrite !map_length; assumption].
    destruct E as (EM & -> & EL & _ & EB).
    apply mask_upto_inj in EM; [|lia|lia]. subst l0'.
    unfold sub_depths in EL. rewrite !map_length in EL.
    apply app_inj_1 in EB.
    2:{ destruct (l0 =? 0); [reflexivity|].
       destruct (level_hash_sha sha e' bits (kind_of e' bits) (map (info_of sha) refs) (cell_mask (kind_of e' bits) (map (info_of sha) refs)) (l0 - 1)) as (? & ->).
       destruct (level_hash_sha sha e' bits (kind_of e' bits) (map (info_of sha) refs') (cell_mask (kind_of e' bits) (map (info_of sha) refs')) (l0 - 1)) as (? & ->).
       rewrite (proj1 (Hlen _)), (proj1 (Hlen _)). reflexivity. }
    destruct EB as (_ & EB). apply app_inj_1 in EB.
    2:{ rewrite !length_depths; unfold sub_depths; rewrite !map_length; congruence. }
    destruct EB as (_ & EB).
    assert (RR : Forall regular (map (info_of sha) refs) /\ Forall regular (map (info_of sha) refs')).
    { split; rewrite List.Forall_map; [eapply List.Forall_impl; [|exact A4]|eapply List.Forall_impl; [|exact B4]]; intros x Hx; apply info_regular; assumption. }
    destruct RR as (RR & RR').
    assert (TOP : forall refs, Forall regular (map (info_of sha) refs) -> (cell_mask (kind_of e' bits) (map (info_of sha) refs) < 8)%N ->
       (forall j, l0 <= j -> j < 3 -> N.testbit (cell_mask (kind_of e' bits) (map (info_of sha) refs)) (N.of_nat j) = false) ->
       layout e' bits (length refs) (kind_of e' bits) ->
       sub_hashes (map (info_of sha) refs) (l0 + k_merkle (kind_of e' bits)) = map (t_hash sha) refs).
    { clear - Hlen NP. intros refs RR M8 AB L. unfold sub_hashes. rewrite map_map. apply map_ext_in. intros c I.
      unfold t_hash. apply regular_above.
      - apply (proj1 (List.Forall_forall _ _) RR). apply in_map. exact I.
      - intros j J.
        assert (J' : exists j', j = j' + k_merkle (kind_of e' bits) /\ l0 <= j') by (exists (j - k_merkle (kind_of e' bits)); lia).
        destruct J' as (j' & -> & J').
        pose proof (child_mask_ok e' bits (kind_of e' bits) (map (info_of sha) refs) j' ltac:(rewrite map_length; exact L) NP) as C.
        assert (B : N.testbit (cell_mask (kind_of e' bits) (map (info_of sha) refs)) (N.of_nat j') = false).
        { destruct (le_lt_dec 3 j'); [apply mask_high; assumption|apply AB; assumption]. }
        specialize (C B). apply (proj1 (List.Forall_forall _ _) C). apply in_map. exact I. }
    rewrite (TOP refs RR M8 AB A3), (TOP refs' RR' M8' AB' B3) in EB. clear TOP.
    apply (concat_inj 32) in EB.
    + f_equal. clear - IH A4 B4 NC EB.
      assert (NC' : forall c c', In c refs -> In c' refs' -> forall x y, In x (hashed sha c) -> In y (hashed sha c') -> sha x = sha y -> x = y).
      { intros c c' I I' x y X Y. apply NC; eapply in_hashed_child; eassumption. }
      clear NC. revert refs' B4 EB NC'. induction IH as [|c refs Hc IH IHr]; intros [|c' refs'] B4 EB NC'; try discriminate; [reflexivity|].
      cbn [map] in EB. injection EB as E1 E2. inversion A4; inversion B4; subst.
      f_equal; [apply Hc; try assumption; apply NC'; left; reflexivity|].
      apply IHr; try assumption. intros x x' I I'. apply NC'; right; assumption.
    + rewrite List.Forall_map. eapply List.Forall_impl; [|exact A4]. intros c V. apply (rg_len _ (info_regular sha Hlen c V)).
    + rewrite List.Forall_map. eapply List.Forall_impl; [|exact B4]. intros c V. apply (rg_len _ (info_regular sha Hlen c V)).
    + rewrite !map_length. exact EL.
Qed.

Lemma hash_inj a b : valid_tree a -> valid_tree b -> t_hash sha a = t_hash sha b ->
  a = b \/ exists x y, In x (hashed sha a) /\ In y (hashed sha b) /\ x <> y /\ sha x = sha y.
Proof.
  intros Va Vb E.
  destruct (decide (Exists (fun x => Exists (fun y => x <> y /\ sha x = sha y) (hashed sha b)) (hashed sha a))) as [X|X].
  - right. apply List.Exists_exists in X. destruct X as (x & I & X). apply List.Exists_exists in X. destruct X as (y & I' & N & H). eauto 8.
  - left. apply hash_inj_nc; try assumption. intros x y I I' H.
    destruct (decide (x = y)) as [D|D]; [exact D|]. exfalso. apply X.
    apply List.Exists_exists. exists x. split; [exact I|]. apply List.Exists_exists. eauto.
Qed.

(** ** Depths *)
Lemma complete_depth t l : complete t -> valid_tree t -> i_depth (info_of sha t) l = height t.
Proof.
  revert l. induction t as [e bits refs IH] using cell_tree_ind. intros l C V.
  inversion C as [? ? ? NP C']; inversion V as [? ? ? V1 V2 V3 V4]; subst.
  cbn [info_of height]. unfold cell_info.
  assert (G : forall k : kind, max_all (map (fun d => d + 1)%N (sub_depths (map (info_of sha) refs) (l + k_merkle k))) = max_all (map (fun x => height x + 1)%N refs)).
  { intros k. unfold sub_depths. rewrite !map_map. f_equal. clear - IH C' V4.
    induction IH as [|c refs Hc IH IHr]; [reflexivity|]. inversion C'; inversion V4; subst. cbn [map]. rewrite Hc, IHr by assumption. reflexivity. }
  destruct (kind_of e bits) as [|m| | |]; cbn [i_depth]; try apply G. destruct (NP m eq_refl).
Qed.
End Sha.
