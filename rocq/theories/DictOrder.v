(** * Key order on trees: sorted entries, bounds, neighbours. *)
From Coq Require Import Sorting.Sorted.
From Verif Require Import Err BitsProofs CellModel LabelModel LabelProofs DictModel DictSpec DictTree DictProofs.
Local Open Scope nat_scope.

(** The order by the first different bit; the first bit counts the other way when signed. *)
Fixpoint klt (s : bool) (a b : list bool) : Prop :=
  match a, b with
  | x :: a', y :: b' => if Bool.eqb x y then klt false a' b' else y = negb s
  | _, _ => False
  end.

Lemma key_num_false k : key_num false k = Z.of_N (bval k).
Proof.
  destruct k as [|b r]; [reflexivity|]. cbn [key_num]. rewrite bval_cons. destruct b; cbn [N.b2n]; [|lia].
  rewrite N2Z.inj_add, N2Z.inj_mul, N2Z.inj_pow, nat_N_Z. lia.
Qed.
Lemma key_num_cons s b r : key_num s (b :: r) = ((if b then (if s then -1 else 1) * 2 ^ Z.of_nat (length r) else 0) + key_num false r)%Z.
Proof. rewrite key_num_false. reflexivity. Qed.
Lemma key_num_bound k : (0 <= key_num false k < 2 ^ Z.of_nat (length k))%Z.
Proof.
  rewrite key_num_false. pose proof (bval_lt k) as H. apply N2Z.inj_lt in H. rewrite N2Z.inj_pow, nat_N_Z in H. lia.
Qed.

Lemma klt_num s a b : length a = length b -> klt s a b <-> (key_num s a < key_num s b)%Z.
Proof.
  revert s b. induction a as [|x a IH]; intros s [|y b] H; cbn [length] in H; try lia; [cbn; lia|].
  injection H as H. cbn [klt]. rewrite !key_num_cons, H.
  pose proof (key_num_bound a) as A. pose proof (key_num_bound b) as B. rewrite H in A.
  destruct (Bool.eqb x y) eqn:E.
  - apply eqb_prop in E. subst y. rewrite IH by assumption. lia.
  - destruct x, y, s; cbn in E; try discriminate; cbn [negb]; split; intros K; try discriminate; try lia; reflexivity.
Qed.

Lemma klt_app s p a b : klt s (p ++ a) (p ++ b) <-> klt (if p then s else false) a b.
Proof.
  revert s. induction p as [|x p IH]; intros s; [reflexivity|]. cbn [app klt]. rewrite Bool.eqb_reflx, IH. destruct p; reflexivity.
Qed.

Definition kdir (s rev : bool) (a b : list bool) : Prop := if rev then klt s b a else klt s a b.
Lemma kdir_before s rev a b : length a = length b -> kdir s rev a b <-> before s rev a b.
Proof. intros H. unfold kdir, before. destruct rev; apply klt_num; congruence. Qed.
Lemma kdir_app s rev p a b : kdir s rev (p ++ a) (p ++ b) <-> kdir (if p then s else false) rev a b.
Proof. unfold kdir. destruct rev; apply klt_app. Qed.

(** The branch visited first below the label [l]. *)
Definition first (s rev : bool) (l : list bool) : bool := xorb rev (s && (length l =? 0)).
Lemma first_false rev l : first false rev l = rev.
Proof. unfold first. cbn. apply xorb_false_r. Qed.
Lemma first_cons s rev x l : first s rev (x :: l) = rev.
Proof. unfold first. cbn [length Nat.eqb]. rewrite andb_false_r. apply xorb_false_r. Qed.

Lemma kdir_branch s rev l a b : kdir s rev (l ++ first s rev l :: a) (l ++ negb (first s rev l) :: b).
Proof.
  apply kdir_app. unfold first, kdir. destruct l as [|y l]; cbn [length Nat.eqb]; destruct s, rev; reflexivity.
Qed.
Lemma kdir_branch_eq s rev l z a b : kdir s rev (l ++ z :: a) (l ++ z :: b) <-> kdir false rev a b.
Proof.
  rewrite kdir_app. unfold kdir. destruct rev; cbn [klt]; rewrite Bool.eqb_reflx; reflexivity.
Qed.
Lemma kdir_asym s rev a b : length a = length b -> kdir s rev a b -> ~ kdir s rev b a.
Proof. intros H H1 H2. apply kdir_before in H1; [|exact H]. apply kdir_before in H2; [|congruence]. unfold before in *. destruct rev; lia. Qed.
Lemma kdir_trans s rev a b c : length a = length b -> length b = length c -> kdir s rev a b -> kdir s rev b c -> kdir s rev a c.
Proof. intros H H' H1 H2. apply kdir_before in H1, H2; try assumption. apply kdir_before; [congruence|]. unfold before in *. destruct rev; lia. Qed.
Lemma kdir_irrefl s rev a : ~ kdir s rev a a.
Proof. intros H. apply kdir_before in H; [|reflexivity]. unfold before in *. destruct rev; lia. Qed.

(** ** Entries in the given direction *)
Fixpoint t_list (s rev : bool) (t : pt) : list entry :=
  match t with
  | Leaf l v => [(l, v)]
  | Fork l _ a b =>
    let f := first s rev l in
    if f then under (l ++ [true]) (t_list false rev b) ++ under (l ++ [false]) (t_list false rev a)
    else under (l ++ [false]) (t_list false rev a) ++ under (l ++ [true]) (t_list false rev b)
  end.

Lemma under_perm p a b : Permutation a b -> Permutation (under p a) (under p b).
Proof. apply Permutation_map. Qed.
Lemma t_list_perm s rev t : Permutation (t_list s rev t) (entries t).
Proof.
  revert s. induction t as [l v|l x a IHa b IHb]; intros s; [reflexivity|]. cbn [t_list entries].
  pose proof (under_perm (l ++ [false]) _ _ (IHa false)) as A. pose proof (under_perm (l ++ [true]) _ _ (IHb false)) as B.
  destruct (first s rev l); [|apply Permutation_app; assumption].
  rewrite Permutation_app_comm. apply Permutation_app; assumption.
Qed.

Lemma entries_len n t : wft n t -> Forall (fun e => length (fst e) = n) (entries t).
Proof.
  revert n. induction t as [l v|l x a IHa b IHb]; intros n; cbn [wft entries].
  - intros <-. constructor; [reflexivity|constructor].
  - intros (m & -> & Ha & Hb). specialize (IHa _ Ha). specialize (IHb _ Hb).
    apply Forall_app. split; unfold under; apply Forall_map.
    + eapply Forall_impl; [exact IHa|]. intros [k v]. cbn [fst]. intros <-. rewrite !app_length. cbn [length]. lia.
    + eapply Forall_impl; [exact IHb|]. intros [k v]. cbn [fst]. intros <-. rewrite !app_length. cbn [length]. lia.
Qed.
Lemma t_list_len n s rev t : wft n t -> Forall (fun e => length (fst e) = n) (t_list s rev t).
Proof. intros H. rewrite t_list_perm. apply entries_len, H. Qed.

Definition edir (s rev : bool) (e e' : entry) : Prop := kdir s rev (fst e) (fst e').
Lemma under_sorted s rev l z es : StronglySorted (edir false rev) es -> StronglySorted (edir s rev) (under (l ++ [z]) es).
Proof.
  induction 1 as [|e es H IH F]; cbn [under map]; constructor; [exact IH|].
  apply Forall_map. eapply Forall_impl; [exact F|]. intros e' H'. unfold edir in *. cbn [fst].
  rewrite <- !app_assoc. cbn [app]. apply kdir_branch_eq, H'.
Qed.
Lemma sorted_app {A} (P : A -> A -> Prop) a b : StronglySorted P a -> StronglySorted P b ->
  (forall x y, In x a -> In y b -> P x y) -> StronglySorted P (a ++ b).
Proof.
  intros Ha Hb H. induction Ha as [|x a Ha IH F]; [exact Hb|]. cbn [app]. constructor.
  - apply IH. intros u v Hu Hv. apply H; [right; exact Hu|exact Hv].
  - apply Forall_app. split; [exact F|]. apply Forall_forall. intros y Hy. apply elem_of_list_In in Hy. apply H; [left; reflexivity|exact Hy].
Qed.
Lemma in_under p es e : In e (under p es) -> exists e0, In e0 es /\ e = (p ++ fst e0, snd e0).
Proof. unfold under. rewrite in_map_iff. intros (e0 & <- & H). exists e0. auto. Qed.
Lemma t_list_sorted s rev t : StronglySorted (edir s rev) (t_list s rev t).
Proof.
  revert s. induction t as [l v|l x a IHa b IHb]; intros s; cbn [t_list]; [constructor; constructor|].
  destruct (first s rev l) eqn:Ef; (apply sorted_app; [apply under_sorted; auto|apply under_sorted; auto|]);
    intros e1 e2 H1 H2; apply in_under in H1, H2; destruct H1 as (u1 & _ & ->), H2 as (u2 & _ & ->); unfold edir; cbn [fst];
    rewrite <- !app_assoc; cbn [app];
    pose proof (kdir_branch s rev l (fst u1) (fst u2)) as K; rewrite Ef in K; exact K.
Qed.

Lemma t_list_in s rev t k v : In (k, v) (t_list s rev t) <-> t_get t k = Some v.
Proof.
  transitivity (In (k, v) (entries t)).
  { split; intros H; [eapply Permutation_in; [apply t_list_perm|exact H]|eapply Permutation_in; [symmetry; apply t_list_perm|exact H]]. }
  rewrite <- t_get_spec. unfold dmap.
  assert (ND : NoDup ((entries t).*1)).
  { rewrite <- (t_list_perm false false t). pose proof (t_list_sorted false false t) as S.
    induction S as [|e es S IH F]; cbn [fmap list_fmap]; constructor; [|exact IH].
    intros H. apply elem_of_list_fmap in H. destruct H as (e' & E & H). rewrite Forall_forall in F. specialize (F _ H).
    unfold edir in F. rewrite E in F. exact (kdir_irrefl _ _ _ F). }
  rewrite <- elem_of_list_In. symmetry. split; intros H.
  - apply elem_of_list_to_map_2, H.
  - apply elem_of_list_to_map_1; assumption.
Qed.

(** The first entry. *)
Fixpoint t_first (s rev : bool) (t : pt) : entry :=
  match t with
  | Leaf l v => (l, v)
  | Fork l _ a b =>
    let f := first s rev l in
    let e := t_first false rev (if f then b else a) in
    (l ++ f :: fst e, snd e)
  end.
Lemma t_first_list s rev t : exists es, t_list s rev t = t_first s rev t :: es.
Proof.
  revert s. induction t as [l v|l x a IHa b IHb]; intros s; cbn [t_list t_first]; [eexists; reflexivity|].
  destruct (IHa false) as [ea Ea]. destruct (IHb false) as [eb Eb]. rewrite Ea, Eb.
  destruct (first s rev l); cbn [under map app fst snd]; rewrite <- !app_assoc; cbn [app]; eexists; reflexivity.
Qed.
Lemma t_first_get s rev t : t_get t (fst (t_first s rev t)) = Some (snd (t_first s rev t)).
Proof.
  apply (t_list_in s rev). destruct (t_first_list s rev t) as [es ->]. left. destruct (t_first s rev t); reflexivity.
Qed.
Lemma t_first_min s rev t k v : t_get t k = Some v -> k = fst (t_first s rev t) \/ kdir s rev (fst (t_first s rev t)) k.
Proof.
  intros H. apply (t_list_in s rev) in H. pose proof (t_list_sorted s rev t) as S.
  destruct (t_first_list s rev t) as [es E]. rewrite E in *. destruct H as [H|H]; [left; rewrite H; reflexivity|right].
  inversion S as [|? ? _ F]; subst. rewrite Forall_forall in F. apply (F (k, v)). apply elem_of_list_In, H.
Qed.

(** ** The first entry strictly after a key *)
Fixpoint t_next (s rev : bool) (t : pt) (k : list bool) : option entry :=
  let l := lbl t in
  match strip l k with
  | None =>
    let p := cpfx k l in
    if Bool.eqb (nth (length p) k false) (first s rev p) then Some (t_first s rev t) else None
  | Some r =>
    match t, r with
    | Leaf _ _, _ => None
    | Fork _ _ _ _, [] => None
    | Fork _ _ a b, z :: r' =>
      match t_next false rev (if z then b else a) r' with
      | Some e => Some (l ++ z :: fst e, snd e)
      | None =>
        if Bool.eqb z (first s rev l) then
          let e := t_first false rev (if z then a else b) in Some (l ++ negb z :: fst e, snd e)
        else None
      end
    end
  end.

(** [e] is the first entry after [k] in [t]; [None]: there is none. *)
Definition next_of (s rev : bool) (g : list bool -> option chunk) (k : list bool) (o : option entry) : Prop :=
  match o with
  | Some e => g (fst e) = Some (snd e) /\ kdir s rev k (fst e) /\
      forall k' v', g k' = Some v' -> kdir s rev k k' -> k' = fst e \/ kdir s rev (fst e) k'
  | None => forall k' v', g k' = Some v' -> ~ kdir s rev k k'
  end.

Lemma eqb_negb_case z f : Bool.eqb z f = false -> z = negb f.
Proof. destruct z, f; cbn; congruence. Qed.

Lemma t_next_spec n s rev t k : wft n t -> length k = n -> next_of s rev (t_get t) k (t_next s rev t k).
Proof.
  revert n s k. induction t as [l v|l x a IHa b IHb]; intros n s k Hw Hk.
  - cbn [t_next lbl]. destruct (strip l k) as [r|] eqn:E.
    + apply strip_some in E. cbn [wft] in Hw. assert (r = []) as -> by (destruct r; [reflexivity|]; subst k; rewrite app_length in Hk; cbn in Hk; lia).
      rewrite app_nil_r in E. subst k. intros k' v' G. cbn [t_get] in G.
      destruct (strip l k') as [[|]|] eqn:E; try discriminate. apply strip_some in E. rewrite app_nil_r in E. subst k'. apply kdir_irrefl.
    + cbn [wft] in Hw. destruct (key_label_cases k l ltac:(lia)) as [[r ->]|(p & z & ka & lb & -> & ->)]; [rewrite strip_app in E; discriminate|].
      rewrite cpfx_diverge. rewrite app_nth2, Nat.sub_diag by lia. cbn [nth].
      assert (U : forall k' v', t_get (Leaf (p ++ negb z :: lb) v) k' = Some v' -> exists q, k' = p ++ negb z :: q).
      { intros k' v' G. apply t_get_lbl in G. cbn [lbl] in G. destruct G as [r ->]. rewrite <- app_assoc. eexists. reflexivity. }
      destruct (Bool.eqb z (first s rev p)) eqn:Ez; cbn [next_of].
      * apply eqb_prop in Ez. subst z. split; [exact (t_first_get s rev (Leaf _ v))|]. split; [apply kdir_branch|].
        intros k' v' G _. exact (t_first_min s rev _ k' v' G).
      * apply eqb_negb_case in Ez. subst z. rewrite negb_involutive in *. intros k' v' G H. destruct (U _ _ G) as [q ->].
        eapply kdir_asym; [|exact H|apply kdir_branch]. apply t_get_len with (n := n) in G; [congruence|exact Hw].
  - pose proof Hw as Hw0. destruct Hw as (m & Hm & Ha & Hb). cbn [t_next lbl]. destruct (strip l k) as [r|] eqn:E.
    + apply strip_some in E. destruct r as [|z r]; [subst k; rewrite app_length in Hk; cbn in Hk; lia|].
      subst k. pose proof Hk as Hk'. rewrite app_length in Hk'. cbn [length] in Hk'.
      assert (Hr : length r = m) by lia.
      assert (W : wft m (if z then b else a)) by (destruct z; assumption).
      assert (IH : next_of false rev (t_get (if z then b else a)) r (t_next false rev (if z then b else a) r)) by (destruct z; eauto).
      assert (W' : wft m (if z then a else b)) by (destruct z; assumption).
      set (t := Fork l x a b) in *.
      assert (G1 : forall q, t_get t (l ++ z :: q) = t_get (if z then b else a) q) by (intros q; subst t; cbn [t_get]; rewrite strip_app; destruct z; reflexivity).
      assert (G2 : forall q, t_get t (l ++ negb z :: q) = t_get (if z then a else b) q) by (intros q; subst t; cbn [t_get]; rewrite strip_app; destruct z; reflexivity).
      assert (G3 : forall k' v', t_get t k' = Some v' -> (exists q, k' = l ++ z :: q) \/ (exists q, k' = l ++ negb z :: q)).
      { intros k' v' G. subst t. cbn [t_get] in G. destruct (strip l k') as [[|w q]|] eqn:E; try discriminate. apply strip_some in E.
        destruct (Bool.bool_dec w z) as [->|Hz]; [left; exists q; exact E|right; exists q; rewrite E]. destruct w, z; cbn; congruence. }
      destruct (t_next false rev (if z then b else a) r) as [e|]; cbn [next_of] in IH |- *.
      * destruct IH as (I1 & I2 & I3). cbn [fst snd]. rewrite G1. split; [exact I1|]. split; [apply kdir_branch_eq, I2|].
        intros k' v' G H. destruct (G3 _ _ G) as [[q ->]|[q ->]].
        -- rewrite G1 in G. apply kdir_branch_eq in H. destruct (I3 _ _ G H) as [->|K]; [left; reflexivity|right]. apply kdir_branch_eq, K.
        -- right. destruct (Bool.bool_dec z (first s rev l)) as [->|Hz]; [apply kdir_branch|].
           assert (z = negb (first s rev l)) as -> by (destruct z, (first s rev l); cbn; congruence). rewrite negb_involutive in *.
           exfalso. eapply kdir_asym; [|exact H|apply kdir_branch].
           rewrite app_length. pose proof (t_get_len n t _ _ Hw0 G) as L. rewrite app_length in L. rewrite !app_length. cbn [length] in *. lia.
      * destruct (Bool.eqb z (first s rev l)) eqn:Ez; cbn [next_of].
        -- apply eqb_prop in Ez. cbn [fst snd]. rewrite G2. split; [apply t_first_get|]. rewrite Ez. split; [apply kdir_branch|]. rewrite <- Ez.
           intros k' v' G H. destruct (G3 _ _ G) as [[q ->]|[q ->]].
           ++ rewrite G1 in G. apply kdir_branch_eq in H. destruct (IH _ _ G H).
           ++ rewrite G2 in G. destruct (t_first_min false rev _ _ _ G) as [->|K]; [left; reflexivity|right]. apply kdir_branch_eq, K.
        -- apply eqb_negb_case in Ez. intros k' v' G H. destruct (G3 _ _ G) as [[q ->]|[q ->]].
           ++ rewrite G1 in G. apply kdir_branch_eq in H. destruct (IH _ _ G H).
           ++ subst z. rewrite negb_involutive in *. eapply kdir_asym; [|exact H|apply kdir_branch].
              pose proof (t_get_len n t _ _ Hw0 G) as L. rewrite app_length in L. rewrite !app_length. cbn [length] in *. lia.
    + destruct (key_label_cases k l ltac:(lia)) as [[r ->]|(p & z & ka & lb & -> & El)]; [rewrite strip_app in E; discriminate|].
      assert (cpfx (p ++ z :: ka) l = p) as -> by (rewrite El; apply cpfx_diverge).
      rewrite app_nth2, Nat.sub_diag by lia. cbn [nth].
      set (t := Fork l x a b) in *.
      assert (U : forall k' v', t_get t k' = Some v' -> exists q, k' = p ++ negb z :: q).
      { intros k' v' G. apply t_get_lbl in G. cbn [lbl] in G. destruct G as [r ->]. subst t. cbn [lbl]. rewrite El, <- app_assoc. eexists. reflexivity. }
      destruct (Bool.eqb z (first s rev p)) eqn:Ez; cbn [next_of].
      * apply eqb_prop in Ez. split; [apply t_first_get|]. split.
        -- destruct (U _ _ (t_first_get s rev t)) as [q ->]. rewrite Ez. apply kdir_branch.
        -- intros k' v' G _. exact (t_first_min s rev _ k' v' G).
      * apply eqb_negb_case in Ez. subst z. rewrite negb_involutive in *. intros k' v' G H. destruct (U _ _ G) as [q ->].
        eapply kdir_asym; [|exact H|apply kdir_branch]. apply t_get_len with (n := n) in G; [congruence|exact Hw0].
Qed.
