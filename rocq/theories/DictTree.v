(** * Proof device: a dictionary as a tree, and map operations on the tree. *)
From Verif Require Import Err CellModel LabelModel LabelSpec LabelProofs DictSpec.
Local Open Scope nat_scope.

Inductive pt :=
| Leaf (l : list bool) (v : chunk)
| Fork (l : list bool) (x : chunk) (a b : pt).

Definition lbl (t : pt) : list bool := match t with Leaf l _ | Fork l _ _ _ => l end.
Definition relabel (l : list bool) (t : pt) : pt :=
  match t with Leaf _ v => Leaf l v | Fork _ x a b => Fork l x a b end.

Fixpoint wft (n : nat) (t : pt) : Prop :=
  match t with
  | Leaf l _ => length l = n
  | Fork l _ a b => exists m, n = length l + S m /\ wft m a /\ wft m b
  end.

Fixpoint entries (t : pt) : list entry :=
  match t with
  | Leaf l v => [(l, v)]
  | Fork l _ a b => under (l ++ [false]) (entries a) ++ under (l ++ [true]) (entries b)
  end.

Inductive Rep (R : rules) : nat -> cell -> pt -> Prop :=
| Rep_leaf n bits l v :
    r_label R n bits l (fst v) -> length l = n -> r_cell R bits (snd v) ->
    Rep R n (Cell false bits (snd v)) (Leaf l v)
| Rep_fork n m bits l x cl cr a b :
    r_label R n bits l (fst x) -> n = length l + S m -> r_extra R x ->
    r_cell R bits (cl :: cr :: snd x) ->
    Rep R m cl a -> Rep R m cr b ->
    Rep R n (Cell false bits (cl :: cr :: snd x)) (Fork l x a b).

Lemma hashmap_rep R n c es : hashmap R n c es <-> exists t, Rep R n c t /\ es = entries t.
Proof.
  split.
  - induction 1 as [n bits l v H1 H2 H3|n m bits l x cl cr el er H1 H2 H3 H4 HL (a & IHa & ->) HR (b & IHb & ->)].
    + exists (Leaf l v). split; [constructor; assumption|reflexivity].
    + exists (Fork l x a b). split; [econstructor; eassumption|reflexivity].
  - intros (t & H & ->). induction H as [n bits l v H1 H2 H3|n m bits l x cl cr a b H1 H2 H3 H4 HL IHL HR IHR].
    + constructor; assumption.
    + cbn [entries]. eapply hm_fork; eassumption.
Qed.

Lemma Rep_wft R n c t : Rep R n c t -> wft n t.
Proof.
  induction 1 as [n bits l v H1 H2 H3|n m bits l x cl cr a b H1 H2 H3 H4 HL IHL HR IHR]; cbn [wft]; [exact H2|].
  exists m. auto.
Qed.

(** ** Prefixes *)
Lemma strip_app p k : strip p (p ++ k) = Some k.
Proof. induction p as [|x p IH]; [reflexivity|]. cbn [app strip]. rewrite Bool.eqb_reflx. exact IH. Qed.
Lemma strip_some p k k' : strip p k = Some k' <-> k = p ++ k'.
Proof.
  split; [|intros ->; apply strip_app].
  revert k. induction p as [|x p IH]; intros k; cbn [strip app]; [congruence|].
  destruct k as [|y k]; [discriminate|]. destruct (Bool.eqb x y) eqn:E; [|discriminate].
  apply eqb_prop in E. subst y. intros H. f_equal. apply IH, H.
Qed.
Lemma strip_none p k : strip p k = None <-> forall k', k <> p ++ k'.
Proof.
  split.
  - intros H k' E. apply strip_some in E. congruence.
  - intros H. destruct (strip p k) as [k'|] eqn:E; [|reflexivity]. apply strip_some in E. destruct (H _ E).
Qed.
Lemma strip_self p : strip p p = Some [].
Proof. rewrite <- (app_nil_r p) at 2. apply strip_app. Qed.
Lemma strip_app_l p q k : strip (p ++ q) k = match strip p k with Some k' => strip q k' | None => None end.
Proof.
  revert k. induction p as [|x p IH]; intros k; cbn [strip app]; [reflexivity|].
  destruct k as [|y k]; [reflexivity|]. destruct (Bool.eqb x y); [apply IH|reflexivity].
Qed.

(** Longest common prefix of the key and a label: the key either extends the label, or it
    diverges from it. *)
Lemma cpfx_le_l a b : length (cpfx a b) <= length a.
Proof. revert b. induction a as [|x a IH]; intros [|y b]; cbn [cpfx length]; try lia. destruct (Bool.eqb x y); cbn [length]; [specialize (IH b)|]; lia. Qed.
Lemma cpfx_le_r a b : length (cpfx a b) <= length b.
Proof. revert b. induction a as [|x a IH]; intros [|y b]; cbn [cpfx length]; try lia. destruct (Bool.eqb x y); cbn [length]; [specialize (IH b)|]; lia. Qed.
Lemma cpfx_app_l p a b : cpfx (p ++ a) (p ++ b) = p ++ cpfx a b.
Proof. induction p as [|x p IH]; [reflexivity|]. cbn [app cpfx]. rewrite Bool.eqb_reflx, IH. reflexivity. Qed.
Lemma cpfx_self_l p k : cpfx (p ++ k) p = p.
Proof. rewrite <- (app_nil_r p) at 2. rewrite cpfx_app_l. destruct k; cbn [cpfx]; apply app_nil_r. Qed.
Lemma cpfx_pair x a b : cpfx (x :: a) (negb x :: b) = [].
Proof. cbn [cpfx]. destruct x; reflexivity. Qed.
Lemma cpfx_diverge p x a b : cpfx (p ++ x :: a) (p ++ negb x :: b) = p.
Proof. rewrite cpfx_app_l, cpfx_pair. apply app_nil_r. Qed.

(** Case analysis of a key against a label not longer than it. *)
Lemma key_label_cases k l : length l <= length k ->
  (exists r, k = l ++ r) \/
  (exists p x a b, k = p ++ x :: a /\ l = p ++ negb x :: b).
Proof.
  revert k. induction l as [|y l IH]; intros k H; [left; exists k; reflexivity|].
  destruct k as [|x k]; [cbn [length] in H; lia|]. cbn [length] in H.
  destruct (Bool.eqb x y) eqn:E.
  - apply eqb_prop in E. subst y. destruct (IH k ltac:(lia)) as [[r ->]|(p & z & a & b & -> & ->)].
    + left. exists r. reflexivity.
    + right. exists (x :: p), z, a, b. split; reflexivity.
  - right. exists [], x, k, l. split; [reflexivity|]. destruct x, y; cbn in *; congruence.
Qed.

(** ** Lookup *)
Fixpoint t_get (t : pt) (k : list bool) : option chunk :=
  match t with
  | Leaf l v => match strip l k with Some [] => Some v | _ => None end
  | Fork l _ a b =>
    match strip l k with
    | Some (false :: k') => t_get a k'
    | Some (true :: k') => t_get b k'
    | _ => None
    end
  end.

Lemma dmap_app a b : dmap (a ++ b) = dmap a ∪ dmap b.
Proof. apply list_to_map_app. Qed.
Lemma dmap_under p es k :
  dmap (under p es) !! k = match strip p k with Some k' => dmap es !! k' | None => None end.
Proof.
  induction es as [|[k0 v0] es IH].
  - cbn. rewrite lookup_empty. destruct (strip p k); [rewrite lookup_empty|]; reflexivity.
  - change (dmap (under p ((k0, v0) :: es))) with (<[p ++ k0 := v0]> (dmap (under p es))).
    change (dmap ((k0, v0) :: es)) with (<[k0 := v0]> (dmap es)).
    destruct (decide (p ++ k0 = k)) as [<-|Hk].
    + rewrite lookup_insert, strip_app, lookup_insert. reflexivity.
    + rewrite lookup_insert_ne by exact Hk. rewrite IH. destruct (strip p k) as [k'|] eqn:E; [|reflexivity].
      apply strip_some in E. rewrite lookup_insert_ne; [reflexivity|]. intros ->. congruence.
Qed.

Lemma t_get_spec t k : dmap (entries t) !! k = t_get t k.
Proof.
  revert k. induction t as [l v|l x a IHa b IHb]; intros k; cbn [entries t_get].
  - unfold dmap. cbn [list_to_map foldr fst snd].
    change (list_to_map []) with (∅ : gmap (list bool) chunk).
    destruct (decide (l = k)) as [->|Hk].
    + rewrite strip_self. apply lookup_insert.
    + destruct (strip l k) as [[|c r]|] eqn:E.
      * apply strip_some in E. rewrite app_nil_r in E. congruence.
      * apply lookup_insert_None. split; [apply lookup_empty|exact Hk].
      * apply lookup_insert_None. split; [apply lookup_empty|exact Hk].
  - rewrite dmap_app, lookup_union, !dmap_under, !strip_app_l.
    destruct (strip l k) as [[|[] r]|]; cbn [strip Bool.eqb]; [reflexivity| | |reflexivity].
    + rewrite IHb. destruct (t_get b r); reflexivity.
    + rewrite IHa. destruct (t_get a r); reflexivity.
Qed.

Lemma t_get_len n t k v : wft n t -> t_get t k = Some v -> length k = n.
Proof.
  revert n k. induction t as [l w|l x a IHa b IHb]; intros n k; cbn [wft t_get].
  - intros <-. destruct (strip l k) as [[|c r]|] eqn:E; try discriminate. apply strip_some in E.
    rewrite app_nil_r in E. subst k. reflexivity.
  - intros (m & -> & Ha & Hb). destruct (strip l k) as [[|[] r]|] eqn:E; try discriminate; apply strip_some in E; subst k; intros H; rewrite app_length; cbn [length].
    + rewrite (IHb _ _ Hb H). reflexivity.
    + rewrite (IHa _ _ Ha H). reflexivity.
Qed.

(** ** Insertion *)
(** New fork over [t] (whose label diverges from [k] after [p]). *)
Definition t_split (p : list bool) (t : pt) (k : list bool) (v : chunk) : pt :=
  let old := relabel (drop (S (length p)) (lbl t)) t in
  let new := Leaf (drop (S (length p)) k) v in
  match lbl t !! length p with
  | Some true => Fork p ([], []) new old
  | _ => Fork p ([], []) old new
  end.
Fixpoint t_ins (t : pt) (k : list bool) (v : chunk) : pt :=
  match t with
  | Leaf l _ =>
    match strip l k with
    | Some _ => Leaf l v
    | None => t_split (cpfx k l) t k v
    end
  | Fork l x a b =>
    match strip l k with
    | Some (false :: k') => Fork l x (t_ins a k' v) b
    | Some (true :: k') => Fork l x a (t_ins b k' v)
    | Some [] => t
    | None => t_split (cpfx k l) t k v
    end
  end.

Lemma relabel_wft l n t m : wft n t -> length (lbl t) + m = n + length l -> wft m (relabel l t).
Proof.
  destruct t as [l0 v|l0 x a b]; cbn [wft relabel lbl].
  - intros. lia.
  - intros (m0 & -> & Ha & Hb) H. exists m0. split; [lia|]. split; assumption.
Qed.

Lemma get_relabel l t k : t_get (relabel l t) (l ++ k) = t_get t (lbl t ++ k).
Proof. destruct t as [l0 v|l0 x a b]; cbn [relabel t_get lbl]; rewrite !strip_app; reflexivity. Qed.
Lemma get_strip t k : strip (lbl t) k = None -> t_get t k = None.
Proof. destruct t as [l0 v|l0 x a b]; cbn [lbl t_get]; intros ->; reflexivity. Qed.

Lemma diverge_shape p (x : bool) a : drop (S (length p)) (p ++ x :: a) = a /\ (p ++ x :: a) !! length p = Some x.
Proof.
  split.
  - replace (S (length p)) with (length (p ++ [x])) by (rewrite app_length; cbn; lia).
    rewrite (app_assoc p [x] a : p ++ x :: a = (p ++ [x]) ++ a). apply drop_app.
  - rewrite lookup_app_r by lia. rewrite Nat.sub_diag. reflexivity.
Qed.

Lemma t_split_shape p x a b t v : lbl t = p ++ negb x :: b ->
  t_split p t (p ++ x :: a) v =
    if x then Fork p ([], []) (relabel b t) (Leaf a v) else Fork p ([], []) (Leaf a v) (relabel b t).
Proof.
  intros E. unfold t_split. rewrite E.
  destruct (diverge_shape p (negb x) b) as [-> ->]. destruct (diverge_shape p x a) as [-> _].
  destruct x; reflexivity.
Qed.

Lemma t_split_wft n p x a b t v : wft n t -> lbl t = p ++ negb x :: b -> length (p ++ x :: a) = n ->
  wft n (t_split p t (p ++ x :: a) v).
Proof.
  intros Ht E Hk. rewrite (t_split_shape _ _ _ _ _ _ E). rewrite app_length in Hk. cbn [length] in Hk.
  assert (W : wft (length a) (relabel b t)).
  { eapply relabel_wft; [exact Ht|]. rewrite E, app_length. cbn [length]. lia. }
  destruct x; cbn [wft]; exists (length a); (split; [lia|]); split; [exact W|reflexivity|reflexivity|exact W].
Qed.

Lemma lbl_le n t : wft n t -> length (lbl t) <= n.
Proof. destruct t; cbn [wft lbl]; [lia|]. intros (m & -> & _). lia. Qed.

Lemma t_ins_wft n t k v : wft n t -> length k = n -> wft n (t_ins t k v).
Proof.
  revert n k. induction t as [l w|l x a IHa b IHb]; intros n k Ht Hk.
  - cbn [t_ins]. cbn [wft] in Ht. destruct (strip l k) as [r|] eqn:E; [exact Ht|].
    destruct (key_label_cases k l ltac:(lia)) as [[r ->]|(p & z & a & b & -> & ->)]; [rewrite strip_app in E; discriminate|].
    rewrite cpfx_diverge. eapply t_split_wft; [exact Ht|reflexivity|lia].
  - pose proof Ht as Ht0. destruct Ht as (m & Hm & Ha & Hb). cbn [t_ins].
    destruct (strip l k) as [[|c r]|] eqn:E.
    + exact Ht0.
    + apply strip_some in E. subst k. rewrite app_length in Hk. cbn [length] in Hk.
      destruct c; cbn [wft]; exists m; (split; [lia|]); split; auto; [apply IHb|apply IHa]; auto; lia.
    + destruct (key_label_cases k l ltac:(lia)) as [[r ->]|(p & z & a' & b' & -> & ->)]; [rewrite strip_app in E; discriminate|].
      rewrite cpfx_diverge. eapply t_split_wft; [exact Ht0|reflexivity|lia].
Qed.

Lemma t_split_get p x a b t v k' : lbl t = p ++ negb x :: b ->
  t_get (t_split p t (p ++ x :: a) v) k' =
    if decide (k' = p ++ x :: a) then Some v
    else t_get t k'.
Proof.
  intros E. rewrite (t_split_shape _ _ _ _ _ _ E).
  assert (A : forall r, t_get (relabel b t) r = t_get t (p ++ negb x :: r)).
  { intros r. destruct t as [l0 w|l0 y s1 s2]; cbn [relabel t_get lbl] in *; subst l0;
    rewrite (strip_app_l p (negb x :: b)), strip_app; cbn [strip]; rewrite Bool.eqb_reflx; reflexivity. }
  assert (Bn : forall r, r <> a -> t_get (Leaf a v) r = None).
  { intros r Hr. cbn [t_get]. destruct (strip a r) as [[|c s]|] eqn:E1; [|reflexivity..].
    apply strip_some in E1. rewrite app_nil_r in E1. congruence. }
  assert (Bs : t_get (Leaf a v) a = Some v) by (cbn [t_get]; rewrite strip_self; reflexivity).
  assert (D : forall r, k' = p ++ x :: r -> t_get t k' = None).
  { intros r ->. apply get_strip. rewrite E, strip_app_l, strip_app. cbn [strip]. destruct x; reflexivity. }
  destruct (strip p k') as [r|] eqn:Es.
  - pose proof (proj1 (strip_some _ _ _) Es) as Ek.
    destruct r as [|c r].
    + destruct (decide (k' = p ++ x :: a)) as [->|Hn].
      { rewrite app_nil_r in Ek. exfalso. apply (f_equal length) in Ek. rewrite app_length in Ek. cbn in Ek. lia. }
      assert (t_get t k' = None) as ->.
      { apply get_strip, strip_none. intros k2 Ek2. rewrite E, Ek in Ek2. apply (f_equal length) in Ek2.
        rewrite !app_length in Ek2. cbn in Ek2. lia. }
      destruct x; cbn [t_get]; rewrite Es; reflexivity.
    + subst k'. destruct (decide (c = x)) as [->|Hc].
      * destruct (decide (r = a)) as [->|Hr].
        -- rewrite decide_True by reflexivity. destruct x; cbn [t_get]; rewrite Es; exact Bs.
        -- rewrite decide_False by (intros H; apply app_inv_head in H; congruence).
           rewrite (D _ eq_refl). destruct x; cbn [t_get]; rewrite Es; apply (Bn r Hr).
      * assert (c = negb x) as -> by (destruct c, x; cbn; congruence).
        rewrite decide_False by (intros H; apply app_inv_head in H; destruct x; cbn in H; congruence).
        rewrite <- A. destruct x; cbn [t_get negb] in *; rewrite Es; reflexivity.
  - rewrite decide_False by (intros ->; rewrite strip_app in Es; discriminate).
    assert (t_get t k' = None) as ->.
    { apply get_strip. rewrite E, strip_app_l, Es. reflexivity. }
    destruct x; cbn [t_get]; rewrite Es; reflexivity.
Qed.

Lemma t_ins_get n t k v k' : wft n t -> length k = n ->
  t_get (t_ins t k v) k' = if decide (k' = k) then Some v else t_get t k'.
Proof.
  revert n k k'. induction t as [l w|l x a IHa b IHb]; intros n k k' Ht Hk.
  - cbn [t_ins]. cbn [wft] in Ht. destruct (strip l k) as [r|] eqn:E.
    + apply strip_some in E. assert (r = []) as ->.
      { destruct r; [reflexivity|]. subst k. rewrite app_length in Hk. cbn in Hk. lia. }
      rewrite app_nil_r in E. subst k. cbn [t_get]. destruct (decide (k' = l)) as [->|Hn].
      * rewrite strip_self. reflexivity.
      * destruct (strip l k') as [[|c r]|] eqn:E; try reflexivity. apply strip_some in E. rewrite app_nil_r in E. congruence.
    + destruct (key_label_cases k l ltac:(lia)) as [[r ->]|(p & z & a & b & -> & ->)]; [rewrite strip_app in E; discriminate|].
      rewrite cpfx_diverge. rewrite (t_split_get p z a b) by reflexivity. reflexivity.
  - destruct Ht as (m & Hm & Ha & Hb). cbn [t_ins].
    destruct (strip l k) as [[|c r]|] eqn:E.
    + apply strip_some in E. subst k. rewrite app_nil_r in Hk. lia.
    + apply strip_some in E. subst k. rewrite app_length in Hk. cbn [length] in Hk.
      destruct c; cbn [t_get]; destruct (strip l k') as [[|[] r']|] eqn:E';
        try (rewrite decide_False by (intros ->; rewrite strip_app in E'; congruence); reflexivity);
        apply strip_some in E'; subst k'.
      * rewrite (IHb m) by (auto; lia). destruct (decide (r' = r)) as [->|Hr].
        -- rewrite decide_True by reflexivity. reflexivity.
        -- rewrite decide_False by (intros H; apply app_inv_head in H; congruence). reflexivity.
      * rewrite (IHa m) by (auto; lia). destruct (decide (r' = r)) as [->|Hr].
        -- rewrite decide_True by reflexivity. reflexivity.
        -- rewrite decide_False by (intros H; apply app_inv_head in H; congruence). reflexivity.
    + destruct (key_label_cases k l ltac:(lia)) as [[r ->]|(p & z & a' & b' & -> & ->)]; [rewrite strip_app in E; discriminate|].
      rewrite cpfx_diverge. rewrite (t_split_get p z a' b') by reflexivity. reflexivity.
Qed.

Lemma t_ins_map n t k v : wft n t -> length k = n ->
  dmap (entries (t_ins t k v)) = <[k := v]> (dmap (entries t)).
Proof.
  intros Ht Hk. apply map_eq. intros k'. rewrite t_get_spec, (t_ins_get n) by assumption.
  destruct (decide (k' = k)) as [->|Hn]; [rewrite lookup_insert; reflexivity|].
  rewrite lookup_insert_ne by congruence. rewrite t_get_spec. reflexivity.
Qed.

(** ** Removal *)
Fixpoint t_rem (t : pt) (k : list bool) : option pt :=
  match t with
  | Leaf l v => match strip l k with Some [] => None | _ => Some t end
  | Fork l x a b =>
    match strip l k with
    | Some (false :: k') =>
      match t_rem a k' with
      | None => Some (relabel (l ++ true :: lbl b) b)
      | Some a' => Some (Fork l x a' b)
      end
    | Some (true :: k') =>
      match t_rem b k' with
      | None => Some (relabel (l ++ false :: lbl a) a)
      | Some b' => Some (Fork l x a b')
      end
    | _ => Some t
    end
  end.

Lemma t_rem_wft n t k t' : wft n t -> t_rem t k = Some t' -> wft n t'.
Proof.
  revert n k t'. induction t as [l w|l x a IHa b IHb]; intros n k t' Ht.
  - cbn [t_rem]. destruct (strip l k) as [[|c r]|]; [discriminate|intros [= <-]; exact Ht..].
  - pose proof Ht as Ht0. destruct Ht as (m & Hm & Ha & Hb). cbn [t_rem].
    destruct (strip l k) as [[|[] r]|]; [intros [= <-]; exact Ht0| | |intros [= <-]; exact Ht0].
    + destruct (t_rem b r) as [b'|] eqn:E; intros [= <-].
      * exists m. split; [exact Hm|]. split; [exact Ha|]. apply (IHb _ _ _ Hb E).
      * eapply relabel_wft; [exact Ha|]. rewrite app_length. cbn [length]. lia.
    + destruct (t_rem a r) as [a'|] eqn:E; intros [= <-].
      * exists m. split; [exact Hm|]. split; [|exact Hb]. apply (IHa _ _ _ Ha E).
      * eapply relabel_wft; [exact Hb|]. rewrite app_length. cbn [length]. lia.
Qed.

Lemma t_rem_none t k : t_rem t k = None -> exists v, t = Leaf k v.
Proof.
  destruct t as [l w|l x a b]; cbn [t_rem].
  - destruct (strip l k) as [[|c r]|] eqn:E; try discriminate. apply strip_some in E. rewrite app_nil_r in E. subst. eexists. reflexivity.
  - destruct (strip l k) as [[|[] r]|]; try discriminate.
    + destruct (t_rem b r); discriminate.
    + destruct (t_rem a r); discriminate.
Qed.

Lemma get_relabel_pre l t k' : t_get (relabel (l ++ lbl t) t) k' =
  match strip l k' with Some r => t_get t r | None => None end.
Proof.
  destruct t as [l0 v|l0 x a b]; cbn [relabel t_get lbl]; rewrite strip_app_l; destruct (strip l k'); reflexivity.
Qed.

Lemma t_rem_get n t k k' t' : wft n t -> t_rem t k = Some t' ->
  t_get t' k' = if decide (k' = k) then None else t_get t k'.
Proof.
  revert n k k' t'. induction t as [l w|l x a IHa b IHb]; intros n k k' t' Ht.
  - cbn [t_rem]. destruct (strip l k) as [[|c r]|] eqn:E; [discriminate| |]; intros [= <-].
    + destruct (decide (k' = k)) as [->|]; [|reflexivity]. cbn [t_get]. rewrite E. reflexivity.
    + destruct (decide (k' = k)) as [->|]; [|reflexivity]. cbn [t_get]. rewrite E. reflexivity.
  - destruct Ht as (m & Hm & Ha & Hb). cbn [t_rem].
    destruct (strip l k) as [[|c r]|] eqn:E.
    + intros [= <-]. destruct (decide (k' = k)) as [->|]; [|reflexivity]. cbn [t_get]. rewrite E. reflexivity.
    + apply strip_some in E. subst k. destruct c.
      * destruct (t_rem b r) as [b'|] eqn:E1; intros [= <-].
        -- cbn [t_get]. destruct (strip l k') as [[|[] r']|] eqn:E';
             try (destruct (decide (k' = l ++ true :: r)) as [->|]; [rewrite strip_app in E'; congruence|reflexivity]).
           apply strip_some in E'. subst k'. rewrite (IHb m _ _ _ Hb E1). destruct (decide (r' = r)) as [->|Hr].
           ++ rewrite decide_True by reflexivity. reflexivity.
           ++ rewrite decide_False by (intros H; apply app_inv_head in H; congruence). reflexivity.
        -- replace (l ++ false :: lbl a) with ((l ++ [false]) ++ lbl a) by (rewrite <- app_assoc; reflexivity).
           rewrite get_relabel_pre, strip_app_l. cbn [t_get].
           destruct (t_rem_none _ _ E1) as [w ->].
           destruct (strip l k') as [[|[] r']|] eqn:E'; cbn [strip Bool.eqb].
           ++ destruct (decide (k' = l ++ true :: r)) as [->|]; reflexivity.
           ++ apply strip_some in E'. subst k'. destruct (decide (l ++ true :: r' = l ++ true :: r)) as [|Hn]; [reflexivity|].
              cbn [t_get]. destruct (strip r r') as [[|]|] eqn:E3; try reflexivity. apply strip_some in E3. rewrite app_nil_r in E3. congruence.
           ++ destruct (decide (k' = l ++ true :: r)) as [->|]; [rewrite strip_app in E'; congruence|reflexivity].
           ++ destruct (decide (k' = l ++ true :: r)) as [->|]; reflexivity.
      * destruct (t_rem a r) as [a'|] eqn:E1; intros [= <-].
        -- cbn [t_get]. destruct (strip l k') as [[|[] r']|] eqn:E';
             try (destruct (decide (k' = l ++ false :: r)) as [->|]; [rewrite strip_app in E'; congruence|reflexivity]).
           apply strip_some in E'. subst k'. rewrite (IHa m _ _ _ Ha E1). destruct (decide (r' = r)) as [->|Hr].
           ++ rewrite decide_True by reflexivity. reflexivity.
           ++ rewrite decide_False by (intros H; apply app_inv_head in H; congruence). reflexivity.
        -- replace (l ++ true :: lbl b) with ((l ++ [true]) ++ lbl b) by (rewrite <- app_assoc; reflexivity).
           rewrite get_relabel_pre, strip_app_l. cbn [t_get].
           destruct (t_rem_none _ _ E1) as [w ->].
           destruct (strip l k') as [[|[] r']|] eqn:E'; cbn [strip Bool.eqb].
           ++ destruct (decide (k' = l ++ false :: r)) as [->|]; reflexivity.
           ++ destruct (decide (k' = l ++ false :: r)) as [->|]; [rewrite strip_app in E'; congruence|reflexivity].
           ++ apply strip_some in E'. subst k'. destruct (decide (l ++ false :: r' = l ++ false :: r)) as [|Hn]; [reflexivity|].
              cbn [t_get]. destruct (strip r r') as [[|]|] eqn:E3; try reflexivity. apply strip_some in E3. rewrite app_nil_r in E3. congruence.
           ++ destruct (decide (k' = l ++ false :: r)) as [->|]; reflexivity.
    + intros [= <-]. destruct (decide (k' = k)) as [->|]; [|reflexivity]. cbn [t_get]. rewrite E. reflexivity.
Qed.

Definition oentries (o : option pt) : list entry := match o with Some t => entries t | None => [] end.

Lemma t_rem_map n t k : wft n t -> dmap (oentries (t_rem t k)) = delete k (dmap (entries t)).
Proof.
  intros Ht. apply map_eq. intros k'. destruct (t_rem t k) as [t'|] eqn:E; cbn [oentries].
  - rewrite t_get_spec, (t_rem_get n t k k' t') by assumption.
    destruct (decide (k' = k)) as [->|Hn]; [rewrite lookup_delete; reflexivity|].
    rewrite lookup_delete_ne by congruence. rewrite t_get_spec. reflexivity.
  - destruct (t_rem_none _ _ E) as [v ->]. cbn [entries]. unfold dmap. cbn [list_to_map foldr fst snd].
    change (list_to_map []) with (∅ : gmap (list bool) chunk). rewrite delete_insert by apply lookup_empty. reflexivity.
Qed.
