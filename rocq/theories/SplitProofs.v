(** * Splitting and merging dictionaries: proofs. *)
From Verif Require Import Err BitsProofs CellModel LabelModel LabelSpec LabelProofs DictModel DictSpec DictTree
  DictProofs DictProofs2 DictProofs3 SplitSpec.
Local Open Scope nat_scope.

Lemma part_lookup (p : list bool) (m : gmap (list bool) chunk) (k : list bool) :
  part p m !! k = match strip p k with Some _ => m !! k | None => None end.
Proof.
  unfold part. destruct (strip p k) as [r|] eqn:E.
  - apply strip_some in E. destruct (m !! k) as [v|] eqn:Ek.
    + apply map_filter_lookup_Some. split; [exact Ek|]. exists r. exact E.
    + apply map_filter_lookup_None. left. exact Ek.
  - apply map_filter_lookup_None. right. intros v _ [r Hr]. cbn [fst] in Hr. rewrite strip_none in E. exact (E r Hr).
Qed.

Lemma get_relabel_under q t k : t_get (relabel (q ++ lbl t) t) k = match strip q k with Some k' => t_get t k' | None => None end.
Proof. destruct t as [l v|l x a b]; cbn [relabel lbl t_get]; rewrite strip_app_l; destruct (strip q k); reflexivity. Qed.

Lemma entries_lookup_len n t k v : wft n t -> dmap (entries t) !! k = Some v -> length k = n.
Proof. rewrite t_get_spec. apply t_get_len. Qed.

(** A prefix of all keys is a prefix of the label. *)
Lemma prefix_of_all n t q : wft n t -> (forall k v, t_get t k = Some v -> q `prefix_of` k) -> exists r, lbl t = q ++ r.
Proof.
  destruct t as [l v|l x a b]; cbn [wft lbl]; intros Hw H.
  - destruct (H l v) as [r Hr]; [|exists r; exact Hr]. cbn [t_get]. rewrite strip_self. reflexivity.
  - destruct Hw as (m & -> & Ha & Hb). destruct (t_nonempty _ _ Ha) as (ka & va & Ga), (t_nonempty _ _ Hb) as (kb & vb & Gb).
    destruct (H (l ++ false :: ka) va) as [r Hr]; [cbn [t_get]; rewrite strip_app; exact Ga|].
    destruct (H (l ++ true :: kb) vb) as [s Hs]; [cbn [t_get]; rewrite strip_app; exact Gb|].
    clear -Hr Hs. revert l Hr Hs. induction q as [|y q IH]; intros l Hr Hs; [exists l; reflexivity|].
    destruct l as [|z l]; cbn [app] in Hr, Hs; [congruence|]. injection Hr as -> Hr. injection Hs as Hs.
    destruct (IH _ Hr Hs) as [w ->]. exists w. reflexivity.
Qed.

Lemma cpfx_split a b : exists a' b', a = cpfx a b ++ a' /\ b = cpfx a b ++ b'.
Proof.
  revert b. induction a as [|x a IH]; intros [|y b]; cbn [cpfx]; try (eexists _, _; split; reflexivity).
  destruct (Bool.eqb x y) eqn:E; [|eexists _, _; split; reflexivity]. apply eqb_prop in E. subst y.
  destruct (IH b) as (a' & b' & Ea & Eb). exists a', b'. cbn [app]. rewrite <- Ea, <- Eb. split; reflexivity.
Qed.

Section W.
Context (fin : list bool -> list cell -> res unit).
Notation CR := (canonical_dict fin).
Notation cell_ok := (cell_ok fin).

Lemma rebuild_branch_iff p n m c t bit refs : n <= 1023 -> n = length p + S m ->
  forall bits crefs rest, c = Cell false bits crefs -> read_label m bits = Ok (lbl t, rest) -> wft m t ->
  forall o, rebuild_branch fin p n m (c :: refs) bit = Ok o <->
    exists c', o = (c', refs) /\ make_leaf fin (p ++ bit :: lbl t) n (rest, crefs) = Ok c'.
Proof.
  intros Hn Hm bits crefs rest -> El Hw o. pose proof (lbl_le _ _ Hw) as Hl.
  unfold rebuild_branch. cbn [as_slice c_exotic c_bits c_refs rbind s_bits s_refs]. rewrite El. cbn [rbind].
  rewrite put_ok by (cbn [length]; lia). cbn [rbind app]. rewrite put_ok by (cbn [length]; lia). cbn [rbind].
  rewrite put_ok by (rewrite app_length; cbn [length]; lia). cbn [rbind]. rewrite <- app_assoc. cbn [app].
  unfold make_leaf. destruct (write_label (p ++ bit :: lbl t) n []) as [b|]; cbn [rbind]; [|split; [discriminate|intros (? & _ & X); discriminate X]].
  destruct (putc (rest, crefs) (b, [])) as [ch|]; cbn [rbind]; [|split; [discriminate|intros (? & _ & X); discriminate X]].
  destruct (build fin ch) as [c|]; cbn [rbind]; [|split; [discriminate|intros (? & _ & X); discriminate X]].
  split; [intros [= <-]; exists c; auto|intros (c' & -> & [= <-]); reflexivity].
Qed.

Lemma rebuild_branch_sound R p n m c t bit refs : reads R -> writes fin R -> n <= 1023 -> n = length p + S m -> Rep R m c t ->
  forall o, rebuild_branch fin p n m (c :: refs) bit = Ok o -> snd o = refs /\ Rep R n (fst o) (relabel (p ++ bit :: lbl t) t).
Proof.
  intros HR HW Hn Hm H o E. destruct (Rep_inv R m c t HR ltac:(lia) H) as (bits & crefs & rest & Ec & _ & El & _).
  pose proof (Rep_wft _ _ _ _ H) as Hw. pose proof (lbl_le _ _ Hw) as Hl.
  pose proof (Rep_content fin R HR HW _ _ _ _ _ _ H ltac:(lia) Ec El) as Hc.
  apply (rebuild_branch_iff p n m c t bit refs Hn Hm bits crefs rest Ec El Hw) in E. destruct E as (c' & -> & E).
  apply make_leaf_iff in E; [|rewrite app_length; cbn [length]; lia|exact Hn]. destruct E as [-> Hok]. split; [reflexivity|].
  apply (Rep_relabel fin R HW n t (rest, crefs)); [exact Hc| |exact Hn|exact Hok].
  eapply relabel_wft; [exact Hw|]. rewrite app_length. cbn [length]. lia.
Qed.
Lemma rebuild_branch_complete p n m c t bit refs c' : n <= 1023 -> n = length p + S m -> Rep CR m c t ->
  Rep CR n c' (relabel (p ++ bit :: lbl t) t) -> rebuild_branch fin p n m (c :: refs) bit = Ok (c', refs).
Proof.
  intros Hn Hm H H'. destruct (Rep_inv CR m c t (reads_canonical fin) ltac:(lia) H) as (bits & crefs & rest & Ec & _ & El & _).
  pose proof (Rep_wft _ _ _ _ H) as Hw. pose proof (lbl_le _ _ Hw) as Hl.
  pose proof (Rep_content fin CR (reads_canonical fin) (writes_canonical fin) _ _ _ _ _ _ H ltac:(lia) Ec El) as Hc.
  apply (Rep_relabel_inv fin _ _ _ _ _ Hc) in H'. cbn [fst snd] in H'.
  apply (rebuild_branch_iff p n m c t bit refs Hn Hm bits crefs rest Ec El Hw). exists c'. split; [reflexivity|].
  apply make_leaf_iff; [rewrite app_length; cbn [length]; lia|exact Hn|exact H'].
Qed.

(** The two halves of a fork with the label [p]. *)
Lemma part_fork p x a b (bit : bool) k :
  part (p ++ [bit]) (dmap (entries (Fork p x a b))) !! k =
  t_get (relabel (p ++ bit :: lbl (if bit then b else a)) (if bit then b else a)) k.
Proof.
  replace (p ++ bit :: lbl (if bit then b else a)) with ((p ++ [bit]) ++ lbl (if bit then b else a)) by (rewrite <- app_assoc; reflexivity).
  rewrite part_lookup, get_relabel_under, t_get_spec. cbn [t_get]. rewrite strip_app_l.
  destruct (strip p k) as [[|y r]|]; [reflexivity| |reflexivity]. destruct bit, y; reflexivity.
Qed.
Lemma part_label t q : (exists r, lbl t = q ++ r) -> part q (dmap (entries t)) = dmap (entries t).
Proof.
  intros [r E]. apply map_eq. intros k. rewrite part_lookup, t_get_spec. destruct (strip q k) as [k'|] eqn:S; [reflexivity|].
  symmetry. apply get_strip. rewrite E, strip_app_l, S. reflexivity.
Qed.
Lemma part_none t p (bit : bool) r : lbl t = p ++ negb bit :: r -> part (p ++ [bit]) (dmap (entries t)) = ∅.
Proof.
  intros E. apply map_eq. intros k. rewrite part_lookup, t_get_spec, lookup_empty, strip_app_l. destruct (strip p k) as [[|y k']|] eqn:S; [reflexivity| |reflexivity].
  cbn [strip]. destruct (Bool.eqb bit y) eqn:X; [|reflexivity]. apply eqb_prop in X. subst y. apply get_strip. rewrite E, strip_app_l, S.
  cbn [strip]. destruct bit; reflexivity.
Qed.

Lemma split_prefix_sound R n d es p : reads R -> writes fin R -> n <= 1023 -> is_dict R n d es ->
  forall l r, dict_split_by_prefix fin d n p = Ok (l, r) ->
  exists el er, is_dict R n l el /\ is_dict R n r er /\
    dmap el = part (p ++ [false]) (dmap es) /\ dmap er = part (p ++ [true]) (dmap es).
Proof.
  intros HR HW Hn Hd l r. unfold dict_split_by_prefix. destruct (Nat.eqb_spec n 0) as [->|N0].
  { intros [= <- <-]. exists [], []. split; [reflexivity|]. split; [reflexivity|].
    assert (E : forall bit, part (p ++ [bit]) (dmap es) = ∅).
    { intros bit. apply map_eq. intros k. rewrite part_lookup, lookup_empty. destruct (strip (p ++ [bit]) k) as [k'|] eqn:S; [|reflexivity].
      destruct (dmap es !! k) as [v|] eqn:Ek; [|reflexivity]. exfalso. destruct d as [c|]; cbn [is_dict] in Hd.
      - apply hashmap_rep in Hd. destruct Hd as (t & Ht & ->). apply (entries_lookup_len 0) in Ek; [|eapply Rep_wft; exact Ht].
        apply strip_some in S. subst k. rewrite !app_length in Ek. cbn [length] in Ek. lia.
      - subst es. cbn in Ek. rewrite lookup_empty in Ek. discriminate. }
    rewrite !E. split; reflexivity. }
  destruct d as [c|]; cbn [is_dict] in Hd.
  2:{ subst es. intros [= <- <-]. exists [], []. split; [reflexivity|]. split; [reflexivity|]. split; symmetry; apply map_filter_empty. }
  apply hashmap_rep in Hd. destruct Hd as (t & Ht & ->).
  destruct (Rep_inv R n c t HR Hn Ht) as (bits & refs & rest & Ec & Es & El & Hsh). rewrite Es. cbn [rbind s_bits s_refs].
  rewrite El. cbn [rbind]. destruct (strip p (lbl t)) as [[|b w]|] eqn:S; [| |discriminate].
  - apply strip_some in S. rewrite app_nil_r in S. destruct (Nat.ltb_spec n (length (lbl t) + 1)); [discriminate|].
    destruct t as [l0 v|l0 x a b]; cbn [lbl] in *; [lia|]. subst l0. destruct Hsh as (m & cl & cr & Hm & -> & -> & Ha & Hb).
    replace (n - (length p + 1)) with m by lia.
    destruct (rebuild_branch fin p n m (cl :: cr :: snd x) false) as [[c1 r1]|] eqn:E1; cbn [rbind]; [|discriminate].
    apply (rebuild_branch_sound R p n m cl a false _ HR HW Hn Hm Ha) in E1. cbn [fst snd] in E1. destruct E1 as [-> E1].
    destruct (rebuild_branch fin p n m (cr :: snd x) true) as [[c2 r2]|] eqn:E2; cbn [rbind]; [|discriminate].
    apply (rebuild_branch_sound R p n m cr b true _ HR HW Hn Hm Hb) in E2. cbn [fst snd] in E2. destruct E2 as [-> E2].
    intros [= <- <-]. exists (entries (relabel (p ++ false :: lbl a) a)), (entries (relabel (p ++ true :: lbl b) b)).
    split; [apply hashmap_rep; eauto|]. split; [apply hashmap_rep; eauto|].
    split; apply map_eq; intros k; rewrite t_get_spec, part_fork; reflexivity.
  - apply strip_some in S. intros E.
    assert (E' : l = (if b then None else Some c) /\ r = (if b then Some c else None)) by (destruct b; injection E as <- <-; auto).
    destruct E' as [-> ->]. clear E. destruct b.
    + exists [], (entries t). split; [reflexivity|]. split; [apply hashmap_rep; eauto|]. split.
      * symmetry. exact (part_none t p false w S).
      * symmetry. apply part_label. exists w. rewrite S, <- app_assoc. reflexivity.
    + exists (entries t), []. split; [apply hashmap_rep; eauto|]. split; [reflexivity|]. split.
      * symmetry. apply part_label. exists w. rewrite S, <- app_assoc. reflexivity.
      * symmetry. exact (part_none t p true w S).
Qed.

Lemma split_prefix_complete n d es p l r el er : n <= 1023 -> length p < n -> is_dict CR n d es ->
  (forall k v, dmap es !! k = Some v -> p `prefix_of` k) ->
  is_dict CR n l el -> is_dict CR n r er ->
  dmap el = part (p ++ [false]) (dmap es) -> dmap er = part (p ++ [true]) (dmap es) ->
  dict_split_by_prefix fin d n p = Ok (l, r).
Proof.
  intros Hn Hp Hd Hall Hl Hr Ml Mr. unfold dict_split_by_prefix. destruct (Nat.eqb_spec n 0) as [->|N0]; [lia|].
  assert (U : forall d1 e1 d2 e2, is_dict CR n d1 e1 -> is_dict CR n d2 e2 -> dmap e1 = dmap e2 -> d1 = d2).
  { intros d1 e1 d2 e2 D1 D2 E. exact (proj1 (dict_unique fin n d1 d2 e1 e2 D1 D2 E)). }
  destruct d as [c|]; cbn [is_dict] in Hd.
  2:{ subst es. rewrite (U l el None [] Hl eq_refl), (U r er None [] Hr eq_refl); [reflexivity| |].
      - rewrite Mr. apply map_filter_empty.
      - rewrite Ml. apply map_filter_empty. }
  pose proof Hd as Hd0. apply hashmap_rep in Hd. destruct Hd as (t & Ht & ->). pose proof (Rep_wft _ _ _ _ Ht) as Hw.
  destruct (Rep_inv CR n c t (reads_canonical fin) Hn Ht) as (bits & refs & rest & Ec & Es & El & Hsh). rewrite Es. cbn [rbind s_bits s_refs].
  rewrite El. cbn [rbind].
  destruct (prefix_of_all n t p Hw) as [w Hw']; [intros k v G; apply (Hall k v); rewrite t_get_spec; exact G|].
  rewrite Hw', strip_app. destruct w as [|b w].
  - rewrite app_nil_r in *. destruct (Nat.ltb_spec n (length p + 1)); [lia|].
    destruct t as [l0 v|l0 x a b]; cbn [lbl wft] in *; [subst; lia|]. subst l0. destruct Hsh as (m & cl & cr & Hm & -> & -> & Ha & Hb).
    replace (n - (length p + 1)) with m by lia.
    assert (B : forall (bit : bool) cc o eo, (if bit then Rep CR m cc b else Rep CR m cc a) -> is_dict CR n o eo ->
      dmap eo = part (p ++ [bit]) (dmap (entries (Fork p x a b))) ->
      exists c', o = Some c' /\ Rep CR n c' (relabel (p ++ bit :: lbl (if bit then b else a)) (if bit then b else a))).
    { intros bit cc o eo HH Ho Mo. set (s := if bit then b else a). assert (Hs : Rep CR m cc s) by (subst s; destruct bit; exact HH).
      assert (Ws : wft n (relabel (p ++ bit :: lbl s) s)).
      { eapply relabel_wft; [eapply Rep_wft; exact Hs|]. rewrite app_length. cbn [length]. lia. }
      assert (Mt : forall k, dmap eo !! k = t_get (relabel (p ++ bit :: lbl s) s) k) by (intros k; rewrite Mo; apply part_fork).
      destruct o as [c'|]; cbn [is_dict] in Ho.
      - exists c'. split; [reflexivity|]. apply hashmap_rep in Ho. destruct Ho as (t' & Ht' & ->).
        replace (relabel (p ++ bit :: lbl s) s) with t'; [exact Ht'|].
        apply (t_ext n); [eapply Rep_wft; exact Ht'|exact Ws|eapply (Rep_plain CR fin); [apply writes_canonical|exact Ht']| |].
        + assert (P : plain s) by (eapply (Rep_plain CR fin); [apply writes_canonical|exact Hs]). destruct s; exact P.
        + intros k. rewrite <- t_get_spec. apply Mt.
      - exfalso. subst eo. destruct (t_nonempty _ _ Ws) as (k & v & G). rewrite <- Mt in G. cbn in G. rewrite lookup_empty in G. discriminate. }
    destruct (B false cl l el Ha Hl Ml) as (c1 & -> & R1). destruct (B true cr r er Hb Hr Mr) as (c2 & -> & R2).
    rewrite (rebuild_branch_complete p n m cl a false _ c1 Hn Hm Ha R1). cbn [rbind].
    rewrite (rebuild_branch_complete p n m cr b true _ c2 Hn Hm Hb R2). reflexivity.
  - destruct b.
    + rewrite (U l el None [] Hl eq_refl), (U r er (Some c) (entries t) Hr Hd0); [reflexivity| |].
      * rewrite Mr. apply part_label. exists w. rewrite Hw', <- app_assoc. reflexivity.
      * rewrite Ml. exact (part_none t p false w Hw').
    + rewrite (U r er None [] Hr eq_refl), (U l el (Some c) (entries t) Hl Hd0); [reflexivity| |].
      * rewrite Ml. apply part_label. exists w. rewrite Hw', <- app_assoc. reflexivity.
      * rewrite Mr. exact (part_none t p true w Hw').
Qed.

(** ** Merging *)
Lemma merge_map n p l1 l2 t1 t2 : wft n t1 -> lbl t1 = p ++ false :: l1 -> lbl t2 = p ++ true :: l2 ->
  dmap (entries (Fork p ([], []) (relabel l1 t1) (relabel l2 t2))) = dmap (entries t1) ∪ dmap (entries t2).
Proof.
  intros _ E1 E2. apply map_eq. intros k. rewrite lookup_union, !t_get_spec. cbn [t_get].
  assert (G : forall t q l k0, lbl t = q ++ l -> t_get t (q ++ k0) = t_get (relabel l t) k0).
  { intros t q l k0 E. destruct t as [l0 v|l0 x a b]; cbn [lbl relabel t_get] in *; subst l0; rewrite strip_app_l, strip_app; reflexivity. }
  assert (N : forall t q, (exists l, lbl t = q ++ l) -> strip q k = None -> t_get t k = None).
  { intros t q [l E] S. apply get_strip. rewrite E, strip_app_l, S. reflexivity. }
  destruct (strip p k) as [[|[] r]|] eqn:S.
  - apply strip_some in S. subst k.
    rewrite (N t1 (p ++ [false])), (N t2 (p ++ [true])); try reflexivity; try (rewrite strip_app_l, strip_app; reflexivity).
    + exists l2. rewrite E2, <- app_assoc. reflexivity.
    + exists l1. rewrite E1, <- app_assoc. reflexivity.
  - apply strip_some in S. subst k. rewrite (N t1 (p ++ [false])).
    + replace (p ++ true :: r) with ((p ++ [true]) ++ r) by (rewrite <- app_assoc; reflexivity).
      rewrite (G t2 (p ++ [true]) l2); [destruct (t_get (relabel l2 t2) r); reflexivity|]. rewrite E2, <- app_assoc. reflexivity.
    + exists l1. rewrite E1, <- app_assoc. reflexivity.
    + rewrite strip_app_l, strip_app. reflexivity.
  - apply strip_some in S. subst k. rewrite (N t2 (p ++ [true])).
    + replace (p ++ false :: r) with ((p ++ [false]) ++ r) by (rewrite <- app_assoc; reflexivity).
      rewrite (G t1 (p ++ [false]) l1); [destruct (t_get (relabel l1 t1) r); reflexivity|]. rewrite E1, <- app_assoc. reflexivity.
    + exists l2. rewrite E2, <- app_assoc. reflexivity.
    + rewrite strip_app_l, strip_app. reflexivity.
  - rewrite (N t1 p), (N t2 p); try reflexivity; try exact S; eauto.
Qed.

(** The computation once the labels diverge after [p]. *)
Lemma merge_roots_eq n c1 c2 t1 t2 bits1 refs1 rest1 bits2 refs2 rest2 p l1 l2 :
  c1 = Cell false bits1 refs1 -> c2 = Cell false bits2 refs2 ->
  read_label n bits1 = Ok (lbl t1, rest1) -> read_label n bits2 = Ok (lbl t2, rest2) ->
  lbl t1 = p ++ false :: l1 -> lbl t2 = p ++ true :: l2 -> length (lbl t1) <= n ->
  merge_sibling_roots fin n c1 c2 =
    (let? lf := make_leaf fin l1 (n - 1 - length p) (rest1, refs1) in
     let? rt := make_leaf fin l2 (n - 1 - length p) (rest2, refs2) in
     make_fork fin p n lf rt).
Proof.
  intros -> -> L1 L2 E1 E2 Hn. unfold merge_sibling_roots. cbn [as_slice c_exotic c_bits c_refs rbind s_bits s_refs].
  rewrite L1. cbn [rbind]. rewrite L2. cbn [rbind]. rewrite E1, E2 in *.
  assert (C : cpfx (p ++ false :: l1) (p ++ true :: l2) = p) by apply (cpfx_diverge p false). rewrite C.
  rewrite !app_length in *. cbn [length] in *.
  destruct (Nat.eqb_spec (Nat.min (length p + S (length l1)) (length p + S (length l2))) 0); [lia|].
  rewrite (proj2 (Nat.leb_gt (Nat.min (length p + S (length l1)) (length p + S (length l2))) (length p))) by lia.
  rewrite (proj2 (Nat.ltb_ge n (length p + 1))) by lia. cbn [orb].
  unfold skip_bits. rewrite !app_length. cbn [length].
  rewrite (proj2 (Nat.ltb_ge (length p + S (length l1)) (length p))) by lia. cbn [rbind].
  rewrite (proj2 (Nat.ltb_ge (length p + S (length l2)) (length p))) by lia. cbn [rbind].
  rewrite !drop_app. cbn [load_bit rbind orb negb]. reflexivity.
Qed.
Lemma merge_roots_diverge n c1 c2 t1 t2 bits1 refs1 rest1 bits2 refs2 rest2 c :
  c1 = Cell false bits1 refs1 -> c2 = Cell false bits2 refs2 ->
  read_label n bits1 = Ok (lbl t1, rest1) -> read_label n bits2 = Ok (lbl t2, rest2) ->
  merge_sibling_roots fin n c1 c2 = Ok c ->
  exists p l1 l2, lbl t1 = p ++ false :: l1 /\ lbl t2 = p ++ true :: l2.
Proof.
  intros -> -> L1 L2. unfold merge_sibling_roots. cbn [as_slice c_exotic c_bits c_refs rbind s_bits s_refs].
  rewrite L1. cbn [rbind]. rewrite L2. cbn [rbind].
  destruct (cpfx_split (lbl t1) (lbl t2)) as (w1 & w2 & E1 & E2). set (p := cpfx (lbl t1) (lbl t2)) in *.
  destruct (_ =? 0); [discriminate|]. destruct (_ || _)%bool; [discriminate|].
  unfold skip_bits. destruct (_ <? _); cbn [rbind]; [discriminate|]. destruct (_ <? _); cbn [rbind]; [discriminate|].
  assert (D1 : drop (length p) (lbl t1) = w1) by (rewrite E1 at 1; apply drop_app).
  assert (D2 : drop (length p) (lbl t2) = w2) by (rewrite E2 at 1; apply drop_app).
  rewrite D1, D2.
  destruct w1 as [|[] w1], w2 as [|[] w2]; cbn [load_bit rbind orb negb]; try discriminate. intros _.
  exists p, w1, w2. split; assumption.
Qed.

Lemma merge_roots_sound R n c1 c2 t1 t2 c : reads R -> writes fin R -> n <= 1023 -> Rep R n c1 t1 -> Rep R n c2 t2 ->
  merge_sibling_roots fin n c1 c2 = Ok c ->
  exists p l1 l2, lbl t1 = p ++ false :: l1 /\ lbl t2 = p ++ true :: l2 /\
    Rep R n c (Fork p ([], []) (relabel l1 t1) (relabel l2 t2)).
Proof.
  intros HR HW Hn H1 H2 E.
  destruct (Rep_inv R n c1 t1 HR Hn H1) as (bits1 & refs1 & rest1 & Ec1 & _ & El1 & _).
  destruct (Rep_inv R n c2 t2 HR Hn H2) as (bits2 & refs2 & rest2 & Ec2 & _ & El2 & _).
  destruct (merge_roots_diverge _ _ _ _ _ _ _ _ _ _ _ _ Ec1 Ec2 El1 El2 E) as (p & l1 & l2 & E1 & E2).
  exists p, l1, l2. split; [exact E1|]. split; [exact E2|].
  pose proof (Rep_wft _ _ _ _ H1) as W1. pose proof (Rep_wft _ _ _ _ H2) as W2.
  pose proof (lbl_le _ _ W1) as Hl1. pose proof (lbl_le _ _ W2) as Hl2.
  rewrite (merge_roots_eq _ _ _ _ _ _ _ _ _ _ _ _ _ _ Ec1 Ec2 El1 El2 E1 E2 Hl1) in E.
  pose proof (Rep_content fin R HR HW _ _ _ _ _ _ H1 Hn Ec1 El1) as C1.
  pose proof (Rep_content fin R HR HW _ _ _ _ _ _ H2 Hn Ec2 El2) as C2.
  rewrite E1, app_length in Hl1. rewrite E2, app_length in Hl2. cbn [length] in Hl1, Hl2.
  set (k := n - 1 - length p) in *.
  destruct (make_leaf fin l1 k (rest1, refs1)) as [lf|] eqn:M1; cbn [rbind] in E; [|discriminate].
  destruct (make_leaf fin l2 k (rest2, refs2)) as [rt|] eqn:M2; cbn [rbind] in E; [|discriminate].
  apply make_leaf_iff in M1; [|lia|lia]. apply make_leaf_iff in M2; [|lia|lia]. apply make_fork_iff in E; [|lia|lia].
  destruct M1 as [M1 K1], M2 as [M2 K2], E as [-> K].
  apply (Rep_relabel fin R HW k t1 (rest1, refs1)) in K1; [|exact C1| |lia].
  2:{ eapply relabel_wft; [exact W1|]. rewrite E1, app_length. cbn [length]. lia. }
  apply (Rep_relabel fin R HW k t2 (rest2, refs2)) in K2; [|exact C2| |lia].
  2:{ eapply relabel_wft; [exact W2|]. rewrite E2, app_length. cbn [length]. lia. }
  rewrite <- M1 in K1. rewrite <- M2 in K2. destruct HW as (V1 & V2 & V3 & V4).
  apply (Rep_fork R n k _ p ([], []) lf rt); [|lia|exact V3| |exact K1|exact K2].
  - cbn [fst]. rewrite <- (app_nil_r (label_bits n p)). apply V1. lia.
  - cbn [snd]. destruct K as (Q1 & Q2 & Q3). apply V4; assumption.
Qed.

Lemma merge_siblings_sound R n l r el er d : reads R -> writes fin R -> n <= 1023 -> is_dict R n l el -> is_dict R n r er ->
  dict_merge_siblings fin l r n = Ok d ->
  exists es, is_dict R n d es /\ dmap es = dmap el ∪ dmap er.
Proof.
  intros HR HW Hn Hl Hr. unfold dict_merge_siblings. destruct l as [c1|], r as [c2|]; cbn [is_dict] in Hl, Hr.
  - apply hashmap_rep in Hl, Hr. destruct Hl as (t1 & H1 & ->), Hr as (t2 & H2 & ->).
    destruct (merge_sibling_roots fin n c1 c2) as [c|] eqn:E; cbn [rbind]; [|discriminate]. intros [= <-].
    destruct (merge_roots_sound R n c1 c2 t1 t2 c HR HW Hn H1 H2 E) as (p & l1 & l2 & E1 & E2 & H).
    exists (entries (Fork p ([], []) (relabel l1 t1) (relabel l2 t2))). split; [apply hashmap_rep; eauto|].
    apply (merge_map n); [eapply Rep_wft; exact H1|assumption|assumption].
  - subst er. intros [= <-]. exists el. split; [exact Hl|]. symmetry. apply (right_id_L ∅ (∪)).
  - subst el. intros [= <-]. exists er. split; [exact Hr|]. symmetry. apply (left_id_L ∅ (∪)).
  - subst. intros [= <-]. exists []. split; [reflexivity|]. symmetry. apply (left_id_L ∅ (∪)).
Qed.

Lemma merge_siblings_complete n l r el er d es p : n <= 1023 -> is_dict CR n l el -> is_dict CR n r er ->
  (forall k v, dmap el !! k = Some v -> (p ++ [false]) `prefix_of` k) ->
  (forall k v, dmap er !! k = Some v -> (p ++ [true]) `prefix_of` k) ->
  is_dict CR n d es -> dmap es = dmap el ∪ dmap er ->
  dict_merge_siblings fin l r n = Ok d.
Proof.
  intros Hn Hl Hr Al Ar Hd Hm.
  assert (U : forall d1 e1, is_dict CR n d1 e1 -> dmap e1 = dmap es -> d1 = d).
  { intros d1 e1 D1 E. exact (proj1 (dict_unique fin n d1 d e1 es D1 Hd E)). }
  unfold dict_merge_siblings. destruct l as [c1|], r as [c2|]; cbn [is_dict] in Hl, Hr.
  - apply hashmap_rep in Hl, Hr. destruct Hl as (t1 & H1 & ->), Hr as (t2 & H2 & ->).
    pose proof (Rep_wft _ _ _ _ H1) as W1. pose proof (Rep_wft _ _ _ _ H2) as W2.
    pose proof (lbl_le _ _ W1) as Hl1. pose proof (lbl_le _ _ W2) as Hl2.
    destruct (prefix_of_all n t1 (p ++ [false]) W1) as [l1 E1]; [intros k v G; apply (Al k v); rewrite t_get_spec; exact G|].
    destruct (prefix_of_all n t2 (p ++ [true]) W2) as [l2 E2]; [intros k v G; apply (Ar k v); rewrite t_get_spec; exact G|].
    rewrite <- app_assoc in E1, E2. cbn [app] in E1, E2.
    destruct (Rep_inv CR n c1 t1 (reads_canonical fin) Hn H1) as (bits1 & refs1 & rest1 & Ec1 & _ & El1 & _).
    destruct (Rep_inv CR n c2 t2 (reads_canonical fin) Hn H2) as (bits2 & refs2 & rest2 & Ec2 & _ & El2 & _).
    rewrite (merge_roots_eq _ _ _ _ _ _ _ _ _ _ _ _ _ _ Ec1 Ec2 El1 El2 E1 E2 Hl1).
    pose proof (Rep_content fin CR (reads_canonical fin) (writes_canonical fin) _ _ _ _ _ _ H1 Hn Ec1 El1) as C1.
    pose proof (Rep_content fin CR (reads_canonical fin) (writes_canonical fin) _ _ _ _ _ _ H2 Hn Ec2 El2) as C2.
    rewrite E1, app_length in Hl1. rewrite E2, app_length in Hl2. cbn [length] in Hl1, Hl2.
    set (T := Fork p ([], []) (relabel l1 t1) (relabel l2 t2)).
    assert (MT : dmap (entries T) = dmap es) by (rewrite Hm; apply (merge_map n); assumption).
    assert (WT : wft n T).
    { cbn [wft T]. exists (n - 1 - length p). split; [lia|]. split; (eapply relabel_wft; [eassumption|]); [rewrite E1|rewrite E2]; rewrite app_length; cbn [length]; lia. }
    destruct d as [c|]; cbn [is_dict] in Hd.
    2:{ exfalso. subst es. destruct (t_nonempty _ _ WT) as (k & v & G). rewrite <- t_get_spec, MT in G. cbn in G. rewrite lookup_empty in G. discriminate. }
    apply hashmap_rep in Hd. destruct Hd as (t & Ht & ->).
    assert (t = T) as ->.
    { apply (t_ext n); [eapply Rep_wft; exact Ht|exact WT|eapply (Rep_plain CR fin); [apply writes_canonical|exact Ht]| |].
      - assert (P1 : plain t1) by (eapply (Rep_plain CR fin); [apply writes_canonical|exact H1]).
        assert (P2 : plain t2) by (eapply (Rep_plain CR fin); [apply writes_canonical|exact H2]).
        cbn [plain T]. split; [reflexivity|]. split; [destruct t1; exact P1|destruct t2; exact P2].
      - intros k. rewrite <- !t_get_spec, MT. reflexivity. }
    apply Rep_canon_fork in Ht. destruct Ht as (m & cl & cr & -> & K & _ & Hm' & K1 & K2).
    replace (n - 1 - length p) with m by lia.
    apply (Rep_relabel_inv fin _ _ _ _ _ C1) in K1. apply (Rep_relabel_inv fin _ _ _ _ _ C2) in K2.
    cbn [fst snd] in K1, K2.
    rewrite (proj2 (make_leaf_iff fin l1 m (rest1, refs1) cl ltac:(lia) ltac:(lia)) K1). cbn [rbind].
    rewrite (proj2 (make_leaf_iff fin l2 m (rest2, refs2) cr ltac:(lia) ltac:(lia)) K2). cbn [rbind].
    rewrite (proj2 (make_fork_iff fin p n cl cr _ ltac:(lia) ltac:(lia)) (conj eq_refl K)). reflexivity.
  - subst er. apply f_equal, (U (Some c1) el Hl). rewrite Hm. symmetry. apply (right_id_L ∅ (∪)).
  - subst el. apply f_equal, (U (Some c2) er Hr). rewrite Hm. symmetry. apply (left_id_L ∅ (∪)).
  - subst. apply f_equal, (U None [] eq_refl). rewrite Hm. symmetry. apply (left_id_L ∅ (∪)).
Qed.
End W.
