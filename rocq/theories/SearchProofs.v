(** * Proofs for C63 *)
From Coq Require Import Sorting.Sorted.
From Verif Require Import Err BitsProofs CellModel LabelModel LabelProofs DictModel DictSpec DictTree DictProofs ChunkSpec ChunkModel AugModel AugSpec AugProofs AugProofs3 AugProps DictOrder SearchModel.
Local Open Scope nat_scope.

Section Search.
Context {A : Type} (a_store : A -> res chunk) (a_load : chunk -> res (A * chunk)) (a_add : A -> A -> res A) (a_default : A).
Notation comb := (comp_add a_store a_load a_add).
Context (LS : loads_stored a_store a_load).
Context {S : Type} (on_leaf : S -> A -> bool) (on_edge : S -> A -> A -> option bool * S).
Notation aholds := (aholds a_store).

(** The search in terms of entries: [search s l a o] goes through the trie of the entries [l] with
    the combined extra [a]. *)
Definition under1 (p : list bool) (o : option (list bool * A * chunk)) : option (list bool * A * chunk) :=
  match o with Some (k, a, v) => Some (p ++ k, a, v) | None => None end.
Inductive search : S -> list (@aentry A) -> A -> option (list bool * A * chunk) -> Prop :=
| search_leaf s k a v : search s [(k, (a, v))] a (if on_leaf s a then Some (k, a, v) else None)
| search_stop s p l r a b c s' : agg a_add l a -> agg a_add r b -> a_add a b = Ok c -> on_edge s a b = (None, s') ->
    search s (agg_under (p ++ [false]) l ++ agg_under (p ++ [true]) r) c None
| search_left s p l r a b c s' o : agg a_add l a -> agg a_add r b -> a_add a b = Ok c -> on_edge s a b = (Some false, s') -> search s' l a o ->
    search s (agg_under (p ++ [false]) l ++ agg_under (p ++ [true]) r) c (under1 (p ++ [false]) o)
| search_right s p l r a b c s' o : agg a_add l a -> agg a_add r b -> a_add a b = Ok c -> on_edge s a b = (Some true, s') -> search s' r b o ->
    search s (agg_under (p ++ [false]) l ++ agg_under (p ++ [true]) r) c (under1 (p ++ [true]) o).

Lemma loop_ok n c x es : aug_hashmap comb any_dict n c x es -> n <= 1023 -> forall l, Forall2 aholds l es ->
  exists next a rest, preload_branch a_load c n = Ok next /\ node_extra next = a /\ a_load x = Ok (a, rest) /\ agg a_add l a /\
  forall fuel s key, n < fuel -> length key + n <= 1023 -> exists o, search s l a o /\ search_loop a_load on_leaf on_edge fuel s next key = Ok (under1 key o).
Proof.
  intros H. induction H as [n bits l0 v H1 H2 H3|n m bits l0 x cl cr xl xr el er H1 H2 H3 H4 HA IHA HB IHB]; intros Hn l F.
  - inversion F as [|p y l1 es1 [E (ex & E1 & E2)] F0]; subst. inversion F0; subst. destruct p as [k [a w]]. cbn [fst snd] in *. subst k.
    pose proof (any_reads _ _ _ _ Hn H1) as Rl. assert (La : a_load v = Ok (a, w)) by (rewrite E2; apply LS, E1).
    exists (NLeaf l0 a w), a, w. split; [|split; [reflexivity|split; [exact La|split; [constructor|]]]].
    + unfold preload_branch. cbn [as_slice rbind s_bits s_refs]. change (as_slice (Cell false bits (snd v))) with (Ok (Sl (Cell false bits (snd v)) bits (snd v))). cbn [rbind s_bits s_refs]. rewrite Rl. cbn [rbind]. rewrite Nat.ltb_irrefl, Nat.eqb_refl. rewrite <- surjective_pairing, La. reflexivity.
    + intros [|fuel] s key Hf Hk; [lia|]. exists (if on_leaf s a then Some (l0, a, w) else None). split; [constructor|]. cbn [search_loop node_prefix]. rewrite put_ok by (unfold MAX_BITS; lia). cbn [rbind]. destruct (on_leaf s a); reflexivity.
  - apply Forall2_app_inv_r in F. destruct F as (la & lb & Fa & Fb & ->).
    apply holds_under in Fa, Fb. destruct Fa as (la' & -> & Fa), Fb as (lb' & -> & Fb).
    destruct (IHA ltac:(lia) _ Fa) as (na & a & ra & Pa & Xa & Ea & Ga & Sa), (IHB ltac:(lia) _ Fb) as (nb & b & rb & Pb & Xb & Eb & Gb & Sb).
    unfold comp_add in H3. rewrite Ea in H3. cbn [rbind] in H3. rewrite Eb in H3. cbn [rbind] in H3.
    destruct (a_add a b) as [c|] eqn:Ec; cbn [rbind] in H3; [|discriminate]. assert (La : a_load x = Ok (c, ([], []))).
    { replace x with (capp x ([], [])) by (destruct x as [u w]; unfold capp; cbn; rewrite !app_nil_r; reflexivity). apply LS, H3. }
    pose proof (any_reads _ _ _ _ Hn H1) as Rl. exists (NEdge l0 m c cl cr), c, ([], []). split; [|split; [reflexivity|split; [exact La|split; [econstructor; eassumption|]]]].
    + unfold preload_branch. change (as_slice (Cell false bits (cl :: cr :: snd x))) with (Ok (Sl (Cell false bits (cl :: cr :: snd x)) bits (cl :: cr :: snd x))). cbn [rbind s_bits s_refs]. rewrite Rl. cbn [rbind].
      destruct (Nat.ltb_spec n (length l0)); [lia|]. destruct (Nat.eqb_spec n (length l0)); [lia|]. rewrite <- surjective_pairing, La. cbn [rbind]. do 2 f_equal. lia.
    + intros [|fuel] s key Hf Hk; [lia|]. cbn [search_loop node_prefix]. rewrite put_ok by (unfold MAX_BITS; lia). cbn [rbind]. rewrite Pa, Pb. cbn [rbind]. rewrite Xa, Xb. destruct (on_edge s a b) as [[bit|] s'] eqn:Eo.
      * rewrite put_ok by (unfold MAX_BITS; rewrite app_length; cbn [length]; lia). cbn [rbind]. destruct bit.
        -- destruct (Sb fuel s' ((key ++ l0) ++ [true])) as (o & So & Lo); [lia|rewrite !app_length; cbn [length]; lia|]. exists (under1 (l0 ++ [true]) o). split; [eapply search_right; eassumption|]. rewrite Lo. destruct o as [[[k z] v]|]; cbn [under1]; rewrite <- ?app_assoc; reflexivity.
        -- destruct (Sa fuel s' ((key ++ l0) ++ [false])) as (o & So & Lo); [lia|rewrite !app_length; cbn [length]; lia|]. exists (under1 (l0 ++ [false]) o). split; [eapply search_left; eassumption|]. rewrite Lo. destruct o as [[[k z] v]|]; cbn [under1]; rewrite <- ?app_assoc; reflexivity.
      * exists None. split; [eapply search_stop; eassumption|reflexivity].
Qed.
Lemma search_agg s l a o : search s l a o -> agg a_add l a.
Proof. induction 1; econstructor; eassumption. Qed.
Lemma under_in p l k a v : In (k, (a, v)) l -> In (p ++ k, (a, v)) (@agg_under A p l).
Proof. intros H. apply in_map_iff. exists (k, (a, v)). auto. Qed.
(** What is found is an entry. *)
Lemma search_in s l a o : search s l a o -> forall k b v, o = Some (k, b, v) -> In (k, (b, v)) l /\ exists s', on_leaf s' b = true.
Proof.
  induction 1 as [s k a v|s p l r a b c s' Ga Gb Ec Eo|s p l r a b c s' o Ga Gb Ec Eo H IH|s p l r a b c s' o Ga Gb Ec Eo H IH]; intros k' b' v' E.
  - destruct (on_leaf s a) eqn:X; [|discriminate]. injection E as <- <- <-. split; [left; reflexivity|eauto].
  - discriminate.
  - destruct o as [[[k1 b1] v1]|]; [|discriminate]. injection E as <- <- <-. destruct (IH _ _ _ eq_refl) as [I X]. split; [|exact X]. apply in_or_app. left. apply under_in, I.
  - destruct o as [[[k1 b1] v1]|]; [|discriminate]. injection E as <- <- <-. destruct (IH _ _ _ eq_refl) as [I X]. split; [|exact X]. apply in_or_app. right. apply under_in, I.
Qed.
(** The outcome for the dictionary of a map. *)
Lemma find_ok n d extra m s : n <= 1023 -> aug_state a_store a_load a_add a_default any_dict n d extra m ->
  (m = ∅ /\ find_by_extra a_load on_leaf on_edge d n s = Ok None) \/
  exists l o, m = list_to_map l /\ StronglySorted (fun a b => before false false (fst a) (fst b)) l /\ Forall (fun e => length (fst e) = n) l /\ search s l extra o /\ find_by_extra a_load on_leaf on_edge d n s = Ok o.
Proof.
  intros Hn (o & es & l & H & F & -> & X). destruct d as [c|], o as [x|]; cbn [is_aug_root] in H; try contradiction.
  - right. destruct X as (rest & X).
    destruct (loop_ok n c x es H Hn l F) as (next & a & rest' & P & _ & E & G & Q). rewrite X in E. injection E as <- _. destruct (Q (Datatypes.S n) s [] ltac:(lia) ltac:(cbn; lia)) as (o & So & Lo).
    exists l, o. split; [reflexivity|]. pose proof (entries_sorted a_store a_load a_add _ _ _ _ _ H) as St. apply aug_rep in H. destruct H as (t & Ht & ->). apply ARep_wft in Ht. split; [|split; [|split; [exact So|]]].
    + clear - F St. revert l F. induction St as [|e es St IH Fa]; intros l F; inversion F as [|p e' l' es' Hp Hl]; subst; constructor; [apply IH, Hl|].
      clear - Hp Hl Fa. destruct Hp as [-> _]. revert Fa. induction Hl as [|q f l es [E _] _ IH]; intros Fa; constructor; inversion_clear Fa as [|? ? B Fa']; [rewrite E; exact B|exact (IH Fa')].
    + apply entries_len in Ht. clear - F Ht. induction F as [|p e l es [E _] _ IH]; [constructor|]. inversion_clear Ht as [|? ? L Ht']. constructor; [rewrite E; exact L|exact (IH Ht')].
    + unfold find_by_extra. rewrite P. cbn [rbind]. rewrite Lo. destruct o as [[[k z] v]|]; reflexivity.
  - left. subst es. inversion F; subst. split; reflexivity.
Qed.
End Search.

(** ** Kinds of searches *)
Section Kinds.
Context {A : Type} (a_add : A -> A -> res A).
Notation entry_of o := (match o with Some (k, a, v) => Some (k, (a, v)) | None => None end).
Lemma agg_nonempty l a : agg a_add l a -> l <> [].
Proof. induction 1 as [|p l r a b c _ IH _ _ _]; [discriminate|]. destruct l; [congruence|discriminate]. Qed.
Definition first_or_last (side : bool) (l : list (@aentry A)) : option aentry := if side then last l else head l.
Lemma last_under p (l : list (@aentry A)) : last (agg_under p l) = match last l with Some (k, x) => Some (p ++ k, x) | None => None end.
Proof. unfold agg_under. induction l as [|e l IH]; [reflexivity|]. cbn [map]. rewrite !last_cons, IH. destruct e as [k x]. destruct (last l) as [[k' x']|]; reflexivity. Qed.
Lemma head_under p (l : list (@aentry A)) : head (agg_under p l) = match head l with Some (k, x) => Some (p ++ k, x) | None => None end.
Proof. destruct l as [|[k x] l]; reflexivity. Qed.
Lemma side_search side l a o : search a_add any_leaf branch_edge side l a o -> entry_of o = first_or_last side l.
Proof.
  induction 1 as [s k a v|s p l r a b c s' Ga Gb Ec Eo|s p l r a b c s' o Ga Gb Ec Eo H IH|s p l r a b c s' o Ga Gb Ec Eo H IH].
  - destruct s; reflexivity.
  - discriminate.
  - injection Eo as -> <-. cbn [first_or_last] in *. pose proof (agg_nonempty _ _ Ga) as N. destruct l as [|[k0 x0] l]; [congruence|]. cbn [head agg_under map app] in *. destruct o as [[[k z] v]|]; cbn [under1]; [|discriminate]. injection IH as <- <-. reflexivity.
  - injection Eo as -> <-. cbn [first_or_last] in *. rewrite last_app. pose proof (agg_nonempty _ _ Gb) as N. rewrite last_under, <- IH. destruct o as [[[k z] v]|]; cbn [under1]; [reflexivity|]. destruct r as [|? r]; [congruence|]. rewrite last_cons in IH. destruct (last r); discriminate.
Qed.
Section Pred.
Context (P : A -> bool) (HP : forall a b c, a_add a b = Ok c -> P c = P a || P b).
Definition pred_leaf (_ : unit) (a : A) : bool := P a.
Definition pred_edge (_ : unit) (a b : A) : option bool * unit := (if P a then Some false else if P b then Some true else None, tt).
Definition test (e : @aentry A) : bool := P (fst (snd e)).
Lemma pred_agg l a : agg a_add l a -> P a = existsb test l.
Proof.
  assert (U : forall p l, existsb test (agg_under p l) = existsb test l) by (clear; induction l as [|e l IH]; [reflexivity|]; cbn [agg_under map existsb]; f_equal; exact IH).
  induction 1 as [k a v|p l r a b c _ IHa _ IHb E]; [symmetry; apply orb_false_r|]. rewrite existsb_app, !U, <- IHa, <- IHb. apply HP, E.
Qed.
Lemma find_under p l : List.find test (agg_under p l) = match List.find test l with Some (k, x) => Some (p ++ k, x) | None => None end.
Proof. unfold agg_under. induction l as [|[k x] l IH]; [reflexivity|]. cbn [map List.find fst snd]. unfold test at 1 3. cbn [fst snd]. destruct (P (fst x)); [reflexivity|exact IH]. Qed.
Lemma find_app (l r : list (@aentry A)) : List.find test (l ++ r) = match List.find test l with Some e => Some e | None => List.find test r end.
Proof. induction l as [|e l IH]; [reflexivity|]. cbn [app List.find]. destruct (test e); [reflexivity|exact IH]. Qed.
Lemma find_none l : existsb test l = false -> List.find test l = None.
Proof. induction l as [|e l IH]; [reflexivity|]. cbn [existsb List.find]. destruct (test e); [discriminate|exact IH]. Qed.
Lemma pred_search s l a o : search a_add pred_leaf pred_edge s l a o -> entry_of o = List.find test l.
Proof.
  induction 1 as [s k a v|s p l r a b c s' Ga Gb Ec Eo|s p l r a b c s' o Ga Gb Ec Eo H IH|s p l r a b c s' o Ga Gb Ec Eo H IH]; unfold pred_edge in *; rewrite ?find_app, ?find_under.
  - unfold pred_leaf. cbn [List.find]. unfold test. cbn [fst snd]. destruct (P a); reflexivity.
  - pose proof (pred_agg _ _ Ga) as Ea. pose proof (pred_agg _ _ Gb) as Eb. destruct (P a); [discriminate|]. destruct (P b); [discriminate|]. rewrite !find_none by auto. reflexivity.
  - rewrite <- IH. pose proof (pred_agg _ _ Ga) as Ea. destruct (P a); [|destruct (P b); discriminate]. destruct o as [[[k z] v]|]; cbn [under1]; [reflexivity|]. exfalso. clear - IH Ea. induction l as [|e l IHl]; [discriminate|]. cbn [existsb List.find] in *. destruct (test e); [discriminate|auto].
  - pose proof (pred_agg _ _ Ga) as Ea. destruct (P a); [discriminate|]. rewrite (find_none l) by auto. rewrite <- IH. destruct o as [[[k z] v]|]; reflexivity.
Qed.
End Pred.
Section Order.
Context (cmp : A -> A -> comparison) (wanted : comparison) (Hw : wanted <> Eq).
Context (Hsym : forall a b, cmp b a = CompOpp (cmp a b)) (Htrans : forall a b c, cmp a b <> Gt -> cmp b c <> Gt -> cmp a c <> Gt).
Context (Hadd : forall a b c, a_add a b = Ok c -> c = if match cmp a b, wanted with Lt, Lt | Gt, Gt => true | _, _ => false end then a else b).
(** [better a b]: [a] is what is wanted rather than [b]. *)
Definition better (a b : A) : Prop := cmp a b = wanted.
Lemma better_trans_not a b c : ~ better a b -> ~ better b c -> ~ better a c.
Proof.
  unfold better. intros H1 H2. destruct wanted; [congruence| |].
  - pose proof (Htrans c b a) as T. rewrite (Hsym b c), (Hsym a b), (Hsym a c) in T. destruct (cmp a b), (cmp b c), (cmp a c); cbn in T; try congruence; exfalso; apply T; congruence.
  - pose proof (Htrans a b c) as T. destruct (cmp a b), (cmp b c), (cmp a c); try congruence; exfalso; apply T; congruence.
Qed.
(** [e] is an extreme of the list, and the last one. *)
Definition extreme (l : list (@aentry A)) (e : @aentry A) : Prop :=
  exists l1 l2, l = l1 ++ e :: l2 /\ Forall (fun x => ~ better (fst (snd x)) (fst (snd e))) l1 /\ Forall (fun x => better (fst (snd e)) (fst (snd x))) l2.
Lemma order_search s l a o : s = wanted -> search a_add any_leaf (order_edge cmp) s l a o -> exists k v, o = Some (k, a, v) /\ extreme l (k, (a, v)).
Proof.
  assert (W : forall a b, match cmp a b, wanted with Lt, Lt | Gt, Gt => true | _, _ => false end = true <-> better a b) by (unfold better; intros x y; destruct wanted, (cmp x y); split; congruence).
  assert (U : forall p (Q : A -> Prop) l, Forall (fun x => Q (fst (snd x))) l -> Forall (fun x => Q (fst (snd x))) (@agg_under A p l)) by (clear; intros p Q l F; apply List.Forall_map; exact F).
  assert (M : forall l a, agg a_add l a -> Forall (fun x : @aentry A => ~ better (fst (snd x)) a) l).
  { clear s l a o. induction 1 as [k a v|p l r a b c _ IHa _ IHb E].
    - repeat constructor. cbn [fst snd]. unfold better. pose proof (Hsym a a) as Q. destruct (cmp a a); [congruence|discriminate..].
    - apply Hadd in E. pose proof (W a b) as Wab. apply Forall_app. split; apply U with (Q := fun x => ~ better x c); eapply List.Forall_impl; try eassumption; intros x Hx; cbn beta in *.
      + destruct (match cmp a b, wanted with Lt, Lt | Gt, Gt => true | _, _ => false end); subst c; [exact Hx|]. eapply better_trans_not; [exact Hx|]. intros Q. apply Wab in Q. discriminate.
      + destruct (match cmp a b, wanted with Lt, Lt | Gt, Gt => true | _, _ => false end); subst c; [|exact Hx]. eapply better_trans_not; [exact Hx|]. assert (B : better a b) by (apply Wab; reflexivity). unfold better in *. rewrite (Hsym a b), B. destruct wanted; cbn; congruence. }
  intros Es H. revert Es. induction H as [s k a v|s p l r a b c s' Ga Gb Ec Eo|s p l r a b c s' o Ga Gb Ec Eo H IH|s p l r a b c s' o Ga Gb Ec Eo H IH]; intros Es.
  - exists k, v. split; [reflexivity|]. exists [], []. repeat split; constructor.
  - unfold order_edge in Eo. discriminate.
  - unfold order_edge in Eo. injection Eo as Eo <-. destruct (IH Es) as (k & v & -> & l1 & l2 & -> & F1 & F2). cbn [fst snd] in *. assert (B : better a b) by (unfold better; subst s; destruct wanted, (cmp a b); try discriminate; reflexivity).
    apply Hadd in Ec. pose proof (proj2 (W a b) B) as Wab. rewrite Wab in Ec. subst c. exists ((p ++ [false]) ++ k), v. split; [reflexivity|]. exists (agg_under (p ++ [false]) l1), (agg_under (p ++ [false]) l2 ++ agg_under (p ++ [true]) r).
    unfold agg_under at 1. rewrite map_app. cbn [map fst snd]. rewrite <- app_assoc. split; [reflexivity|]. split; [apply U with (Q := fun x => ~ better x a), F1|]. apply Forall_app. split; [apply U with (Q := fun x => better a x), F2|]. apply U with (Q := fun x => better a x).
    eapply List.Forall_impl; [|exact (M _ _ Gb)]. intros x Hx. cbn beta in *. destruct (comparison_eq_dec (cmp a (fst (snd x))) wanted) as [Q|Q]; [exact Q|]. exfalso. exact (better_trans_not a (fst (snd x)) b Q Hx B).
  - unfold order_edge in Eo. injection Eo as Eo <-. destruct (IH Es) as (k & v & -> & l1 & l2 & -> & F1 & F2). cbn [fst snd] in *. assert (B : ~ better a b) by (unfold better; subst s; destruct wanted, (cmp a b); try discriminate; congruence).
    apply Hadd in Ec. assert (Wab : match cmp a b, wanted with Lt, Lt | Gt, Gt => true | _, _ => false end = false) by (destruct (match cmp a b, wanted with Lt, Lt | Gt, Gt => true | _, _ => false end) eqn:Q; [destruct B; apply W, Q|reflexivity]). rewrite Wab in Ec. subst c.
    exists ((p ++ [true]) ++ k), v. split; [reflexivity|]. exists (agg_under (p ++ [false]) l ++ agg_under (p ++ [true]) l1), (agg_under (p ++ [true]) l2). split; [rewrite <- (app_assoc (agg_under (p ++ [false]) l)); f_equal; unfold agg_under; rewrite map_app; reflexivity|]. split; [|apply U with (Q := fun x => better b x), F2].
    apply Forall_app. split; [|apply U with (Q := fun x => ~ better x b), F1]. apply U with (Q := fun x => ~ better x b). eapply List.Forall_impl; [|exact (M _ _ Ga)]. intros x Hx. exact (better_trans_not _ _ _ Hx B).
Qed.
End Order.
End Kinds.
(** Weights: the state is what is left of a number, smaller than the total weight. *)
Section Weights.
Context (a_add : N -> N -> res N) (Hadd : forall a b c, a_add a b = Ok c -> c = (a + b)%N).
Definition weight_edge (t : N) (a b : N) : option bool * N := if (t <? a)%N then (Some false, t) else (Some true, (t - a)%N).
Definition total (l : list (@aentry N)) : N := fold_right (fun e s => (fst (snd e) + s)%N) 0%N l.
Lemma total_app l r : total (l ++ r) = (total l + total r)%N.
Proof. induction l as [|e l IH]; [reflexivity|]. cbn [app total fold_right]. fold (total (l ++ r)) (total l). rewrite IH. lia. Qed.
Lemma total_under p l : total (agg_under p l) = total l.
Proof. induction l as [|e l IH]; [reflexivity|]. cbn [agg_under map total fold_right]. f_equal. exact IH. Qed.
Lemma total_agg l a : agg a_add l a -> a = total l.
Proof. induction 1 as [k a v|p l r a b c _ IHa _ IHb E]; [cbn; lia|]. rewrite total_app, !total_under. apply Hadd in E. lia. Qed.
Lemma weight_search t l a o : search a_add any_leaf weight_edge t l a o -> (t < a)%N ->
  exists k w v l1 l2, o = Some (k, w, v) /\ l = l1 ++ (k, (w, v)) :: l2 /\ (total l1 <= t < total l1 + w)%N.
Proof.
  induction 1 as [s k a v|s p l r a b c s' Ga Gb Ec Eo|s p l r a b c s' o Ga Gb Ec Eo H IH|s p l r a b c s' o Ga Gb Ec Eo H IH]; intros L; unfold weight_edge in *.
  - exists k, a, v, [], []. repeat split; try lia. cbn. lia.
  - destruct (s <? a)%N; discriminate.
  - destruct (N.ltb_spec s a) as [L2|]; [|discriminate]. injection Eo as <-. destruct (IH L2) as (k & w & v & l1 & l2 & -> & -> & B).
    exists ((p ++ [false]) ++ k), w, v, (agg_under (p ++ [false]) l1), (agg_under (p ++ [false]) l2 ++ agg_under (p ++ [true]) r). split; [reflexivity|]. split; [unfold agg_under at 1; rewrite map_app; cbn [map fst snd]; rewrite <- app_assoc; reflexivity|]. rewrite total_under. exact B.
  - destruct (N.ltb_spec s a) as [|L2]; [discriminate|]. injection Eo as <-. apply Hadd in Ec. destruct IH as (k & w & v & l1 & l2 & -> & -> & B); [lia|].
    exists ((p ++ [true]) ++ k), w, v, (agg_under (p ++ [false]) l ++ agg_under (p ++ [true]) l1), (agg_under (p ++ [true]) l2). split; [reflexivity|]. split; [rewrite <- (app_assoc (agg_under (p ++ [false]) l)); f_equal; unfold agg_under; rewrite map_app; reflexivity|]. rewrite total_app, !total_under. apply total_agg in Ga. lia.
Qed.
End Weights.
