(** * C30, C31: augmented dictionaries.

    Specification: AugSpec.v.  Model: AugModel.v; the extras used by the models:
    AugExtraModel.v.  [fin] is the outcome of [finalize_cell] (any function).  The extra is any
    type [A] with a [Store], a [Load] that reads back what was stored, a combination [a_add] that
    may fail, and a default. *)
From Coq Require Import Sorting.Sorted.
From Verif Require Import Err BitsProofs NumModel CellModel LabelModel LabelSpec LabelProofs DictModel DictSpec DictTree DictProofs DictOrder DictProps
  IterModel IterProps SplitSpec ChunkModel ChunkSpec ChunkProofs CurrencyModel CurrencySpec CurrencyProofs CurrencyProps
  AugModel AugSpec AugProofs AugProofs2 AugProofs3 AugExtraModel AugExtraProofs.
Local Open Scope nat_scope.

Lemma canonical_any n bits l rest : canonical_label n bits l rest -> any_label n bits l rest.
Proof. intros (e & -> & X & _). exists e. auto. Qed.

Section Aug.
Context (fin : list bool -> list cell -> res unit).
Context {A : Type} (a_store : A -> res chunk) (a_load : chunk -> res (A * chunk)) (a_add : A -> A -> res A) (a_default : A).
Notation comb := (comp_add a_store a_load a_add).
Notation state := (aug_state a_store a_load a_add a_default).
Notation insert_ := (aug_insert fin comb a_store a_load a_default).
Notation remove_ := (aug_remove fin comb a_load a_default).
Notation CR := (canonical_dict fin).
Notation tmap := (gmap (list bool) (A * chunk)).

(** ** Reference semantics *)
(** What the methods report and leave behind, in terms of the finite map. *)
Definition tpresent (m : tmap) (k : list bool) : bool := match m !! k with Some _ => true | None => false end.

(** [ahistory n d m]: some sequence of calls, successful or not, leads from the empty dictionary to
    [d]; the same updates of a finite map, leaving out the failed ones, lead to [m].  Splitting
    and merging are included. *)
Inductive ahistory (n : nat) : @aug_dict A -> tmap -> Prop :=
| ah_new : ahistory n (aug_new a_default) ∅
| ah_insert d m k a v mode d' r :
    ahistory n d m -> length k = n -> insert_ d k n a v mode = (d', r) ->
    ahistory n d' (match r with Ok true => <[k := (a, v)]> m | _ => m end)
| ah_remove d m k d' r :
    ahistory n d m -> length k = n -> remove_ d k n = (d', r) ->
    ahistory n d' (match r with Ok (Some _) => delete k m | _ => m end)
| ah_left d m p l r : ahistory n d m -> length p < n -> (forall k v, m !! k = Some v -> p `prefix_of` k) ->
    aug_split_by_prefix fin a_load a_default d n p = Ok (l, r) -> ahistory n l (filter (fun kv => (p ++ [false]) `prefix_of` fst kv) m)
| ah_right d m p l r : ahistory n d m -> length p < n -> (forall k v, m !! k = Some v -> p `prefix_of` k) ->
    aug_split_by_prefix fin a_load a_default d n p = Ok (l, r) -> ahistory n r (filter (fun kv => (p ++ [true]) `prefix_of` fst kv) m)
| ah_merge d m d2 m2 p d' : ahistory n d m -> ahistory n d2 m2 ->
    (forall k v, m !! k = Some v -> (p ++ [false]) `prefix_of` k) -> (forall k v, m2 !! k = Some v -> (p ++ [true]) `prefix_of` k) ->
    aug_merge_with_right fin comb a_load a_default d d2 n = Ok d' -> ahistory n d' (m ∪ m2).

Lemma tpresent_decide (m : tmap) k : bool_decide (is_Some (m !! k)) = tpresent m k.
Proof.
  unfold tpresent. destruct (m !! k) eqn:E; [apply bool_decide_eq_true_2; eauto|apply bool_decide_eq_false_2].
  intros [x X]. discriminate.
Qed.

Section LS.
Context (LS : loads_stored a_store a_load).

Lemma history_state n d m : n <= 1023 -> ahistory n d m -> state CR n (ad_root d) (ad_extra d) m.
Proof.
  intros Hn H. induction H as [|d m k a v mode d' r H IH Hk E|d m k d' r H IH Hk E|d m p l r H IH Hp Ha E|d m p l r H IH Hp Ha E|d m d2 m2 p d' H IH H2 IH2 A1 A2 E].
  - exists None, [], []. repeat split; constructor.
  - pose proof (aug_insert_updates fin a_store a_load a_add a_default LS CR (reads_canonical fin) (awrites_canonical fin) n d m k a v mode Hn IH Hk) as U.
    rewrite E in U. destruct (refused _ _); [injection U as -> ->; exact IH|].
    unfold updates in U. cbn [fst snd] in U. destruct r as [b|e]; [destruct U as [-> U]; exact U|destruct U as [-> _]; exact IH].
  - pose proof (aug_remove_updates fin a_store a_load a_add a_default LS CR (reads_canonical fin) (awrites_canonical fin) n d m k Hn IH Hk) as U.
    rewrite E in U. destruct (m !! k); [|injection U as -> ->; exact IH].
    unfold updates in U. cbn [fst snd] in U. destruct r as [b|e]; [|destruct U as [-> _]; exact IH].
    destruct U as [(rg & c & ex & -> & _) U]. exact U.
  - pose proof (aug_split_state fin a_store a_load a_add a_default LS CR (reads_canonical fin) (awrites_canonical fin) n d m p Hn Hp IH Ha) as U.
    rewrite E in U. apply U.
  - pose proof (aug_split_state fin a_store a_load a_add a_default LS CR (reads_canonical fin) (awrites_canonical fin) n d m p Hn Hp IH Ha) as U.
    rewrite E in U. apply U.
  - pose proof (aug_merge_state fin a_store a_load a_add a_default LS CR (reads_canonical fin) (awrites_canonical fin) n d d2 m m2 p Hn IH IH2 A1 A2) as U.
    rewrite E in U. exact U.
Qed.

(** ** C31: map semantics *)
(** After any history, the cells of the dictionary form a [HashmapAug] of the finite map, with
    canonical labels and with the combined extra in every fork (AugSpec.aug_hashmap), and the
    extra of the dictionary is the one in its root. *)
Theorem C31_history n d m : n <= 1023 -> ahistory n d m -> state CR n (ad_root d) (ad_extra d) m.
Proof. apply history_state. Qed.

(** Lookups return what the map holds; also for dictionaries with other labels, read from
    somewhere. *)
Theorem C31_get n d m k :
  n <= 1023 -> length k = n -> ahistory n d m \/ state any_dict n (ad_root d) (ad_extra d) m ->
  aug_get a_load d k n = Ok (m !! k).
Proof.
  intros Hn Hk [H|H]; destruct d as [d a].
  - eapply (aug_get_state a_store a_load a_add a_default LS CR); [exact Hn|intros n' bits l rest; apply canonical_any|apply (history_state n (AugDict d a) m Hn H)|exact Hk].
  - eapply (aug_get_state a_store a_load a_add a_default LS any_dict); [exact Hn|auto|exact H|exact Hk].
Qed.

(** Insertion: the flag says whether the mode lets the value in; then the map has the entry.  A
    failing insertion leaves the dictionary as it was. *)
Theorem C31_insert n d m k a v mode :
  n <= 1023 -> length k = n -> ahistory n d m ->
  match insert_ d k n a v mode with
  | (d', Ok flag) => flag = stores mode (tpresent m k) /\ state CR n (ad_root d') (ad_extra d') (if flag then <[k := (a, v)]> m else m)
  | (d', Err _) => d' = d /\ stores mode (tpresent m k) = true /\
      forall root extra, ~ state CR n root extra (<[k := (a, v)]> m)
  end.
Proof.
  intros Hn Hk H. pose proof (history_state n d m Hn H) as S.
  pose proof (aug_insert_updates fin a_store a_load a_add a_default LS CR (reads_canonical fin) (awrites_canonical fin) n d m k a v mode Hn S Hk) as U.
  rewrite tpresent_decide, refused_stores in U. destruct (stores mode (tpresent m k)); cbn [negb] in U.
  - unfold updates in U. destruct (insert_ d k n a v mode) as [d' [b|e]]; cbn [fst snd] in U.
    + destruct U as [-> U]. auto.
    + destruct U as [-> U]. auto.
  - rewrite U. auto.
Qed.

(** Removal: returns the extra and the value of the key, if any, and removes the entry.  It fails only if
    the remaining entries do not fit. *)
Definition parts_view (o : option (range * cell)) : res (option (A * chunk)) :=
  match o with
  | None => Ok None
  | Some (rg, c) => let? p := a_load (r_apply rg c) in Ok (Some p)
  end.
Theorem C31_remove n d m k :
  n <= 1023 -> length k = n -> ahistory n d m ->
  match remove_ d k n with
  | (d', Ok o) => parts_view o = Ok (m !! k) /\ state CR n (ad_root d') (ad_extra d') (delete k m)
  | (d', Err _) => d' = d /\ is_Some (m !! k) /\ forall root extra, ~ state CR n root extra (delete k m)
  end.
Proof.
  intros Hn Hk H. pose proof (history_state n d m Hn H) as S.
  pose proof (aug_remove_updates fin a_store a_load a_add a_default LS CR (reads_canonical fin) (awrites_canonical fin) n d m k Hn S Hk) as U.
  destruct (m !! k) as [[a v]|] eqn:Em.
  - unfold updates in U. destruct (remove_ d k n) as [d' [b|e]]; cbn [fst snd] in U.
    + destruct U as [(rg & c & ex & -> & E1 & E2) U]. cbn [parts_view]. rewrite E2, (LS _ _ _ E1). auto.
    + destruct U as [-> U]. eauto.
  - rewrite U. cbn [parts_view]. rewrite delete_notin by exact Em. auto.
Qed.

(** The finite map determines the dictionary, root cell and root extra, however it was made. *)
Theorem C31_canonical n d d' m : n <= 1023 -> ahistory n d m -> ahistory n d' m -> d = d'.
Proof.
  intros Hn H H'. pose proof (history_state _ _ _ Hn H) as S. pose proof (history_state _ _ _ Hn H') as S'.
  destruct d as [d a], d' as [d' a']. destruct (state_unique fin a_store a_load a_add a_default n _ _ _ _ m Hn S S') as [E1 E2]. cbn [ad_root ad_extra] in *. congruence.
Qed.

(** Splitting and merging siblings fail only if a part, or the union, has no dictionary. *)
Theorem C31_split n d m p : n <= 1023 -> ahistory n d m -> length p < n -> (forall k v, m !! k = Some v -> p `prefix_of` k) ->
  match aug_split_by_prefix fin a_load a_default d n p with
  | Ok (l, r) => ahistory n l (filter (fun kv => (p ++ [false]) `prefix_of` fst kv) m) /\ ahistory n r (filter (fun kv => (p ++ [true]) `prefix_of` fst kv) m)
  | Err _ => ~ ((exists root a, state CR n root a (filter (fun kv => (p ++ [false]) `prefix_of` fst kv) m)) /\
                (exists root a, state CR n root a (filter (fun kv => (p ++ [true]) `prefix_of` fst kv) m)))
  end.
Proof.
  intros Hn H Hp Ha. pose proof (history_state _ _ _ Hn H) as S.
  pose proof (aug_split_state fin a_store a_load a_add a_default LS CR (reads_canonical fin) (awrites_canonical fin) n d m p Hn Hp S Ha) as U.
  destruct (aug_split_by_prefix fin a_load a_default d n p) as [[l r]|e] eqn:E; [|apply U; reflexivity].
  split; [eapply ah_left|eapply ah_right]; eassumption.
Qed.
Theorem C31_merge n d m d2 m2 p : n <= 1023 -> ahistory n d m -> ahistory n d2 m2 ->
  (forall k v, m !! k = Some v -> (p ++ [false]) `prefix_of` k) -> (forall k v, m2 !! k = Some v -> (p ++ [true]) `prefix_of` k) ->
  match aug_merge_with_right fin comb a_load a_default d d2 n with
  | Ok d' => ahistory n d' (m ∪ m2)
  | Err _ => forall root a, ~ state CR n root a (m ∪ m2)
  end.
Proof.
  intros Hn H H2 A1 A2. pose proof (history_state _ _ _ Hn H) as S. pose proof (history_state _ _ _ Hn H2) as S2.
  pose proof (aug_merge_state fin a_store a_load a_add a_default LS CR (reads_canonical fin) (awrites_canonical fin) n d d2 m m2 p Hn S S2 A1 A2) as U.
  destruct (aug_merge_with_right fin comb a_load a_default d d2 n) as [d'|e] eqn:E; [|apply U; reflexivity].
  eapply ah_merge; eassumption.
Qed.

(** Iteration: every entry once, with its extra and value, in order, then nothing. *)
Definition typed_item (x : res (list bool * sl)) : res (list bool * (A * chunk)) :=
  let? (k, s) := x in let? p := a_load (s_chunk s) in Ok (k, p).
Lemma yields_map {B C} (f : B -> C) i l : map (option_map (fun x => let? y := x in Ok (f y))) (yields i l) = yields i (map f l).
Proof.
  unfold yields. rewrite <- firstn_map. rewrite map_app, !map_map. f_equal. f_equal. induction i; cbn; congruence.
Qed.
Lemma state_any n d a m : state any_dict n d a m \/ state CR n d a m ->
  exists es l, is_dict any_dict n d es /\ Forall2 (aholds a_store) l es /\ m = list_to_map l.
Proof.
  assert (G : forall R, (forall n bits l rest, r_label R n bits l rest -> any_label n bits l rest) -> state R n d a m ->
    exists es l, is_dict any_dict n d es /\ Forall2 (aholds a_store) l es /\ m = list_to_map l).
  { intros R HL (o & es & l & H & F & Em & _). exists es, l. split; [|auto]. destruct d as [c|], o as [x|]; cbn [is_aug_root is_dict] in *; try contradiction; [|exact H].
    eapply aug_hashmap_any; eassumption. }
  intros [H|H]; (eapply G; [|exact H]); [auto|intros n' bits l rest; apply canonical_any].
Qed.
Theorem C31_iteration n d m rev signed :
  n <= 1023 -> ahistory n d m \/ state any_dict n (ad_root d) (ad_extra d) m ->
  exists order : list (list bool * (A * chunk)),
    list_to_map order = m /\ NoDup (map fst order) /\ StronglySorted (fun x y => before signed rev (fst x) (fst y)) order /\
    forall i, map (option_map typed_item) (calls iter_next i (iter_new (ad_root d) n rev signed)) = yields i order.
Proof.
  intros Hn H.
  assert (S : state any_dict n (ad_root d) (ad_extra d) m \/ state CR n (ad_root d) (ad_extra d) m) by (destruct H as [H|H]; [right; apply history_state; assumption|left; exact H]).
  destruct (state_any _ _ _ _ S) as (es & l & D & F & ->). clear S H.
  destruct (C24_iteration n (ad_root d) es rev signed Hn D) as (order & (P & ND & St) & C).
  destruct (Permutation_Forall2 (symmetry P) (proj2 (Forall2_flip _ _ _) F)) as (lo & Pl & Fo).
  assert (Fk : map fst lo = map fst order).
  { clear - Fo. induction Fo as [|e p es l [E _] F IH]; [reflexivity|]. cbn [map]. rewrite IH, E. reflexivity. }
  exists lo. split; [|split; [|split]].
  - symmetry. apply list_to_map_proper; [|exact Pl]. assert (Pk : Permutation (map fst l) (map fst lo)) by apply Permutation_map, Pl.
    change (NoDup (map fst l)). rewrite Pk, Fk. exact ND.
  - rewrite Fk. exact ND.
  - clear - Fk St. revert lo Fk. induction St as [|e es St IH Fa]; intros [|p lo] E; try discriminate; [constructor|]. cbn [map] in E. injection E as E1 E2.
    constructor; [apply IH, E2|]. rewrite List.Forall_forall in *. intros x Hx. rewrite E1. apply (in_map fst) in Hx. rewrite E2 in Hx. apply in_map_iff in Hx.
    destruct Hx as (y & <- & Hy). apply Fa, Hy.
  - intros i. destruct (C i) as [Ci _].
    assert (E : map (option_map typed_item) (calls iter_next i (iter_new (ad_root d) n rev signed)) =
      map (option_map (fun x : res entry => let? e := x in let? p := a_load (snd e) in Ok (fst e, p))) (map (option_map item_view) (calls iter_next i (iter_new (ad_root d) n rev signed)))).
    { rewrite map_map. apply map_ext. intros [[[k s]|e]|]; reflexivity. }
    rewrite E, Ci. unfold yields. rewrite <- !firstn_map. rewrite !map_app, !map_map. f_equal. f_equal.
    + clear - Fo LS. induction Fo as [|e p es l (E & ex & E1 & E2) F IH]; [reflexivity|]. cbn [map]. f_equal; [|exact IH]. cbn [option_map rbind]. f_equal.
      destruct p as [k [a v]], e as [k' ch]. cbn [fst snd] in *. subst k' ch. rewrite (LS _ _ _ E1). reflexivity.
    + clear. induction i; cbn; congruence.
Qed.

(** ** C30: the extras *)
(** The root extra combines the extras of all entries, in key order, along the binary trie of the keys; the
    extra of an empty dictionary is the default. *)
Lemma entries_sorted n R c x es : aug_hashmap comb R n c x es -> StronglySorted (fun a b => before false false (fst a) (fst b)) es.
Proof.
  intros H. apply aug_rep in H. destruct H as (t & H & ->). pose proof (ARep_wft _ _ _ _ _ _ H) as W.
  assert (E : forall t, t_list false false t = entries t) by (clear; induction t as [|l x a IHa b IHb]; [reflexivity|]; cbn [t_list entries]; rewrite first_false, IHa, IHb; reflexivity).
  rewrite <- E. apply (sorted_before n); [apply t_list_len, W|apply t_list_sorted].
Qed.
Theorem C30_root_extra n d m : n <= 1023 -> ahistory n d m \/ state any_dict n (ad_root d) (ad_extra d) m ->
  (m = ∅ /\ ad_extra d = a_default) \/
  exists l : list (list bool * (A * chunk)),
    list_to_map l = m /\ StronglySorted (fun x y => before false false (fst x) (fst y)) l /\ agg a_add l (ad_extra d).
Proof.
  intros Hn H.
  assert (S : exists R, state R n (ad_root d) (ad_extra d) m) by (destruct H as [H|H]; [exists CR; apply history_state; assumption|exists any_dict; exact H]).
  destruct S as (R & o & es & l & D & F & -> & Ho). destruct (ad_root d) as [c|], o as [x|]; cbn [is_aug_root] in D; try contradiction.
  - right. exists l. split; [reflexivity|]. split.
    + pose proof (entries_sorted _ _ _ _ _ D) as St. clear - F St.
      revert l F. induction St as [|e es St IH Fa]; intros l F; inversion F as [|p e' l' es' Hp Hl]; subst; constructor; [apply IH, Hl|].
      rewrite List.Forall_forall in *. intros q Hq. destruct Hp as [-> _]. clear - Hq Hl Fa. revert Hq. induction Hl as [|p0 e0 l es [E _] Hl IH]; [intros []|].
      intros [<-|Hq]; [rewrite E; apply Fa; left; reflexivity|apply IH; [intros z Hz; apply Fa; right; exact Hz|exact Hq]].
    + destruct (root_agg a_store a_load a_add LS R _ _ _ _ _ D F) as (a & rest & Ea & G). destruct Ho as (rest' & Ho). rewrite Ea in Ho. injection Ho as <- _. exact G.
  - left. subst es. inversion F; subst. auto.
Qed.

(** Anything additive about extras: if a measure of the combination is the sum of the measures ([op],
    associative, with neutral element [e], the measure of the default), the measure of the root
    extra is the sum over all entries in key order. *)
Lemma agg_measure {M} (op : M -> M -> M) (e : M) (meas : A -> M -> Prop) l a xs :
  (forall x y z, op x (op y z) = op (op x y) z) -> (forall x, op x e = x) ->
  (forall a b c x y, meas a x -> meas b y -> a_add a b = Ok c -> meas c (op x y)) ->
  agg a_add l a -> Forall2 (fun p x => meas (fst (snd p)) x) l xs -> meas a (foldr op e xs) /\ forall y, foldr op y xs = op (foldr op e xs) y.
Proof.
  intros As Ne Ad G. revert xs. induction G as [k a v|p l r a b c Gl IHl Gr IHr E]; intros xs F.
  - inversion F as [|? x ? xs0 Hx F0]; subst. inversion F0; subst. cbn [foldr fst snd] in *. rewrite Ne. auto.
  - apply Forall2_app_inv_l in F. destruct F as (xa & xb & Fa & Fb & ->).
    assert (U : forall p (l : list (list bool * (A * chunk))) xs, Forall2 (fun p x => meas (fst (snd p)) x) (agg_under p l) xs -> Forall2 (fun p x => meas (fst (snd p)) x) l xs).
    { clear. intros p l. induction l as [|q l IH]; intros xs F; inversion F; subst; constructor; auto. }
    apply U in Fa, Fb. destruct (IHl _ Fa) as [Ma Ea], (IHr _ Fb) as [Mb Eb].
    split.
    + rewrite foldr_app, Ea. eapply Ad; eassumption.
    + intros y. rewrite !foldr_app. rewrite (Ea (foldr op y xb)), (Ea (foldr op e xb)), Eb. apply As.
Qed.
Theorem C30_measure {M} (op : M -> M -> M) (e : M) (meas : A -> M -> Prop) n d m :
  (forall x y z, op x (op y z) = op (op x y) z) -> (forall x, op x e = x) -> meas a_default e ->
  (forall a b c x y, meas a x -> meas b y -> a_add a b = Ok c -> meas c (op x y)) ->
  n <= 1023 -> ahistory n d m \/ state any_dict n (ad_root d) (ad_extra d) m ->
  exists l : list (list bool * (A * chunk)),
    list_to_map l = m /\ StronglySorted (fun x y => before false false (fst x) (fst y)) l /\
    forall xs, Forall2 (fun p x => meas (fst (snd p)) x) l xs -> meas (ad_extra d) (foldr op e xs).
Proof.
  intros As Ne De Ad Hn H. destruct (C30_root_extra n d m Hn H) as [[-> ->]|(l & El & St & G)].
  - exists []. split; [reflexivity|]. split; [constructor|]. intros xs F. inversion F; subst. exact De.
  - exists l. split; [exact El|]. split; [exact St|]. intros xs F. apply (agg_measure op e meas l _ xs As Ne Ad G F).
Qed.
End LS.
End Aug.
Print Assumptions C31_history.
Print Assumptions C31_get.
Print Assumptions C31_insert.
Print Assumptions C31_remove.
Print Assumptions C31_canonical.
Print Assumptions C31_split.
Print Assumptions C31_merge.
Print Assumptions C31_iteration.
Print Assumptions C30_root_extra.
Print Assumptions C30_measure.

(** ** The extras of the models *)
Section Instances.
Context (fin : list bool -> list cell -> res unit).
Local Open Scope N_scope.

Definition sorted_entries {A} (l : list (list bool * (A * chunk))) (m : gmap (list bool) (A * chunk)) : Prop :=
  list_to_map l = m /\ StronglySorted (fun x y => before false false (fst x) (fst y)) l.
(** The sum, or another combination, of a quantity over the entries. *)
Definition over {A M} (op : M -> M -> M) (e : M) (f : A -> M) (l : list (list bool * (A * chunk))) : M :=
  foldr op e (map (fun p => f (fst (snd p))) l).

Lemma over_measure {A M} (a_add : A -> A -> res A) (op : M -> M -> M) (e : M) (f : A -> M) l a :
  (forall x y z, op x (op y z) = op (op x y) z) -> (forall x, op x e = x) ->
  (forall a b c, a_add a b = Ok c -> f c = op (f a) (f b)) -> agg a_add l a -> f a = over op e f l.
Proof.
  intros As Ne Ad G. destruct (agg_measure a_add op e (fun a x => f a = x) l a (map (fun p => f (fst (snd p))) l) As Ne) as [E _]; [|exact G| |exact E].
  - intros a0 b c x y <- <- E. apply Ad, E.
  - clear. induction l; constructor; auto.
Qed.
Lemma cc_add_tokens a b c : cc_checked_add fin a b = Ok c -> cc_tokens c = cc_tokens a + cc_tokens b.
Proof.
  unfold cc_checked_add, vk_checked_add, upto, p_add. intros H. destruct (_ <? _); [|discriminate]. destruct (_ <=? _); [|discriminate].
  destruct (extra_checked_add fin _ _); cbn [rbind] in H; [|discriminate]. injection H as <-. reflexivity.
Qed.
(** What an extra currency amounts to in a collection. *)
Definition amount_of (V : chunk -> N -> Prop) (id : N) (a : currency) (x : N) : Prop :=
  exists m, CurrencySpec.holds (canonical_dict fin) V (cc_other a) m /\ amount m id = x.
Lemma cc_add_amount V id a b c x y : amounts V -> amount_of V id a x -> amount_of V id b y -> cc_checked_add fin a b = Ok c -> amount_of V id c (x + y).
Proof.
  intros HV (m1 & H1 & <-) (m2 & H2 & <-) H. unfold cc_checked_add in H. destruct (vk_checked_add _ _ _); [|discriminate].
  pose proof (C39_add fin (canonical_dict fin) V (cc_other a) (cc_other b) m1 m2 (or_intror eq_refl) HV H1 (holds_weaken fin _ V _ _ (or_intror eq_refl) H2)) as E.
  destruct (extra_checked_add fin _ _) as [d|]; cbn [rbind] in H; [|discriminate]. injection H as <-. destruct E as (_ & m & Hm & Em & _). exists m. auto.
Qed.

(** [AugDict<K, CurrencyCollection, V>]: the root extra holds the sums of the tokens and of every
    extra currency of all entries. *)
Theorem C30_currency n d m : (n <= 1023)%nat ->
  ahistory fin cc_stored load_cc (cc_checked_add fin) cc_zero n d m ->
  exists l, sorted_entries l m /\ cc_tokens (ad_extra d) = over N.add 0 cc_tokens l /\
    forall V id xs, amounts V -> Forall2 (fun p x => amount_of V id (fst (snd p)) x) l xs -> amount_of V id (ad_extra d) (foldr N.add 0 xs).
Proof.
  intros Hn H. destruct (C30_root_extra fin cc_stored load_cc (cc_checked_add fin) cc_zero cc_loads n d m Hn (or_introl H)) as [[-> ->]|(l & E & S & G)].
  - exists []. split; [split; [reflexivity|constructor]|]. split; [reflexivity|]. intros V id xs HV F. inversion F; subst. exists ∅. split; [|reflexivity].
    exists [], []. split; [reflexivity|]. split; [constructor|reflexivity].
  - exists l. split; [split; assumption|]. split.
    + apply (over_measure (cc_checked_add fin)); [apply N.add_assoc|apply N.add_0_r|exact cc_add_tokens|exact G].
    + intros V id xs HV F. eapply (agg_measure (cc_checked_add fin) N.add 0 (amount_of V id)); [apply N.add_assoc|apply N.add_0_r| |exact G|exact F].
      intros a b c x y. apply cc_add_amount, HV.
Qed.

(** [ShardAccounts]: maximal split depth, total balance. *)
Theorem C30_shard_accounts n d m : (n <= 1023)%nat ->
  ahistory fin db_stored load_db (db_add fin) db_default n d m ->
  exists l, sorted_entries l m /\ db_depth (ad_extra d) = over N.max 0 db_depth l /\ cc_tokens (db_balance (ad_extra d)) = over N.add 0 (fun a => cc_tokens (db_balance a)) l /\
    forall V id xs, amounts V -> Forall2 (fun p x => amount_of V id (db_balance (fst (snd p))) x) l xs -> amount_of V id (db_balance (ad_extra d)) (foldr N.add 0 xs).
Proof.
  intros Hn H. destruct (C30_root_extra fin db_stored load_db (db_add fin) db_default db_loads n d m Hn (or_introl H)) as [[-> ->]|(l & E & S & G)].
  - exists []. split; [split; [reflexivity|constructor]|]. split; [reflexivity|]. split; [reflexivity|]. intros V id xs HV F. inversion F; subst. exists ∅. split; [|reflexivity].
    exists [], []. split; [reflexivity|]. split; [constructor|reflexivity].
  - assert (Ad : forall a b c, db_add fin a b = Ok c -> db_depth c = N.max (db_depth a) (db_depth b) /\ cc_checked_add fin (db_balance a) (db_balance b) = Ok (db_balance c)).
    { intros a b c X. unfold db_add in X. destruct (cc_checked_add fin _ _); cbn [rbind] in X; [|discriminate]. injection X as <-. auto. }
    exists l. split; [split; assumption|]. split; [|split].
    + apply (over_measure (db_add fin)); [apply N.max_assoc|apply N.max_0_r|intros a b c X; apply Ad, X|exact G].
    + apply (over_measure (db_add fin) N.add 0 (fun a => cc_tokens (db_balance a))); [apply N.add_assoc|apply N.add_0_r|intros a b c X; apply cc_add_tokens, Ad, X|exact G].
    + intros V id xs HV F. eapply (agg_measure (db_add fin) N.add 0 (fun a => amount_of V id (db_balance a))); [apply N.add_assoc|apply N.add_0_r| |exact G|exact F].
      intros a b c x y Ha Hb X. eapply cc_add_amount; [exact HV|exact Ha|exact Hb|apply Ad, X].
Qed.

(** [OldMcBlocksInfo]: whether there is a key block, the greatest logical time. *)
Theorem C30_old_blocks n d m : (n <= 1023)%nat ->
  ahistory fin kml_stored load_kml kml_add kml_default n d m ->
  exists l, sorted_entries l m /\ k_has (ad_extra d) = over orb false k_has l /\ k_max (ad_extra d) = over N.max 0 k_max l.
Proof.
  intros Hn H. destruct (C30_root_extra fin kml_stored load_kml kml_add kml_default kml_loads n d m Hn (or_introl H)) as [[-> ->]|(l & E & S & G)].
  - exists []. split; [split; [reflexivity|constructor]|]. split; reflexivity.
  - exists l. split; [split; assumption|].
    split; (eapply over_measure; [| | |exact G]).
    + intros; apply Bool.orb_assoc.
    + apply Bool.orb_false_r.
    + intros a b c [= <-]. reflexivity.
    + apply N.max_assoc.
    + apply N.max_0_r.
    + intros a b c [= <-]. reflexivity.
Qed.

(** [ShardFees] and [InMsgDescr]: sums. *)
Theorem C30_shard_fees n d m : (n <= 1023)%nat ->
  ahistory fin sf_stored load_sf (sf_add fin) sf_default n d m ->
  exists l, sorted_entries l m /\ cc_tokens (sf_fees (ad_extra d)) = over N.add 0 (fun a => cc_tokens (sf_fees a)) l /\
    cc_tokens (sf_create (ad_extra d)) = over N.add 0 (fun a => cc_tokens (sf_create a)) l.
Proof.
  intros Hn H. destruct (C30_root_extra fin sf_stored load_sf (sf_add fin) sf_default sf_loads n d m Hn (or_introl H)) as [[-> ->]|(l & E & S & G)].
  - exists []. split; [split; [reflexivity|constructor]|]. split; reflexivity.
  - assert (Ad : forall a b c, sf_add fin a b = Ok c -> cc_checked_add fin (sf_fees a) (sf_fees b) = Ok (sf_fees c) /\ cc_checked_add fin (sf_create a) (sf_create b) = Ok (sf_create c)).
    { intros a b c X. unfold sf_add in X. destruct (cc_checked_add fin (sf_fees a) _); cbn [rbind] in X; [|discriminate].
      destruct (cc_checked_add fin (sf_create a) _); cbn [rbind] in X; [|discriminate]. injection X as <-. auto. }
    exists l. split; [split; assumption|].
    split; [apply (over_measure (sf_add fin) N.add 0 (fun a => cc_tokens (sf_fees a)))|apply (over_measure (sf_add fin) N.add 0 (fun a => cc_tokens (sf_create a)))];
      try (apply N.add_assoc); try (apply N.add_0_r); try exact G; intros a b c X; apply cc_add_tokens, Ad, X.
Qed.
Theorem C30_import_fees n d m : (n <= 1023)%nat ->
  ahistory fin if_stored load_if (if_add fin) if_default n d m ->
  exists l, sorted_entries l m /\ if_fees (ad_extra d) = over N.add 0 if_fees l /\
    cc_tokens (if_value (ad_extra d)) = over N.add 0 (fun a => cc_tokens (if_value a)) l.
Proof.
  intros Hn H. destruct (C30_root_extra fin if_stored load_if (if_add fin) if_default if_loads n d m Hn (or_introl H)) as [[-> ->]|(l & E & S & G)].
  - exists []. split; [split; [reflexivity|constructor]|]. split; reflexivity.
  - assert (Ad : forall a b c, if_add fin a b = Ok c -> if_fees c = if_fees a + if_fees b /\ cc_checked_add fin (if_value a) (if_value b) = Ok (if_value c)).
    { intros a b c X. unfold if_add, vk_checked_add, upto, p_add in X. destruct (_ <? _); [|discriminate]. destruct (_ <=? _); [|discriminate].
      destruct (cc_checked_add fin _ _); cbn [rbind] in X; [|discriminate]. injection X as <-. auto. }
    exists l. split; [split; assumption|].
    split; [apply (over_measure (if_add fin) N.add 0 if_fees)|apply (over_measure (if_add fin) N.add 0 (fun a => cc_tokens (if_value a)))];
      try (apply N.add_assoc); try (apply N.add_0_r); try exact G; intros a b c X; [apply Ad, X|apply cc_add_tokens, Ad, X].
Qed.
End Instances.
Print Assumptions C30_currency.
Print Assumptions C30_shard_accounts.
Print Assumptions C30_old_blocks.
Print Assumptions C30_shard_fees.
Print Assumptions C30_import_fees.

(** ** A case: three accounts are added, one is replaced, one removed *)
Local Open Scope N_scope.
Definition acc (depth tokens : N) : depth_balance := DepthBalance depth (Currency tokens None).
Definition a_ins (d : @aug_dict depth_balance) (k : N) (a : depth_balance) (v : list bool) (mode : set_mode) :=
  aug_insert ok_fin (comp_add db_stored load_db (db_add ok_fin)) db_stored load_db db_default d (nbits 8 k) 8 a (v, []) mode.
Definition a_rem (d : @aug_dict depth_balance) (k : N) :=
  aug_remove ok_fin (comp_add db_stored load_db (db_add ok_fin)) load_db db_default d (nbits 8 k) 8.
Definition d1 := Eval vm_compute in fst (a_ins (aug_new db_default) 7 (acc 3 1000) [true] MSet).
Definition d2 := Eval vm_compute in fst (a_ins d1 200 (acc 9 5) [false; true] MAdd).
Definition d3 := Eval vm_compute in fst (a_ins d2 6 (acc 0 70) [] MSet).
Definition d4 := Eval vm_compute in fst (a_ins d3 7 (acc 2 900) [false] MReplace).
Definition d5 := Eval vm_compute in fst (a_rem d4 200).
Example C30_case :
  ad_extra d3 = acc 9 1075 /\ ad_extra d4 = acc 9 975 /\ ad_extra d5 = acc 2 970 /\
  snd (a_ins d4 7 (acc 31 0) [] MSet) = Err IntOverflow /\ snd (a_ins d4 7 (acc 31 0) [] MAdd) = Ok false /\
  snd (a_ins d4 9 (acc 1 (2 ^ 120 - 1)) [] MSet) = Err IntOverflow /\ aug_get load_db d4 (nbits 8 7) 8 = Ok (Some (acc 2 900, ([false], []))).
Proof. repeat split; vm_compute; reflexivity. Qed.
Example C31_case : exists m,
  ahistory ok_fin db_stored load_db (db_add ok_fin) db_default 8 d5 m /\ m !! nbits 8 7 = Some (acc 2 900, ([false], [])) /\ m !! nbits 8 200 = None /\ m !! nbits 8 6 = Some (acc 0 70, ([], [])).
Proof.
  assert (H0 : ahistory ok_fin db_stored load_db (db_add ok_fin) db_default 8 (aug_new db_default) ∅) by constructor.
  pose proof (ah_insert _ _ _ _ _ 8 _ _ (nbits 8 7) (acc 3 1000) ([true], []) MSet d1 (Ok true) H0 eq_refl ltac:(vm_compute; reflexivity)) as H1.
  pose proof (ah_insert _ _ _ _ _ 8 _ _ (nbits 8 200) (acc 9 5) ([false; true], []) MAdd d2 (Ok true) H1 eq_refl ltac:(vm_compute; reflexivity)) as H2.
  pose proof (ah_insert _ _ _ _ _ 8 _ _ (nbits 8 6) (acc 0 70) ([], []) MSet d3 (Ok true) H2 eq_refl ltac:(vm_compute; reflexivity)) as H3.
  pose proof (ah_insert _ _ _ _ _ 8 _ _ (nbits 8 7) (acc 2 900) ([false], []) MReplace d4 (Ok true) H3 eq_refl ltac:(vm_compute; reflexivity)) as H4.
  destruct (a_rem d4 200) as [d r] eqn:E. assert (Ed : d = d5) by (replace d with (fst (a_rem d4 200)) by (rewrite E; reflexivity); vm_compute; reflexivity).
  assert (Er : exists x, r = Ok (Some x)) by (replace r with (snd (a_rem d4 200)) by (rewrite E; reflexivity); vm_compute; eexists; reflexivity).
  destruct Er as (x & ->). subst d. pose proof (ah_remove _ _ _ _ _ 8 _ _ (nbits 8 200) d5 _ H4 eq_refl E) as H5. cbv iota in H5.
  eexists. split; [exact H5|]. split; [|split].
  - rewrite lookup_delete_ne by (vm_compute; discriminate). apply lookup_insert.
  - apply lookup_delete.
  - rewrite lookup_delete_ne by (vm_compute; discriminate). rewrite lookup_insert_ne by (vm_compute; discriminate). apply lookup_insert.
Qed.
