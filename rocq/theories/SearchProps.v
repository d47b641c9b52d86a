(** * C63: searching augmented dictionaries by their extras.

    Model: SearchModel.v.  [find] below is [AugDict::find_by_extra] on the raw key and value.  The
    extra is any type [A] with a [Store], a [Load] that reads back what was stored and a combination
    [a_add] that may fail (as in C30 and C31); [m] is the finite map that the calls made so far lead to. *)
From Coq Require Import Sorting.Sorted.
From Verif Require Import Err BitsProofs CellModel DictModel DictSpec DictProps IterProps ChunkModel ChunkSpec AugModel AugSpec AugProofs AugProofs3 AugProps AugExtraModel AugExtraProofs SearchModel SearchProofs.
Local Open Scope nat_scope.

Section Found.
Context (fin : list bool -> list cell -> res unit).
Context {A : Type} (a_store : A -> res chunk) (a_load : chunk -> res (A * chunk)) (a_add : A -> A -> res A) (a_default : A).
Context (LS : loads_stored a_store a_load).
Notation state := (aug_state a_store a_load a_add a_default).
Notation history := (ahistory fin a_store a_load a_add a_default).
Notation tmap := (gmap (list bool) (A * chunk)).
Notation aentries := (list (list bool * (A * chunk))).
(** Smaller keys, as unsigned integers. *)
Notation "a ≺ b" := (before false false a b) (at level 70).

(** A dictionary that some calls have built, or one with any labels that was read from somewhere. *)
Definition represents (n : nat) (d : @aug_dict A) (m : tmap) : Prop :=
  history n d m \/ state any_dict n (ad_root d) (ad_extra d) m.

Lemma weaken_hashmap comb n c x es : aug_hashmap comb (canonical_dict fin) n c x es -> aug_hashmap comb any_dict n c x es.
Proof. induction 1; econstructor; try eassumption; try (apply canonical_any; eassumption); exact Logic.I. Qed.
Lemma represents_any n d m : n <= 1023 -> represents n d m -> state any_dict n (ad_root d) (ad_extra d) m.
Proof.
  intros Hn [H|H]; [|exact H]. apply history_state in H; [|exact LS|exact Hn]. destruct H as (o & es & l & D & R). exists o, es, l. split; [|exact R].
  destruct (ad_root d), o; cbn [is_aug_root] in *; try contradiction; [|exact D]. apply weaken_hashmap, D.
Qed.
Lemma sorted_lookup (l : aentries) k x : StronglySorted (fun a b => fst a ≺ fst b) l -> (list_to_map l : tmap) !! k = Some x <-> In (k, x) l.
Proof.
  intros S. rewrite <- elem_of_list_In. symmetry. apply elem_of_list_to_map.
  change (NoDup (map fst l)). clear - S. induction S as [|e l S IH F]; [constructor|]. cbn [map]. constructor; [|exact IH].
  rewrite elem_of_list_In, in_map_iff. intros (f & E & I). rewrite List.Forall_forall in F. specialize (F f I). rewrite E in F. unfold before in F. lia.
Qed.
Lemma sorted_split (l1 l2 : aentries) e : StronglySorted (fun a b => fst a ≺ fst b) (l1 ++ e :: l2) ->
  Forall (fun x => fst x ≺ fst e) l1 /\ Forall (fun x => fst e ≺ fst x) l2.
Proof.
  induction l1 as [|f l1 IH]; cbn [app]; intros S; inversion_clear S as [|? ? S' F].
  - split; [constructor|exact F].
  - destruct (IH S') as [X Y]. split; [|exact Y]. constructor; [|exact X]. rewrite List.Forall_forall in F. apply F. apply in_or_app. right. left. reflexivity.
Qed.

Section Any.
Context {S : Type} (on_leaf : S -> A -> bool) (on_edge : S -> A -> A -> option bool * S).
Notation find := (find_by_extra a_load on_leaf on_edge).
(** A search never fails.  What it finds is an entry of the map whose extra the search accepted. *)
Theorem C63_found n d m s : n <= 1023 -> represents n d m ->
  exists o, find (ad_root d) n s = Ok o /\
    match o with Some (k, a, v) => m !! k = Some (a, v) /\ exists s', on_leaf s' a = true | None => True end.
Proof.
  intros Hn H. apply represents_any in H; [|exact Hn]. destruct (find_ok a_store a_load a_add a_default LS on_leaf on_edge n _ _ m s Hn H) as [[-> E]|(l & o & -> & St & _ & So & E)].
  - exists None. auto.
  - exists o. split; [exact E|]. destruct o as [[[k a] v]|]; [|exact Logic.I]. destruct (search_in a_add on_leaf on_edge _ _ _ _ So _ _ _ eq_refl) as [I X]. split; [apply sorted_lookup; assumption|exact X].
Qed.
(** A search that never stops and refuses no leaf finds something, unless there is nothing. *)
Theorem C63_total n d m s : n <= 1023 -> represents n d m ->
  (forall s a, on_leaf s a = true) -> (forall s a b, fst (on_edge s a b) <> None) ->
  find (ad_root d) n s = Ok None <-> m = ∅.
Proof.
  intros Hn H HL HE. apply represents_any in H; [|exact Hn]. destruct (find_ok a_store a_load a_add a_default LS on_leaf on_edge n _ _ m s Hn H) as [[-> E]|(l & o & -> & St & _ & So & E)].
  - split; auto.
  - rewrite E. assert (o <> None).
    { clear - HL HE So. induction So as [s k a v|s p l r a b c s' Ga Gb Ec Eo|s p l r a b c s' o Ga Gb Ec Eo H IH|s p l r a b c s' o Ga Gb Ec Eo H IH].
      - rewrite HL. discriminate.
      - specialize (HE s a b). rewrite Eo in HE. exfalso. apply HE. reflexivity.
      - destruct o as [[[k z] v]|]; [discriminate|exfalso; apply IH; auto].
      - destruct o as [[[k z] v]|]; [discriminate|exfalso; apply IH; auto]. }
    split; [intros [= X]; contradiction|]. intros X. exfalso. apply search_agg, agg_nonempty in So. destruct l as [|[k x] l]; [apply So; reflexivity|]. cbn in X. apply (insert_non_empty _ _ _ X).
Qed.
End Any.

(** ** Always to one side: the least or the greatest key *)
Theorem C63_ends n d m (side : bool) : n <= 1023 -> represents n d m ->
  exists o, find_by_extra a_load any_leaf branch_edge (ad_root d) n side = Ok o /\
    match o with
    | Some (k, a, v) => m !! k = Some (a, v) /\ forall k' x, m !! k' = Some x -> k' = k \/ (if side then k' ≺ k else k ≺ k')
    | None => m = ∅
    end.
Proof.
  intros Hn H. apply represents_any in H; [|exact Hn]. destruct (find_ok a_store a_load a_add a_default LS any_leaf branch_edge n _ _ m side Hn H) as [[-> E]|(l & o & -> & St & _ & So & E)].
  - exists None. auto.
  - exists o. split; [exact E|]. pose proof (side_search a_add side l _ o So) as F. apply search_agg, agg_nonempty in So. destruct side; cbn [first_or_last] in F.
    + destruct l as [|x l _] using rev_ind; [exfalso; apply So; reflexivity|]. rewrite last_snoc in F. destruct o as [[[k a] v]|]; [|discriminate]. injection F as <-. destruct (sorted_split l [] _ St) as [X _].
      split; [apply sorted_lookup; [exact St|]; apply in_or_app; right; left; reflexivity|]. intros k' x I. apply sorted_lookup in I; [|exact St]. apply in_app_or in I. destruct I as [I|[[= -> _]|[]]]; [right|left; reflexivity]. rewrite List.Forall_forall in X. exact (X _ I).
    + destruct l as [|x l]; [exfalso; apply So; reflexivity|]. cbn [head] in F. destruct o as [[[k a] v]|]; [|discriminate]. injection F as <-. destruct (sorted_split [] l _ St) as [_ X].
      split; [apply sorted_lookup; [exact St|]; left; reflexivity|]. intros k' x I. apply sorted_lookup in I; [|exact St]. destruct I as [[= -> _]|I]; [left; reflexivity|right]. rewrite List.Forall_forall in X. exact (X _ I).
Qed.

(** ** A secondary index: extras that say whether some entry below has a property *)
Theorem C63_index n d m (P : A -> bool) : n <= 1023 -> represents n d m ->
  (forall a b c, a_add a b = Ok c -> P c = P a || P b) ->
  exists o, find_by_extra a_load (fun _ a => P a) (fun _ a b => (if P a then Some false else if P b then Some true else None, tt)) (ad_root d) n tt = Ok o /\
    match o with
    | Some (k, a, v) => m !! k = Some (a, v) /\ P a = true /\ forall k' a' v', m !! k' = Some (a', v') -> P a' = true -> k' = k \/ k ≺ k'
    | None => forall k' a' v', m !! k' = Some (a', v') -> P a' = false
    end.
Proof.
  intros Hn H HP. apply represents_any in H; [|exact Hn]. destruct (find_ok a_store a_load a_add a_default LS (pred_leaf P) (pred_edge P) n _ _ m tt Hn H) as [[-> E]|(l & o & -> & St & _ & So & E)].
  - exists None. split; [exact E|]. intros k' a' v' X. rewrite lookup_empty in X. discriminate.
  - exists o. split; [exact E|]. pose proof (pred_search a_add P HP tt l _ o So) as F. clear - F St.
    assert (G : match List.find (test P) l with Some e => exists l1 l2, l = l1 ++ e :: l2 /\ test P e = true /\ Forall (fun x => test P x = false) l1 | None => Forall (fun x => test P x = false) l end).
    { clear. induction l as [|e l IH]; cbn [List.find]; [constructor|]. destruct (test P e) eqn:T; [exists [], l; auto|]. destruct (List.find (test P) l); [|constructor; assumption]. destruct IH as (l1 & l2 & -> & X & Y). exists (e :: l1), l2. auto. }
    rewrite <- F in G. destruct o as [[[k a] v]|].
    + destruct G as (l1 & l2 & -> & T & X). destruct (sorted_split l1 l2 _ St) as [_ Y]. split; [apply sorted_lookup; [exact St|]; apply in_or_app; right; left; reflexivity|]. split; [exact T|].
      intros k' a' v' I T'. apply sorted_lookup in I; [|exact St]. apply in_app_or in I. rewrite List.Forall_forall in X, Y. destruct I as [I|[[= -> _ _]|I]]; [|left; reflexivity|right; exact (Y _ I)]. apply X in I. unfold test in I. cbn [fst snd] in I. congruence.
    + intros k' a' v' I. apply sorted_lookup in I; [|exact St]. rewrite List.Forall_forall in G. exact (G _ I).
Qed.

(** ** Extras that are greatest (or least) ones *)
(** The search by [Ordering] finds an entry with the greatest extra (the least one for [Lt]), and
    among equal ones the one with the greatest key; its extra is that of the dictionary. *)
Theorem C63_extreme n d m (cmp : A -> A -> comparison) (wanted : comparison) : n <= 1023 -> represents n d m -> wanted <> Eq ->
  (forall a b, cmp b a = CompOpp (cmp a b)) -> (forall a b c, cmp a b <> Gt -> cmp b c <> Gt -> cmp a c <> Gt) ->
  (forall a b c, a_add a b = Ok c -> (cmp a b = wanted -> c = a) /\ (cmp a b <> wanted -> c = b)) ->
  exists o, find_by_extra a_load any_leaf (order_edge cmp) (ad_root d) n wanted = Ok o /\
    match o with
    | Some (k, a, v) => m !! k = Some (a, v) /\ a = ad_extra d /\
        forall k' a' v', m !! k' = Some (a', v') -> cmp a' a <> wanted /\ (k ≺ k' -> cmp a a' = wanted)
    | None => m = ∅
    end.
Proof.
  intros Hn H Hw Hsym Htr Hadd. apply represents_any in H; [|exact Hn]. destruct (find_ok a_store a_load a_add a_default LS any_leaf (order_edge cmp) n _ _ m wanted Hn H) as [[-> E]|(l & o & -> & St & _ & So & E)].
  - exists None. auto.
  - exists o. split; [exact E|]. assert (Ha : forall a b c, a_add a b = Ok c -> c = if match cmp a b, wanted with Lt, Lt | Gt, Gt => true | _, _ => false end then a else b).
    { intros a b c X. apply Hadd in X. destruct X as [X Y]. destruct (cmp a b), wanted; try congruence; try (apply X; reflexivity); apply Y; discriminate. }
    destruct (order_search a_add cmp wanted Hw Hsym Htr Ha wanted l _ o eq_refl So) as (k & v & -> & l1 & l2 & -> & X & Y). destruct (sorted_split l1 l2 _ St) as [Z _].
    split; [apply sorted_lookup; [exact St|]; apply in_or_app; right; left; reflexivity|]. split; [reflexivity|].
    intros k' a' v' I. apply sorted_lookup in I; [|exact St]. rewrite List.Forall_forall in X, Y, Z. unfold better in *. cbn [fst snd] in *. apply in_app_or in I. destruct I as [I|[[= -> -> ->]|I]].
    + split; [exact (X _ I)|]. intros B. apply Z in I. cbn [fst] in I. unfold before in *. lia.
    + split; [|unfold before; lia]. pose proof (Hsym a' a') as Q. destruct (cmp a' a'); try discriminate. congruence.
    + apply Y in I. cbn [fst snd] in I. split; [|auto]. rewrite (Hsym (ad_extra d) a'), I. destruct wanted; cbn; congruence.
Qed.
End Found.

(** ** Weights: extras that are sums *)
(** A search that goes to the left if the number is smaller than the left weight and otherwise to the
    right with the difference finds the entry in whose part of the total weight the number lies. *)
Section Weighed.
Context (fin : list bool -> list cell -> res unit).
Context (a_store : N -> res chunk) (a_load : chunk -> res (N * chunk)) (a_add : N -> N -> res N) (a_default : N).
Context (LS : loads_stored a_store a_load).
Theorem C63_weights n d m (t : N) : n <= 1023 -> represents fin a_store a_load a_add a_default n d m ->
  (forall a b c, a_add a b = Ok c -> c = (a + b)%N) -> m <> ∅ -> (t < ad_extra d)%N ->
  exists k w v l1 l2, find_by_extra a_load any_leaf (fun t a b => if (t <? a)%N then (Some false, t) else (Some true, (t - a)%N)) (ad_root d) n t = Ok (Some (k, w, v)) /\
    sorted_entries (l1 ++ (k, (w, v)) :: l2) m /\ (over N.add 0 id l1 <= t < over N.add 0 id l1 + w)%N.
Proof.
  intros Hn H Ha Ne L. apply represents_any in H; [|exact LS|exact Hn]. destruct (find_ok a_store a_load a_add a_default LS any_leaf weight_edge n _ _ m t Hn H) as [[-> E]|(l & o & -> & St & _ & So & E)]; [congruence|].
  destruct (weight_search a_add Ha t l _ o So L) as (k & w & v & l1 & l2 & -> & -> & B). exists k, w, v, l1, l2. split; [exact E|]. split; [split; [reflexivity|exact St]|].
  replace (over N.add 0%N id l1) with (total l1); [exact B|]. clear. unfold over, total. induction l1 as [|e l1 IH]; [reflexivity|]. cbn [fold_right map foldr]. rewrite IH. reflexivity.
Qed.
End Weighed.

(** ** The extras of the models *)
(** [OldMcBlocksInfo]: the first block after which there is a key block is found, if there is one. *)
Theorem C63_key_block fin n d m : n <= 1023 -> represents fin kml_stored load_kml kml_add kml_default n d m ->
  exists o, find_by_extra load_kml (fun _ a => k_has a) (fun _ a b => (if k_has a then Some false else if k_has b then Some true else None, tt)) (ad_root d) n tt = Ok o /\
    match o with
    | Some (k, a, v) => m !! k = Some (a, v) /\ k_has a = true /\ forall k' a' v', m !! k' = Some (a', v') -> k_has a' = true -> k' = k \/ before false false k k'
    | None => forall k' a' v', m !! k' = Some (a', v') -> k_has a' = false
    end.
Proof. intros Hn H. apply (C63_index fin kml_stored load_kml kml_add kml_default kml_loads n d m k_has Hn H). intros a b c [= <-]. reflexivity. Qed.
(** [OldMcBlocksInfo]: a search that asks whether the greatest logical time below reaches [t] finds
    the first block that ends at [t] or later. *)
Theorem C63_by_lt fin n d m (t : N) : n <= 1023 -> represents fin kml_stored load_kml kml_add kml_default n d m ->
  exists o, find_by_extra load_kml (fun _ a => (t <=? k_max a)%N) (fun _ a b => (if (t <=? k_max a)%N then Some false else if (t <=? k_max b)%N then Some true else None, tt)) (ad_root d) n tt = Ok o /\
    match o with
    | Some (k, a, v) => m !! k = Some (a, v) /\ (t <= k_max a)%N /\ forall k' a' v', m !! k' = Some (a', v') -> (t <= k_max a')%N -> k' = k \/ before false false k k'
    | None => forall k' a' v', m !! k' = Some (a', v') -> (k_max a' < t)%N
    end.
Proof.
  intros Hn H. destruct (C63_index fin kml_stored load_kml kml_add kml_default kml_loads n d m (fun a => (t <=? k_max a)%N) Hn H) as (o & E & X).
  - intros a b c [= <-]. cbn [k_max]. destruct (N.leb_spec t (k_max a)), (N.leb_spec t (k_max b)), (N.leb_spec t (N.max (k_max a) (k_max b))); cbn [orb]; lia || reflexivity.
  - exists o. split; [exact E|]. destruct o as [[[k a] v]|].
    + destruct X as (L & P & F). split; [exact L|]. split; [apply N.leb_le, P|]. intros k' a' v' L' P'. apply (F _ _ _ L'), N.leb_le, P'.
    + intros k' a' v' L'. apply N.leb_gt, (X _ _ _ L').
Qed.

(** ** Cases *)
(** aug.rs:1347-1377: 64-bit extras whose combination is the greater one, and the same with sums. *)
Definition u64_stored (a : N) : res chunk := stored (a <? 2 ^ 64)%N (store_un 64 a).
Definition max_add (a b : N) : res N := Ok (N.max a b).
Definition sum_add (a b : N) : res N := if (a + b <? 2 ^ 64)%N then Ok (a + b)%N else Err IntOverflow.
Lemma u64_loads : loads_stored u64_stored (load_un 64).
Proof. apply (rt_loads (fun a => a <? 2 ^ 64)%N (store_un 64)). intros a H. apply rt_un, N.ltb_lt, H. Qed.
Definition put_all (add : N -> N -> res N) (es : list (N * N * list bool)) : @aug_dict N :=
  fold_left (fun d '(k, a, v) => fst (aug_insert ok_fin (comp_add u64_stored (load_un 64) add) u64_stored (load_un 64) 0%N d (nbits 32 k) 32 a (v, []) MSet)) es (aug_new 0%N).
Lemma put_all_history add es : exists m, ahistory ok_fin u64_stored (load_un 64) add 0%N 32 (put_all add es) m.
Proof.
  unfold put_all. assert (G : exists m, ahistory ok_fin u64_stored (load_un 64) add 0%N 32 (aug_new 0%N) m) by (exists ∅; constructor). revert G. generalize (@aug_new N 0%N).
  induction es as [|[[k a] v] es IH]; intros d (m & H); [exists m; exact H|]. cbn [fold_left]. apply IH.
  destruct (aug_insert ok_fin (comp_add u64_stored (load_un 64) add) u64_stored (load_un 64) 0%N d (nbits 32 k) 32 a (v, []) MSet) as [d' r] eqn:E. eexists. eapply ah_insert; [exact H|apply length_nbits|exact E].
Qed.
Definition items : list (N * N * list bool) := [(0, 100, [true]); (2, 150, [false]); (4, 200, []); (6, 350, [true; true]); (7, 300, []); (8, 250, [false])]%N.
Definition dmax := Eval vm_compute in put_all max_add items.
Definition dsum := Eval vm_compute in put_all sum_add items.
Definition weigh (t a b : N) : option bool * N := if (t <? a)%N then (Some false, t) else (Some true, (t - a)%N).
Example C63_case :
  find_by_extra (load_un 64) any_leaf (order_edge N.compare) (ad_root dmax) 32 Gt = Ok (Some (nbits 32 6, 350%N, ([true; true], []))) /\
  find_by_extra (load_un 64) any_leaf branch_edge (ad_root dmax) 32 false = Ok (Some (nbits 32 0, 100%N, ([true], []))) /\
  find_by_extra (load_un 64) any_leaf branch_edge (ad_root dmax) 32 true = Ok (Some (nbits 32 8, 250%N, ([false], []))) /\
  find_by_extra (load_un 64) any_leaf weigh (ad_root dsum) 32 249%N = Ok (Some (nbits 32 2, 150%N, ([false], []))) /\
  find_by_extra (load_un 64) any_leaf weigh (ad_root dsum) 32 450%N = Ok (Some (nbits 32 6, 350%N, ([true; true], []))) /\
  find_by_extra (load_un 64) any_leaf (order_edge N.compare) None 32 Gt = Ok None.
Proof. repeat split; vm_compute; reflexivity. Qed.
(** The hypotheses of the theorems hold for these dictionaries. *)
Example C63_represented : (exists m, represents ok_fin u64_stored (load_un 64) max_add 0%N 32 dmax m) /\ (exists m, represents ok_fin u64_stored (load_un 64) sum_add 0%N 32 dsum m) /\
  (forall a b c, max_add a b = Ok c -> (N.compare a b = Gt -> c = a) /\ (N.compare a b <> Gt -> c = b)) /\ (forall a b c, sum_add a b = Ok c -> c = (a + b)%N).
Proof.
  split; [|split; [|split]].
  - destruct (put_all_history max_add items) as (m & H). exists m. left. replace dmax with (put_all max_add items) by (vm_compute; reflexivity). exact H.
  - destruct (put_all_history sum_add items) as (m & H). exists m. left. replace dsum with (put_all sum_add items) by (vm_compute; reflexivity). exact H.
  - intros a b c [= <-]. destruct (N.compare_spec a b); split; intros; try congruence; lia.
  - intros a b c. unfold sum_add. destruct (_ <? _)%N; [intros [= <-]; reflexivity|discriminate].
Qed.
(** Finding: with extras that are sums, as those of accounts and messages are, the search by
    [Ordering::Greater] goes where the sum is greater and misses the greatest extra. *)
Definition sums : list (N * N * list bool) := [(0, 10, []); (1, 9, []); (2 ^ 31, 15, []); (2 ^ 31 + 1, 1, [])]%N.
Theorem C63_sums_refuted :
  (exists m, represents ok_fin u64_stored (load_un 64) sum_add 0%N 32 (put_all sum_add sums) m) /\
  find_by_extra (load_un 64) any_leaf (order_edge N.compare) (ad_root (put_all sum_add sums)) 32 Gt = Ok (Some (nbits 32 0, 10%N, ([], []))) /\
  aug_get (load_un 64) (put_all sum_add sums) (nbits 32 (2 ^ 31)) 32 = Ok (Some (15%N, ([], []))).
Proof.
  split; [|split; vm_compute; reflexivity]. destruct (put_all_history sum_add sums) as (m & H). exists m. left. exact H.
Qed.
Print Assumptions C63_found.
Print Assumptions C63_total.
Print Assumptions C63_ends.
Print Assumptions C63_index.
Print Assumptions C63_extreme.
Print Assumptions C63_weights.
Print Assumptions C63_key_block.
Print Assumptions C63_by_lt.
Print Assumptions C63_sums_refuted.
