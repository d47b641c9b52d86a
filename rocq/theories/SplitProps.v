(** * Splitting and merging dictionaries (C28). *)
From Verif Require Import Err BitsProofs CellModel LabelModel LabelSpec LabelProofs DictModel DictSpec DictTree
  DictProofs DictProofs2 DictExist SplitSpec SplitProofs DictProps.
Local Open Scope nat_scope.

(** C28: splitting by a prefix.  If it succeeds, the parts are dictionaries of the same key
    width with the entries whose keys continue the prefix with 0 and with 1; the dictionary
    may be non-canonical. *)
Theorem C28_split_by_prefix (fin : list bool -> list cell -> res unit) n d es p l r :
  n <= 1023 -> is_dict plain_dict n d es -> dict_split_by_prefix fin d n p = Ok (l, r) ->
  exists el er, is_dict plain_dict n l el /\ is_dict plain_dict n r er /\
    dmap el = part (p ++ [false]) (dmap es) /\ dmap er = part (p ++ [true]) (dmap es).
Proof. intros Hn D. apply split_prefix_sound; [apply reads_plain|apply writes_plain|exact Hn|exact D]. Qed.
Print Assumptions C28_split_by_prefix.

(** C28: for canonical dictionaries the parts are the canonical dictionaries of their content. *)
Theorem C28_split_canonical (fin : list bool -> list cell -> res unit) n d es p l r :
  n <= 1023 -> is_dict (canonical_dict fin) n d es -> dict_split_by_prefix fin d n p = Ok (l, r) ->
  exists el er, is_dict (canonical_dict fin) n l el /\ is_dict (canonical_dict fin) n r er /\
    dmap el = part (p ++ [false]) (dmap es) /\ dmap er = part (p ++ [true]) (dmap es).
Proof. intros Hn D. apply split_prefix_sound; [apply reads_canonical|apply writes_canonical|exact Hn|exact D]. Qed.
Print Assumptions C28_split_canonical.

(** ... and the split does succeed when all keys start with the prefix and the parts fit. *)
Theorem C28_split_succeeds (fin : list bool -> list cell -> res unit) n d es p :
  (forall b r, length b <= 1023 -> length r <= 4 -> fin b r = Ok tt) ->
  n <= 1023 -> length p < n -> is_dict (canonical_dict fin) n d es ->
  (forall k v, dmap es !! k = Some v -> p `prefix_of` k /\ n + length (fst v) <= 1011 /\ length (snd v) <= 4) ->
  exists l r, dict_split_by_prefix fin d n p = Ok (l, r).
Proof.
  intros Hfin Hn Hp Hd Hall.
  assert (E : forall bit : bool, exists d' es', is_dict (canonical_dict fin) n d' es' /\ dmap es' = part (p ++ [bit]) (dmap es)).
  { intros bit. apply (dict_exists fin Hfin n). intros k v H. rewrite part_lookup in H. destruct (strip _ _); [|discriminate].
    destruct (Hall _ _ H) as (_ & A & B). split; [|split; assumption].
    destruct d as [c|]; cbn [is_dict] in Hd; [|subst es; cbn in H; rewrite lookup_empty in H; discriminate].
    apply hashmap_rep in Hd. destruct Hd as (t & Ht & ->). eapply entries_lookup_len; [eapply Rep_wft; exact Ht|exact H]. }
  destruct (E false) as (l & el & Hl & Ml), (E true) as (r & er & Hr & Mr). exists l, r.
  eapply split_prefix_complete; try eassumption. intros k v H. apply (Hall k v H).
Qed.
Print Assumptions C28_split_succeeds.

(** C28: the raw split of the next bit.  The branches are dictionaries with the remaining key
    width [m]: the whole keys, or the keys without their first bit. *)
Theorem C28_split_raw n d es :
  0 < n -> n <= 1023 -> is_dict any_dict n d es ->
  exists m l r el er, dict_split_raw d n = Ok (m, l, r) /\ is_dict any_dict m l el /\ is_dict any_dict m r er /\
    (forall k, length k = m ->
       (m = n -> dmap el !! k = part [false] (dmap es) !! k /\ dmap er !! k = part [true] (dmap es) !! k) /\
       (m <> n -> S m = n /\ dmap el !! k = dmap es !! (false :: k) /\ dmap er !! k = dmap es !! (true :: k))).
Proof.
  intros H0 Hn Hd. unfold dict_split_raw. destruct (Nat.eqb_spec n 0) as [->|N0]; [lia|].
  destruct d as [c|]; cbn [is_dict] in Hd.
  2:{ subst es. exists n, None, None, [], []. split; [reflexivity|]. split; [reflexivity|]. split; [reflexivity|]. intros k Hk.
      split; [|congruence]. intros _. rewrite !part_lookup. cbn. rewrite lookup_empty. destruct k as [|[] k]; cbn; auto. }
  pose proof Hd as Hd0. apply hashmap_rep in Hd. destruct Hd as (t & Ht & ->).
  destruct (Rep_inv any_dict n c t reads_any Hn Ht) as (bits & refs & rest & Ec & Es & El & Hsh). rewrite Es. cbn [rbind s_bits s_refs].
  rewrite El. cbn [rbind]. destruct (lbl t) as [|b w] eqn:L.
  - destruct t as [l0 v|l0 x a b]; cbn [lbl] in L; subst l0; [cbn [length] in Hsh; destruct Hsh; lia|].
    destruct Hsh as (m & cl & cr & Hm & -> & -> & Ha & Hb). cbn [length] in Hm. exists m, (Some cl), (Some cr), (entries a), (entries b).
    split; [repeat f_equal; lia|]. split; [apply hashmap_rep; eauto|]. split; [apply hashmap_rep; eauto|]. intros k Hk.
    split; [lia|]. intros _. split; [lia|]. rewrite !t_get_spec. split; reflexivity.
  - exists n, (if b then None else Some c), (if b then Some c else None), (if b then [] else entries t), (if b then entries t else []).
    split; [destruct b; reflexivity|]. split; [destruct b; [reflexivity|exact Hd0]|]. split; [destruct b; [exact Hd0|reflexivity]|].
    intros k Hk. split; [|congruence]. intros _.
    pose proof (part_label t [b] (ex_intro _ w L)) as P1. pose proof (part_none t [] (negb b) w) as P2.
    rewrite negb_involutive in P2. specialize (P2 L). cbn [app] in P2.
    destruct b; cbn [negb] in P2; rewrite P1, P2; split; reflexivity.
Qed.
Print Assumptions C28_split_raw.

(** C28: merging siblings, when it succeeds, gives the union. *)
Theorem C28_merge (fin : list bool -> list cell -> res unit) n l r el er d :
  n <= 1023 -> is_dict plain_dict n l el -> is_dict plain_dict n r er -> dict_merge_siblings fin l r n = Ok d ->
  exists es, is_dict plain_dict n d es /\ dmap es = dmap el ∪ dmap er.
Proof. intros Hn. apply merge_siblings_sound; [apply reads_plain|apply writes_plain|exact Hn]. Qed.
Print Assumptions C28_merge.
Theorem C28_merge_canonical (fin : list bool -> list cell -> res unit) n l r el er d :
  n <= 1023 -> is_dict (canonical_dict fin) n l el -> is_dict (canonical_dict fin) n r er -> dict_merge_siblings fin l r n = Ok d ->
  exists es, is_dict (canonical_dict fin) n d es /\ dmap es = dmap el ∪ dmap er.
Proof. intros Hn. apply merge_siblings_sound; [apply reads_canonical|apply writes_canonical|exact Hn]. Qed.
Print Assumptions C28_merge_canonical.
(** ... and it succeeds on siblings (one side continues some prefix with 0, the other with 1)
    when the union fits. *)
Theorem C28_merge_succeeds (fin : list bool -> list cell -> res unit) n l r el er p :
  (forall b r, length b <= 1023 -> length r <= 4 -> fin b r = Ok tt) ->
  n <= 1023 -> is_dict (canonical_dict fin) n l el -> is_dict (canonical_dict fin) n r er ->
  (forall k v, dmap el !! k = Some v -> (p ++ [false]) `prefix_of` k /\ n + length (fst v) <= 1011 /\ length (snd v) <= 4) ->
  (forall k v, dmap er !! k = Some v -> (p ++ [true]) `prefix_of` k /\ n + length (fst v) <= 1011 /\ length (snd v) <= 4) ->
  exists d, dict_merge_siblings fin l r n = Ok d.
Proof.
  intros Hfin Hn Hl Hr Al Ar.
  assert (K : forall d es k v, is_dict (canonical_dict fin) n d es -> dmap es !! k = Some v -> length k = n).
  { intros d es k v D H. destruct d as [c|]; cbn [is_dict] in D; [|subst es; cbn in H; rewrite lookup_empty in H; discriminate].
    apply hashmap_rep in D. destruct D as (t & Ht & ->). eapply entries_lookup_len; [eapply Rep_wft; exact Ht|exact H]. }
  destruct (dict_exists fin Hfin n (dmap el ∪ dmap er)) as (d & es & Hd & Hm).
  { intros k v H. apply lookup_union_Some_raw in H. destruct H as [H|[_ H]].
    - destruct (Al _ _ H) as (_ & A & B). eauto.
    - destruct (Ar _ _ H) as (_ & A & B). eauto. }
  exists d. eapply merge_siblings_complete; try eassumption; intros k v H; [apply (Al k v H)|apply (Ar k v H)].
Qed.
Print Assumptions C28_merge_succeeds.

(** C28: splitting and merging back gives the same root. *)
Theorem C28_split_merge (fin : list bool -> list cell -> res unit) n d es p l r :
  n <= 1023 -> length p < n -> is_dict (canonical_dict fin) n d es ->
  (forall k v, dmap es !! k = Some v -> p `prefix_of` k) ->
  dict_split_by_prefix fin d n p = Ok (l, r) -> dict_merge_siblings fin l r n = Ok d.
Proof.
  intros Hn Hp Hd Hall Hs.
  destruct (split_prefix_sound fin (canonical_dict fin) n d es p (reads_canonical fin) (writes_canonical fin) Hn Hd l r Hs) as (el & er & Hl & Hr & Ml & Mr).
  apply (merge_siblings_complete fin n l r el er d es p Hn Hl Hr).
  - intros k v H. rewrite Ml, part_lookup in H. destruct (strip _ _) as [w|] eqn:S; [|discriminate]. exists w. apply strip_some, S.
  - intros k v H. rewrite Mr, part_lookup in H. destruct (strip _ _) as [w|] eqn:S; [|discriminate]. exists w. apply strip_some, S.
  - exact Hd.
  - rewrite Ml, Mr. apply map_eq. intros k. rewrite lookup_union, !part_lookup.
    destruct (dmap es !! k) as [v|] eqn:E; [|destruct (strip _ _), (strip _ _); reflexivity].
    destruct (Hall _ _ E) as [w ->]. rewrite !strip_app_l, strip_app.
    destruct w as [|[] w]; [|reflexivity|reflexivity]. exfalso.
    destruct d as [c|]; cbn [is_dict] in Hd; [|subst es; cbn in E; rewrite lookup_empty in E; discriminate].
    apply hashmap_rep in Hd. destruct Hd as (t & Ht & ->). apply (entries_lookup_len n) in E; [|eapply Rep_wft; exact Ht].
    rewrite app_nil_r in E. lia.
Qed.
Print Assumptions C28_split_merge.

(** C28: and the other way round. *)
Theorem C28_merge_split (fin : list bool -> list cell -> res unit) n l r el er p d :
  n <= 1023 -> length p < n -> is_dict (canonical_dict fin) n l el -> is_dict (canonical_dict fin) n r er ->
  (forall k v, dmap el !! k = Some v -> (p ++ [false]) `prefix_of` k) ->
  (forall k v, dmap er !! k = Some v -> (p ++ [true]) `prefix_of` k) ->
  dict_merge_siblings fin l r n = Ok d -> dict_split_by_prefix fin d n p = Ok (l, r).
Proof.
  intros Hn Hp Hl Hr Al Ar Hm.
  destruct (merge_siblings_sound fin (canonical_dict fin) n l r el er d (reads_canonical fin) (writes_canonical fin) Hn Hl Hr Hm) as (es & Hd & M).
  assert (Up : forall bit k, (p ++ [bit]) `prefix_of` k -> p `prefix_of` k).
  { intros bit k [w ->]. exists ([bit] ++ w). symmetry. apply app_assoc. }
  apply (split_prefix_complete fin n d es p l r el er Hn Hp Hd); try assumption.
  - intros k v H. rewrite M in H. apply lookup_union_Some_raw in H. destruct H as [H|[_ H]]; [eapply Up, Al, H|eapply Up, Ar, H].
  - apply map_eq. intros k. rewrite part_lookup, M, lookup_union. destruct (strip (p ++ [false]) k) as [w|] eqn:S.
    + apply strip_some in S. destruct (dmap er !! k) as [v|] eqn:E; [|destruct (dmap el !! k); reflexivity].
      destruct (Ar _ _ E) as [w' W]. rewrite S, <- !app_assoc in W. apply app_inv_head in W. discriminate.
    + destruct (dmap el !! k) as [v|] eqn:E; [|reflexivity]. destruct (Al _ _ E) as [w W]. rewrite strip_none in S. destruct (S _ W).
  - apply map_eq. intros k. rewrite part_lookup, M, lookup_union. destruct (strip (p ++ [true]) k) as [w|] eqn:S.
    + apply strip_some in S. destruct (dmap el !! k) as [v|] eqn:E; [|destruct (dmap er !! k); reflexivity].
      destruct (Al _ _ E) as [w' W]. rewrite S, <- !app_assoc in W. apply app_inv_head in W. discriminate.
    + destruct (dmap er !! k) as [v|] eqn:E; [|reflexivity]. destruct (Ar _ _ E) as [w W]. rewrite strip_none in S. destruct (S _ W).
Qed.
Print Assumptions C28_merge_split.

Example C28_case :
  exists d l r, ex1 = Ok d /\ dict_split_by_prefix ok_fin d 3 [] = Ok (l, r) /\
    dict_get l 3 (ex_key false true false) = Ok (Some (ex_val [true])) /\
    dict_get l 3 (ex_key true true false) = Ok None /\
    dict_get r 3 (ex_key true true false) = Ok (Some (ex_val [true; true])) /\
    dict_merge_siblings ok_fin l r 3 = Ok d.
Proof.
  do 3 eexists. split; [vm_compute; reflexivity|]. split; [vm_compute; reflexivity|]. vm_compute. auto.
Qed.
