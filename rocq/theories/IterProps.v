(** * Iterators (C24, C48) and behaviour on malformed trees (C46). *)
From Coq Require Import Sorting.Sorted.
From Verif Require Import Err BitsProofs CellModel LabelModel LabelSpec LabelProofs DictModel DictSpec DictTree
  DictProofs DictOrder IterModel IterProofs UnionProofs SafeSpec SafeProofs DictProps.
Local Open Scope nat_scope.

(** ** C24: iteration *)
(** [order] is a list of the entries [es], each exactly once, by increasing (or decreasing)
    key. *)
Definition ordered (signed rev : bool) (es order : list entry) : Prop :=
  Permutation order es /\ NoDup (map fst order) /\
  StronglySorted (fun a b => before signed rev (fst a) (fst b)) order.
(** The results of [i] calls of an iterator that returns the items [l] and then ends. *)
Definition yields {A} (i : nat) (l : list A) : list (option (res A)) :=
  take i (map (fun x => Some (Ok x)) l ++ replicate i None).
(** The items as bits and references. *)
Definition item_view (x : res (list bool * sl)) : res entry := let? (k, d) := x in Ok (k, s_chunk d).
Definition owned_view (x : res (list bool * (range * cell))) : res entry :=
  let? (k, p) := x in Ok (k, r_apply (fst p) (snd p)).

Lemma dict_keys R n d es : is_dict R n d es -> Forall (fun e => length (fst e) = n) es.
Proof.
  destruct d as [c|]; cbn [is_dict]; [|intros ->; constructor]. intros D. apply hashmap_rep in D. destruct D as (t & Ht & ->).
  apply entries_len. eapply Rep_wft. exact Ht.
Qed.
Lemma sorted_before n signed rev order : Forall (fun e : entry => length (fst e) = n) order -> StronglySorted (edir signed rev) order ->
  StronglySorted (fun a b => before signed rev (fst a) (fst b)) order.
Proof.
  intros K S. induction S as [|e l S IH F]; constructor; inversion K as [|? ? K1 K2]; subst; [apply IH; assumption|].
  rewrite Forall_forall in F, K2 |- *. intros x Hx. apply kdir_before; [rewrite (K2 _ Hx); reflexivity|exact (F _ Hx)].
Qed.
Lemma before_nodup signed rev (order : list entry) : StronglySorted (fun a b => before signed rev (fst a) (fst b)) order -> NoDup (map fst order).
Proof.
  induction 1 as [|e l S IH F]; constructor; [|exact IH]. intros X. apply elem_of_list_fmap in X. destruct X as (y & E & Hy).
  rewrite Forall_forall in F. specialize (F _ Hy). rewrite <- E in F. unfold before in F. destruct rev; lia.
Qed.
Lemma make_ordered R n d es signed rev order : is_dict R n d es -> Permutation order es -> StronglySorted (edir signed rev) order ->
  ordered signed rev es order.
Proof.
  intros D P S. pose proof (dict_keys _ _ _ _ D) as K. rewrite <- P in K. pose proof (sorted_before n _ _ _ K S) as S'.
  split; [exact P|]. split; [eapply before_nodup; exact S'|exact S'].
Qed.

(** C24: any well-formed dictionary (plain or augmented), both directions, signed and
    unsigned: every entry once, in order, then nothing; the borrowing and the owning
    iterator. *)
Theorem C24_iteration n d es rev signed :
  n <= 1023 -> is_dict any_dict n d es ->
  exists order, ordered signed rev es order /\
    forall i,
      map (option_map item_view) (calls iter_next i (iter_new d n rev signed)) = yields i order /\
      map (option_map owned_view) (calls (iter_next_owned d) i (iter_new d n rev signed)) = yields i order.
Proof.
  intros Hn D. destruct (iter_new_inv any_dict rev signed n Hn d es D) as (order & P & S & I). exists order.
  split; [eapply make_ordered; eassumption|]. intros i. split.
  - apply (iter_calls any_dict reads_any rev signed n Hn i d _ order I).
  - apply (iter_calls_owned any_dict reads_any rev signed n Hn i d _ order I).
Qed.
Print Assumptions C24_iteration.

(** The order determines the list: two iterations in the same mode give the same items. *)
Theorem C24_order_unique signed rev es o1 o2 :
  ordered signed rev es o1 -> ordered signed rev es o2 -> o1 = o2.
Proof.
  intros (P1 & _ & S1) (P2 & _ & S2). assert (P : Permutation o1 o2) by (rewrite P1, P2; reflexivity). clear P1 P2 es.
  revert o2 S2 P. induction S1 as [|e l S IH F]; intros o2 S2 P; [apply Permutation_nil_l, P|].
  destruct o2 as [|e2 l2]; [apply Permutation_sym, Permutation_nil_cons in P; destruct P|].
  inversion S2 as [|? ? S2' F2]; subst. rewrite Forall_forall in F, F2.
  assert (e = e2) as <-.
  { assert (X : e ∈ e2 :: l2) by (rewrite <- P; left). assert (Y : e2 ∈ e :: l) by (rewrite P; left).
    apply elem_of_cons in X. apply elem_of_cons in Y. destruct X as [->|X]; [reflexivity|]. destruct Y as [->|Y]; [reflexivity|].
    specialize (F _ Y). specialize (F2 _ X). unfold before in F, F2. destruct rev; lia. }
  f_equal. apply IH; [exact S2'|]. eapply Permutation_cons_inv. exact P.
Qed.
Print Assumptions C24_order_unique.

(** C24: the iterator over values only, in unsigned order, both directions; the owning one
    forwards. *)
Theorem C24_values n d es rev :
  n <= 1023 -> is_dict any_dict n d es ->
  exists order, ordered false rev es order /\
    forall i, map (option_map (fun x => let? s := x in Ok (s_chunk s))) (calls values_next i (values_new d n rev false)) =
        yields i (map snd order) /\
      (rev = false ->
       map (option_map (fun x => let? p := x in Ok (r_apply (fst p) (snd p)))) (calls (values_next_owned d) i (values_new d n rev false)) =
        yields i (map snd order)).
Proof.
  intros Hn D. destruct (values_new_inv any_dict rev n Hn d es D) as (order & P & S & I). exists order.
  split; [eapply make_ordered; eassumption|]. intros i. unfold yields. rewrite map_map. split.
  - apply (values_calls any_dict reads_any rev n Hn i d _ order I).
  - intros Hr. apply (values_calls_owned any_dict reads_any rev n Hn i d _ order Hr I).
Qed.
Print Assumptions C24_values.

(** A dictionary with the keys 00 and 01: one fork below the label 0. *)
Definition ex_dict : option cell := Some (Cell false [false; true; false; false]
  [Cell false [false; false; true] []; Cell false [false; false; false] []]).
Definition ex_entries : list entry := [([false; false], ([true], [])); ([false; true], ([false], []))].
Lemma ex_dict_ok : is_dict plain_dict 2 ex_dict ex_entries.
Proof.
  apply (hm_fork plain_dict 2 0 [false; true; false; false] [false] ([], []) (Cell false [false; false; true] []) (Cell false [false; false; false] [])
    [([], ([true], []))] [([], ([false], []))]).
  - exists [false; true; false; false]. split; [reflexivity|]. apply (hml_short 2 [false]). cbn. lia.
  - reflexivity.
  - reflexivity.
  - exact I.
  - apply (hm_leaf plain_dict 0 [false; false; true] [] ([true], [])); [|reflexivity|exact I].
    exists [false; false]. split; [reflexivity|]. apply (hml_short 0 []). cbn. lia.
  - apply (hm_leaf plain_dict 0 [false; false; false] [] ([false], [])); [|reflexivity|exact I].
    exists [false; false]. split; [reflexivity|]. apply (hml_short 0 []). cbn. lia.
Qed.

(** [values().signed()] tests whether the rest of the segment after the label is empty instead
    of the label itself (raw.rs:1407-1410), so it visits the branches of a labelled root in the
    wrong order. *)
Theorem C24_values_signed_refuted :
  exists n d es order, is_dict plain_dict n d es /\ ordered true false es order /\
    map (option_map (fun x => let? s := x in Ok (s_chunk s))) (calls values_next 2 (values_new d n false true)) <>
      yields 2 (map snd order).
Proof.
  exists 2, ex_dict, ex_entries, ex_entries. split; [exact ex_dict_ok|]. split.
  - split; [reflexivity|]. assert (S : StronglySorted (fun a b : entry => before true false (fst a) (fst b)) ex_entries).
    { repeat constructor. }
    split; [eapply before_nodup; exact S|exact S].
  - vm_compute. discriminate.
Qed.
Print Assumptions C24_values_signed_refuted.

(** [values_owned()] pairs the value with [reference_cloned(refs_offset - 1)] whatever the
    direction is (raw.rs:1270): reversed, it returns ranges of the wrong sibling. *)
Theorem C24_values_owned_reversed_refuted :
  exists n d es order, is_dict plain_dict n d es /\ ordered false true es order /\
    map (option_map (fun x => let? p := x in Ok (r_apply (fst p) (snd p)))) (calls (values_next_owned d) 2 (values_new d n true false)) <>
      yields 2 (map snd order).
Proof.
  exists 2, ex_dict, ex_entries, (List.rev ex_entries). split; [exact ex_dict_ok|]. split.
  - split; [symmetry; apply Permutation_rev|]. assert (S : StronglySorted (fun a b : entry => before false true (fst a) (fst b)) (List.rev ex_entries)).
    { repeat constructor. }
    split; [eapply before_nodup; exact S|exact S].
  - vm_compute. discriminate.
Qed.
Print Assumptions C24_values_owned_reversed_refuted.

Example C24_case :
  exists d, ex1 = Ok d /\
    map (option_map item_view) (calls iter_next 4 (iter_new d 3 false true)) =
      [Some (Ok (ex_key true true false, ex_val [true; true])); Some (Ok (ex_key false true false, ex_val [true]));
       Some (Ok (ex_key false true true, ex_val [false])); None] /\
    map (option_map item_view) (calls iter_next 4 (iter_new d 3 true false)) =
      [Some (Ok (ex_key true true false, ex_val [true; true])); Some (Ok (ex_key false true true, ex_val [false]));
       Some (Ok (ex_key false true false, ex_val [true])); None].
Proof. eexists. split; [vm_compute; reflexivity|]. split; vm_compute; reflexivity. Qed.

(** ** C48: the union of two dictionaries *)
Theorem C48_union n l r el er rev signed :
  n <= 1023 -> is_dict any_dict n l el -> is_dict any_dict n r er ->
  exists items : list (list bool * option chunk * option chunk),
    StronglySorted (fun x y => before signed rev (fst (fst x)) (fst (fst y))) items /\
    (forall k a b, In (k, a, b) items <->
       a = dmap el !! k /\ b = dmap er !! k /\ (a <> None \/ b <> None)) /\
    forall i, map view (calls union_next i (union_new l r n rev signed)) = yields i items.
Proof.
  intros Hn DL DR.
  destruct (iter_new_inv any_dict rev signed n Hn l el DL) as (L & PL & SL & IL).
  destruct (iter_new_inv any_dict rev signed n Hn r er DR) as (Q & PR & SR & IR).
  assert (KL : keyed n L) by (unfold keyed; rewrite PL; eapply dict_keys; exact DL).
  assert (KQ : keyed n Q) by (unfold keyed; rewrite PR; eapply dict_keys; exact DR).
  assert (Eq : forall d es o, is_dict any_dict n d es -> Permutation o es -> StronglySorted (edir signed rev) o -> dmap o = dmap es).
  { intros d es o D P S. destruct (make_ordered any_dict n d es signed rev o D P S) as (_ & N & _). apply list_to_map_proper; [exact N|exact P]. }
  exists (merge rev signed L Q). split; [|split].
  - assert (KM : Forall (fun x : uitem => length (fst (fst x)) = n) (merge rev signed L Q)).
    { apply List.Forall_forall. intros x Hx. unfold keyed in KL, KQ. rewrite List.Forall_forall in KL, KQ.
      destruct (merge_in_key rev signed L Q x Hx) as [(e & A & <-)|(e & A & <-)]; [exact (KL _ A)|exact (KQ _ A)]. }
    pose proof (merge_sorted rev signed n Hn L Q KL KQ SL SR) as S. induction S as [|e m S IH F]; constructor; inversion KM as [|? ? K1 K2]; subst; [apply IH; assumption|].
    rewrite Forall_forall in F, K2 |- *. intros x Hx. apply kdir_before; [rewrite (K2 _ Hx); reflexivity|exact (F _ Hx)].
  - intros k a b. rewrite (merge_in rev signed n Hn L Q k a b KL KQ SL SR), (Eq _ _ _ DL PL SL), (Eq _ _ _ DR PR SR). reflexivity.
  - intros i. apply (union_calls any_dict any_dict reads_any reads_any rev signed n Hn i l r).
    split; (split; [assumption|discriminate]).
Qed.
Print Assumptions C48_union.

Example C48_case :
  exists d, ex1 = Ok d /\
    map view (calls union_next 4 (union_new d (Some (Cell false [true; false; true; true; false; true; false; true; true; true] [])) 3 false false)) =
      [Some (Ok (ex_key false true false, Some (ex_val [true]), Some (ex_val [true; true; true])));
       Some (Ok (ex_key false true true, Some (ex_val [false]), None));
       Some (Ok (ex_key true true false, Some (ex_val [true; true]), None)); None].
Proof. eexists. split; [vm_compute; reflexivity|]. vm_compute. reflexivity. Qed.

(** ** C46: arbitrary cell trees *)
(** For any tree of cells, any key and any mode, every operation returns a value or an error
    of the library: no panic, no invalid access, and the loops end within one step per
    remaining key bit (their bound in the model; exceeding it would be [OutOfFuel]). *)
Theorem C46_operations (fin : list bool -> list cell -> res unit) d d' n k v mode bound signed towards inclusive sub :
  (forall b r, orderly (fin b r)) ->
  orderly (dict_get d n k) /\ orderly (dict_get_owned d n k) /\
  orderly (dict_insert fin d k n v mode) /\ orderly (dict_insert_owned fin d k n v mode) /\
  orderly (dict_remove_owned fin d k n sub) /\ orderly (dict_remove_bound_owned fin d n bound signed) /\
  orderly (dict_find_bound d n bound signed) /\ orderly (dict_find_bound_owned d n bound signed) /\
  orderly (dict_find_owned d n k towards inclusive signed) /\
  orderly (dict_split_by_prefix fin d n k) /\ orderly (dict_split_raw d n) /\
  orderly (dict_merge_siblings fin d d' n) /\
  orderly (dict_load_from_root fin v n).
Proof.
  intros Hfin. repeat match goal with |- _ /\ _ => split end;
    auto using o_get, o_get_owned, o_insert, o_insert_owned, o_remove, o_remove_bound, o_find_bound,
      o_find_bound_owned, o_find, o_split_prefix, o_split_raw, o_merge_siblings, o_load_root.
Qed.
Print Assumptions C46_operations.

Theorem C46_iterators n d rev signed i :
  n <= 1023 ->
  Forall (fun o => match o with Some r => orderly r | None => True end) (calls iter_next i (iter_new d n rev signed)) /\
  Forall (fun o => match o with Some r => orderly r | None => True end) (calls values_next i (values_new d n rev signed)) /\
  match d with
  | Some c => Forall (fun o => match o with Some r => orderly r | None => True end) (calls (iter_next_owned d) i (iter_new d n rev signed))
  | None => True
  end.
Proof.
  intros Hn. split; [eapply iter_calls_ok; eauto using iter_new_ok|]. split; [eapply values_calls_ok; eauto using values_new_ok|].
  destruct d as [c|]; [|exact I]. eapply iter_calls_owned_ok; eauto using iter_new_ok.
Qed.
Print Assumptions C46_iterators.

Example C46_case :
  (* a fork without references, and a label that is cut off *)
  dict_get (Some (Cell false [false; false] [])) 3 (ex_key true true true) = Ok None /\
  dict_find_bound (Some (Cell false [false; false] [])) 3 false false = Err CellUnderflow /\
  map (option_map item_view) (calls iter_next 2 (iter_new (Some (Cell false [true; false; true] [])) 3 false false)) =
    [Some (Err CellUnderflow); None].
Proof. vm_compute. auto. Qed.
