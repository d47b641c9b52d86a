(** * C64: merging dictionaries, and what is wrong with subdictionaries.

    Model: SubdictModel.v.  [fin] is the outcome of [finalize_cell] (any function). *)
From Coq Require Import Sorting.Sorted.
From Verif Require Import Err BitsProofs CellModel LabelModel LabelProofs LabelSpec DictModel DictSpec DictTree DictProofs DictProofs2 DictProps IterModel IterProofs IterProps BuildProps
  CurrencyModel CurrencyProofs AbiProofs3 SubdictModel.
Local Open Scope nat_scope.

Section Sub.
Context (fin : list bool -> list cell -> res unit).

Lemma merge_loop_ok n r order : n <= 1023 -> Forall (fun e => length (fst e) = n) order -> forall fuel it d, length order < fuel -> iter_inv any_dict false false n r it order ->
  (exists d', insert_all fin n MSet order d = Ok d' /\ merge_loop fin fuel it d = (d', Ok tt)) \/
  (exists es1 k v es2 d' e, order = es1 ++ (k, v) :: es2 /\ insert_all fin n MSet es1 d = Ok d' /\ dict_insert fin d' k n v MSet = Err e /\ merge_loop fin fuel it d = (d', Err e)).
Proof.
  intros Hn. induction order as [|[k v] order IH]; intros K fuel it d Hf I; (destruct fuel as [|fuel]; [cbn [length] in Hf; lia|]); cbn [merge_loop]; pose proof (iter_next_inv any_dict reads_any false false n Hn r it _ I) as N; cbn beta iota in N.
  - destruct N as (it' & -> & _). left. exists d. auto.
  - destruct N as (data & it' & -> & I' & E & _). cbn [fst snd] in *. inversion_clear K as [|? ? K1 K2]. cbn [fst] in K1. rewrite E, K1. destruct (dict_insert fin d k n v MSet) as [[flag d1]|e] eqn:Ei.
    + destruct (IH K2 fuel it' d1 ltac:(cbn [length] in Hf; lia) I') as [(d' & E1 & E2)|(es1 & k1 & v1 & es2 & d' & e & -> & E1 & E2 & E3)].
      * left. exists d'. cbn [insert_all]. rewrite Ei. auto.
      * right. exists ((k, v) :: es1), k1, v1, es2, d', e. cbn [insert_all app]. rewrite Ei. auto.
    + right. exists [], k, v, order, d, e. auto.
Qed.

(** ** Merging *)
(** Nothing changes if one of the dictionaries is empty. *)
Theorem C64_merge_empty d n : dict_merge fin d None n = (d, Ok tt) /\ dict_merge fin None d n = (d, Ok tt).
Proof. destruct d; split; reflexivity. Qed.
(** If the root cells have equally many bits, merging adds the entries of the right dictionary, in
    order and replacing those of the left one.  If it fails, the entries before the one that could
    not be inserted have been added. *)
Theorem C64_merge n cl m cr es : n <= 1023 -> history fin n (Some cl) m -> hashmap any_dict n cr es -> length (c_bits cl) = length (c_bits cr) ->
  match dict_merge fin (Some cl) (Some cr) n with
  | (d, Ok tt) => history fin n d (dmap es ∪ m)
  | (d, Err e) => exists order es1 k v es2, ordered false false es order /\ order = es1 ++ (k, v) :: es2 /\
      history fin n d (dmap es1 ∪ m) /\ dict_insert fin d k n v MSet = Err e
  end.
Proof.
  intros Hn H D L. unfold dict_merge. rewrite L, Nat.eqb_refl. cbn [negb andb].
  destruct (iter_new_inv any_dict false false n Hn (Some cr) es D) as (order & P & Sd & I). assert (O : ordered false false es order) by (eapply (make_ordered any_dict n (Some cr)); eassumption).
  pose proof (dict_keys any_dict n (Some cr) es D) as K. rewrite <- P in K. destruct O as (P' & ND & St).
  destruct (merge_loop_ok n (Some cr) order Hn K (S (csize cr)) (iter_new (Some cr) n false false) (Some cl)) as [(d' & E1 & E2)|(es1 & k & v & es2 & d' & e & E0 & E1 & E2 & E3)]; [|exact I| |].
  - rewrite P. apply hashmap_size in D. apply le_n_S, D.
  - rewrite E2. apply (insert_all_history fin n MSet order _ m) in E1; [|exact H]. rewrite (fold_set order ND) in E1. replace (dmap es) with (dmap order); [exact E1|]. apply list_to_map_proper; assumption.
  - rewrite E3. exists order, es1, k, v, es2. split; [split; [exact P'|split; assumption]|]. split; [exact E0|]. split; [|exact E2].
    apply (insert_all_history fin n MSet es1 _ m) in E1; [|exact H]. rewrite (fold_set es1) in E1; [exact E1|]. rewrite E0, map_app in ND. apply NoDup_app in ND. apply ND.
Qed.
(** With values that fit, merging succeeds. *)
Theorem C64_merge_succeeds n cl m cr es : (forall b r, length b <= 1023 -> length r <= 4 -> fin b r = Ok tt) ->
  n <= 1023 -> history fin n (Some cl) m -> hashmap any_dict n cr es -> length (c_bits cl) = length (c_bits cr) ->
  (forall k v, m !! k = Some v -> fits n v) -> (forall k v, dmap es !! k = Some v -> fits n v) ->
  exists d, dict_merge fin (Some cl) (Some cr) n = (d, Ok tt) /\ history fin n d (dmap es ∪ m).
Proof.
  intros Hf Hn H D L Fm Fe. pose proof (C64_merge n cl m cr es Hn H D L) as G. destruct (dict_merge fin (Some cl) (Some cr) n) as [d [[]|e]]; [exists d; auto|].
  exfalso. destruct G as (order & es1 & k & v & es2 & (P & ND & St) & E0 & H1 & E2). pose proof (dict_keys any_dict n (Some cr) es D) as K. rewrite <- P in K.
  assert (M : dmap es = dmap order) by (apply list_to_map_proper; [|symmetry; exact P]; rewrite <- P; exact ND).
  assert (V : forall e, e ∈ order -> fits n (snd e)). { intros [k1 v1] I. apply (Fe k1). rewrite M. apply elem_of_list_to_map_1; assumption. }
  destruct (C20_updates_succeed fin n d (dmap es1 ∪ m) k v MSet Hf Hn H1) as [(d' & X) _].
  - intros k' v' X. apply lookup_union_Some_raw in X. destruct X as [X|[_ X]]; [|exact (Fm _ _ X)]. apply elem_of_list_to_map_2 in X. apply (V (k', v')). rewrite E0. apply elem_of_app. auto.
  - rewrite E0 in K. apply Forall_app in K. destruct K as [_ K]. inversion_clear K. assumption.
  - apply (V (k, v)). rewrite E0. apply elem_of_app. right. left.
  - congruence.
Qed.

(** ** Subdictionaries *)
(** No prefix: the whole dictionary. *)
Theorem C64_subdict_whole d n : get_subdict fin d n [] = Ok d.
Proof. destruct d; reflexivity. Qed.
(** The prefix is a whole key of the dictionary: the leaf with its value, as a dictionary whose
    keys have as many bits as the last part of the key. *)
Theorem C64_subdict_key n c m k v : 0 < n <= 1023 -> history fin n (Some c) m -> m !! k = Some v ->
  exists p l s, k = p ++ l /\ get_subdict fin (Some c) n k = Ok (Some s) /\ is_dict (canonical_dict fin) (length l) (Some s) [(l, v)].
Proof.
  intros Hn H E. destruct (history_dict fin n (Some c) m ltac:(lia) H) as (es & D & M). cbn [is_dict] in D. apply hashmap_rep in D. destruct D as (t & Ht & ->). rewrite <- M, t_get_spec in E.
  pose proof (t_get_len _ _ _ _ (Rep_wft _ _ _ _ Ht) E) as Hk.
  enough (X : forall fuel n c t k, n <= 1023 -> Rep (canonical_dict fin) n c t -> length k = n -> n < fuel -> t_get t k = Some v ->
    exists p l s, k = p ++ l /\ subdict_loop fin fuel c k = Ok s /\ hashmap (canonical_dict fin) (length l) s [(l, v)]).
  { destruct (X (S (length k)) n c t k ltac:(lia) Ht Hk ltac:(lia) E) as (p & l & s & E1 & E2 & E3). exists p, l, s. split; [exact E1|]. split; [|exact E3]. unfold get_subdict.
    destruct (Nat.eqb_spec (length k) 0); [lia|]. destruct (Nat.ltb_spec n (length k)); [lia|]. cbn [orb]. rewrite E2. reflexivity. }
  clear. induction fuel as [|f IH]; intros n c t k Hn Ht Hk Hf E; [lia|]. destruct (Rep_inv _ n c t (reads_canonical fin) Hn Ht) as (bits & refs & rest & Ec & Es & El & Hx). cbn [subdict_loop]. rewrite Es. cbn [rbind s_bits s_refs]. rewrite Hk, El. cbn [rbind].
  destruct t as [l w|l x a b]; cbn [lbl t_get] in *.
  - destruct Hx as [Hl ->]. destruct (strip l k) as [[|? ?]|] eqn:St; try discriminate. injection E as <-. apply strip_some in St. rewrite app_nil_r in St. subst k. pose proof (cpfx_self_l l []) as Q. rewrite app_nil_r in Q. rewrite Q. rewrite Hl, Nat.eqb_refl.
    destruct (Rep_canon_leaf fin n c l _ Ht) as (Ecc & Ok_ & _). cbn [fst snd] in *. exists [], l, c. split; [reflexivity|]. split.
    + apply (proj2 (make_leaf_iff fin l n (rest, refs) c ltac:(lia) ltac:(lia))). cbn [fst snd]. auto.
    + apply hashmap_rep. rewrite Hl. exists (Leaf l (rest, refs)). split; [exact Ht|reflexivity].
  - destruct Hx as (m & cl & cr & Hm & -> & -> & Ha & Hb). destruct (strip l k) as [[|c0 r]|] eqn:St; try discriminate. apply strip_some in St. subst k. rewrite app_length in Hk. cbn [length] in Hk.
    rewrite cpfx_self_l. destruct (Nat.eqb_spec (length l) n); [lia|]. rewrite Nat.ltb_irrefl. subst c. cbn [c_refs length]. cbn [Nat.ltb Nat.leb].
    unfold skip_bits. rewrite app_length. destruct (Nat.ltb_spec (length l + length (c0 :: r)) (length l)); [cbn [length] in *; lia|]. rewrite drop_app. cbn [rbind load_bit].
    destruct c0; cbn [ref_at c_refs lookup list_lookup rbind].
    + destruct (IH m cr b r ltac:(lia) Hb ltac:(lia) ltac:(lia) E) as (p & q & s & -> & E2 & E3). exists (l ++ true :: p), q, s. split; [rewrite <- app_assoc; reflexivity|]. auto.
    + destruct (IH m cl a r ltac:(lia) Ha ltac:(lia) ltac:(lia) E) as (p & q & s & -> & E2 & E3). exists (l ++ false :: p), q, s. split; [rewrite <- app_assoc; reflexivity|]. auto.
Qed.
End Sub.
Print Assumptions C64_merge_empty.
Print Assumptions C64_merge.
Print Assumptions C64_merge_succeeds.
Print Assumptions C64_subdict_whole.
Print Assumptions C64_subdict_key.

(** ** Cases and findings *)
Definition sample (n : nat) (l : list (N * list bool)) : res (option cell) := insert_all ok_fin n MSet (map (fun p => (nbits n (fst p), (snd p, @nil cell))) l) None.
Lemma sample_history n l d : sample n l = Ok d -> exists m, history ok_fin n d m.
Proof. intros E. eexists. exact (insert_all_history ok_fin n MSet _ None ∅ d (h_empty ok_fin n) E). Qed.
Example C64_case :
  (let? l := sample 8 [(1, [true]); (2, [])]%N in let? r := sample 8 [(1, [false]); (3, [true])]%N in Ok (dict_merge ok_fin l r 8)) =
  (let? both := sample 8 [(1, [false]); (2, []); (3, [true])]%N in Ok (both, Ok tt)) /\
  (let? d := sample 8 [(1, [true]); (2, []); (7, [false; true])]%N in get_subdict ok_fin d 8 (nbits 8 7)) = sample 2 [(3, [false; true])]%N.
Proof. split; vm_compute; reflexivity. Qed.

(** Finding: dictionaries whose root cells have different numbers of bits are refused, although all
    keys have the same length. *)
Theorem C64_merge_refused_refuted : exists l r m1 m2, history ok_fin 8 l m1 /\ history ok_fin 8 r m2 /\ dict_merge ok_fin l r 8 = (l, Err InvalidCell).
Proof.
  destruct (sample 8 [(1, [true])]%N) as [l|] eqn:E1; [|vm_compute in E1; discriminate]. destruct (sample 8 [(2, [true; true])]%N) as [r|] eqn:E2; [|vm_compute in E2; discriminate].
  destruct (sample_history _ _ _ E1) as (m1 & H1), (sample_history _ _ _ E2) as (m2 & H2). exists l, r, m1, m2. split; [exact H1|]. split; [exact H2|]. vm_compute in E1, E2. injection E1 as <-. injection E2 as <-. vm_compute. reflexivity.
Qed.
(** Finding: if the right dictionary is broken, merging adds the entries before the broken cell and
    reports success. *)
Definition broken : cell := Cell false [false; false] [Cell false [true; true; false; true; true; true; true] []; Cell false [] []].
Theorem C64_merge_broken_refuted : exists e,
  (let? l := sample 8 [(1, [true]); (128, [])]%N in Ok (dict_merge ok_fin l (Some broken) 8)) = (let? l := sample 8 [(1, [true]); (128, []); (0, [true])]%N in Ok (l, Ok tt)) /\
  map (option_map item_view) (calls iter_next 2 (iter_new (Some broken) 8 false false)) = [Some (Ok (nbits 8 0, ([true], []))); Some (Err e)].
Proof. exists CellUnderflow. split; vm_compute; reflexivity. Qed.
(** Finding: the subdictionary of a prefix that all keys have can be an error, since the labels are
    read as if the keys ended where the prefix ends. *)
Theorem C64_subdict_error_refuted : exists d m, history ok_fin 8 d m /\ sample 8 [(0, [true]); (1, []); (2, [false]); (3, [])]%N = Ok d /\
  get_subdict ok_fin d 8 (nbits 6 0) = Err CellUnderflow.
Proof.
  destruct (sample 8 [(0, [true]); (1, []); (2, [false]); (3, [])]%N) as [d|] eqn:E; [|vm_compute in E; discriminate]. destruct (sample_history _ _ _ E) as (m & H). exists d, m. split; [exact H|]. split; [reflexivity|].
  vm_compute in E. injection E as <-. vm_compute. reflexivity.
Qed.
(** Finding: ... or lack entries: two of the four values are not in the result. *)
Theorem C64_subdict_loses_refuted : exists d m, history ok_fin 8 d m /\ sample 8 [(0, [true]); (1, []); (2, [false]); (3, [])]%N = Ok d /\
  get_subdict ok_fin d 8 (nbits 4 0) = Ok (Some (Cell false [false; false] [Cell false [false; false; true] []; Cell false [false; false] []])).
Proof.
  destruct (sample 8 [(0, [true]); (1, []); (2, [false]); (3, [])]%N) as [d|] eqn:E; [|vm_compute in E; discriminate]. destruct (sample_history _ _ _ E) as (m & H). exists d, m. split; [exact H|]. split; [reflexivity|].
  vm_compute in E. injection E as <-. vm_compute. reflexivity.
Qed.
(** Finding: for a key that is not in the dictionary the result is no empty dictionary but one that has
    the key, with a reference to an empty cell as its value, and all others. *)
Theorem C64_subdict_invents_refuted : exists d m c, history ok_fin 8 d m /\ sample 8 [(0, [true]); (1, []); (2, [false]); (3, [])]%N = Ok d /\
  dict_get d 8 (nbits 8 7) = Ok None /\ get_subdict ok_fin d 8 (nbits 8 7) = Ok (Some c) /\
  dict_get (Some c) 8 (nbits 8 7) = Ok (Some ([], [Cell false [] []])) /\ dict_get (Some c) 8 (nbits 8 2) = Ok (Some ([false], [])).
Proof.
  destruct (sample 8 [(0, [true]); (1, []); (2, [false]); (3, [])]%N) as [d|] eqn:E; [|vm_compute in E; discriminate]. destruct (sample_history _ _ _ E) as (m & H).
  destruct (get_subdict ok_fin d 8 (nbits 8 7)) as [[c|]|] eqn:G; [|vm_compute in E; injection E as <-; vm_compute in G; discriminate..].
  exists d, m, c. split; [exact H|]. split; [reflexivity|]. vm_compute in E. injection E as <-. vm_compute in G. injection G as <-. repeat split; vm_compute; reflexivity.
Qed.
(** Finding: a prefix longer than the keys gives the whole dictionary. *)
Theorem C64_subdict_long_refuted fin n c prefix : n < length prefix -> get_subdict fin (Some c) n prefix = Ok (Some c).
Proof. intros H. unfold get_subdict. rewrite (proj2 (Nat.ltb_lt _ _) H), orb_true_r. reflexivity. Qed.
Print Assumptions C64_merge_refused_refuted.
Print Assumptions C64_merge_broken_refuted.
Print Assumptions C64_subdict_error_refuted.
Print Assumptions C64_subdict_loses_refuted.
Print Assumptions C64_subdict_invents_refuted.
Print Assumptions C64_subdict_long_refuted.
