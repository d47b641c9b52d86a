(** * Dictionaries: lookup, insertion, removal, canonical form, bounds and neighbours
      (C20, C21, C22, C23, C25).

    [fin] is the outcome of [finalize_cell] (any function).  A dictionary value is an optional
    root cell; [is_dict R n d es] (DictSpec.v) says that [d] is a well-formed [Hashmap n X]
    with the entries [es], [dmap es] is its finite map. *)
From Verif Require Import Err BitsProofs CellModel LabelModel LabelSpec LabelProofs DictModel DictSpec DictTree
  DictProofs DictProofs2 DictProofs3 DictOrder DictProofs4 DictProofs5 DictExist.
Local Open Scope nat_scope.

(** ** Reference semantics *)
(** Whether a mode stores a value, given whether the key is present. *)
Definition stores (mode : set_mode) (present : bool) : bool :=
  match mode with MSet => true | MReplace => present | MAdd => negb present end.
Definition present (m : gmap (list bool) chunk) (k : list bool) : bool :=
  match m !! k with Some _ => true | None => false end.
Definition set_map (mode : set_mode) (k : list bool) (v : chunk) (m : gmap (list bool) chunk) :=
  if stores mode (present m k) then <[k := v]> m else m.

(** [history fin n d m]: some sequence of updates of an initially empty dictionary with
    [n]-bit keys, each of which reported success, leads to the dictionary [d]; the same updates
    of a finite map lead to [m].  (An update that fails leaves its dictionary alone: the
    functions return the new dictionary only with [Ok].) *)
Inductive history (fin : list bool -> list cell -> res unit) (n : nat)
    : option cell -> gmap (list bool) chunk -> Prop :=
| h_empty : history fin n None ∅
| h_set d m k v mode flag d' :
    history fin n d m ->
    dict_insert fin d k n v mode = Ok (flag, d') ->
    history fin n d' (set_map mode k v m)
| h_set_owned d m k v mode flag prev d' :
    history fin n d m ->
    dict_insert_owned fin d k n v mode = Ok (flag, prev, d') ->
    history fin n d' (set_map mode k v m)
| h_remove d m k prev d' :
    history fin n d m ->
    dict_remove_owned fin d k n false = Ok (prev, d') ->
    history fin n d' (delete k m)
| h_remove_bound d m bound signed prev d' :
    history fin n d m ->
    dict_remove_bound_owned fin d n bound signed = Ok (prev, d') ->
    history fin n d' (match prev with Some (k, _) => delete k m | None => m end).

Lemma refused_stores mode p : refused mode p = negb (stores mode p).
Proof. destruct mode, p; reflexivity. Qed.
Lemma present_decide m k : bool_decide (is_Some (m !! k)) = present m k.
Proof.
  unfold present. destruct (m !! k) eqn:E; [apply bool_decide_eq_true_2; eauto|apply bool_decide_eq_false_2].
  intros [x X]. discriminate.
Qed.
Lemma guard_len (k : list bool) n {A} (x : res A) y : (if negb (length k =? n) then Err CellUnderflow else x) = Ok y -> length k = n /\ x = Ok y.
Proof. destruct (Nat.eqb_spec (length k) n); cbn [negb]; [auto|discriminate]. Qed.
Lemma insert_len fin d k n v mode x : dict_insert fin d k n v mode = Ok x -> length k = n.
Proof. intros H. apply guard_len in H. apply H. Qed.
Lemma insert_owned_len fin d k n v mode x : dict_insert_owned fin d k n v mode = Ok x -> length k = n.
Proof. intros H. apply guard_len in H. apply H. Qed.
Lemma remove_len fin d k n x : dict_remove_owned fin d k n false = Ok x -> length k = n.
Proof. intros H. unfold dict_remove_owned in H. cbn [negb andb] in H. apply guard_len in H. apply H. Qed.

(** Every history ends in a canonical dictionary of its finite map. *)
Lemma history_dict fin n d m : n <= 1023 -> history fin n d m ->
  exists es, is_dict (canonical_dict fin) n d es /\ dmap es = m.
Proof.
  intros Hn H. induction H as [|d m k v mode flag d' H (es & D & M) E|d m k v mode flag prev d' H (es & D & M) E|d m k prev d' H (es & D & M) E|d m bound signed prev d' H (es & D & M) E].
  - exists []. split; reflexivity.
  - pose proof (insert_len _ _ _ _ _ _ _ E) as Hk.
    pose proof (dict_insert_sound fin _ n d es k v mode (reads_canonical fin) (writes_canonical fin) Hn D Hk) as S.
    rewrite present_decide, refused_stores, M, E in S. unfold set_map. destruct (stores mode (present m k)); cbn [negb] in S.
    + destruct S as (_ & es' & D' & M'). exists es'. auto.
    + injection S as -> ->. exists es. auto.
  - pose proof (insert_owned_len _ _ _ _ _ _ _ E) as Hk.
    pose proof (dict_insert_owned_proj fin _ n d es k v mode (reads_canonical fin) Hn D Hk) as P. rewrite E in P. destruct P as [E2 _].
    pose proof (dict_insert_sound fin _ n d es k v mode (reads_canonical fin) (writes_canonical fin) Hn D Hk) as S.
    rewrite present_decide, refused_stores, M, E2 in S. unfold set_map. destruct (stores mode (present m k)); cbn [negb] in S.
    + destruct S as (_ & es' & D' & M'). exists es'. auto.
    + injection S as -> ->. exists es. auto.
  - pose proof (remove_len _ _ _ _ _ E) as Hk.
    pose proof (dict_remove_sound fin _ n d es k false (reads_canonical fin) (writes_canonical fin) Hn D Hk) as S.
    rewrite M, E in S. destruct (m !! k) eqn:Ek.
    + destruct S as (_ & es' & D' & M'). exists es'. auto.
    + injection S as -> ->. exists es. split; [exact D|]. rewrite delete_notin by exact Ek. exact M.
  - destruct d as [c|]; [|cbn in E; injection E as <- <-; exists es; auto].
    cbn [is_dict] in D. pose proof D as D0. apply hashmap_rep in D. destruct D as (t & Ht & ->).
    rewrite (dict_remove_bound_eq fin _ n c t bound signed (reads_canonical fin) Hn Ht) in E.
    destruct (dict_remove_owned fin (Some c) (fst (t_first signed bound t)) n false) as [[o d2]|] eqn:E2; cbn [rbind] in E; [|discriminate].
    injection E as <- <-. pose proof (remove_len _ _ _ _ _ E2) as Hk.
    pose proof (dict_remove_sound fin _ n (Some c) _ _ false (reads_canonical fin) (writes_canonical fin) Hn D0 Hk) as S.
    rewrite t_get_spec, t_first_get, E2 in S. destruct S as ((r & cc & -> & _) & es' & D' & M'). cbn [option_map].
    exists es'. rewrite <- M. auto.
Qed.

(** C20: a lookup after any history returns what the finite map holds: the value most
    recently stored under the key and not removed.  Both lookup functions. *)
Theorem C20_lookup fin n d m k :
  n <= 1023 -> history fin n d m -> length k = n ->
  dict_get d n k = Ok (m !! k) /\
  exists o, dict_get_owned d n k = Ok o /\ option_map (fun rc => r_apply (fst rc) (snd rc)) o = m !! k.
Proof.
  intros Hn H Hk. destruct (history_dict fin n d m Hn H) as (es & D & M). split.
  - rewrite (dict_get_spec _ n d es k (reads_canonical fin) Hn D Hk). rewrite M. reflexivity.
  - unfold dict_get_owned. rewrite (proj2 (Nat.eqb_eq _ _) Hk). cbn [negb].
    destruct d as [c|]; [|cbn [is_dict] in D; subst es m; exists None; split; reflexivity].
    cbn [is_dict] in D. apply hashmap_rep in D. destruct D as (t & Ht & ->).
    destruct (get_owned_loop_spec _ n c t k (S (length k)) c None (reads_canonical fin) Hn Ht Hk ltac:(lia) eq_refl) as (s & Es & G).
    rewrite Es. cbn [rbind]. rewrite <- M, t_get_spec. destruct (t_get t k) as [v|].
    + destruct G as (data & prev & c' & -> & O & A). cbn [rbind].
      assert (Ow : owner c prev = Ok c') by (destruct prev as [[p b]|]; cbn [owner owns] in *; [exact O|rewrite O; reflexivity]).
      rewrite Ow. cbn [rbind]. eexists. split; [reflexivity|]. cbn [option_map fst snd]. rewrite A. reflexivity.
    + rewrite G. cbn [rbind]. exists None. split; reflexivity.
Qed.
Print Assumptions C20_lookup.

(** C20: the same for a single update of any well-formed dictionary, whatever its label
    encodings are (for example one read from a message). *)
Theorem C20_lookup_any n d es k :
  n <= 1023 -> is_dict any_dict n d es -> length k = n -> dict_get d n k = Ok (dmap es !! k).
Proof. intros. apply (dict_get_spec any_dict); auto using reads_any. Qed.
Print Assumptions C20_lookup_any.

(** A value of [n]-bit-key dictionaries that always fits into its leaf. *)
Definition fits (n : nat) (v : chunk) : Prop := n + length (fst v) <= 1011 /\ length (snd v) <= 4.

(** C20: updates do succeed: as long as all values fit (and cells within the size limits are
    accepted by [finalize_cell]), no insertion and no removal fails. *)
Theorem C20_updates_succeed fin n d m k v mode :
  (forall b r, length b <= 1023 -> length r <= 4 -> fin b r = Ok tt) ->
  n <= 1023 -> history fin n d m -> (forall k' v', m !! k' = Some v' -> fits n v') ->
  length k = n -> fits n v ->
  (exists d', dict_insert fin d k n v mode = Ok (stores mode (present m k), d')) /\
  (exists prev d', dict_remove_owned fin d k n false = Ok (prev, d')).
Proof.
  intros Hfin Hn H Hm Hk Hv. destruct (history_dict fin n d m Hn H) as (es & D & M).
  assert (Len : forall k' v', m !! k' = Some v' -> length k' = n).
  { intros k' v' E. rewrite <- M in E. destruct d as [c|]; [|cbn [is_dict] in D; subst es; discriminate].
    cbn [is_dict] in D. apply hashmap_rep in D. destruct D as (t & Ht & ->). rewrite t_get_spec in E.
    eapply t_get_len; [eapply Rep_wft; exact Ht|exact E]. }
  split.
  - pose proof (dict_insert_sound fin _ n d es k v mode (reads_canonical fin) (writes_canonical fin) Hn D Hk) as S.
    rewrite present_decide, refused_stores, M in S. destruct (stores mode (present m k)) eqn:Es; cbn [negb] in S; [|eauto].
    destruct (dict_exists fin Hfin n (<[k := v]> m)) as (d' & es' & D' & M').
    { intros k' v' E. apply lookup_insert_Some in E. destruct E as [[<- <-]|[_ E]]; [split; [exact Hk|exact Hv]|].
      split; [exact (Len _ _ E)|exact (Hm _ _ E)]. }
    exists d'. apply (dict_insert_complete fin n d es k v mode d' es'); try assumption.
    + rewrite present_decide, refused_stores, M, Es. reflexivity.
    + rewrite M', M. reflexivity.
  - pose proof (dict_remove_sound fin _ n d es k false (reads_canonical fin) (writes_canonical fin) Hn D Hk) as S.
    destruct (dmap es !! k) as [w|] eqn:Ew; [|eauto].
    destruct (dict_exists fin Hfin n (delete k m)) as (d' & es' & D' & M').
    { intros k' v' E. apply lookup_delete_Some in E. destruct E as [_ E]. split; [exact (Len _ _ E)|exact (Hm _ _ E)]. }
    destruct (dict_remove_complete fin n d es k w false d' es' Hn D Hk Ew D') as [o E]; [rewrite M', M; reflexivity|]. eauto.
Qed.
Print Assumptions C20_updates_succeed.

(** ** C21: the modes *)
Theorem C21_modes fin n d m k v mode :
  n <= 1023 -> history fin n d m -> length k = n ->
  match dict_insert fin d k n v mode with
  | Ok (flag, d') =>
    flag = stores mode (present m k) /\
    (flag = false -> d' = d) /\
    (flag = true -> forall k', length k' = n ->
       dict_get d' n k' = Ok (if decide (k' = k) then Some v else m !! k'))
  | Err _ => stores mode (present m k) = true
  end.
Proof.
  intros Hn H Hk. destruct (history_dict fin n d m Hn H) as (es & D & M).
  pose proof (dict_insert_sound fin _ n d es k v mode (reads_canonical fin) (writes_canonical fin) Hn D Hk) as S.
  rewrite present_decide, refused_stores, M in S. destruct (stores mode (present m k)) eqn:Es; cbn [negb] in S.
  - destruct (dict_insert fin d k n v mode) as [[flag d']|] eqn:E; [|reflexivity]. destruct S as (-> & es' & D' & M').
    split; [reflexivity|]. split; [discriminate|]. intros _ k' Hk'. rewrite (dict_get_spec _ n d' es' k' (reads_canonical fin) Hn D' Hk'), M'.
    destruct (decide (k' = k)) as [->|N]; [rewrite lookup_insert|rewrite lookup_insert_ne by congruence]; reflexivity.
  - rewrite S. split; [reflexivity|]. split; [reflexivity|discriminate].
Qed.
Print Assumptions C21_modes.

(** The variant that also returns the previous value behaves the same. *)
Theorem C21_previous_value fin n d m k v mode :
  n <= 1023 -> history fin n d m -> length k = n ->
  match dict_insert_owned fin d k n v mode with
  | Ok (flag, prev, d') =>
    dict_insert fin d k n v mode = Ok (flag, d') /\
    option_map (fun rc => r_apply (fst rc) (snd rc)) prev = m !! k
  | Err e => dict_insert fin d k n v mode = Err e
  end.
Proof.
  intros Hn H Hk. destruct (history_dict fin n d m Hn H) as (es & D & M).
  pose proof (dict_insert_owned_proj fin _ n d es k v mode (reads_canonical fin) Hn D Hk) as P. rewrite M in P.
  destruct (dict_insert_owned fin d k n v mode) as [[[flag prev] d']|]; [|exact P]. destruct P as [E P]. split; [exact E|].
  destruct (m !! k) as [w|]; [destruct P as (r & c & -> & <-)|rewrite P]; reflexivity.
Qed.
Print Assumptions C21_previous_value.

(** A key of another length is rejected and nothing changes. *)
Theorem C21_key_length fin d n k v mode :
  length k <> n ->
  dict_insert fin d k n v mode = Err CellUnderflow /\ dict_get d n k = Err CellUnderflow /\
  dict_remove_owned fin d k n false = Err CellUnderflow.
Proof.
  intros H. unfold dict_insert, dict_get, dict_remove_owned. rewrite (proj2 (Nat.eqb_neq _ _) H). auto.
Qed.
Print Assumptions C21_key_length.

(** ** C22: removal *)
Theorem C22_remove fin n d m k prev d' :
  n <= 1023 -> history fin n d m -> dict_remove_owned fin d k n false = Ok (prev, d') ->
  option_map (fun rc => r_apply (fst rc) (snd rc)) prev = m !! k /\
  (forall k', length k' = n -> dict_get d' n k' = Ok (if decide (k' = k) then None else m !! k')) /\
  (m !! k = None -> d' = d) /\
  (delete k m = ∅ -> d' = None).
Proof.
  intros Hn H E. pose proof (remove_len _ _ _ _ _ E) as Hk. destruct (history_dict fin n d m Hn H) as (es & D & M).
  assert (H' : history fin n d' (delete k m)) by (eapply h_remove; eassumption).
  destruct (history_dict fin n d' _ Hn H') as (es' & D' & M').
  pose proof (dict_remove_sound fin _ n d es k false (reads_canonical fin) (writes_canonical fin) Hn D Hk) as S. rewrite M, E in S.
  split; [|split; [|split]].
  - destruct (m !! k) as [w|]; [destruct S as ((r & c & -> & <-) & _)|injection S as -> _]; reflexivity.
  - intros k' Hk'. rewrite (dict_get_spec _ n d' es' k' (reads_canonical fin) Hn D' Hk'), M'.
    destruct (decide (k' = k)) as [->|N]; [rewrite lookup_delete|rewrite lookup_delete_ne by congruence]; reflexivity.
  - intros N. rewrite N in S. congruence.
  - intros N. rewrite N in M'. destruct d' as [c|]; [|reflexivity]. cbn [is_dict] in D'. apply hashmap_rep in D'. destruct D' as (t & Ht & ->).
    pose proof (t_first_get false false t) as F. rewrite <- t_get_spec, M' in F. discriminate.
Qed.
Print Assumptions C22_remove.

(** On any plain dictionary, canonical or not. *)
Theorem C22_remove_any fin n d es k :
  n <= 1023 -> is_dict plain_dict n d es -> length k = n ->
  match dict_remove_owned fin d k n false with
  | Ok (prev, d') =>
    option_map (fun rc => r_apply (fst rc) (snd rc)) prev = dmap es !! k /\
    exists es', is_dict plain_dict n d' es' /\ dmap es' = delete k (dmap es)
  | Err _ => is_Some (dmap es !! k)
  end.
Proof.
  intros Hn D Hk. pose proof (dict_remove_sound fin _ n d es k false reads_plain (writes_plain fin) Hn D Hk) as S.
  destruct (dmap es !! k) as [w|] eqn:Ew.
  - destruct (dict_remove_owned fin d k n false) as [[prev d']|]; [|eauto]. destruct S as ((r & c & -> & <-) & S). split; [reflexivity|exact S].
  - rewrite S. split; [reflexivity|]. exists es. split; [exact D|]. rewrite delete_notin by exact Ew. reflexivity.
Qed.
Print Assumptions C22_remove_any.

(** ** C23: canonical form *)
(** Any two histories with the same content end in the same root cell. *)
Theorem C23_root_of_content fin n d1 m1 d2 m2 :
  n <= 1023 -> history fin n d1 m1 -> history fin n d2 m2 -> m1 = m2 -> d1 = d2.
Proof.
  intros Hn H1 H2 E. destruct (history_dict fin n d1 m1 Hn H1) as (e1 & D1 & M1). destruct (history_dict fin n d2 m2 Hn H2) as (e2 & D2 & M2).
  apply (dict_unique fin n d1 d2 e1 e2 D1 D2). congruence.
Qed.
Print Assumptions C23_root_of_content.

(** Conversely equal roots have equal content. *)
Theorem C23_content_of_root fin n d m1 m2 :
  n <= 1023 -> history fin n d m1 -> history fin n d m2 -> m1 = m2.
Proof.
  intros Hn H1 H2. destruct (history_dict fin n d m1 Hn H1) as (e1 & D1 & M1). destruct (history_dict fin n d m2 Hn H2) as (e2 & D2 & M2).
  apply map_eq. intros k.
  destruct (decide (length k = n)) as [Hk|Hk].
  - destruct (C20_lookup fin n d m1 k Hn H1 Hk) as [A _]. destruct (C20_lookup fin n d m2 k Hn H2 Hk) as [B _]. congruence.
  - assert (X : forall es, is_dict (canonical_dict fin) n d es -> dmap es !! k = None).
    { intros es D. destruct d as [c|]; [|cbn [is_dict] in D; subst es; reflexivity]. cbn [is_dict] in D. apply hashmap_rep in D.
      destruct D as (t & Ht & ->). destruct (dmap (entries t) !! k) eqn:E; [|reflexivity]. rewrite t_get_spec in E.
      eapply t_get_len in E; [|eapply Rep_wft; exact Ht]. contradiction. }
    rewrite <- M1, <- M2, (X e1 D1), (X e2 D2). reflexivity.
Qed.
Print Assumptions C23_content_of_root.

(** Every finite map with values that fit has exactly one canonical dictionary. *)
Theorem C23_exists_unique (fin : list bool -> list cell -> res unit) (n : nat) (m : gmap (list bool) chunk) :
  (forall b r, length b <= 1023 -> length r <= 4 -> fin b r = Ok tt) ->
  (forall k v, m !! k = Some v -> length k = n /\ fits n v) ->
  exists d, (exists es, is_dict (canonical_dict fin) n d es /\ dmap es = m) /\
    forall d', (exists es, is_dict (canonical_dict fin) n d' es /\ dmap es = m) -> d' = d.
Proof.
  intros Hfin Hm. destruct (dict_exists fin Hfin n m) as (d & es & D & M).
  { intros k v E. destruct (Hm k v E) as (A & B & C). auto. }
  exists d. split; [eauto|]. intros d' (es' & D' & M'). apply (dict_unique fin n d' d es' es D' D). congruence.
Qed.
Print Assumptions C23_exists_unique.

(** ** C25: bounds and neighbours *)
(** [e] is the least entry in the given order ([rev]: the greatest). *)
Definition extreme (signed rev : bool) (m : gmap (list bool) chunk) (e : entry) : Prop :=
  m !! fst e = Some (snd e) /\
  forall k v, m !! k = Some v -> k = fst e \/ before signed rev (fst e) k.
(** [e] is the nearest entry strictly after [k] ([rev]: before). *)
Definition nearest (signed rev : bool) (m : gmap (list bool) chunk) (k : list bool) (e : entry) : Prop :=
  m !! fst e = Some (snd e) /\ before signed rev k (fst e) /\
  forall k' v', m !! k' = Some v' -> before signed rev k k' -> k' = fst e \/ before signed rev (fst e) k'.

(** C25: minimum ([bound = false]) and maximum, both query functions, for any well-formed
    dictionary. *)
Theorem C25_bounds n d es bound signed :
  n <= 1023 -> is_dict any_dict n d es ->
  match d with
  | None => dict_find_bound d n bound signed = Ok None /\ dict_find_bound_owned d n bound signed = Ok None
  | Some _ =>
    exists e r c, extreme signed bound (dmap es) e /\
      dict_find_bound d n bound signed = Ok (Some e) /\
      dict_find_bound_owned d n bound signed = Ok (Some (fst e, (r, c))) /\ r_apply r c = snd e
  end.
Proof.
  intros Hn D. destruct d as [c|]; [|split; reflexivity]. cbn [is_dict] in D. apply hashmap_rep in D. destruct D as (t & Ht & ->).
  destruct (find_bound_spec any_dict n c t [] bound signed None signed (S n) c None reads_any ltac:(cbn; lia) Ht ltac:(lia)) as (s & data & prev & c' & Es & E & C & O & A); [left; auto|reflexivity|].
  assert (Ow : owner c prev = Ok c') by (destruct prev as [[p b]|]; cbn [owner owns] in *; [exact O|rewrite O; reflexivity]).
  exists (t_first signed bound t), (s_range data), c'. split.
  { split; [rewrite t_get_spec; apply t_first_get|]. intros k v G. rewrite t_get_spec in G. pose proof (Rep_wft _ _ _ _ Ht) as W.
    destruct (t_first_min signed bound t k v G) as [->|K]; [left; reflexivity|right]. apply kdir_before; [|exact K].
    rewrite (t_get_len n t _ _ W (t_first_get signed bound t)), (t_get_len n t _ _ W G). reflexivity. }
  unfold dict_find_bound, dict_find_bound_owned. rewrite Es. cbn [rbind]. rewrite E. cbn [rbind app]. rewrite C, Ow. cbn [rbind].
  split; [destruct (t_first signed bound t); reflexivity|]. split; [reflexivity|exact A].
Qed.
Print Assumptions C25_bounds.

(** C25: next ([towards = true]) and previous; inclusive queries return the key itself when it
    is present. *)
Theorem C25_neighbours n d es k towards inclusive signed :
  n <= 1023 -> is_dict any_dict n d es -> length k = n ->
  exists o, dict_find_owned d n k towards inclusive signed = Ok o /\
  match o with
  | Some (key, (r, c)) =>
    (inclusive = true /\ key = k /\ dmap es !! k = Some (r_apply r c)) \/
    ((inclusive = true -> dmap es !! k = None) /\ nearest signed (negb towards) (dmap es) k (key, r_apply r c))
  | None =>
    (inclusive = true -> dmap es !! k = None) /\
    forall k' v', dmap es !! k' = Some v' -> ~ before signed (negb towards) k k'
  end.
Proof.
  intros Hn D Hk. destruct d as [c|].
  2:{ exists None. cbn [is_dict] in D. subst es. split; [unfold dict_find_owned; rewrite (proj2 (Nat.eqb_eq _ _) Hk); reflexivity|].
      split; [reflexivity|]. intros k' v' X. discriminate. }
  cbn [is_dict] in D. apply hashmap_rep in D. destruct D as (t & Ht & ->).
  pose proof (dict_find_spec any_dict n c t k towards inclusive signed reads_any Hn Ht Hk) as F.
  pose proof (Rep_wft _ _ _ _ Ht) as W. pose proof (t_next_spec n signed (negb towards) t k W Hk) as N.
  assert (Kb : forall k' v', dmap (entries t) !! k' = Some v' -> kdir signed (negb towards) k k' <-> before signed (negb towards) k k').
  { intros k' v' G. rewrite t_get_spec in G. apply kdir_before. rewrite (t_get_len n t _ _ W G). exact Hk. }
  assert (Nx : (inclusive = true -> dmap (entries t) !! k = None) ->
    match t_next signed (negb towards) t k with
    | Some e => exists r c', dict_find_owned (Some c) n k towards inclusive signed = Ok (Some (fst e, (r, c'))) /\ r_apply r c' = snd e
    | None => dict_find_owned (Some c) n k towards inclusive signed = Ok None
    end -> exists o, dict_find_owned (Some c) n k towards inclusive signed = Ok o /\
      match o with
      | Some (key, (r, c)) =>
        (inclusive = true /\ key = k /\ dmap (entries t) !! k = Some (r_apply r c)) \/
        ((inclusive = true -> dmap (entries t) !! k = None) /\ nearest signed (negb towards) (dmap (entries t)) k (key, r_apply r c))
      | None =>
        (inclusive = true -> dmap (entries t) !! k = None) /\
        forall k' v', dmap (entries t) !! k' = Some v' -> ~ before signed (negb towards) k k'
      end).
  { intros Hi. destruct (t_next signed (negb towards) t k) as [e|]; cbn [next_of] in N.
    - intros (r & c' & -> & A). eexists. split; [reflexivity|]. cbn beta iota. right. split; [exact Hi|]. destruct N as (N1 & N2 & N3).
      unfold nearest. cbn [fst snd]. rewrite A. rewrite <- t_get_spec in N1. split; [exact N1|]. split; [apply (Kb _ _ N1), N2|].
      intros k' v' G B. apply (Kb _ _ G) in B. rewrite t_get_spec in G. destruct (N3 _ _ G B) as [->|K]; [left; reflexivity|right].
      apply kdir_before; [|exact K]. rewrite t_get_spec in N1. rewrite (t_get_len n t _ _ W N1), (t_get_len n t _ _ W G). reflexivity.
    - intros ->. eexists. split; [reflexivity|]. cbn beta iota. split; [exact Hi|]. intros k' v' G B. apply (Kb _ _ G) in B.
      rewrite t_get_spec in G. exact (N _ _ G B). }
  destruct inclusive; [|apply Nx; [discriminate|exact F]].
  destruct (t_get t k) as [v|] eqn:G.
  - destruct F as (r & c' & -> & A). eexists. split; [reflexivity|]. cbn beta iota. left. cbn [fst snd] in *. rewrite t_get_spec, G, A. auto.
  - apply Nx; [intros _; rewrite t_get_spec; exact G|exact F].
Qed.
Print Assumptions C25_neighbours.

(** Removing the minimum or the maximum removes the entry the bound query finds. *)
Theorem C25_remove_bound fin n d m bound signed prev d' :
  n <= 1023 -> history fin n d m -> dict_remove_bound_owned fin d n bound signed = Ok (prev, d') ->
  match prev with
  | None => d = None /\ d' = None
  | Some (k, (r, c)) => extreme signed bound m (k, r_apply r c) /\ history fin n d' (delete k m)
  end.
Proof.
  intros Hn H E. pose proof (h_remove_bound fin n d m bound signed prev d' H E) as H'.
  destruct (history_dict fin n d m Hn H) as (es & D & M).
  destruct d as [c|]; [|cbn in E; injection E as <- <-; auto].
  cbn [is_dict] in D. pose proof D as D0. apply hashmap_rep in D. destruct D as (t & Ht & ->).
  rewrite (dict_remove_bound_eq fin _ n c t bound signed (reads_canonical fin) Hn Ht) in E.
  destruct (dict_remove_owned fin (Some c) (fst (t_first signed bound t)) n false) as [[o d2]|] eqn:E2; cbn [rbind] in E; [|discriminate].
  injection E as <- <-. pose proof (remove_len _ _ _ _ _ E2) as Hk.
  pose proof (dict_remove_sound fin _ n (Some c) _ _ false (reads_canonical fin) (writes_canonical fin) Hn D0 Hk) as S.
  rewrite t_get_spec, t_first_get, E2 in S. destruct S as ((r & cc & -> & A) & _). cbn [option_map] in *.
  split; [|exact H']. pose proof (Rep_wft _ _ _ _ Ht) as W. rewrite A, <- M. unfold extreme. cbn [fst snd]. split; [rewrite t_get_spec; apply t_first_get|].
  intros k v G. rewrite t_get_spec in G. destruct (t_first_min signed bound t k v G) as [->|K]; [left; reflexivity|right]. apply kdir_before; [|exact K].
  rewrite (t_get_len n t _ _ W (t_first_get signed bound t)), (t_get_len n t _ _ W G). reflexivity.
Qed.
Print Assumptions C25_remove_bound.

(** ** Concrete cases *)
Definition ok_fin (b : list bool) (r : list cell) : res unit := Ok tt.
Definition ex_key (a b c : bool) : list bool := [a; b; c].
Definition ex_val (b : list bool) : chunk := (b, []).
Definition run_insert (d : res (option cell)) (k : list bool) (v : chunk) (mode : set_mode) : res (option cell) :=
  let? d := d in let? (_, d) := dict_insert ok_fin d k (length k) v mode in Ok d.
(** Keys 010, 011, 110 inserted in two orders, and one of them after a detour. *)
Definition ex1 := run_insert (run_insert (run_insert (Ok None)
  (ex_key false true false) (ex_val [true]) MSet) (ex_key false true true) (ex_val [false]) MSet)
  (ex_key true true false) (ex_val [true; true]) MAdd.
Definition ex2 := run_insert (run_insert (run_insert (Ok None)
  (ex_key true true false) (ex_val [true; true]) MSet) (ex_key false true false) (ex_val [true]) MSet)
  (ex_key false true true) (ex_val [false]) MSet.
Definition ex3 :=
  let? d := run_insert ex2 (ex_key false false false) (ex_val [true]) MSet in
  let? (_, d) := dict_remove_owned ok_fin d (ex_key false false false) 3 false in Ok d.

Example C20_case :
  exists d m, ex1 = Ok d /\ history ok_fin 3 d m /\ m !! ex_key false true true = Some (ex_val [false]) /\
    dict_get d 3 (ex_key false true true) = Ok (Some (ex_val [false])) /\
    dict_get d 3 (ex_key true false true) = Ok None.
Proof.
  destruct ex1 as [d|] eqn:E; [|vm_compute in E; discriminate]. revert E.
  unfold ex1, run_insert. cbn [rbind length ex_key].
  destruct (dict_insert ok_fin None (ex_key false true false) 3 (ex_val [true]) MSet) as [[f1 d1]|] eqn:E1; [|discriminate].
  cbn [rbind]. change [false; true; true] with (ex_key false true true).
  destruct (dict_insert ok_fin d1 (ex_key false true true) 3 (ex_val [false]) MSet) as [[f2 d2]|] eqn:E2; [|discriminate].
  cbn [rbind].
  destruct (dict_insert ok_fin d2 (ex_key true true false) 3 (ex_val [true; true]) MAdd) as [[f3 d3]|] eqn:E3; [|discriminate].
  cbn [rbind]. intros [= ->].
  pose proof (h_set _ _ _ _ _ _ _ _ _ (h_set _ _ _ _ _ _ _ _ _ (h_set ok_fin 3 _ _ _ _ _ _ _ (h_empty ok_fin 3) E1) E2) E3) as H.
  eexists d, _. split; [reflexivity|]. split; [exact H|].
  assert (M : set_map MAdd (ex_key true true false) (ex_val [true; true])
    (set_map MSet (ex_key false true true) (ex_val [false]) (set_map MSet (ex_key false true false) (ex_val [true]) ∅))
    !! ex_key false true true = Some (ex_val [false])) by (vm_compute; reflexivity).
  split; [exact M|]. vm_compute in E1. injection E1 as <- <-. vm_compute in E2. injection E2 as <- <-. vm_compute in E3. injection E3 as <- <-.
  split; vm_compute; reflexivity.
Qed.
Example C21_case :
  exists d, ex1 = Ok (Some d) /\
    dict_insert ok_fin (Some d) (ex_key true true false) 3 (ex_val []) MAdd = Ok (false, Some d) /\
    dict_insert ok_fin (Some d) (ex_key true false false) 3 (ex_val []) MReplace = Ok (false, Some d) /\
    exists d', dict_insert ok_fin (Some d) (ex_key true true false) 3 (ex_val []) MReplace = Ok (true, Some d').
Proof. eexists. split; [vm_compute; reflexivity|]. split; [vm_compute; reflexivity|]. split; [vm_compute; reflexivity|]. eexists. vm_compute. reflexivity. Qed.
Example C22_case :
  exists d r c d', ex1 = Ok d /\ dict_remove_owned ok_fin d (ex_key false true true) 3 false = Ok (Some (r, c), d') /\
    r_apply r c = ex_val [false] /\ dict_get d' 3 (ex_key false true true) = Ok None /\
    dict_get d' 3 (ex_key false true false) = Ok (Some (ex_val [true])).
Proof. eexists _, _, _, _. split; [vm_compute; reflexivity|]. split; [vm_compute; reflexivity|]. split; [vm_compute; reflexivity|]. split; vm_compute; reflexivity. Qed.
Example C23_case : ex1 = ex2 /\ ex2 = ex3.
Proof. split; vm_compute; reflexivity. Qed.
Example C25_case :
  exists d, ex1 = Ok d /\
    (* unsigned minimum 010, signed minimum 110 (= -2) *)
    dict_find_bound d 3 false false = Ok (Some (ex_key false true false, ex_val [true])) /\
    dict_find_bound d 3 false true = Ok (Some (ex_key true true false, ex_val [true; true])) /\
    (* next after the absent key 100 *)
    match dict_find_owned d 3 (ex_key true false false) true false false with
    | Ok (Some (k, (r, c))) => k = ex_key true true false /\ r_apply r c = ex_val [true; true]
    | _ => False
    end.
Proof. eexists. split; [vm_compute; reflexivity|]. split; [vm_compute; reflexivity|]. split; [vm_compute; reflexivity|]. vm_compute. auto. Qed.
