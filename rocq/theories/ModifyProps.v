(** * Bulk modification of a dictionary (C27). *)
From Coq Require Import Sorting.Sorted.
From Verif Require Import Err BitsProofs CellModel LabelModel LabelSpec LabelProofs DictModel DictSpec DictTree
  DictProofs DictProofs2 DictProofs4 DictOrder DictExist BuildModel StackProofs BuildProofs DictProps BuildProps
  ModifyModel ModifyAbs ModifyWalk ModifyWalk2 ModifyProofs ModifyExec.
Local Open Scope nat_scope.

(** ** Specification *)
(** A batch: for each key the value to store, or [None] to remove the key. *)
Notation batch := (list (list bool * option chunk)).
Definition of_width {A} (n : nat) (b : list (list bool * A)) : Prop := Forall (fun r => length (fst r) = n) b.
(** The keys as unsigned numbers, strictly increasing; or allowed to repeat. *)
Definition strictly_sorted {A} (b : list (list bool * A)) : Prop := Sorted (fun x y => key_num false (fst x) < key_num false (fst y))%Z b.
Definition sorted {A} (b : list (list bool * A)) : Prop := Sorted (fun x y => key_num false (fst x) <= key_num false (fst y))%Z b.
(** What a batch does to a finite map. *)
Definition apply_map (m : gmap (list bool) chunk) (r : list bool * option chunk) : gmap (list bool) chunk :=
  match snd r with Some v => <[fst r := v]> m | None => delete (fst r) m end.
(** The instructions one by one, by the operations of single keys. *)
Fixpoint apply_all (fin : list bool -> list cell -> res unit) (n : nat) (b : batch) (d : option cell) : res (option cell) :=
  match b with
  | [] => Ok d
  | (k, Some v) :: b' => let? (_, d') := dict_insert fin d k n v MSet in apply_all fin n b' d'
  | (k, None) :: b' => let? (_, d') := dict_remove_owned fin d k n false in apply_all fin n b' d'
  end.
(** Values that are all there: [extract_value] never fails. *)
Definition given (b : batch) : list (list bool * res (option chunk)) := map (fun r => (fst r, Ok (snd r))) b.

(** ** Proofs *)
Lemma fold_upd b : forall m, fold_left upd1 b m = fold_left apply_map b m.
Proof. induction b as [|[k v] b IH]; intros m; cbn [fold_left]; [reflexivity|]. rewrite IH. destruct v; reflexivity. Qed.
Lemma strict_increasing n b : forall k (v : option chunk), of_width n ((k, v) :: b) -> strictly_sorted ((k, v) :: b) -> length k = n /\ increasing n k b.
Proof.
  induction b as [|[k' v'] b IH]; intros k v W S; inversion W as [|? ? W1 W2]; subst; cbn [fst] in *; (split; [reflexivity|]); [exact I|].
  inversion S as [|? ? S1 S2]; subst. inversion S2 as [|? ? S3]; subst. cbn [fst] in S3. inversion W2 as [|? ? W3 W4]; subst. cbn [fst] in W3.
  cbn [increasing]. split; [exact W3|]. split; [|apply (IH k' v'); assumption].
  apply klt_split. apply klt_num; [congruence|exact S3].
Qed.
Lemma key_distinct n b : forall k (v : option chunk), of_width n ((k, v) :: b) -> strictly_sorted ((k, v) :: b) -> forall r, In r b -> fst r <> k.
Proof.
  intros k v W S r Hr E. apply Sorted_StronglySorted in S; [|intros x y z; lia]. inversion S as [|? ? S1 S2]; subst.
  rewrite List.Forall_forall in S2. specialize (S2 r Hr). cbn [fst] in S2. lia.
Qed.

Fixpoint stored (b : batch) : list entry :=
  match b with [] => [] | (k, Some v) :: b' => (k, v) :: stored b' | (_, None) :: b' => stored b' end.
Lemma inserts_given b : inserts (given b) = (stored b, None).
Proof. induction b as [|[k [v|]] b IH]; cbn [given map inserts stored fst snd]; [reflexivity| |]; fold (given b); rewrite IH; reflexivity. Qed.
Lemma stored_in b e : In e (stored b) -> In (fst e, Some (snd e)) b.
Proof. induction b as [|[k [v|]] b IH]; cbn [stored In]; [auto| |]; [intros [<-|H]|intros H]; auto. Qed.
Lemma stored_width n b : of_width n b -> keys_of_width n (stored b).
Proof.
  induction 1 as [|[k [v|]] b H W IH]; cbn [stored]; [constructor|constructor; assumption|exact IH].
Qed.
Lemma stored_sorted b : strictly_sorted b -> nondecreasing false (stored b).
Proof.
  intros S. apply Sorted_StronglySorted in S; [|intros x y z; lia]. apply StronglySorted_Sorted.
  induction S as [|[k [v|]] b S IH H]; cbn [stored]; [constructor| |exact IH]. constructor; [exact IH|].
  apply List.Forall_forall. intros e He. apply stored_in in He. rewrite List.Forall_forall in H. specialize (H _ He). cbn [fst] in *. lia.
Qed.
Lemma strict_tail {A} (r : list bool * A) b : strictly_sorted (r :: b) -> strictly_sorted b.
Proof. intros S. inversion S; assumption. Qed.
Lemma stored_map n b : of_width n b -> strictly_sorted b -> forall m : gmap (list bool) chunk, (forall r, In r b -> m !! fst r = None) ->
  fold_left apply_map b m = dmap (stored b) ∪ m.
Proof.
  induction b as [|[k v] b IH]; intros W S m Hm; cbn [fold_left stored].
  - unfold dmap. cbn. rewrite (left_id_L ∅ (∪)). reflexivity.
  - pose proof (key_distinct n b k v W S) as Dk. inversion W as [|? ? W1 W2]; subst. pose proof (strict_tail _ _ S) as S'.
    unfold apply_map at 2. cbn [fst snd]. destruct v as [v|].
    + rewrite IH; try assumption.
      * assert (N : dmap (stored b) !! k = None). { apply absent. intros e He E. apply (Dk _ (stored_in _ _ He) E). }
        unfold dmap in *. cbn [list_to_map foldr fst snd uncurry]. rewrite <- insert_union_l, insert_union_r by exact N. reflexivity.
      * intros r Hr. rewrite lookup_insert_ne by (intros E; apply (Dk r Hr); congruence). apply Hm. right. exact Hr.
    + rewrite IH; try assumption.
      * rewrite delete_notin by (apply (Hm (k, None)); left; reflexivity). reflexivity.
      * intros r Hr. rewrite lookup_delete_ne by (intros E; apply (Dk r Hr); congruence). apply Hm. right. exact Hr.
Qed.

Lemma oks_given b : oks b = given b. Proof. reflexivity. Qed.
(** On a dictionary that is not empty, a batch with instructions is the loop and the end. *)
Lemma loop_prev {I V} (reduce : list I -> list bool -> nat -> res (nat * list I)) mk_leaf mk_denorm mk_node ord root
    (es : list (list bool * res (option V))) : forall prev its st o its' st',
  modify_loop reduce mk_leaf mk_denorm mk_node ord root es prev its st = Ok (o, its', st') -> (prev = None /\ es = [] /\ o = None) \/ o <> None.
Proof.
  induction es as [|[k v] es IH]; intros prev its st o its' st' E; cbn [modify_loop] in E.
  - injection E as <- _ _. destruct prev; [right; discriminate|left; auto].
  - right. destruct (match prev with Some p => ord k p | None => Gt end) eqn:Ec; [|discriminate|].
    + destruct prev as [p|]; [|discriminate]. apply IH in E. destruct E as [(E & _)|E]; [discriminate|exact E].
    + clear Ec. destruct v as [v|]; cbn [rbind] in E; [|discriminate]. revert E. destruct (match prev with None => _ | Some p => _ end) as [[[s stack] st1]|]; cbn [rbind]; [|discriminate].
      destruct (apply_value _ _ _ _ _ _ _ _ _) as [[stack1 st2]|]; cbn [rbind]; [|discriminate]. intros E. apply IH in E. destruct E as [(E & _)|E]; [discriminate|exact E].
Qed.
Lemma modify_some fin n root e es :
  dict_modify fin (num_ord false) n (Some root) (e :: es) =
    let? st := modify_stack fin root (e :: es) in let? d := m_finalize fin st n in Ok (true, d).
Proof.
  unfold dict_modify, modify_stack. destruct (modify_loop _ _ _ _ _ _ _ _ _ _) as [[[o its] st]|] eqn:E; cbn [rbind]; [|reflexivity].
  apply loop_prev in E. destruct E as [(_ & E & _)|E]; [discriminate|]. destruct o; [reflexivity|contradiction].
Qed.
Lemma modify_none fin n b :
  dict_modify fin (num_ord false) n None (given b) =
    let? d := build_dict fin (num_ord false) n (stored b) in Ok (match d with Some _ => true | None => false end, d).
Proof.
  unfold dict_modify, build_dict. rewrite inserts_given. destruct (build_loop _ _ _ _ _ _); reflexivity.
Qed.

Lemma modify_rules fin R n d es b flag d' : reads R -> writes fin R ->
  n <= 1023 -> is_dict R n d es -> of_width n b -> strictly_sorted b ->
  dict_modify fin (num_ord false) n d (given b) = Ok (flag, d') ->
  exists es', is_dict R n d' es' /\ dmap es' = fold_left apply_map b (dmap es).
Proof.
  intros HR HW Hn D W S E. destruct d as [root|].
  - destruct b as [|[k v] b].
    + cbn in E. injection E as _ <-. eauto.
    + cbn [given map fst snd] in E. rewrite modify_some in E. change ((k, Ok v) :: map _ b) with (oks ((k, v) :: b)) in E.
      destruct (modify_stack fin root _) as [st|] eqn:E1; cbn [rbind] in E; [|discriminate]. destruct (m_finalize fin st n) as [d1|] eqn:E2; cbn [rbind] in E; [|discriminate].
      injection E as _ <-. destruct (strict_increasing n b k v W S) as [Lk Inc]. rewrite <- fold_upd. eapply modify_sound; eassumption.
  - cbn [is_dict] in D. subst es. rewrite modify_none in E. destruct (build_dict fin _ n (stored b)) as [d1|] eqn:E1; cbn [rbind] in E; [|discriminate]. injection E as _ <-.
    exists (dedup None (stored b)). split; [eapply build_sound; try eassumption; [apply stored_width|apply stored_sorted]; assumption|].
    rewrite dedup_map, (stored_map n b W S); [unfold dmap; cbn; rewrite (right_id_L ∅ (∪)); reflexivity|]. intros r _. unfold dmap. cbn. apply lookup_empty.
Qed.

(** C27: a batch in strictly increasing key order leaves the canonical dictionary whose content
    is that of the old dictionary after the instructions of the batch, one after the other. *)
Theorem C27_modify (fin : list bool -> list cell -> res unit) n d es (b : batch) flag d' :
  n <= 1023 -> is_dict (canonical_dict fin) n d es -> of_width n b -> strictly_sorted b ->
  dict_modify fin (num_ord false) n d (given b) = Ok (flag, d') ->
  exists es', is_dict (canonical_dict fin) n d' es' /\ dmap es' = fold_left apply_map b (dmap es).
Proof. apply modify_rules; [apply reads_canonical|apply writes_canonical]. Qed.
Print Assumptions C27_modify.

(** C27: the same content also for dictionaries whose labels are not encoded canonically. *)
Theorem C27_modify_any_labels (fin : list bool -> list cell -> res unit) n d es (b : batch) flag d' :
  n <= 1023 -> is_dict plain_dict n d es -> of_width n b -> strictly_sorted b ->
  dict_modify fin (num_ord false) n d (given b) = Ok (flag, d') ->
  exists es', is_dict plain_dict n d' es' /\ dmap es' = fold_left apply_map b (dmap es).
Proof. apply modify_rules; [apply reads_plain|apply writes_plain]. Qed.
Print Assumptions C27_modify_any_labels.

Lemma modify_complete_any fin n d es b d' es' : n <= 1023 -> is_dict (canonical_dict fin) n d es -> of_width n b -> strictly_sorted b ->
  is_dict (canonical_dict fin) n d' es' -> dmap es' = fold_left apply_map b (dmap es) ->
  exists flag, dict_modify fin (num_ord false) n d (given b) = Ok (flag, d').
Proof.
  intros Hn D W S D' M. destruct d as [root|].
  - destruct b as [|[k v] b].
    + cbn [fold_left] in M. destruct (dict_unique fin n d' (Some root) es' es D' D M) as [-> _]. exists false. reflexivity.
    + destruct (strict_increasing n b k v W S) as [Lk Inc]. rewrite <- fold_upd in M.
      destruct (modify_complete fin n Hn root es k v b d' es' D Lk Inc D' M) as (st & E1 & E2). exists true.
      cbn [given map fst snd]. rewrite modify_some. change ((k, Ok v) :: map _ b) with (oks ((k, v) :: b)). rewrite E1. cbn [rbind]. rewrite E2. reflexivity.
  - cbn [is_dict] in D. subst es. rewrite modify_none. eexists.
    rewrite (stored_map n b W S) in M by (intros r _; unfold dmap; cbn; apply lookup_empty).
    assert (M' : dmap es' = dmap (stored b)) by (rewrite M; unfold dmap; cbn; rewrite (right_id_L ∅ (∪)); reflexivity).
    rewrite (build_complete fin n Hn (stored b) d' es' (stored_width n b W) (stored_sorted b S) D' M'). reflexivity.
Qed.

Lemma apply_history (fin : list bool -> list cell -> res unit) n (b : batch) : forall d m d',
  history fin n d m -> apply_all fin n b d = Ok d' -> history fin n d' (fold_left apply_map b m).
Proof.
  induction b as [|[k [v|]] b IH]; intros d m d' H E; cbn [apply_all fold_left] in *; [injection E as <-; exact H| |].
  - destruct (dict_insert fin d k n v MSet) as [[flag d1]|] eqn:E1; cbn [rbind] in E; [|discriminate].
    apply (IH d1 _ d'); [|exact E]. exact (h_set fin n d m k v MSet flag d1 H E1).
  - destruct (dict_remove_owned fin d k n false) as [[flag d1]|] eqn:E1; cbn [rbind] in E; [|discriminate].
    apply (IH d1 _ d'); [|exact E]. exact (h_remove fin n d m k flag d1 H E1).
Qed.
(** C27: literally, whenever the instructions succeed one by one, the batch succeeds and gives the
    same dictionary, the same root cell. *)
Theorem C27_equals_one_by_one (fin : list bool -> list cell -> res unit) n d m (b : batch) d' :
  n <= 1023 -> history fin n d m -> of_width n b -> strictly_sorted b ->
  apply_all fin n b d = Ok d' ->
  exists flag, dict_modify fin (num_ord false) n d (given b) = Ok (flag, d').
Proof.
  intros Hn H W S E. pose proof (apply_history fin n b d m d' H E) as H'.
  destruct (history_dict fin n d m Hn H) as (es & D & M). destruct (history_dict fin n d' _ Hn H') as (es' & D' & M').
  eapply modify_complete_any; try eassumption. rewrite M', M. reflexivity.
Qed.
Print Assumptions C27_equals_one_by_one.

(** C27: and the batch gives the root of every history with the resulting content. *)
Theorem C27_same_root (fin : list bool -> list cell -> res unit) n d m (b : batch) d' :
  n <= 1023 -> history fin n d m -> of_width n b -> strictly_sorted b ->
  history fin n d' (fold_left apply_map b m) ->
  exists flag, dict_modify fin (num_ord false) n d (given b) = Ok (flag, d').
Proof.
  intros Hn H W S H'. destruct (history_dict fin n d m Hn H) as (es & D & M). destruct (history_dict fin n d' _ Hn H') as (es' & D' & M').
  eapply modify_complete_any; try eassumption. rewrite M', M. reflexivity.
Qed.
Print Assumptions C27_same_root.

(** C27: the batch succeeds when all values fit. *)
Theorem C27_modify_succeeds (fin : list bool -> list cell -> res unit) n d es (b : batch) :
  (forall bs r, length bs <= 1023 -> length r <= 4 -> fin bs r = Ok tt) ->
  n <= 1023 -> is_dict (canonical_dict fin) n d es -> of_width n b -> strictly_sorted b ->
  (forall k v, dmap es !! k = Some v \/ In (k, Some v) b -> n + length (fst v) <= 1011 /\ length (snd v) <= 4) ->
  exists flag d', dict_modify fin (num_ord false) n d (given b) = Ok (flag, d').
Proof.
  intros Hfin Hn D W S F.
  assert (G : forall k v, fold_left apply_map b (dmap es) !! k = Some v -> length k = n /\ n + length (fst v) <= 1011 /\ length (snd v) <= 4).
  { assert (G0 : forall k v, dmap es !! k = Some v -> length k = n /\ n + length (fst v) <= 1011 /\ length (snd v) <= 4).
    { intros k v E. split; [|apply (F k); auto]. destruct d as [c|]; cbn [is_dict] in D; [|subst es; unfold dmap in E; cbn in E; rewrite lookup_empty in E; discriminate].
      apply hashmap_rep in D. destruct D as (t & Ht & ->). rewrite t_get_spec in E. eapply t_get_len; [eapply Rep_wft; exact Ht|exact E]. }
    assert (F' : forall k v, In (k, Some v) b -> n + length (fst v) <= 1011 /\ length (snd v) <= 4) by (intros k v Hi; apply (F k); auto).
    clear F S D. revert W F' G0. generalize (dmap es). induction b as [|[k [v|]] b IH]; intros m W F' G0; cbn [fold_left]; [exact G0| |]; inversion W as [|? ? W1 W2]; subst; cbn [fst] in *.
    - apply IH; [exact W2|intros k' v' Hi; apply (F' k'); right; exact Hi|]. unfold apply_map. cbn [fst snd]. intros k' v' E. destruct (decide (k = k')) as [<-|N].
      + rewrite lookup_insert in E. injection E as <-. split; [reflexivity|]. apply (F' k). left. reflexivity.
      + rewrite lookup_insert_ne in E by exact N. apply G0, E.
    - apply IH; [exact W2|intros k' v' Hi; apply (F' k'); right; exact Hi|]. unfold apply_map. cbn [fst snd]. intros k' v' E. apply lookup_delete_Some in E. apply G0, E. }
  destruct (dict_exists fin Hfin n _ G) as (d' & es' & D' & M). destruct (modify_complete_any fin n d es b d' es' Hn D W S D' M) as [flag E]. eauto.
Qed.
Print Assumptions C27_modify_succeeds.

(** C27: when the call reports that nothing was modified, the dictionary is the old one; it
    reports a modification for every batch with instructions on a dictionary that is not empty. *)
Theorem C27_flag (fin : list bool -> list cell -> res unit) n d (b : batch) flag d' :
  dict_modify fin (num_ord false) n d (given b) = Ok (flag, d') ->
  (flag = false -> d' = d) /\ (forall root, d = Some root -> (flag = true <-> b <> [])) /\ (d = None -> (flag = true <-> d' <> None)).
Proof.
  intros E. destruct d as [root|].
  - destruct b as [|[k v] b]; [cbn in E; injection E as <- <-; split; [reflexivity|]; split; [intros r _; split; [discriminate|contradiction]|discriminate]|].
    cbn [given map fst snd] in E. rewrite modify_some in E. destruct (modify_stack _ _ _); cbn [rbind] in E; [|discriminate]. destruct (m_finalize _ _ _); cbn [rbind] in E; [|discriminate].
    injection E as <- <-. split; [discriminate|]. split; [|discriminate]. intros r _. split; [discriminate|reflexivity].
  - rewrite modify_none in E. destruct (build_dict _ _ _ _) as [d1|]; cbn [rbind] in E; [|discriminate]. injection E as <- <-.
    split; [destruct d1; [discriminate|reflexivity]|]. split; [discriminate|]. intros _. destruct d1; split; congruence.
Qed.
Print Assumptions C27_flag.

(** First instructions of each key. *)
Fixpoint firsts {A} (prev : option (list bool)) (b : list (list bool * A)) : list (list bool * A) :=
  match b with
  | [] => []
  | (k, v) :: b' => if decide (prev = Some k) then firsts prev b' else (k, v) :: firsts (Some k) b'
  end.
Lemma loop_firsts {I V} (reduce : list I -> list bool -> nat -> res (nat * list I)) mk_leaf mk_denorm mk_node root n
    (es : list (list bool * res (option V))) : forall prev its st, of_width n es -> match prev with Some p => length p = n | None => True end -> sorted es ->
  match prev, es with Some p, (k, _) :: _ => (key_num false p <= key_num false k)%Z | _, _ => True end ->
  modify_loop reduce mk_leaf mk_denorm mk_node (num_ord false) root es prev its st = modify_loop reduce mk_leaf mk_denorm mk_node (num_ord false) root (firsts prev es) prev its st.
Proof.
  induction es as [|[k v] es IH]; intros prev its st W Hp S A; cbn [firsts]; [reflexivity|].
  inversion W as [|? ? W1 W2]; subst. inversion S as [|? ? S1 S2]; subst. cbn [fst] in *.
  assert (A' : match es with (k', _) :: _ => (key_num false k <= key_num false k')%Z | [] => True end) by (destruct es as [|[k' v'] es']; [exact Logic.I|]; inversion S2; assumption).
  destruct (decide (prev = Some k)) as [->|N].
  - cbn [modify_loop]. unfold num_ord. rewrite Z.compare_refl. apply IH; assumption || reflexivity.
  - cbn [modify_loop]. assert (G : (match prev with Some p => num_ord false k p | None => Gt end) = Gt).
    { destruct prev as [p|]; [|reflexivity]. unfold num_ord. apply Z.compare_gt_iff. assert (key_num false p <> key_num false k) by (intros E; apply N; f_equal; apply num_eq; congruence). lia. }
    rewrite G. clear G A Hp. destruct v as [v|]; cbn [rbind]; [|reflexivity]. destruct (match prev with None => _ | Some p => _ end) as [[[s stack] st1]|]; cbn [rbind]; [|reflexivity].
    destruct (apply_value _ _ _ _ _ _ _ _ _) as [[stack1 st2]|]; cbn [rbind]; [|reflexivity]. apply IH; assumption || reflexivity.
Qed.
(** C27: with repeated keys, the first instruction of each key counts, on a dictionary that is
    not empty (whatever became of the values of the others). *)
Theorem C27_repeated_keys (fin : list bool -> list cell -> res unit) n root (es : list (list bool * res (option chunk))) :
  of_width n es -> sorted es ->
  dict_modify fin (num_ord false) n (Some root) es = dict_modify fin (num_ord false) n (Some root) (firsts None es).
Proof.
  intros W S. unfold dict_modify. rewrite (loop_firsts (m_reduce fin) MLeaf plain_denorm plain_node root n es None [] [] W I S I). reflexivity.
Qed.
Print Assumptions C27_repeated_keys.

(** C27: on an empty dictionary the removals are left out and the rest is a bulk build. *)
Theorem C27_on_empty (fin : list bool -> list cell -> res unit) n (b : batch) d :
  (exists flag, dict_modify fin (num_ord false) n None (given b) = Ok (flag, d)) <->
  build_dict fin (num_ord false) n (stored b) = Ok d.
Proof.
  rewrite modify_none. split; [intros [flag E]|intros E]; [|rewrite E; eexists; reflexivity].
  destruct (build_dict _ _ _ _); cbn [rbind] in E; [|discriminate]. congruence.
Qed.
Print Assumptions C27_on_empty.

(** C27: so with repeated keys the result depends on whether the dictionary was empty: removing
    and then setting the same key sets it on an empty dictionary, and does not otherwise. *)
Definition one_key : option cell := Eval vm_compute in
  match dict_insert ok_fin None [true; false] 2 ([true], []) MSet with Ok (_, d) => d | Err _ => None end.
Theorem C27_repeated_keys_refuted :
  exists n k v root (b : batch) d1 d2, of_width n b /\ sorted b /\
    dict_modify ok_fin (num_ord false) n None (given b) = Ok (true, d1) /\ dict_get d1 n k = Ok (Some v) /\
    dict_modify ok_fin (num_ord false) n (Some root) (given b) = Ok (true, d2) /\ dict_get d2 n k = Ok None /\
    dict_get (Some root) n k = Ok None.
Proof.
  exists 2, [false; true], ([true], []), (match one_key with Some c => c | None => Cell false [] [] end), [([false; true], None); ([false; true], Some ([true], []))].
  eexists _, _. split; [repeat constructor|]. split; [repeat constructor; cbn; lia|]. repeat split; vm_compute; reflexivity.
Qed.
Print Assumptions C27_repeated_keys_refuted.

(** C27: a batch out of order is never accepted, on a dictionary that is not empty. *)
Lemma loop_unsorted {I V} (reduce : list I -> list bool -> nat -> res (nat * list I)) mk_leaf mk_denorm mk_node root
    (es : list (list bool * res (option V))) : forall prev its st,
  ~ (sorted es /\ match prev, es with Some p, (k, _) :: _ => (key_num false p <= key_num false k)%Z | _, _ => True end) ->
  forall x, modify_loop reduce mk_leaf mk_denorm mk_node (num_ord false) root es prev its st <> Ok x.
Proof.
  induction es as [|[k v] es IH]; intros prev its st Hu x; [exfalso; apply Hu; split; [constructor|destruct prev; exact Logic.I]|]. cbn [modify_loop].
  assert (G : match prev with Some p => (key_num false p <= key_num false k)%Z | None => True end -> forall q, key_num false q = key_num false k ->
    ~ (sorted es /\ match es with (k', _) :: _ => (key_num false q <= key_num false k')%Z | [] => True end)).
  { intros A q Eq [S A']. apply Hu. split; [|destruct prev; exact A]. constructor; [exact S|]. destruct es as [|[k' v'] es]; constructor. cbn [fst]. rewrite <- Eq. exact A'. }
  destruct (match prev with Some p => num_ord false k p | None => Gt end) eqn:Ec; [|discriminate|].
  - destruct prev as [p|]; [|discriminate]. unfold num_ord in Ec. apply Z.compare_eq in Ec. apply IH. apply G; [lia|congruence].
  - assert (A : match prev with Some p => (key_num false p <= key_num false k)%Z | None => True end).
    { destruct prev as [p|]; [|exact Logic.I]. unfold num_ord in Ec. apply Z.compare_gt_iff in Ec. lia. }
    specialize (G A k eq_refl). clear A Ec Hu. destruct v as [v|]; cbn [rbind]; [|discriminate].
    destruct (match prev with None => _ | Some p => _ end) as [[[s stack] st1]|]; cbn [rbind]; [|discriminate].
    destruct (apply_value _ _ _ _ _ _ _ _ _) as [[stack1 st2]|]; cbn [rbind]; [|discriminate]. apply IH. exact G.
Qed.
Theorem C27_unsorted_rejected (fin : list bool -> list cell -> res unit) n root (es : list (list bool * res (option chunk))) :
  ~ sorted es -> exists e, dict_modify fin (num_ord false) n (Some root) es = Err e.
Proof.
  intros Hu. unfold dict_modify. destruct (modify_loop _ _ _ _ _ _ es _ _ _) as [x|e] eqn:E; [|eexists; reflexivity].
  exfalso. eapply loop_unsorted; [|exact E]. intros [S _]. exact (Hu S).
Qed.
Print Assumptions C27_unsorted_rejected.

Lemma loop_failed {I V} (reduce : list I -> list bool -> nat -> res (nat * list I)) mk_leaf mk_denorm mk_node root
    (es : list (list bool * res (option V))) k0 e : forall prev its st,
  strictly_sorted es -> match prev, es with Some p, (k, _) :: _ => (key_num false p < key_num false k)%Z | _, _ => True end -> In (k0, Err e) es ->
  forall x, modify_loop reduce mk_leaf mk_denorm mk_node (num_ord false) root es prev its st <> Ok x.
Proof.
  induction es as [|[k v] es IH]; intros prev its st S A Hi x; [contradiction|]. cbn [modify_loop]. inversion S as [|? ? S1 S2]; subst.
  assert (G : (match prev with Some p => num_ord false k p | None => Gt end) = Gt) by (destruct prev as [p|]; [|reflexivity]; unfold num_ord; apply Z.compare_gt_iff; exact A). rewrite G. clear G A.
  destruct Hi as [[= -> ->]|Hi]; [discriminate|]. destruct v as [v|]; cbn [rbind]; [|discriminate].
  destruct (match prev with None => _ | Some p => _ end) as [[[s stack] st1]|]; cbn [rbind]; [|discriminate].
  destruct (apply_value _ _ _ _ _ _ _ _ _) as [[stack1 st2]|]; cbn [rbind]; [|discriminate]. apply IH; [exact S1| |exact Hi].
  destruct es as [|[k' v'] es]; [exact Logic.I|]. inversion S2; assumption.
Qed.
Lemma inserts_failed (es : list (list bool * res (option chunk))) k0 e : In (k0, Err e) es -> exists l e', inserts es = (l, Some e').
Proof.
  induction es as [|[k v] es IH]; [contradiction|]. intros [[= -> ->]|Hi]; cbn [inserts]; [eauto|]. destruct (IH Hi) as (l & e' & ->). destruct v as [[v|]|]; eauto.
Qed.
(** C27: a value that cannot be had makes the call fail, on every dictionary. *)
Theorem C27_failed_value (fin : list bool -> list cell -> res unit) n d (es : list (list bool * res (option chunk))) k e :
  strictly_sorted es -> In (k, Err e) es -> exists e', dict_modify fin (num_ord false) n d es = Err e'.
Proof.
  intros S Hi. unfold dict_modify. destruct d as [root|].
  - destruct (modify_loop _ _ _ _ _ _ es _ _ _) as [x|e'] eqn:E; [|eexists; reflexivity]. exfalso. eapply (loop_failed _ _ _ _ root es k e None); [exact S|exact Logic.I|exact Hi|exact E].
  - destruct (inserts_failed es k e Hi) as (l & e' & ->). destruct (build_loop _ _ _ _ _ _); cbn [rbind]; eexists; reflexivity.
Qed.
Print Assumptions C27_failed_value.

(** C27: for keys with a signed order the claim is false: a batch in strictly increasing order of
    the keys is accepted, and the key set by it is not found afterwards. *)
Theorem C27_signed_refuted :
  exists n root (b : batch) d k v, of_width n b /\ Sorted (fun x y => key_num true (fst x) < key_num true (fst y))%Z b /\
    dict_modify ok_fin (num_ord true) n (Some root) (given b) = Ok (true, d) /\
    In (k, Some v) b /\ dict_get d n k <> Ok (Some v).
Proof.
  exists 2, (match one_key with Some c => c | None => Cell false [] [] end). exists [([true; true], Some ([true], [])); ([false; true], Some ([false], []))]. eexists _, [false; true], ([false], []).
  split; [repeat constructor|]. split; [repeat constructor; cbn; lia|].
  split; [vm_compute; reflexivity|].
  split; [right; left; reflexivity|]. vm_compute. discriminate.
Qed.
Print Assumptions C27_signed_refuted.

(** The hypotheses are met: a dictionary of five keys; the batch sets a new key, replaces one,
    removes one that is there and one that is not. *)
Definition ex_old : option cell := Eval vm_compute in
  match insert_all ok_fin 8 MAdd ex_entries None with Ok d => d | Err _ => None end.
Definition ex_batch : batch :=
  map (fun p => (nbits 8 (fst p), snd p)) [(3%N, None); (5%N, Some ([true; true], [])); (100%N, None); (130%N, Some ([false; false], [])); (200%N, None)].
Example C27_case : of_width 8 ex_batch /\ strictly_sorted ex_batch /\
  (exists es, is_dict (canonical_dict ok_fin) 8 ex_old es) /\
  exists c, dict_modify ok_fin (num_ord false) 8 ex_old (given ex_batch) = Ok (true, Some c) /\ apply_all ok_fin 8 ex_batch ex_old = Ok (Some c) /\
  dict_get (Some c) 8 (nbits 8 130) = Ok (Some ([false; false], [])) /\ dict_get (Some c) 8 (nbits 8 3) = Ok None /\
  dict_get (Some c) 8 (nbits 8 7) = Ok (Some ([false], [])).
Proof.
  split; [repeat constructor|]. split; [repeat constructor; vm_compute; reflexivity|]. split.
  - assert (H : history ok_fin 8 ex_old (fold_left (fun m e => set_map MAdd (fst e) (snd e) m) ex_entries ∅)).
    { eapply insert_all_history; [constructor|vm_compute; reflexivity]. }
    destruct (history_dict ok_fin 8 _ _ ltac:(lia) H) as (es & D & _). eauto.
  - eexists. split; [vm_compute; reflexivity|]. split; [vm_compute; reflexivity|]. split; [vm_compute; reflexivity|]. split; vm_compute; reflexivity.
Qed.
