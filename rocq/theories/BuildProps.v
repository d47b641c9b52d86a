(** * Building a dictionary from sorted entries (C26). *)
From Coq Require Import Sorting.Sorted.
From Verif Require Import Err BitsProofs CellModel LabelModel LabelSpec LabelProofs DictModel DictSpec DictTree
  DictProofs DictProofs2 DictOrder DictExist BuildModel StackProofs BuildProofs DictProps.
Local Open Scope nat_scope.

(** The order of integer keys: unsigned or two's complement. *)
Definition num_ord (signed : bool) (a b : list bool) : comparison := (key_num signed a ?= key_num signed b)%Z.
(** Keys of [n] bits in nondecreasing order. *)
Definition nondecreasing (signed : bool) (es : list entry) : Prop :=
  Sorted (fun a b => key_num signed (fst a) <= key_num signed (fst b))%Z es.
Definition keys_of_width (n : nat) (es : list entry) : Prop := Forall (fun e => length (fst e) = n) es.
(** Insertion of the entries one by one into an empty dictionary. *)
Fixpoint insert_all (fin : list bool -> list cell -> res unit) (n : nat) (mode : set_mode) (es : list entry) (d : option cell) : res (option cell) :=
  match es with
  | [] => Ok d
  | (k, v) :: es' => let? (_, d') := dict_insert fin d k n v mode in insert_all fin n mode es' d'
  end.

(** ** Proofs *)
Lemma klt_split (a b : list bool) : klt false a b -> exists q x y, a = q ++ false :: x /\ b = q ++ true :: y.
Proof.
  revert b. induction a as [|u a IH]; intros [|w b] H; cbn [klt] in H; try contradiction. destruct (Bool.eqb u w) eqn:E.
  - apply eqb_prop in E. subst w. destruct (IH b H) as (q & x & y & -> & ->). exists (u :: q), x, y. auto.
  - subst w. destruct u; [discriminate|]. exists [], a, b. auto.
Qed.
Lemma klt_total (a b : list bool) : length a = length b -> klt false a b \/ a = b \/ klt false b a.
Proof.
  revert b. induction a as [|u a IH]; intros [|w b] H; cbn [length] in H; try lia; [auto|]. injection H as H. cbn [klt].
  destruct u, w; cbn [Bool.eqb negb]; auto; destruct (IH b H) as [K|[->|K]]; auto.
Qed.

(** First occurrences. *)
Fixpoint dedup (prev : option (list bool)) (es : list entry) : list entry :=
  match es with
  | [] => []
  | (k, v) :: es' => if decide (prev = Some k) then dedup prev es' else (k, v) :: dedup (Some k) es'
  end.
Fixpoint chained (n : nat) (prev : option (list bool)) (es : list entry) : Prop :=
  match es with
  | [] => True
  | (k, _) :: es' => length k = n /\ match prev with Some p => klt false p k | None => True end /\ chained n (Some k) es'
  end.
Definition after (prev : option (list bool)) (es : list entry) : Prop :=
  match prev, es with Some p, (k, _) :: _ => (key_num false p <= key_num false k)%Z | _, _ => True end.

Lemma num_eq (a b : list bool) : length a = length b -> key_num false a = key_num false b -> a = b.
Proof.
  intros L E. destruct (klt_total a b L) as [K|[K|K]]; [|exact K|]; apply klt_num in K; try congruence; lia.
Qed.
Lemma dedup_chained n prev es : keys_of_width n es -> match prev with Some p => length p = n | None => True end ->
  nondecreasing false es -> after prev es -> chained n prev (dedup prev es).
Proof.
  revert prev. induction es as [|[k v] es IH]; intros prev Hk Hp Hs Ha; cbn [dedup]; [exact I|].
  inversion Hk as [|? ? K1 K2]; subst. cbn [fst] in *. inversion Hs as [|? ? S1 S2]; subst.
  assert (A : after (Some k) es) by (destruct es as [|[k' v'] es]; [exact I|]; inversion S2; assumption).
  destruct (decide (prev = Some k)) as [->|N].
  - apply IH; assumption.
  - cbn [chained]. split; [reflexivity|]. split; [|apply IH; auto]. destruct prev as [p|]; [|exact I]. cbn [after] in Ha.
    apply klt_num; [congruence|]. assert (key_num false p <> key_num false k) by (intros E; apply N; f_equal; apply num_eq; congruence). lia.
Qed.
Lemma dedup_lookup prev es k : dmap (dedup prev es) !! k = if decide (prev = Some k) then dmap (dedup prev es) !! k else dmap es !! k.
Proof.
  revert prev. induction es as [|[k' v'] es IH]; intros prev; cbn [dedup]; [destruct (decide _); reflexivity|].
  destruct (decide (prev = Some k)) as [|N]; [reflexivity|]. unfold dmap in *. destruct (decide (prev = Some k')) as [->|N'].
  - rewrite IH. destruct (decide _) as [|_]; [contradiction|]. cbn [list_to_map foldr fst snd uncurry]. 
    rewrite lookup_insert_ne by congruence. reflexivity.
  - cbn [list_to_map foldr fst snd uncurry]. destruct (decide (k' = k)) as [->|Nk]; [rewrite !lookup_insert; reflexivity|].
    rewrite !lookup_insert_ne by exact Nk. etransitivity; [apply IH|]. rewrite decide_False by congruence. reflexivity.
Qed.
Lemma dedup_map es : dmap (dedup None es) = dmap es.
Proof. apply map_eq. intros k. rewrite dedup_lookup. rewrite decide_False by discriminate. reflexivity. Qed.

Section P.
Context (fin : list bool -> list cell -> res unit) (n : nat) (Hn : n <= 1023).
Notation CR := (canonical_dict fin).

Fixpoint push_all (es : list entry) (st : list mitem) : res (list mitem) :=
  match es with
  | [] => Ok st
  | (k, v) :: es' => let? (l, st') := m_reduce fin st k n in push_all es' (MLeaf k v l :: st')
  end.
Lemma build_loop_dedup es : forall prev st, keys_of_width n es -> match prev with Some p => length p = n | None => True end ->
  nondecreasing false es -> after prev es ->
  build_loop fin (num_ord false) n es prev st = push_all (dedup prev es) st.
Proof.
  induction es as [|[k v] es IH]; intros prev st Hk Hp Hs Ha; cbn [build_loop dedup push_all]; [reflexivity|].
  inversion Hk as [|? ? K1 K2]; subst. cbn [fst] in *. inversion Hs as [|? ? S1 S2]; subst.
  assert (A : after (Some k) es) by (destruct es as [|[k' v'] es]; [exact I|]; inversion S2; assumption).
  destruct prev as [p|].
  - cbn [after] in Ha. unfold num_ord. destruct (Z.compare_spec (key_num false k) (key_num false p)) as [E|E|E].
    + apply num_eq in E; [|congruence]. subst p. rewrite decide_True by reflexivity. apply IH; assumption.
    + lia.
    + rewrite decide_False by (intros K; injection K as ->; lia). cbn [push_all].
      destruct (m_reduce fin st k n) as [[l st']|]; cbn [rbind]; [|reflexivity]. apply IH; auto.
  - rewrite decide_False by discriminate. cbn [push_all]. destruct (m_reduce fin st k n) as [[l st']|]; cbn [rbind]; [|reflexivity]. apply IH; auto.
Qed.

Fixpoint run (es : list entry) (ast : list aitem) : list aitem :=
  match es with [] => ast | (k, v) :: es' => run es' (a_push ast k None (Leaf [] v)) end.
Definition at_top (prev : option (list bool)) (ast : list aitem) : Prop :=
  match ast with [] => prev = None | top :: _ => prev = Some (a_p top) /\ a_fix top = None end.

Lemma top_step prev ast k : at_top prev ast -> match prev with Some p => klt false p k | None => True end -> stepok ast k.
Proof.
  destruct ast as [|top ast]; cbn [at_top stepok]; [auto|]. intros [-> F] H. apply klt_split in H. destruct H as (q & x & y & E1 & E2).
  exists q, x, y. split; [exact E1|]. split; [exact E2|]. unfold fixed_at. rewrite F. exact I.
Qed.
Lemma top_push ast k v : at_top (Some k) (a_push ast k None (Leaf [] v)).
Proof. unfold a_push. destruct (a_reduce px ast k). split; reflexivity. Qed.
Lemma leaf_valid k v : length k = n -> valid n (AItem k None (Leaf [] v) 0).
Proof. intros H. exact H. Qed.

Lemma run_spec es : forall prev ast, chained n prev es -> at_top prev ast -> SI n ast -> Forall (fun a => plain (a_t a)) ast ->
  SI n (run es ast) /\ flat (run es ast) = flat ast ++ es /\ (exists p, at_top p (run es ast)) /\ Forall (fun a => plain (a_t a)) (run es ast).
Proof.
  induction es as [|[k v] es IH]; intros prev ast C T S P; cbn [run]; [rewrite app_nil_r; eauto|].
  cbn [chained] in C. destruct C as (Lk & K & C). pose proof (top_step prev ast k T K) as So.
  destruct (push_abs n ast k None (Leaf [] v) S So (leaf_valid k v Lk)) as [S' F].
  destruct (IH (Some k) _ C (top_push ast k v) S' (a_push_plain ast k None (Leaf [] v) P I)) as (H1 & H2 & H3 & H4).
  split; [exact H1|]. split; [|auto]. rewrite H2, F. rewrite <- app_assoc. reflexivity.
Qed.
Lemma leaf_crel R k v l : crel n R (MLeaf k v l) (AItem k None (Leaf [] v) l).
Proof. split; [reflexivity|]. split; [reflexivity|]. split; [reflexivity|]. eexists. reflexivity. Qed.

Lemma run_sound R es : reads R -> writes fin R -> forall prev st ast st', chained n prev es -> at_top prev ast -> SI n ast -> stack_rel n R st ast ->
  push_all es st = Ok st' -> stack_rel n R st' (run es ast).
Proof.
  intros HR HW. induction es as [|[k v] es IH]; intros prev st ast st' C T S Sr E; cbn [run push_all] in *; [injection E as <-; exact Sr|].
  cbn [chained] in C. destruct C as (Lk & K & C). pose proof (top_step prev ast k T K) as So.
  destruct (push_abs n ast k None (Leaf [] v) S So (leaf_valid k v Lk)) as [S' F].
  destruct (m_reduce fin st k n) as [[l st1]|] eqn:E1; cbn [rbind] in E; [|discriminate].
  apply (IH (Some k) _ _ _ C (top_push ast k v) S') with (2 := E).
  eapply push_sound; try eassumption. apply leaf_crel.
Qed.
Lemma run_complete es : forall prev st ast, chained n prev es -> at_top prev ast -> SI n ast -> stack_rel n CR st ast ->
  Forall (realizable fin n) (run es ast) -> Forall (realizable fin n) ast /\ exists st', push_all es st = Ok st'.
Proof.
  induction es as [|[k v] es IH]; intros prev st ast C T S Sr Hr; cbn [run push_all] in *; [eauto|].
  cbn [chained] in C. destruct C as (Lk & K & C). pose proof (top_step prev ast k T K) as So.
  destruct (push_abs n ast k None (Leaf [] v) S So (leaf_valid k v Lk)) as [S' F].
  assert (G : Forall (realizable fin n) (a_push ast k None (Leaf [] v))).
  { clear -IH C T S' Hr Hn. revert C S' Hr. generalize (a_push ast k None (Leaf [] v)) (top_push ast k v). clear T.
    intros ast' T C S' Hr. clear IH. revert k T C S'. revert ast' Hr. induction es as [|[k' v'] es IH]; intros ast' Hr k T C S'; cbn [run] in Hr; [exact Hr|].
    cbn [chained] in C. destruct C as (Lk & K & C). pose proof (top_step (Some k) ast' k' T K) as So.
    destruct (push_abs n ast' k' None (Leaf [] v') S' So (leaf_valid k' v' Lk)) as [S2 _].
    apply (push_real fin n Hn ast' k' None (Leaf [] v') S' So). apply (IH _ Hr k'); [apply top_push|exact C|exact S2]. }
  destruct (push_complete fin n Hn st ast k None (Leaf [] v) Sr S So G) as (l & st1 & E1 & El). rewrite E1. cbn [rbind].
  split; [eapply push_real; eassumption|].
  assert (Sr' : stack_rel n CR (MLeaf k v l :: st1) (a_push ast k None (Leaf [] v))).
  { eapply push_sound; try eassumption; [apply reads_canonical|apply writes_canonical|apply leaf_crel]. }
  destruct (IH (Some k) _ _ C (top_push ast k v) S' Sr' Hr) as [_ [st' E]]. eauto.
Qed.

Lemma top_fixed p top ast : at_top p (top :: ast) -> forall o, fixed_at top o.
Proof. intros [_ F] o. unfold fixed_at. rewrite F. exact I. Qed.

Lemma build_sound R es d : reads R -> writes fin R -> keys_of_width n es -> nondecreasing false es ->
  build_dict fin (num_ord false) n es = Ok d -> is_dict R n d (dedup None es).
Proof.
  intros HR HW Hk Hs E. unfold build_dict in E. rewrite (build_loop_dedup es None [] Hk I Hs I) in E.
  pose proof (dedup_chained n None es Hk I Hs I) as C. destruct (push_all (dedup None es) []) as [st|] eqn:E1; cbn [rbind] in E; [|discriminate].
  destruct (run_spec (dedup None es) None [] C eq_refl I (List.Forall_nil _)) as (S & F & (p & T) & P). cbn [flat app] in F.
  pose proof (run_sound R _ HR HW None [] [] st C eq_refl I (List.Forall2_nil _) E1) as Sr.
  destruct (run (dedup None es) []) as [|ar ast].
  - inversion Sr; subst. cbn [flat] in F. rewrite <- F. cbn in E. injection E as <-. reflexivity.
  - destruct S as [V B]. rewrite <- F. eapply finalize_sound; try eassumption. eapply top_fixed. exact T.
Qed.
Lemma build_complete es d es' : keys_of_width n es -> nondecreasing false es ->
  is_dict CR n d es' -> dmap es' = dmap es -> build_dict fin (num_ord false) n es = Ok d.
Proof.
  intros Hk Hs D M. unfold build_dict. rewrite (build_loop_dedup es None [] Hk I Hs I). rewrite <- (dedup_map es) in M.
  pose proof (dedup_chained n None es Hk I Hs I) as C.
  destruct (run_spec (dedup None es) None [] C eq_refl I (List.Forall_nil _)) as (S & F & (p & T) & P). cbn [flat app] in F.
  destruct (run (dedup None es) []) as [|ar ast] eqn:Er.
  - cbn [flat] in F. rewrite <- F in *. cbn [push_all rbind m_finalize].
    destruct d as [c|]; [|reflexivity]. cbn [is_dict] in D. destruct (dict_unique fin n (Some c) None es' [] D eq_refl M). discriminate.
  - destruct S as [V B]. pose proof (top_fixed p ar ast T (match ast with [] => 0 | _ => S (a_prev ar) end)) as Fx.
    destruct (a_finalize_spec n px ar ast V B Fx) as (V' & F' & W & X). rewrite F in X.
    pose proof (a_finalize_plain n ar ast V B P) as Pl.
    assert (Pt : plain (tree_at (a_finalize px ar ast) 0)).
    { unfold tree_at. destruct (a_fix _); [exact Pl|]. destruct (a_t (a_finalize px ar ast)); [exact I|exact Pl]. }
    destruct d as [c|]; cbn [is_dict] in D.
    2:{ subst es'. exfalso. rewrite <- X in M. destruct (t_nonempty _ _ W) as (k & v & G). rewrite <- t_get_spec, <- M in G. cbn in G. rewrite lookup_empty in G. discriminate. }
    apply hashmap_rep in D. destruct D as (t & Ht & ->).
    assert (Et : t = tree_at (a_finalize px ar ast) 0).
    { apply (t_ext n); [eapply Rep_wft; exact Ht|exact W|eapply (Rep_plain CR fin); [apply writes_canonical|exact Ht]|exact Pt|].
      intros k. rewrite <- !t_get_spec, M, X. reflexivity. }
    rewrite Et in Ht. pose proof (finalize_real fin n Hn ar ast c V B Fx Ht) as Re. rewrite <- Er in Re.
    destruct (run_complete (dedup None es) None [] [] C eq_refl I (List.Forall2_nil _) Re) as [_ [st E1]]. rewrite E1. cbn [rbind].
    pose proof (run_sound CR _ (reads_canonical fin) (writes_canonical fin) None [] [] st C eq_refl I (List.Forall2_nil _) E1) as Sr. rewrite Er in Sr.
    eapply finalize_complete; eassumption.
Qed.

End P.

(** Not in order: an error. *)
Lemma build_unsorted (fin : list bool -> list cell -> res unit) (n : nat) es : forall prev st, ~ (nondecreasing false es /\ after prev es) ->
  match prev with Some p => length p = n | None => True end -> keys_of_width n es ->
  forall st', build_loop fin (num_ord false) n es prev st <> Ok st'.
Proof.
  induction es as [|[k v] es IH]; intros prev st Hu Hp Hk st'; [exfalso; apply Hu; split; [constructor|destruct prev; exact I]|].
  inversion Hk as [|? ? K1 K2]; subst. cbn [fst] in *. cbn [build_loop].
  assert (G : after prev ((k, v) :: es) -> ~ (nondecreasing false es /\ after (Some k) es)).
  { intros A [S A']. apply Hu. split; [|exact A]. constructor; [exact S|]. destruct es as [|[k' v'] es]; constructor; exact A'. }
  destruct prev as [p|].
  - unfold num_ord. destruct (Z.compare_spec (key_num false k) (key_num false p)) as [E|E|E]; [|discriminate|].
    + pose proof (num_eq _ _ (eq_sym Hp) E) as Ek. subst p. apply IH; [apply G; cbn [after]; lia|exact Hp|exact K2].
    + destruct (m_reduce fin st k _) as [[l st1]|]; cbn [rbind]; [|discriminate]. apply IH; [apply G; cbn [after]; lia|reflexivity|exact K2].
  - destruct (m_reduce fin st k _) as [[l st1]|]; cbn [rbind]; [|discriminate]. apply IH; [apply G; exact I|reflexivity|exact K2].
Qed.

(** C26: a dictionary built from entries in nondecreasing key order is the canonical dictionary
    of exactly these entries (of several entries with one key, the first). *)
Theorem C26_build (fin : list bool -> list cell -> res unit) n es d :
  n <= 1023 -> keys_of_width n es -> nondecreasing false es ->
  build_dict fin (num_ord false) n es = Ok d ->
  exists es', is_dict (canonical_dict fin) n d es' /\ dmap es' = dmap es.
Proof.
  intros Hn Hk Hs E. exists (dedup None es). split; [|apply dedup_map].
  eapply (build_sound fin n Hn); try eassumption; [apply reads_canonical|apply writes_canonical].
Qed.
Print Assumptions C26_build.

(** C26: it is the same root as any sequence of successful updates with that content reaches;
    in particular bulk building succeeds whenever one-by-one building does. *)
Theorem C26_same_root (fin : list bool -> list cell -> res unit) n es d :
  n <= 1023 -> keys_of_width n es -> nondecreasing false es ->
  history fin n d (dmap es) -> build_dict fin (num_ord false) n es = Ok d.
Proof.
  intros Hn Hk Hs H. destruct (history_dict fin n d _ Hn H) as (es' & D & M). eapply build_complete; eassumption.
Qed.
Print Assumptions C26_same_root.

Lemma insert_all_history (fin : list bool -> list cell -> res unit) n mode es : forall d m d',
  history fin n d m -> insert_all fin n mode es d = Ok d' ->
  history fin n d' (fold_left (fun m e => set_map mode (fst e) (snd e) m) es m).
Proof.
  induction es as [|[k v] es IH]; intros d m d' H E; cbn [insert_all fold_left] in *; [injection E as <-; exact H|].
  destruct (dict_insert fin d k n v mode) as [[flag d1]|] eqn:E1; cbn [rbind] in E; [|discriminate].
  apply (IH d1 _ d'); [|exact E]. eapply h_set; eassumption.
Qed.
Lemma fold_add es : forall m, fold_left (fun m e => set_map MAdd (fst e) (snd e) m) es m = m ∪ dmap es.
Proof.
  induction es as [|[k v] es IH]; intros m; cbn [fold_left]; [unfold dmap; cbn; rewrite (right_id_L ∅ (∪)); reflexivity|].
  rewrite IH. apply map_eq. intros k'. unfold set_map, present, dmap. cbn [stores fst snd list_to_map foldr].
  destruct (m !! k) as [w|] eqn:E; cbn [negb].
  - rewrite !lookup_union. destruct (decide (k = k')) as [<-|N].
    + rewrite E. destruct (list_to_map es !! k); destruct (<[k:=v]> (list_to_map es) !! k); reflexivity.
    + rewrite lookup_insert_ne by exact N. reflexivity.
  - rewrite !lookup_union. destruct (decide (k = k')) as [<-|N].
    + rewrite !lookup_insert, E. destruct (list_to_map es !! k); reflexivity.
    + rewrite !lookup_insert_ne by exact N. reflexivity.
Qed.
(** C26: literally, inserting the entries one by one into an empty dictionary (keeping the
    first value of a repeated key, as [add] does). *)
Theorem C26_equals_insertion (fin : list bool -> list cell -> res unit) n es d :
  n <= 1023 -> keys_of_width n es -> nondecreasing false es ->
  insert_all fin n MAdd es None = Ok d -> build_dict fin (num_ord false) n es = Ok d.
Proof.
  intros Hn Hk Hs E. apply C26_same_root; try assumption. pose proof (insert_all_history fin n MAdd es None ∅ d (h_empty fin n) E) as H.
  rewrite fold_add in H. rewrite (left_id_L ∅ (∪)) in H. exact H.
Qed.
Print Assumptions C26_equals_insertion.

(** C26: conversely the built dictionary is what insertion gives, when all entries fit. *)
Theorem C26_build_succeeds (fin : list bool -> list cell -> res unit) n es :
  (forall b r, length b <= 1023 -> length r <= 4 -> fin b r = Ok tt) ->
  n <= 1023 -> keys_of_width n es -> nondecreasing false es ->
  Forall (fun e => n + length (fst (snd e)) <= 1011 /\ length (snd (snd e)) <= 4) es ->
  exists d, build_dict fin (num_ord false) n es = Ok d.
Proof.
  intros Hfin Hn Hk Hs Hf. destruct (dict_exists fin Hfin n (dmap es)) as (d & es' & D & M).
  { intros k v E. apply elem_of_list_to_map_2 in E. rewrite Forall_forall in Hf. apply (proj1 (Forall_forall _ _)) with (x := (k, v)) in Hk; [|exact E].
    cbn [fst snd] in *. pose proof (Hf (k, v) E) as [A B]. auto. }
  exists d. eapply build_complete; eassumption.
Qed.
Print Assumptions C26_build_succeeds.

(** C26: entries out of order are never accepted. *)
Theorem C26_unsorted_rejected (fin : list bool -> list cell -> res unit) n es :
  keys_of_width n es -> ~ nondecreasing false es ->
  exists e, build_dict fin (num_ord false) n es = Err e.
Proof.
  intros Hk Hu. unfold build_dict. destruct (build_loop fin (num_ord false) n es None []) as [st|e] eqn:E; [|eexists; reflexivity].
  exfalso. apply (build_unsorted fin n es None [] (fun H => Hu (proj1 H)) I Hk st E).
Qed.
Print Assumptions C26_unsorted_rejected.

(** C26: for keys with a signed order the claim is false: the entries may be accepted, in
    strictly increasing order, and still be stored under each other's keys. *)
Theorem C26_signed_refuted :
  exists n es d v, keys_of_width n es /\ nondecreasing true es /\ build_dict ok_fin (num_ord true) n es = Ok d /\
    (exists k, dict_get d n k = Ok (Some v) /\ dmap es !! k <> Some v) /\
    (forall es', is_dict any_dict n d es' -> dmap es' <> dmap es).
Proof.
  exists 2, [([true; true], ([true], [])); ([false; true], ([false], []))].
  eexists _, _. split; [repeat constructor|]. split; [repeat constructor; cbn; lia|]. split; [vm_compute; reflexivity|].
  assert (G : dict_get (Some (Cell false [false; false] [Cell false [false; true; false; true; true] []; Cell false [false; true; false; true; false] []])) 2 [true; true]
    = Ok (Some ([false], []))) by (vm_compute; reflexivity).
  split; [exists [true; true]; split; [exact G|vm_compute; discriminate]|].
  intros es' D M. pose proof (C20_lookup_any 2 _ es' [true; true] ltac:(lia) D eq_refl) as L. rewrite M in L.
  unfold dmap in L. cbn [list_to_map foldr fst snd] in L. rewrite lookup_insert in L. rewrite L in G. discriminate.
Qed.
Print Assumptions C26_signed_refuted.

(** The hypotheses are met: five entries of 8 bits, one key repeated. *)
Definition ex_entries : list entry :=
  map (fun p => (nbits 8 (fst p), ([snd p], []))) [(3%N, true); (7%N, false); (7%N, true); (130%N, true); (200%N, false)].
Example C26_case : keys_of_width 8 ex_entries /\ nondecreasing false ex_entries /\
  exists c, build_dict ok_fin (num_ord false) 8 ex_entries = Ok (Some c) /\ insert_all ok_fin 8 MAdd ex_entries None = Ok (Some c) /\
  dict_get (Some c) 8 (nbits 8 7) = Ok (Some ([false], [])) /\
  build_dict ok_fin (num_ord false) 8 (rev ex_entries) = Err InvalidData.
Proof.
  split; [repeat constructor|]. split; [repeat constructor; vm_compute; discriminate|].
  eexists. split; [vm_compute; reflexivity|]. split; [vm_compute; reflexivity|]. split; vm_compute; reflexivity.
Qed.
