(** * Proofs for C57: arrays and maps *)
From Coq Require Import Sorting.Sorted.
From Verif Require Import Err BitsProofs IntModel CellModel ChunkModel ChunkSpec ChunkProofs DictModel DictSpec DictProofs DictOrder IterModel IterProofs DictProps IterProps BuildProps
  CurrencyModel CurrencyProofs AbiModel AbiSpec AbiProofs AbiProofs2.
Local Open Scope N_scope.

Definition by_key (a b : entry) : Prop := before false false (fst a) (fst b).
Lemma fold_set es : NoDup (map fst es) -> forall m, fold_left (fun m e => set_map MSet (fst e) (snd e) m) es m = dmap es ∪ m.
Proof.
  induction es as [|[k x] es IH]; cbn [map fst]; intros N m; cbn [fold_left].
  - unfold dmap. cbn [list_to_map foldr]. rewrite (left_id_L ∅ (∪)). reflexivity.
  - apply list.NoDup_cons in N. destruct N as [N1 N2]. rewrite (IH N2). unfold set_map. cbn [stores fst snd]. unfold dmap. cbn [list_to_map foldr].
    rewrite <- insert_union_l. symmetry. apply insert_union_r, not_elem_of_list_to_map_1, N1.
Qed.
Lemma by_key_nodup es : StronglySorted by_key es -> NoDup (map fst es).
Proof. apply before_nodup. Qed.

(** What the iterators give for a dictionary that was filled in whatever order. *)
Lemma filled fin n es order d : (n <= 1023)%nat -> insert_all fin n MSet es None = Ok d -> Permutation es order -> StronglySorted by_key order ->
  (length order < dict_fuel d)%nat /\ iter_inv any_dict false false n d (iter_new d n false false) order /\ values_inv any_dict false n d (values_new d n false false) order.
Proof.
  intros Hn E P S. pose proof (by_key_nodup _ S) as ND. assert (ND' : NoDup (map fst es)) by (rewrite P; exact ND).
  pose proof (insert_all_history fin n MSet es None ∅ d (h_empty fin n) E) as H. rewrite (fold_set es ND'), (right_id_L ∅ (∪)) in H.
  destruct (history_dict fin n d _ Hn H) as (es' & D & M).
  assert (D' : is_dict any_dict n d es').
  { destruct d as [c|]; cbn [is_dict] in *; [|exact D]. eapply hashmap_any; [|exact D]. intros n' bits l rest (e & -> & X & _). exists e. auto. }
  assert (P' : Permutation es' order).
  { rewrite <- P. apply list_to_map_inj; [eapply dict_nodup; exact D|exact ND'|exact M]. }
  assert (O : ordered false false es' order) by (split; [symmetry; exact P'|split; [exact ND|exact S]]).
  split; [|split].
  - rewrite <- P'. unfold dict_fuel. destruct d as [c|]; cbn [is_dict] in D; [apply hashmap_size in D; lia|subst es'; cbn; lia].
  - destruct (iter_new_inv any_dict false false n Hn d es' D') as (o & Po & So & I). rewrite (C24_order_unique false false es' order o O (make_ordered _ _ _ _ _ _ _ D' Po So)). exact I.
  - destruct (values_new_inv any_dict false n Hn d es' D') as (o & Po & So & I). rewrite (C24_order_unique false false es' order o O (make_ordered _ _ _ _ _ _ _ D' Po So)). exact I.
Qed.

Lemma each_value_ok f n d : (n <= 1023)%nat -> forall es ys fuel left it, (length es < fuel)%nat -> left = N.of_nat (length es) -> values_inv any_dict false n d it es ->
  Forall2 (fun e y => forall c, f (Sl c (fst (snd e)) (snd (snd e))) = Ok y) es ys -> each_value f fuel left it = Ok ys.
Proof.
  intros Hn. induction es as [|e es IH]; intros ys fuel left it Hf -> I F; destruct fuel as [|fuel]; try (cbn [length] in Hf; lia); cbn [each_value].
  - inversion_clear F. reflexivity.
  - inversion_clear F as [|? y ? ys' Fe F']. cbn [length] in *. destruct (N.eqb_spec (N.of_nat (S (length es))) 0) as [|_]; [lia|].
    destruct (values_next_inv any_dict reads_any false n Hn _ _ _ I) as (data & it' & -> & I' & C & _).
    assert (data = Sl (s_cell data) (fst (snd e)) (snd (snd e))) as -> by (rewrite <- C; destruct data; reflexivity).
    rewrite Fe. cbn [rbind]. rewrite (IH ys' fuel _ it'); [reflexivity|lia|lia|exact I'|exact F'].
Qed.
Lemma each_entry_ok f n d : (n <= 1023)%nat -> forall es ys fuel it, (length es < fuel)%nat -> iter_inv any_dict false false n d it es ->
  Forall2 (fun e y => forall c, f (fst e) (Sl c (fst (snd e)) (snd (snd e))) = Ok y) es ys -> each_entry f fuel it = Ok ys.
Proof.
  intros Hn. induction es as [|e es IH]; intros ys fuel it Hf I F; destruct fuel as [|fuel]; try (cbn [length] in Hf; lia); cbn [each_entry].
  - inversion_clear F. destruct (iter_next_inv any_dict reads_any false false n Hn _ _ _ I) as (it' & -> & _). reflexivity.
  - inversion_clear F as [|? y ? ys' Fe F']. cbn [length] in *.
    destruct (iter_next_inv any_dict reads_any false false n Hn _ _ _ I) as (data & it' & -> & I' & C & _).
    assert (data = Sl (s_cell data) (fst (snd e)) (snd (snd e))) as -> by (rewrite <- C; destruct data; reflexivity).
    rewrite Fe. cbn [rbind]. rewrite (IH ys' fuel it'); [reflexivity|lia|exact I'|exact F'].
Qed.

(** ** Indices *)
Fixpoint idx (i : N) (n : nat) : list (list bool) := match n with O => [] | S n => nbits 32 i :: idx (i + 1) n end.
Lemma idx_before i n j : i < j -> j + N.of_nat n <= 2 ^ 32 -> Forall (before false false (nbits 32 i)) (idx j n).
Proof.
  revert j. induction n as [|n IH]; intros j H1 H2; cbn [idx]; constructor; [|apply IH; lia].
  unfold before. rewrite !key_num_false, !bval_nbits_small by (change (2 ^ N.of_nat 32) with (2 ^ 32); lia). lia.
Qed.
Lemma idx_sorted n : forall i, i + N.of_nat n <= 2 ^ 32 -> StronglySorted (before false false) (idx i n).
Proof. induction n as [|n IH]; intros i H; cbn [idx]; constructor; [apply IH; lia|apply idx_before; lia]. Qed.
Lemma sorted_by_key es : StronglySorted (before false false) (map fst es) -> StronglySorted by_key es.
Proof.
  induction es as [|e es IH]; cbn [map]; intros S; constructor; inversion_clear S as [|? ? S' F]; [apply IH, S'|]. apply (Forall_fmap fst) in F. exact F.
Qed.

Definition leaf_of (fin : list bool -> list cell -> res unit) (inline : bool) (rb : res chunk) (e : chunk) : Prop := exists b, rb = Ok b /\ leaf_value fin inline b = Ok e.
Lemma array_dict_ok fin inline bs : forall i d d', array_dict fin inline bs i d = Ok d' ->
  exists es, insert_all fin 32 MSet es d = Ok d' /\ Forall2 (fun rb e => leaf_of fin inline rb (snd e)) bs es /\ map fst es = idx i (length bs).
Proof.
  induction bs as [|rb bs IH]; intros i d d'; cbn [array_dict].
  - intros [= <-]. exists []. cbn. auto.
  - destruct rb as [b|] eqn:Eb; cbn [rbind]; [|discriminate]. destruct (leaf_value fin inline b) as [e|] eqn:El; cbn [rbind]; [|discriminate].
    destruct (dict_insert fin d (nbits 32 i) 32 e MSet) as [[fl d1]|] eqn:Ei; cbn [rbind]; [|discriminate]. intros E. destruct (IH _ _ _ E) as (es & E1 & E2 & E3).
    exists ((nbits 32 i, e) :: es). cbn [insert_all map fst length idx]. rewrite Ei, E3. cbn [rbind]. split; [exact E1|]. split; [|reflexivity].
    constructor; [|exact E2]. exists b. auto.
Qed.
Lemma map_dict_ok fin inline n bs : forall d d', map_dict fin inline n bs d = Ok d' ->
  exists es, insert_all fin n MSet es d = Ok d' /\ Forall2 (fun kb e => key_chunk (fst kb) = Ok (fst e) /\ leaf_of fin inline (snd kb) (snd e)) bs es.
Proof.
  induction bs as [|[k rb] bs IH]; intros d d'; cbn [map_dict].
  - intros [= <-]. exists []. cbn. auto.
  - destruct (key_chunk k) as [kb|] eqn:Ek; cbn [rbind]; [|discriminate].
    destruct rb as [b|] eqn:Eb; cbn [rbind]; [|discriminate]. destruct (leaf_value fin inline b) as [e|] eqn:El; cbn [rbind]; [|discriminate].
    destruct (dict_insert fin d kb n e MSet) as [[fl d1]|] eqn:Ei; cbn [rbind]; [|discriminate]. intros E. destruct (IH _ _ E) as (es & E1 & E2).
    exists ((kb, e) :: es). cbn [insert_all]. rewrite Ei. cbn [rbind]. split; [exact E1|]. constructor; [|exact E2]. cbn [fst snd]. split; [exact Ek|exists b; auto].
Qed.
Lemma insert_all_nil fin n mode es d : insert_all fin n mode es None = Ok d -> es = [] -> d = None.
Proof. intros E ->. injection E as <-. reflexivity. Qed.
Lemma filled_some fin n es order d : (n <= 1023)%nat -> insert_all fin n MSet es None = Ok d -> Permutation es order -> StronglySorted by_key order -> (d = None <-> order = []).
Proof.
  intros Hn E P S. split.
  - intros ->. destruct (filled fin n es order None Hn E P S) as (L & _). unfold dict_fuel in L. destruct order; [reflexivity|cbn [length] in L; lia].
  - intros ->. apply Permutation_sym, Permutation_nil_l in P. subst es. injection E as <-. reflexivity.
Qed.
