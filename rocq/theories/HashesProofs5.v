(** * All workchains *)
From Coq Require Import Sorting.Sorted.
From Verif Require Import Err BitsProofs IntModel IntProofs CellModel DictModel DictSpec DictProofs DictProps IterModel IterProofs IterProps BuildProps CurrencyProofs AbiProofs3 ChunkModel ChunkSpec ChunkProofs DeriveSpec
  ShardModel ShardSpec ShardProofs ShardProps HashesModel HashesSpec HashesProofs HashesProofs2 HashesProofs3 HashesProofs4.
Local Open Scope N_scope.

Lemma partition_perm l l' : Permutation l l' -> partition l -> partition l'.
Proof.
  intros P H a B L. destruct (H a B L) as (l1 & s & l2 & -> & C & F). assert (I : In s l') by (eapply Permutation_in; [exact P|apply in_or_app; right; left; reflexivity]).
  apply in_split in I. destruct I as (m1 & m2 & ->). exists m1, s, m2. split; [reflexivity|]. split; [exact C|]. rewrite <- (Permutation_app_inv _ _ _ _ _ P). exact F.
Qed.
Lemma disjoint_perm l l' : Permutation l l' -> disjoint l -> disjoint l'.
Proof.
  intros P H m1 a m2 ->. assert (I : In a l) by (eapply Permutation_in; [symmetry; exact P|apply in_or_app; right; left; reflexivity]).
  apply in_split in I. destruct I as (l1 & l2 & ->). rewrite <- (Permutation_app_inv _ _ _ _ _ P). apply H. reflexivity.
Qed.
Lemma disjoint_group {A} wc (l : list (shard * A)) : disjoint (map fst l) -> disjoint (map fst (group wc l)).
Proof.
  intros H l1 a l2 E. apply map_eq_app in E. destruct E as (k1 & k2 & E & <- & E2). destruct k2 as [|x k2]; [discriminate|]. injection E2 as <- <-. unfold group in E.
  assert (S : exists m1 m2, l = m1 ++ x :: m2 /\ k1 = group wc m1 /\ k2 = group wc m2).
  { clear H. revert k1 E. induction l as [|y l IH]; intros k1 E; [destruct k1; discriminate|]. cbn [List.filter] in E. destruct (sh_wc (fst y) =? wc)%Z eqn:Y.
    - destruct k1 as [|z k1]; injection E as <- E; [exists [], l; auto|]. destruct (IH _ E) as (m1 & m2 & -> & -> & ->). exists (y :: m1), m2. split; [reflexivity|]. split; [|reflexivity]. unfold group at 2. cbn [List.filter]. rewrite Y. reflexivity.
    - destruct (IH _ E) as (m1 & m2 & -> & -> & ->). exists (y :: m1), m2. split; [reflexivity|]. split; [|reflexivity]. unfold group at 2. cbn [List.filter]. rewrite Y. reflexivity. }
  destruct S as (m1 & m2 & -> & -> & ->). specialize (H (map fst m1) (fst x) (map fst m2)). rewrite map_app in H. specialize (H eq_refl). rewrite List.Forall_forall in *. intros b Hb. apply H. rewrite in_app_iff in *. unfold group in Hb.
  destruct Hb as [Hb|Hb]; apply in_map_iff in Hb; destruct Hb as (y & <- & Hy); apply filter_In in Hy; [left|right]; apply in_map, Hy.
Qed.
(** Shards as paths. *)
Lemma group_paths {A} wc (g : list (shard * A)) : Forall (fun p => valid_shard (fst p) /\ sh_wc (fst p) = wc) g -> exists ps, g = map (at_path wc) ps /\ Forall (fun p => is_path (fst p)) ps.
Proof.
  induction 1 as [|[[w x] a] g [(path & P & E & _) W] F (ps & -> & Fp)]; [exists []; split; constructor|]. cbn [fst sh_wc sh_prefix] in *. subst w x. exists ((path, a) :: ps). split; [reflexivity|constructor; assumption].
Qed.
Lemma paths_sorted {A} wc (ps : list (list bool * A)) : StronglySorted (fun a b => ~ shard_lt (fst b) (fst a)) (map (at_path wc) ps) -> StronglySorted (fun a b => path_prefix (fst a) <= path_prefix (fst b)) ps.
Proof.
  induction ps as [|p ps IH]; cbn [map]; intros S; [constructor|]. inversion_clear S as [|? ? S1 S2]. constructor; [apply IH, S1|]. apply (proj1 (List.Forall_map _ _ _)) in S2. eapply List.Forall_impl; [|exact S2]. intros q Hq. cbn beta in Hq. unfold shard_lt in Hq. cbn [at_path shard_at fst sh_wc sh_prefix] in Hq.
  destruct (N.le_gt_cases (path_prefix (fst p)) (path_prefix (fst q))); [assumption|]. exfalso. apply Hq. right. auto.
Qed.
Lemma group_in {A} wc (l : list (shard * A)) p : In p (group wc l) <-> In p l /\ sh_wc (fst p) = wc.
Proof. unfold group. rewrite filter_In, Z.eqb_eq. reflexivity. Qed.
Lemma groups_perm {A} (l : list (shard * A)) : forall order, List.NoDup order -> (forall p, In p l -> In (sh_wc (fst p)) order) -> Permutation l (flat_map (fun wc => group wc l) order).
Proof.
  intros order. revert l. induction order as [|w order IH]; intros l N H; cbn [flat_map]; [destruct l as [|p l]; [constructor|destruct (H p (or_introl eq_refl))]|]. inversion_clear N as [|? ? N1 N2].
  set (l' := List.filter (fun p => negb (sh_wc (fst p) =? w)%Z) l). assert (P : Permutation l (group w l ++ l')).
  { clear. unfold group, l'. induction l as [|p l IH]; [constructor|]. cbn [List.filter]. destruct (sh_wc (fst p) =? w)%Z; cbn [negb]; [apply perm_skip, IH|]. rewrite IH at 1. apply Permutation_middle. }
  rewrite P at 1. apply Permutation_app_head. rewrite (IH l' N2).
  - assert (E : flat_map (fun wc => group wc l') order = flat_map (fun wc => group wc l) order); [|rewrite E; reflexivity].
    rewrite !flat_map_concat_map. f_equal. apply map_ext_in. intros wc Hwc. unfold group, l'. clear - N1 Hwc. induction l as [|p l IH]; [reflexivity|]. cbn [List.filter]. destruct (sh_wc (fst p) =? w)%Z eqn:E; cbn [negb List.filter].
    + apply Z.eqb_eq in E. destruct (Z.eqb_spec (sh_wc (fst p)) wc) as [F|F]; [exfalso; apply N1; congruence|exact IH].
    + destruct (sh_wc (fst p) =? wc)%Z; [f_equal; exact IH|exact IH].
  - intros p Hp. unfold l' in Hp. apply filter_In in Hp. destruct Hp as [Hp Hn]. specialize (H p Hp). destruct H as [H|H]; [rewrite <- H, Z.eqb_refl in Hn; discriminate|exact H].
Qed.

Section Fin.
Context (fin : list bool -> list cell -> res unit) (sort : list (shard * sdescr) -> list (shard * sdescr)) (Hsort : sorts sort).
Context (l : list (shard * sdescr)) (Hvalid : Forall (fun p => valid_shard (fst p)) l) (Hdescr : Forall (fun p => w_ok (sdescr_w fin) (snd p)) l).
(** The tree of the shards of a workchain. *)
Definition tree_for (wc : Z) (t : tree sdescr) (c : cell) : Prop := (height t <= 60)%nat /\ sort (group wc l) = map (at_path wc) (leaves [] t) /\ built fin t c.
Lemma sorted_group wc : exists ps, sort (group wc l) = map (at_path wc) ps /\ Forall (fun p => is_path (fst p)) ps /\ StronglySorted (fun a b => path_prefix (fst a) <= path_prefix (fst b)) ps /\ Forall (fun p => w_ok (sdescr_w fin) (snd p)) ps.
Proof.
  destruct (Hsort (group wc l)) as [P S].
  assert (V : Forall (fun p => valid_shard (fst p) /\ sh_wc (fst p) = wc) (sort (group wc l))).
  { rewrite <- P. rewrite List.Forall_forall in *. intros p Hp. apply group_in in Hp. split; [apply Hvalid, Hp|apply Hp]. }
  assert (D : Forall (fun p => w_ok (sdescr_w fin) (snd p)) (sort (group wc l))).
  { rewrite <- P. rewrite List.Forall_forall in *. intros p Hp. apply group_in in Hp. apply Hdescr, Hp. }
  destruct (group_paths wc _ V) as (ps & E & F). exists ps. rewrite E in S, D. split; [exact E|]. split; [exact F|]. split; [apply (paths_sorted wc), S|]. apply (proj1 (List.Forall_map _ _ _)) in D. exact D.
Qed.
Lemma complete_group wc : (forall b r, (length b <= 1023)%nat -> (length r <= 4)%nat -> fin b r = Ok tt) -> partition (map fst (group wc l)) -> exists t c, tree_for wc t c /\ try_build fin (sort (group wc l)) = Ok c.
Proof.
  intros Hfin H. destruct (sorted_group wc) as (ps & E & F & S & D). destruct (Hsort (group wc l)) as [P _].
  apply (partition_perm _ _ (Permutation_map fst P)) in H. rewrite E in H. apply (partition_part wc ps F) in H.
  destruct (part_tree 60 256 ps ltac:(lia) ltac:(lia) F H S) as (t & Ht & ->). destruct (built_ok fin t Hfin D) as (c & B). exists t, c. split; [split; [exact Ht|split; [exact E|exact B]]|]. rewrite E. exact (try_build_ok fin wc t c B Ht).
Qed.
Lemma disjoint_tree wc c : disjoint (map fst (group wc l)) -> try_build fin (sort (group wc l)) = Ok c -> exists t, tree_for wc t c.
Proof.
  intros H E. destruct (sorted_group wc) as (ps & Eq & F & S & D). destruct (Hsort (group wc l)) as [P _]. apply (disjoint_perm _ _ (Permutation_map fst P)) in H. rewrite Eq in H, E.
  destruct (try_build_disjoint fin wc ps c F H E) as (t & Ht & -> & B). exists t. split; [exact Ht|]. split; assumption.
Qed.
Lemma tree_partition wc t c : tree_for wc t c -> partition (map fst (group wc l)).
Proof.
  intros (Ht & E & _). destruct (Hsort (group wc l)) as [P _]. apply (partition_perm (map fst (sort (group wc l)))); [apply Permutation_map; symmetry; exact P|]. rewrite E. exact (shards_partition wc t Ht).
Qed.
(** What there is in the cells of a tree. *)
Lemma tree_for_items wc t c : tree_for wc t c -> exists vs, tree_items wc c = map Ok vs /\ Forall2 (fun a b => fst a = fst b /\ w_write (sdescr_w fin) (snd a) (snd b)) (sort (group wc l)) vs.
Proof.
  intros (Ht & E & B). destruct (sorted_group wc) as (ps & Eq & F & S & D).
  assert (D' : Forall (fun p => w_ok (sdescr_w fin) (snd p)) (leaves [] t)).
  { rewrite Eq in E. assert (D2 : Forall (fun p => w_ok (sdescr_w fin) (snd p)) (map (at_path wc) ps)) by (apply List.Forall_map; exact D). rewrite E in D2. apply (proj1 (List.Forall_map _ _ _)) in D2. exact D2. }
  destruct (built_tree fin t c B D') as (t' & Bt & Q). exists (shards_of wc t'). split; [apply tree_items_tree; [exact Bt|pose proof (same_height fin t t' Q); lia]|].
  rewrite E. unfold shards_of. specialize (Q []). unfold same_leaves in Q. clear - Q. induction Q as [|a b la lb [E1 W] Q IH]; [constructor|]. cbn [map]. constructor; [|exact IH]. cbn [at_path fst snd]. rewrite E1. split; [reflexivity|exact W].
Qed.

(** ** The dictionary *)
Definition wc_entry (g : Z * cell) : entry := (wc_key (fst g), ([], [snd g])).
Definition i32 (wc : Z) : Prop := (- 2 ^ 31 <= wc < 2 ^ 31)%Z.
Lemma wc_key_len wc : length (wc_key wc) = 32%nat.
Proof. apply length_nbits. Qed.
Lemma wc_key_val wc : bval (wc_key wc) = as_unsigned 32 wc.
Proof. unfold wc_key. apply bval_nbits_small. apply as_unsigned_lt. Qed.
Lemma wc_key_back wc : i32 wc -> as_signed 32 (bval (wc_key wc)) = wc.
Proof. intros H. rewrite wc_key_val. apply as_signed_unsigned; [reflexivity|]. exact H. Qed.
Lemma wc_key_inj a b : i32 a -> i32 b -> wc_key a = wc_key b -> a = b.
Proof. intros Ha Hb E. rewrite <- (wc_key_back a Ha), <- (wc_key_back b Hb), E. reflexivity. Qed.
Lemma from_groups_inv : forall order d d', from_groups fin sort order l d = Ok d' ->
  exists gs, map fst gs = order /\ Forall (fun g => try_build fin (sort (group (fst g) l)) = Ok (snd g)) gs /\ insert_all fin 32 MSet (map wc_entry gs) d = Ok d'.
Proof.
  induction order as [|wc order IH]; intros d d' H; cbn [from_groups] in H; [injection H as <-; exists []; repeat split; constructor|].
  change (List.filter (fun p => (sh_wc (fst p) =? wc)%Z) l) with (group wc l) in H. destruct (try_build fin (sort (group wc l))) as [c|] eqn:E; [|discriminate]. cbn [rbind] in H.
  destruct (dict_insert fin d (wc_key wc) 32 ([], [c]) MSet) as [[f d1]|] eqn:D; [|discriminate]. cbn [rbind] in H. destruct (IH _ _ H) as (gs & <- & F & I). exists ((wc, c) :: gs). split; [reflexivity|]. split; [constructor; [exact E|exact F]|].
  cbn [map insert_all wc_entry fst snd]. rewrite D. exact I.
Qed.
Lemma from_groups_ok (Hfin : forall b r, (length b <= 1023)%nat -> (length r <= 4)%nat -> fin b r = Ok tt) : forall order d m, Forall (fun wc => exists c, try_build fin (sort (group wc l)) = Ok c) order ->
  history fin 32 d m -> (forall k v, m !! k = Some v -> DictProps.fits 32 v) -> exists d', from_groups fin sort order l d = Ok d'.
Proof.
  induction order as [|wc order IH]; intros d m F H Hm; cbn [from_groups]; [eauto|]. inversion_clear F as [|? ? (c & E) F2].
  change (List.filter (fun p => (sh_wc (fst p) =? wc)%Z) l) with (group wc l). rewrite E. cbn [rbind].
  assert (Fv : DictProps.fits 32 ([], [c])) by (split; cbn; lia).
  destruct (proj1 (C20_updates_succeed fin 32 d m (wc_key wc) ([], [c]) MSet Hfin ltac:(lia) H Hm (wc_key_len wc) Fv)) as (d1 & D). rewrite D. cbn [rbind].
  apply (IH d1 (set_map MSet (wc_key wc) ([], [c]) m) F2).
  - eapply h_set; eassumption.
  - intros k w Hk. unfold set_map in Hk. cbn [stores] in Hk. destruct (decide (wc_key wc = k)) as [<-|N]; [rewrite lookup_insert in Hk; injection Hk as <-; exact Fv|rewrite lookup_insert_ne in Hk by exact N; eapply Hm; exact Hk].
Qed.
Lemma entries_nodup gs : List.NoDup (map fst gs) -> Forall (fun g => i32 (fst g)) gs -> NoDup (map fst (map wc_entry gs)).
Proof.
  intros N F. apply NoDup_ListNoDup. rewrite map_map. cbn [wc_entry fst]. induction gs as [|g gs IH]; [constructor|]. cbn [map] in *. inversion_clear N as [|? ? N1 N2]. inversion_clear F as [|? ? F1 F2]. constructor; [|apply IH; assumption].
  intros I. apply in_map_iff in I. destruct I as (g' & E & I). rewrite List.Forall_forall in F2. apply wc_key_inj in E; [|apply F2, I|exact F1]. apply N1. rewrite <- E. apply in_map, I.
Qed.
Lemma key_unsigned k : key_num false k = Z.of_N (bval k).
Proof. destruct k as [|b k]; [reflexivity|]. cbn [key_num]. rewrite bval_cons. destruct b; cbn [N.b2n]; rewrite N2Z.inj_add, N2Z.inj_mul, N2Z.inj_pow, nat_N_Z; lia. Qed.
(** Lookups and iterators of the dictionary of trees. *)
Lemma dict_of_groups gs d : List.NoDup (map fst gs) -> Forall (fun g => i32 (fst g)) gs -> insert_all fin 32 MSet (map wc_entry gs) None = Ok d ->
  (forall wc, i32 wc -> match get_workchain d wc with Ok o => (exists c, o = Some c /\ In (wc, c) gs) \/ (o = None /\ ~ In wc (map fst gs)) | Err _ => False end) /\
  exists gs', Permutation gs gs' /\ StronglySorted (fun a b => as_unsigned 32 (fst a) < as_unsigned 32 (fst b)) gs' /\ hashes_state d (hashes_new d) (flat_map (fun g => tree_items (fst g) (snd g)) gs').
Proof.
  intros N F E. pose proof (entries_nodup gs N F) as ND.
  pose proof (insert_all_history fin 32 MSet (map wc_entry gs) None ∅ d (h_empty fin 32) E) as H. rewrite (fold_set _ ND), (right_id_L ∅ (∪)) in H. split.
  - intros wc Hwc. unfold get_workchain. rewrite (proj1 (C20_lookup fin 32 d _ (wc_key wc) ltac:(lia) H (wc_key_len wc))). cbn [rbind]. destruct (dmap (map wc_entry gs) !! wc_key wc) as [v|] eqn:L.
    + unfold dmap in L. apply elem_of_list_to_map_2 in L. apply elem_of_list_In, in_map_iff in L. destruct L as ([w c] & Q & I). unfold wc_entry in Q. cbn [fst snd] in Q. assert (Ek : wc_key w = wc_key wc) by exact (f_equal fst Q). apply (f_equal snd) in Q. cbn [snd] in Q. subst v. cbn [load_ref snd fst rbind]. left. exists c. split; [reflexivity|].
      apply wc_key_inj in Ek; [subst w; exact I| |exact Hwc]. rewrite List.Forall_forall in F. exact (F _ I).
    + right. split; [reflexivity|]. intros I. apply in_map_iff in I. destruct I as ([w c] & Ew & I). cbn in Ew. subst w. unfold dmap in L. apply not_elem_of_list_to_map in L. apply L. apply elem_of_list_In, in_map_iff. exists (wc_entry (wc, c)). split; [reflexivity|apply in_map, I].
  - destruct (history_dict fin 32 d _ ltac:(lia) H) as (es' & D & M).
    assert (D' : is_dict any_dict 32 d es').
    { destruct d as [c|]; cbn [is_dict] in *; [|exact D]. eapply hashmap_any; [|exact D]. intros n' bits l' rest (e & -> & X & _). exists e. auto. }
    assert (P' : Permutation es' (map wc_entry gs)) by (apply list_to_map_inj; [eapply dict_nodup; exact D|exact ND|exact M]).
    destruct (iter_new_inv any_dict false false 32 ltac:(lia) d es' D') as (o & Po & So & _). pose proof (make_ordered _ _ _ _ _ _ _ D' Po So) as O.
    pose proof (hashes_new_state d es' o D' O) as Q. destruct O as (_ & _ & S). assert (Pm : Permutation (map wc_entry gs) o) by (rewrite Po, P'; reflexivity).
    apply Permutation_sym, Permutation_map_inv in Pm. destruct Pm as (gs' & -> & Pg). exists gs'. split; [exact Pg|]. rewrite Pg in F. clear - S Q F. split.
    + clear Q F. induction gs' as [|g gs IH]; [constructor|]. cbn [map] in S. inversion_clear S as [|? ? S1 S2]. constructor; [apply IH, S1|]. apply (proj1 (List.Forall_map _ _ _)) in S2. eapply List.Forall_impl; [|exact S2]. intros g' Hg. cbn [wc_entry fst] in Hg. unfold before in Hg. rewrite !key_unsigned, !wc_key_val in Hg. lia.
    + replace (flat_map _ gs') with (all_items (map wc_entry gs')); [exact Q|]. clear - F. induction F as [|[wc c] gs W F IH]; [reflexivity|]. change (all_items (map wc_entry ((wc, c) :: gs))) with (tree_items (as_signed 32 (bval (wc_key wc))) c ++ all_items (map wc_entry gs)). rewrite (wc_key_back wc W), IH. reflexivity.
Qed.
End Fin.
