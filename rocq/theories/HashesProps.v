(** * C62: the shards of all workchains *)
From Coq Require Import Sorting.Sorted.
From Verif Require Import Err BitsProofs IntModel IntProofs NumModel CurrencyModel CellModel DictModel DictSpec DictProps IterModel IterProofs IterProps BuildProps ChunkModel ChunkSpec ChunkProofs DeriveModel DeriveSpec StructsModel StructsSpec
  StructsProofs DeriveProps CasesSpec TxModel ParamsSpec ShardModel ShardSpec ShardProofs ShardProps HashesModel HashesSpec HashesProofs HashesProofs2 HashesProofs3 HashesProofs4 HashesProofs5.
Local Open Scope N_scope.

(** ** Iterators *)
(** C62: iterating over the tree of a workchain gives the leaves with the shards at them, from
    left to right, and then ends. *)
Theorem C62_tree wc c t : bintree c t -> (height t <= 60)%nat ->
  forall i, map (option_map raw_view) (calls tree_next i (tree_new wc c)) = gives i (map Ok (shards_of wc t)).
Proof. intros B H i. rewrite <- (tree_items_tree wc c t B H). exact (tree_calls wc i _ _ (tree_new_state wc c)). Qed.
Print Assumptions C62_tree.
(** C62: the shards of a tree have every account in exactly one of them, and they are sorted. *)
Theorem C62_shards {A} wc (t : tree A) : (height t <= 60)%nat -> partition (map fst (shards_of wc t)) /\ StronglySorted (fun a b => shard_lt (fst a) (fst b)) (shards_of wc t).
Proof.
  intros H. split; [exact (shards_partition wc t H)|]. unfold shards_of. pose proof (leaves_sorted t H) as S. induction S as [|a l S IH Q]; cbn [map]; constructor; [exact IH|]. apply List.Forall_map. eapply List.Forall_impl; [|exact Q]. intros b Hb. right. split; [reflexivity|exact Hb].
Qed.
Print Assumptions C62_shards.
(** C62: whatever the cell is, the iterator gives the leaves up to the first cell that is not part
    of a tree of at most 60 levels, and then an error; it is never stuck and never fails otherwise. *)
Theorem C62_any_tree wc c : forall i, map (option_map raw_view) (calls tree_next i (tree_new wc c)) = gives i (tree_items wc c).
Proof. intros i. exact (tree_calls wc i _ _ (tree_new_state wc c)). Qed.
Print Assumptions C62_any_tree.
(** C62: without errors there was a tree, except for an ordinary cell without bits. *)
Theorem C62_no_error wc c l : tree_items wc c = map Ok l -> (c_exotic c = false /\ c_bits c = [] /\ l = []) \/ exists t, bintree c t /\ (height t <= 60)%nat /\ l = shards_of wc t.
Proof.
  intros H. assert (W : (c_exotic c = false /\ c_bits c = []) \/ tree_items wc c = (let '(l, e) := walk 60 [] c in map (fun p => Ok (shard_at wc (fst p), snd p)) l ++ match e with Some e => [Err e] | None => [] end)).
  { destruct c as [[|] [|b bits] refs]; auto. }
  destruct W as [[E1 E2]|W]; [left; destruct c as [ex bits refs]; cbn in E1, E2; subst; destruct l; [auto|discriminate]|]. right. rewrite W in H. destruct (walk 60 [] c) as [ps [e|]] eqn:E.
  - exfalso. assert (I : In (Err e) (map Ok l)) by (rewrite <- H; apply in_or_app; right; left; reflexivity). apply in_map_iff in I. destruct I as (x & Q & _). discriminate.
  - destruct (walk_complete 60 [] c ps E) as (t & B & Ht & ->). exists t. split; [exact B|]. split; [exact Ht|]. rewrite app_nil_r in H. unfold shards_of. clear - H. revert l H. induction (leaves [] t) as [|p ps IH]; intros [|x l] H; try discriminate; [reflexivity|]. cbn [map] in *. injection H as <- H. f_equal. apply IH, H.
Qed.
Print Assumptions C62_no_error.
(** C62: the iterator over all workchains gives the items of all trees, in the order of the keys
    of the dictionary. *)
Theorem C62_all_workchains d es order : is_dict any_dict 32 d es -> ordered false false es order ->
  forall i, map (option_map raw_view) (calls hashes_next i (hashes_new d)) = gives i (all_items order).
Proof. intros D O i. exact (hashes_calls d i _ _ (hashes_new_state d es order D O)). Qed.
Print Assumptions C62_all_workchains.
(** C62: the iterators over descriptions, identifiers of blocks, shards and values give what the raw
    ones give, parsed, and end with the first item that is not understood. *)
Definition chunk_entry (s : shard) (x : chunk) : res (shard * sdescr) := let? (d, _) := load_sdescr x in Ok (s, d).
Definition chunk_block (s : shard) (x : chunk) : res block_id := block_of s (Sl (Cell false [] []) (fst x) (snd x)).
Lemma tree_broken_next it : tree_next (tree_broken it) = (None, tree_broken it).
Proof. reflexivity. Qed.
Lemma hashes_broken_next it : hashes_next (hashes_broken it) = (None, hashes_broken it).
Proof. reflexivity. Qed.
Theorem C62_parsed d es order wc c i : is_dict any_dict 32 d es -> ordered false false es order ->
  calls entries_next i (hashes_new d) = gives i (parse_items chunk_entry (all_items order)) /\
  calls blocks_next i (hashes_new d) = gives i (parse_items chunk_block (all_items order)) /\
  calls tree_entries_next i (tree_new wc c) = gives i (parse_items chunk_entry (tree_items wc c)) /\
  calls tree_blocks_next i (tree_new wc c) = gives i (parse_items chunk_block (tree_items wc c)) /\
  calls tree_keys_next i (tree_new wc c) = gives i (parse_items (fun s _ => Ok s) (tree_items wc c)).
Proof.
  intros D O. pose proof (C62_all_workchains d es order D O) as A. pose proof (C62_any_tree wc c) as T.
  split; [|split; [|split; [|split]]]; (apply calls_parsed; [first [exact hashes_broken_next|exact tree_broken_next]| |assumption]); reflexivity.
Qed.
Print Assumptions C62_parsed.
(** C62: the identifier of the latest block is that of the description. *)
Theorem C62_latest_block s v d r : load_sdescr (s_chunk v) = Ok (d, r) -> block_of s v = Ok (as_block_id d s).
Proof. apply (block_of_read (fun _ _ => Ok tt)). Qed.
Print Assumptions C62_latest_block.

(** ** Descriptions *)
(** C62: descriptions and announced splits and merges have the layouts of their schemes. *)
Theorem C62_layouts fin : lawful future_k future_w /\ lawful (sdescr_k fin) (sdescr_w fin).
Proof. split; [exact lawful_future|exact (lawful_sdescr fin)]. Qed.
Print Assumptions C62_layouts.

(** ** Building *)
(** C62: a list of shards is accepted if every account of every workchain in it belongs to exactly
    one of them, in whatever order they are given and visited. *)
Theorem C62_accepted fin sort order l : (forall b r, (length b <= 1023)%nat -> (length r <= 4)%nat -> fin b r = Ok tt) -> sorts sort -> workchains l order ->
  Forall (fun p => valid_shard (fst p) /\ w_ok (sdescr_w fin) (snd p)) l -> (forall wc, In wc order -> partition (map fst (group wc l))) ->
  exists d, from_shards fin sort order l = Ok d.
Proof.
  intros Hfin Hs [_ W] V P. assert (V1 : Forall (fun p => valid_shard (fst p)) l) by (eapply List.Forall_impl; [|exact V]; cbn beta; tauto). assert (V2 : Forall (fun p => w_ok (sdescr_w fin) (snd p)) l) by (eapply List.Forall_impl; [|exact V]; cbn beta; tauto).
  unfold from_shards. apply (from_groups_ok fin sort l Hfin order None ∅); [|constructor|intros k v Hk; rewrite lookup_empty in Hk; discriminate].
  apply List.Forall_forall. intros wc Hwc. destruct (complete_group fin sort Hs l V1 V2 wc Hfin (P wc Hwc)) as (t & c & _ & E). eauto.
Qed.
Print Assumptions C62_accepted.
(** Such shards do not overlap. *)
Theorem C62_partition_disjoint wc (ps : list (list bool * sdescr)) : Forall (fun p => is_path (fst p)) ps -> partition (map fst (map (at_path wc) ps)) -> disjoint (map fst (map (at_path wc) ps)).
Proof.
  intros F P. apply (partition_part wc ps F) in P. intros l1 a l2 E. rewrite map_map in E. cbn [at_path fst] in E. apply map_eq_app in E. destruct E as (k1 & k2 & -> & <- & E). destruct k2 as [|p k2]; [discriminate|]. cbn [map] in E. injection E as <- <-.
  rewrite <- map_app. apply List.Forall_map, List.Forall_forall. intros q Hq. destruct (intersects _ _) eqn:X; [|reflexivity]. exfalso. apply Forall_app in F. destruct F as [F1 F2]. inversion_clear F2 as [|? ? Fp F3].
  assert (Fq : is_path (fst q)) by (rewrite List.Forall_forall in F1, F3; apply in_app_or in Hq; destruct Hq as [I|I]; [apply F1, I|apply F3, I]). apply intersects_ok in X; [|exact Fp|exact Fq]. destruct X as [_ X]. unfold is_path in Fp, Fq.
  assert (Z : exists x, length x = 256%nat /\ pre (fst p) x = true /\ pre (fst q) x = true).
  { destruct X as [X|X]; [destruct (extend (fst q) 256 ltac:(lia)) as (x & Lx & Px)|destruct (extend (fst p) 256 ltac:(lia)) as (x & Lx & Px)]; exists x; (split; [exact Lx|]); [split; [|exact Px]|split; [exact Px|]]; apply pre_ok; apply pre_ok in Px; etransitivity; eassumption. }
  destruct Z as (x & Lx & P1 & P2). specialize (P x Lx). apply in_split in Hq. destruct Hq as (m1 & m2 & Em). assert (C : count x (k1 ++ k2) = 0%nat).
  { rewrite count_app. rewrite count_app in P. unfold count in *. cbn [List.filter] in P. rewrite P1 in P. cbn [length] in P. lia. }
  rewrite Em, count_app in C. unfold count in C. cbn [List.filter] in C. rewrite P2 in C. cbn [length] in C. lia.
Qed.
Print Assumptions C62_partition_disjoint.
Lemma flat_items fin (sort : list (shard * sdescr) -> list (shard * sdescr)) (l : list (shard * sdescr)) gs : Forall (fun g => exists vs, tree_items (fst g) (snd g) = map Ok vs /\ Forall2 (fun a b => fst a = fst b /\ w_write (sdescr_w fin) (snd a) (snd b)) (sort (group (fst g) l)) vs) gs ->
  exists vs, flat_map (fun g => tree_items (fst g) (snd g)) gs = map Ok vs /\ Forall2 (fun a b => fst a = fst b /\ w_write (sdescr_w fin) (snd a) (snd b)) (flat_map (fun g => sort (group (fst g) l)) gs) vs.
Proof.
  induction 1 as [|g gs (vs & E & F) _ (us & E2 & F2)]; [exists []; split; constructor|]. exists (vs ++ us). cbn [flat_map]. rewrite E, E2, map_app. split; [reflexivity|]. apply Forall2_app; assumption.
Qed.
Lemma parse_written fin es vs : Forall2 (fun a b => fst a = fst b /\ w_write (sdescr_w fin) (snd a) (snd b)) es vs ->
  parse_items chunk_entry (map Ok vs) = map Ok es /\ parse_items chunk_block (map Ok vs) = map (fun p => Ok (as_block_id (snd p) (fst p))) es /\ parse_items (fun s _ => Ok s) (map (@Ok (shard * chunk)) vs) = map (fun p => Ok (fst p)) es.
Proof.
  induction 1 as [|[s d] [s' x] es vs [E W] F (I1 & I2 & I3)]; [auto|]. cbn [fst snd] in *. subst s'. assert (L : load_sdescr x = Ok (d, ([], []))).
  { rewrite <- (capp_nil x). exact (reads_back _ _ d x ([], []) (law_load _ _ (lawful_sdescr fin)) (law_same _ _ (lawful_sdescr fin) d x W)). }
  cbn [map parse_items]. rewrite I1, I2, I3. unfold chunk_entry at 1. rewrite L. cbn [rbind]. unfold chunk_block at 1. rewrite (C62_latest_block s (Sl (Cell false [] []) (fst x) (snd x)) d ([], [])); [auto|]. destruct x. exact L.
Qed.
Lemma groups_sorted (sort : list (shard * sdescr) -> list (shard * sdescr)) (l : list (shard * sdescr)) gs : sorts sort ->
  Forall (fun g : Z * cell => exists t : tree sdescr, (height t <= 60)%nat /\ sort (group (fst g) l) = map (at_path (fst g)) (leaves [] t)) gs -> StronglySorted (fun a b => as_unsigned 32 (fst a) < as_unsigned 32 (fst b)) gs ->
  StronglySorted (fun a b => visited_before (fst a) (fst b)) (flat_map (fun g => sort (group (fst g) l)) gs).
Proof.
  intros Hs F S. assert (In_wc : forall g p, In p (sort (group g l)) -> sh_wc (fst p) = g).
  { intros g p I. eapply Permutation_in in I; [|symmetry; apply Hs]. apply group_in in I. tauto. }
  assert (App : forall (l1 l2 : list (shard * sdescr)), StronglySorted (fun a b => visited_before (fst a) (fst b)) l1 -> StronglySorted (fun a b => visited_before (fst a) (fst b)) l2 -> (forall a b, In a l1 -> In b l2 -> visited_before (fst a) (fst b)) ->
    StronglySorted (fun a b => visited_before (fst a) (fst b)) (l1 ++ l2)).
  { clear. intros l1 l2 S1 S2 H. induction S1 as [|a l1 S1 IH Q]; [exact S2|]. cbn [app]. constructor; [apply IH; intros; apply H; [right|]; assumption|]. apply Forall_app. split; [exact Q|]. apply List.Forall_forall. intros b Hb. apply H; [left; reflexivity|exact Hb]. }
  induction S as [|g gs S IH Q]; [constructor|]. inversion_clear F as [|? ? (t & Ht & E) F2]. cbn [flat_map]. apply App; [|apply IH, F2|].
  - rewrite E. pose proof (leaves_sorted t Ht) as L. clear - L. induction L as [|a l L IH Q]; cbn [map]; constructor; [exact IH|]. apply List.Forall_map. eapply List.Forall_impl; [|exact Q]. intros b Hb. right. split; [reflexivity|exact Hb].
  - intros a b Ia Ib. apply in_flat_map in Ib. destruct Ib as (g' & Ig & Ib). left. rewrite (In_wc _ _ Ia), (In_wc _ _ Ib). rewrite List.Forall_forall in Q. apply Q, Ig.
Qed.
(** C62: what is built from shards that do not overlap: every account belonged to exactly one of
    them, all iterators give them back with their descriptions, sorted, and the trees of the single
    workchains can be looked up. *)
Theorem C62_built fin sort order l d : sorts sort -> workchains l order -> Forall (fun p => valid_shard (fst p) /\ w_ok (sdescr_w fin) (snd p)) l -> disjoint (map fst l) ->
  from_shards fin sort order l = Ok d ->
  (forall wc, In wc order -> partition (map fst (group wc l))) /\
  (exists es, Permutation l es /\ StronglySorted (fun a b => visited_before (fst a) (fst b)) es /\
    forall i, calls entries_next i (hashes_new d) = gives i (map Ok es) /\ calls blocks_next i (hashes_new d) = gives i (map (fun p => Ok (as_block_id (snd p) (fst p))) es)) /\
  (forall wc, (- 2 ^ 31 <= wc < 2 ^ 31)%Z ->
    match get_workchain d wc with
    | Ok None => group wc l = []
    | Ok (Some c) => forall i, calls tree_entries_next i (tree_new wc c) = gives i (map Ok (sort (group wc l))) /\
        calls tree_blocks_next i (tree_new wc c) = gives i (map (fun p => Ok (as_block_id (snd p) (fst p))) (sort (group wc l))) /\
        calls tree_keys_next i (tree_new wc c) = gives i (map (fun p => Ok (fst p)) (sort (group wc l)))
    | Err _ => False
    end).
Proof.
  intros Hs [ND W] V Dj E. assert (V1 : Forall (fun p => valid_shard (fst p)) l) by (eapply List.Forall_impl; [|exact V]; cbn beta; tauto). assert (V2 : Forall (fun p => w_ok (sdescr_w fin) (snd p)) l) by (eapply List.Forall_impl; [|exact V]; cbn beta; tauto).
  destruct (from_groups_inv fin sort l order None d E) as (gs & Eo & Fg & Ei).
  assert (T : Forall (fun g => exists t, tree_for fin sort l (fst g) t (snd g)) gs).
  { eapply List.Forall_impl; [|exact Fg]. intros [wc c] B. cbn [fst snd] in *. exact (disjoint_tree fin sort Hs l V1 V2 wc c (disjoint_group wc l Dj) B). }
  assert (R : Forall (fun g => i32 (fst g)) gs).
  { apply List.Forall_forall. intros g Ig. assert (I : In (fst g) order) by (rewrite <- Eo; apply in_map, Ig). apply W in I. destruct I as (p & Ip & Ew). rewrite List.Forall_forall in V1. destruct (V1 p Ip) as (path & _ & _ & Rng & _). unfold i32. rewrite <- Ew. exact Rng. }
  assert (IT : Forall (fun g => exists vs, tree_items (fst g) (snd g) = map Ok vs /\ Forall2 (fun a b => fst a = fst b /\ w_write (sdescr_w fin) (snd a) (snd b)) (sort (group (fst g) l)) vs) gs).
  { eapply List.Forall_impl; [|exact T]. intros g (t & Tt). exact (tree_for_items fin sort Hs l V1 V2 _ _ _ Tt). }
  assert (NDg : List.NoDup (map fst gs)) by (rewrite Eo; exact ND).
  destruct (dict_of_groups fin gs d NDg R Ei) as (Get & gs' & Pg & Sg & St). split; [|split].
  - intros wc Hwc. rewrite <- Eo in Hwc. apply in_map_iff in Hwc. destruct Hwc as (g & <- & Ig). rewrite List.Forall_forall in T. destruct (T g Ig) as (t & Tt). exact (tree_partition fin sort Hs l _ _ _ Tt).
  - exists (flat_map (fun g => sort (group (fst g) l)) gs'). split; [|split].
    + assert (P1 : Permutation l (flat_map (fun wc => group wc l) order)) by (apply groups_perm; [exact ND|intros p Hp; apply W; eauto]). rewrite P1 at 1. rewrite <- Eo. clear - Pg Hs.
      assert (Q : forall gs : list (Z * cell), Permutation (flat_map (fun wc => group wc l) (map fst gs)) (flat_map (fun g => sort (group (fst g) l)) gs)).
      { induction gs0 as [|g gs0 IH]; [constructor|]. cbn [map flat_map]. apply Permutation_app; [apply Hs|exact IH]. }
      rewrite Q. apply Permutation_flat_map, Pg.
    + apply groups_sorted; [exact Hs| |exact Sg]. rewrite Pg in T. eapply List.Forall_impl; [|exact T]. intros g (t & Ht & Et & _). eauto.
    + rewrite Pg in IT. destruct (flat_items fin sort l gs' IT) as (vs & Ev & Fv). rewrite Ev in St. destruct (parse_written fin _ _ Fv) as (Q1 & Q2 & _). pose proof (fun i => hashes_calls d i _ _ St) as A. intros i. rewrite <- Q1, <- Q2.
      split; (apply calls_parsed; [exact hashes_broken_next|reflexivity|exact A]).
  - intros wc Hwc. specialize (Get wc Hwc). destruct (get_workchain d wc) as [[c|]|]; [| |exact Get].
    + destruct Get as [(c' & [= <-] & I)|[Q _]]; [|discriminate]. rewrite List.Forall_forall in IT. destruct (IT _ I) as (vs & Ev & Fv). cbn [fst snd] in Ev, Fv. destruct (parse_written fin _ _ Fv) as (Q1 & Q2 & Q3). pose proof (C62_any_tree wc c) as A. rewrite Ev in A. intros i. rewrite <- Q1, <- Q2, <- Q3.
      split; [|split]; (apply calls_parsed; [exact tree_broken_next|reflexivity|exact A]).
    + destruct Get as [(c' & Q & _)|[_ N]]; [discriminate|]. destruct (group wc l) as [|p g] eqn:G; [reflexivity|]. exfalso. apply N. rewrite Eo. apply W. exists p. apply group_in. rewrite G. left. reflexivity.
Qed.
Print Assumptions C62_built.

(** ** A case *)
(** A sort, to show that there are some. *)
Definition shard_ltb (a b : shard) : bool := (sh_wc a <? sh_wc b)%Z || ((sh_wc a =? sh_wc b)%Z && (sh_prefix a <? sh_prefix b)).
Fixpoint place {A} (p : shard * A) (l : list (shard * A)) : list (shard * A) :=
  match l with [] => [p] | q :: l => if shard_ltb (fst q) (fst p) then q :: place p l else p :: q :: l end.
Definition sorted {A} (l : list (shard * A)) : list (shard * A) := fold_right place [] l.
Lemma shard_ltb_ok a b : shard_ltb a b = true <-> shard_lt a b.
Proof. unfold shard_ltb, shard_lt. rewrite Bool.orb_true_iff, Bool.andb_true_iff, Z.ltb_lt, Z.eqb_eq, N.ltb_lt. reflexivity. Qed.
Lemma place_perm {A} (p : shard * A) l : Permutation (p :: l) (place p l).
Proof. induction l as [|q l IH]; cbn [place]; [reflexivity|]. destruct (shard_ltb _ _); [|reflexivity]. rewrite <- IH. constructor. Qed.
Lemma place_sorted {A} (p : shard * A) l : StronglySorted (fun a b => ~ shard_lt (fst b) (fst a)) l -> StronglySorted (fun a b => ~ shard_lt (fst b) (fst a)) (place p l).
Proof.
  induction 1 as [|q l S IH Q]; cbn [place]; [repeat constructor|]. destruct (shard_ltb (fst q) (fst p)) eqn:E.
  - constructor; [exact IH|]. apply shard_ltb_ok in E. rewrite <- place_perm. constructor; [|exact Q]. unfold shard_lt in *. lia.
  - assert (E2 : ~ shard_lt (fst q) (fst p)) by (rewrite <- shard_ltb_ok, E; discriminate). constructor; [constructor; assumption|]. constructor; [exact E2|]. eapply List.Forall_impl; [|exact Q]. intros r Hr. unfold shard_lt in *. cbn beta in *. lia.
Qed.
Lemma sorted_sorts {A} : @sorts A sorted.
Proof.
  intros l. induction l as [|p l [P S]]; [split; constructor|]. unfold sorted in *. cbn [fold_right]. split; [|apply place_sorted, S]. rewrite <- place_perm. constructor. exact P.
Qed.

Definition any_cell : list bool -> list cell -> res unit := fun _ _ => Ok tt.
Definition a_descr (seqno : N) (at_ : option future) : sdescr := Sdescr seqno 7 1000 2000 (repeat 17 32) (repeat 18 32) false false true false true 9 0x8000000000000000 5 1700000000 at_ cc_zero (Currency 77 None).
Lemma a_descr_ok seqno at_ : seqno < 2 ^ 32 -> match at_ with Some (FSplit u i) | Some (FMerge u i) => u < 2 ^ 32 /\ i < 2 ^ 32 | None => True end -> w_ok (sdescr_w any_cell) (a_descr seqno at_).
Proof.
  intros H1 H2. assert (B : forall x, x < 256 -> Forall byte_ok (repeat x 32) /\ length (repeat x 32) = 32%nat).
  { intros x Hx. split; [apply List.Forall_forall; intros y Hy; apply repeat_spec in Hy; subst y; exact Hx|apply repeat_length]. }
  unfold a_descr. pose proof (B 17 eq_refl) as B1. pose proof (B 18 eq_refl) as B2. clear B. revert B1 B2. generalize (repeat 17 32), (repeat 18 32). intros r1 r2 B1 B2. destruct at_ as [[u i|u i]|].
  all: repeat first [exact Logic.I | exact H1 | exact (proj1 H2) | exact (proj2 H2) | exact B1 | exact B2 | reflexivity | intros y _; reflexivity | split | discriminate].
Qed.
Definition at_0 := shard_at 0.
Definition some_shards : list (shard * sdescr) :=
  [(at_0 [true], a_descr 3 None); (shard_at (-1) [], a_descr 1 (Some (FSplit 10 20))); (at_0 [false; false], a_descr 4 (Some (FMerge 30 40))); (at_0 [false; true], a_descr 5 None)].
Definition listed (i : nat) (d : option cell) : list (option (res (shard * N))) := map (option_map (fun r => let? (s, d) := r in Ok (s, sd_seqno d))) (calls entries_next i (hashes_new d)).
(** C62, a case: shards of two workchains in whatever order are accepted, and come back sorted. *)
Example C62_case :
  sorts (@sorted sdescr) /\ workchains some_shards [(-1)%Z; 0%Z] /\ Forall (fun p => valid_shard (fst p) /\ w_ok (sdescr_w any_cell) (snd p)) some_shards /\ disjoint (map fst some_shards) /\
  (let? d := from_shards any_cell sorted [(-1)%Z; 0%Z] some_shards in Ok (listed 6 d)) = Ok [Some (Ok (at_0 [false; false], 4)); Some (Ok (at_0 [false; true], 5)); Some (Ok (at_0 [true], 3)); Some (Ok (shard_at (-1) [], 1)); None; None].
Proof.
  assert (V : forall wc path, (length path <= 60)%nat -> (- 2 ^ 31 <= wc < 2 ^ 31)%Z -> (wc = -1 -> path = [])%Z -> valid_shard (shard_at wc path)).
  { intros wc path H1 H2 H3. exists path. split; [exact H1|]. split; [reflexivity|]. split; [exact H2|exact H3]. }
  split; [exact sorted_sorts|]. split; [|split; [|split]].
  - split; [repeat constructor; cbn; intuition congruence|]. intros wc. unfold some_shards. split.
    + intros [<-|[<-|[]]]; [exists (shard_at (-1) [], a_descr 1 (Some (FSplit 10 20)))|exists (at_0 [true], a_descr 3 None)]; (split; [|reflexivity]); [right; left; reflexivity|left; reflexivity].
    + intros (p & I & <-). cbn in I. destruct I as [<-|[<-|[<-|[<-|[]]]]]; cbn; auto.
  - unfold some_shards. repeat constructor; cbn [fst snd]; first [apply a_descr_ok; [reflexivity|]; first [exact Logic.I|split; reflexivity]|apply V; [cbn; lia|lia|intros Q; first [reflexivity|discriminate Q]]].
  - intros l1 a l2 E. destruct l1 as [|x1 [|x2 [|x3 [|x4 l1]]]]; cbn [app map some_shards fst] in E; try (destruct l1; discriminate E); injection E; intros; subst; repeat constructor.
  - vm_compute. reflexivity.
Qed.

(** ** Findings *)
(** Shards that overlap are dropped without an error: all that follow the last one that is needed
    for a tree, here the right half besides the full shard, and the half of a half that is there. *)
Theorem C62_overlaps_refuted :
  let l := [(at_0 [], a_descr 1 None); (at_0 [true], a_descr 2 None)] in
  let l' := [(at_0 [true; true], a_descr 3 None); (at_0 [false], a_descr 1 None); (at_0 [true], a_descr 2 None)] in
  (let? d := from_shards any_cell sorted [0%Z] l in Ok (listed 3 d)) = Ok [Some (Ok (at_0 [], 1)); None; None] /\
  (let? d := from_shards any_cell sorted [0%Z] l' in Ok (listed 3 d)) = Ok [Some (Ok (at_0 [false], 1)); Some (Ok (at_0 [true], 2)); None].
Proof. vm_compute. split; reflexivity. Qed.
Print Assumptions C62_overlaps_refuted.
(** Of two descriptions of the same shard one is dropped. *)
Theorem C62_duplicates_refuted s d1 d2 c : valid_shard s -> is_full s = true -> make_leaf any_cell d1 = Ok c -> try_build any_cell [(s, d1); (s, d2)] = Ok c.
Proof. intros _ F E. unfold try_build. rewrite E. cbn [rbind]. rewrite F. reflexivity. Qed.
Print Assumptions C62_duplicates_refuted.
(** A root without any bits gives nothing, and no error: that of all workchains is skipped. *)
Theorem C62_empty_root_refuted wc refs i : map (option_map raw_view) (calls tree_next i (tree_new wc (Cell false [] refs))) = gives i [].
Proof. apply C62_any_tree. Qed.
Print Assumptions C62_empty_root_refuted.
(** After an error in one tree the iterator over all workchains goes on with the next one. *)
Theorem C62_goes_on_refuted fin d c1 c2 : insert_all fin 32 MSet [(wc_key 0, ([], [c1])); (wc_key 1, ([], [c2]))] None = Ok d -> c_exotic c1 = true ->
  forall i, map (option_map raw_view) (calls hashes_next i (hashes_new d)) = gives i (Err UnexpectedExoticCell :: tree_items 1 c2).
Proof.
  intros E X i. destruct (dict_of_groups fin [(0%Z, c1); (1%Z, c2)] d) as (_ & gs & P & S & St); [repeat constructor; cbn; intuition congruence|repeat constructor; unfold i32; cbn; lia|exact E|].
  apply Permutation_length_2_inv in P. destruct P as [->| ->].
  - pose proof (hashes_calls d i _ _ St) as H. cbn [flat_map fst snd] in H. rewrite app_nil_r in H. destruct c1 as [[|] b r]; [|discriminate]. cbn [tree_items walk map app] in H. destruct b; exact H.
  - exfalso. inversion_clear S as [|? ? _ Q]. inversion_clear Q as [|? ? Q' _]. vm_compute in Q'. discriminate Q'.
Qed.
Print Assumptions C62_goes_on_refuted.
(** The identifiers of blocks are read whatever the tag is. *)
Theorem C62_untagged_refuted s d x tag : w_write (sdescr_w any_cell) d x -> length tag = 4%nat -> tag <> nbits 4 0xa -> tag <> nbits 4 0xb ->
  exists y, x = (nbits 4 0xa ++ fst y, snd y) /\ chunk_block s (tag ++ fst y, snd y) = Ok (as_block_id d s) /\ chunk_entry s (tag ++ fst y, snd y) = Err InvalidTag.
Proof.
  intros W L N1 N2. assert (B : chunk_block s x = Ok (as_block_id d s)).
  { apply (C62_latest_block s (Sl (Cell false [] []) (fst x) (snd x)) d ([], [])). change (load_sdescr (fst x, snd x) = Ok (d, ([], []))). rewrite <- surjective_pairing, <- (capp_nil x). exact (reads_back _ _ d x ([], []) (law_load _ _ (lawful_sdescr any_cell)) (law_same _ _ (lawful_sdescr any_cell) d x W)). }
  destruct W as (y & -> & _). exists y. split; [reflexivity|]. split.
  - rewrite <- B. unfold chunk_block, block_of. cbn [s_chunk s_bits s_refs capp fst snd].
    assert (K : forall t, length t = 4%nat -> on_bits (skip_bits 4) (t ++ fst y, snd y) = Ok y).
    { intros t Ht. unfold on_bits, skip_bits. cbn [fst snd]. rewrite app_length, Ht. destruct (Nat.ltb_spec (4 + length (fst y)) 4); [lia|]. cbn [rbind]. rewrite <- Ht, drop_app, <- surjective_pairing. reflexivity. }
    unfold s_chunk. cbn [s_bits s_refs app]. rewrite (K tag L), (K (nbits 4 0xa) eq_refl). reflexivity.
  - unfold chunk_entry, load_sdescr. assert (R : load_un 4 (tag ++ fst y, snd y) = Ok (bval tag, y)).
    { pose proof (nbits_bval' 4 tag L) as Q. pose proof (reads_back _ _ (bval tag) (tag, []) y (reads_un 4)) as R. unfold capp in R. cbn [fst snd app] in R. apply R. rewrite <- Q at 2. constructor. pose proof (bval_lt tag) as Z. rewrite L in Z. exact Z. }
    rewrite R. cbn [rbind]. destruct (N.eqb_spec (bval tag) 0xa) as [Q|_]; [destruct N1; rewrite <- Q; symmetry; apply nbits_bval', L|]. destruct (N.eqb_spec (bval tag) 0xb) as [Q|_]; [destruct N2; rewrite <- Q; symmetry; apply nbits_bval', L|]. reflexivity.
Qed.
Print Assumptions C62_untagged_refuted.
(** Iterators go through the workchains by the bits of their numbers, so what they give is not
    sorted with negative workchains. *)
Theorem C62_negative_refuted : ~ forall a b, visited_before a b -> shard_lt a b.
Proof. intros H. specialize (H (shard_at 0 []) (shard_at (-1) []) ltac:(left; reflexivity)). destruct H as [H|[H _]]; cbn in H; lia. Qed.
Print Assumptions C62_negative_refuted.
(** There are such dictionaries and descriptions. *)
Example C62_findings_case :
  match insert_all any_cell 32 MSet [(wc_key 0, ([], [Cell true [] []])); (wc_key 1, ([], [Cell false [false] []]))] None with Ok _ => True | Err _ => False end /\
  exists x, w_write (sdescr_w any_cell) (a_descr 1 None) x.
Proof. split; [vm_compute; exact Logic.I|]. apply (law_ok _ _ (lawful_sdescr any_cell)), a_descr_ok; [reflexivity|exact Logic.I]. Qed.
