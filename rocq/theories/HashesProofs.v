(** * Iterators over shards *)
From Coq Require Import Sorting.Sorted.
From Verif Require Import Err BitsProofs IntModel NumModel CellModel DictModel DictSpec DictProofs DictOrder IterModel IterProofs DictProps IterProps CurrencyModel CurrencyProofs
  ShardModel ShardSpec ShardProofs ChunkSpec DeriveModel DeriveSpec StructsModel StructsSpec TxModel CasesSpec ParamsSpec HashesModel HashesSpec.
Local Open Scope N_scope.

(** ** Calls *)
Lemma gives_nil {A} i : @gives A i [] = replicate i None.
Proof. unfold gives. cbn [map app]. apply take_ge. rewrite replicate_length. lia. Qed.
Lemma gives_cons {A} i (x : res A) l : gives (S i) (x :: l) = Some x :: gives i l.
Proof.
  unfold gives. cbn [map app take]. f_equal. apply (take_pad i).
Qed.
Lemma gives_map {A B} (f : res A -> res B) i l : map (option_map f) (gives i l) = gives i (map f l).
Proof. unfold gives. rewrite <- firstn_map, map_app, !map_map. do 2 f_equal. exact (fmap_replicate (option_map f) i None). Qed.

Section Calls.
Context {S V A : Type} (next : S -> option (res (shard * sl)) * S) (broken : S -> S).
Context (broken_next : forall it, next (broken it) = (None, broken it)).
Lemma calls_broken B (parse : shard -> sl -> res B) i it : calls (parsed next broken parse) i (broken it) = replicate i None.
Proof. induction i as [|i IH]; [reflexivity|]. cbn [calls replicate]. unfold parsed at 1. rewrite broken_next. f_equal. exact IH. Qed.
Lemma calls_parsed B (parse : shard -> sl -> res B) (parse' : shard -> chunk -> res B) : (forall s v, parse s v = parse' s (s_chunk v)) -> forall i l it, (forall i, map (option_map raw_view) (calls next i it) = gives i l) ->
  calls (parsed next broken parse) i it = gives i (parse_items parse' l).
Proof.
  intros P. induction i as [|i IH]; intros l it H; [reflexivity|]. cbn [calls]. unfold parsed at 1.
  pose proof (H 1%nat) as H1. cbn [calls] in H1. assert (T : forall i, map (option_map raw_view) (calls next i (snd (next it))) = tail (gives (Datatypes.S i) l)).
  { intros j. specialize (H (Datatypes.S j)). cbn [calls] in H. destruct (next it) as [o it']. cbn [map] in H. rewrite <- H. reflexivity. }
  destruct (next it) as [o it']. cbn [snd] in T. destruct l as [|x l].
  - cbn in H1. destruct o; [discriminate|]. cbn [parse_items]. rewrite gives_nil. cbn [replicate]. f_equal. rewrite (IH [] it'); [apply gives_nil|].
    intros j. rewrite T, !gives_nil. reflexivity.
  - rewrite gives_cons in H1. cbn in H1. injection H1 as H1. destruct o as [y|]; [|discriminate]. cbn in H1. injection H1 as H1.
    assert (N : forall j, map (option_map raw_view) (calls next j it') = gives j l) by (intros j; rewrite T, gives_cons; reflexivity).
    destruct y as [[s v]|e]; cbn in H1; subst x; cbn [parse_items].
    + rewrite <- P. destruct (parse s v) as [b|e].
      * rewrite gives_cons. f_equal. apply IH, N.
      * rewrite gives_cons, gives_nil. f_equal. apply calls_broken.
    + rewrite gives_cons. f_equal. apply IH, N.
Qed.
End Calls.

(** ** The tree of a workchain *)
Lemma andthen_assoc {A} (x y z : list A * option err) : andthen (andthen x y) z = andthen x (andthen y z).
Proof. destruct x as [l [e|]], y as [l2 [e2|]], z as [l3 e3]; unfold andthen; cbn; rewrite ?app_assoc; reflexivity. Qed.
Lemma andthen_nil {A} (x : list A * option err) : andthen ([], None) x = x.
Proof. destruct x as [l e]. reflexivity. Qed.
Lemma andthen_r {A} (x : list A * option err) : andthen x ([], None) = x.
Proof. destruct x as [l [e|]]; unfold andthen; cbn; rewrite ?app_nil_r; reflexivity. Qed.
Lemma andthen_err {A} e (x : list A * option err) : andthen ([], Some e) x = ([], Some e).
Proof. reflexivity. Qed.

(** The path to the child that is visited next. *)
Definition seg_path (segs : list (cell * bool)) : list bool := rev (map snd segs).
Lemma seg_path_cons c b segs : seg_path ((c, b) :: segs) = seg_path segs ++ [b].
Proof. reflexivity. Qed.
Lemma seg_path_len segs : length (seg_path segs) = length segs.
Proof. unfold seg_path. rewrite rev_length, map_length. reflexivity. Qed.
Lemma prefix_push q b : (length q <= 62)%nat -> N.lor (PREFIX_FULL * b2n b) (N.shiftr (path_prefix q) 1) = path_prefix (b :: q).
Proof.
  intros H. unfold path_prefix. cbn [length app]. replace (63 - length q)%nat with (S (62 - length q)) by lia. replace (63 - S (length q))%nat with (62 - length q)%nat by lia.
  set (w := q ++ true :: zeros (62 - length q)). assert (Lw : length w = 63%nat) by (unfold w; rewrite app_length; cbn [length]; rewrite length_zeros; lia).
  assert (E : q ++ true :: zeros (S (62 - length q)) = w ++ [false]).
  { unfold w. rewrite <- app_assoc. cbn [app]. f_equal. f_equal. unfold zeros. exact (replicate_S_end (62 - length q) false). }
  replace (q ++ [true] ++ zeros (S (62 - length q))) with (w ++ [false]) by (rewrite <- E; reflexivity). replace (b :: q ++ [true] ++ zeros (62 - length q)) with (b :: w) by reflexivity.
  rewrite E, bval_app. change (length [false]) with 1%nat. change (bval [false]) with 0. rewrite N.add_0_r. change (2 ^ N.of_nat 1) with 2. rewrite N.shiftr_div_pow2. change (2 ^ 1) with 2. rewrite N.div_mul by lia.
  pose proof (bval_lt w) as L. rewrite Lw in L. change (N.of_nat 63) with 63 in L.
  rewrite bval_cons, Lw. change (2 ^ N.of_nat 63) with PREFIX_FULL. destruct b; cbn [b2n N.b2n]; [rewrite N.mul_1_r, N.mul_1_l|rewrite N.mul_0_r; reflexivity].
  assert (D : N.land PREFIX_FULL (bval w) = 0).
  { apply N.bits_inj. intros i. rewrite N.land_spec, N.bits_0. change PREFIX_FULL with (2 ^ 63). rewrite N.pow2_bits_eqb. destruct (N.eqb_spec 63 i) as [<-|]; [|reflexivity]. cbn [andb].
    apply N.testbit_false. rewrite N.div_small by exact L. reflexivity. }
  rewrite <- (N.lxor_lor _ _ D), <- (N.add_nocarry_lxor _ _ D). reflexivity.
Qed.
Lemma build_prefix_path segs : (length segs <= 60)%nat -> build_prefix segs = path_prefix (seg_path segs).
Proof.
  intros H. unfold build_prefix. change PREFIX_FULL with (path_prefix []) at 2.
  assert (G : forall segs q, (length segs + length q <= 63)%nat -> fold_left (fun result (seg : cell * bool) => N.lor (PREFIX_FULL * b2n (snd seg)) (N.shiftr result 1)) segs (path_prefix q) = path_prefix (seg_path segs ++ q)).
  { clear. induction segs as [|[c b] segs IH]; intros q H; cbn [fold_left snd]; [reflexivity|]. cbn [length] in H. rewrite prefix_push by lia. rewrite IH by (cbn [length]; lia).
    rewrite seg_path_cons, <- app_assoc. reflexivity. }
  rewrite (G segs []) by (cbn [length]; lia). rewrite app_nil_r. reflexivity.
Qed.

Notation items := (list (list bool * chunk) * option err)%type.
Definition walk_ref (d : nat) (path : list bool) (b : bool) (c : cell) : items :=
  match ref_at b c with Err e => ([], Some e) | Ok x => walk d path x end.
(** What remains after the child the segments point at. *)
Fixpoint outs (segs : list (cell * bool)) : items :=
  match segs with
  | [] => ([], None)
  | (c, b) :: segs => if b then outs segs else andthen (walk_ref (59 - length segs) (seg_path segs ++ [true]) true c) (outs segs)
  end.
(** What remains with it. *)
Definition remaining (segs : list (cell * bool)) : items :=
  match segs with
  | [] => ([], None)
  | (c, b) :: segs' => andthen (walk_ref (59 - length segs') (seg_path segs) b c) (outs segs)
  end.
Lemma remaining_next segs : remaining (go_right (pop_right segs)) = outs segs.
Proof.
  induction segs as [|[c b] segs IH]; [reflexivity|]. destruct b; cbn [pop_right]; [exact IH|]. cbn [go_right remaining outs]. rewrite seg_path_cons. reflexivity.
Qed.
Lemma pop_len segs : (length (go_right (pop_right segs)) <= length segs)%nat.
Proof. induction segs as [|[c b] segs IH]; cbn; [lia|]. destruct b; cbn in *; lia. Qed.
Lemma fork_walk d path c b : c_exotic c = false -> c_bits c = true :: b -> walk (S d) path c = andthen (walk_ref d (path ++ [false]) false c) (walk_ref d (path ++ [true]) true c).
Proof.
  destruct c as [ex bits refs]. cbn [c_exotic c_bits]. intros -> ->. cbn [walk]. unfold walk_ref, ref_at. cbn [c_refs]. destruct refs as [|l [|r refs]]; reflexivity.
Qed.
Lemma descend_eq fuel c b segs : tree_descend (S fuel) ((c, b) :: segs) =
  let? s := ref_slice b c in
  let? (is_fork, bits) := load_bit (s_bits s) in
  if negb is_fork then Ok (Some (Sl (s_cell s) bits (s_refs s), (c, b) :: segs))
  else if (N.of_nat (length ((c, b) :: segs)) <? MAX_SPLIT_DEPTH) then tree_descend fuel ((s_cell s, false) :: (c, b) :: segs)
  else Err CellUnderflow.
Proof. reflexivity. Qed.
Lemma walk_ref_eq d path b c : walk_ref d path b c = match ref_at b c with Err e => ([], Some e) | Ok x => walk d path x end.
Proof. reflexivity. Qed.
Lemma remaining_cons c b segs : remaining ((c, b) :: segs) = andthen (walk_ref (59 - length segs) (seg_path ((c, b) :: segs)) b c) (outs ((c, b) :: segs)).
Proof. reflexivity. Qed.
Lemma outs_false c segs : outs ((c, false) :: segs) = andthen (walk_ref (59 - length segs) (seg_path segs ++ [true]) true c) (outs segs).
Proof. reflexivity. Qed.
Lemma descend_spec : forall k segs, (1 <= length segs)%nat -> (length segs + k = 60)%nat ->
  match tree_descend (S k) segs with
  | Err e => remaining segs = ([], Some e)
  | Ok None => False
  | Ok (Some (leaf, segs')) => remaining segs = andthen ([(seg_path segs', s_chunk leaf)], None) (outs segs') /\ (length segs' <= 60)%nat
  end.
Proof.
  induction k as [|k IH]; intros segs H1 H2; (destruct segs as [|[c b] segs]; [cbn in H1; lia|]); cbn [length] in *.
  - assert (L : length segs = 59%nat) by lia. cbn [tree_descend]. unfold ref_slice. cbn [remaining]. rewrite L. cbn [Nat.sub]. unfold walk_ref. destruct (ref_at b c) as [x|e]; cbn [rbind]; [|reflexivity].
    unfold as_slice. destruct x as [ex bits refs]. cbn [c_exotic]. destruct ex; [reflexivity|]. cbn [rbind s_bits c_bits load_bit]. destruct bits as [|f bits]; [reflexivity|]. cbn [rbind]. destruct f; cbn [negb].
    + cbn [length]. rewrite L. cbn. reflexivity.
    + cbn [walk s_cell s_refs c_refs]. split; [reflexivity|cbn [length]; lia].
  - rewrite descend_eq, remaining_cons. unfold ref_slice. replace (59 - length segs)%nat with (S k) by lia. rewrite walk_ref_eq. destruct (ref_at b c) as [x|e]; cbn [rbind]; [|reflexivity].
    unfold as_slice. destruct (c_exotic x) eqn:Ex; cbn [rbind].
    { destruct x as [ex bits refs]. cbn [c_exotic] in Ex. subst ex. reflexivity. }
    cbn [s_bits s_cell s_refs]. destruct (c_bits x) as [|f bits] eqn:Eb; cbn [load_bit rbind].
    { destruct x as [ex b' refs]. cbn in Ex, Eb. subst. reflexivity. }
    destruct f; cbn [negb].
    + rewrite (fork_walk k _ x bits Ex Eb). destruct (N.ltb_spec (N.of_nat (length ((c, b) :: segs))) MAX_SPLIT_DEPTH) as [_|X]; [|unfold MAX_SPLIT_DEPTH in X; cbn [length] in X; lia].
      specialize (IH ((x, false) :: (c, b) :: segs) ltac:(cbn; lia) ltac:(cbn [length]; lia)). rewrite remaining_cons, outs_false, (seg_path_cons x) in IH. replace (59 - length ((c, b) :: segs))%nat with k in IH by (cbn [length]; lia).
      rewrite andthen_assoc. exact IH.
    + destruct x as [ex b' refs]. cbn in Ex, Eb. subst. cbn [walk s_chunk s_bits s_refs c_refs]. split; [reflexivity|cbn [length]; lia].
Qed.
Lemma tree_descend_more k m segs : (k <= m)%nat -> (forall e, tree_descend k segs = Err e -> e <> OutOfFuel) -> tree_descend m segs = tree_descend k segs.
Proof.
  revert m segs. induction k as [|k IH]; intros m segs H N; [destruct (N OutOfFuel eq_refl eq_refl)|]. destruct m as [|m]; [lia|]. cbn [tree_descend] in *.
  destruct segs as [|[c b] segs]; [reflexivity|]. destruct (ref_slice b c) as [s|]; [|reflexivity]. cbn [rbind] in *. destruct (load_bit (s_bits s)) as [[f bits]|]; [|reflexivity]. cbn [rbind] in *.
  destruct (negb f); [reflexivity|]. destruct (N.of_nat (length ((c, b) :: segs)) <? MAX_SPLIT_DEPTH); [|reflexivity]. apply IH; [lia|exact N].
Qed.
(** No path through the tree takes more than 60 steps, so the fuel is enough. *)
Lemma descend_fuel : forall k segs, (length segs + k = 60)%nat -> (forall e, tree_descend (S k) segs = Err e -> e <> OutOfFuel).
Proof.
  induction k as [|k IH]; intros segs H e; (destruct segs as [|[c b] segs]; [discriminate|]); rewrite descend_eq.
  - unfold ref_slice, ref_at, as_slice. destruct (c_refs c !! _) as [x|]; cbn [rbind]; [|congruence]. destruct (c_exotic x); cbn [rbind]; [congruence|]. cbn [s_bits]. destruct (c_bits x) as [|f bits]; cbn [load_bit rbind]; [congruence|].
    destruct (negb f); [congruence|]. destruct (N.ltb_spec (N.of_nat (length ((c, b) :: segs))) MAX_SPLIT_DEPTH) as [X|_]; [unfold MAX_SPLIT_DEPTH in X; lia|congruence].
  - unfold ref_slice, ref_at, as_slice. destruct (c_refs c !! _) as [x|]; cbn [rbind]; [|congruence]. destruct (c_exotic x); cbn [rbind]; [congruence|]. cbn [s_bits]. destruct (c_bits x) as [|f bits]; cbn [load_bit rbind]; [congruence|].
    destruct (negb f); [congruence|]. destruct (N.of_nat (length ((c, b) :: segs)) <? MAX_SPLIT_DEPTH); [|congruence]. cbn [s_cell]. apply IH. cbn [length] in *. lia.
Qed.
Lemma descend_61 segs : (1 <= length segs <= 60)%nat ->
  match tree_descend 61 segs with
  | Err e => remaining segs = ([], Some e)
  | Ok None => False
  | Ok (Some (leaf, segs')) => remaining segs = andthen ([(seg_path segs', s_chunk leaf)], None) (outs segs') /\ (length segs' <= 60)%nat
  end.
Proof.
  intros H. rewrite (tree_descend_more (S (60 - length segs)) 61 segs) by (try lia; apply descend_fuel; lia). apply descend_spec; lia.
Qed.

(** The state of the iterator and what it has to return. *)
Definition items_of (wc : Z) (x : items) : list (res (shard * chunk)) :=
  map (fun p => Ok (shard_at wc (fst p), snd p)) (fst x) ++ match snd x with Some e => [Err e] | None => [] end.
Inductive tree_state (wc : Z) : tree_iter -> list (res (shard * chunk)) -> Prop :=
| ts_leaf leaf : tree_state wc (TreeIter wc (Some leaf) [] StValid) [Ok (shard_full wc, s_chunk leaf)]
| ts_segs segs : (length segs <= 60)%nat -> tree_state wc (TreeIter wc None segs StValid) (items_of wc (remaining segs))
| ts_unexpected leaf segs : tree_state wc (TreeIter wc leaf segs StUnexpected) [Err UnexpectedExoticCell]
| ts_broken leaf segs : tree_state wc (TreeIter wc leaf segs StBroken) [].
Lemma tree_new_state wc c : tree_state wc (tree_new wc c) (tree_items wc c).
Proof.
  unfold tree_new, as_slice. destruct c as [ex bits refs]. cbn [c_exotic]. destruct ex; [apply ts_unexpected|]. cbn [s_bits c_bits]. destruct bits as [|f bits]; [apply ts_broken|]. cbn [load_bit]. destruct f.
  - assert (E : tree_items wc (Cell false (true :: bits) refs) = items_of wc (remaining [(Cell false (true :: bits) refs, false)])).
    { cbn [remaining outs length Nat.sub seg_path map rev app]. rewrite andthen_r. unfold tree_items, items_of. rewrite (fork_walk 59 [] (Cell false (true :: bits) refs) bits eq_refl eq_refl). cbn [app snd].
      match goal with |- context [andthen ?x ?y] => destruct (andthen x y) as [l e]; reflexivity end. }
    rewrite E. apply ts_segs. cbn. lia.
  - exact (ts_leaf wc (Sl (Cell false (false :: bits) refs) bits refs)).
Qed.
Lemma tree_next_state wc it l : tree_state wc it l ->
  match l with
  | [] => fst (tree_next it) = None /\ tree_state wc (snd (tree_next it)) []
  | x :: l => option_map raw_view (fst (tree_next it)) = Some x /\ tree_state wc (snd (tree_next it)) l
  end.
Proof.
  intros [leaf|segs H|leaf segs|leaf segs].
  - cbn. split; [reflexivity|]. apply (ts_segs wc []). cbn. lia.
  - unfold tree_next. cbn [ti_status ti_leaf ti_segs ti_wc]. destruct segs as [|s segs].
    + cbn. split; [reflexivity|]. apply (ts_segs wc []). cbn. lia.
    + pose proof (descend_61 (s :: segs) ltac:(cbn [length] in *; lia)) as D. destruct (tree_descend 61 (s :: segs)) as [[[leaf segs']|]|e].
      * destruct D as [-> L]. unfold items_of, andthen. cbn [snd fst app map]. split.
        -- cbn [option_map fst]. unfold raw_view. cbn [rbind]. rewrite build_prefix_path by exact L. reflexivity.
        -- rewrite <- remaining_next. apply ts_segs. pose proof (pop_len segs'). lia.
      * destruct D.
      * rewrite D. cbn [items_of fst snd map app]. split; [reflexivity|]. apply ts_broken.
  - cbn. split; [reflexivity|]. apply ts_broken.
  - cbn. split; [reflexivity|]. apply ts_broken.
Qed.
Lemma tree_calls wc : forall i it l, tree_state wc it l -> map (option_map raw_view) (calls tree_next i it) = gives i l.
Proof.
  induction i as [|i IH]; intros it l H; [reflexivity|]. pose proof (tree_next_state wc it l H) as N. cbn [calls]. destruct (tree_next it) as [o it']. cbn [fst snd] in N. destruct l as [|x l]; destruct N as [N1 N2]; cbn [map].
  - rewrite N1, gives_nil. cbn [option_map replicate]. f_equal. rewrite (IH _ _ N2), gives_nil. reflexivity.
  - rewrite N1, gives_cons. f_equal. exact (IH _ _ N2).
Qed.

(** ** All workchains *)
(** The iterator over the dictionary still has the entries [es]. *)
Inductive hashes_state (d : option cell) : hashes_iter -> list (res (shard * chunk)) -> Prop :=
| hs_none di n es : (length es < n)%nat -> iter_inv any_dict false false 32 d di es -> hashes_state d (HashesIter di None StValid n) (all_items es)
| hs_tree wc it l di n es : (length es < n)%nat -> tree_state wc it l -> iter_inv any_dict false false 32 d di es -> hashes_state d (HashesIter di (Some it) StValid n) (l ++ all_items es)
| hs_broken di t n : hashes_state d (HashesIter di t StBroken n) [].
Definition stepped d (l : list (res (shard * chunk))) (r : option (res (shard * sl)) * hashes_iter) : Prop :=
  match l with
  | [] => fst r = None /\ hashes_state d (snd r) []
  | x :: l => option_map raw_view (fst r) = Some x /\ hashes_state d (snd r) l
  end.
Lemma hashes_loop_none d n : forall es fuel di, (length es < fuel)%nat -> (length es < n)%nat -> iter_inv any_dict false false 32 d di es ->
  stepped d (all_items es) (hashes_loop fuel di None n).
Proof.
  induction es as [|e es IH]; intros fuel di Hf Hn I; (destruct fuel as [|fuel]; [lia|]); cbn [hashes_loop].
  - destruct (iter_next_inv any_dict reads_any false false 32 ltac:(lia) _ _ _ I) as (di' & -> & I'). split; [reflexivity|]. cbn [snd]. apply (hs_none d di' n []); [exact Hn|exact I'].
  - destruct (iter_next_inv any_dict reads_any false false 32 ltac:(lia) _ _ _ I) as (data & di' & -> & I' & C & _). destruct e as [k [vb vr]]. cbn [fst snd] in *. unfold s_chunk in C. injection C as _ Cr. rewrite Cr.
    cbn [all_items length] in *. destruct vr as [|c vr].
    + split; [reflexivity|apply hs_broken].
    + destruct fuel as [|fuel]; [lia|]. cbn [hashes_loop]. pose proof (tree_next_state _ _ _ (tree_new_state (as_signed 32 (bval k)) c)) as N.
      set (it := tree_new (as_signed 32 (bval k)) c) in *. destruct (tree_next it) as [o it'] eqn:En. cbn [fst snd] in N. destruct (tree_items (as_signed 32 (bval k)) c) as [|x l]; destruct N as [N1 N2].
      * subst o. cbn [app]. apply (IH (S fuel) di'); [lia|lia|exact I'].
      * destruct o as [y|]; [|discriminate]. cbn [app stepped fst snd]. split; [exact N1|]. eapply hs_tree; [lia|exact N2|exact I'].
Qed.
Lemma hashes_next_state d it l : hashes_state d it l -> stepped d l (hashes_next it).
Proof.
  intros [di n es Hn I|wc ti l' di n es Hn T I|di t n]; unfold hashes_next; cbn [hi_status hi_fuel hi_dict hi_tree].
  - apply hashes_loop_none; assumption.
  - destruct n as [|n]; [lia|]. pose proof (tree_next_state _ _ _ T) as N. cbn [hashes_loop]. destruct (tree_next ti) as [o it']. cbn [fst snd] in N. destruct l' as [|x l']; destruct N as [N1 N2].
    + subst o. cbn [app]. apply (hashes_loop_none d (S n) es (S n) di); [exact Hn|exact Hn|exact I].
    + destruct o as [y|]; [|discriminate]. split; [exact N1|]. eapply hs_tree; [exact Hn|exact N2|exact I].
  - split; [reflexivity|apply hs_broken].
Qed.
Lemma hashes_calls d : forall i it l, hashes_state d it l -> map (option_map raw_view) (calls hashes_next i it) = gives i l.
Proof.
  induction i as [|i IH]; intros it l H; [reflexivity|]. pose proof (hashes_next_state d it l H) as N. cbn [calls]. destruct (hashes_next it) as [o it']. destruct l as [|x l]; destruct N as [N1 N2]; cbn [fst snd] in *; cbn [map].
  - rewrite N1, gives_nil. cbn [option_map replicate]. f_equal. rewrite (IH _ _ N2), gives_nil. reflexivity.
  - rewrite N1, gives_cons. f_equal. exact (IH _ _ N2).
Qed.
Lemma hashes_new_state d es order : is_dict any_dict 32 d es -> ordered false false es order -> hashes_state d (hashes_new d) (all_items order).
Proof.
  intros D O. unfold hashes_new. apply hs_none.
  - rewrite (Permutation_length (proj1 O)). destruct d as [c|]; cbn [is_dict] in D; [apply hashmap_size in D; lia|subst es; cbn; lia].
  - destruct (iter_new_inv any_dict false false 32 ltac:(lia) d es D) as (o & Po & So & I). rewrite (C24_order_unique false false es order o O (make_ordered _ _ _ _ _ _ _ D Po So)). exact I.
Qed.
