(** * Trees of shards *)
From Coq Require Import Sorting.Sorted.
From Verif Require Import Err BitsProofs IntModel IntProofs CellModel ShardModel ShardSpec ShardProofs ShardProps HashesModel HashesSpec HashesProofs.
Local Open Scope N_scope.

(** ** Trees in cells *)
Lemma walk_bintree c t : bintree c t -> forall d path, (height t <= d)%nat -> walk d path c = (leaves path t, None).
Proof.
  induction 1 as [b r|b l r rest tl tr Hl IHl Hr IHr]; intros d path H; cbn [height leaves] in *; [destruct d; reflexivity|].
  destruct d as [|d]; [lia|]. cbn [walk]. rewrite IHl, IHr by lia. reflexivity.
Qed.
Lemma andthen_none {A} (x y : list A * option err) l : andthen x y = (l, None) -> snd x = None /\ snd y = None /\ l = fst x ++ fst y.
Proof. destruct x as [a [e|]], y as [b e']; unfold andthen; cbn; [discriminate|]. intros [= <- ->]. auto. Qed.
Lemma walk_complete : forall d path c l, walk d path c = (l, None) -> exists t, bintree c t /\ (height t <= d)%nat /\ l = leaves path t.
Proof.
  induction d as [|d IH]; intros path [ex bits refs] l; (destruct ex; [discriminate|]); (destruct bits as [|f bits]; [discriminate|]); destruct f; cbn [walk]; try discriminate.
  - intros [= <-]. exists (Leaf (bits, refs)). split; [constructor|]. auto.
  - destruct refs as [|x [|y refs]]; [discriminate| |]; intros H; apply andthen_none in H; destruct H as (H1 & H2 & ->); [discriminate|].
    destruct (walk d (path ++ [false]) x) as [l1 e1] eqn:E1. destruct (walk d (path ++ [true]) y) as [l2 e2] eqn:E2. cbn [fst snd] in *. subst e1 e2.
    destruct (IH _ _ _ E1) as (t1 & B1 & Ht1 & ->). destruct (IH _ _ _ E2) as (t2 & B2 & Ht2 & ->). exists (Fork t1 t2). split; [constructor; assumption|]. split; [cbn [height]; lia|reflexivity].
  - intros [= <-]. exists (Leaf (bits, refs)). split; [constructor|]. split; [cbn; lia|reflexivity].
Qed.
Lemma tree_items_tree wc c t : bintree c t -> (height t <= 60)%nat -> tree_items wc c = map Ok (shards_of wc t).
Proof.
  intros B H. unfold tree_items, shards_of. rewrite (walk_bintree c t B 60 [] H), map_map, app_nil_r. destruct B; reflexivity.
Qed.

(** ** Paths *)
Lemma leaves_app {A} (t : tree A) : forall path, leaves path t = map (fun p => (path ++ fst p, snd p)) (leaves [] t).
Proof.
  induction t as [x|l IHl r IHr]; intros path; cbn [leaves]; [cbn; rewrite app_nil_r; reflexivity|].
  cbn [app]. rewrite (IHl (path ++ [false])), (IHr (path ++ [true])), (IHl [false]), (IHr [true]), map_app, !map_map. f_equal; apply map_ext; intros [p x]; cbn [fst snd]; rewrite <- app_assoc; reflexivity.
Qed.
Lemma leaves_fork {A} (l r : tree A) : leaves [] (Fork l r) = map (fun p => (false :: fst p, snd p)) (leaves [] l) ++ map (fun p => (true :: fst p, snd p)) (leaves [] r).
Proof. cbn [leaves app]. rewrite (leaves_app l [false]), (leaves_app r [true]). reflexivity. Qed.
Lemma leaves_len {A} (t : tree A) : Forall (fun p => (length (fst p) <= height t)%nat) (leaves [] t).
Proof.
  induction t as [x|l IHl r IHr]; [repeat constructor|]. rewrite leaves_fork. apply Forall_app. split; apply List.Forall_map; [eapply Forall_impl; [|exact IHl]|eapply Forall_impl; [|exact IHr]]; intros p Hp; cbn [fst length height] in *; lia.
Qed.
Lemma height_leaves {A} (t : tree A) n : Forall (fun p => (length (fst p) <= n)%nat) (leaves [] t) -> (height t <= n)%nat.
Proof.
  revert n. induction t as [x|l IHl r IHr]; intros n; cbn [height]; [lia|]. rewrite leaves_fork. intros F. apply Forall_app in F. destruct F as [F1 F2].
  assert (N : forall (t : tree A) b, Forall (fun p => (length (fst p) <= n)%nat) (map (fun p => (b :: fst p, snd p)) (leaves [] t)) -> (1 <= n)%nat).
  { intros t b. assert (leaves [] t <> []) as NE by (induction t as [|a Ha b' Hb]; [discriminate|rewrite leaves_fork; destruct (leaves [] a); [congruence|discriminate]]).
    destruct (leaves [] t) as [|q ls]; [congruence|]. cbn [map]. inversion 1 as [|? ? Q _]. cbn in Q. lia. }
  destruct n as [|n]; [specialize (N _ _ F1); lia|]. apply le_n_S, Nat.max_lub; [apply IHl|apply IHr]; [apply (proj1 (List.Forall_map _ _ _)) in F1; eapply Forall_impl; [|exact F1]|apply (proj1 (List.Forall_map _ _ _)) in F2; eapply Forall_impl; [|exact F2]]; intros p Hp; cbn [fst length] in Hp; lia.
Qed.
(** Half of the number of a path. *)
Definition half (p : list bool) : N := bval (p ++ [true] ++ zeros (62 - length p)).
Lemma prefix_half p : (length p <= 62)%nat -> path_prefix p = 2 * half p /\ forall b, path_prefix (b :: p) = N.b2n b * 2 ^ 63 + half p.
Proof.
  intros H. unfold path_prefix, half. split.
  - replace (63 - length p)%nat with (S (62 - length p)) by lia. replace (zeros (S (62 - length p))) with (zeros (62 - length p) ++ [false]) by (symmetry; exact (replicate_S_end (62 - length p) false)).
    rewrite !app_assoc, bval_app. change (bval [false]) with 0. change (2 ^ N.of_nat (length [false])) with 2. lia.
  - intros b. cbn [app length]. replace (63 - S (length p))%nat with (62 - length p)%nat by lia. rewrite bval_cons. f_equal. f_equal. f_equal. rewrite app_length. cbn [length]. rewrite length_zeros. lia.
Qed.
Lemma half_lt p : (length p <= 62)%nat -> half p < 2 ^ 63.
Proof. intros H. unfold half. pose proof (bval_lt (p ++ [true] ++ zeros (62 - length p))) as L. rewrite !app_length, length_zeros in L. cbn [length] in L. replace (length p + (1 + (62 - length p)))%nat with 63%nat in L by lia. exact L. Qed.
(** The leaves are sorted by number. *)
Lemma leaves_sorted {A} (t : tree A) : (height t <= 60)%nat -> StronglySorted (fun a b => path_prefix (fst a) < path_prefix (fst b)) (leaves [] t).
Proof.
  induction t as [x|l IHl r IHr]; intros H; [repeat constructor|]. cbn [height] in H. specialize (IHl ltac:(lia)). specialize (IHr ltac:(lia)). rewrite leaves_fork.
  pose proof (leaves_len l) as Ll. pose proof (leaves_len r) as Lr.
  assert (M : forall b ls, Forall (fun p : list bool * A => (length (fst p) <= 59)%nat) ls -> StronglySorted (fun a b => path_prefix (fst a) < path_prefix (fst b)) ls ->
    StronglySorted (fun a b => path_prefix (fst a) < path_prefix (fst b)) (map (fun p => (b :: fst p, snd p)) ls)).
  { clear. intros b ls F S. induction S as [|p ls S IH Q]; cbn [map]; [constructor|]. inversion_clear F as [|? ? F1 F2]. constructor; [apply IH, F2|]. apply List.Forall_map. rewrite List.Forall_forall in *. intros q Hq. specialize (F2 q Hq). specialize (Q q Hq). cbn [fst] in *.
    destruct (prefix_half (fst p) ltac:(lia)) as [E1 ->]. destruct (prefix_half (fst q) ltac:(lia)) as [E2 ->]. lia. }
  assert (Fl : Forall (fun p : list bool * A => (length (fst p) <= 59)%nat) (leaves [] l)) by (eapply Forall_impl; [|exact Ll]; cbn beta; intros; lia).
  assert (Fr : Forall (fun p : list bool * A => (length (fst p) <= 59)%nat) (leaves [] r)) by (eapply Forall_impl; [|exact Lr]; cbn beta; intros; lia).
  assert (App : forall l1 l2, StronglySorted (fun a b : list bool * A => path_prefix (fst a) < path_prefix (fst b)) l1 -> StronglySorted (fun a b : list bool * A => path_prefix (fst a) < path_prefix (fst b)) l2 ->
    (forall a b, In a l1 -> In b l2 -> path_prefix (fst a) < path_prefix (fst b)) -> StronglySorted (fun a b : list bool * A => path_prefix (fst a) < path_prefix (fst b)) (l1 ++ l2)).
  { clear. intros l1 l2 S1 S2 H. induction S1 as [|a l1 S1 IH Q]; [exact S2|]. cbn [app]. constructor; [apply IH; intros; apply H; [right|]; assumption|]. apply Forall_app. split; [exact Q|]. apply List.Forall_forall. intros b Hb. apply H; [left; reflexivity|exact Hb]. }
  apply App; [apply M; assumption|apply M; assumption|]. intros a b Ha Hb. apply in_map_iff in Ha. apply in_map_iff in Hb. destruct Ha as (p & <- & Hp). destruct Hb as (q & <- & Hq). cbn [fst].
  rewrite List.Forall_forall in Fl, Fr. specialize (Fl p Hp). specialize (Fr q Hq). destruct (prefix_half (fst p) ltac:(lia)) as [_ ->]. destruct (prefix_half (fst q) ltac:(lia)) as [_ ->]. pose proof (half_lt (fst p) ltac:(lia)). cbn [N.b2n]. lia.
Qed.

(** ** Partitions *)
(** The number of paths that are prefixes of [x]. *)
Fixpoint pre (p x : list bool) : bool := match p, x with [], _ => true | b :: p, c :: x => eqb b c && pre p x | _ :: _, [] => false end.
Lemma pre_ok p x : pre p x = true <-> p `prefix_of` x.
Proof.
  revert x. induction p as [|b p IH]; intros x; cbn [pre]; [split; [intros _; apply prefix_nil|reflexivity]|]. destruct x as [|c x]; [split; [discriminate|intros [k K]; discriminate]|].
  rewrite andb_true_iff, IH, eqb_true_iff. split; [intros [-> H]; apply prefix_cons, H|intros H; split; [exact (prefix_cons_inv_1 _ _ _ _ H)|exact (prefix_cons_inv_2 _ _ _ _ H)]].
Qed.
Definition count {A} (x : list bool) (ps : list (list bool * A)) : nat := length (List.filter (fun p => pre (fst p) x) ps).
Lemma count_app {A} x (a b : list (list bool * A)) : count x (a ++ b) = (count x a + count x b)%nat.
Proof. unfold count. rewrite List.filter_app, app_length. reflexivity. Qed.
Lemma count_cons_path {A} b c x (ps : list (list bool * A)) : count (c :: x) (map (fun p => (b :: fst p, snd p)) ps) = if eqb b c then count x ps else 0%nat.
Proof.
  unfold count. induction ps as [|p ps IH]; [destruct (eqb b c); reflexivity|]. cbn [map List.filter fst pre]. destruct (eqb b c); cbn [andb]; [|exact IH]. destruct (pre (fst p) x); cbn [length]; rewrite ?IH; reflexivity.
Qed.
Lemma count_zero {A} x (ps : list (list bool * A)) : count x ps = 0%nat <-> Forall (fun p => pre (fst p) x = false) ps.
Proof.
  unfold count. induction ps as [|p ps IH]; cbn [List.filter]; [split; [constructor|reflexivity]|]. destruct (pre (fst p) x) eqn:E; cbn [length].
  - split; [discriminate|]. inversion_clear 1 as [|? ? H1 H2]. congruence.
  - rewrite IH. split; [intros H; constructor; assumption|inversion_clear 1; assumption].
Qed.
Definition part {A} (n : nat) (ps : list (list bool * A)) : Prop := forall x, length x = n -> count x ps = 1%nat.
Lemma leaves_part {A} (t : tree A) : forall n, (height t <= n)%nat -> part n (leaves [] t).
Proof.
  induction t as [a|l IHl r IHr]; intros n H x Hx; [reflexivity|]. cbn [height] in H. destruct n as [|n]; [lia|]. destruct x as [|c x]; [discriminate|]. injection Hx as Hx.
  rewrite leaves_fork, count_app, !count_cons_path. specialize (IHl n ltac:(lia) x Hx). specialize (IHr n ltac:(lia) x Hx). destruct c; cbn [eqb]; lia.
Qed.
Lemma sorted_split {A} (ps : list (list bool * A)) : Forall (fun p => (length (fst p) <= 60)%nat) ps -> StronglySorted (fun a b => path_prefix (fst a) <= path_prefix (fst b)) ps -> Forall (fun p => fst p <> []) ps ->
  exists F T, ps = map (fun p => (false :: fst p, snd p)) F ++ map (fun p => (true :: fst p, snd p)) T.
Proof.
  intros L S N. induction S as [|[q a] ps S IH Q]; [exists [], []; reflexivity|]. inversion_clear L as [|? ? L1 L2]. inversion_clear N as [|? ? N1 N2]. destruct (IH L2 N2) as (F & T & ->). cbn [fst] in *. destruct q as [|b q]; [congruence|]. destruct b.
  - destruct F as [|[f x] F].
    + exists [], ((q, a) :: T). reflexivity.
    + exfalso. cbn [map app] in Q, L2. inversion_clear Q as [|? ? Q1 _]. inversion_clear L2 as [|? ? L3 _]. cbn [fst length] in *. destruct (prefix_half f ltac:(lia)) as [_ E1]. destruct (prefix_half q ltac:(lia)) as [_ E2]. rewrite E1, E2 in Q1. pose proof (half_lt f ltac:(lia)). cbn [N.b2n] in Q1. lia.
  - exists ((q, a) :: F), T. reflexivity.
Qed.
Lemma sorted_half {A} b (ps : list (list bool * A)) : Forall (fun p => (length (fst p) <= 59)%nat) ps -> StronglySorted (fun a b => path_prefix (fst a) <= path_prefix (fst b)) (map (fun p => (b :: fst p, snd p)) ps) ->
  StronglySorted (fun a b => path_prefix (fst a) <= path_prefix (fst b)) ps.
Proof.
  induction ps as [|p ps IH]; intros L S; [constructor|]. cbn [map] in S. inversion_clear S as [|? ? S1 S2]. inversion_clear L as [|? ? L1 L2]. constructor; [apply IH; assumption|].
  apply (proj1 (List.Forall_map _ _ _)) in S2. rewrite List.Forall_forall in *. intros q Hq. specialize (S2 q Hq). specialize (L2 q Hq). cbn [fst] in S2.
  destruct (prefix_half (fst p) ltac:(lia)) as [-> E1]. destruct (prefix_half (fst q) ltac:(lia)) as [-> E2]. rewrite E1, E2 in S2. lia.
Qed.
Lemma sorted_app {A} (R : A -> A -> Prop) l1 l2 : StronglySorted R (l1 ++ l2) -> StronglySorted R l1 /\ StronglySorted R l2.
Proof.
  induction l1 as [|a l1 IH]; cbn [app]; [intros H; split; [constructor|exact H]|]. inversion_clear 1 as [|? ? S F]. destruct (IH S) as [S1 S2]. apply Forall_app in F. split; [constructor; tauto|exact S2].
Qed.
Lemma extend p n : (length p <= n)%nat -> exists x, length x = n /\ pre p x = true.
Proof. intros H. exists (p ++ zeros (n - length p)). split; [rewrite app_length, length_zeros; lia|apply pre_ok, prefix_app_r; reflexivity]. Qed.
(** A sorted partition is the list of the leaves of a tree. *)
Lemma part_tree {A} : forall k n (ps : list (list bool * A)), (k <= 60)%nat -> (k <= n)%nat -> Forall (fun p => (length (fst p) <= k)%nat) ps -> part n ps -> StronglySorted (fun a b => path_prefix (fst a) <= path_prefix (fst b)) ps ->
  exists t, (height t <= k)%nat /\ ps = leaves [] t.
Proof.
  induction k as [|k IH]; intros n ps Hk Hn L P S.
  all: assert (Root : forall a, In ([], a) ps -> ps = [([], a)]).
  1,3: (intros a I; apply in_split in I; destruct I as (m1 & m2 & ->); assert (Z : forall x, length x = n -> count x m1 = 0%nat /\ count x m2 = 0%nat);
    [intros x Hx; specialize (P x Hx); rewrite count_app in P; unfold count in P |- *; cbn [List.filter fst pre] in P; cbn [length] in P; lia|];
    apply Forall_app in L; destruct L as [L1 L2]; inversion_clear L2 as [|? ? _ L3];
    assert (E : forall m : list (list bool * A), (forall x, length x = n -> count x m = 0%nat) -> Forall (fun p => (length (fst p) <= n)%nat) m -> m = []);
    [intros [|[q y] m] C F; [reflexivity|]; inversion_clear F as [|? ? F1 _]; cbn [fst] in F1; destruct (extend q n F1) as (x & Hx & Px); specialize (C x Hx); apply count_zero in C; inversion_clear C as [|? ? C1 _]; cbn [fst] in C1; congruence|];
    rewrite (E m1), (E m2); [reflexivity|intros x Hx; apply Z, Hx| |intros x Hx; apply Z, Hx|]; (eapply Forall_impl; [|eassumption]; cbn beta; intros; lia)).
  - assert (exists a, In ([], a) ps) as (a & I).
    { destruct (extend [] n ltac:(cbn; lia)) as (x & Hx & _). specialize (P x Hx). destruct ps as [|[q y] ps]; [discriminate|]. inversion_clear L as [|? ? L1 _]. cbn [fst] in L1. destruct q; [|cbn in L1; lia]. exists y. left. reflexivity. }
    exists (Leaf a). split; [cbn; lia|]. rewrite (Root a I). reflexivity.
  - destruct (Exists_dec (fun p : list bool * A => fst p = []) ps) as [X|X].
    { intros [q y]. destruct q; [left; reflexivity|right; discriminate]. }
    { apply List.Exists_exists in X. destruct X as ([q y] & I & Eq). cbn [fst] in Eq. subst q. exists (Leaf y). split; [cbn; lia|]. rewrite (Root y I). reflexivity. }
    clear Root. assert (N : Forall (fun p : list bool * A => fst p <> []) ps) by (apply Forall_Exists_neg in X; exact X).
    destruct (sorted_split ps) as (F & T & ->); [eapply Forall_impl; [|exact L]; cbn beta; intros; lia|exact S|exact N|]. clear X N.
    apply Forall_app in L. destruct L as [L1 L2]. apply (proj1 (List.Forall_map _ _ _)) in L1. apply (proj1 (List.Forall_map _ _ _)) in L2. cbn [fst length] in L1, L2. destruct (sorted_app _ _ _ S) as [S1 S2].
    assert (F1 : Forall (fun p : list bool * A => (length (fst p) <= k)%nat) F) by (eapply Forall_impl; [|exact L1]; cbn beta; intros; lia).
    assert (F2 : Forall (fun p : list bool * A => (length (fst p) <= k)%nat) T) by (eapply Forall_impl; [|exact L2]; cbn beta; intros; lia).
    destruct n as [|n]; [lia|].
    destruct (IH n F ltac:(lia) ltac:(lia) F1) as (tl & Hl & ->).
    { intros x Hx. specialize (P (false :: x) ltac:(cbn; lia)). rewrite count_app, !count_cons_path in P. cbn [eqb] in P. lia. }
    { apply (sorted_half false); [eapply Forall_impl; [|exact F1]; cbn beta; intros; lia|exact S1]. }
    destruct (IH n T ltac:(lia) ltac:(lia) F2) as (tr & Hr & ->).
    { intros x Hx. specialize (P (true :: x) ltac:(cbn; lia)). rewrite count_app, !count_cons_path in P. cbn [eqb] in P. lia. }
    { apply (sorted_half true); [eapply Forall_impl; [|exact F2]; cbn beta; intros; lia|exact S2]. }
    exists (Fork tl tr). split; [cbn [height]; lia|]. rewrite leaves_fork. reflexivity.
Qed.

(** ** Accounts *)
Lemma contains_pre wc p a : is_path p -> Forall byte_ok a -> length a = 32%nat -> contains_account (shard_at wc p) a = Ok (pre p (bytes_bits a)).
Proof.
  intros H B L. rewrite C37_contains_account by assumption. f_equal. destruct (pre p (bytes_bits a)) eqn:E; [apply bool_decide_eq_true, pre_ok, E|apply bool_decide_eq_false]. intros X. apply pre_ok in X. congruence.
Qed.
Lemma bits_account x : length x = 256%nat -> exists a, Forall byte_ok a /\ length a = 32%nat /\ bytes_bits a = x.
Proof. intros H. exists (to_be 32 (bval x)). split; [apply to_be_ok|]. split; [apply to_be_length|]. rewrite bytes_bits_to_be. apply (nbits_bval' 256), H. Qed.
Lemma count_one {A} x (ps : list (list bool * A)) : count x ps = 1%nat <-> exists l1 p l2, ps = l1 ++ p :: l2 /\ pre (fst p) x = true /\ Forall (fun q => pre (fst q) x = false) (l1 ++ l2).
Proof.
  split.
  - induction ps as [|p ps IH]; [discriminate|]. unfold count. cbn [List.filter]. destruct (pre (fst p) x) eqn:E; cbn [length]; intros H.
    + exists [], p, ps. split; [reflexivity|]. split; [exact E|]. apply count_zero. injection H as H. exact H.
    + destruct (IH H) as (l1 & q & l2 & -> & P & F). exists (p :: l1), q, l2. split; [reflexivity|]. split; [exact P|]. constructor; assumption.
  - intros (l1 & p & l2 & -> & P & F). apply Forall_app in F. destruct F as [F1 F2]. rewrite count_app. apply count_zero in F1. apply count_zero in F2. unfold count in *. cbn [List.filter]. rewrite P. cbn [length]. lia.
Qed.
Definition at_path {A} (wc : Z) (p : list bool * A) : shard * A := (shard_at wc (fst p), snd p).
Lemma partition_part {A} wc (ps : list (list bool * A)) : Forall (fun p => is_path (fst p)) ps -> partition (map fst (map (at_path wc) ps)) <-> part 256 ps.
Proof.
  intros L. rewrite map_map. cbn [at_path fst]. split.
  - intros H x Hx. destruct (bits_account x Hx) as (a & B & La & <-). destruct (H a B La) as (l1 & s & l2 & E & C & F).
    apply map_eq_app in E. destruct E as (k1 & k2 & -> & <- & E). destruct k2 as [|p k2]; [discriminate|]. cbn [map] in E. injection E as <- <-.
    apply Forall_app in L. destruct L as [L1 L2]. inversion_clear L2 as [|? ? Lp L3]. apply count_one. exists k1, p, k2. split; [reflexivity|].
    rewrite (contains_pre _ _ _ Lp B La) in C. split; [congruence|]. rewrite <- map_app in F. apply (proj1 (List.Forall_map _ _ _)) in F.
    assert (L4 : Forall (fun p => is_path (fst p)) (k1 ++ k2)) by (apply Forall_app; auto). rewrite List.Forall_forall in F, L4 |- *. intros q Hq. specialize (F q Hq). rewrite (contains_pre _ _ _ (L4 q Hq) B La) in F. congruence.
  - intros H a B La. destruct (proj1 (count_one _ _) (H (bytes_bits a) ltac:(rewrite length_bytes_bits; lia))) as (k1 & p & k2 & -> & P & F).
    exists (map (fun p => shard_at wc (fst p)) k1), (shard_at wc (fst p)), (map (fun p => shard_at wc (fst p)) k2). split; [rewrite map_app; reflexivity|].
    apply Forall_app in L. destruct L as [L1 L2]. inversion_clear L2 as [|? ? Lp L3]. split; [rewrite (contains_pre _ _ _ Lp B La), P; reflexivity|].
    rewrite <- map_app. apply List.Forall_map. assert (L4 : Forall (fun p => is_path (fst p)) (k1 ++ k2)) by (apply Forall_app; auto). rewrite List.Forall_forall in F, L4 |- *. intros q Hq. rewrite (contains_pre _ _ _ (L4 q Hq) B La), (F q Hq). reflexivity.
Qed.
Lemma shards_partition {A} wc (t : tree A) : (height t <= 60)%nat -> partition (map fst (shards_of wc t)).
Proof.
  intros H. unfold shards_of. apply (partition_part wc).
  - eapply Forall_impl; [|apply leaves_len]. cbn beta. unfold is_path. intros; lia.
  - apply leaves_part. lia.
Qed.
(** Nothing is disjoint from all shards of a tree. *)
Lemma leaves_meet {A} (t : tree A) p : (height t <= 60)%nat -> is_path p -> exists q, In q (map fst (leaves [] t)) /\ (p `prefix_of` q \/ q `prefix_of` p).
Proof.
  intros H Hp. unfold is_path in Hp. destruct (extend p 60 Hp) as (x & Hx & Px). pose proof (leaves_part t 60 H x Hx) as C. apply count_one in C. destruct C as (l1 & q & l2 & E & Q & _).
  exists (fst q). split; [rewrite E, map_app; apply in_or_app; right; left; reflexivity|]. apply pre_ok in Px. apply pre_ok in Q. destruct (prefix_weak_total _ _ _ Px Q) as [?|?]; auto.
Qed.
