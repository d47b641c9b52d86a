(** * Building trees *)
From Coq Require Import Sorting.Sorted.
From Verif Require Import Err BitsProofs IntModel IntProofs CellModel ChunkSpec DeriveSpec ShardModel ShardSpec ShardProofs ShardProps HashesModel HashesSpec HashesProofs HashesProofs2 HashesProofs3.
Local Open Scope N_scope.

Section Fin.
Context (fin : list bool -> list cell -> res unit).
(** The cells that are built for a tree. *)
Inductive built : tree sdescr -> cell -> Prop :=
| built_leaf d c : make_leaf fin d = Ok c -> built (Leaf d) c
| built_fork l r cl cr c : built l cl -> built r cr -> make_edge fin cl cr = Ok c -> built (Fork l r) c.
Definition same_leaves (p : list bool) (t : tree sdescr) (t' : tree chunk) : Prop :=
  Forall2 (fun a b => fst a = fst b /\ w_write (sdescr_w fin) (snd a) (snd b)) (leaves p t) (leaves p t').
Lemma same_height t t' : (forall p, same_leaves p t t') -> (height t' <= height t)%nat.
Proof.
  intros S. apply height_leaves. pose proof (leaves_len t) as L. specialize (S []). unfold same_leaves in S. revert L. induction S as [|a b la lb [E _] S IH]; intros L; [constructor|].
  inversion_clear L as [|? ? L1 L2]. constructor; [rewrite <- E; exact L1|apply IH, L2].
Qed.
Lemma built_tree t c : built t c -> Forall (fun p => w_ok (sdescr_w fin) (snd p)) (leaves [] t) -> exists t', bintree c t' /\ forall p, same_leaves p t t'.
Proof.
  induction 1 as [d c E|l r cl cr c Bl IHl Br IHr E]; intros O.
  - inversion_clear O as [|? ? O1 _]. destruct (make_leaf_inv fin d c O1 E) as (x & W & -> & _). exists (Leaf (fst x, snd x)). split; [constructor|]. intros p. constructor; [|constructor]. cbn [fst snd]. split; [reflexivity|]. destruct x. exact W.
  - rewrite leaves_fork in O. apply Forall_app in O. destruct O as [O1 O2]. apply (proj1 (List.Forall_map _ _ _)) in O1. apply (proj1 (List.Forall_map _ _ _)) in O2. destruct (IHl O1) as (tl & B1 & S1). destruct (IHr O2) as (tr & B2 & S2).
    destruct (make_edge_inv fin _ _ _ E) as [-> _]. exists (Fork tl tr). split; [constructor; assumption|]. intros p. unfold same_leaves. cbn [leaves]. apply Forall2_app; [apply S1|apply S2].
Qed.
Lemma built_ok t : (forall b r, (length b <= 1023)%nat -> (length r <= 4)%nat -> fin b r = Ok tt) -> Forall (fun p => w_ok (sdescr_w fin) (snd p)) (leaves [] t) -> exists c, built t c.
Proof.
  intros Hf. induction t as [d|l IHl r IHr]; intros O.
  - inversion_clear O as [|? ? O1 _]. destruct (law_ok _ _ (lawful_sdescr fin) d O1) as (x & W). destruct (sdescr_fits fin d x W) as [B R]. eexists. constructor. apply (make_leaf_ok fin d x W). apply Hf; cbn [length]; lia.
  - rewrite leaves_fork in O. apply Forall_app in O. destruct O as [O1 O2]. apply (proj1 (List.Forall_map _ _ _)) in O1. apply (proj1 (List.Forall_map _ _ _)) in O2. destruct (IHl O1) as (cl & B1). destruct (IHr O2) as (cr & B2).
    eexists. econstructor; [exact B1|exact B2|]. apply make_edge_ok. apply Hf; cbn; lia.
Qed.

(** ** Complete lists *)
Context (wc : Z).
Lemma attach_left stk p c : is_path (p ++ [false]) -> attach fin stk (shard_at wc (p ++ [false])) c = Ok (inr ((shard_at wc (p ++ [false]), c) :: stk)).
Proof. intros H. assert (L : is_left_child (shard_at wc (p ++ [false])) = true) by (unfold is_left_child; rewrite is_right_snoc by exact H; reflexivity). destruct stk; cbn [attach]; rewrite L; reflexivity. Qed.
Lemma shard_eqb_refl s : shard_eqb s s = true.
Proof. unfold shard_eqb. rewrite Z.eqb_refl, N.eqb_refl. reflexivity. Qed.
Lemma attach_right stk p cl cr c : is_path (p ++ [true]) -> make_edge fin cl cr = Ok c ->
  attach fin ((shard_at wc (p ++ [false]), cl) :: stk) (shard_at wc (p ++ [true])) cr = if is_full (shard_at wc p) then Ok (inl c) else attach fin stk (shard_at wc p) c.
Proof.
  intros H E. assert (H' : is_path (p ++ [false])) by (unfold is_path in *; rewrite app_length in *; exact H).
  assert (L : is_left_child (shard_at wc (p ++ [true])) = false) by (unfold is_left_child; rewrite is_right_snoc by exact H; reflexivity). cbn [attach]. rewrite L, !C37_merge, shard_eqb_refl, E by assumption. reflexivity.
Qed.
Lemma build_leaves t c : built t c -> forall p rest stk, p <> [] -> (length p + height t <= 60)%nat ->
  build_loop fin (map (at_path wc) (leaves p t) ++ rest) stk = let? r := attach fin stk (shard_at wc p) c in match r with inl root => Ok root | inr stk => build_loop fin rest stk end.
Proof.
  induction 1 as [d c E|l r cl cr c Bl IHl Br IHr E]; intros p rest stk Np Hp; cbn [leaves height] in *.
  - cbn [map app build_loop at_path fst snd]. rewrite E. reflexivity.
  - rewrite map_app, <- app_assoc. assert (Q : is_path (p ++ [true])) by (unfold is_path; rewrite app_length; cbn; lia).
    rewrite IHl, attach_left; [|unfold is_path; rewrite app_length; cbn; lia|destruct p; discriminate|rewrite app_length; cbn; lia]. cbn [rbind].
    rewrite IHr, (attach_right stk p cl cr c Q E); [|destruct p; discriminate|rewrite app_length; cbn; lia].
    destruct (is_full (shard_at wc p)) eqn:F; [|reflexivity]. apply is_full_path in F; [congruence|unfold is_path; lia].
Qed.
Lemma first_leaf {A} (t : tree A) : forall p, exists k x rest, leaves p t = (p ++ replicate k false, x) :: rest.
Proof.
  induction t as [x|l IHl r IHr]; intros p; [exists 0%nat, x, []; cbn; rewrite app_nil_r; reflexivity|]. destruct (IHl (p ++ [false])) as (k & x & rest & E). cbn [leaves]. rewrite E. exists (S k), x, (rest ++ leaves (p ++ [true]) r). rewrite <- app_assoc. reflexivity.
Qed.
Lemma try_build_loop s d rest : is_full s = false -> is_left_child s = true -> try_build fin ((s, d) :: rest) = build_loop fin ((s, d) :: rest) [].
Proof.
  intros F L. cbn [try_build build_loop]. destruct (make_leaf fin d) as [c|]; [|reflexivity]. cbn [rbind]. rewrite F. unfold is_left_child in L. destruct (is_right_child s) eqn:R; [discriminate|]. cbn [attach]. unfold is_left_child. rewrite R. reflexivity.
Qed.
Lemma try_build_ok t c : built t c -> (height t <= 60)%nat -> try_build fin (map (at_path wc) (leaves [] t)) = Ok c.
Proof.
  intros B H. destruct B as [d c E|l r cl cr c Bl Br E].
  - cbn [leaves map at_path fst snd try_build]. rewrite E. cbn [rbind]. rewrite (proj2 (is_full_path wc [] ltac:(unfold is_path; cbn; lia)) eq_refl). reflexivity.
  - cbn [leaves app height] in *. destruct (first_leaf l [false]) as (k & x & rest & Ef). pose proof (build_leaves l cl Bl [false] (map (at_path wc) (leaves [true] r)) [] ltac:(discriminate) ltac:(cbn; lia)) as Q.
    rewrite <- map_app in Q. assert (T : try_build fin (map (at_path wc) (leaves [false] l ++ leaves [true] r)) = build_loop fin (map (at_path wc) (leaves [false] l ++ leaves [true] r)) []).
    { pose proof (leaves_len l) as Ll. rewrite leaves_app in Ef. assert (I : In ([false] ++ replicate k false, x) (map (fun p => ([false] ++ fst p, snd p)) (leaves [] l))) by (rewrite Ef; left; reflexivity).
      apply in_map_iff in I. destruct I as ([q y] & Eq & I). rewrite List.Forall_forall in Ll. specialize (Ll _ I). cbn [fst snd] in Eq, Ll. injection Eq as -> ->.
      rewrite leaves_app, Ef. cbn [app map at_path fst snd]. change (false :: replicate k false) with (replicate (S k) false). rewrite replicate_length in Ll.
      assert (Hp : is_path (replicate k false ++ [false])) by (unfold is_path; rewrite app_length, replicate_length; cbn; lia).
      change (at_path wc (replicate (S k) false, x)) with (shard_at wc (replicate (S k) false), x). rewrite replicate_S_end. apply try_build_loop; [apply is_full_snoc, Hp|unfold is_left_child; rewrite is_right_snoc by exact Hp; reflexivity]. }
    rewrite T, Q. change [false] with ([] ++ [false]) at 1. rewrite attach_left by (unfold is_path; cbn; lia). cbn [rbind].
    pose proof (build_leaves r cr Br [true] [] [(shard_at wc ([] ++ [false]), cl)] ltac:(discriminate) ltac:(cbn [length]; lia)) as Q2. rewrite app_nil_r in Q2. etransitivity; [exact Q2|].
    change [true] with ([] ++ [true]) at 1. rewrite (attach_right [] [] cl cr c ltac:(unfold is_path; cbn; lia) E). rewrite (proj2 (is_full_path wc [] ltac:(unfold is_path; cbn; lia)) eq_refl). reflexivity.
Qed.

(** ** What is built *)
Inductive stacked : list (shard * cell) -> list (list bool * sdescr) -> Prop :=
| stacked_nil : stacked [] []
| stacked_push p t c stk ps : stacked stk ps -> built t c -> is_path p -> is_left_child (shard_at wc p) = true -> stacked ((shard_at wc p, c) :: stk) (ps ++ leaves p t).
Lemma last_of (p : list bool) : p = [] \/ exists q b, p = q ++ [b].
Proof. induction p as [|b q _] using rev_ind; [left; reflexivity|right; eauto]. Qed.
Lemma merge_inv p s : is_path p -> merge (shard_at wc p) = Some s -> exists q b, p = q ++ [b] /\ s = shard_at wc q.
Proof.
  intros H E. destruct (last_of p) as [->|(q & b & ->)]; [unfold merge in E; rewrite (proj2 (is_full_path wc [] H) eq_refl) in E; discriminate|]. rewrite C37_merge in E by exact H. injection E as <-. eauto.
Qed.
Lemma attach_sound stk ps : stacked stk ps -> forall p t c r, built t c -> is_path p -> attach fin stk (shard_at wc p) c = Ok r ->
  match r with inl root => exists before t', built t' root /\ ps ++ leaves p t = before ++ leaves [] t' | inr stk' => stacked stk' (ps ++ leaves p t) end.
Proof.
  induction 1 as [|p' t' c' stk ps S IH B' P' L']; intros p t c r B P A; cbn [attach] in A; (destruct (is_left_child (shard_at wc p)) eqn:L; [injection A as <-; apply stacked_push; [constructor; assumption|assumption|assumption|assumption]|]); [discriminate|].
  destruct (merge (shard_at wc p')) as [a|] eqn:Ma; [|discriminate]. destruct (merge (shard_at wc p)) as [a'|] eqn:Mb; [|discriminate].
  destruct (merge_inv _ _ P' Ma) as (q & b & -> & ->). destruct (merge_inv _ _ P Mb) as (q' & b' & -> & ->). destruct (shard_eqb _ _) eqn:Q; [|discriminate].
  unfold shard_eqb in Q. apply andb_true_iff in Q. destruct Q as [_ Q]. apply N.eqb_eq in Q. cbn [shard_at sh_prefix] in Q. unfold is_path in P, P'. rewrite app_length in P, P'. cbn [length] in P, P'. apply word_inj in Q; [|lia|lia]. subst q'.
  unfold is_left_child in L, L'. rewrite is_right_snoc in L, L' by (unfold is_path; rewrite app_length; cbn; lia). destruct b; [discriminate|]. destruct b'; [|discriminate].
  destruct (make_edge fin c' c) as [e|] eqn:E; [|discriminate]. cbn [rbind] in A. pose proof (built_fork _ _ _ _ _ B' B E) as Be. rewrite <- app_assoc. change (leaves (q ++ [false]) t' ++ leaves (q ++ [true]) t) with (leaves q (Fork t' t)).
  destruct (is_full (shard_at wc q)) eqn:F.
  - injection A as <-. apply is_full_path in F; [|unfold is_path; lia]. subst q. exists ps, (Fork t' t). auto.
  - exact (IH q (Fork t' t) e r Be ltac:(unfold is_path; lia) A).
Qed.
Lemma build_loop_sound : forall ps stk done c, stacked stk done -> Forall (fun p => is_path (fst p)) ps -> build_loop fin (map (at_path wc) ps) stk = Ok c ->
  exists before t after, done ++ ps = before ++ leaves [] t ++ after /\ built t c.
Proof.
  induction ps as [|[p d] ps IH]; intros stk done c S F H; [discriminate|]. inversion_clear F as [|? ? F1 F2]. cbn [map at_path fst snd build_loop] in *. destruct (make_leaf fin d) as [l|] eqn:E; [|discriminate]. cbn [rbind] in H.
  destruct (attach fin stk (shard_at wc p) l) as [r|] eqn:A; [|discriminate]. cbn [rbind] in H. pose proof (attach_sound stk done S p (Leaf d) l r (built_leaf _ _ E) F1 A) as Q. destruct r as [root|stk'].
  - injection H as <-. destruct Q as (before & t' & B & Eq). exists before, t', ps. split; [|exact B]. cbn [leaves] in Eq. rewrite app_assoc, <- Eq, <- app_assoc. reflexivity.
  - cbn [leaves] in Q. destruct (IH _ _ _ Q F2 H) as (before & t & after & Eq & B). exists before, t, after. split; [|exact B]. rewrite <- Eq, <- app_assoc. reflexivity.
Qed.
Lemma try_build_sound ps c : Forall (fun p => is_path (fst p)) ps -> try_build fin (map (at_path wc) ps) = Ok c ->
  exists before t after, ps = before ++ leaves [] t ++ after /\ built t c.
Proof.
  destruct ps as [|[p d] ps]; [discriminate|]. intros F H. inversion_clear F as [|? ? F1 F2]. cbn [map at_path fst snd try_build] in *. destruct (make_leaf fin d) as [l|] eqn:E; [|discriminate]. cbn [rbind] in H.
  destruct (is_full (shard_at wc p)) eqn:U.
  - injection H as <-. apply is_full_path in U; [|exact F1]. subst p. exists [], (Leaf d), ps. split; [reflexivity|constructor; exact E].
  - destruct (is_right_child (shard_at wc p)) eqn:R; [discriminate|]. assert (S : stacked [(shard_at wc p, l)] ([] ++ leaves p (Leaf d))) by (apply stacked_push; [constructor|constructor; exact E|exact F1|unfold is_left_child; rewrite R; reflexivity]).
    destruct (build_loop_sound ps _ _ c S F2 H) as (before & t & after & Eq & B). exists before, t, after. split; [exact Eq|exact B].
Qed.
(** Of shards without common accounts, all are in the tree. *)
Lemma try_build_disjoint ps c : Forall (fun p => is_path (fst p)) ps -> disjoint (map fst (map (at_path wc) ps)) -> try_build fin (map (at_path wc) ps) = Ok c ->
  exists t, (height t <= 60)%nat /\ ps = leaves [] t /\ built t c.
Proof.
  intros F D H. destruct (try_build_sound ps c F H) as (before & t & after & -> & B). apply Forall_app in F. destruct F as [F1 F2]. apply Forall_app in F2. destruct F2 as [F2 F3].
  assert (Ht : (height t <= 60)%nat) by (apply height_leaves; exact F2).
  rewrite map_map in D. cbn [at_path fst] in D.
  assert (X : forall a b l1 l2, before ++ leaves [] t ++ after = l1 ++ a :: l2 -> In b (l1 ++ l2) -> intersects (shard_at wc (fst a)) (shard_at wc (fst b)) = false).
  { intros a b l1 l2 Q I. specialize (D (map (fun p => shard_at wc (fst p)) l1) (shard_at wc (fst a)) (map (fun p => shard_at wc (fst p)) l2)). rewrite Q, map_app in D. specialize (D eq_refl). rewrite <- map_app in D. apply (proj1 (List.Forall_map _ _ _)) in D. rewrite List.Forall_forall in D. exact (D b I). }
  assert (X1 : forall a b, In a before -> In b (leaves [] t) -> intersects (shard_at wc (fst a)) (shard_at wc (fst b)) = false).
  { intros a b Ia Ib. apply in_split in Ia. destruct Ia as (m1 & m2 & ->). apply (X a b m1 (m2 ++ leaves [] t ++ after)); [rewrite <- app_assoc; reflexivity|]. rewrite !in_app_iff. tauto. }
  assert (X2 : forall a b, In a after -> In b (leaves [] t) -> intersects (shard_at wc (fst a)) (shard_at wc (fst b)) = false).
  { intros a b Ia Ib. apply in_split in Ia. destruct Ia as (m1 & m2 & ->). apply (X a b (before ++ leaves [] t ++ m1) m2); [rewrite <- !app_assoc; reflexivity|]. rewrite !in_app_iff. tauto. }
  assert (Y : forall p, is_path p -> exists q, In q (leaves [] t) /\ (p `prefix_of` fst q \/ fst q `prefix_of` p)).
  { intros p Hp. destruct (leaves_meet t p Ht Hp) as (q & I & M). apply in_map_iff in I. destruct I as (q' & <- & I). eauto. }
  exists t. split; [exact Ht|]. split; [|exact B]. assert (before = [] /\ after = []) as [-> ->]; [|rewrite app_nil_r; reflexivity].
  rewrite List.Forall_forall in F1, F2, F3. split.
  - destruct before as [|a before]; [reflexivity|]. exfalso. specialize (F1 a (or_introl eq_refl)). destruct (Y (fst a) F1) as (q & I & M). specialize (X1 a q (or_introl eq_refl) I).
    assert (intersects (shard_at wc (fst a)) (shard_at wc (fst q)) = true) by (apply intersects_ok; [exact F1|exact (F2 q I)|auto]). congruence.
  - destruct after as [|a after]; [reflexivity|]. exfalso. specialize (F3 a (or_introl eq_refl)). destruct (Y (fst a) F3) as (q & I & M). specialize (X2 a q (or_introl eq_refl) I).
    assert (intersects (shard_at wc (fst a)) (shard_at wc (fst q)) = true) by (apply intersects_ok; [exact F3|exact (F2 q I)|auto]). congruence.
Qed.
End Fin.
