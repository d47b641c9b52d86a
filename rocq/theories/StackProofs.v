(** * The merge stack of bulk operations, on trees. *)
From Verif Require Import Err BitsProofs CellModel LabelModel LabelSpec LabelProofs DictModel DictSpec DictTree
  DictProofs DictProofs2 BuildModel.
Local Open Scope nat_scope.

(** An item covers a block of entries.  [a_fix = Some off]: the tree [a_t] below the first
    [off] bits of [a_p]; [None]: the whole label is in [a_p], the label of [a_t] is ignored. *)
Record aitem := AItem { a_p : list bool; a_fix : option nat; a_t : pt; a_prev : nat }.

Definition tree_at (i : aitem) (o : nat) : pt :=
  match a_fix i with Some _ => a_t i | None => relabel (drop o (a_p i)) (a_t i) end.
Definition ents (i : aitem) : list entry :=
  match a_fix i with
  | Some off => under (take off (a_p i)) (entries (a_t i))
  | None => entries (relabel (a_p i) (a_t i))
  end.
Definition fixed_at (i : aitem) (o : nat) : Prop := match a_fix i with Some off => off = o | None => True end.

Lemma under_app p a b : under p (a ++ b) = under p a ++ under p b.
Proof. apply map_app. Qed.
Lemma under_under p q es : under p (under q es) = under (p ++ q) es.
Proof. unfold under. rewrite map_map. apply map_ext. intros e. cbn [fst snd]. rewrite app_assoc. reflexivity. Qed.
Lemma under_nil es : under [] es = es.
Proof. unfold under. rewrite <- (map_id es) at 2. apply map_ext. intros [k v]. reflexivity. Qed.
Lemma entries_relabel q l t : entries (relabel (q ++ l) t) = under q (entries (relabel l t)).
Proof.
  destruct t as [l0 v|l0 x a b]; cbn [relabel entries]; [reflexivity|].
  rewrite under_app, !under_under, <- !app_assoc. reflexivity.
Qed.

Lemma take_app_S (q x : list bool) b : take (S (length q)) (q ++ b :: x) = q ++ [b].
Proof. replace (q ++ b :: x) with ((q ++ [b]) ++ x) by (rewrite <- app_assoc; reflexivity). apply take_app_alt. rewrite app_length. cbn [length]. lia. Qed.

Section Abs.
Context (n : nat) (mkx : pt -> pt -> chunk).

Definition valid (i : aitem) : Prop :=
  match a_fix i with
  | Some off => off <= length (a_p i) /\ length (a_p i) <= n /\ wft (n - off) (a_t i)
  | None => wft n (relabel (a_p i) (a_t i))
  end.
Lemma lbl_relabel l t : lbl (relabel l t) = l.
Proof. destruct t; reflexivity. Qed.
Lemma relabel_relabel l l' t : relabel l (relabel l' t) = relabel l t.
Proof. destruct t; reflexivity. Qed.
Lemma valid_len i : valid i -> length (a_p i) <= n.
Proof.
  unfold valid. destruct (a_fix i) as [off|]; [intros (_ & H & _); exact H|]. intros H. apply lbl_le in H. rewrite lbl_relabel in H. exact H.
Qed.
Lemma valid_tree i o : valid i -> fixed_at i o -> o <= length (a_p i) -> wft (n - o) (tree_at i o).
Proof.
  unfold valid, fixed_at, tree_at. intros V F Ho. pose proof (valid_len i V) as L. destruct (a_fix i) as [off|]; [subst; apply V|].
  rewrite <- (relabel_relabel _ (a_p i)). eapply relabel_wft; [exact V|]. rewrite lbl_relabel, drop_length. lia.
Qed.
Lemma ents_tree i o : fixed_at i o -> ents i = under (take o (a_p i)) (entries (tree_at i o)).
Proof.
  unfold fixed_at, ents, tree_at. destruct (a_fix i) as [off|]; [intros ->; reflexivity|]. intros _.
  rewrite <- entries_relabel, take_drop. reflexivity.
Qed.

Definition a_merge (lf r : aitem) (off : nat) : aitem :=
  let split := a_prev r in
  let a := tree_at lf (S split) in let b := tree_at r (S split) in
  AItem (a_p r) (Some off) (Fork (take (split - off) (drop off (a_p r))) (mkx a b) a b) (a_prev lf).

(** [w] is directly below [u] on the stack. *)
Definition linked (u w : aitem) : Prop :=
  exists q x y, length q = a_prev u /\ a_p w = q ++ false :: x /\ a_p u = q ++ true :: y /\ fixed_at w (S (a_prev u)).

Lemma merge_spec lf r off : valid lf -> valid r -> linked r lf -> fixed_at r (S (a_prev r)) -> off <= a_prev r ->
  valid (a_merge lf r off) /\ ents (a_merge lf r off) = ents lf ++ ents r.
Proof.
  intros Vl Vr (q & x & y & Hq & El & Er & Fl) Fr Ho. set (s := a_prev r) in *.
  assert (Ll : S s <= length (a_p lf)) by (rewrite El, app_length; cbn [length]; lia).
  assert (Lr : S s <= length (a_p r)) by (rewrite Er, app_length; cbn [length]; lia).
  pose proof (valid_len _ Vr) as Ln.
  pose proof (valid_tree lf (S s) Vl Fl Ll) as Wl. pose proof (valid_tree r (S s) Vr Fr Lr) as Wr.
  assert (Lab : take (s - off) (drop off (a_p r)) = drop off q).
  { rewrite Er, drop_app_le by lia. apply take_app_alt. rewrite drop_length. lia. }
  assert (Pre : take off (a_p r) = take off q) by (rewrite Er; apply take_app_le; lia).
  unfold a_merge. fold s. split.
  - unfold valid. cbn [a_fix a_p a_t]. split; [lia|]. split; [exact Ln|]. cbn [wft]. rewrite Lab, drop_length.
    exists (n - S s). split; [lia|]. split; assumption.
  - rewrite (ents_tree lf (S s) Fl), (ents_tree r (S s) Fr). unfold ents. cbn [a_fix a_p a_t entries].
    rewrite Lab, Pre, under_app, !under_under. rewrite El, Er. rewrite <- Hq, !take_app_S.
    f_equal; (rewrite app_assoc, take_drop; reflexivity).
Qed.

Fixpoint below (u : aitem) (st : list aitem) : Prop :=
  match st with
  | [] => a_prev u = 0
  | w :: st' => linked u w /\ (st' = [] \/ a_prev w < a_prev u) /\ valid w /\ below w st'
  end.
Fixpoint flat (st : list aitem) : list entry :=
  match st with [] => [] | i :: st' => flat st' ++ ents i end.

(** The merged item takes the place of its left part. *)
Lemma below_merge lf r off st : linked r lf -> (st = [] \/ a_prev lf < a_prev r) -> below lf st -> below (a_merge lf r off) st.
Proof.
  intros (q & x & y & Hq & El & Er & _) Hs Hb. destruct st as [|w st]; cbn [below a_prev a_merge] in *; [exact Hb|].
  destruct Hs as [Hs|Hs]; [discriminate|]. destruct Hb as (Lk & Hp & Vw & Hb). split; [|auto].
  destruct Lk as (q' & x' & y' & Hq' & Ew & El' & Fw). exists q', x'. cbn [a_merge a_p a_prev].
  rewrite El in El'. assert (exists z, q = q' ++ true :: z) as [z ->].
  { assert (L : length q' < length q) by lia.
    pose proof (f_equal (take (length q)) El') as T. rewrite take_app in T. rewrite take_app_ge in T by lia.
    destruct (length q - length q') as [|d] eqn:D; [lia|]. cbn [take] in T. exists (take d y'). exact T. }
  exists (z ++ true :: y). rewrite Er, <- app_assoc. auto.
Qed.

Fixpoint a_reduce_loop (r : aitem) (st : list aitem) (lcp : nat) : list aitem :=
  match st with
  | [] => [r]
  | w :: st' =>
    if a_prev r <=? lcp then r :: st
    else a_reduce_loop (a_merge w r (Nat.max (match st' with [] => 1 | _ => a_prev w + 1 end) (lcp + 1))) st' lcp
  end.

Lemma off_eq w st' lcp : below w st' -> Nat.max (match st' with [] => 1 | _ => a_prev w + 1 end) (lcp + 1) = S (Nat.max (a_prev w) lcp).
Proof. destruct st'; cbn [below]; lia. Qed.

Lemma a_reduce_loop_spec r st q x : valid r -> below r st -> a_p r = q ++ false :: x ->
  fixed_at r (S (Nat.max (a_prev r) (length q))) ->
  exists r' st', a_reduce_loop r st (length q) = r' :: st' /\ valid r' /\ below r' st' /\ a_p r' = a_p r /\
    fixed_at r' (S (length q)) /\ flat (r' :: st') = flat (r :: st) /\ (st' = [] \/ a_prev r' < length q).
Proof.
  revert r. induction st as [|w st IH]; intros r Vr Hb Er Fr; cbn [a_reduce_loop].
  - exists r, []. cbn [below] in Hb. rewrite Hb, Nat.max_0_l in Fr. repeat (split; [auto|]). left. reflexivity.
  - destruct Hb as (Lk & Hp & Vw & Hb). destruct (Nat.leb_spec (a_prev r) (length q)) as [L|L].
    + exists r, (w :: st). rewrite Nat.max_r in Fr by exact L. split; [reflexivity|]. split; [exact Vr|].
      split; [cbn [below]; auto|]. split; [reflexivity|]. split; [exact Fr|]. split; [reflexivity|]. right.
      destruct (Nat.eq_dec (a_prev r) (length q)) as [E|]; [|lia]. exfalso.
      destruct Lk as (q' & x' & y' & Hq & _ & Er' & _). rewrite Er in Er'. rewrite E in Hq. apply app_inj_1 in Er'; [|lia]. destruct Er' as [_ C]. discriminate C.
    + rewrite off_eq by exact Hb. rewrite Nat.max_l in Fr by lia.
      assert (Hw : a_prev w < a_prev r) by (destruct Hp as [->|Hp]; [cbn [below] in Hb; lia|exact Hp]).
      destruct (merge_spec w r (S (Nat.max (a_prev w) (length q))) Vw Vr Lk Fr ltac:(lia)) as [Vm Em].
      destruct (IH (a_merge w r (S (Nat.max (a_prev w) (length q))))) as (r' & st' & E1 & V1 & B1 & P1 & F1 & X1 & S1).
      * exact Vm.
      * apply below_merge; [exact Lk|right; exact Hw|exact Hb].
      * exact Er.
      * reflexivity.
      * exists r', st'. split; [exact E1|]. split; [exact V1|]. split; [exact B1|]. split; [exact P1|]. split; [exact F1|].
        split; [|exact S1]. rewrite X1. cbn [flat]. rewrite Em, app_assoc. reflexivity.
Qed.

(** One new item on a non-empty stack. *)
Definition a_reduce (st : list aitem) (key : list bool) : nat * list aitem :=
  match st with
  | [] => (0, [])
  | last :: st' =>
    let lcp := length (cpfx (a_p last) key) in
    if lcp <=? a_prev last then (lcp, a_reduce_loop last st' lcp) else (lcp, st)
  end.
Lemma a_reduce_spec top st key q x y : valid top -> below top st -> a_p top = q ++ false :: x -> key = q ++ true :: y ->
  fixed_at top (S (Nat.max (a_prev top) (length q))) ->
  exists st', a_reduce (top :: st) key = (length q, st') /\ flat st' = flat (top :: st) /\
    forall i, a_p i = key -> a_prev i = length q -> below i st'.
Proof.
  intros V B Et -> F. unfold a_reduce. rewrite Et. rewrite (cpfx_diverge q false x y : cpfx (q ++ false :: x) (q ++ true :: y) = q).
  assert (G : forall w st', valid w -> below w st' -> a_p w = a_p top -> fixed_at w (S (length q)) -> (st' = [] \/ a_prev w < length q) ->
    forall i, a_p i = q ++ true :: y -> a_prev i = length q -> below i (w :: st')).
  { intros w st' Vw Bw Pw Fw Sw i Pi Hi. cbn [below]. rewrite Hi. split; [|auto].
    exists q, x, y. rewrite Hi, Pw. auto. }
  destruct (Nat.leb_spec (length q) (a_prev top)) as [L|L].
  - destruct (a_reduce_loop_spec top st q x V B Et F) as (r' & st' & E & V' & B' & P' & F' & X' & S').
    exists (r' :: st'). rewrite E. split; [reflexivity|]. split; [exact X'|]. apply G; assumption.
  - exists (top :: st). split; [reflexivity|]. split; [reflexivity|]. rewrite Nat.max_r in F by lia. apply G; auto.
Qed.

Fixpoint a_finalize (r : aitem) (st : list aitem) : aitem :=
  match st with
  | [] => r
  | w :: st' => a_finalize (a_merge w r (match st' with [] => 0 | _ => a_prev w + 1 end)) st'
  end.
Lemma a_finalize_spec r st : valid r -> below r st -> fixed_at r (match st with [] => 0 | _ => S (a_prev r) end) ->
  let T := tree_at (a_finalize r st) 0 in
  valid (a_finalize r st) /\ fixed_at (a_finalize r st) 0 /\ wft n T /\ entries T = flat (r :: st).
Proof.
  revert r. induction st as [|w st IH]; intros r Vr Hb Fr; cbn [a_finalize].
  - cbv zeta. split; [exact Vr|]. split; [exact Fr|]. pose proof (valid_tree r 0 Vr Fr ltac:(lia)) as W. rewrite Nat.sub_0_r in W.
    split; [exact W|]. cbn [flat app]. rewrite (ents_tree r 0 Fr). cbn [take]. rewrite under_nil. reflexivity.
  - destruct Hb as (Lk & Hp & Vw & Hb). set (off := match st with [] => 0 | _ => a_prev w + 1 end).
    assert (Ho : off <= a_prev r) by (subst off; destruct Hp as [->|Hp]; [lia|destruct st; lia]).
    destruct (merge_spec w r off Vw Vr Lk Fr Ho) as [Vm Em].
    destruct (IH (a_merge w r off)) as (V & F & W & E).
    + exact Vm.
    + apply below_merge; assumption.
    + unfold fixed_at. cbn [a_merge a_fix a_prev]. subst off. destruct st; [reflexivity|lia].
    + split; [exact V|]. split; [exact F|]. split; [exact W|]. rewrite E. cbn [flat]. rewrite Em, app_assoc. reflexivity.
Qed.
End Abs.
