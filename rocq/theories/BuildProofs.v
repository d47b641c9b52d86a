(** * Bulk building: the cells of the merge stack. *)
From Verif Require Import Err BitsProofs CellModel LabelModel LabelSpec LabelProofs DictModel DictSpec DictTree
  DictProofs DictProofs2 BuildModel StackProofs.
Local Open Scope nat_scope.

Definition px (a b : pt) : chunk := ([], []).

Section B.
Context (fin : list bool -> list cell -> res unit) (n : nat) (Hn : n <= 1023).
Notation CR := (canonical_dict fin).

(** What a concrete item stands for. *)
Definition crel (R : rules) (i : mitem) (a : aitem) : Prop :=
  m_prefix i = a_p a /\ m_prev i = a_prev a /\
  match i with
  | MLeaf _ v _ => a_fix a = None /\ exists l, a_t a = Leaf l v
  | MNode _ c _ => exists off, a_fix a = Some off /\ Rep R (n - off) c (a_t a)
  | MDenorm _ c off _ => a_fix a = None /\ exists bits refs, c = Cell false bits refs /\ off <= length bits /\
      has_content R (a_t a) (drop off bits, refs)
  end.

Definition content (i : mitem) : chunk :=
  match i with
  | MLeaf _ v _ => v
  | MNode _ c _ => ([], [])
  | MDenorm _ c off _ => (drop off (c_bits c), c_refs c)
  end.

(** Items without a fixed cell. *)
Lemma m_child_flex R i a s : crel R i a -> a_fix a = None -> S s <= length (a_p a) ->
  has_content R (a_t a) (content i) /\
  forall c, m_child fin i s (n - S s) = Ok c <-> make_leaf fin (drop (S s) (a_p a)) (n - S s) (content i) = Ok c.
Proof.
  intros (Hp & _ & H) Hf Hs. destruct i as [p v q|p c q|p c off q]; cbn [m_prefix m_child content] in *.
  - destruct H as (_ & l & ->). split; [reflexivity|]. intros c. unfold skip_bits. rewrite Hp.
    rewrite (proj2 (Nat.ltb_ge (length (a_p a)) (s + 1))) by lia. cbn [rbind]. rewrite Nat.add_1_r. reflexivity.
  - destruct H as (off & H & _). congruence.
  - destruct H as (_ & bits & refs & -> & Ho & Hc). cbn [c_bits c_refs as_slice c_exotic rbind s_bits s_refs]. split; [exact Hc|]. intros c.
    unfold skip_bits at 1. rewrite Hp. rewrite (proj2 (Nat.ltb_ge (length (a_p a)) (s + 1))) by lia. cbn [rbind]. rewrite Nat.add_1_r.
    unfold make_leaf. destruct (write_label _ _ _) as [b|]; cbn [rbind]; [|reflexivity].
    unfold skip_bits. rewrite (proj2 (Nat.ltb_ge (length bits) off)) by lia. cbn [rbind]. reflexivity.
Qed.

Lemma m_child_sound R i a s c : reads R -> writes fin R -> crel R i a -> valid n a -> fixed_at a (S s) -> S s <= length (a_p a) ->
  m_child fin i s (n - S s) = Ok c -> Rep R (n - S s) c (tree_at a (S s)).
Proof.
  intros HR HW Hr V F Hs E. pose proof (valid_tree n a (S s) V F Hs) as W. pose proof (valid_len n a V) as L.
  destruct (a_fix a) as [off|] eqn:Ef.
  - unfold fixed_at in F. rewrite Ef in F. subst off. destruct Hr as (_ & _ & H). unfold tree_at. rewrite Ef.
    destruct i as [p v q|p c' q|p c' o q]; [destruct H; congruence| |destruct H; congruence].
    destruct H as (off & H & Rp). rewrite Ef in H. injection H as <-. cbn in E. injection E as <-. exact Rp.
  - destruct (m_child_flex R i a s Hr Ef Hs) as [Hc Hm]. apply Hm in E. unfold tree_at in *. rewrite Ef in *.
    apply make_leaf_iff in E; [|rewrite drop_length; lia|lia]. destruct E as [-> Ok'].
    apply (Rep_relabel fin R HW); [exact Hc|exact W|lia|exact Ok'].
Qed.
Lemma m_child_complete i a s c : crel CR i a -> valid n a -> fixed_at a (S s) -> S s <= length (a_p a) ->
  Rep CR (n - S s) c (tree_at a (S s)) -> m_child fin i s (n - S s) = Ok c.
Proof.
  intros Hr V F Hs E. pose proof (valid_len n a V) as L. destruct (a_fix a) as [off|] eqn:Ef.
  - unfold fixed_at in F. rewrite Ef in F. subst off. destruct Hr as (_ & _ & H). unfold tree_at in E. rewrite Ef in E.
    destruct i as [p v q|p c' q|p c' o q]; [destruct H; congruence| |destruct H; congruence].
    destruct H as (off & H & Rp). rewrite Ef in H. injection H as <-. cbn. f_equal. eapply Rep_canonical_det; eassumption.
  - destruct (m_child_flex CR i a s Hr Ef Hs) as [Hc Hm]. apply Hm. unfold tree_at in E. rewrite Ef in E.
    apply make_leaf_iff; [rewrite drop_length; lia|lia|]. apply (Rep_relabel_inv fin _ _ _ _ _ Hc E).
Qed.

Lemma m_merge_eq lf r al ar off R : crel R lf al -> crel R r ar -> valid n ar -> linked ar al -> off <= a_prev ar ->
  m_merge fin lf r off n =
    (let s := a_prev ar in
     let? b := write_label (take (s - off) (drop off (a_p ar))) (n - off) [] in
     let? rc := m_child fin r s (n - S s) in
     let? lc := m_child fin lf s (n - S s) in
     let? r1 := putr [lc] [] in
     let? r2 := putr [rc] r1 in
     let? c := build fin (b, r2) in
     Ok (MNode (a_p ar) c (a_prev al))).
Proof.
  intros (Hpl & Hql & _) (Hpr & Hqr & _) V (q & x & y & Hq & El & Er & _) Ho. pose proof (valid_len n ar V) as L.
  assert (L' : S (a_prev ar) <= length (a_p ar)) by (rewrite Er, app_length; cbn [length]; lia).
  unfold m_merge. rewrite Hqr, Hpr, Hql. cbv zeta. unfold sub16.
  rewrite (proj2 (Nat.ltb_ge (a_prev ar) off)) by lia. cbn [rbind].
  rewrite (proj2 (Nat.ltb_ge n (a_prev ar))) by lia. cbn [rbind].
  rewrite (proj2 (Nat.ltb_ge (n - a_prev ar) 1)) by lia. cbn [rbind].
  rewrite (proj2 (Nat.ltb_ge n off)) by lia. cbn [rbind].
  unfold skip_bits. rewrite (proj2 (Nat.ltb_ge (length (a_p ar)) off)) by lia. cbn [rbind].
  replace (n - a_prev ar - 1) with (n - S (a_prev ar)) by lia. reflexivity.
Qed.

Lemma m_merge_sound R lf r al ar off m : reads R -> writes fin R -> crel R lf al -> crel R r ar -> valid n al -> valid n ar ->
  linked ar al -> fixed_at ar (S (a_prev ar)) -> off <= a_prev ar ->
  m_merge fin lf r off n = Ok m -> crel R m (a_merge px al ar off).
Proof.
  intros HR HW Cl Cr Vl Vr Lk Fr Ho E.
  destruct (merge_spec n px al ar off Vl Vr Lk Fr Ho) as [Vm _].
  rewrite (m_merge_eq lf r al ar off R Cl Cr Vr Lk Ho) in E. cbv zeta in E. set (s := a_prev ar) in *.
  destruct Lk as (q & x & y & Hq & El & Er & Fl). pose proof (valid_len n ar Vr) as L.
  assert (Ll : S s <= length (a_p al)) by (rewrite El, app_length; cbn [length]; lia).
  assert (Lr : S s <= length (a_p ar)) by (rewrite Er, app_length; cbn [length]; lia).
  set (lab := take (s - off) (drop off (a_p ar))) in *.
  assert (Ln : length lab = s - off) by (subst lab; rewrite take_length, drop_length; lia).
  rewrite write_label_spec in E by lia. destruct (Nat.leb_spec (length (label_bits (n - off) lab)) 1023) as [K|K]; cbn [rbind] in E; [|discriminate].
  destruct (m_child fin r s (n - S s)) as [rc|] eqn:E1; cbn [rbind] in E; [|discriminate].
  destruct (m_child fin lf s (n - S s)) as [lc|] eqn:E2; cbn [rbind] in E; [|discriminate].
  rewrite (putr_ok fin [lc] []) in E by (cbn [length]; lia). cbn [rbind app] in E. rewrite (putr_ok fin [rc] [lc]) in E by (cbn [length]; lia). cbn [rbind app] in E.
  destruct (build fin (label_bits (n - off) lab, [lc; rc])) as [c|] eqn:E3; cbn [rbind] in E; [|discriminate]. injection E as <-.
  apply build_iff in E3. cbn [fst snd] in E3. destruct E3 as [-> E3].
  apply (m_child_sound R r ar s rc HR HW Cr Vr Fr Lr) in E1. apply (m_child_sound R lf al s lc HR HW Cl Vl Fl Ll) in E2.
  unfold crel, a_merge. cbn [m_prefix a_p m_prev a_prev a_fix a_t]. split; [reflexivity|]. split; [reflexivity|]. exists off. split; [reflexivity|].
  fold s. fold lab. destruct HW as (W1 & W2 & W3 & W4).
  apply (Rep_fork R (n - off) (n - S s) (label_bits (n - off) lab) lab ([], []) lc rc); [|lia|exact W3| |exact E2|exact E1].
  - cbn [fst]. rewrite <- (app_nil_r (label_bits (n - off) lab)). apply W1. lia.
  - cbn [snd]. apply W4; [exact K|cbn; lia|exact E3].
Qed.

(** If the merged tree has a canonical cell, so have its parts, and it is made. *)
Lemma m_merge_complete lf r al ar off c : crel CR lf al -> crel CR r ar -> valid n al -> valid n ar ->
  linked ar al -> fixed_at ar (S (a_prev ar)) -> off <= a_prev ar ->
  Rep CR (n - off) c (a_t (a_merge px al ar off)) -> exists m, m_merge fin lf r off n = Ok m.
Proof.
  intros Cl Cr Vl Vr Lk Fr Ho E. rewrite (m_merge_eq lf r al ar off CR Cl Cr Vr Lk Ho). cbv zeta. set (s := a_prev ar) in *.
  destruct Lk as (q & x & y & Hq & El & Er & Fl). pose proof (valid_len n ar Vr) as L.
  assert (Ll : S s <= length (a_p al)) by (rewrite El, app_length; cbn [length]; lia).
  assert (Lr : S s <= length (a_p ar)) by (rewrite Er, app_length; cbn [length]; lia).
  cbn [a_merge a_t] in E. fold s in E. set (lab := take (s - off) (drop off (a_p ar))) in *.
  assert (Ln : length lab = s - off) by (subst lab; rewrite take_length, drop_length; lia).
  apply Rep_canon_fork in E. destruct E as (m & cl & cr & -> & (K1 & K2 & K3) & _ & Hm & Ha & Hb).
  assert (m = n - S s) as -> by lia.
  rewrite write_label_spec by lia. rewrite (proj2 (Nat.leb_le _ _) K1). cbn [rbind].
  rewrite (m_child_complete r ar s cr Cr Vr Fr Lr Hb). cbn [rbind]. rewrite (m_child_complete lf al s cl Cl Vl Fl Ll Ha). cbn [rbind].
  rewrite (putr_ok fin [cl] []) by (cbn [length]; lia). cbn [rbind app]. rewrite (putr_ok fin [cr] [cl]) by (cbn [length]; lia). cbn [rbind app].
  assert (B : build fin (label_bits (n - off) lab, [cl; cr]) = Ok (Cell false (label_bits (n - off) lab) [cl; cr])) by (apply build_iff; auto).
  rewrite B. cbn [rbind]. eexists. reflexivity.
Qed.

(** ** Loops *)
Definition stack_rel (R : rules) : list mitem -> list aitem -> Prop := Forall2 (crel R).

Lemma off_rel R (st : list mitem) (ast : list aitem) lf al (k : nat) : stack_rel R st ast -> crel R lf al ->
  (match st with [] => k | _ => m_prev lf + 1 end) = (match ast with [] => k | _ => a_prev al + 1 end).
Proof. intros S (_ & H & _). destruct S; [reflexivity|]. rewrite H. reflexivity. Qed.

(** Every fixed tree of the stack has a canonical cell. *)
Definition realizable (a : aitem) : Prop :=
  match a_fix a with Some off => exists c, Rep CR (n - off) c (a_t a) | None => True end.
Lemma crel_realizable i a : crel CR i a -> realizable a.
Proof.
  intros (_ & _ & H). unfold realizable. destruct (a_fix a) as [off|] eqn:E; [|exact I].
  destruct i; [destruct H; congruence| |destruct H; congruence]. destruct H as (o & H & Rp). injection H as ->. eauto.
Qed.

Lemma merge_real al ar off : valid n al -> valid n ar -> linked ar al -> fixed_at ar (S (a_prev ar)) -> off <= a_prev ar ->
  realizable (a_merge px al ar off) -> realizable al /\ realizable ar.
Proof.
  intros Vl Vr (q & x & y & Hq & El & Er & Fl) Fr Ho (c & E). pose proof (valid_len n ar Vr) as L. cbn [a_merge a_t] in E.
  assert (Lr : S (a_prev ar) <= length (a_p ar)) by (rewrite Er, app_length; cbn [length]; lia).
  apply Rep_canon_fork in E. destruct E as (m & cl & cr & _ & _ & _ & Hm & Ha & Hb).
  rewrite take_length, drop_length in Hm. assert (m = n - S (a_prev ar)) as -> by lia.
  unfold realizable, fixed_at, tree_at in *. split.
  - destruct (a_fix al); [|exact I]. subst. eauto.
  - destruct (a_fix ar); [|exact I]. subst. eauto.
Qed.

Lemma reduce_loop_sound R r st ar ast q x : reads R -> writes fin R -> crel R r ar -> stack_rel R st ast -> valid n ar -> below n ar ast ->
  a_p ar = q ++ false :: x -> fixed_at ar (S (Nat.max (a_prev ar) (length q))) ->
  forall st', m_reduce_loop fin r st (length q) n = Ok st' -> stack_rel R st' (a_reduce_loop px ar ast (length q)).
Proof.
  intros HR HW Hr Hst. revert r ar Hr. induction Hst as [|lf al st ast Hl Hst IH]; intros r ar Hr V B Ep F st' E; cbn [m_reduce_loop a_reduce_loop] in *.
  - injection E as <-. constructor; [exact Hr|constructor].
  - destruct B as (Lk & Hp & Vw & Hb). pose proof Hr as (_ & Hq & _). rewrite Hq in E. destruct (Nat.leb_spec (a_prev ar) (length q)) as [L|L].
    + injection E as <-. constructor; [exact Hr|]. constructor; assumption.
    + rewrite (off_rel R st ast lf al 1 Hst Hl) in E. rewrite (off_eq n al ast (length q) Hb) in *. rewrite Nat.max_l in F by lia.
      assert (Hw : a_prev al < a_prev ar) by (destruct Hp as [->|Hp]; [cbn [below] in Hb; lia|exact Hp]).
      set (off := S (Nat.max (a_prev al) (length q))) in *.
      destruct (merge_spec n px al ar off Vw V Lk F ltac:(lia)) as [Vm _].
      destruct (m_merge fin lf r off n) as [m|] eqn:Em; cbn [rbind] in E; [|discriminate].
      apply (m_merge_sound R lf r al ar off m HR HW Hl Hr Vw V Lk F ltac:(lia)) in Em.
      apply (IH m (a_merge px al ar off) Em Vm); [|exact Ep|reflexivity|exact E].
      apply (below_merge n px); [exact Lk|right; exact Hw|exact Hb].
Qed.
Lemma reduce_loop_complete r st ar ast q x : crel CR r ar -> stack_rel CR st ast -> valid n ar -> below n ar ast ->
  a_p ar = q ++ false :: x -> fixed_at ar (S (Nat.max (a_prev ar) (length q))) ->
  (Forall realizable (a_reduce_loop px ar ast (length q)) -> exists st', m_reduce_loop fin r st (length q) n = Ok st').
Proof.
  intros Hr Hst. revert r ar Hr. induction Hst as [|lf al st ast Hl Hst IH]; intros r ar Hr V B Ep F E; cbn [m_reduce_loop a_reduce_loop] in *; [eauto|].
  destruct B as (Lk & Hp & Vw & Hb). pose proof Hr as (_ & Hq & _). rewrite Hq. destruct (Nat.leb_spec (a_prev ar) (length q)) as [L|L]; [eauto|].
  rewrite (off_rel CR st ast lf al 1 Hst Hl). rewrite (off_eq n al ast (length q) Hb) in *. rewrite Nat.max_l in F by lia.
  assert (Hw : a_prev al < a_prev ar) by (destruct Hp as [->|Hp]; [cbn [below] in Hb; lia|exact Hp]).
  set (off := S (Nat.max (a_prev al) (length q))) in *.
  destruct (merge_spec n px al ar off Vw V Lk F ltac:(lia)) as [Vm _].
  assert (Bm : below n (a_merge px al ar off) ast) by (apply (below_merge n px); [exact Lk|right; exact Hw|exact Hb]).
  assert (Rm : realizable (a_merge px al ar off)).
  { clear -E Vm Bm Ep Hn. assert (G : forall ast a, Forall realizable (a_reduce_loop px a ast (length q)) -> valid n a -> below n a ast ->
      (exists x, a_p a = q ++ false :: x) -> fixed_at a (S (Nat.max (a_prev a) (length q))) -> realizable a).
    { clear -Hn. induction ast as [|w ast IH]; intros a E V B (x & Ep) F; cbn [a_reduce_loop] in E; [inversion E; assumption|].
      destruct B as (Lk & Hp & Vw & Hb). destruct (Nat.leb_spec (a_prev a) (length q)) as [L|L]; [inversion E; assumption|].
      rewrite (off_eq n w ast (length q) Hb) in E. rewrite Nat.max_l in F by lia.
      assert (Hw : a_prev w < a_prev a) by (destruct Hp as [->|Hp]; [cbn [below] in Hb; lia|exact Hp]).
      set (off := S (Nat.max (a_prev w) (length q))) in *.
      destruct (merge_spec n px w a off Vw V Lk F ltac:(lia)) as [Vm _].
      apply (merge_real w a off Vw V Lk F ltac:(lia)). apply (IH _ E Vm); [|eauto|reflexivity].
      apply (below_merge n px); [exact Lk|right; exact Hw|exact Hb]. }
    apply (G ast _ E Vm Bm); [eauto|reflexivity]. }
  pose proof Rm as (c & Rc).
  destruct (m_merge_complete lf r al ar off c Hl Hr Vw V Lk F ltac:(lia) Rc) as [m Em]. rewrite Em. cbn [rbind].
  pose proof (m_merge_sound CR lf r al ar off m (reads_canonical fin) (writes_canonical fin) Hl Hr Vw V Lk F ltac:(lia) Em) as Cm.
  apply (IH m (a_merge px al ar off) Cm Vm Bm Ep); [reflexivity|exact E].
Qed.

(** One step of any bulk operation: reduce for the next prefix. *)
Lemma reduce_sound R top st atop ast key q x y : reads R -> writes fin R -> stack_rel R (top :: st) (atop :: ast) -> valid n atop -> below n atop ast ->
  a_p atop = q ++ false :: x -> key = q ++ true :: y -> fixed_at atop (S (Nat.max (a_prev atop) (length q))) ->
  forall l st', m_reduce fin (top :: st) key n = Ok (l, st') ->
    l = length q /\ stack_rel R st' (snd (a_reduce px (atop :: ast) key)).
Proof.
  intros HR HW Hs V B Ep -> F l st' E. inversion Hs as [|? ? ? ? Ht Hst]; subst. pose proof Ht as (Hp & Hq & _).
  unfold m_reduce, a_reduce in *. rewrite Hp, Hq, Ep in *.
  rewrite (cpfx_diverge q false x y : cpfx (q ++ false :: x) (q ++ true :: y) = q) in *.
  destruct (Nat.leb_spec (length q) (a_prev atop)) as [L|L].
  - destruct (m_reduce_loop fin top st (length q) n) as [st2|] eqn:E2; cbn [rbind] in E; [|discriminate]. injection E as <- <-.
    split; [reflexivity|]. cbn [snd]. eapply reduce_loop_sound; eassumption.
  - injection E as <- <-. split; [reflexivity|]. exact Hs.
Qed.
Lemma reduce_complete top st atop ast key q x y : stack_rel CR (top :: st) (atop :: ast) -> valid n atop -> below n atop ast ->
  a_p atop = q ++ false :: x -> key = q ++ true :: y -> fixed_at atop (S (Nat.max (a_prev atop) (length q))) ->
  Forall realizable (snd (a_reduce px (atop :: ast) key)) -> exists st', m_reduce fin (top :: st) key n = Ok (length q, st').
Proof.
  intros Hs V B Ep -> F E. inversion Hs as [|? ? ? ? Ht Hst]; subst. pose proof Ht as (Hp & Hq & _).
  unfold m_reduce, a_reduce in *. rewrite Hp, Hq. rewrite Ep in *.
  rewrite (cpfx_diverge q false x y : cpfx (q ++ false :: x) (q ++ true :: y) = q) in *.
  destruct (Nat.leb_spec (length q) (a_prev atop)) as [L|L]; [|eauto].
  destruct (reduce_loop_complete top st atop ast q x Ht Hst V B Ep F E) as [st' E']. rewrite E'. cbn [rbind]. eauto.
Qed.
(** What is realizable after the step was so before. *)
Lemma reduce_real atop ast key q x y : valid n atop -> below n atop ast ->
  a_p atop = q ++ false :: x -> key = q ++ true :: y -> fixed_at atop (S (Nat.max (a_prev atop) (length q))) ->
  Forall realizable (snd (a_reduce px (atop :: ast) key)) -> Forall realizable (atop :: ast).
Proof.
  intros V B Ep -> F. unfold a_reduce. rewrite Ep. rewrite (cpfx_diverge q false x y : cpfx (q ++ false :: x) (q ++ true :: y) = q).
  destruct (Nat.leb_spec (length q) (a_prev atop)) as [L|L]; [|auto]. cbn [snd]. clear L.
  revert atop V B x Ep F. induction ast as [|w ast IH]; intros a V B x Ep F E; cbn [a_reduce_loop] in E; [exact E|].
  destruct B as (Lk & Hp & Vw & Hb). destruct (Nat.leb_spec (a_prev a) (length q)) as [L|L]; [exact E|].
  rewrite (off_eq n w ast (length q) Hb) in E. rewrite Nat.max_l in F by lia.
  assert (Hw : a_prev w < a_prev a) by (destruct Hp as [->|Hp]; [cbn [below] in Hb; lia|exact Hp]).
  set (off := S (Nat.max (a_prev w) (length q))) in *.
  destruct (merge_spec n px w a off Vw V Lk F ltac:(lia)) as [Vm _].
  assert (Bm : below n (a_merge px w a off) ast) by (apply (below_merge n px); [exact Lk|right; exact Hw|exact Hb]).
  pose proof (IH (a_merge px w a off) Vm Bm x Ep eq_refl E) as G. inversion G as [|? ? G1 G2]; subst.
  destruct (merge_real w a off Vw V Lk F ltac:(lia) G1) as [R1 R2]. constructor; [exact R2|]. constructor; assumption.
Qed.

(** Finalization. *)
Lemma finalize_loop_sound R r st ar ast : reads R -> writes fin R -> crel R r ar -> stack_rel R st ast -> valid n ar -> below n ar ast ->
  fixed_at ar (match ast with [] => 0 | _ => S (a_prev ar) end) ->
  forall i, m_finalize_loop fin r st n = Ok i -> crel R i (a_finalize px ar ast).
Proof.
  intros HR HW Hr Hst. revert r ar Hr. induction Hst as [|lf al st ast Hl Hst IH]; intros r ar Hr V B F i E; cbn [m_finalize_loop a_finalize] in *.
  - injection E as <-. exact Hr.
  - destruct B as (Lk & Hp & Vw & Hb). rewrite (off_rel R st ast lf al 0 Hst Hl) in E.
    set (off := match ast with [] => 0 | _ => a_prev al + 1 end) in *.
    assert (Ho : off <= a_prev ar) by (subst off; destruct Hp as [->|Hp]; [lia|destruct ast; lia]).
    destruct (merge_spec n px al ar off Vw V Lk F Ho) as [Vm _].
    destruct (m_merge fin lf r off n) as [m|] eqn:Em; cbn [rbind] in E; [|discriminate].
    apply (m_merge_sound R lf r al ar off m HR HW Hl Hr Vw V Lk F Ho) in Em.
    apply (IH m (a_merge px al ar off) Em Vm); [|unfold fixed_at; cbn [a_merge a_fix a_prev]; subst off; destruct ast; [reflexivity|lia]|exact E].
    apply (below_merge n px); assumption.
Qed.
Lemma finalize_loop_complete r st ar ast c : crel CR r ar -> stack_rel CR st ast -> valid n ar -> below n ar ast ->
  fixed_at ar (match ast with [] => 0 | _ => S (a_prev ar) end) ->
  Rep CR n c (tree_at (a_finalize px ar ast) 0) -> exists i, m_finalize_loop fin r st n = Ok i.
Proof.
  intros Hr Hst. revert r ar Hr. induction Hst as [|lf al st ast Hl Hst IH]; intros r ar Hr V B F E; cbn [m_finalize_loop a_finalize] in *; [eauto|].
  destruct B as (Lk & Hp & Vw & Hb). rewrite (off_rel CR st ast lf al 0 Hst Hl).
  set (off := match ast with [] => 0 | _ => a_prev al + 1 end) in *.
  assert (Ho : off <= a_prev ar) by (subst off; destruct Hp as [->|Hp]; [lia|destruct ast; lia]).
  destruct (merge_spec n px al ar off Vw V Lk F Ho) as [Vm _].
  assert (Bm : below n (a_merge px al ar off) ast) by (apply (below_merge n px); assumption).
  assert (Fm : fixed_at (a_merge px al ar off) (match ast with [] => 0 | _ => S (a_prev al) end)).
  { unfold fixed_at. cbn [a_merge a_fix a_prev]. subst off. destruct ast; [reflexivity|lia]. }
  assert (Rm : realizable (a_merge px al ar off)).
  { clear -E Vm Bm Fm Hn. assert (G : forall ast a, Rep CR n c (tree_at (a_finalize px a ast) 0) -> valid n a -> below n a ast ->
      fixed_at a (match ast with [] => 0 | _ => S (a_prev a) end) -> realizable a).
    { clear -Hn. induction ast as [|w ast IH]; intros a E V B F; cbn [a_finalize] in E.
      - unfold realizable, fixed_at, tree_at in *. destruct (a_fix a); [|exact I]. subst. rewrite Nat.sub_0_r. eauto.
      - destruct B as (Lk & Hp & Vw & Hb). set (off := match ast with [] => 0 | _ => a_prev w + 1 end) in *.
        assert (Ho : off <= a_prev a) by (subst off; destruct Hp as [->|Hp]; [lia|destruct ast; lia]).
        destruct (merge_spec n px w a off Vw V Lk F Ho) as [Vm _].
        apply (merge_real w a off Vw V Lk F Ho). apply (IH _ E Vm); [apply (below_merge n px); assumption|].
        unfold fixed_at. cbn [a_merge a_fix a_prev]. subst off. destruct ast; [reflexivity|lia]. }
    apply (G ast _ E Vm Bm Fm). }
  pose proof Rm as (c0 & Rc).
  destruct (m_merge_complete lf r al ar off c0 Hl Hr Vw V Lk F Ho Rc) as [m Em]. rewrite Em. cbn [rbind].
  pose proof (m_merge_sound CR lf r al ar off m (reads_canonical fin) (writes_canonical fin) Hl Hr Vw V Lk F Ho Em) as Cm.
  apply (IH m (a_merge px al ar off) Cm Vm Bm Fm E).
Qed.
Lemma finalize_real ar ast c : valid n ar -> below n ar ast ->
  fixed_at ar (match ast with [] => 0 | _ => S (a_prev ar) end) ->
  Rep CR n c (tree_at (a_finalize px ar ast) 0) -> Forall realizable (ar :: ast).
Proof.
  revert ar. induction ast as [|w ast IH]; intros a V B F E; cbn [a_finalize] in E.
  - constructor; [|constructor]. unfold realizable, fixed_at, tree_at in *. destruct (a_fix a); [|exact I]. subst. rewrite Nat.sub_0_r. eauto.
  - destruct B as (Lk & Hp & Vw & Hb). set (off := match ast with [] => 0 | _ => a_prev w + 1 end) in *.
    assert (Ho : off <= a_prev a) by (subst off; destruct Hp as [->|Hp]; [lia|destruct ast; lia]).
    destruct (merge_spec n px w a off Vw V Lk F Ho) as [Vm _].
    assert (G : Forall realizable (a_merge px w a off :: ast)).
    { apply (IH _ Vm); [apply (below_merge n px); assumption| |exact E].
      unfold fixed_at. cbn [a_merge a_fix a_prev]. subst off. destruct ast; [reflexivity|lia]. }
    inversion G as [|? ? G1 G2]; subst. destruct (merge_real w a off Vw V Lk F Ho G1) as [R1 R2].
    constructor; [exact R2|]. constructor; assumption.
Qed.

(** The last cell. *)
Lemma m_build_sound R i a c : reads R -> writes fin R -> crel R i a -> valid n a -> fixed_at a 0 ->
  m_build fin i n = Ok c -> Rep R n c (tree_at a 0).
Proof.
  intros HR HW Hr V F E. pose proof (valid_tree n a 0 V F ltac:(lia)) as W. rewrite Nat.sub_0_r in W. pose proof (valid_len n a V) as L.
  destruct Hr as (Hp & _ & H). unfold tree_at, fixed_at in *. destruct i as [p v q|p c' q|p c' off q]; cbn [m_prefix m_build] in *.
  - destruct H as (Hf & l & Et). rewrite Hf in *. rewrite Et in *. apply make_leaf_iff in E; [|congruence|exact Hn]. destruct E as [-> K].
    rewrite Hp in *. cbn [drop relabel] in *. apply (Rep_relabel fin R HW n (Leaf l v) v _ eq_refl W Hn K).
  - destruct H as (off & Hf & Rp). rewrite Hf in *. subst off. rewrite Nat.sub_0_r in Rp. injection E as <-. exact Rp.
  - destruct H as (Hf & bits & refs & -> & Ho & Hc). rewrite Hf in *. cbn [as_slice c_exotic c_bits c_refs rbind s_bits s_refs] in E.
    unfold skip_bits in E. rewrite (proj2 (Nat.ltb_ge (length bits) off)) in E by lia. cbn [rbind] in E.
    apply make_leaf_iff in E; [|congruence|exact Hn]. destruct E as [-> K]. rewrite Hp in *. cbn [drop] in *.
    apply (Rep_relabel fin R HW n (a_t a) _ _ Hc W Hn K).
Qed.
Lemma m_build_complete i a c : crel CR i a -> valid n a -> fixed_at a 0 ->
  Rep CR n c (tree_at a 0) -> m_build fin i n = Ok c.
Proof.
  intros Hr V F E. pose proof (valid_len n a V) as L.
  destruct Hr as (Hp & _ & H). unfold tree_at, fixed_at in *. destruct i as [p v q|p c' q|p c' off q]; cbn [m_prefix m_build] in *.
  - destruct H as (Hf & l & Et). rewrite Hf in *. rewrite Et in *. rewrite Hp. cbn [drop] in E.
    apply make_leaf_iff; [lia|exact Hn|]. exact (Rep_relabel_inv fin n c (a_p a) (Leaf l v) v eq_refl E).
  - destruct H as (off & Hf & Rp). rewrite Hf in *. subst off. rewrite Nat.sub_0_r in Rp. f_equal. eapply Rep_canonical_det; eassumption.
  - destruct H as (Hf & bits & refs & -> & Ho & Hc). rewrite Hf in *. cbn [as_slice c_exotic c_bits c_refs rbind s_bits s_refs].
    unfold skip_bits. rewrite (proj2 (Nat.ltb_ge (length bits) off)) by lia. cbn [rbind]. rewrite Hp.
    apply make_leaf_iff; [lia|exact Hn|]. cbn [drop] in E. exact (Rep_relabel_inv fin n c (a_p a) (a_t a) _ Hc E).
Qed.

Lemma finalize_sound R st ar ast d : reads R -> writes fin R -> stack_rel R st (ar :: ast) -> valid n ar -> below n ar ast ->
  fixed_at ar (match ast with [] => 0 | _ => S (a_prev ar) end) ->
  m_finalize fin st n = Ok d -> is_dict R n d (flat (ar :: ast)).
Proof.
  intros HR HW Hs V B F E. inversion Hs as [|r ? st0 ? Hr Hst]; subst. cbn [m_finalize] in E.
  destruct (m_finalize_loop fin r st0 n) as [i|] eqn:Ei; cbn [rbind] in E; [|discriminate].
  destruct (m_build fin i n) as [c|] eqn:Ec; cbn [rbind] in E; [|discriminate]. injection E as <-.
  apply (finalize_loop_sound R r st0 ar ast HR HW Hr Hst V B F) in Ei.
  destruct (a_finalize_spec n px ar ast V B F) as (V' & F' & W & X).
  apply (m_build_sound R i _ c HR HW Ei V' F') in Ec. cbn [is_dict]. apply hashmap_rep. eexists. split; [exact Ec|]. symmetry. exact X.
Qed.
Lemma finalize_complete st ar ast c : stack_rel CR st (ar :: ast) -> valid n ar -> below n ar ast ->
  fixed_at ar (match ast with [] => 0 | _ => S (a_prev ar) end) ->
  Rep CR n c (tree_at (a_finalize px ar ast) 0) -> m_finalize fin st n = Ok (Some c).
Proof.
  intros Hs V B F E. inversion Hs as [|r ? st0 ? Hr Hst]; subst. cbn [m_finalize].
  destruct (finalize_loop_complete r st0 ar ast c Hr Hst V B F E) as [i Ei]. rewrite Ei. cbn [rbind].
  apply (finalize_loop_sound CR r st0 ar ast (reads_canonical fin) (writes_canonical fin) Hr Hst V B F) in Ei.
  destruct (a_finalize_spec n px ar ast V B F) as (V' & F' & W & X).
  rewrite (m_build_complete i _ c Ei V' F' E). reflexivity.
Qed.

(** ** Pushing one more item *)
Definition SI (ast : list aitem) : Prop := match ast with [] => True | top :: rest => valid n top /\ below n top rest end.
(** The next prefix leaves the last one to the right, where a fixed last item can be joined. *)
Definition stepok (ast : list aitem) (p : list bool) : Prop :=
  match ast with
  | [] => True
  | top :: _ => exists q x y, a_p top = q ++ false :: x /\ p = q ++ true :: y /\ fixed_at top (S (Nat.max (a_prev top) (length q)))
  end.
Definition a_push (ast : list aitem) (p : list bool) (fx : option nat) (t : pt) : list aitem :=
  let (l, st') := a_reduce px ast p in AItem p fx t l :: st'.

Lemma push_abs ast p fx t : SI ast -> stepok ast p -> valid n (AItem p fx t 0) ->
  SI (a_push ast p fx t) /\ flat (a_push ast p fx t) = flat ast ++ ents (AItem p fx t 0).
Proof.
  intros Hs Ho V. unfold a_push. destruct ast as [|top rest].
  - cbn [a_reduce flat SI]. split; [split; [exact V|reflexivity]|reflexivity].
  - destruct Hs as [V' B], Ho as (q & x & y & E1 & E2 & F).
    destruct (a_reduce_spec n px top rest p q x y V' B E1 E2 F) as (st' & -> & Fl & Hb). cbn [SI flat]. rewrite Fl.
    split; [split; [exact V|apply Hb; reflexivity]|reflexivity].
Qed.
Lemma push_sound R st ast p fx t l st' i : reads R -> writes fin R -> stack_rel R st ast -> SI ast -> stepok ast p ->
  m_reduce fin st p n = Ok (l, st') -> crel R i (AItem p fx t l) -> stack_rel R (i :: st') (a_push ast p fx t).
Proof.
  intros HR HW Hs Hi Ho E Hc. unfold a_push. destruct ast as [|atop ast].
  - inversion Hs; subst. cbn [m_reduce] in E. injection E as <- <-. cbn [a_reduce]. constructor; [exact Hc|constructor].
  - destruct Hi as [V B], Ho as (q & x & y & E1 & E2 & F). inversion Hs as [|top ? st0 ? Ht Hst]; subst st.
    destruct (reduce_sound R top st0 atop ast p q x y HR HW Hs V B E1 E2 F l st' E) as [-> Hs'].
    destruct (a_reduce_spec n px atop ast p q x y V B E1 E2 F) as (ast' & Ea & _). rewrite Ea in *. cbn [snd] in Hs'.
    constructor; assumption.
Qed.
Lemma push_complete st ast p fx t : stack_rel CR st ast -> SI ast -> stepok ast p ->
  Forall realizable (a_push ast p fx t) -> exists l st', m_reduce fin st p n = Ok (l, st') /\ l = fst (a_reduce px ast p).
Proof.
  intros Hs Hi Ho Hr. unfold a_push in Hr. destruct ast as [|atop ast].
  - inversion Hs; subst. cbn [m_reduce]. eexists _, _. split; reflexivity.
  - destruct Hi as [V B], Ho as (q & x & y & E1 & E2 & F). inversion Hs as [|top ? st0 ? Ht Hst]; subst st.
    destruct (a_reduce_spec n px atop ast p q x y V B E1 E2 F) as (ast' & Ea & _).
    destruct (reduce_complete top st0 atop ast p q x y Hs V B E1 E2 F) as [st' E].
    { rewrite Ea in *. cbn [snd]. inversion Hr; assumption. }
    exists (length q), st'. rewrite Ea. split; [exact E|reflexivity].
Qed.
Lemma push_real ast p fx t : SI ast -> stepok ast p -> Forall realizable (a_push ast p fx t) -> Forall realizable ast.
Proof.
  intros Hi Ho Hr. unfold a_push in Hr. destruct ast as [|atop ast]; [constructor|].
  destruct Hi as [V B], Ho as (q & x & y & E1 & E2 & F).
  apply (reduce_real atop ast p q x y V B E1 E2 F). destruct (a_reduce px (atop :: ast) p). cbn [snd]. inversion Hr; assumption.
Qed.

(** Stacks whose last item is a leaf end well. *)
Lemma a_finalize_plain r st : valid n r -> below n r st -> Forall (fun a => plain (a_t a)) (r :: st) -> plain (a_t (a_finalize px r st)).
Proof.
  revert r. induction st as [|w st IH]; intros r V B H; cbn [a_finalize]; inversion H as [|? ? H1 H2]; subst; [exact H1|].
  destruct B as (Lk & Hp & Vw & Hb).
  inversion H2 as [|? ? H3 H4]; subst.
  assert (G : forall a o, plain (a_t a) -> plain (tree_at a o)).
  { intros a o K. unfold tree_at. destruct (a_fix a); [exact K|]. destruct (a_t a); [exact I|exact K]. }
  set (off := match st with [] => 0 | _ => a_prev w + 1 end).
  assert (P : plain (a_t (a_merge px w r off))).
  { cbn [a_merge a_t plain]. split; [reflexivity|]. split; apply G; assumption. }
  clear IH. revert P. generalize (a_merge px w r off). clear -H4 G. revert H4. induction st as [|w st IH]; intros H4 r P; cbn [a_finalize]; [exact P|].
  inversion H4; subst. apply IH; [assumption|]. cbn [a_merge a_t plain]. split; [reflexivity|]. split; apply G; assumption.
Qed.
Lemma a_push_plain ast p fx t : Forall (fun a => plain (a_t a)) ast -> plain t -> Forall (fun a => plain (a_t a)) (a_push ast p fx t).
Proof.
  intros H Ht. unfold a_push. destruct (a_reduce px ast p) as [l st'] eqn:E. constructor; [exact Ht|].
  destruct ast as [|top rest]; cbn [a_reduce] in E; [injection E as <- <-; constructor|].
  destruct (_ <=? _) in E; [|injection E as <- <-; exact H]. injection E as _ <-.
  generalize (length (cpfx (a_p top) p)) as lcp. intros lcp. inversion H as [|? ? H1 H2]; subst.
  clear -H1 H2. revert top H1. induction rest as [|w st IH]; intros top H1; cbn [a_reduce_loop]; [constructor; [exact H1|constructor]|].
  inversion H2 as [|? ? H3 H4]; subst. destruct (_ <=? _); [constructor; assumption|]. apply IH; [exact H4|].
  assert (G : forall a o, plain (a_t a) -> plain (tree_at a o)).
  { intros a o K. unfold tree_at. destruct (a_fix a); [exact K|]. destruct (a_t a); [exact I|exact K]. }
  cbn [a_merge a_t plain]. split; [reflexivity|]. split; apply G; assumption.
Qed.
End B.
