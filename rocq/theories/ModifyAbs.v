(** * Bulk modification: the walk over the tree and the items it gives to the merge stack. *)
From Verif Require Import Err BitsProofs CellModel LabelModel LabelSpec LabelProofs DictModel DictSpec DictTree
  DictProofs DictProofs2 BuildModel StackProofs BuildProofs ModifyModel.
Local Open Scope nat_scope.

(** ** Prefixes and keys to the right *)
Definition pre (a b : list bool) : Prop := exists z, b = a ++ z.
(** [b] leaves [a] to the right. *)
Definition dlt (a b : list bool) : Prop := exists q x y, a = q ++ false :: x /\ b = q ++ true :: y.

Lemma pre_refl a : pre a a.
Proof. exists []. symmetry. apply app_nil_r. Qed.
Lemma pre_app a z : pre a (a ++ z).
Proof. exists z. reflexivity. Qed.
Lemma pre_trans a b c : pre a b -> pre b c -> pre a c.
Proof. intros [x ->] [y ->]. exists (x ++ y). rewrite app_assoc. reflexivity. Qed.
Lemma pre_app_l a b c : pre (a ++ b) c -> pre a c.
Proof. intros [z ->]. exists (b ++ z). rewrite app_assoc. reflexivity. Qed.
Lemma dlt_pre a b a' b' : dlt a b -> pre a a' -> pre b b' -> dlt a' b'.
Proof.
  intros (q & x & y & -> & ->) [u ->] [v ->]. exists q, (x ++ u), (y ++ v). rewrite <- !app_assoc. split; reflexivity.
Qed.
Lemma dlt_pre_l a b a' : dlt a b -> pre a a' -> dlt a' b.
Proof. intros H P. eapply dlt_pre; [exact H|exact P|apply pre_refl]. Qed.
Lemma dlt_pre_r a b b' : dlt a b -> pre b b' -> dlt a b'.
Proof. intros H P. eapply dlt_pre; [exact H|apply pre_refl|exact P]. Qed.
Lemma dlt_bit p a b : dlt (p ++ false :: a) (p ++ true :: b).
Proof. exists p, a, b. split; reflexivity. Qed.
Lemma dlt_app p a b : dlt (p ++ a) (p ++ b) <-> dlt a b.
Proof.
  split.
  - induction p as [|u p IH]; [auto|]. intros (q & x & y & E1 & E2). apply IH. destruct q as [|w q]; cbn [app] in E1, E2.
    + congruence.
    + injection E1 as -> E1. injection E2 as E2. exists q, x, y. auto.
  - intros (q & x & y & -> & ->). exists (p ++ q), x, y. rewrite <- !app_assoc. auto.
Qed.
Lemma dlt_cons u a b : dlt (u :: a) (u :: b) <-> dlt a b.
Proof. apply (dlt_app [u]). Qed.
Lemma dlt_cases a b u w : dlt (u :: a) (w :: b) <-> (u = false /\ w = true) \/ (u = w /\ dlt a b).
Proof.
  split.
  - intros (q & x & y & E1 & E2). destruct q as [|c q]; cbn [app] in E1, E2; injection E1 as -> E1; injection E2 as -> E2; [auto|].
    right. split; [reflexivity|]. exists q, x, y. auto.
  - intros [[-> ->]|[-> H]]; [exists [], a, b; auto|apply dlt_cons; exact H].
Qed.
Lemma dlt_nil_l b : ~ dlt [] b.
Proof. intros (q & x & y & E & _). destruct q; discriminate. Qed.
Lemma dlt_nil_r a : ~ dlt a [].
Proof. intros (q & x & y & _ & E). destruct q; discriminate. Qed.
Lemma dlt_trans a b c : dlt a b -> dlt b c -> dlt a c.
Proof.
  revert b c. induction a as [|u a IH]; intros [|w b] [|z c] H1 H2;
    try (destruct (dlt_nil_l _ H1)); try (destruct (dlt_nil_r _ H1)); try (destruct (dlt_nil_l _ H2)); try (destruct (dlt_nil_r _ H2)).
  apply dlt_cases in H1, H2. apply dlt_cases. destruct H1 as [[-> ->]|[-> H1]], H2 as [[H2 ->]|[-> H2]]; try discriminate; auto.
  right. split; [reflexivity|]. eapply IH; eassumption.
Qed.
Lemma dlt_irr a z : ~ dlt a (a ++ z).
Proof.
  induction a as [|u a IH]; intros H; [destruct (dlt_nil_l _ H)|]. cbn [app] in H. apply dlt_cases in H. destruct H as [[-> H]|[_ H]]; [discriminate|auto].
Qed.
Lemma dlt_irr' a z : ~ dlt (a ++ z) a.
Proof.
  induction a as [|u a IH]; intros H; [destruct (dlt_nil_r _ H)|]. cbn [app] in H. apply dlt_cases in H. destruct H as [[-> H]|[_ H]]; [discriminate|auto].
Qed.
Lemma dlt_not_pre a b : dlt a b -> ~ pre a b.
Proof. intros H [z ->]. exact (dlt_irr a z H). Qed.
Lemma dlt_not_pre' a b : dlt a b -> ~ pre b a.
Proof. intros H [z ->]. exact (dlt_irr' b z H). Qed.
Lemma dlt_asym a b : dlt a b -> ~ dlt b a.
Proof. intros H1 H2. apply (dlt_irr a []). rewrite app_nil_r. eapply dlt_trans; eassumption. Qed.
Lemma dlt_neq a b : dlt a b -> a <> b.
Proof. intros H ->. apply (dlt_irr b []). rewrite app_nil_r. exact H. Qed.
(** Where two keys part. *)
Lemma dlt_cut k k2 p : dlt k k2 -> pre p k -> length (cpfx k k2) < length p -> dlt p k2.
Proof.
  intros (q & x & y & -> & ->) [z E] L. rewrite (cpfx_diverge q false x y : cpfx (q ++ false :: x) (q ++ true :: y) = q) in L.
  assert (exists w, p = q ++ false :: w) as [w ->].
  { pose proof (f_equal (take (length p)) E) as T. rewrite take_app in T. rewrite take_app_ge in T by lia.
    destruct (length p - length q) as [|d] eqn:D; [lia|]. cbn [take] in T. eexists. symmetry. exact T. }
  apply dlt_bit.
Qed.
Lemma pre_keep k k2 p : pre p k -> length p <= length (cpfx k k2) -> pre p k2.
Proof.
  intros [z ->]. revert k2. induction p as [|u p IH]; intros k2 L; [exists k2; reflexivity|]. destruct k2 as [|w k2]; cbn [app cpfx length] in L; [lia|].
  destruct (Bool.eqb u w) eqn:E; [|cbn [length] in L; lia]. apply eqb_prop in E. subst w. cbn [length] in L.
  destruct (IH k2 ltac:(lia)) as [y ->]. exists y. reflexivity.
Qed.
Lemma pre_len a b : pre a b -> length a <= length b.
Proof. intros [z ->]. rewrite app_length. lia. Qed.

(** ** Items given to the stack *)
Definition push : Type := list bool * option nat * pt.
Definition apush (ast : list aitem) (x : push) : list aitem := let '(p, fx, t) := x in a_push ast p fx t.
Definition arun (ast : list aitem) (ps : list push) : list aitem := fold_left apush ps ast.

Lemma arun_app ast a b : arun ast (a ++ b) = arun (arun ast a) b.
Proof. apply fold_left_app. Qed.

Definition top_under (ast : list aitem) (X : list bool) : Prop := match ast with [] => False | top :: _ => pre X (a_p top) end.
(** The last item has its final place. *)
Definition fixend (ast : list aitem) : Prop :=
  match ast with
  | [] => True
  | top :: rest => match a_fix top with None => True | Some o => rest <> [] /\ o = S (a_prev top) end
  end.

Section N.
Context (n : nat).

Fixpoint okp (ast : list aitem) (ps : list push) : Prop :=
  match ps with
  | [] => True
  | (p, fx, t) :: ps' => stepok ast p /\ valid n (AItem p fx t 0) /\ plain t /\ okp (a_push ast p fx t) ps'
  end.
Lemma okp_app ast a b : okp ast (a ++ b) <-> okp ast a /\ okp (arun ast a) b.
Proof.
  revert ast. induction a as [|[[p fx] t] a IH]; intros ast; cbn [app okp arun fold_left apush]; [tauto|].
  specialize (IH (a_push ast p fx t)). unfold arun in IH. tauto.
Qed.

Lemma reduce_loop_ne mkx r st l : a_reduce_loop mkx r st l <> [].
Proof. revert r. induction st as [|w st IH]; intros r; cbn [a_reduce_loop]; [discriminate|]. destruct (_ <=? _); [discriminate|apply IH]. Qed.

Lemma push_shape ast p fx t : SI n ast -> stepok ast p ->
  exists l st', a_push ast p fx t = AItem p fx t l :: st' /\
    match ast with
    | [] => l = 0 /\ st' = []
    | top :: _ => st' <> [] /\ exists q x y, a_p top = q ++ false :: x /\ p = q ++ true :: y /\ l = length q
    end.
Proof.
  intros Hs Ho. unfold a_push. destruct ast as [|top rest]; [exists 0, []; auto|].
  destruct Hs as [V B], Ho as (q & x & y & E1 & E2 & F).
  destruct (a_reduce_spec n px top rest p q x y V B E1 E2 F) as (st' & E & _ & _). rewrite E. exists (length q), st'.
  split; [reflexivity|]. split; [|exists q, x, y; auto]. intros ->. unfold a_reduce in E.
  destruct (_ <=? _) in E; injection E as _ E; [exact (reduce_loop_ne _ _ _ _ E)|discriminate].
Qed.

(** Three kinds of items. *)
Lemma push_flex ast P t : SI n ast -> stepok ast P ->
  (forall P', dlt P P' -> stepok (a_push ast P None t) P') /\ fixend (a_push ast P None t) /\
  (forall X, pre X P -> top_under (a_push ast P None t) X).
Proof.
  intros Hs Ho. destruct (push_shape ast P None t Hs Ho) as (l & st' & -> & _). split; [|split; [exact I|auto]].
  intros P' (q & x & y & E1 & E2). exists q, x, y. cbn [a_p]. split; [exact E1|]. split; [exact E2|exact I].
Qed.
Lemma push_left ast P t : SI n ast -> stepok ast P ->
  let P0 := P ++ [false] in
  stepok ast P0 /\ (forall P', pre (P ++ [true]) P' -> stepok (a_push ast P0 (Some (length P0)) t) P') /\
  top_under (a_push ast P0 (Some (length P0)) t) P0.
Proof.
  intros Hs Ho P0.
  assert (S0 : stepok ast P0).
  { destruct ast as [|top rest]; [exact I|]. destruct Ho as (q & x & y & E1 & E2 & F). exists q, x, (y ++ [false]).
    split; [exact E1|]. split; [|exact F]. subst P0. rewrite E2, <- app_assoc. reflexivity. }
  split; [exact S0|]. destruct (push_shape ast P0 (Some (length P0)) t Hs S0) as (l & st' & -> & H).
  assert (L : l <= length P).
  { destruct ast as [|top rest]; [destruct H; lia|]. destruct H as (_ & q & x & y & E1 & E2 & ->).
    pose proof (f_equal length E2) as E3. subst P0. rewrite !app_length in E3. cbn [length] in E3. lia. }
  split; [|apply pre_refl]. intros P' [z ->]. exists P, [], z. cbn [a_p]. split; [reflexivity|]. split; [rewrite <- app_assoc; reflexivity|].
  unfold fixed_at. cbn [a_fix a_prev]. subst P0. rewrite app_length. cbn [length]. lia.
Qed.
Lemma push_right ast P t : SI n ast -> stepok ast (P ++ [true]) -> top_under ast (P ++ [false]) ->
  let P1 := P ++ [true] in
  (forall P', dlt P P' -> stepok (a_push ast P1 (Some (length P1)) t) P') /\ fixend (a_push ast P1 (Some (length P1)) t) /\
  top_under (a_push ast P1 (Some (length P1)) t) P1.
Proof.
  intros Hs Ho Hu P1. destruct (push_shape ast P1 (Some (length P1)) t Hs Ho) as (l & st' & -> & H).
  destruct ast as [|top rest]; [destruct Hu|]. destruct H as (Ne & q & x & y & E1 & E2 & ->). destruct Hu as [z Hz].
  assert (Lq : length q = length P).
  { rewrite Hz in E1. rewrite <- app_assoc in E1. cbn [app] in E1.
    assert (L1 : length q <= length P). { pose proof (f_equal length E2) as E3. subst P1. rewrite !app_length in E3. cbn [length] in E3. lia. }
    destruct (decide (length q = length P)) as [|N]; [assumption|]. exfalso.
    pose proof (f_equal (fun w => w !! length q) E1) as G. cbn in G. rewrite lookup_app_l in G by lia. rewrite lookup_app_r in G by lia.
    rewrite Nat.sub_diag in G. cbn in G.
    pose proof (f_equal (fun w => w !! length q) E2) as G2. cbn in G2. subst P1. rewrite lookup_app_l in G2 by lia. rewrite lookup_app_r in G2 by lia.
    rewrite Nat.sub_diag in G2. cbn in G2. congruence. }
  assert (Lp : length P1 = S (length q)) by (subst P1; rewrite app_length; cbn [length]; lia).
  split; [|split; [split; [exact Ne|exact Lp]|apply pre_refl]].
  intros P' (q' & x' & y' & F1 & F2). exists q', (x' ++ [true]), y'. cbn [a_p]. split; [subst P1; rewrite F1, <- app_assoc; reflexivity|]. split; [exact F2|].
  unfold fixed_at. cbn [a_fix a_prev]. pose proof (f_equal length F1) as F3. rewrite app_length in F3. cbn [length] in F3. lia.
Qed.

(** ** The stack of the walk *)
Record frame := Frame { f_p : list bool; f_t : pt; f_st : Z; f_fl : bool }.
Definition f_l (f : frame) : list bool := lbl (f_t f).
Definition at_st (s : Z) (f : frame) : frame := Frame (f_p f) (f_t f) s (f_fl f).
Definition at_fl (b : bool) (f : frame) : frame := Frame (f_p f) (f_t f) (f_st f) b.
Definition kid (t : pt) (b : bool) : pt := match t with Fork _ _ a c => if b then c else a | Leaf _ _ => t end.

Definition a_child (f : frame) (fl : bool) (i : bool) : push :=
  let P := (f_p f ++ f_l f) ++ [i] in
  if fl || f_fl f then (P ++ lbl (kid (f_t f) i), None, kid (f_t f) i) else (P, Some (length P), kid (f_t f) i).
Definition a_subtrees (f : frame) (until : Z) (fl : bool) : list push :=
  match f_t f with
  | Leaf l _ => [(f_p f ++ l, None, f_t f)]
  | Fork _ _ _ _ => map (a_child f fl) (indices (f_st f) until)
  end.

Definition frame_ok (f : frame) : Prop :=
  wft (n - length (f_p f)) (f_t f) /\ length (f_p f) <= n /\ plain (f_t f) /\
  match f_t f with
  | Leaf _ _ => f_st f = (-1)%Z \/ f_st f = 2%Z
  | Fork _ _ _ _ => f_st f = (-1)%Z \/ f_st f = 0%Z \/ f_st f = 1%Z \/ f_st f = 2%Z
  end.
(** What is still to be given to the stack. *)
Definition pend1 (f : frame) : list entry :=
  match f_t f with
  | Leaf l v => if (f_st f <? 0)%Z then [(f_p f ++ l, v)] else []
  | Fork l _ a b =>
    (if (f_st f <? 0)%Z then under ((f_p f ++ l) ++ [false]) (entries a) else []) ++
    (if (f_st f <? 1)%Z then under ((f_p f ++ l) ++ [true]) (entries b) else [])
  end.
Definition pend (fs : list frame) : list entry := concat (map pend1 fs).
Definition fut (f : frame) (P : list bool) : Prop :=
  (f_st f = (-1)%Z /\ pre (f_p f ++ f_l f) P) \/ (f_st f = 0%Z /\ pre ((f_p f ++ f_l f) ++ [true]) P).

Definition bit_st (b : bool) : Z := if b then 1%Z else 0%Z.
Fixpoint chain (fs : list frame) : Prop :=
  match fs with
  | [] => True
  | f :: rest =>
    match rest with
    | [] => f_p f = []
    | g :: _ => exists b, f_st g = bit_st b /\ f_p f = (f_p g ++ f_l g) ++ [b]
    end /\ chain rest
  end.
Lemma chain_in f rest g : chain (f :: rest) -> In g rest -> exists b, f_st g = bit_st b /\ pre ((f_p g ++ f_l g) ++ [b]) (f_p f).
Proof.
  revert f. induction rest as [|h rest IH]; intros f H G; [destruct G|]. destruct H as [(b & E1 & E2) H]. destruct G as [<-|G].
  - exists b. split; [exact E1|]. rewrite E2. apply pre_refl.
  - destruct (IH h H G) as (b' & E3 & E4). exists b'. split; [exact E3|]. eapply pre_trans; [exact E4|]. rewrite E2, <- app_assoc. apply pre_app.
Qed.
(** Whatever comes later below lies to the right of the frame. *)
Lemma chain_fut f rest g P : chain (f :: rest) -> In g rest -> fut g P -> dlt (f_p f) P.
Proof.
  intros C G H. destruct (chain_in f rest g C G) as (b & E & H1). destruct H as [[H _]|[H H2]]; rewrite E in H; destruct b; try discriminate.
  eapply dlt_pre; [|exact H1|exact H2]. apply dlt_bit.
Qed.
Lemma chain_st f rest s : chain (f :: rest) -> chain (at_st s f :: rest).
Proof. intros H. exact H. Qed.

(** A left part that was entered is not lost. *)
Fixpoint keeps (ast : list aitem) (acc live : Prop) (fs : list frame) : Prop :=
  match fs with
  | [] => True
  | f :: rest =>
    (f_st f = 0%Z -> acc \/ f_fl f = true \/ live \/ top_under ast ((f_p f ++ f_l f) ++ [false])) /\
    keeps ast (acc \/ f_fl f = true) (live \/ f_st f = (-1)%Z \/ f_st f = 0%Z) rest
  end.
Lemma keeps_mono ast (acc live acc' live' : Prop) fs : (acc -> acc') -> (live -> live') -> keeps ast acc live fs -> keeps ast acc' live' fs.
Proof.
  revert acc live acc' live'. induction fs as [|f fs IH]; intros acc live acc' live' Ha Hl H; cbn [keeps] in *; [exact I|]. destruct H as [H1 H2].
  split; [tauto|]. eapply IH; [| |exact H2]; tauto.
Qed.
Lemma keeps_triv ast (acc live : Prop) fs : acc \/ live -> keeps ast acc live fs.
Proof. revert acc live. induction fs as [|f fs IH]; intros acc live H; cbn [keeps]; [exact I|]. split; [tauto|]. apply IH. tauto. Qed.
Lemma keeps_top ast acc live fs : (forall g, In g fs -> f_st g = 0%Z -> top_under ast ((f_p g ++ f_l g) ++ [false])) -> keeps ast acc live fs.
Proof.
  revert acc live. induction fs as [|f fs IH]; intros acc live H; cbn [keeps]; [exact I|]. split; [intros E; right; right; right; apply H; [left; reflexivity|exact E]|].
  apply IH. intros g G. apply H. right. exact G.
Qed.
Lemma keeps_push ast acc live f rest X : chain (f :: rest) -> pre (f_p f) X -> top_under ast X -> keeps ast acc live rest.
Proof.
  intros C H T. apply keeps_top. intros g G E. destruct (chain_in f rest g C G) as (b & E1 & E2). rewrite E in E1. destruct b; [discriminate|].
  unfold top_under in *. destruct ast; [exact T|]. eapply pre_trans; [exact E2|]. eapply pre_trans; eassumption.
Qed.

(** ** What an entry says about its item *)
Lemma relabel_self t : relabel (lbl t) t = t.
Proof. destruct t; reflexivity. Qed.
Lemma kid_ok f i : frame_ok f -> (exists l x a b, f_t f = Fork l x a b) ->
  wft (n - length ((f_p f ++ f_l f) ++ [i])) (kid (f_t f) i) /\ length ((f_p f ++ f_l f) ++ [i]) <= n /\ plain (kid (f_t f) i).
Proof.
  intros (W & L & Pl & _) (l & x & a & b & E). unfold f_l. rewrite E in *. cbn [wft kid lbl plain] in *. destruct W as (m & Hm & Wa & Wb).
  rewrite !app_length. cbn [length]. replace (n - (length (f_p f) + length l + 1)) with m by lia.
  destruct Pl as (_ & Pa & Pb). destruct i; (split; [assumption|split; [lia|assumption]]).
Qed.
Lemma flex_valid P t : wft (n - length P) t -> length P <= n -> valid n (AItem (P ++ lbl t) None t 0).
Proof.
  intros W L. unfold valid. cbn [a_fix a_p a_t]. pose proof (lbl_le _ _ W). eapply relabel_wft; [exact W|]. rewrite app_length. lia.
Qed.
Lemma fix_valid P t : wft (n - length P) t -> length P <= n -> valid n (AItem P (Some (length P)) t 0).
Proof. intros W L. unfold valid. cbn [a_fix a_p a_t]. auto. Qed.
Lemma flex_ents P t : ents (AItem (P ++ lbl t) None t 0) = under P (entries t).
Proof. unfold ents. cbn [a_fix a_p a_t]. rewrite entries_relabel, relabel_self. reflexivity. Qed.
Lemma fix_ents P t : ents (AItem P (Some (length P)) t 0) = under P (entries t).
Proof. unfold ents. cbn [a_fix a_p a_t]. rewrite firstn_all. reflexivity. Qed.

(** Children of one frame. *)
Lemma give_child f fl i ast : frame_ok f -> (exists l x a b, f_t f = Fork l x a b) -> SI n ast -> stepok ast ((f_p f ++ f_l f) ++ [i]) ->
  okp ast [a_child f fl i] /\ SI n (arun ast [a_child f fl i]) /\
  flat (arun ast [a_child f fl i]) = flat ast ++ under ((f_p f ++ f_l f) ++ [i]) (entries (kid (f_t f) i)).
Proof.
  intros Fo Hf Hs Ho. destruct (kid_ok f i Fo Hf) as (W & L & Pl). set (P := (f_p f ++ f_l f) ++ [i]) in *. unfold a_child. fold P.
  destruct (fl || f_fl f).
  - assert (So : stepok ast (P ++ lbl (kid (f_t f) i))).
    { destruct ast as [|top rest]; [exact I|]. destruct Ho as (q & x & y & E1 & E2 & F). exists q, x, (y ++ lbl (kid (f_t f) i)). rewrite E2, <- app_assoc. auto. }
    pose proof (flex_valid P _ W L) as V. destruct (push_abs n ast _ None (kid (f_t f) i) Hs So V) as [H1 H2].
    cbn [okp arun fold_left apush]. split; [auto|]. split; [exact H1|]. rewrite H2, flex_ents. reflexivity.
  - pose proof (fix_valid P _ W L) as V. destruct (push_abs n ast P (Some (length P)) (kid (f_t f) i) Hs Ho V) as [H1 H2].
    cbn [okp arun fold_left apush]. split; [auto|]. split; [exact H1|]. rewrite H2, fix_ents. reflexivity.
Qed.

Lemma stepok_pre ast P P' : stepok ast P -> pre P P' -> stepok ast P'.
Proof.
  intros H [z ->]. destruct ast as [|top rest]; [exact I|]. destruct H as (q & x & y & E1 & E2 & F). exists q, x, (y ++ z). rewrite E2, <- app_assoc. auto.
Qed.

(** Everything that is left of one frame. *)
Lemma give_all f fl ast : frame_ok f -> f_st f <> 2%Z -> SI n ast -> (forall P, fut f P -> stepok ast P) ->
  (f_st f = 0%Z -> fl = true \/ f_fl f = true \/ top_under ast ((f_p f ++ f_l f) ++ [false])) ->
  let ps := a_subtrees f 1 fl in let ast' := arun ast ps in
  okp ast ps /\ SI n ast' /\ flat ast' = flat ast ++ pend1 f /\
  (f_st f = 1%Z /\ ps = [] \/
   (forall P, dlt (f_p f ++ f_l f) P -> stepok ast' P) /\ fixend ast' /\ exists X, pre (f_p f) X /\ top_under ast' X).
Proof.
  intros Fo N Hs Hn Hg ps ast'. pose proof Fo as (W & L & Pl & St). unfold a_subtrees in ps. unfold f_l in *. destruct (f_t f) as [l v|l x a b] eqn:Et; cbn [lbl] in *.
  - (* leaf *)
    assert (E : f_st f = (-1)%Z) by (destruct St; [assumption|contradiction]).
    assert (So : stepok ast (f_p f ++ l)) by (apply Hn; left; split; [exact E|]; unfold f_l; rewrite Et; apply pre_refl).
    assert (V : valid n (AItem (f_p f ++ l) None (Leaf l v) 0)).
    { change l with (lbl (Leaf l v)) at 1. apply flex_valid; assumption. }
    destruct (push_abs n ast _ None (Leaf l v) Hs So V) as [H1 H2].
    split; [cbn; auto|]. split; [exact H1|]. split.
    + change (flat (a_push ast (f_p f ++ l) None (Leaf l v)) = flat ast ++ pend1 f). rewrite H2. f_equal. unfold pend1. rewrite Et, E. cbn.
      reflexivity.
    + right. destruct (push_flex ast (f_p f ++ l) (Leaf l v) Hs So) as (G1 & G2 & G3). split; [exact G1|]. split; [exact G2|].
      exists (f_p f ++ l). split; [apply pre_app|]. apply G3, pre_refl.
  - (* fork *)
    assert (Hf : exists l x a b, f_t f = Fork l x a b) by eauto.
    assert (Lf : f_l f = l) by (unfold f_l; rewrite Et; reflexivity).
    assert (R : forall ast0, SI n ast0 -> stepok ast0 ((f_p f ++ l) ++ [true]) ->
      (fl || f_fl f = false -> top_under ast0 ((f_p f ++ l) ++ [false])) ->
      let ast1 := arun ast0 [a_child f fl true] in
      okp ast0 [a_child f fl true] /\ SI n ast1 /\ flat ast1 = flat ast0 ++ under ((f_p f ++ l) ++ [true]) (entries b) /\
      (forall P, dlt (f_p f ++ l) P -> stepok ast1 P) /\ fixend ast1 /\ exists X, pre (f_p f) X /\ top_under ast1 X).
    { intros ast0 Hs0 Ho0 Hu0 ast1. rewrite <- Lf in Ho0, Hu0. destruct (give_child f fl true ast0 Fo Hf Hs0 Ho0) as (H1 & H2 & H3). rewrite Et, Lf in H3. cbn [kid] in H3.
      split; [exact H1|]. split; [exact H2|]. split; [exact H3|]. rewrite <- Lf. unfold ast1, a_child. cbn [arun fold_left]. destruct (fl || f_fl f) eqn:Ef; cbn [apush].
      - destruct (push_flex ast0 (((f_p f ++ f_l f) ++ [true]) ++ lbl (kid (f_t f) true)) (kid (f_t f) true) Hs0 ltac:(eapply stepok_pre; [exact Ho0|apply pre_app])) as (G1 & G2 & G3).
        split; [|split; [exact G2|]].
        + intros P D. apply G1. eapply dlt_pre_l; [exact D|]. rewrite <- app_assoc. apply pre_app.
        + eexists. split; [|apply G3; apply pre_refl]. rewrite <- !app_assoc. apply pre_app.
      - destruct (push_right ast0 (f_p f ++ f_l f) (kid (f_t f) true) Hs0 Ho0 (Hu0 eq_refl)) as (G1 & G2 & G3). split; [exact G1|]. split; [exact G2|].
        eexists. split; [|exact G3]. rewrite <- app_assoc. apply pre_app. }
    destruct St as [E|[E|[E|E]]]; [| | |contradiction]; subst ast' ps; rewrite E; cbn [indices Z.ltb Z.leb Z.compare Pos.compare Pos.compare_cont andb app map]; unfold pend1; rewrite Et, E; cbn [Z.ltb Z.compare Pos.compare Pos.compare_cont].
    + (* unused *)
      assert (So : stepok ast (f_p f ++ l)) by (apply Hn; left; split; [exact E|rewrite Lf; apply pre_refl]).
      assert (S0 : stepok ast ((f_p f ++ l) ++ [false])) by (eapply stepok_pre; [exact So|apply pre_app]).
      rewrite <- Lf in S0. destruct (give_child f fl false ast Fo Hf Hs S0) as (H1 & H2 & H3). rewrite Et, Lf in H3. cbn [kid] in H3.
      assert (So' : stepok (arun ast [a_child f fl false]) ((f_p f ++ l) ++ [true]) /\
        (fl || f_fl f = false -> top_under (arun ast [a_child f fl false]) ((f_p f ++ l) ++ [false]))).
      { rewrite <- Lf. unfold a_child. cbn [arun fold_left]. destruct (fl || f_fl f) eqn:Ef; cbn [apush].
        - split; [|discriminate]. destruct (push_flex ast (((f_p f ++ f_l f) ++ [false]) ++ lbl (kid (f_t f) false)) (kid (f_t f) false) Hs ltac:(eapply stepok_pre; [exact S0|apply pre_app])) as (G1 & _).
          apply G1. eapply dlt_pre_l; [|apply pre_app]. apply dlt_bit.
        - destruct (push_left ast (f_p f ++ f_l f) (kid (f_t f) false) Hs ltac:(rewrite Lf; exact So)) as (_ & G1 & G2).
          split; [apply G1, pre_refl|intros _; exact G2]. }
      destruct So' as [So1 So2]. destruct (R _ H2 So1 So2) as (K1 & K2 & K3 & K4).
      change [a_child f fl false; a_child f fl true] with ([a_child f fl false] ++ [a_child f fl true]).
      rewrite okp_app, arun_app. split; [auto|]. split; [exact K2|]. split; [rewrite K3, H3, <- app_assoc; reflexivity|]. right. exact K4.
    + (* left used *)
      assert (So : stepok ast ((f_p f ++ l) ++ [true])) by (apply Hn; right; split; [exact E|rewrite Lf; apply pre_refl]).
      destruct (R ast Hs So) as (K1 & K2 & K3 & K4).
      { intros Ef. apply orb_false_iff in Ef. destruct Ef as [-> Ef]. specialize (Hg E). destruct Hg as [Hg|[Hg|Hg]]; [discriminate|congruence|exact Hg]. }
      split; [exact K1|]. split; [exact K2|]. split; [exact K3|]. right. exact K4.
    + split; [exact I|]. split; [exact Hs|]. split; [rewrite app_nil_r; reflexivity|]. left. auto.
Qed.
End N.
