(** * Bulk modification: the merge stack of plain dictionaries follows the walk. *)
From Verif Require Import Err BitsProofs CellModel LabelModel LabelSpec LabelProofs DictModel DictSpec DictTree
  DictProofs DictProofs2 DictOrder BuildModel StackProofs BuildProofs BuildProps ModifyModel ModifyAbs ModifyWalk ModifyWalk2 ModifyProofs.
Local Open Scope nat_scope.

Notation plain_denorm := (fun p c off (_ : bool) l => MDenorm p c off l).
Notation plain_node := (fun p (_ : nat) c l => Ok (MNode p c l)).

Section P.
Context (fin : list bool -> list cell -> res unit) (n : nat) (Hn : n <= 1023).
Notation CR := (canonical_dict fin).
Notation exec := (exec (m_reduce fin) MLeaf plain_denorm plain_node).
Notation exec1 := (exec1 (m_reduce fin) MLeaf plain_denorm plain_node).

Lemma Rep_walkable R : reads R -> walkable (Rep R).
Proof.
  intros HR m c t L H. destruct (Rep_inv R m c t HR L H) as (bits & refs & rest & Ec & _ & El & Ht). exists bits, refs, rest. split; [exact Ec|]. split; [exact El|].
  destruct t as [l v|l x a b]; [apply Ht|]. destruct Ht as (m' & cl & cr & E & Er & _ & Ha & Hb). exists m', cl, cr, (snd x). auto.
Qed.
Lemma Rep_content R m c t : reads R -> writes fin R -> m <= 1023 -> Rep R m c t ->
  exists bits refs rest, c = Cell false bits refs /\ read_label m bits = Ok (lbl t, rest) /\ (exists e, bits = e ++ rest) /\ has_content R t (rest, refs).
Proof.
  intros HR HW L H. destruct (Rep_inv R m c t HR L H) as (bits & refs & rest & Ec & _ & El & Ht). exists bits, refs, rest. split; [exact Ec|]. split; [exact El|].
  split; [eapply read_label_suffix; eassumption|]. pose proof (Rep_plain R fin _ _ _ HW H) as Pl. pose proof (Rep_wft _ _ _ _ H) as W.
  destruct t as [l v|l x a b]; cbn [has_content]; [symmetry; apply Ht|]. destruct Ht as (m' & cl & cr & E & -> & -> & Ha & Hb). exists m', cl, cr.
  destruct Pl as [-> _]. split; [exact Ha|]. split; [exact Hb|]. split; [reflexivity|]. split; [reflexivity|]. eapply Rep_wft. exact Ha.
Qed.
Lemma drop_suffix (e r : list bool) : drop (length (e ++ r) - length r) (e ++ r) = r.
Proof. rewrite app_length. replace (length e + length r - length r) with (length e) by lia. apply drop_app. Qed.

Notation crel := (crel n).
Notation cmd_rel := (cmd_rel n).
(** Each command is one step of the stack. *)
Lemma exec1_shape R x p fx t : reads R -> writes fin R -> cmd_rel (Rep R) eq x (p, fx, t) ->
  exists mk, (forall l, crel R (mk l) (AItem p fx t l)) /\
    forall st, exec1 x st = let? (l, st) := m_reduce fin st p n in Ok (mk l :: st).
Proof.
  intros HR HW H. destruct x as [k v|P c off|q kbl c|q kbl c]; cbn [ModifyProofs.cmd_rel] in H.
  - destruct H as (w & [= -> -> ->] & <- & L). exists (MLeaf k v). split; [intros l; apply leaf_crel|]. intros st. cbn [ModifyProofs.exec1]. unfold add_value. rewrite L. reflexivity.
  - destruct H as (q & l & w & [= -> -> ->] & EP & L & Hr & Eo). exists (fun l => MDenorm P c off l). split.
    + intros l0. destruct (Rep_content R (n - length q) c _ HR HW ltac:(rewrite EP, app_length in L; lia) Hr) as (bits & refs & rest & -> & El & (e & Ee) & Hc).
      split; [reflexivity|]. split; [reflexivity|]. split; [reflexivity|]. exists bits, refs. split; [reflexivity|].
      rewrite Eo. unfold off_of. cbn [c_bits]. rewrite El. split; [lia|]. subst bits. rewrite drop_suffix. exact Hc.
    + intros st. cbn [ModifyProofs.exec1]. unfold add_raw_leaf. rewrite L. reflexivity.
  - destruct H as (t' & [= -> -> ->] & -> & L & Hr). destruct (Rep_content R (n - length q) c _ HR HW ltac:(lia) Hr) as (bits & refs & rest & -> & El & (e & Ee) & Hc).
    exists (fun l => MDenorm (q ++ lbl t') (Cell false bits refs) (length bits - length rest) l). split.
    + intros l0. split; [reflexivity|]. split; [reflexivity|]. split; [reflexivity|]. exists bits, refs. split; [reflexivity|]. split; [lia|]. subst bits. rewrite drop_suffix. exact Hc.
    + intros st. cbn [ModifyProofs.exec1]. unfold add_flattened_subtree, as_slice. cbn [c_exotic c_bits c_refs rbind s_bits]. rewrite El. cbn [rbind].
      pose proof (lbl_le _ _ (Rep_wft _ _ _ _ Hr)) as Ll. rewrite put_ok by lia. cbn [rbind]. replace (length q + (n - length q)) with n by lia. reflexivity.
  - destruct H as (t' & [= -> -> ->] & -> & L & Hr). exists (fun l => MNode q c l). split.
    + intros l0. split; [reflexivity|]. split; [reflexivity|]. exists (length q). split; [reflexivity|exact Hr].
    + intros st. cbn [ModifyProofs.exec1]. unfold add_subtree. replace (length q + (n - length q)) with n by lia. reflexivity.
Qed.

Lemma exec_sound R cmds ps : reads R -> writes fin R -> cmds_rel n (Rep R) eq cmds ps ->
  forall ast st st', okp n ast ps -> SI n ast -> stack_rel n R st ast -> exec cmds st = Ok st' -> stack_rel n R st' (arun ast ps).
Proof.
  intros HR HW. induction 1 as [|x [[p fx] t] cmds ps Hx Hs IH]; intros ast st st' O S Sr E; cbn [ModifyProofs.exec] in E; [injection E as <-; exact Sr|].
  cbn [okp] in O. destruct O as (So & Va & Pl & O). destruct (exec1_shape R x p fx t HR HW Hx) as (mk & Hc & He). rewrite He in E.
  destruct (m_reduce fin st p n) as [[l st1]|] eqn:Er; cbn [rbind] in E; [|discriminate].
  destruct (push_abs n ast p fx t S So Va) as [S' _]. unfold arun. cbn [fold_left apush].
  apply (IH (a_push ast p fx t) (mk l :: st1) st' O S'); [|exact E]. eapply push_sound; try eassumption. apply Hc.
Qed.
Lemma exec_real cmds : forall ast, okp n ast cmds -> SI n ast -> Forall (realizable fin n) (arun ast cmds) -> Forall (realizable fin n) ast.
Proof.
  induction cmds as [|[[p fx] t] ps IH]; intros ast O S H; [exact H|]. cbn [okp] in O. destruct O as (So & Va & Pl & O). unfold arun in H. cbn [fold_left apush] in H.
  destruct (push_abs n ast p fx t S So Va) as [S' _]. apply (push_real fin n Hn ast p fx t S So). apply (IH _ O S' H).
Qed.
Lemma exec_complete cmds ps : cmds_rel n (Rep CR) eq cmds ps ->
  forall ast st, okp n ast ps -> SI n ast -> stack_rel n CR st ast -> Forall (realizable fin n) (arun ast ps) -> exists st', exec cmds st = Ok st'.
Proof.
  induction 1 as [|x [[p fx] t] cmds ps Hx Hs IH]; intros ast st O S Sr H; cbn [ModifyProofs.exec]; [eauto|].
  cbn [okp] in O. destruct O as (So & Va & Pl & O). destruct (exec1_shape CR x p fx t (reads_canonical fin) (writes_canonical fin) Hx) as (mk & Hc & He). rewrite He.
  unfold arun in H. cbn [fold_left apush] in H. destruct (push_abs n ast p fx t S So Va) as [S' _].
  pose proof (exec_real ps _ O S' H) as Hr. destruct (push_complete fin n Hn st ast p fx t Sr S So Hr) as (l & st1 & Er & _). rewrite Er. cbn [rbind].
  apply (IH (a_push ast p fx t)); try assumption. eapply push_sound; try eassumption; [apply reads_canonical|apply writes_canonical|apply Hc].
Qed.
Lemma arun_plain ps : forall ast, okp n ast ps -> Forall (fun a => plain (a_t a)) ast -> Forall (fun a => plain (a_t a)) (arun ast ps).
Proof.
  induction ps as [|[[p fx] t] ps IH]; intros ast O H; [exact H|]. cbn [okp] in O. destruct O as (_ & _ & Pl & O). unfold arun. cbn [fold_left apush].
  apply IH; [exact O|]. apply a_push_plain; assumption.
Qed.
Lemma fixend_fixed ar ast : fixend (ar :: ast) -> fixed_at ar (match ast with [] => 0 | _ => S (a_prev ar) end).
Proof. cbn [fixend]. unfold fixed_at. destruct (a_fix ar); [|trivial]. intros [Ne ->]. destruct ast; [contradiction|reflexivity]. Qed.

(** ** The loop on a dictionary that is not empty *)
Definition in_order (prev : option (list bool)) (reqs : list (list bool * option chunk)) : Prop :=
  match prev, reqs with _, [] => True | None, (k, _) :: r => length k = n /\ increasing n k r | Some p, r => length p = n /\ increasing n p r end.
Definition oks (reqs : list (list bool * option chunk)) : list (list bool * res (option chunk)) := map (fun r => (fst r, Ok (snd r))) reqs.
Definition modify_stack (root : cell) (entries : list (list bool * res (option chunk))) : res (list mitem) :=
  let? (prev_key, stack, st) := modify_loop (m_reduce fin) MLeaf plain_denorm plain_node (num_ord false) root entries None [] [] in
  seek_end (m_reduce fin) plain_denorm plain_node false stack st.

Lemma dlt_gt a b : length a = n -> length b = n -> dlt a b -> num_ord false b a = Gt.
Proof.
  intros La Lb H. unfold num_ord. apply Z.compare_gt_iff. apply klt_num; [congruence|].
  destruct H as (q & x & y & -> & ->). clear. induction q as [|u q IH]; cbn [app klt]; [cbn; reflexivity|]. rewrite eqb_reflx. exact IH.
Qed.
Lemma increasing_up reqs : forall k, length k = n -> increasing n k reqs ->
  (fix up p (l : list (list bool * option chunk)) := match l with [] => True | w :: l' => num_ord false (fst w) p = Gt /\ up (fst w) l' end) k reqs.
Proof.
  induction reqs as [|[k' v'] reqs IH]; intros k Lk H; [exact I|]. cbn [increasing] in H. destruct H as (L & D & H). cbn [fst]. split; [apply dlt_gt; assumption|apply IH; assumption].
Qed.
Lemma increasing_len reqs : forall k, increasing n k reqs -> Forall (fun r => length (fst r) = n) reqs.
Proof. induction reqs as [|[k' v'] reqs IH]; intros k H; [constructor|]. cbn [increasing] in H. destruct H as (L & D & H). constructor; [exact L|eapply IH; exact H]. Qed.

Lemma stack_sim R root t k v reqs : reads R -> writes fin R -> Rep R n root t -> length k = n -> increasing n k reqs ->
  exists cmds, cmds_rel n (Rep R) eq cmds (a_all t ((k, v) :: reqs)) /\ modify_stack root (oks ((k, v) :: reqs)) = exec cmds [].
Proof.
  intros HR HW Ht Lk Inc.
  destruct (all_sim (m_reduce fin) MLeaf plain_denorm plain_node n Hn (Rep R) eq (Rep_walkable R HR) (num_ord false) root t k v v reqs reqs) as (cmds & C & S); try assumption.
  - eapply Rep_wft. exact Ht.
  - eapply (Rep_plain R fin); eassumption.
  - destruct v; reflexivity.
  - pose proof (increasing_len reqs k Inc) as F. clear -F. induction F as [|[k w] reqs H F IH]; constructor; [|exact IH]. split; [reflexivity|]. split; [exact H|]. destruct w; reflexivity.
  - apply increasing_up; assumption.
  - exists cmds. split; [exact C|]. apply S.
Qed.

Lemma modify_sound R root es k v reqs st d : reads R -> writes fin R -> is_dict R n (Some root) es -> length k = n -> increasing n k reqs ->
  modify_stack root (oks ((k, v) :: reqs)) = Ok st -> m_finalize fin st n = Ok d ->
  exists es', is_dict R n d es' /\ dmap es' = fold_left upd1 ((k, v) :: reqs) (dmap es).
Proof.
  intros HR HW D Lk Inc E Ef. cbn [is_dict] in D. apply hashmap_rep in D. destruct D as (t & Ht & ->).
  destruct (stack_sim R root t k v reqs HR HW Ht Lk Inc) as (cmds & C & Es). rewrite Es in E.
  destruct (all_ok n t k v reqs (Rep_wft _ _ _ _ Ht) (Rep_plain R fin _ _ _ HW Ht) Lk Inc) as (O & S & M & Fe).
  pose proof (exec_sound R cmds _ HR HW C [] [] st O I (List.Forall2_nil _) E) as Sr.
  destruct (arun [] (a_all t ((k, v) :: reqs))) as [|ar ast].
  - inversion Sr; subst. cbn in Ef. injection Ef as <-. exists []. split; [reflexivity|exact M].
  - destruct S as [V B]. exists (flat (ar :: ast)). split; [|exact M]. eapply finalize_sound; try eassumption. apply fixend_fixed, Fe.
Qed.
Lemma modify_complete root es k v reqs d es' : is_dict CR n (Some root) es -> length k = n -> increasing n k reqs ->
  is_dict CR n d es' -> dmap es' = fold_left upd1 ((k, v) :: reqs) (dmap es) ->
  exists st, modify_stack root (oks ((k, v) :: reqs)) = Ok st /\ m_finalize fin st n = Ok d.
Proof.
  intros D Lk Inc D' Mm. cbn [is_dict] in D. apply hashmap_rep in D. destruct D as (t & Ht & ->).
  pose proof (reads_canonical fin) as HR. pose proof (writes_canonical fin) as HW.
  destruct (stack_sim CR root t k v reqs HR HW Ht Lk Inc) as (cmds & C & Es). rewrite Es.
  destruct (all_ok n t k v reqs (Rep_wft _ _ _ _ Ht) (Rep_plain CR fin _ _ _ HW Ht) Lk Inc) as (O & S & M & Fe).
  rewrite <- M in Mm. pose proof (arun_plain _ [] O (List.Forall_nil _)) as P.
  destruct (arun [] (a_all t ((k, v) :: reqs))) as [|ar ast] eqn:Er.
  - destruct (exec_complete cmds _ C [] [] O I (List.Forall2_nil _)) as [st E]; [rewrite Er; constructor|]. exists st. split; [exact E|].
    pose proof (exec_sound CR cmds _ HR HW C [] [] st O I (List.Forall2_nil _) E) as Sr. rewrite Er in Sr. destruct (dict_unique fin n d None es' [] D' eq_refl Mm) as [-> _]. inversion Sr; subst. reflexivity.
  - destruct S as [V B]. pose proof (fixend_fixed ar ast Fe) as Fx.
    destruct (a_finalize_spec n px ar ast V B Fx) as (V' & F' & W & X).
    pose proof (a_finalize_plain n ar ast V B P) as Pl.
    assert (Pt : plain (tree_at (a_finalize px ar ast) 0)).
    { unfold tree_at. destruct (a_fix _); [exact Pl|]. destruct (a_t (a_finalize px ar ast)); [exact I|exact Pl]. }
    destruct d as [c|]; cbn [is_dict] in D'.
    2:{ subst es'. exfalso. rewrite <- X in Mm. destruct (t_nonempty _ _ W) as (k' & v' & G). rewrite <- t_get_spec, <- Mm in G. cbn in G. rewrite lookup_empty in G. discriminate. }
    apply hashmap_rep in D'. destruct D' as (t' & Ht' & ->).
    assert (Et : t' = tree_at (a_finalize px ar ast) 0).
    { apply (t_ext n); [eapply Rep_wft; exact Ht'|exact W|eapply (Rep_plain CR fin); [apply writes_canonical|exact Ht']|exact Pt|].
      intros k'. rewrite <- !t_get_spec, Mm, X. reflexivity. }
    rewrite Et in Ht'. pose proof (finalize_real fin n Hn ar ast c V B Fx Ht') as Re.
    destruct (exec_complete cmds _ C [] [] O I (List.Forall2_nil _)) as [st E]; [rewrite Er; exact Re|]. exists st. split; [exact E|].
    pose proof (exec_sound CR cmds _ HR HW C [] [] st O I (List.Forall2_nil _) E) as Sr. rewrite Er in Sr.
    eapply finalize_complete; eassumption.
Qed.
End P.
