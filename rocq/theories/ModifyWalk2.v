(** * Bulk modification on trees: all requests give the updated map. *)
From Verif Require Import Err BitsProofs CellModel LabelModel LabelSpec LabelProofs DictModel DictSpec DictTree
  DictProofs DictProofs2 BuildModel StackProofs BuildProofs ModifyModel ModifyAbs ModifyWalk.
Local Open Scope nat_scope.

Definition upd1 (m : gmap (list bool) chunk) (r : list bool * option chunk) : gmap (list bool) chunk :=
  match snd r with Some v => <[fst r := v]> m | None => delete (fst r) m end.

Section N.
Context (n : nat).
Notation frame_ok := (frame_ok n).

(** ** Entries on the stack lie to the left of what may come next *)
Lemma under_in p es e : In e (under p es) -> pre p (fst e).
Proof. unfold under. intros H. apply in_map_iff in H. destruct H as (e' & <- & _). exists (fst e'). reflexivity. Qed.
Lemma ents_lt i o q x k : valid n i -> a_p i = q ++ false :: x -> k = q ++ true :: o -> match a_fix i with Some off => S (length q) <= off | None => True end ->
  forall e, In e (ents i) -> dlt (fst e) k.
Proof.
  intros V Ei -> F e H. unfold ents in H. destruct (a_fix i) as [off|].
  - apply under_in in H. eapply dlt_pre_l; [|exact H]. rewrite Ei. exists q.
    destruct (off - length q) as [|d] eqn:D; [lia|]. exists (take d x), o. split; [|reflexivity].
    rewrite take_app_ge by lia. rewrite D. reflexivity.
  - assert (pre (a_p i) (fst e)) as Hp.
    { rewrite <- (app_nil_r (a_p i)) in H. rewrite entries_relabel in H. apply under_in in H. exact H. }
    eapply dlt_pre_l; [|exact Hp]. rewrite Ei. apply dlt_bit.
Qed.
Lemma flat_lt ast k : SI n ast -> stepok ast k -> forall e, In e (flat ast) -> dlt (fst e) k.
Proof.
  destruct ast as [|top rest]; [intros _ _ e []|]. intros [V B] (q & x & y & E1 & E2 & F) e. cbn [flat]. intros H. apply in_app_iff in H. destruct H as [H|H].
  2:{ eapply ents_lt; try eassumption. unfold fixed_at in F. destruct (a_fix top); lia. }
  clear F V. revert top q x y B E1 E2 H. induction rest as [|w rest IH]; intros top q x y B E1 E2 H; [destruct H|].
  destruct B as ((q' & x' & y' & Hq & Ew & Eu & Fw) & _ & Vw & B). cbn [flat] in H.
  assert (exists q2 x2 y2, a_p w = q2 ++ false :: x2 /\ k = q2 ++ true :: y2 /\ length q2 <= length q') as (q2 & x2 & y2 & G1 & G2 & G3).
  { rewrite Eu in E1. destruct (lt_eq_lt_dec (length q) (length q')) as [[L|L]|L].
    - assert (exists z, q' = q ++ false :: z) as [z ->].
      { pose proof (f_equal (take (length q')) E1) as T. rewrite take_app in T. rewrite take_app_ge in T by lia.
        destruct (length q' - length q) as [|d] eqn:D; [lia|]. cbn [take] in T. exists (take d x). exact T. }
      exists q, (z ++ false :: x'), y. rewrite <- app_assoc in Ew. split; [exact Ew|]. split; [exact E2|]. rewrite app_length. lia.
    - symmetry in E1. apply app_inj_1 in E1; [|exact L]. destruct E1 as [_ E1]. discriminate.
    - assert (exists z, q = q' ++ true :: z) as [z ->].
      { symmetry in E1. pose proof (f_equal (take (length q)) E1) as T. rewrite take_app in T. rewrite take_app_ge in T by lia.
        destruct (length q - length q') as [|d] eqn:D; [lia|]. cbn [take] in T. exists (take d y'). exact T. }
      exists q', x', (z ++ true :: y). rewrite E2, <- app_assoc. auto. }
  apply in_app_iff in H. destruct H as [H|H].
  - eapply IH; [exact B|exact G1|exact G2|exact H].
  - eapply ents_lt; try eassumption. unfold fixed_at in Fw. destruct (a_fix w); lia.
Qed.

Lemma absent es k : (forall e, In e es -> fst e <> k) -> dmap es !! k = None.
Proof.
  intros H. unfold dmap. apply not_elem_of_list_to_map. intros G. apply elem_of_list_In in G. apply in_map_iff in G. destruct G as (e & <- & G). exact (H e G eq_refl).
Qed.
Lemma absent_flat ast k : SI n ast -> stepok ast k -> dmap (flat ast) !! k = None.
Proof. intros Hs Ho. apply absent. intros e H. apply dlt_neq. eapply flat_lt; eassumption. Qed.
Lemma absent_rest f rest k : chain (f :: rest) -> pre (f_p f) k -> Forall frame_ok rest -> dmap (pend rest) !! k = None.
Proof.
  intros C H Fo. apply absent. intros e G. unfold pend in G. apply in_concat in G. destruct G as (es & G1 & G2). apply in_map_iff in G1. destruct G1 as (g & <- & G1).
  destruct (chain_rest_pre f rest g k C H G1) as (b & E & Hp). unfold pend1 in G2. pose proof (proj1 (List.Forall_forall _ _) Fo g G1) as (_ & _ & _ & St).
  unfold f_l in Hp. destruct (f_t g) as [l v|l x a c].
  - destruct b; cbn [bit_st] in E; destruct St; congruence.
  - cbn [lbl] in Hp. destruct b; rewrite E in G2; cbn in G2; [destruct G2|]. apply under_in in G2. intros Eq. rewrite Eq in G2.
    apply (dlt_irr k []). rewrite app_nil_r. eapply dlt_pre; [|exact Hp|exact G2]. apply dlt_bit.
Qed.
Lemma pend1_under f e : In e (pend1 f) -> pre (f_p f ++ f_l f) (fst e).
Proof.
  unfold pend1, f_l. destruct (f_t f) as [l v|l x a b]; cbn [lbl].
  - destruct (_ <? _)%Z; [|intros []]. intros [<-|[]]. apply pre_refl.
  - intros H. apply in_app_iff in H. destruct H as [H|H]; (destruct (_ <? _)%Z in H; [|destruct H]); apply under_in in H; eapply pre_app_l; exact H.
Qed.
Lemma dmap_mid A B k v : dmap A !! k = None -> dmap (A ++ (k, v) :: B) = <[k := v]> (dmap (A ++ B)).
Proof. intros H. rewrite !dmap_app. change (dmap ((k, v) :: B)) with (<[k := v]> (dmap B)). symmetry. apply insert_union_r, H. Qed.

(** ** One request *)
Record quiet (k : list bool) (ast : list aitem) (f : frame) (rest : list frame) : Prop := {
  q_si : SI n ast; q_chain : chain (f :: rest); q_ok : Forall frame_ok (f :: rest); q_pos : pos k f; q_st : f_st f = (-1)%Z \/ f_st f = 2%Z;
  q_nxt : forall P, dlt k P -> stepok ast P; q_end : fixend ast; q_keeps : keeps ast False False (f :: rest) }.

Lemma strip_diverge l k : length l <= length k -> strip l k = None -> (dlt l k /\ lexcmp k l = Gt) \/ (dlt k l /\ lexcmp k l = Lt).
Proof.
  intros L E. destruct (key_label_cases k l L) as [[r ->]|(p & x & a & b & -> & ->)]; [rewrite strip_app in E; discriminate|].
  assert (lexcmp (p ++ x :: a) (p ++ negb x :: b) = if x then Gt else Lt) as ->.
  { clear. induction p as [|y p IH]; cbn [app lexcmp]; [destruct x; reflexivity|]. rewrite Bool.eqb_reflx. exact IH. }
  destruct x; cbn [negb]; [left|right]; (split; [apply dlt_bit|reflexivity]).
Qed.
Lemma chain_at f f' rest : f_p f' = f_p f -> chain (f :: rest) -> chain (f' :: rest).
Proof. intros E. unfold chain. fold chain. rewrite E. auto. Qed.
Lemma okp_val ast k v : length k = n -> SI n ast -> stepok ast k ->
  okp n ast (val_push k (Some v)) /\ SI n (arun ast (val_push k (Some v))) /\ flat (arun ast (val_push k (Some v))) = flat ast ++ [(k, v)].
Proof.
  intros Lk Hs Ho. assert (V : valid n (AItem k None (Leaf [] v) 0)) by exact Lk. destruct (push_abs n ast k None (Leaf [] v) Hs Ho V) as [H1 H2].
  cbn [val_push okp arun fold_left apush]. split; [cbn; auto|]. split; [exact H1|]. rewrite H2. reflexivity.
Qed.

Lemma apply_ok s f rest k v ast : length k = n -> seeking n (is_none v) k ast f rest ->
  match s with Found => k = f_p f ++ f_l f | NotFound rk => k = f_p f ++ rk /\ strip (f_l f) rk = None end ->
  let (fs', ps) := a_apply s (f :: rest) k v in let ast' := arun ast ps in
  okp n ast ps /\ dmap (flat ast' ++ pend fs') = upd1 (dmap (flat ast ++ pend (f :: rest))) (k, v) /\
  exists f' rest', fs' = f' :: rest' /\ quiet k ast' f' rest'.
Proof.
  intros Lk Sk Hs. pose proof (sk_ok _ _ _ _ _ _ Sk) as Fo. inversion Fo as [|? ? F1 F2]; subst. pose proof (sk_ready _ _ _ _ _ _ Sk) as (R1 & R2 & R3).
  pose proof (sk_si _ _ _ _ _ _ Sk) as Si. pose proof (sk_chain _ _ _ _ _ _ Sk) as C. pose proof (sk_keeps _ _ _ _ _ _ Sk) as Kp.
  assert (Sok : stepok ast k) by (apply (sk_nxt _ _ _ _ _ _ Sk); left; reflexivity).
  assert (Ar : dmap (pend rest) !! k = None) by (eapply absent_rest; eassumption).
  (* the end: [f'] replaces [f] after the items of [f] were given *)
  assert (Fin : forall f' ast1, f_p f' = f_p f -> frame_ok f' -> pos k f' -> f_st f' = (-1)%Z \/ f_st f' = 2%Z -> SI n ast1 -> stepok ast1 k ->
    (v = None -> (forall P, dlt k P -> stepok ast1 P) /\ fixend ast1 /\ keeps ast1 False False (f' :: rest)) ->
    let ast' := arun ast1 (val_push k v) in
    okp n ast1 (val_push k v) /\ flat ast' = flat ast1 ++ match v with Some v => [(k, v)] | None => [] end /\ quiet k ast' f' rest).
  { intros f' ast1 Ep Fo' Po St S1 So1 Hv. destruct v as [v|].
    - destruct (okp_val ast1 k v Lk S1 So1) as (H1 & H2 & H3). split; [exact H1|]. split; [exact H3|].
      cbn [val_push arun fold_left apush] in *. destruct (push_flex n ast1 k (Leaf [] v) S1 So1) as (G1 & G2 & G3).
      constructor; try assumption; [eapply chain_at; eassumption|constructor; assumption|].
      split; [destruct St as [E|E]; rewrite E; discriminate|].
      eapply (keeps_push _ _ _ f); [exact C|exact R1|]. apply G3, pre_refl.
    - destruct (Hv eq_refl) as (H1 & H2 & H3). cbn [val_push arun fold_left okp]. split; [exact I|]. split; [rewrite app_nil_r; reflexivity|].
      constructor; try assumption; [eapply chain_at; eassumption|constructor; assumption]. }
  unfold a_apply. destruct s as [rk|].
  - (* not found *)
    destruct Hs as [Ek Hn].
    assert (Lr : length (f_l f) <= length rk).
    { destruct F1 as (W & L & _). apply lbl_le in W. unfold f_l. rewrite Ek, app_length in Lk. lia. }
    assert (A1 : dmap (pend1 f) !! k = None).
    { apply absent. intros e H. apply pend1_under in H. intros E. rewrite E, Ek in H. destruct H as [z H]. rewrite <- app_assoc in H. apply app_inv_head in H. rewrite H, strip_app in Hn. discriminate. }
    assert (Aall : dmap (flat ast ++ pend (f :: rest)) !! k = None).
    { rewrite pend_cons, !dmap_app. apply lookup_union_None. split; [eapply absent_flat; eassumption|]. apply lookup_union_None. auto. }
    destruct (strip_diverge (f_l f) rk Lr Hn) as [[D ->]|[D ->]].
    + (* the key is to the right *)
      assert (Dk : dlt (f_p f ++ f_l f) k) by (rewrite Ek; apply dlt_app, D). cbn [andb].
      destruct (Z.eqb_spec (f_st f) 2) as [E|E]; cbn [negb].
      * destruct (Fin f ast eq_refl F1) as (H1 & H2 & H3).
        { split; [exact R1|]. split; [rewrite E; discriminate|]. split; [rewrite E; discriminate|]. split; [rewrite E; discriminate|]. auto. }
        { auto. } { exact Si. } { exact Sok. }
        { intros ->. split; [|split; [apply (sk_end _ _ _ _ _ _ Sk); reflexivity|exact Kp]]. intros P H. apply (sk_nxt _ _ _ _ _ _ Sk). right. right. auto. }
        split; [exact H1|]. split; [|eauto]. rewrite H2. unfold upd1. cbn [fst snd]. destruct v as [v|].
        -- rewrite <- app_assoc. cbn [app]. apply dmap_mid. eapply absent_flat; eassumption.
        -- rewrite app_nil_r. symmetry. apply delete_notin, Aall.
      * destruct (give_all n f false ast F1 E Si) as (H1 & H2 & H3 & H4).
        { intros P H. apply (sk_nxt _ _ _ _ _ _ Sk). right. left. exact H. }
        { intros E0. destruct Kp as [Kp _]. destruct (Kp E0) as [[]|[H|[[]|H]]]; auto. }
        set (ast1 := arun ast (a_subtrees f 1 false)) in *.
        assert (So1 : stepok ast1 k /\ (v = None -> (forall P, dlt k P -> stepok ast1 P) /\ fixend ast1 /\ keeps ast1 False False (at_st 2 f :: rest))).
        { destruct H4 as [(E1 & Ep)|(G1 & G2 & X & G3 & G4)].
          - unfold ast1. rewrite Ep. cbn [arun fold_left]. split; [exact Sok|]. intros ->.
            split; [intros P H; apply (sk_nxt _ _ _ _ _ _ Sk); right; right; auto|]. split; [apply (sk_end _ _ _ _ _ _ Sk); reflexivity|].
            destruct Kp as [_ Kp]. split; [discriminate|]. eapply keeps_mono; [| |exact Kp]; [tauto|]. rewrite E1. intros [[]|[H|H]]; discriminate.
          - split; [apply G1, Dk|]. intros _. split; [intros P H; apply G1; eapply dlt_trans; eassumption|]. split; [exact G2|].
            split; [discriminate|]. eapply keeps_push; eassumption. }
        destruct So1 as [So1 Hv].
        destruct (Fin (at_st 2 f) ast1 eq_refl) as (K1 & K2 & K3).
        { destruct F1 as (W & L & Pl & St). split; [exact W|]. split; [exact L|]. split; [exact Pl|]. cbn [at_st f_t f_st]. destruct (f_t f); auto. }
        { split; [exact R1|]. split; [discriminate|]. split; [discriminate|]. split; [discriminate|]. intros _. right. exact Dk. }
        { auto. } { exact H2. } { exact So1. } { exact Hv. }
        cbv zeta. rewrite okp_app, arun_app. split; [auto|]. split; [|eauto]. fold ast1. rewrite K2, H3, !pend_cons.
        replace (pend1 (at_st 2 f)) with (@nil entry) by (unfold pend1; cbn [at_st f_t f_st]; destruct (f_t f); reflexivity). cbn [app].
        unfold upd1. cbn [fst snd]. destruct v as [v|].
        -- rewrite <- app_assoc. cbn [app]. rewrite dmap_mid; [rewrite <- app_assoc; reflexivity|].
           rewrite dmap_app. apply lookup_union_None. split; [eapply absent_flat; eassumption|exact A1].
        -- rewrite app_nil_r. rewrite <- app_assoc. symmetry. apply delete_notin. rewrite pend_cons in Aall. exact Aall.
    + (* the key is to the left *)
      cbn [andb]. assert (Dk : dlt k (f_p f ++ f_l f)) by (rewrite Ek; apply dlt_app, D).
      assert (St : f_st f = (-1)%Z).
      { destruct F1 as (_ & _ & _ & St). assert (N1 : ~ dlt (f_p f ++ f_l f) k) by (apply dlt_asym, Dk).
        assert (N2 : ~ pre ((f_p f ++ f_l f) ++ [true]) k).
        { intros H. apply pre_app_l in H. exact (dlt_not_pre' _ _ Dk H). }
        assert (f_st f <> 0%Z) by (intros E; destruct (R2 E); auto). assert (f_st f <> 1%Z) by auto. assert (f_st f <> 2%Z) by auto.
        destruct (f_t f); [destruct St as [St|St]|destruct St as [St|[St|[St|St]]]]; auto; contradiction. }
      destruct (Fin f ast eq_refl F1) as (H1 & H2 & H3).
      { split; [exact R1|]. split; [intros _; exact Dk|]. rewrite St. repeat split; discriminate. }
      { auto. } { exact Si. } { exact Sok. }
      { intros ->. split; [|split; [apply (sk_end _ _ _ _ _ _ Sk); reflexivity|exact Kp]]. intros P H. apply (sk_nxt _ _ _ _ _ _ Sk). right. right. auto. }
      split; [exact H1|]. split; [|eauto]. rewrite H2. unfold upd1. cbn [fst snd]. destruct v as [v|].
      * rewrite <- app_assoc. cbn [app]. apply dmap_mid. eapply absent_flat; eassumption.
      * rewrite app_nil_r. symmetry. apply delete_notin, Aall.
  - (* found *)
    assert (exists v0, f_t f = Leaf (f_l f) v0) as [v0 Et].
    { destruct F1 as (W & L & _). unfold f_l in *. destruct (f_t f) as [l v0|l x a b]; [eauto|]. cbn [wft lbl] in *. destruct W as (m & W & _).
      rewrite Hs, app_length in Lk. lia. }
    assert (St : f_st f = (-1)%Z).
    { destruct F1 as (_ & _ & _ & St). rewrite Et in St. destruct St as [St|St]; [exact St|]. exfalso. specialize (R3 (or_intror St)). rewrite Hs in R3.
      apply (dlt_irr (f_p f ++ f_l f) []). rewrite app_nil_r. exact R3. }
    assert (Ep : pend1 f = [(k, v0)]) by (unfold pend1; rewrite Et, St; rewrite Hs; reflexivity).
    set (f' := match v with Some _ => at_st 2 f | None => at_fl true (at_st 2 f) end).
    assert (E' : f_p f' = f_p f /\ f_l f' = f_l f /\ f_t f' = f_t f /\ f_st f' = 2%Z) by (subst f'; destruct v; auto). destruct E' as (E1 & E2 & E3 & E4).
    destruct (Fin f' ast E1) as (H1 & H2 & H3).
    { destruct F1 as (W & L & Pl & _). unfold ModifyAbs.frame_ok. rewrite E1, E3, E4. split; [exact W|]. split; [exact L|]. split; [exact Pl|]. rewrite Et. auto. }
    { unfold pos. rewrite E1, E2, E4. split; [exact R1|]. repeat split; try discriminate. intros _. left. exact Hs. }
    { auto. } { exact Si. } { exact Sok. }
    { intros ->. split; [|split; [apply (sk_end _ _ _ _ _ _ Sk); reflexivity|]]; [intros P H; apply (sk_nxt _ _ _ _ _ _ Sk); right; right; auto|].
      split; [discriminate|]. apply keeps_triv. left. right. reflexivity. }
    split; [exact H1|]. split; [|eauto]. rewrite H2, !pend_cons, Ep.
    replace (pend1 f') with (@nil entry) by (unfold pend1; rewrite E3, E4, Et; reflexivity). cbn [app].
    match goal with |- _ = upd1 (dmap ?X) _ => assert (Dm : dmap X = <[k := v0]> (dmap (flat ast ++ pend rest))) by (apply dmap_mid; eapply absent_flat; eassumption) end.
    rewrite Dm. unfold upd1. cbn [fst snd]. destruct v as [v|].
    + rewrite <- app_assoc. cbn [app]. rewrite dmap_mid by (eapply absent_flat; eassumption). rewrite insert_insert. reflexivity.
    + rewrite app_nil_r. symmetry. apply delete_insert. rewrite dmap_app. apply lookup_union_None. split; [eapply absent_flat; eassumption|exact Ar].
Qed.

Lemma quiet_fut k ast f rest g P : quiet k ast f rest -> In g (f :: rest) -> fut g P -> dlt k P.
Proof.
  intros Q [<-|G] H.
  - pose proof (q_pos _ _ _ _ Q) as (P0 & P1 & P2 & _). destruct H as [[E H]|[E H]].
    + eapply dlt_pre_r; [apply P1, E|exact H].
    + destruct (q_st _ _ _ _ Q); congruence.
  - eapply dlt_pre_l; [eapply chain_fut; [apply (q_chain _ _ _ _ Q)|exact G|exact H]|]. apply (q_pos _ _ _ _ Q).
Qed.

Lemma next_ok k ast f rest k2 v : length k2 = n -> quiet k ast f rest -> dlt k k2 ->
  let (fs', ps) := a_next (f :: rest) k k2 v in let ast' := arun ast ps in
  okp n ast ps /\ dmap (flat ast' ++ pend fs') = upd1 (dmap (flat ast ++ pend (f :: rest))) (k2, v) /\
  exists f' rest', fs' = f' :: rest' /\ quiet k2 ast' f' rest'.
Proof.
  intros Lk Q D. unfold a_next. destruct (match rest with [] => _ | _ => _ end) eqn:Ef.
  - destruct rest; [|discriminate]. apply Z.eqb_eq in Ef. pose proof (proj1 (q_chain _ _ _ _ Q)) as Ep. cbn in Ep.
    pose proof (q_pos _ _ _ _ Q) as (P0 & _ & _ & _ & P4). specialize (P4 Ef).
    assert (D2 : dlt (f_p f ++ f_l f) k2) by (destruct P4 as [->|H]; [exact D|eapply dlt_trans; eassumption]).
    apply (apply_ok (NotFound k2) f [] k2 v ast Lk).
    + constructor.
      * apply (q_si _ _ _ _ Q).
      * apply (q_chain _ _ _ _ Q).
      * apply (q_ok _ _ _ _ Q).
      * split; [rewrite Ep; exists k2; reflexivity|]. split; [rewrite Ef; discriminate|]. intros _. exact D2.
      * intros P [->|[H|(_ & [H|(g & [] & _)])]]; apply (q_nxt _ _ _ _ Q); [exact D| |eapply dlt_trans; eassumption].
        eapply quiet_fut; [exact Q|left; reflexivity|exact H].
      * intros _. apply (q_end _ _ _ _ Q).
      * apply (q_keeps _ _ _ _ Q).
    + rewrite Ep. split; [reflexivity|]. rewrite Ep in D2. cbn [app] in D2. apply strip_none. intros k' ->. exact (dlt_irr _ _ D2).
  - pose proof (unwind_ok n k k2 D (f :: rest) (is_none v) ast ltac:(discriminate) (q_si _ _ _ _ Q) (q_chain _ _ _ _ Q) (q_ok _ _ _ _ Q)) as U.
    destruct (a_unwind (length (cpfx k k2)) (is_none v) (f :: rest)) as [fs0 ps0] eqn:E0. cbv zeta in U.
    destruct U as (U1 & U2 & f0 & rest0 & -> & U3 & U4 & U5 & U6 & U7 & U8 & U9).
    + intros P [[->|H]|(g & G1 & G2)]; apply (q_nxt _ _ _ _ Q); [exact D|eapply dlt_trans; eassumption|eapply quiet_fut; eassumption].
    + apply (q_end _ _ _ _ Q).
    + eapply keeps_mono; [| |apply (q_keeps _ _ _ _ Q)]; tauto.
    + split; [apply (q_pos _ _ _ _ Q)|]. destruct (q_st _ _ _ _ Q) as [E|E]; rewrite E; intros [H|H]; discriminate.
    + set (ast0 := arun ast ps0) in *. assert (Ek : k2 = f_p f0 ++ drop (length (f_p f0)) k2).
      { destruct U9 as ([z ->] & _). rewrite drop_app. reflexivity. }
      pose proof (seek_ok n (f_t f0) (f_p f0) (f_st f0) (f_fl f0) rest0 (drop (length (f_p f0)) k2) (is_none v) k2 ast0 Ek Lk) as Sk.
      assert (Ef0 : Frame (f_p f0) (f_t f0) (f_st f0) (f_fl f0) = f0) by (destruct f0; reflexivity). rewrite Ef0 in Sk.
      destruct (a_seek _ _ _ _ _ _ _) as [[s fs1] ps1]. cbv zeta in Sk. destruct Sk as (S1 & S2 & f1 & rest1 & -> & S3 & S4).
      { constructor; try assumption; [|auto]. intros P [->|[H|(_ & [H|(g & G1 & G2)])]]; apply U6.
        - left. left. reflexivity.
        - right. exists f0. split; [left; reflexivity|exact H].
        - left. right. exact H.
        - right. exists g. split; [right; exact G1|exact G2]. }
      pose proof (apply_ok s f1 rest1 k2 v (arun ast0 ps1) Lk S3 S4) as A. destruct (a_apply s (f1 :: rest1) k2 v) as [fs2 ps2]. cbv zeta in A |- *.
      destruct A as (A1 & A2 & A3). rewrite !okp_app, !arun_app. fold ast0. split; [auto|]. split; [|exact A3].
      rewrite A2, S2, U2. reflexivity.
Qed.
Lemma first_ok t k v : length k = n -> wft n t -> plain t ->
  let (fs', ps) := a_first t k v in let ast' := arun [] ps in
  okp n [] ps /\ dmap (flat ast' ++ pend fs') = upd1 (dmap (entries t)) (k, v) /\
  exists f' rest', fs' = f' :: rest' /\ quiet k ast' f' rest'.
Proof.
  intros Lk W Pl. unfold a_first.
  pose proof (seek_ok n t [] (-1) false [] k (is_none v) k [] eq_refl Lk) as Sk.
  destruct (a_seek _ _ _ _ _ _ _) as [[s fs1] ps1]. cbv zeta in Sk. destruct Sk as (S1 & S2 & f1 & rest1 & -> & S3 & S4).
  { constructor.
    - exact I.
    - split; [reflexivity|exact I].
    - constructor; [|constructor]. split; [cbn [f_p length f_t]; rewrite Nat.sub_0_r; exact W|]. split; [cbn; lia|]. split; [exact Pl|]. cbn. destruct t; auto.
    - split; [exists k; reflexivity|]. split; [discriminate|]. intros [H|H]; discriminate.
    - intros P _. exact I.
    - intros _. exact I.
    - split; [discriminate|exact I]. }
  pose proof (apply_ok s f1 rest1 k v (arun [] ps1) Lk S3 S4) as A. destruct (a_apply s (f1 :: rest1) k v) as [fs2 ps2]. cbv zeta in A |- *.
  destruct A as (A1 & A2 & A3). rewrite okp_app, arun_app. split; [auto|]. split; [|exact A3].
  rewrite A2, S2. cbn [flat app]. rewrite pend_cons, pend1_fresh, under_nil. unfold pend. cbn [map concat]. rewrite app_nil_r. reflexivity.
Qed.

(** ** All requests *)
Fixpoint increasing (prev : list bool) (reqs : list (list bool * option chunk)) : Prop :=
  match reqs with [] => True | (k, _) :: reqs' => length k = n /\ dlt prev k /\ increasing k reqs' end.

Lemma rest_ok reqs : forall k ast f rest, increasing k reqs -> quiet k ast f rest ->
  let ps := a_rest (f :: rest) k reqs in let ast' := arun ast ps in
  okp n ast ps /\ SI n ast' /\ dmap (flat ast') = fold_left upd1 reqs (dmap (flat ast ++ pend (f :: rest))) /\ fixend ast'.
Proof.
  induction reqs as [|[k2 v] reqs IH]; intros k ast f rest Hi Q; cbn [a_rest fold_left].
  - destruct (end_ok n (f :: rest) false ast (q_si _ _ _ _ Q) (q_chain _ _ _ _ Q) (q_ok _ _ _ _ Q)) as (H1 & H2 & H3 & H4).
    + intros P (g & G1 & G2). apply (q_nxt _ _ _ _ Q). eapply quiet_fut; eassumption.
    + apply (q_end _ _ _ _ Q).
    + eapply keeps_mono; [| |apply (q_keeps _ _ _ _ Q)]; tauto.
    + cbv zeta. split; [exact H1|]. split; [exact H2|]. split; [rewrite H3; reflexivity|exact H4].
  - destruct Hi as (Lk & D & Hi). pose proof (next_ok k ast f rest k2 v Lk Q D) as N. destruct (a_next (f :: rest) k k2 v) as [fs' ps]. cbv zeta in N |- *.
    destruct N as (N1 & N2 & f' & rest' & -> & N3). destruct (IH k2 _ f' rest' Hi N3) as (I1 & I2 & I3 & I4).
    rewrite okp_app, arun_app. split; [auto|]. split; [exact I2|]. split; [|exact I4]. rewrite I3, N2. reflexivity.
Qed.
Lemma all_ok t k v reqs : wft n t -> plain t -> length k = n -> increasing k reqs ->
  let ps := a_all t ((k, v) :: reqs) in let ast' := arun [] ps in
  okp n [] ps /\ SI n ast' /\ dmap (flat ast') = fold_left upd1 ((k, v) :: reqs) (dmap (entries t)) /\ fixend ast'.
Proof.
  intros W Pl Lk Hi. cbn [a_all fold_left]. pose proof (first_ok t k v Lk W Pl) as N. destruct (a_first t k v) as [fs' ps]. cbv zeta in N |- *.
  destruct N as (N1 & N2 & f' & rest' & -> & N3). destruct (rest_ok reqs k _ f' rest' Hi N3) as (I1 & I2 & I3 & I4).
  rewrite okp_app, arun_app. split; [auto|]. split; [exact I2|]. split; [|exact I4]. rewrite I3, N2. reflexivity.
Qed.
End N.
