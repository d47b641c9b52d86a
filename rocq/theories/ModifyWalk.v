(** * Bulk modification on trees: the requests one by one. *)
From Verif Require Import Err BitsProofs CellModel LabelModel LabelSpec LabelProofs DictModel DictSpec DictTree
  DictProofs DictProofs2 BuildModel StackProofs BuildProofs ModifyModel ModifyAbs.
Local Open Scope nat_scope.

(** ** The walk *)
Definition left_of (f : frame) (acc : bool) : list push := if Z.eqb (f_st f) 2 then [] else a_subtrees f 1 acc.
Fixpoint a_unwind (common : nat) (acc : bool) (fs : list frame) : list frame * list push :=
  match fs with
  | [] => ([], [])
  | f :: rest =>
    if common <? length (f_p f) then
      let (fs', ps) := a_unwind common (acc || f_fl f) rest in (fs', left_of f (acc || f_fl f) ++ ps)
    else (at_fl (f_fl f || acc) f :: rest, [])
  end.
Fixpoint a_end (acc : bool) (fs : list frame) : list push :=
  match fs with [] => [] | f :: rest => left_of f (acc || f_fl f) ++ a_end (acc || f_fl f) rest end.

Fixpoint a_seek (t : pt) (p : list bool) (st : Z) (fl : bool) (rest : list frame) (key : list bool) (br : bool)
    : seek * list frame * list push :=
  match strip (lbl t) key with
  | None => (NotFound key, Frame p t st fl :: rest, [])
  | Some [] => (Found, Frame p t st fl :: rest, [])
  | Some (b :: key') =>
    match t with
    | Leaf _ _ => (Found, Frame p t st fl :: rest, [])
    | Fork l _ a c =>
      let '(s, fs, ps) :=
        (if b then a_seek c ((p ++ l) ++ [b]) (-1) false (Frame p t (bit_st b) fl :: rest) key' br
         else a_seek a ((p ++ l) ++ [b]) (-1) false (Frame p t (bit_st b) fl :: rest) key' br) in
      (s, fs, a_subtrees (Frame p t st fl) (if b then 0 else -1) br ++ ps)
    end
  end.

Definition val_push (k : list bool) (v : option chunk) : list push := match v with Some v => [(k, None, Leaf [] v)] | None => [] end.
Definition a_apply (s : seek) (fs : list frame) (k : list bool) (v : option chunk) : list frame * list push :=
  match fs with
  | [] => ([], [])
  | f :: rest =>
    match s with
    | NotFound rk =>
      if match lexcmp rk (f_l f) with Gt => true | _ => false end && negb (Z.eqb (f_st f) 2)
      then (at_st 2 f :: rest, a_subtrees f 1 false ++ val_push k v)
      else (f :: rest, val_push k v)
    | Found => (match v with Some _ => at_st 2 f | None => at_fl true (at_st 2 f) end :: rest, val_push k v)
    end
  end.
Definition is_none {A} (o : option A) : bool := match o with None => true | Some _ => false end.
Definition a_first (t : pt) (k : list bool) (v : option chunk) : list frame * list push :=
  let '(s, fs, ps) := a_seek t [] (-1) false [] k (is_none v) in
  let (fs, ps') := a_apply s fs k v in (fs, ps ++ ps').
Definition a_next (fs : list frame) (prev k : list bool) (v : option chunk) : list frame * list push :=
  if match fs with [f] => Z.eqb (f_st f) 2 | _ => false end then a_apply (NotFound k) fs k v
  else
    let (fs, ps0) := a_unwind (length (cpfx prev k)) (is_none v) fs in
    match fs with
    | [] => ([], [])
    | f :: rest =>
      let '(s, fs, ps) := a_seek (f_t f) (f_p f) (f_st f) (f_fl f) rest (drop (length (f_p f)) k) (is_none v) in
      let (fs, ps') := a_apply s fs k v in (fs, ps0 ++ ps ++ ps')
    end.
Fixpoint a_rest (fs : list frame) (prev : list bool) (reqs : list (list bool * option chunk)) : list push :=
  match reqs with
  | [] => a_end false fs
  | (k, v) :: reqs' => let (fs, ps) := a_next fs prev k v in ps ++ a_rest fs k reqs'
  end.
Definition a_all (t : pt) (reqs : list (list bool * option chunk)) : list push :=
  match reqs with
  | [] => []
  | (k, v) :: reqs' => let (fs, ps) := a_first t k v in ps ++ a_rest fs k reqs'
  end.

(** ** Invariants *)
Section N.
Context (n : nat).
Notation frame_ok := (frame_ok n).

Lemma pend1_full f : frame_ok f -> f_st f = 2%Z -> pend1 f = [].
Proof. intros _ E. unfold pend1. rewrite E. destruct (f_t f); reflexivity. Qed.
Lemma pend_cons f rest : pend (f :: rest) = pend1 f ++ pend rest.
Proof. reflexivity. Qed.

Lemma pend1_fresh p t fl : pend1 (Frame p t (-1) fl) = under p (entries t).
Proof.
  unfold pend1. cbn [f_t f_p f_st Z.ltb Z.compare]. destruct t as [l v|l x a b]; cbn [entries]; [reflexivity|].
  rewrite under_app, !under_under, <- !app_assoc. reflexivity.
Qed.

Lemma pop_ok (F : list bool -> Prop) acc ast f rest : SI n ast -> chain (f :: rest) -> frame_ok f ->
  (forall P, F P \/ (exists g, In g (f :: rest) /\ fut g P) -> stepok ast P) -> fixend ast ->
  keeps ast (acc = true) False (f :: rest) -> (forall P, F P -> dlt (f_p f) P) ->
  let acc' := acc || f_fl f in let ps := left_of f acc' in let ast' := arun ast ps in
  okp n ast ps /\ SI n ast' /\ flat ast' = flat ast ++ pend1 f /\
  (forall P, F P \/ (exists g, In g rest /\ fut g P) -> stepok ast' P) /\ fixend ast' /\ keeps ast' (acc' = true) False rest.
Proof.
  intros Hs C Fo Hn He Hk HF acc' ps ast'.
  assert (K : f_st f <> 0%Z -> f_st f <> (-1)%Z -> keeps ast (acc' = true) False rest).
  { intros N0 N1. destruct Hk as [_ Hk]. eapply keeps_mono; [| |exact Hk]; [|tauto]. subst acc'. intros [->| ->]; [reflexivity|apply orb_true_r]. }
  assert (Hn' : forall P, F P \/ (exists g, In g rest /\ fut g P) -> stepok ast P).
  { intros P [H|(g & G1 & G2)]; apply Hn; [left; exact H|right; exists g; split; [right; exact G1|exact G2]]. }
  unfold left_of in ps. destruct (Z.eqb_spec (f_st f) 2) as [E|E].
  - subst ast' ps. cbn [arun fold_left okp]. split; [exact I|]. split; [exact Hs|]. split; [rewrite pend1_full by assumption; rewrite app_nil_r; reflexivity|].
    split; [exact Hn'|]. split; [exact He|]. apply K; rewrite E; discriminate.
  - destruct (give_all n f acc' ast Fo E Hs) as (H1 & H2 & H3 & H4).
    + intros P H. apply Hn. right. exists f. split; [left; reflexivity|exact H].
    + intros E0. destruct Hk as [Hk _]. specialize (Hk E0). subst acc'. destruct Hk as [->|[Hk|[[]|Hk]]]; [left; reflexivity|right; left; exact Hk|right; right; exact Hk].
    + fold ps ast' in H1, H2, H3, H4. split; [exact H1|]. split; [exact H2|]. split; [exact H3|].
      destruct H4 as [(E1 & Ep)|(H4 & H5 & X & H6 & H7)].
      * unfold ast' in *. rewrite Ep in *. cbn [arun fold_left]. split; [exact Hn'|]. split; [exact He|]. apply K; rewrite E1; discriminate.
      * split; [|split; [exact H5|eapply keeps_push; eassumption]].
        intros P H. apply H4. assert (dlt (f_p f) P) as D.
        { destruct H as [H|(g & G1 & G2)]; [apply HF, H|eapply chain_fut; eassumption]. }
        eapply dlt_pre_l; [exact D|apply pre_app].
Qed.

(** How the frame on top lies to the key [k] it was made for. *)
Definition pos (k : list bool) (f : frame) : Prop :=
  pre (f_p f) k /\
  (f_st f = (-1)%Z -> dlt k (f_p f ++ f_l f)) /\
  (f_st f = 0%Z -> pre ((f_p f ++ f_l f) ++ [false]) k) /\
  (f_st f = 1%Z -> pre ((f_p f ++ f_l f) ++ [true]) k) /\
  (f_st f = 2%Z -> k = f_p f ++ f_l f \/ dlt (f_p f ++ f_l f) k).
(** ... and to the next key. *)
Definition ready (k : list bool) (f : frame) : Prop :=
  pre (f_p f) k /\
  (f_st f = 0%Z -> pre ((f_p f ++ f_l f) ++ [true]) k \/ dlt (f_p f ++ f_l f) k) /\
  (f_st f = 1%Z \/ f_st f = 2%Z -> dlt (f_p f ++ f_l f) k).
Lemma pos_down k f g rest : chain (f :: g :: rest) -> pre (f_p f) k -> pos k g.
Proof.
  intros [(b & E1 & E2) _] H. rewrite E2 in H. unfold pos. rewrite E1. split; [rewrite <- app_assoc in H; eapply pre_app_l; exact H|].
  destruct b; cbn [bit_st]; repeat split; try discriminate; intros _; exact H.
Qed.

Definition beyond (k : list bool) (P : list bool) : Prop := P = k \/ dlt k P.

Lemma unwind_ok k k2 : dlt k k2 -> forall fs acc ast, fs <> [] -> SI n ast -> chain fs -> Forall frame_ok fs ->
  (forall P, beyond k2 P \/ (exists g, In g fs /\ fut g P) -> stepok ast P) -> fixend ast -> keeps ast (acc = true) False fs ->
  match fs with f :: _ => pos k f /\ (f_st f = 0%Z \/ f_st f = 1%Z -> length (cpfx k k2) <= length (f_p f ++ f_l f)) | [] => True end ->
  let (fs', ps) := a_unwind (length (cpfx k k2)) acc fs in let ast' := arun ast ps in
  okp n ast ps /\ flat ast' ++ pend fs' = flat ast ++ pend fs /\
  exists f rest, fs' = f :: rest /\ SI n ast' /\ chain (f :: rest) /\ Forall frame_ok (f :: rest) /\
    (forall P, beyond k2 P \/ (exists g, In g (f :: rest) /\ fut g P) -> stepok ast' P) /\ fixend ast' /\ keeps ast' False False (f :: rest) /\
    ready k2 f.
Proof.
  intros D. induction fs as [|f rest IH]; intros acc ast Ne Hs C Fo Hn He Hk Hp; [contradiction|]. clear Ne. cbn [a_unwind].
  inversion Fo as [|? ? F1 F2]; subst. destruct Hp as [Hp Hc]. destruct (Nat.ltb_spec (length (cpfx k k2)) (length (f_p f))) as [L|L].
  - (* popped *)
    assert (D2 : dlt (f_p f) k2) by (eapply dlt_cut; [exact D|apply Hp|exact L]).
    destruct (pop_ok (beyond k2) acc ast f rest Hs C F1 Hn He Hk) as (H1 & H2 & H3 & H4 & H5 & H6).
    { intros P [->|H]; [exact D2|eapply dlt_trans; eassumption]. }
    destruct rest as [|g rest].
    { exfalso. destruct C as [C _]. rewrite C in L. cbn [length] in L. lia. }
    specialize (IH (acc || f_fl f) (arun ast (left_of f (acc || f_fl f))) ltac:(discriminate) H2 (proj2 C) F2 H4 H5 H6).
    destruct (a_unwind (length (cpfx k k2)) (acc || f_fl f) (g :: rest)) as [fs' ps] eqn:E.
    cbv zeta in IH |- *. rewrite okp_app, arun_app. destruct IH as (I1 & I2 & I3).
    { split; [apply (pos_down k f g rest C), Hp|]. intros _. destruct C as [(b & _ & C) _]. rewrite C, app_length in L. cbn [length] in L. lia. }
    split; [auto|]. split; [|exact I3]. rewrite I2, H3, (pend_cons f), <- app_assoc. reflexivity.
  - (* kept *)
    cbv zeta. cbn [arun fold_left okp]. split; [exact I|]. split; [reflexivity|]. exists (at_fl (f_fl f || acc) f), rest.
    split; [reflexivity|]. split; [exact Hs|]. split; [exact C|]. split; [constructor; assumption|]. split.
    { intros P [H|(g & [<-|G1] & G2)]; apply Hn; [left; exact H|right; exists f; split; [left; reflexivity|exact G2]|right; exists g; split; [right; exact G1|exact G2]]. }
    split; [exact He|]. split.
    { destruct Hk as [K1 K2]. split.
      - cbn [at_fl f_st f_fl f_p]. intros E. destruct (K1 E) as [->|[->|[[]|K]]]; [right; left; apply orb_true_r|right; left; reflexivity|right; right; right; exact K].
      - eapply keeps_mono; [| |exact K2]; [|tauto]. cbn [at_fl f_fl]. intros [->| ->]; right; [apply orb_true_r|reflexivity]. }
    assert (Pk : pre (f_p f) k2) by (eapply pre_keep; [apply Hp|exact L]). destruct Hp as (P0 & P1 & P2 & P3 & P4).
    unfold ready. cbn [at_fl f_p f_st]. change (f_l (at_fl (f_fl f || acc) f)) with (f_l f). set (pl := f_p f ++ f_l f) in *.
    split; [exact Pk|].
    assert (G : forall b, pre (pl ++ [b]) k -> length (cpfx k k2) <= length pl -> b = false /\ pre (pl ++ [true]) k2 \/ dlt pl k2).
    { clear -D. intros b [z ->] L. rewrite <- app_assoc in *. cbn [app] in *. destruct D as (q & x & y & E1 & E2). rewrite E1, E2 in L.
      rewrite (cpfx_diverge q false x y : cpfx (q ++ false :: x) (q ++ true :: y) = q) in L.
      destruct (decide (length q = length pl)) as [E|N].
      - apply app_inj_1 in E1; [|lia]. destruct E1 as [<- E1]. injection E1 as -> ->. left. split; [reflexivity|]. rewrite E2. exists y. rewrite <- app_assoc. reflexivity.
      - right. assert (exists w, pl = q ++ false :: w) as [w ->]; [|rewrite E2; apply dlt_bit].
        pose proof (f_equal (take (length pl)) E1) as T. rewrite take_app in T. rewrite take_app_ge in T by lia.
        destruct (length pl - length q) as [|d] eqn:Ed; [lia|]. cbn [take] in T. eexists. exact T. }
    split.
    + intros E. destruct (G false (P2 E) (Hc (or_introl E))) as [[_ H]|H]; auto.
    + intros [E|E].
      * destruct (G true (P3 E) (Hc (or_intror E))) as [[H _]|H]; [discriminate|exact H].
      * destruct (P4 E) as [->|H]; [exact D|eapply dlt_trans; eassumption].
Qed.

Lemma end_ok fs : forall acc ast, SI n ast -> chain fs -> Forall frame_ok fs ->
  (forall P, (exists g, In g fs /\ fut g P) -> stepok ast P) -> fixend ast -> keeps ast (acc = true) False fs ->
  let ast' := arun ast (a_end acc fs) in
  okp n ast (a_end acc fs) /\ SI n ast' /\ flat ast' = flat ast ++ pend fs /\ fixend ast'.
Proof.
  induction fs as [|f rest IH]; intros acc ast Hs C Fo Hn He Hk; cbn [a_end].
  - cbn [arun fold_left okp]. cbv zeta. cbn [fold_left]. split; [exact I|]. split; [exact Hs|]. split; [symmetry; apply app_nil_r|exact He].
  - inversion Fo as [|? ? F1 F2]; subst. destruct (pop_ok (fun _ => False) acc ast f rest Hs C F1) as (H1 & H2 & H3 & H4 & H5 & H6); try assumption; try tauto.
    { intros P [[]|H]. apply Hn, H. }
    cbv zeta. rewrite okp_app, arun_app. specialize (IH (acc || f_fl f) (arun ast (left_of f (acc || f_fl f))) H2 (proj2 C) F2).
    destruct IH as (I1 & I2 & I3 & I4); try assumption. { intros P H. apply H4. right. exact H. }
    split; [auto|]. split; [exact I2|]. split; [|exact I4]. rewrite I3, H3, pend_cons, <- app_assoc. reflexivity.
Qed.

(** ** Descending *)
Definition nxt (br : bool) (k : list bool) (f : frame) (rest : list frame) (P : list bool) : Prop :=
  P = k \/ fut f P \/ (br = true /\ (dlt k P \/ exists g, In g rest /\ fut g P)).
Record seeking (br : bool) (k : list bool) (ast : list aitem) (f : frame) (rest : list frame) : Prop := {
  sk_si : SI n ast; sk_chain : chain (f :: rest); sk_ok : Forall frame_ok (f :: rest); sk_ready : ready k f;
  sk_nxt : forall P, nxt br k f rest P -> stepok ast P; sk_end : br = true -> fixend ast; sk_keeps : keeps ast False False (f :: rest) }.

Lemma chain_rest_pre f rest g k : chain (f :: rest) -> pre (f_p f) k -> In g rest ->
  exists b, f_st g = bit_st b /\ pre ((f_p g ++ f_l g) ++ [b]) k.
Proof. intros C H G. destruct (chain_in f rest g C G) as (b & E & Hp). exists b. split; [exact E|]. eapply pre_trans; eassumption. Qed.

Lemma seek_ok t : forall p st fl rest key br k ast, k = p ++ key -> length k = n -> seeking br k ast (Frame p t st fl) rest ->
  let '(s, fs, ps) := a_seek t p st fl rest key br in let ast' := arun ast ps in
  okp n ast ps /\ flat ast' ++ pend fs = flat ast ++ pend (Frame p t st fl :: rest) /\
  exists f' rest', fs = f' :: rest' /\ seeking br k ast' f' rest' /\
    match s with Found => k = f_p f' ++ f_l f' | NotFound rk => k = f_p f' ++ rk /\ strip (f_l f') rk = None end.
Proof.
  induction t as [l v|l x a IHa c IHc]; intros p st fl rest key br k ast Ek Lk Sk; cbn [a_seek lbl].
  - destruct (strip l key) as [[|b key']|] eqn:E.
    + apply strip_some in E. rewrite app_nil_r in E. subst key. cbn [okp arun fold_left]. split; [exact I|]. split; [reflexivity|].
      exists (Frame p (Leaf l v) st fl), rest. split; [reflexivity|]. split; [exact Sk|exact Ek].
    + exfalso. apply strip_some in E. pose proof (sk_ok _ _ _ _ _ Sk) as Fo. inversion Fo as [|? ? (W & L & _) _]; subst. cbn [f_t f_p wft] in W, L.
      rewrite !app_length in Lk. cbn [length] in Lk. lia.
    + cbn [okp arun fold_left]. split; [exact I|]. split; [reflexivity|]. exists (Frame p (Leaf l v) st fl), rest. split; [reflexivity|]. split; [exact Sk|auto].
  - destruct (strip l key) as [[|b key']|] eqn:E.
    + exfalso. apply strip_some in E. rewrite app_nil_r in E. subst key. pose proof (sk_ok _ _ _ _ _ Sk) as Fo. inversion Fo as [|? ? (W & L & _) _]; subst. cbn [f_t f_p wft] in W, L.
      destruct W as (m & W & _). rewrite !app_length in Lk. lia.
    + apply strip_some in E. subst key. set (f := Frame p (Fork l x a c) st fl) in *. set (f1 := Frame p (Fork l x a c) (bit_st b) fl).
      set (g := Frame ((p ++ l) ++ [b]) (if b then c else a) (-1) false).
      pose proof (sk_ok _ _ _ _ _ Sk) as Fo. inversion Fo as [|? ? F1 F2]; subst. pose proof (sk_ready _ _ _ _ _ Sk) as (R1 & R2 & R3).
      cbn [f f_p f_st] in R1, R2, R3. change (f_l f) with l in *.
      assert (Hf : exists l x a b, f_t f = Fork l x a b) by (cbn; eauto).
      destruct (kid_ok n f b F1 Hf) as (Kw & Kl & Kp). cbn [f f_p f_l f_t lbl kid] in Kw, Kl, Kp. change (f_l f) with l in *.
      assert (Fg : frame_ok g). { subst g. unfold ModifyAbs.frame_ok. cbn [f_t f_p f_st]. repeat (split; [assumption|]). destruct (if b then c else a); auto. }
      assert (Ff1 : frame_ok f1). { destruct F1 as (W & L & Pl & _). split; [exact W|]. split; [exact L|]. split; [exact Pl|]. cbn. destruct b; auto. }
      assert (Pk : pre ((p ++ l) ++ [b]) (p ++ l ++ b :: key')) by (exists key'; rewrite <- !app_assoc; reflexivity).
      assert (Npl : ~ dlt (p ++ l) (p ++ l ++ b :: key')) by (rewrite (app_assoc p l); apply dlt_irr).
      assert (St : st = (-1)%Z \/ (st = 0%Z /\ b = true)).
      { destruct F1 as (_ & _ & _ & St). cbn [f f_t f_st] in St. destruct St as [St|[St|[St|St]]]; [auto| | |].
        - destruct (R2 St) as [[z H]|H]; [|contradiction]. right. split; [exact St|]. rewrite <- !app_assoc in H. do 2 apply app_inv_head in H. injection H as ->. reflexivity.
        - destruct (Npl (R3 (or_introl St))).
        - destruct (Npl (R3 (or_intror St))). }
      (* items given *)
      assert (M : let ps := a_subtrees f (if b then 0 else -1) br in let ast1 := arun ast ps in
        okp n ast ps /\ flat ast1 ++ pend (g :: f1 :: rest) = flat ast ++ pend (f :: rest) /\ seeking br (p ++ l ++ b :: key') ast1 g (f1 :: rest)).
      { assert (Cg : chain (g :: f1 :: rest)) by (split; [exists b; split; reflexivity|exact (sk_chain _ _ _ _ _ Sk)]).
        assert (Rg : ready (p ++ l ++ b :: key') g) by (split; [exact Pk|split; [discriminate|intros [H|H]; discriminate]]).
        assert (Kg : forall ast1, keeps ast1 False False (g :: f1 :: rest)) by (intros ast1; split; [discriminate|apply keeps_triv; auto]).
        assert (NoPs : a_subtrees f (if b then 0 else -1) br = [] -> (st = 0%Z /\ b = true \/ st = (-1)%Z /\ b = false) ->
          let ps := a_subtrees f (if b then 0 else -1) br in let ast1 := arun ast ps in
          okp n ast ps /\ flat ast1 ++ pend (g :: f1 :: rest) = flat ast ++ pend (f :: rest) /\ seeking br (p ++ l ++ b :: key') ast1 g (f1 :: rest)).
        { intros E Hc ps ast1. subst ast1 ps. rewrite E. cbn [arun fold_left okp]. split; [exact I|]. split.
          - f_equal. rewrite !pend_cons, app_assoc. f_equal. subst g. rewrite pend1_fresh. unfold pend1. cbn [f f1 f_t f_p f_st]. destruct Hc as [[-> ->]|[-> ->]]; cbn [bit_st Z.ltb Z.compare Pos.compare Pos.compare_cont app].
            + apply app_nil_r.
            + reflexivity.
          - constructor.
            + apply (sk_si _ _ _ _ _ Sk).
            + exact Cg.
            + constructor; [exact Fg|]. constructor; assumption.
            + exact Rg.
            + intros P H. apply (sk_nxt _ _ _ _ _ Sk). destruct H as [->|[H|(-> & H)]].
              * left. reflexivity.
              * right. left. destruct H as [[_ H]|[H _]]; [|discriminate]. cbn [g f_p] in H. destruct Hc as [[-> ->]|[-> ->]].
                -- right. split; [reflexivity|]. cbn [f f_p]. change (f_l f) with l. eapply pre_app_l. exact H.
                -- left. split; [reflexivity|]. cbn [f f_p]. change (f_l f) with l. eapply pre_app_l. eapply pre_app_l. exact H.
              * destruct H as [H|(h & [<-|G1] & G2)].
                -- right. right. auto.
                -- right. left. destruct G2 as [[H _]|[H1 H2]]; [cbn in H; destruct b; discriminate|]. destruct Hc as [[_ ->]|[-> ->]]; [discriminate|].
                   left. split; [reflexivity|]. eapply pre_app_l. exact H2.
                -- right. right. split; [reflexivity|]. right. eauto.
            + apply (sk_end _ _ _ _ _ Sk).
            + apply Kg. }
        destruct St as [->|[-> ->]]; [destruct b|].
        2: apply NoPs; [reflexivity|auto].
        2: apply NoPs; [reflexivity|auto].
        (* the left child is given *)
        clear NoPs. change (a_subtrees f 0 br) with [a_child f br false]. cbv zeta.
        assert (So : stepok ast (p ++ l)). { apply (sk_nxt _ _ _ _ _ Sk). right. left. left. split; [reflexivity|apply pre_refl]. }
        assert (S0 : stepok ast ((p ++ l) ++ [false])) by (eapply stepok_pre; [exact So|apply pre_app]).
        destruct (give_child n f br false ast F1 Hf (sk_si _ _ _ _ _ Sk) S0) as (H1 & H2 & H3).
        split; [exact H1|]. split.
        { rewrite H3, <- app_assoc. f_equal. rewrite !pend_cons. subst g. rewrite pend1_fresh. unfold pend1. cbn [f f1 f_t f_p f_st kid bit_st Z.ltb Z.compare Pos.compare Pos.compare_cont app].
          change (f_l f) with l. rewrite <- !(app_assoc (under _ _)). reflexivity. }
        assert (Nx : forall P, nxt br (p ++ l ++ true :: key') g (f1 :: rest) P -> pre ((p ++ l) ++ [true]) P \/ (br = true /\ dlt ((p ++ l) ++ [false]) P)).
        { intros P [->|[H|(-> & H)]].
          - left. exact Pk.
          - left. destruct H as [[_ H]|[H _]]; [|discriminate]. eapply pre_app_l. exact H.
          - right. split; [reflexivity|]. destruct H as [H|(h & [<-|G1] & G2)].
            + eapply dlt_trans; [|exact H]. exists (p ++ l), [], key'. split; [reflexivity|]. rewrite <- app_assoc. reflexivity.
            + destruct G2 as [[H _]|[H _]]; discriminate.
            + eapply dlt_pre_l; [|rewrite <- app_assoc; apply pre_app]. exact (chain_fut f rest h P (sk_chain _ _ _ _ _ Sk) G1 G2). }
        constructor.
        - exact H2.
        - exact Cg.
        - constructor; [exact Fg|]. constructor; assumption.
        - exact Rg.
        - intros P H. apply Nx in H. unfold a_child. cbn [arun fold_left]. destruct (br || f_fl f) eqn:Ef; cbn [apush].
          + destruct (push_flex n ast (((f_p f ++ f_l f) ++ [false]) ++ lbl (kid (f_t f) false)) (kid (f_t f) false) (sk_si _ _ _ _ _ Sk) ltac:(eapply stepok_pre; [exact S0|apply pre_app])) as (G1 & _).
            apply G1. eapply dlt_pre_l; [|apply pre_app]. destruct H as [H|[_ H]]; [|exact H]. eapply dlt_pre_r; [|exact H]. apply dlt_bit.
          + destruct H as [H|[-> _]]; [|discriminate]. destruct (push_left n ast (p ++ l) (kid (f_t f) false) (sk_si _ _ _ _ _ Sk) So) as (_ & G1 & _). apply G1, H.
        - intros ->. unfold a_child. cbn [arun fold_left orb apush].
          apply (push_flex n ast (((f_p f ++ f_l f) ++ [false]) ++ lbl (kid (f_t f) false)) (kid (f_t f) false) (sk_si _ _ _ _ _ Sk)). eapply stepok_pre; [exact S0|apply pre_app].
        - apply Kg. }
      cbv zeta in M. destruct M as (M1 & M2 & M3).
      assert (Eg : p ++ l ++ b :: key' = ((p ++ l) ++ [b]) ++ key') by (rewrite <- !app_assoc; reflexivity).
      assert (IH : let '(s, fs, ps) := (if b then a_seek c ((p ++ l) ++ [b]) (-1) false (f1 :: rest) key' br else a_seek a ((p ++ l) ++ [b]) (-1) false (f1 :: rest) key' br) in
        let ast1 := arun ast (a_subtrees f (if b then 0 else -1) br) in let ast' := arun ast1 ps in
        okp n ast1 ps /\ flat ast' ++ pend fs = flat ast1 ++ pend (g :: f1 :: rest) /\
        exists f' rest', fs = f' :: rest' /\ seeking br (p ++ l ++ b :: key') ast' f' rest' /\
          match s with Found => p ++ l ++ b :: key' = f_p f' ++ f_l f' | NotFound rk => p ++ l ++ b :: key' = f_p f' ++ rk /\ strip (f_l f') rk = None end).
      { destruct b; [apply IHc|apply IHa]; assumption. }
      fold f. fold f1. destruct (if b then _ else _) as [[s fs] ps] in IH |- *. cbv zeta in IH |- *. destruct IH as (I1 & I2 & I3).
      rewrite okp_app, arun_app. split; [auto|]. split; [rewrite I2; exact M2|exact I3].
    + cbn [okp arun fold_left]. split; [exact I|]. split; [reflexivity|]. exists (Frame p (Fork l x a c) st fl), rest. split; [reflexivity|]. split; [exact Sk|auto].
Qed.
End N.
