(** * Bulk modification: the cells follow the walk on trees. *)
From Verif Require Import Err BitsProofs CellModel LabelModel LabelSpec LabelProofs DictModel DictSpec DictTree
  DictProofs DictProofs2 BuildModel StackProofs BuildProofs ModifyModel ModifyAbs ModifyWalk.
Local Open Scope nat_scope.

Lemma put_ok (x b : list bool) : length b + length x <= 1023 -> put x b = Ok (b ++ x).
Proof. intros H. unfold put, MAX_BITS. rewrite (proj2 (Nat.ltb_ge _ _)) by lia. reflexivity. Qed.

Section G.
Context {I V : Type}.
Context (reduce : list I -> list bool -> nat -> res (nat * list I)).
Context (mk_leaf : list bool -> V -> nat -> I).
Context (mk_denorm : list bool -> cell -> nat -> bool -> nat -> I).
Context (mk_node : list bool -> nat -> cell -> nat -> res I).

(** ** Items as commands to the merge stack *)
Inductive cmd :=
| CVal (k : list bool) (v : V)
| CRaw (p : list bool) (c : cell) (off : nat)
| CFlat (p : list bool) (kbl : nat) (c : cell)
| CSub (p : list bool) (kbl : nat) (c : cell).
Definition exec1 (x : cmd) (st : list I) : res (list I) :=
  match x with
  | CVal k v => add_value reduce mk_leaf k v st
  | CRaw p c off => add_raw_leaf reduce mk_denorm p c off st
  | CFlat p kbl c => add_flattened_subtree reduce mk_denorm p kbl c st
  | CSub p kbl c => add_subtree reduce mk_node p kbl c st
  end.
Fixpoint exec (xs : list cmd) (st : list I) : res (list I) :=
  match xs with [] => Ok st | x :: xs' => let? st := exec1 x st in exec xs' st end.
Lemma exec_app a b st : exec (a ++ b) st = let? st := exec a st in exec b st.
Proof. revert st. induction a as [|x a IH]; intros st; cbn [app exec rbind]; [reflexivity|]. destruct (exec1 x st) as [st'|]; cbn [rbind]; [apply IH|reflexivity]. Qed.

Context (n : nat) (Hn : n <= 1023).
(** What a cell stands for, and that walks can read it. *)
Context (Rp : nat -> cell -> pt -> Prop) (vrel : V -> chunk -> Prop).
Definition walkable : Prop := forall m c t, m <= 1023 -> Rp m c t ->
  exists bits refs rest, c = Cell false bits refs /\ read_label m bits = Ok (lbl t, rest) /\
    match t with
    | Leaf l _ => length l = m
    | Fork l _ a b => exists m' cl cr r, m = length l + S m' /\ refs = cl :: cr :: r /\ Rp m' cl a /\ Rp m' cr b
    end.
Context (HW : walkable).

Definition off_of (m : nat) (c : cell) : nat :=
  match read_label m (c_bits c) with Ok (_, rest) => length (c_bits c) - length rest | Err _ => 0 end.
Definition cmd_rel (x : cmd) (y : push) : Prop :=
  match x with
  | CVal k v => exists w, y = (k, None, Leaf [] w) /\ vrel v w /\ length k = n
  | CRaw P c off => exists p l w, y = (P, None, Leaf l w) /\ P = p ++ l /\ length P = n /\ Rp (n - length p) c (Leaf l w) /\ off = off_of (n - length p) c
  | CFlat p kbl c => exists t, y = (p ++ lbl t, None, t) /\ kbl = n - length p /\ length p <= n /\ Rp kbl c t
  | CSub p kbl c => exists t, y = (p, Some (length p), t) /\ kbl = n - length p /\ length p <= n /\ Rp kbl c t
  end.
Definition cmds_rel : list cmd -> list push -> Prop := Forall2 cmd_rel.

(** ** Items of the walk *)
Record irel (it : iitem) (f : frame) : Prop := {
  ir_p : i_prefix it = f_p f; ir_l : i_label it = f_l f; ir_st : i_state it = f_st f; ir_fl : i_flatten it = f_fl f;
  ir_len : length (f_p f) <= n; ir_rep : Rp (n - length (f_p f)) (i_cell it) (f_t f);
  ir_off : i_offset it = off_of (n - length (f_p f)) (i_cell it); ir_rem : i_rem it = n - length (f_p f) - length (f_l f) }.

Lemma Rp_lbl m c t : m <= 1023 -> Rp m c t -> length (lbl t) <= m.
Proof.
  intros L H. destruct (HW m c t L H) as (bits & refs & rest & _ & _ & H'). destruct t as [l v|l x a b]; cbn [lbl]; [lia|].
  destruct H' as (m' & _ & _ & _ & -> & _). lia.
Qed.
Lemma load_ok p c t : length p <= n -> Rp (n - length p) c t ->
  exists it, i_load p (n - length p) c = Ok it /\ irel it (Frame p t (-1) false).
Proof.
  intros L H. pose proof (Rp_lbl (n - length p) c t ltac:(lia) H) as Ll. destruct (HW (n - length p) c t ltac:(lia) H) as (bits & refs & rest & -> & E & H').
  unfold i_load, as_slice. cbn [c_exotic c_bits c_refs rbind s_bits]. rewrite E. cbn [rbind]. unfold sub16. rewrite (proj2 (Nat.ltb_ge _ _)) by lia. cbn [rbind].
  eexists. split; [reflexivity|]. constructor; cbn; try reflexivity; try assumption. unfold off_of. cbn [c_bits]. rewrite E. reflexivity.
Qed.

Lemma subtrees_sim it f until fl : irel it f -> frame_ok n f -> (until = (-1)%Z \/ until = 0%Z \/ until = 1%Z) ->
  (until <> 1%Z -> exists l x a b, f_t f = Fork l x a b) ->
  exists cmds, cmds_rel cmds (a_subtrees f until fl) /\ forall st, add_subtrees reduce mk_denorm mk_node it until fl st = exec cmds st.
Proof.
  intros H (Wf & Ln & _ & _) Hu Hk. destruct (HW (n - length (f_p f)) _ _ ltac:(lia) (ir_rep _ _ H)) as (bits & refs & rest & Ec & El & Ht).
  pose proof (ir_rem _ _ H) as Er. pose proof (ir_len _ _ H) as Lp. unfold add_subtrees, a_subtrees. unfold f_l in *. destruct (f_t f) as [l v|l x a b] eqn:Et; cbn [lbl] in *.
  - rewrite Er. replace (n - length (f_p f) - length l) with 0 by lia. cbn [Nat.eqb].
    rewrite (ir_l _ _ H), (ir_p _ _ H). unfold f_l. rewrite Et. cbn [lbl]. rewrite put_ok by lia. cbn [rbind].
    exists [CRaw (f_p f ++ l) (i_cell it) (i_offset it)]. split; [|intros st; cbn [exec exec1]; destruct (add_raw_leaf _ _ _ _ _ _); reflexivity].
    constructor; [|constructor]. exists (f_p f), l, v. split; [reflexivity|]. split; [reflexivity|]. split; [rewrite app_length; lia|].
    split; [rewrite <- Et; exact (ir_rep _ _ H)|exact (ir_off _ _ H)].
  - destruct Ht as (m' & cl & cr & r & Hm & -> & Ha & Hb). rewrite Er. replace (n - length (f_p f) - length l) with (S m') by lia. cbn [Nat.eqb].
    unfold sub16. rewrite (proj2 (Nat.ltb_ge _ _)) by lia. cbn [rbind]. replace (S m' - 1) with m' by lia.
    rewrite (ir_st _ _ H). generalize (indices (f_st f) until). intros is. induction is as [|i is (cmds & IH1 & IH2)].
    + exists []. split; [constructor|]. reflexivity.
    + set (P := (f_p f ++ l) ++ [i]).
      assert (Lb : length P + m' = n) by (subst P; rewrite !app_length; cbn [length]; lia).
      set (ci := if i then cr else cl).
      assert (Rc : Rp (n - length P) ci (kid (f_t f) i)) by (rewrite Et; cbn [kid]; replace (n - length P) with m' by lia; destruct i; assumption).
      exists ((if fl || f_fl f then CFlat P m' ci else CSub P m' ci) :: cmds). split.
      * constructor; [|exact IH1]. unfold a_child. unfold f_l. rewrite Et. cbn [lbl]. fold P. rewrite Et in Rc.
        destruct (fl || f_fl f); (eexists; split; [reflexivity|]; split; [lia|]; split; [lia|]; replace m' with (n - length P) by lia; exact Rc).
      * intros st. cbn [add_children]. assert (Er' : ref_at i (i_cell it) = Ok ci) by (rewrite Ec; unfold ref_at; destruct i; reflexivity). rewrite Er'. cbn [rbind].
        rewrite (ir_l _ _ H), (ir_p _ _ H). unfold f_l. rewrite Et. cbn [lbl]. rewrite put_ok by lia. cbn [rbind].
        rewrite put_ok by (rewrite app_length; cbn [length]; lia). cbn [rbind]. fold P. rewrite (ir_fl _ _ H). cbn [exec].
        destruct (fl || f_fl f); cbn [exec1]; (destruct (add_flattened_subtree _ _ _ _ _ _) || destruct (add_subtree _ _ _ _ _ _)); cbn [rbind]; try reflexivity; apply IH2.
Qed.

Definition irels : list iitem -> list frame -> Prop := Forall2 irel.

Lemma irel_st it f s : irel it f -> irel (i_set_state s it) (at_st s f).
Proof. intros H. destruct H. constructor; assumption || reflexivity. Qed.
Lemma irel_flag it f b : irel it f -> irel (i_set_flatten b it) (at_fl b f).
Proof. intros H. destruct H. constructor; assumption || reflexivity. Qed.

Lemma left_sim it f acc : irel it f -> frame_ok n f ->
  exists cmds, cmds_rel cmds (left_of f acc) /\
    forall st, (if Z.eqb (i_state it) STATE_USED_FULL then Ok st else add_subtrees reduce mk_denorm mk_node it 1 acc st) = exec cmds st.
Proof.
  intros H Fo. unfold left_of. rewrite (ir_st _ _ H). destruct (Z.eqb (f_st f) 2) eqn:E.
  - exists []. split; [constructor|]. intros st. unfold STATE_USED_FULL. rewrite E. reflexivity.
  - destruct (subtrees_sim it f 1 acc H Fo) as (cmds & H1 & H2); [auto|congruence|]. exists cmds. split; [exact H1|]. intros st. unfold STATE_USED_FULL. rewrite E. apply H2.
Qed.
Lemma end_sim its fs : irels its fs -> Forall (frame_ok n) fs -> forall acc,
  exists cmds, cmds_rel cmds (a_end acc fs) /\ forall st, seek_end reduce mk_denorm mk_node acc its st = exec cmds st.
Proof.
  induction 1 as [|it f its fs H Hs IH]; intros Fo acc; cbn [a_end seek_end].
  - exists []. split; [constructor|reflexivity].
  - inversion Fo as [|? ? F1 F2]; subst. destruct (left_sim it f (acc || f_fl f) H F1) as (c1 & H1 & H2). destruct (IH F2 (acc || f_fl f)) as (c2 & H3 & H4).
    exists (c1 ++ c2). split; [apply Forall2_app; assumption|]. intros st. rewrite exec_app, (ir_fl _ _ H), H2. destruct (exec c1 st); cbn [rbind]; [apply H4|reflexivity].
Qed.
Lemma unwind_sim common its fs : irels its fs -> Forall (frame_ok n) fs -> forall acc key, length key = n ->
  exists its' cmds, irels its' (fst (a_unwind common acc fs)) /\ cmds_rel cmds (snd (a_unwind common acc fs)) /\
    forall st, unwind reduce mk_denorm mk_node common acc its key st =
      let? st := exec cmds st in Ok (its', match fst (a_unwind common acc fs) with f :: _ => drop (length (f_p f)) key | [] => key end, st).
Proof.
  induction 1 as [|it f its fs H Hs IH]; intros Fo acc key Lk; cbn [a_unwind unwind].
  - exists [], []. split; [constructor|]. split; [constructor|reflexivity].
  - inversion Fo as [|? ? F1 F2]; subst. rewrite (ir_p _ _ H), (ir_fl _ _ H). destruct (common <? length (f_p f)).
    + destruct (left_sim it f (acc || f_fl f) H F1) as (c1 & H1 & H2). destruct (IH F2 (acc || f_fl f) key Lk) as (its' & c2 & H3 & H4 & H5).
      destruct (a_unwind common (acc || f_fl f) fs) as [fs' ps]. cbn [fst snd] in *.
      exists its', (c1 ++ c2). split; [exact H3|]. split; [apply Forall2_app; assumption|]. intros st. rewrite exec_app, H2. destruct (exec c1 st); cbn [rbind]; [apply H5|reflexivity].
    + cbn [fst snd]. exists (i_set_flatten (f_fl f || acc) it :: its), []. split; [constructor; [apply irel_flag, H|exact Hs]|]. split; [constructor|].
      intros st. unfold skip_bits. rewrite (proj2 (Nat.ltb_ge _ _)) by (pose proof (ir_len _ _ H); lia). reflexivity.
Qed.

Lemma seek_sim t : forall p st fl rest it its key br fuel, irel it (Frame p t st fl) -> irels its rest -> length p + length key = n -> length key < fuel ->
  Forall (frame_ok n) (Frame p t st fl :: rest) ->
  let '(s, fs, ps) := a_seek t p st fl rest key br in
  exists its' cmds, irels its' fs /\ cmds_rel cmds ps /\
    forall rs, do_seek reduce mk_denorm mk_node fuel (it :: its) key br rs = let? rs := exec cmds rs in Ok (s, its', rs).
Proof.
  induction t as [l v|l x a IHa c IHc]; intros p st fl rest it its key br fuel H Hs Lk Lf Fo; (destruct fuel as [|fuel]; [lia|]); cbn [a_seek do_seek lbl].
  - pose proof (ir_l _ _ H) as El. change (f_l (Frame p (Leaf l v) st fl)) with l in El. rewrite El.
    destruct (strip l key) as [[|b key']|] eqn:E.
    + exists (it :: its), []. split; [constructor; assumption|]. split; [constructor|reflexivity].
    + exfalso. apply strip_some in E. subst key. inversion Fo as [|? ? (W & L & _) _]; subst. cbn [f_t f_p wft] in W, L. rewrite app_length in Lk. cbn [length] in Lk. lia.
    + exists (it :: its), []. split; [constructor; assumption|]. split; [constructor|reflexivity].
  - pose proof (ir_l _ _ H) as El. change (f_l (Frame p (Fork l x a c) st fl)) with l in El. rewrite El.
    destruct (strip l key) as [[|b key']|] eqn:E.
    + exists (it :: its), []. split; [constructor; assumption|]. split; [constructor|reflexivity].
    + apply strip_some in E. subst key. rewrite !app_length in Lk, Lf. cbn [length] in Lk, Lf. cbn [load_bit rbind].
      pose proof (Forall_inv Fo) as F1. pose proof (Forall_inv_tail Fo) as F2.
      destruct (HW (n - length p) _ _ ltac:(lia) (ir_rep _ _ H)) as (bits & refs & rest0 & Ec & _ & m' & cl & cr & r & Hm & -> & Ha & Hb). cbn [f_p] in Hm.
      set (f := Frame p (Fork l x a c) st fl) in *. set (ci := if b then cr else cl).
      assert (Er : ref_at b (i_cell it) = Ok ci) by (rewrite Ec; unfold ref_at; destruct b; reflexivity). rewrite Er. cbn [rbind].
      destruct (subtrees_sim it f (if b then 0 else -1) br H F1) as (c1 & H1 & H2); [destruct b; auto|intros _; cbn; eauto|].
      assert (Lb : length ((p ++ l) ++ [b]) <= n) by (rewrite !app_length; cbn [length]; lia).
      assert (Rc : Rp (n - length ((p ++ l) ++ [b])) ci (if b then c else a)).
      { replace (n - length ((p ++ l) ++ [b])) with m' by (rewrite !app_length; cbn [length]; lia). destruct b; assumption. }
      destruct (load_ok ((p ++ l) ++ [b]) ci (if b then c else a) Lb Rc) as (it1 & E1 & H3).
      destruct (kid_ok n f b F1 ltac:(cbn; eauto)) as (Kw & Kl & Kp). change (f_l f) with l in Kw, Kl. cbn [f f_p f_t kid] in Kw, Kl, Kp.
      assert (Fg : frame_ok n (Frame ((p ++ l) ++ [b]) (if b then c else a) (-1) false)).
      { unfold frame_ok. cbn [f_t f_p f_st]. repeat (split; [assumption|]). destruct (if b then c else a); auto. }
      assert (Ff1 : frame_ok n (Frame p (Fork l x a c) (bit_st b) fl)).
      { destruct F1 as (W & L & Pl & _). split; [exact W|]. split; [exact L|]. split; [exact Pl|]. cbn. destruct b; auto. }
      assert (Hk : n - length ((p ++ l) ++ [b]) = length key') by (rewrite !app_length; cbn [length]; lia).
      assert (IH : let '(s, fs, ps) := (if b then a_seek c ((p ++ l) ++ [b]) (-1) false (Frame p (Fork l x a c) (bit_st b) fl :: rest) key' br
                                       else a_seek a ((p ++ l) ++ [b]) (-1) false (Frame p (Fork l x a c) (bit_st b) fl :: rest) key' br) in
        exists its' cmds, irels its' fs /\ cmds_rel cmds ps /\
          forall rs, do_seek reduce mk_denorm mk_node fuel (it1 :: i_set_state (bit_st b) it :: its) key' br rs = let? rs := exec cmds rs in Ok (s, its', rs)).
      { assert (Hi : irels (i_set_state (bit_st b) it :: its) (Frame p (Fork l x a c) (bit_st b) fl :: rest)) by (constructor; [apply (irel_st it f), H|exact Hs]).
        assert (Lk' : length ((p ++ l) ++ [b]) + length key' = n) by lia.
        assert (Fo' : Forall (frame_ok n) (Frame ((p ++ l) ++ [b]) (if b then c else a) (-1) false :: Frame p (Fork l x a c) (bit_st b) fl :: rest)) by (constructor; [exact Fg|constructor; assumption]).
        destruct b; [apply IHc|apply IHa]; try assumption; lia. }
      fold f. destruct (if b then _ else _) as [[s fs] ps] in IH |- *. destruct IH as (its' & c2 & I1 & I2 & I3).
      exists its', (c1 ++ c2). split; [exact I1|]. split; [apply Forall2_app; assumption|]. intros rs. rewrite H2, exec_app. destruct (exec c1 rs) as [rs1|]; cbn [rbind]; [|reflexivity].
      change (i_label (i_set_state (if b then 1 else 0)%Z it)) with (i_label it). change (i_prefix (i_set_state (if b then 1 else 0)%Z it)) with (i_prefix it).
      rewrite El, (ir_p _ _ H). change (f_p f) with p. rewrite put_ok by lia. cbn [rbind]. rewrite put_ok by (rewrite app_length; cbn [length]; lia). cbn [rbind].
      rewrite <- Hk, E1. cbn [rbind]. rewrite <- I3. reflexivity.
    + exists (it :: its), []. split; [constructor; assumption|]. split; [constructor|reflexivity].
Qed.

Definition vrel_opt (v : option V) (w : option chunk) : Prop :=
  match v, w with Some v, Some w => vrel v w | None, None => True | _, _ => False end.
Lemma apply_sim s its fs k v w : irels its fs -> fs <> [] -> Forall (frame_ok n) fs -> length k = n -> vrel_opt v w ->
  exists its' cmds, irels its' (fst (a_apply s fs k w)) /\ cmds_rel cmds (snd (a_apply s fs k w)) /\
    forall st, apply_value reduce mk_leaf mk_denorm mk_node s its k v st = let? st := exec cmds st in Ok (its', st).
Proof.
  intros H Ne Fo Lk Hv. destruct H as [|it f its fs H Hs]; [contradiction|]. inversion Fo as [|? ? F1 F2]; subst.
  assert (Vs : exists cmds, cmds_rel cmds (val_push k w) /\ forall st, (match v with Some v => add_value reduce mk_leaf k v st | None => Ok st end) = exec cmds st).
  { destruct v as [v|], w as [w|]; try contradiction.
    - exists [CVal k v]. split; [constructor; [exists w; auto|constructor]|]. intros st. cbn [exec exec1]. destruct (add_value _ _ _ _ _); reflexivity.
    - exists []. split; [constructor|reflexivity]. }
  destruct Vs as (cv & V1 & V2). unfold a_apply, apply_value. destruct s as [rk|].
  - rewrite (ir_l _ _ H), (ir_st _ _ H). unfold STATE_USED_FULL.
    destruct ((match lexcmp rk (f_l f) with Gt => true | _ => false end) && negb (Z.eqb (f_st f) 2)) eqn:E.
    + destruct (subtrees_sim it f 1 false H F1) as (c1 & H1 & H2); [auto|congruence|].
      exists (i_set_state 2 it :: its), (c1 ++ cv). split; [constructor; [apply irel_st, H|exact Hs]|]. split; [apply Forall2_app; assumption|].
      intros st. rewrite H2, exec_app. destruct (exec c1 st) as [st1|]; cbn [rbind]; [|reflexivity]. rewrite V2. destruct (exec cv st1); reflexivity.
    + exists (it :: its), cv. split; [constructor; assumption|]. split; [exact V1|]. intros st. cbn [rbind]. rewrite V2. destruct (exec cv st); reflexivity.
  - destruct v as [v|], w as [w|]; try contradiction.
    + exists (i_set_state 2 it :: its), cv. split; [constructor; [apply irel_st, H|exact Hs]|]. split; [exact V1|]. intros st. rewrite V2. destruct (exec cv st); reflexivity.
    + exists (i_set_flatten true (i_set_state 2 it) :: its), []. split; [constructor; [apply irel_flag, irel_st, H|exact Hs]|]. split; [constructor|reflexivity].
Qed.

(** ** The whole walk *)
Fixpoint bottom (fs : list frame) : Prop := match fs with [] => False | f :: r => match r with [] => f_p f = [] | _ => bottom r end end.
Definition good (fs : list frame) : Prop := Forall (frame_ok n) fs /\ bottom fs.
Lemma bottom_top f f' r : f_p f' = f_p f -> bottom (f :: r) -> bottom (f' :: r).
Proof. destruct r; cbn [bottom]; congruence. Qed.
Lemma bottom_cons f r : bottom r -> bottom (f :: r).
Proof. destruct r; cbn [bottom]; [contradiction|trivial]. Qed.
Lemma good_ne fs : good fs -> fs <> [].
Proof. intros [_ H] ->. exact H. Qed.
Lemma good_top f f' r : f_p f' = f_p f -> f_t f' = f_t f -> f_st f' = f_st f \/ f_st f' = 2%Z -> good (f :: r) -> good (f' :: r).
Proof.
  intros E1 E2 E3 [Fo B]. inversion Fo as [|? ? (W & L & Pl & S') F2]; subst. split; [|eapply bottom_top; eassumption].
  constructor; [|exact F2]. unfold frame_ok. rewrite E1, E2. repeat (split; [assumption|]). destruct (f_t f); destruct E3 as [-> | ->]; tauto.
Qed.
Lemma unwind_good common fs : good fs -> forall acc, good (fst (a_unwind common acc fs)).
Proof.
  induction fs as [|f r IH]; intros G acc; [exact G|]. cbn [a_unwind]. destruct (common <? length (f_p f)) eqn:E.
  - assert (G' : good r). { destruct G as [Fo B]. inversion Fo; subst. split; [assumption|]. destruct r; [|exact B]. cbn [bottom] in B. rewrite B in E. apply Nat.ltb_lt in E. cbn in E. lia. }
    specialize (IH G' (acc || f_fl f)). destruct (a_unwind common (acc || f_fl f) r). exact IH.
  - cbn [fst]. eapply good_top; [..|exact G]; auto.
Qed.
Lemma seek_good t : forall p st fl rest key br, good (Frame p t st fl :: rest) -> good (snd (fst (a_seek t p st fl rest key br))).
Proof.
  induction t as [l v|l x a IHa c IHc]; intros p st fl rest key br G; cbn [a_seek].
  - destruct (strip (lbl (Leaf l v)) key) as [[|]|]; exact G.
  - destruct (strip (lbl (Fork l x a c)) key) as [[|b key']|]; try exact G.
    assert (G' : good (Frame ((p ++ l) ++ [b]) (if b then c else a) (-1) false :: Frame p (Fork l x a c) (bit_st b) fl :: rest)).
    { destruct G as [Fo B]. inversion Fo as [|? ? F1 F2]; subst. split.
      - destruct (kid_ok n _ b F1 ltac:(cbn; eauto)) as (Kw & Kl & Kp). unfold f_l in Kw, Kl. cbn [f_p f_t kid lbl] in Kw, Kl, Kp.
        constructor; [|constructor; [|exact F2]].
        + unfold frame_ok. cbn [f_t f_p f_st]. repeat (split; [assumption|]). destruct (if b then c else a); auto.
        + destruct F1 as (W & L & Pl & _). split; [exact W|]. split; [exact L|]. split; [exact Pl|]. cbn. destruct b; auto.
      - apply bottom_cons. eapply bottom_top; [|exact B]. reflexivity. }
    destruct b.
    + specialize (IHc _ _ _ _ key' br G'). destruct (a_seek c _ _ _ _ _ _) as [[? ?] ?]. exact IHc.
    + specialize (IHa _ _ _ _ key' br G'). destruct (a_seek a _ _ _ _ _ _) as [[? ?] ?]. exact IHa.
Qed.
Lemma apply_good s fs k w : good fs -> good (fst (a_apply s fs k w)).
Proof.
  intros G. destruct fs as [|f r]; [exact G|]. cbn [a_apply]. destruct s.
  - destruct (_ && _); cbn [fst]; [|exact G]. eapply good_top; [..|exact G]; auto.
  - destruct w; cbn [fst]; (eapply good_top; [..|exact G]; auto).
Qed.

Lemma first_sim root t k v w : length k = n -> Rp n root t -> wft n t -> plain t -> vrel_opt v w ->
  let (fs, ps) := a_first t k w in
  good fs /\ exists its cmds, irels its fs /\ cmds_rel cmds ps /\
    forall st, (let? (s, stack, st) := seek_first reduce mk_denorm mk_node root k (match v with None => true | Some _ => false end) st in
                apply_value reduce mk_leaf mk_denorm mk_node s stack k v st) = let? st := exec cmds st in Ok (its, st).
Proof.
  intros Lk HR Wf Pl Hv. unfold a_first, seek_first.
  assert (G0 : good [Frame [] t (-1) false]).
  { split; [|reflexivity]. constructor; [|constructor]. unfold frame_ok. cbn [f_p f_t f_st length]. rewrite Nat.sub_0_r. repeat (split; [assumption || lia|]). destruct t; auto. }
  destruct (load_ok [] root t ltac:(cbn; lia) ltac:(cbn [length]; rewrite Nat.sub_0_r; exact HR)) as (it & E & H). cbn [length] in E. rewrite Nat.sub_0_r in E.
  assert (Eb : (match v with None => true | Some _ => false end) = is_none w) by (destruct v, w; try contradiction; reflexivity). rewrite Eb.
  pose proof (seek_sim t [] (-1)%Z false [] it [] k (is_none w) (S (length k)) H (List.Forall2_nil _) ltac:(cbn; lia) ltac:(lia) (proj1 G0)) as S1.
  pose proof (seek_good t [] (-1)%Z false [] k (is_none w) G0) as G1.
  destruct (a_seek t [] (-1) false [] k (is_none w)) as [[s fs1] ps1]. cbn [fst snd] in G1. destruct S1 as (its1 & c1 & R1 & C1 & S1).
  destruct (apply_sim s its1 fs1 k v w R1 (good_ne _ G1) (proj1 G1) Lk Hv) as (its2 & c2 & R2 & C2 & S2).
  pose proof (apply_good s fs1 k w G1) as G2. destruct (a_apply s fs1 k w) as [fs2 ps2]. cbn [fst snd] in *. split; [exact G2|].
  exists its2, (c1 ++ c2). split; [exact R2|]. split; [apply Forall2_app; assumption|]. intros st. rewrite Lk, E. cbn [rbind]. rewrite Lk in S1. rewrite S1, exec_app.
  destruct (exec c1 st) as [st1|]; cbn [rbind]; [apply S2|reflexivity].
Qed.
Lemma next_sim its fs prev k v w : length k = n -> irels its fs -> good fs -> vrel_opt v w ->
  let (fs', ps) := a_next fs prev k w in
  good fs' /\ exists its' cmds, irels its' fs' /\ cmds_rel cmds ps /\
    forall st, (let? (s, stack, st) := seek_next reduce mk_denorm mk_node its prev k (match v with None => true | Some _ => false end) st in
                apply_value reduce mk_leaf mk_denorm mk_node s stack k v st) = let? st := exec cmds st in Ok (its', st).
Proof.
  intros Lk HR G Hv. unfold a_next, seek_next.
  assert (Eb : (match v with None => true | Some _ => false end) = is_none w) by (destruct v, w; try contradiction; reflexivity). rewrite Eb.
  assert (Ec : (match its with [last] => Z.eqb (i_state last) STATE_USED_FULL | _ => false end) = match fs with [f] => Z.eqb (f_st f) 2 | _ => false end).
  { destruct HR as [|it f its' fs' H [|it1 f1 its2 fs2 H1 Hs]]; [reflexivity| |reflexivity]. rewrite (ir_st _ _ H). reflexivity. }
  rewrite Ec. destruct (match fs with [f] => Z.eqb (f_st f) 2 | _ => false end).
  - destruct (apply_sim (NotFound k) its fs k v w HR (good_ne _ G) (proj1 G) Lk Hv) as (its2 & c2 & R2 & C2 & S2).
    pose proof (apply_good (NotFound k) fs k w G) as G2. destruct (a_apply (NotFound k) fs k w) as [fs2 ps2]. cbn [fst snd] in *. split; [exact G2|].
    exists its2, c2. split; [exact R2|]. split; [exact C2|]. intros st. cbn [rbind]. apply S2.
  - destruct (unwind_sim (length (cpfx prev k)) its fs HR (proj1 G) (is_none w) k Lk) as (its0 & c0 & R0 & C0 & S0).
    pose proof (unwind_good (length (cpfx prev k)) fs G (is_none w)) as G1. destruct (a_unwind _ _ fs) as [fs1 ps0]. cbn [fst snd] in *.
    destruct fs1 as [|f rest]; [destruct (good_ne _ G1 eq_refl)|]. inversion R0 as [|it ? its1 ? H Hs]; subst.
    pose proof (ir_len _ _ H) as Lp. destruct f as [p t st fl]. cbn [f_p f_t f_st f_fl] in *.
    assert (Ld : length (drop (length p) k) = length k - length p) by apply skipn_length.
    pose proof (seek_sim t p st fl rest it its1 (drop (length p) k) (is_none w) (S (length k)) H Hs ltac:(lia) ltac:(lia) (proj1 G1)) as S1.
    pose proof (seek_good t p st fl rest (drop (length p) k) (is_none w) G1) as G2.
    destruct (a_seek t p st fl rest (drop (length p) k) (is_none w)) as [[s fs1] ps1]. cbn [fst snd] in G2. destruct S1 as (its2 & c1 & R1 & C1 & S1).
    destruct (apply_sim s its2 fs1 k v w R1 (good_ne _ G2) (proj1 G2) Lk Hv) as (its3 & c2 & R2 & C2 & S2).
    pose proof (apply_good s fs1 k w G2) as G3. destruct (a_apply s fs1 k w) as [fs2 ps2]. cbn [fst snd] in *. split; [exact G3|].
    exists its3, (c0 ++ c1 ++ c2). split; [exact R2|]. split; [repeat apply Forall2_app; assumption|]. intros rs. rewrite S0, !exec_app.
    destruct (exec c0 rs) as [rs1|]; cbn [rbind]; [|reflexivity]. rewrite S1, exec_app. destruct (exec c1 rs1) as [rs2|]; cbn [rbind]; [apply S2|reflexivity].
Qed.

Lemma loop_sim ord root reqs : forall wreqs prev its fs, irels its fs -> good fs ->
  Forall2 (fun r w => fst r = fst w /\ length (fst w) = n /\ vrel_opt (snd r) (snd w)) reqs wreqs ->
  (fix up p l := match l with [] => True | w :: l' => ord (fst w) p = Gt /\ up (fst w) l' end) prev wreqs ->
  exists cmds, cmds_rel cmds (a_rest fs prev wreqs) /\
    forall st, (let? (prev_key, stack, st) := modify_loop reduce mk_leaf mk_denorm mk_node ord root (map (fun r => (fst r, Ok (snd r))) reqs) (Some prev) its st in
                seek_end reduce mk_denorm mk_node false stack st) = exec cmds st.
Proof.
  induction reqs as [|[k v] reqs IH]; intros wreqs prev its fs R G H Up; inversion H as [|? [k' w] ? wreqs' (E & L & Hv) H']; subst.
  - cbn [a_rest map modify_loop rbind]. exact (end_sim its fs R (proj1 G) false).
  - cbn [fst snd] in *. subst k'. destruct Up as [U1 U2]. cbn [a_rest map modify_loop fst snd]. rewrite U1. cbn [rbind].
    pose proof (next_sim its fs prev k v w L R G Hv) as N. destruct (a_next fs prev k w) as [fs1 ps1]. destruct N as (G1 & its1 & c1 & R1 & C1 & S1).
    destruct (IH wreqs' k its1 fs1 R1 G1 H' U2) as (c2 & C2 & S2). exists (c1 ++ c2). split; [apply Forall2_app; assumption|]. intros st. specialize (S1 st).
    rewrite exec_app. destruct (exec c1 st) as [st1|e]; cbn [rbind] in S1 |- *.
    + rewrite <- S2. destruct (seek_next _ _ _ _ _ _ _ _) as [[[s stack] st2]|]; cbn [rbind] in S1 |- *; [|discriminate]. rewrite S1. reflexivity.
    + destruct (seek_next _ _ _ _ _ _ _ _) as [[[s stack] st2]|]; cbn [rbind] in S1 |- *; [|congruence]. rewrite S1. reflexivity.
Qed.
Lemma all_sim ord root t k v w reqs wreqs : Rp n root t -> wft n t -> plain t -> length k = n -> vrel_opt v w ->
  Forall2 (fun r w => fst r = fst w /\ length (fst w) = n /\ vrel_opt (snd r) (snd w)) reqs wreqs ->
  (fix up p l := match l with [] => True | w :: l' => ord (fst w) p = Gt /\ up (fst w) l' end) k wreqs ->
  exists cmds, cmds_rel cmds (a_all t ((k, w) :: wreqs)) /\
    forall st, (let? (prev_key, stack, st) := modify_loop reduce mk_leaf mk_denorm mk_node ord root ((k, Ok v) :: map (fun r => (fst r, Ok (snd r))) reqs) None [] st in
                seek_end reduce mk_denorm mk_node false stack st) = exec cmds st.
Proof.
  intros HR Wf Pl L Hv H Up. cbn [a_all modify_loop rbind].
  pose proof (first_sim root t k v w L HR Wf Pl Hv) as N. destruct (a_first t k w) as [fs1 ps1]. destruct N as (G1 & its1 & c1 & R1 & C1 & S1).
  destruct (loop_sim ord root reqs wreqs k its1 fs1 R1 G1 H Up) as (c2 & C2 & S2). exists (c1 ++ c2). split; [apply Forall2_app; assumption|]. intros st. specialize (S1 st).
  rewrite exec_app. destruct (exec c1 st) as [st1|e]; cbn [rbind] in S1 |- *.
  - rewrite <- S2. destruct (seek_first _ _ _ _ _ _ _) as [[[s stack] st2]|]; cbn [rbind] in S1 |- *; [|discriminate]. rewrite S1. reflexivity.
  - destruct (seek_first _ _ _ _ _ _ _) as [[[s stack] st2]|]; cbn [rbind] in S1 |- *; [|congruence]. rewrite S1. reflexivity.
Qed.
End G.
