(** * Lookup, insertion and removal on cells refine the tree operations. *)
From Verif Require Import Err BitsProofs CellModel LabelModel LabelSpec LabelProofs DictModel DictSpec DictTree.
Local Open Scope nat_scope.

(** ** Uniqueness of the tree of a map *)
Fixpoint plain (t : pt) : Prop :=
  match t with Leaf _ _ => True | Fork _ x a b => x = ([], []) /\ plain a /\ plain b end.

Lemma t_nonempty n t : wft n t -> exists k v, t_get t k = Some v.
Proof.
  revert n. induction t as [l w|l x a IHa b IHb]; intros n.
  - intros _. exists l, w. cbn [t_get]. rewrite strip_self. reflexivity.
  - intros (m & _ & Ha & _). destruct (IHa m Ha) as (k & v & E). exists (l ++ false :: k), v.
    cbn [t_get]. rewrite strip_app. exact E.
Qed.
Lemma t_get_lbl t k v : t_get t k = Some v -> exists r, k = lbl t ++ r.
Proof.
  intros H. destruct (strip (lbl t) k) as [r|] eqn:E; [exists r; apply strip_some, E|].
  rewrite (get_strip _ _ E) in H. discriminate.
Qed.

Lemma common_prefix (p l ka kb r s : list bool) :
  l ++ false :: ka = p ++ r -> l ++ true :: kb = p ++ s -> exists q, l = p ++ q.
Proof.
  revert l r s. induction p as [|x p IH]; intros l r s H1 H2; [exists l; reflexivity|].
  destruct l as [|y l]; cbn [app] in *; [congruence|]. injection H1 as -> H1. injection H2 as H2.
  destruct (IH l r s H1 H2) as [q ->]. exists q. reflexivity.
Qed.

Lemma t_ext n t t' : wft n t -> wft n t' -> plain t -> plain t' ->
  (forall k, t_get t k = t_get t' k) -> t = t'.
Proof.
  revert n t'. induction t as [l v|l x a IHa b IHb]; intros n t' Ht Ht' Hp Hp' H.
  - destruct t' as [l' v'|l' x' a' b'].
    + pose proof (H l) as E. cbn [t_get] in E. rewrite strip_self in E.
      destruct (strip l' l) as [[|]|] eqn:E1; try discriminate. apply strip_some in E1. rewrite app_nil_r in E1. congruence.
    + destruct Ht' as (m & Hm & Ha & Hb).
      destruct (t_nonempty _ _ Ha) as (ka & va & Ea), (t_nonempty _ _ Hb) as (kb & vb & Eb).
      pose proof (H (l' ++ false :: ka)) as H1. pose proof (H (l' ++ true :: kb)) as H2.
      cbn [t_get] in H1, H2. rewrite strip_app in H1, H2. rewrite Ea in H1. rewrite Eb in H2.
      destruct (strip l (l' ++ false :: ka)) as [[|]|] eqn:E1; try discriminate.
      destruct (strip l (l' ++ true :: kb)) as [[|]|] eqn:E2; try discriminate.
      apply strip_some in E1, E2. rewrite app_nil_r in *. rewrite <- E2 in E1. apply app_inv_head in E1. discriminate.
  - destruct Ht as (m & Hm & Ha & Hb). cbn [plain] in Hp. destruct Hp as (-> & Pa & Pb).
    destruct (t_nonempty _ _ Ha) as (ka & va & Ea), (t_nonempty _ _ Hb) as (kb & vb & Eb).
    pose proof (H (l ++ false :: ka)) as H1. pose proof (H (l ++ true :: kb)) as H2.
    cbn [t_get] in H1, H2. rewrite strip_app in H1, H2. rewrite Ea in H1. rewrite Eb in H2.
    symmetry in H1, H2.
    destruct (t_get_lbl _ _ _ H1) as [r1 R1], (t_get_lbl _ _ _ H2) as [r2 R2].
    destruct (common_prefix _ _ _ _ _ _ R1 R2) as [q Q].
    destruct t' as [l' v'|l' x' a' b'].
    + cbn [t_get] in H1, H2.
      destruct (strip l' (l ++ false :: ka)) as [[|]|] eqn:E1; try discriminate.
      destruct (strip l' (l ++ true :: kb)) as [[|]|] eqn:E2; try discriminate.
      apply strip_some in E1, E2. rewrite app_nil_r in *. rewrite <- E2 in E1. apply app_inv_head in E1. discriminate.
    + destruct Ht' as (m' & Hm' & Ha' & Hb'). cbn [plain] in Hp'. destruct Hp' as (-> & Pa' & Pb').
      destruct (t_nonempty _ _ Ha') as (ka' & va' & Ea'), (t_nonempty _ _ Hb') as (kb' & vb' & Eb').
      pose proof (H (l' ++ false :: ka')) as H3. pose proof (H (l' ++ true :: kb')) as H4.
      cbn [t_get] in H3, H4. rewrite strip_app in H3, H4. rewrite Ea' in H3. rewrite Eb' in H4.
      change (t_get (Fork l ([], []) a b) (l' ++ false :: ka') = Some va') in H3.
      change (t_get (Fork l ([], []) a b) (l' ++ true :: kb') = Some vb') in H4.
      destruct (t_get_lbl _ _ _ H3) as [r3 R3], (t_get_lbl _ _ _ H4) as [r4 R4].
      destruct (common_prefix _ _ _ _ _ _ R3 R4) as [q' Q']. cbn [lbl] in *.
      assert (q' = []) as ->.
      { rewrite Q' in Q. apply (f_equal length) in Q. rewrite !app_length in Q. destruct q'; [reflexivity|cbn in Q; lia]. }
      rewrite app_nil_r in Q'. subst l'. clear q Q.
      assert (m' = m) as -> by lia.
      rewrite (IHa m a'), (IHb m b'); try assumption; [reflexivity| |].
      * intros k. specialize (H (l ++ true :: k)). cbn [t_get] in H. rewrite strip_app in H. exact H.
      * intros k. specialize (H (l ++ false :: k)). cbn [t_get] in H. rewrite strip_app in H. exact H.
Qed.

(** ** Rules under which reading works *)
Definition reads (R : rules) : Prop :=
  forall n bits l rest, n <= 1023 -> r_label R n bits l rest -> read_label n bits = Ok (l, rest).
(** ... and under which written cells are dictionary cells again. *)
Definition writes (fin : list bool -> list cell -> res unit) (R : rules) : Prop :=
  (forall n l rest, length l <= n -> r_label R n (label_bits n l ++ rest) l rest) /\
  (forall x, r_extra R x -> x = ([], [])) /\ r_extra R ([], []) /\
  (forall bits refs, length bits <= 1023 -> length refs <= 4 -> fin bits refs = Ok tt -> r_cell R bits refs).

Lemma any_reads n bits l rest : n <= 1023 -> any_label n bits l rest -> read_label n bits = Ok (l, rest).
Proof. intros Hn (e & -> & H). apply read_label_hml; assumption. Qed.
Lemma reads_any : reads any_dict.
Proof. intros n bits l rest. apply any_reads. Qed.
Lemma reads_plain : reads plain_dict.
Proof. intros n bits l rest. apply any_reads. Qed.
Lemma reads_canonical fin : reads (canonical_dict fin).
Proof. intros n bits l rest Hn (e & -> & H & _). apply read_label_hml; assumption. Qed.
Lemma writes_plain fin : writes fin plain_dict.
Proof.
  split; [|split; [|split]].
  - intros n l rest H. exists (label_bits n l). split; [reflexivity|apply label_bits_hml, H].
  - intros x H. exact H.
  - reflexivity.
  - intros. exact I.
Qed.
Lemma writes_canonical fin : writes fin (canonical_dict fin).
Proof.
  split; [|split; [|split]].
  - intros n l rest H. exists (label_bits n l). split; [reflexivity|apply label_bits_canonical, H].
  - intros x H. exact H.
  - reflexivity.
  - intros bits refs H1 H2 H3. split; [exact H1|split; [exact H2|exact H3]].
Qed.

Lemma hml_len n e l : hml n e l -> length l <= n.
Proof. destruct 1; rewrite ?replicate_length; assumption. Qed.

Lemma canonical_label_eq n bits l rest : canonical_label n bits l rest -> bits = label_bits n l ++ rest /\ length l <= n.
Proof.
  intros (e & -> & H). pose proof (hml_len _ _ _ (proj1 H)) as L. split; [|exact L]. f_equal.
  pose proof (label_bits_canonical n l L) as H'. destruct H as [A B], H' as [A' B'].
  destruct (B _ A') as [H|[H [H1|H1]]], (B' _ A) as [H'|[H' [H1'|H1']]]; try congruence; lia.
Qed.

Lemma Rep_canonical_det fin n c c' t : Rep (canonical_dict fin) n c t -> Rep (canonical_dict fin) n c' t -> c = c'.
Proof.
  intros H. revert c'. induction H as [n bits l v H1 H2 H3|n m bits l x cl cr a b H1 H2 H3 H4 HL IHL HR IHR]; intros c' H'.
  - inversion H' as [n' bits' l' v' H1' H2' H3'|]; subst.
    apply canonical_label_eq in H1, H1'. destruct H1 as [-> _], H1' as [-> _]. reflexivity.
  - inversion H' as [|n' m' bits' l' x' cl' cr' a' b' H1' H2' H3' H4' HL' HR']; subst.
    assert (m' = m) as -> by lia.
    apply canonical_label_eq in H1, H1'. destruct H1 as [-> _], H1' as [-> _].
    rewrite (IHL _ HL'), (IHR _ HR'). reflexivity.
Qed.

Lemma Rep_plain R fin n c t : writes fin R -> Rep R n c t -> plain t.
Proof.
  intros (_ & W & _). induction 1 as [n bits l v H1 H2 H3|n m bits l x cl cr a b H1 H2 H3 H4 HL IHL HR IHR]; cbn [plain]; [exact I|].
  split; [apply W, H3|split; assumption].
Qed.

(** Inversions used by every walk: what the walk sees at a node. *)
Lemma Rep_inv R n c t : reads R -> n <= 1023 -> Rep R n c t ->
  exists bits refs rest, c = Cell false bits refs /\ as_slice c = Ok (Sl c bits refs) /\
    read_label n bits = Ok (lbl t, rest) /\
    match t with
    | Leaf l v => length l = n /\ v = (rest, refs)
    | Fork l x a b => exists m cl cr, n = length l + S m /\ refs = cl :: cr :: snd x /\ rest = fst x /\
        Rep R m cl a /\ Rep R m cr b
    end.
Proof.
  intros HR Hn H. destruct H as [n bits l v H1 H2 H3|n m bits l x cl cr a b H1 H2 H3 H4 HL HRR].
  - exists bits, (snd v), (fst v). split; [reflexivity|]. split; [reflexivity|]. split; [apply HR; assumption|].
    split; [exact H2|]. destruct v; reflexivity.
  - exists bits, (cl :: cr :: snd x), (fst x). split; [reflexivity|]. split; [reflexivity|]. split; [apply HR; assumption|].
    exists m, cl, cr. auto.
Qed.

(** ** Lookup *)
Lemma get_loop_spec R n c t key fuel : reads R -> n <= 1023 -> Rep R n c t -> length key = n -> n < fuel ->
  exists d, as_slice c = Ok d /\
  (let? o := get_loop fuel d key in Ok (option_map s_chunk o)) = Ok (t_get t key).
Proof.
  intros HR. revert n c t key. induction fuel as [|f IH]; intros n c t key Hn H Hk Hf; [lia|].
  destruct (Rep_inv R n c t HR Hn H) as (bits & refs & rest & Ec & Es & El & Ht).
  exists (Sl c bits refs). split; [exact Es|]. cbn [get_loop s_bits s_cell s_refs]. rewrite Hk, El. cbn [rbind].
  destruct t as [l v|l x a b]; cbn [lbl t_get] in *.
  - destruct Ht as [Hl ->]. destruct (strip l key) as [[|c0 r]|] eqn:E.
    + reflexivity.
    + apply strip_some in E. subst key. rewrite app_length in Hk. cbn in Hk. lia.
    + destruct (n =? 0) eqn:E0; [|reflexivity]. apply Nat.eqb_eq in E0. subst n. destruct l; [discriminate|cbn in Hl; lia].
  - destruct Ht as (m & cl & cr & Hm & -> & -> & Ha & Hb). destruct (strip l key) as [[|c0 r]|] eqn:E.
    + apply strip_some in E. subst key. rewrite app_nil_r in Hk. lia.
    + apply strip_some in E. subst key. rewrite app_length in Hk. cbn [length] in Hk.
      cbn [length]. rewrite (proj2 (Nat.ltb_ge _ _)) by lia. cbn [load_bit rbind]. subst c.
      destruct c0; cbn [ref_at c_refs lookup list_lookup rbind].
      * destruct (IH m cr b r ltac:(lia) Hb ltac:(lia) ltac:(lia)) as (d & Ed & Eg).
        rewrite Ed. cbn [rbind]. exact Eg.
      * destruct (IH m cl a r ltac:(lia) Ha ltac:(lia) ltac:(lia)) as (d & Ed & Eg).
        rewrite Ed. cbn [rbind]. exact Eg.
    + rewrite (proj2 (Nat.eqb_neq n 0)) by lia. reflexivity.
Qed.

Lemma dict_get_spec R n d es key : reads R -> n <= 1023 -> is_dict R n d es -> length key = n ->
  dict_get d n key = Ok (dmap es !! key).
Proof.
  intros HR Hn Hd Hk. unfold dict_get. rewrite Hk, Nat.eqb_refl. cbn [negb].
  destruct d as [c|]; cbn [is_dict] in Hd; [|subst es; reflexivity].
  apply hashmap_rep in Hd. destruct Hd as (t & H & ->).
  destruct (get_loop_spec R n c t key (S n) HR Hn H Hk ltac:(lia)) as (d & -> & E).
  cbn [rbind]. rewrite E, t_get_spec. reflexivity.
Qed.

Lemma range_apply c e rest refs : c_bits c = e ++ rest -> c_refs c = refs ->
  r_apply (s_range (Sl c rest refs)) c = (rest, refs).
Proof.
  intros H1 H2. unfold r_apply, s_range. cbn [s_cell s_bits s_refs fst snd]. rewrite H1, H2.
  rewrite app_length, Nat.add_sub, drop_app, Nat.sub_diag. reflexivity.
Qed.

(** The owned version walks the same way and remembers where the last cell came from. *)
Definition owns (root : cell) (prev : option (cell * bool)) (c : cell) : Prop := owner root prev = Ok c.

Lemma get_owned_loop_spec R n c t key fuel root prev : reads R -> n <= 1023 -> Rep R n c t -> length key = n -> n < fuel ->
  owns root prev c ->
  exists d, as_slice c = Ok d /\
  match t_get t key with
  | None => get_owned_loop fuel d prev key = Ok None
  | Some v => exists data prev' c', get_owned_loop fuel d prev key = Ok (Some (data, prev')) /\
      owns root prev' c' /\ r_apply (s_range data) c' = v
  end.
Proof.
  intros HR. revert n c t key prev. induction fuel as [|f IH]; intros n c t key prev Hn H Hk Hf Ho; [lia|].
  destruct (Rep_inv R n c t HR Hn H) as (bits & refs & rest & Ec & Es & El & Ht).
  exists (Sl c bits refs). split; [exact Es|]. cbn [get_owned_loop s_bits s_cell s_refs]. rewrite Hk, El. cbn [rbind].
  destruct (read_label_suffix _ _ _ _ Hn El) as [e He].
  destruct t as [l v|l x a b]; cbn [lbl t_get] in *.
  - destruct Ht as [Hl ->]. destruct (strip l key) as [[|c0 r]|] eqn:E.
    + exists (Sl c rest refs), prev, c. split; [reflexivity|]. split; [exact Ho|]. apply (range_apply c e); subst c; [exact He|reflexivity].
    + reflexivity || (apply strip_some in E; subst key; rewrite app_length in Hk; cbn in Hk; lia).
    + destruct (n =? 0) eqn:E0; [|reflexivity]. apply Nat.eqb_eq in E0. subst n. destruct l; [discriminate|cbn in Hl; lia].
  - destruct Ht as (m & cl & cr & Hm & -> & -> & Ha & Hb). destruct (strip l key) as [[|c0 r]|] eqn:E.
    + apply strip_some in E. subst key. rewrite app_nil_r in Hk. lia.
    + apply strip_some in E. subst key. rewrite app_length in Hk. cbn [length] in Hk.
      cbn [length]. rewrite (proj2 (Nat.ltb_ge _ _)) by lia. cbn [load_bit rbind]. subst c.
      destruct c0; cbn [ref_at c_refs lookup list_lookup rbind].
      * destruct (IH m cr b r (Some (Cell false bits (cl :: cr :: snd x), true)) ltac:(lia) Hb ltac:(lia) ltac:(lia) eq_refl) as (d & Ed & Eg).
        rewrite Ed. cbn [rbind]. exact Eg.
      * destruct (IH m cl a r (Some (Cell false bits (cl :: cr :: snd x), false)) ltac:(lia) Ha ltac:(lia) ltac:(lia) eq_refl) as (d & Ed & Eg).
        rewrite Ed. cbn [rbind]. exact Eg.
    + rewrite (proj2 (Nat.eqb_neq n 0)) by lia. reflexivity.
Qed.

Lemma wft_unique t m m' : wft m t -> wft m' t -> m' = m.
Proof.
  revert m m'. induction t as [l v|l x a IHa b IHb]; intros m m'; cbn [wft]; [congruence|].
  intros (k & -> & H & _) (k' & -> & H' & _). rewrite (IHa _ _ H H'). reflexivity.
Qed.

(** ** Building nodes *)
Section W.
Context (fin : list bool -> list cell -> res unit).

Definition cell_ok (bits : list bool) (refs : list cell) : Prop :=
  length bits <= 1023 /\ length refs <= 4 /\ fin bits refs = Ok tt.

Lemma fin_ok bits refs u : fin bits refs = Ok u -> fin bits refs = Ok tt.
Proof. intros ->. destruct u. reflexivity. Qed.

Lemma putr_ok x r : length r + length x <= 4 -> putr x r = Ok (r ++ x).
Proof. intros H. unfold putr, MAX_REFS. rewrite (proj2 (Nat.ltb_ge _ _)) by lia. reflexivity. Qed.
Lemma putr_inv x r r' : putr x r = Ok r' -> r' = r ++ x /\ length r' <= 4.
Proof.
  unfold putr, MAX_REFS. destruct (Nat.ltb_spec 4 (length r + length x)); [discriminate|].
  intros [= <-]. rewrite app_length. split; [reflexivity|lia].
Qed.

Lemma build_iff ch c : build fin ch = Ok c <-> c = Cell false (fst ch) (snd ch) /\ fin (fst ch) (snd ch) = Ok tt.
Proof.
  unfold build. destruct (fin (fst ch) (snd ch)) as [[]|e] eqn:E; cbn [rbind].
  - split; [intros [= <-]; auto|intros [-> _]; reflexivity].
  - split; [discriminate|intros [_ H]; discriminate].
Qed.

Lemma make_leaf_iff l n v c : length l <= n -> n <= 1023 ->
  make_leaf fin l n v = Ok c <->
  c = Cell false (label_bits n l ++ fst v) (snd v) /\ cell_ok (label_bits n l ++ fst v) (snd v).
Proof.
  intros Hl Hn. unfold make_leaf. rewrite write_label_spec by assumption. unfold cell_ok. rewrite app_length.
  destruct (Nat.leb_spec (length (label_bits n l)) 1023) as [L|L]; cbn [rbind].
  2:{ split; [discriminate|]. intros (_ & H & _). lia. }
  unfold putc. cbn [fst snd]. split.
  - destruct (put (fst v) (label_bits n l)) as [b|] eqn:E1; cbn [rbind]; [|discriminate].
    destruct (putr (snd v) []) as [r|] eqn:E2; cbn [rbind]; [|discriminate].
    apply put_inv in E1. apply putr_inv in E2. destruct E1 as [-> E1], E2 as [-> E2]. rewrite app_length in E1.
    intros H. apply build_iff in H. cbn [fst snd app] in *. destruct H as [-> H]. repeat split; try assumption; lia.
  - intros (-> & H1 & H2 & H3). rewrite put_ok by lia. cbn [rbind]. rewrite putr_ok by (cbn [length]; lia). cbn [rbind].
    apply build_iff. cbn [fst snd app]. auto.
Qed.

Lemma make_fork_iff l n cl cr c : length l <= n -> n <= 1023 ->
  make_fork fin l n cl cr = Ok c <->
  c = Cell false (label_bits n l) [cl; cr] /\ cell_ok (label_bits n l) [cl; cr].
Proof.
  intros Hl Hn. unfold make_fork. rewrite write_label_spec by assumption. unfold cell_ok.
  destruct (Nat.leb_spec (length (label_bits n l)) 1023) as [L|L]; cbn [rbind].
  2:{ split; [discriminate|]. intros (_ & H & _). lia. }
  rewrite putr_ok by (cbn; lia). cbn [rbind app]. rewrite putr_ok by (cbn; lia). cbn [rbind app].
  rewrite build_iff. cbn [fst snd length]. intuition lia.
Qed.

(** One step of [rebuild]: replace one child of a fork. *)
Definition node (bits : list bool) (cl cr : cell) : res cell :=
  let? b := put bits [] in build fin (b, [cl; cr]).
Lemma node_iff bits cl cr c : node bits cl cr = Ok c <-> c = Cell false bits [cl; cr] /\ cell_ok bits [cl; cr].
Proof.
  unfold node, cell_ok. split.
  - destruct (put bits []) as [b|] eqn:E; cbn [rbind]; [|discriminate]. apply put_inv in E. cbn [app] in E. destruct E as [-> E].
    rewrite build_iff. cbn [fst snd length]. intuition lia.
  - intros (-> & H1 & H2 & H3). rewrite put_ok by (cbn [length]; lia). cbn [rbind app]. apply build_iff. auto.
Qed.
Lemma rebuild_step e bits cl cr xs br len st leaf :
  rebuild fin (Seg (Cell e bits (cl :: cr :: xs)) br len :: st) leaf =
  (let? c := node bits (if br then cl else leaf) (if br then leaf else cr) in rebuild fin st c).
Proof.
  cbn [rebuild g_branch g_data]. unfold node. destruct br; cbn [ref_at c_refs lookup list_lookup rbind c_bits];
    (destruct (put bits []) as [b|]; cbn [rbind]; [|reflexivity]);
    (rewrite putr_ok by (cbn; lia)); cbn [rbind app]; (rewrite putr_ok by (cbn; lia)); reflexivity.
Qed.

Context (R : rules) (HR : reads R) (HW : writes fin R).

(** The node contents of [t] under a new label. *)
Definition has_content (t : pt) (ch : chunk) : Prop :=
  match t with
  | Leaf l v => ch = v
  | Fork l x a b => exists m cl cr, Rep R m cl a /\ Rep R m cr b /\ ch = (fst x, cl :: cr :: snd x) /\ x = ([], []) /\
      wft m a
  end.

Lemma Rep_relabel n t ch l : has_content t ch -> wft n (relabel l t) -> n <= 1023 ->
  cell_ok (label_bits n l ++ fst ch) (snd ch) ->
  Rep R n (Cell false (label_bits n l ++ fst ch) (snd ch)) (relabel l t).
Proof.
  destruct HW as (W1 & W2 & W3 & W4). intros Hc Hw Hn (C1 & C2 & C3). pose proof (lbl_le _ _ Hw) as Hl.
  destruct t as [l0 v|l0 x a b]; cbn [relabel has_content lbl] in *.
  - subst ch. constructor; [apply W1, Hl|exact Hw|apply W4; assumption].
  - destruct Hc as (m & cl & cr & Ha & Hb & -> & -> & Hwa). destruct Hw as (m' & Hm & Hwa' & Hwb).
    assert (m' = m) as ->.
    { eapply wft_unique; eassumption. }
    cbn [fst snd] in *. rewrite app_nil_r in *.
    apply (Rep_fork R n m _ l ([], []) cl cr a b).
    + cbn [fst]. rewrite <- (app_nil_r (label_bits n l)). apply W1, Hl.
    + exact Hm.
    + exact W3.
    + cbn [snd]. apply W4; assumption.
    + exact Ha.
    + exact Hb.
Qed.

(** ** Insertion *)
Lemma split_edge_spec n t k ch v p x a b : n <= 1023 -> wft n t -> has_content t ch ->
  k = p ++ x :: a -> lbl t = p ++ negb x :: b -> length k = n ->
  match split_edge fin ch (lbl t) p k v with
  | Ok c => Rep R n c (t_split p t k v)
  | Err _ => True
  end.
Proof.
  intros Hn Hw Hc Ek El Hk. subst k. unfold split_edge. rewrite El. cbv zeta.
  pose proof Hk as Hk'. rewrite app_length in Hk'. cbn [length] in Hk'.
  unfold skip_bits at 1. rewrite app_length. cbn [length]. rewrite (proj2 (Nat.ltb_ge _ _)) by lia. cbn [rbind].
  unfold skip_bits. rewrite app_length. cbn [length]. rewrite (proj2 (Nat.ltb_ge _ _)) by lia.
  rewrite drop_app. cbn [load_bit rbind].
  replace (length p + 1) with (S (length p)) by lia. destruct (diverge_shape p x a) as [-> _].
  assert (W : wft (length a) (relabel b t)).
  { eapply relabel_wft; [exact Hw|]. rewrite El, app_length. cbn [length]. lia. }
  assert (Lb : length b <= length a).
  { pose proof (lbl_le _ _ W) as L. destruct t; exact L. }
  destruct (make_leaf fin b (length a) ch) as [lf|] eqn:E1; cbn [rbind]; [|exact I].
  destruct (make_leaf fin a (length a) v) as [rt|] eqn:E2; cbn [rbind]; [|exact I].
  apply make_leaf_iff in E1; [|lia|lia]. apply make_leaf_iff in E2; [|lia|lia].
  destruct E1 as [-> E1], E2 as [-> E2].
  pose proof (Rep_relabel (length a) t ch b Hc W ltac:(lia) E1) as R1.
  pose proof (Rep_relabel (length a) (Leaf [] v) v a eq_refl eq_refl ltac:(lia) E2) as R2. cbn [relabel] in R2.
  rewrite (t_split_shape p x a b t v El).
  set (c1 := Cell false (label_bits (length a) b ++ fst ch) (snd ch)) in *.
  set (c2 := Cell false (label_bits (length a) a ++ fst v) (snd v)) in *.
  assert (F : forall cl cr ta tb, Rep R (length a) cl ta -> Rep R (length a) cr tb ->
    match make_fork fin p (length p + S (length a)) cl cr with Ok c => Rep R n c (Fork p ([], []) ta tb) | Err _ => True end).
  { intros cl cr ta tb Ra Rb. rewrite Hk'. destruct (make_fork fin p n cl cr) as [c|] eqn:E3; [|exact I].
    apply make_fork_iff in E3; [|lia|lia]. destruct E3 as [-> (C1 & C2 & C3)].
    destruct HW as (W1 & W2 & W3 & W4). apply (Rep_fork R n (length a) _ p ([], []) cl cr ta tb); [|lia|exact W3| |exact Ra|exact Rb].
    - cbn [fst]. rewrite <- (app_nil_r (label_bits n p)). apply W1. lia.
    - cbn [snd]. apply W4; assumption. }
  destruct x; cbn [negb]; apply F; assumption.
Qed.

Lemma Rep_content n c t bits refs rest : Rep R n c t -> n <= 1023 -> c = Cell false bits refs ->
  read_label n bits = Ok (lbl t, rest) -> has_content t (rest, refs).
Proof.
  intros H Hn -> El. inversion H as [n' bits' l v H1 H2 H3|n' m bits' l x cl cr a b H1 H2 H3 H4 HL HRR]; subst; cbn [has_content lbl] in *.
  - rewrite (HR _ _ _ _ Hn H1) in El. injection El as <-. destruct v; reflexivity.
  - destruct HW as (_ & W2 & _). apply W2 in H3. subst x. cbn [fst snd] in *.
    rewrite (HR _ _ _ _ Hn H1) in El. injection El as <-.
    exists m, cl, cr. repeat split; try assumption. eapply Rep_wft; exact HL.
Qed.

(** Outcome of an insertion walk followed by [rebuild]. *)
Definition ins_rebuild (o : res (option (cell * list seg))) : res (option cell) :=
  let? o := o in
  match o with
  | None => Ok None
  | Some (leaf, st) => let? c := rebuild fin st leaf in Ok (Some c)
  end.

Definition refused (mode : set_mode) (present : bool) : bool :=
  if present then negb (can_replace mode) else negb (can_add mode).

Lemma insert_loop_spec n c t key v mode fuel stack :
  n <= 1023 -> Rep R n c t -> length key = n -> n < fuel ->
  if refused mode (bool_decide (is_Some (t_get t key)))
  then insert_loop fin fuel c key v mode stack = Ok None
  else exists r,
    ins_rebuild (insert_loop fin fuel c key v mode stack) =
      (let? c' := r in let? c2 := rebuild fin stack c' in Ok (Some c2)) /\
    match r with Ok c' => Rep R n c' (t_ins t key v) | Err _ => True end.
Proof.
  revert n c t key stack. induction fuel as [|f IH]; intros n c t key stack Hn H Hk Hf; [lia|].
  pose proof (Rep_wft _ _ _ _ H) as Hw.
  destruct (Rep_inv R n c t HR Hn H) as (bits & refs & rest & Ec & Es & El & Ht).
  pose proof (Rep_content _ _ _ _ _ _ H Hn Ec El) as Hc.
  cbn [insert_loop]. rewrite Es. cbn [rbind s_bits s_refs]. rewrite Hk, El. cbn [rbind].
  pose proof (lbl_le _ _ Hw) as Ll.
  destruct (key_label_cases key (lbl t) ltac:(lia)) as [[r Er]|(p & z & ka & lb & Ek & Elb)].
  - (* the key extends the label *)
    rewrite Er, cpfx_self_l. rewrite <- Er.
    destruct t as [l w|l x a b]; cbn [lbl t_get] in *.
    + destruct Ht as [Hl Hv]. assert (r = []) as ->.
      { destruct r; [reflexivity|]. subst key. rewrite app_length in Hk. cbn in Hk. lia. }
      rewrite app_nil_r in Er. subst key. rewrite strip_self.
      rewrite bool_decide_eq_true_2 by (eexists; reflexivity).
      rewrite Hl, Nat.eqb_refl. unfold refused. destruct (can_replace mode); cbn [negb]; [|reflexivity].
      exists (make_leaf fin l n v). cbn [t_ins]. rewrite strip_self. split.
      * unfold ins_rebuild. destruct (make_leaf fin l n v); reflexivity.
      * destruct (make_leaf fin l n v) as [c'|] eqn:E1; [|exact I].
        apply make_leaf_iff in E1; [|lia|lia]. destruct E1 as [-> E1].
        exact (Rep_relabel n (Leaf [] v) v l eq_refl Hl Hn E1).
    + destruct Ht as (m & cl & cr & Hm & Hrefs & Hrest & Ha & Hb). subst refs.
      destruct r as [|c0 r]; [subst key; rewrite app_nil_r in Hk; lia|].
      pose proof Hk as Hk'. rewrite Er, app_length in Hk'. cbn [length] in Hk'.
      rewrite (proj2 (Nat.eqb_neq _ _)) by lia. rewrite Nat.ltb_irrefl.
      subst c. cbn [c_refs length]. rewrite (proj2 (Nat.ltb_ge _ _)) by lia.
      unfold skip_bits. rewrite Hk, (proj2 (Nat.ltb_ge _ _)) by lia. cbn [rbind]. rewrite Er, drop_app. cbn [load_bit rbind].
      rewrite strip_app. 
      assert (G : forall (ct : cell) (tt : pt), (ct, tt) = (if c0 then (cr, b) else (cl, a)) ->
        ref_at c0 (Cell false bits (cl :: cr :: snd x)) = Ok ct /\ Rep R m ct tt).
      { intros ct tt E. destruct c0; injection E as -> ->; split; auto. }
      destruct (if c0 then (cr, b) else (cl, a)) as [ct tt] eqn:Ect. destruct (G ct tt eq_refl) as [G1 G2]. clear G.
      rewrite G1. cbn [rbind].
      specialize (IH m ct tt r (Seg (Cell false bits (cl :: cr :: snd x)) c0 n :: stack) ltac:(lia) G2 ltac:(lia) ltac:(lia)).
      replace (match c0 with true => t_get b r | false => t_get a r end) with (t_get tt r) by (destruct c0; injection Ect as <- <-; reflexivity).
      destruct (refused mode (bool_decide (is_Some (t_get tt r)))) eqn:Eref; [exact IH|].
      destruct IH as (rr & E1 & E2).
      exists (let? c' := rr in node bits (if c0 then cl else c') (if c0 then c' else cr)).
      cbn [t_ins]. rewrite strip_app. split.
      * rewrite E1. destruct rr as [c'|]; cbn [rbind]; [|reflexivity]. rewrite rebuild_step. destruct (node _ _ _); reflexivity.
      * destruct rr as [c'|]; cbn [rbind]; [|exact I].
        destruct (node bits (if c0 then cl else c') (if c0 then c' else cr)) as [c2|] eqn:En; [|exact I].
        apply node_iff in En. destruct En as [-> (C1 & C2 & C3)].
        inversion H as [|n' m' bits' l' x' cl' cr' a' b' H1 H2 H3 H4 HL HRR]; subst.
        assert (m' = m) as -> by lia.
        destruct HW as (W1 & W2 & W3 & W4). pose proof (W2 _ H3) as ->. cbn [fst snd] in *.
        destruct c0; injection Ect as <- <-;
          apply (Rep_fork R _ m bits l ([], [])); cbn [fst snd]; try assumption; try (apply W4; assumption); lia.
  - (* the key leaves the label *)
    assert (cpfx key (lbl t) = p) as -> by (rewrite Ek, Elb; apply cpfx_diverge).
    assert (L2 : length p < length (lbl t)) by (rewrite Elb, app_length; cbn [length]; lia).
    assert (t_get t key = None) as Hg.
    { apply get_strip. rewrite Ek, Elb, strip_app_l, strip_app. cbn [strip]. destruct z; reflexivity. }
    rewrite Hg. rewrite bool_decide_eq_false_2 by (intros [? ?]; discriminate).
    pose proof Hk as Hk'. rewrite Ek, app_length in Hk'. cbn [length] in Hk'.
    rewrite (proj2 (Nat.eqb_neq _ _)) by lia.
    rewrite (proj2 (Nat.ltb_lt _ _)) by lia.
    unfold refused. destruct (can_add mode); cbn [negb]; [|reflexivity].
    pose proof (split_edge_spec n t key (rest, refs) v p z ka lb Hn Hw Hc Ek Elb Hk) as SE.
    exists (split_edge fin (rest, refs) (lbl t) p key v). split.
    + unfold ins_rebuild. destruct (split_edge _ _ _ _ _); reflexivity.
    + assert (Et : t_ins t key v = t_split p t key v).
      { assert (S : strip (lbl t) key = None) by (rewrite Ek, Elb, strip_app_l, strip_app; cbn [strip]; destruct z; reflexivity).
        destruct t as [l w|l x a b]; cbn [t_ins lbl] in *; rewrite S; rewrite Ek, Elb, cpfx_diverge; reflexivity. }
      rewrite Et. exact SE.
Qed.
End W.
