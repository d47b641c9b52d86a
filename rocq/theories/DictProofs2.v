(** * Insertion: completeness on canonical dictionaries, whole operations; removal. *)
From Verif Require Import Err BitsProofs CellModel LabelModel LabelSpec LabelProofs DictModel DictSpec DictTree DictProofs.
Local Open Scope nat_scope.

Section W.
Context (fin : list bool -> list cell -> res unit).
Notation CR := (canonical_dict fin).
Notation cell_ok := (cell_ok fin).

Lemma Rep_canon_leaf n c l v : Rep CR n c (Leaf l v) ->
  c = Cell false (label_bits n l ++ fst v) (snd v) /\ cell_ok (label_bits n l ++ fst v) (snd v) /\ length l = n.
Proof.
  intros H. inversion H as [n' bits' l' v' H1 H2 H3|]; subst. apply canonical_label_eq in H1. destruct H1 as [-> _].
  split; [reflexivity|]. split; [exact H3|reflexivity].
Qed.
Lemma Rep_canon_fork n c l x a b : Rep CR n c (Fork l x a b) ->
  exists m cl cr, c = Cell false (label_bits n l) [cl; cr] /\ cell_ok (label_bits n l) [cl; cr] /\ x = ([], []) /\
    n = length l + S m /\ Rep CR m cl a /\ Rep CR m cr b.
Proof.
  intros H. inversion H as [|n' m bits l' x' cl cr a' b' H1 H2 H3 H4 HL HRR]; subst.
  cbn in H3. subst x. cbn [fst snd] in *. apply canonical_label_eq in H1. destruct H1 as [-> _]. rewrite app_nil_r in *.
  exists m, cl, cr. split; [reflexivity|]. split; [exact H4|]. auto.
Qed.

Lemma Rep_relabel_inv m c1 b t ch : has_content CR t ch -> Rep CR m c1 (relabel b t) ->
  c1 = Cell false (label_bits m b ++ fst ch) (snd ch) /\ cell_ok (label_bits m b ++ fst ch) (snd ch).
Proof.
  destruct t as [l v|l x ta tb]; cbn [has_content relabel].
  - intros ->. intros H. apply Rep_canon_leaf in H. tauto.
  - intros (m' & cl & cr & Ha & Hb & -> & -> & Hwa) H. apply Rep_canon_fork in H.
    destruct H as (m2 & cl' & cr' & -> & Hok & _ & Hm & Ha' & Hb').
    assert (m2 = m') as -> by (eapply wft_unique; [exact Hwa|eapply Rep_wft; exact Ha']).
    rewrite (Rep_canonical_det _ _ _ _ _ Ha Ha'), (Rep_canonical_det _ _ _ _ _ Hb Hb').
    cbn [fst snd]. rewrite app_nil_r. auto.
Qed.

Lemma split_edge_complete n t k ch v p x a b c' : n <= 1023 -> wft n t -> has_content CR t ch ->
  k = p ++ x :: a -> lbl t = p ++ negb x :: b -> length k = n ->
  Rep CR n c' (t_split p t k v) -> split_edge fin ch (lbl t) p k v = Ok c'.
Proof.
  intros Hn Hw Hc Ek El Hk HRep. subst k. rewrite (t_split_shape p x a b t v El) in HRep.
  unfold split_edge. rewrite El. cbv zeta.
  pose proof Hk as Hk'. rewrite app_length in Hk'. cbn [length] in Hk'.
  unfold skip_bits at 1. rewrite app_length. cbn [length]. rewrite (proj2 (Nat.ltb_ge _ _)) by lia. cbn [rbind].
  unfold skip_bits. rewrite app_length. cbn [length]. rewrite (proj2 (Nat.ltb_ge _ _)) by lia.
  rewrite drop_app. cbn [load_bit rbind].
  replace (length p + 1) with (S (length p)) by lia. destruct (diverge_shape p x a) as [-> _].
  assert (W : wft (length a) (relabel b t)).
  { eapply relabel_wft; [exact Hw|]. rewrite El, app_length. cbn [length]. lia. }
  assert (Lb : length b <= length a).
  { pose proof (lbl_le _ _ W) as L. destruct t; exact L. }
  assert (exists c1 c2, Rep CR (length a) c1 (relabel b t) /\ Rep CR (length a) c2 (Leaf a v) /\
    c' = Cell false (label_bits n p) (if x then [c1; c2] else [c2; c1]) /\
    cell_ok (label_bits n p) (if x then [c1; c2] else [c2; c1])) as (c1 & c2 & R1 & R2 & Ec' & Ok').
  { destruct x; apply Rep_canon_fork in HRep; destruct HRep as (m & cl & cr & -> & Hok & _ & Hm & Ha & Hb);
      assert (m = length a) as -> by lia; [exists cl, cr|exists cr, cl]; auto. }
  apply (Rep_relabel_inv _ _ _ _ _ Hc) in R1. destruct R1 as [-> R1].
  apply Rep_canon_leaf in R2. destruct R2 as (-> & R2 & _).
  rewrite (proj2 (make_leaf_iff fin b (length a) ch _ ltac:(lia) ltac:(lia)) (conj eq_refl R1)). cbn [rbind].
  rewrite (proj2 (make_leaf_iff fin a (length a) v _ ltac:(lia) ltac:(lia)) (conj eq_refl R2)). cbn [rbind].
  rewrite Hk'. destruct x; cbn [negb]; apply make_fork_iff; try lia; split; assumption.
Qed.

Lemma insert_loop_complete n c t key v mode fuel stack c' :
  n <= 1023 -> Rep CR n c t -> length key = n -> n < fuel ->
  refused mode (bool_decide (is_Some (t_get t key))) = false ->
  Rep CR n c' (t_ins t key v) ->
  ins_rebuild fin (insert_loop fin fuel c key v mode stack) = (let? c2 := rebuild fin stack c' in Ok (Some c2)).
Proof.
  pose proof (reads_canonical fin) as HR. pose proof (writes_canonical fin) as HW.
  revert n c t key stack c'. induction fuel as [|f IH]; intros n c t key stack c' Hn H Hk Hf Href Hc'; [lia|].
  pose proof (Rep_wft _ _ _ _ H) as Hw.
  destruct (Rep_inv CR n c t HR Hn H) as (bits & refs & rest & Ec & Es & El & Ht).
  pose proof (Rep_content fin CR HR HW _ _ _ _ _ _ H Hn Ec El) as Hc.
  cbn [insert_loop]. rewrite Es. cbn [rbind s_bits s_refs]. rewrite Hk, El. cbn [rbind].
  pose proof (lbl_le _ _ Hw) as Ll.
  destruct (key_label_cases key (lbl t) ltac:(lia)) as [[r Er]|(p & z & ka & lb & Ek & Elb)].
  - rewrite Er, cpfx_self_l. rewrite <- Er.
    destruct t as [l w|l x a b]; cbn [lbl t_get t_ins] in *.
    + destruct Ht as [Hl Hv]. assert (r = []) as ->.
      { destruct r; [reflexivity|]. subst key. rewrite app_length in Hk. cbn in Hk. lia. }
      rewrite app_nil_r in Er. subst key. rewrite strip_self in *.
      rewrite bool_decide_eq_true_2 in Href by (eexists; reflexivity).
      rewrite Hl, Nat.eqb_refl. unfold refused in Href. rewrite Href.
      apply Rep_canon_leaf in Hc'. destruct Hc' as (-> & Hok & _).
      rewrite (proj2 (make_leaf_iff fin l n v _ ltac:(lia) ltac:(lia)) (conj eq_refl Hok)). reflexivity.
    + destruct Ht as (m & cl & cr & Hm & Hrefs & Hrest & Ha & Hb). subst refs.
      destruct r as [|c0 r]; [subst key; rewrite app_nil_r in Hk; lia|].
      pose proof Hk as Hk'. rewrite Er, app_length in Hk'. cbn [length] in Hk'.
      rewrite (proj2 (Nat.eqb_neq _ _)) by lia. rewrite Nat.ltb_irrefl.
      pose proof (Rep_canon_fork _ _ _ _ _ _ H) as (m0 & cl0 & cr0 & Ec0 & Hok0 & -> & Hm0 & Ha0 & Hb0).
      subst c. injection Ec0 as -> -> ->. cbn [snd fst] in *. 
      cbn [c_refs length]. rewrite (proj2 (Nat.ltb_ge _ _)) by lia.
      unfold skip_bits. rewrite Hk, (proj2 (Nat.ltb_ge _ _)) by lia. cbn [rbind]. rewrite Er, drop_app. cbn [load_bit rbind].
      rewrite Er, strip_app in *.
      destruct c0; cbn [ref_at c_refs lookup list_lookup rbind].
      * apply Rep_canon_fork in Hc'. destruct Hc' as (m1 & cl1 & cr1 & -> & Hok1 & _ & Hm1 & Ha1 & Hb1).
        assert (m1 = m) as -> by lia.
        rewrite (IH m cr0 b r _ cr1) by (auto; lia). rewrite rebuild_step.
        assert (cl1 = cl0) as -> by (eapply Rep_canonical_det; eassumption).
        rewrite (proj2 (node_iff fin _ cl0 cr1 _) (conj eq_refl Hok1)). reflexivity.
      * apply Rep_canon_fork in Hc'. destruct Hc' as (m1 & cl1 & cr1 & -> & Hok1 & _ & Hm1 & Ha1 & Hb1).
        assert (m1 = m) as -> by lia.
        rewrite (IH m cl0 a r _ cl1) by (auto; lia). rewrite rebuild_step.
        assert (cr1 = cr0) as -> by (eapply Rep_canonical_det; eassumption).
        rewrite (proj2 (node_iff fin _ cl1 cr0 _) (conj eq_refl Hok1)). reflexivity.
  - assert (cpfx key (lbl t) = p) as -> by (rewrite Ek, Elb; apply cpfx_diverge).
    assert (L2 : length p < length (lbl t)) by (rewrite Elb, app_length; cbn [length]; lia).
    assert (t_get t key = None) as Hg.
    { apply get_strip. rewrite Ek, Elb, strip_app_l, strip_app. cbn [strip]. destruct z; reflexivity. }
    rewrite Hg in Href. rewrite bool_decide_eq_false_2 in Href by (intros [? ?]; discriminate).
    pose proof Hk as Hk'. rewrite Ek, app_length in Hk'. cbn [length] in Hk'.
    rewrite (proj2 (Nat.eqb_neq _ _)) by lia.
    rewrite (proj2 (Nat.ltb_lt _ _)) by lia.
    unfold refused in Href. rewrite Href.
    assert (Et : t_ins t key v = t_split p t key v).
    { assert (S : strip (lbl t) key = None) by (rewrite Ek, Elb, strip_app_l, strip_app; cbn [strip]; destruct z; reflexivity).
      destruct t as [l w|l x a b]; cbn [t_ins lbl] in *; rewrite S; rewrite Ek, Elb, cpfx_diverge; reflexivity. }
    rewrite Et in Hc'.
    rewrite (split_edge_complete n t key (rest, refs) v p z ka lb c' Hn Hw Hc Ek Elb Hk Hc'). reflexivity.
Qed.

(** ** The whole insertion *)
Lemma t_get_present t k : bool_decide (is_Some (t_get t k)) = bool_decide (is_Some (dmap (entries t) !! k)).
Proof. rewrite t_get_spec. reflexivity. Qed.

Lemma dict_insert_sound R n d es k v mode : reads R -> writes fin R -> n <= 1023 -> is_dict R n d es -> length k = n ->
  if refused mode (bool_decide (is_Some (dmap es !! k)))
  then dict_insert fin d k n v mode = Ok (false, d)
  else match dict_insert fin d k n v mode with
       | Ok (flag, d') => flag = true /\ exists es', is_dict R n d' es' /\ dmap es' = <[k := v]> (dmap es)
       | Err _ => True
       end.
Proof.
  intros HR HW Hn Hd Hk. unfold dict_insert. rewrite Hk, Nat.eqb_refl. cbn [negb].
  destruct d as [c|]; cbn [is_dict] in Hd.
  - apply hashmap_rep in Hd. destruct Hd as (t & H & ->). rewrite <- t_get_present.
    pose proof (insert_loop_spec fin R HR HW n c t k v mode (S n) [] Hn H Hk ltac:(lia)) as S.
    destruct (refused mode _); [rewrite S; reflexivity|].
    destruct S as (r & E & Hr). unfold ins_rebuild in E.
    destruct (insert_loop fin (S n) c k v mode []) as [[[leaf st]|]|]; cbn [rbind] in E |- *; [| |exact I].
    + destruct (rebuild fin st leaf) as [c2|]; cbn [rbind] in E |- *; [|exact I].
      destruct r as [c'|]; cbn [rbind rebuild] in E; [|discriminate]. injection E as <-. split; [reflexivity|].
      exists (entries (t_ins t k v)). split; [apply hashmap_rep; eexists; split; [exact Hr|reflexivity]|].
      apply (t_ins_map n); [eapply Rep_wft; exact H|exact Hk].
    + destruct r as [c'|]; cbn [rbind rebuild] in E; discriminate.
  - subst es. unfold dmap at 1. cbn [list_to_map foldr].
    rewrite bool_decide_eq_false_2 by (rewrite lookup_empty; intros [? ?]; discriminate). cbn [refused].
    destruct (can_add mode); cbn [negb]; [|reflexivity].
    destruct (make_leaf fin k n v) as [c|] eqn:E; cbn [rbind]; [|exact I].
    apply make_leaf_iff in E; [|lia|lia]. destruct E as [-> Hok]. split; [reflexivity|].
    exists [(k, v)]. split.
    + apply hashmap_rep. exists (Leaf k v). split; [|reflexivity].
      exact (Rep_relabel fin R HW n (Leaf [] v) v k eq_refl Hk Hn Hok).
    + reflexivity.
Qed.

(** ** Canonical dictionaries are determined by their map *)
Lemma Rep_map_unique n c c' t t' : Rep CR n c t -> Rep CR n c' t' -> dmap (entries t) = dmap (entries t') -> t = t' /\ c = c'.
Proof.
  intros H H' E.
  assert (t = t') as ->.
  { apply (t_ext n); [eapply Rep_wft; eassumption|eapply Rep_wft; eassumption
    |eapply (Rep_plain CR fin); [apply writes_canonical|eassumption]|eapply (Rep_plain CR fin); [apply writes_canonical|eassumption]|].
    intros k. rewrite <- !t_get_spec, E. reflexivity. }
  split; [reflexivity|]. eapply Rep_canonical_det; eassumption.
Qed.

Lemma dict_unique n d d' es es' : is_dict CR n d es -> is_dict CR n d' es' -> dmap es = dmap es' -> d = d' /\ es = es'.
Proof.
  assert (NE : forall n c es, hashmap CR n c es -> dmap es <> dmap []).
  { intros n0 c es0 H E. apply hashmap_rep in H. destruct H as (t & H & ->).
    destruct (t_nonempty _ _ (Rep_wft _ _ _ _ H)) as (k & v & G). rewrite <- t_get_spec, E in G.
    cbn in G. rewrite lookup_empty in G. discriminate. }
  destruct d as [c|], d' as [c'|]; cbn [is_dict]; intros H H' E.
  - apply hashmap_rep in H, H'. destruct H as (t & H & ->), H' as (t' & H' & ->).
    destruct (Rep_map_unique _ _ _ _ _ H H' E) as [-> ->]. auto.
  - subst es'. destruct (NE _ _ _ H E).
  - subst es. symmetry in E. destruct (NE _ _ _ H' E).
  - subst. auto.
Qed.

Lemma dict_insert_complete n d es k v mode d' es' : n <= 1023 -> is_dict CR n d es -> length k = n ->
  refused mode (bool_decide (is_Some (dmap es !! k))) = false ->
  is_dict CR n d' es' -> dmap es' = <[k := v]> (dmap es) ->
  dict_insert fin d k n v mode = Ok (true, d').
Proof.
  intros Hn Hd Hk Href Hd' Hm. unfold dict_insert. rewrite Hk, Nat.eqb_refl. cbn [negb].
  destruct d' as [c'|]; cbn [is_dict] in Hd'.
  2:{ subst es'. exfalso. assert (G : dmap [] !! k = Some v) by (rewrite Hm; apply lookup_insert).
      cbn in G. rewrite lookup_empty in G. discriminate. }
  apply hashmap_rep in Hd'. destruct Hd' as (t' & H' & ->).
  destruct d as [c|]; cbn [is_dict] in Hd.
  - apply hashmap_rep in Hd. destruct Hd as (t & H & ->). rewrite <- t_get_present in Href.
    pose proof (Rep_wft _ _ _ _ H) as Hw.
    assert (t' = t_ins t k v) as ->.
    { apply (t_ext n); [eapply Rep_wft; eassumption|apply t_ins_wft; assumption
      |eapply (Rep_plain CR fin); [apply writes_canonical|eassumption]| |].
      - pose proof (Rep_plain CR fin _ _ _ (writes_canonical fin) H) as P. clear -P. revert k.
        induction t as [l w|l x a IHa b IHb]; intros k; cbn [t_ins plain] in *.
        + destruct (strip l k); [exact I|]. unfold t_split. destruct (_ !! _) as [[]|]; cbn [plain relabel]; auto.
        + destruct P as (-> & Pa & Pb). destruct (strip l k) as [[|[] r]|]; cbn [plain]; auto.
          unfold t_split. destruct (_ !! _) as [[]|]; cbn [plain relabel]; auto.
      - intros q. rewrite <- !t_get_spec, Hm, (t_ins_map n) by assumption. reflexivity. }
    pose proof (insert_loop_complete n c t k v mode (S n) [] c' Hn H Hk ltac:(lia) Href H') as E.
    unfold ins_rebuild in E. cbn [rebuild rbind] in E.
    destruct (insert_loop fin (S n) c k v mode []) as [[[leaf st]|]|]; cbn [rbind] in E |- *; [|discriminate|discriminate].
    destruct (rebuild fin st leaf) as [c2|]; cbn [rbind] in E |- *; [|discriminate]. injection E as ->. reflexivity.
  - subst es. unfold dmap at 1 in Href. cbn [list_to_map foldr] in Href.
    rewrite bool_decide_eq_false_2 in Href by (rewrite lookup_empty; intros [? ?]; discriminate). cbn [refused] in Href.
    apply negb_false_iff in Href. rewrite Href.
    assert (t' = Leaf k v) as ->.
    { apply (t_ext n); [eapply Rep_wft; eassumption|exact Hk
      |eapply (Rep_plain CR fin); [apply writes_canonical|eassumption]|exact I|].
      intros q. rewrite <- !t_get_spec, Hm. reflexivity. }
    apply Rep_canon_leaf in H'. destruct H' as (-> & Hok & _).
    rewrite (proj2 (make_leaf_iff fin k n v _ ltac:(lia) Hn) (conj eq_refl Hok)). reflexivity.
Qed.

(** ** The owned insertion is the plain one plus the previous value *)
Lemma insert_owned_proj fuel c key v mode stack :
  insert_loop fin fuel c key v mode stack =
  (let? (o, st) := insert_owned_loop fin fuel c key v mode stack in
   Ok (match o with InsRefused _ => None | InsLeaf leaf _ => Some (leaf, st) end)).
Proof.
  revert c key stack. induction fuel as [|f IH]; intros c key stack; [reflexivity|].
  cbn [insert_loop insert_owned_loop]. destruct (as_slice c) as [rd|]; cbn [rbind]; [|reflexivity].
  destruct (read_label (length key) (s_bits rd)) as [[prefix rest]|]; cbn [rbind]; [|reflexivity].
  destruct (length (cpfx key prefix) =? length key).
  { destruct (negb (can_replace mode)); [reflexivity|]. destruct (make_leaf _ _ _ _); reflexivity. }
  destruct (length (cpfx key prefix) <? length prefix).
  { destruct (negb (can_add mode)); [reflexivity|]. destruct (split_edge _ _ _ _ _ _); reflexivity. }
  destruct (length (c_refs c) <? 2); [reflexivity|].
  destruct (skip_bits _ _) as [k|]; cbn [rbind]; [|reflexivity].
  destruct (load_bit k) as [[b k']|]; cbn [rbind]; [|reflexivity].
  destruct (ref_at b c) as [child|]; cbn [rbind]; [|reflexivity]. apply IH.
Qed.

Lemma insert_owned_prev R n c t key v mode fuel root stack : reads R ->
  n <= 1023 -> Rep R n c t -> length key = n -> n < fuel -> last_owner root stack = Ok c ->
  match insert_owned_loop fin fuel c key v mode stack with
  | Err _ => True
  | Ok (o, st) =>
    let prev := match o with InsRefused p | InsLeaf _ p => p end in
    match t_get t key with
    | None => prev = None
    | Some w => exists r c', prev = Some r /\ last_owner root st = Ok c' /\ r_apply r c' = w
    end
  end.
Proof.
  intros HR. revert n c t key stack. induction fuel as [|f IH]; intros n c t key stack Hn H Hk Hf Ho; [lia|].
  pose proof (Rep_wft _ _ _ _ H) as Hw.
  destruct (Rep_inv R n c t HR Hn H) as (bits & refs & rest & Ec & Es & El & Ht).
  cbn [insert_owned_loop]. rewrite Es. cbn [rbind s_bits s_refs]. rewrite Hk, El. cbn [rbind].
  destruct (read_label_suffix _ _ _ _ Hn El) as [e He].
  pose proof (lbl_le _ _ Hw) as Ll.
  destruct (key_label_cases key (lbl t) ltac:(lia)) as [[r Er]|(p & z & ka & lb & Ek & Elb)].
  - rewrite Er, cpfx_self_l. rewrite <- Er.
    destruct t as [l w|l x a b]; cbn [lbl t_get] in *.
    + destruct Ht as [Hl Hv]. assert (r = []) as ->.
      { destruct r; [reflexivity|]. subst key. rewrite app_length in Hk. cbn in Hk. lia. }
      rewrite app_nil_r in Er. subst key. rewrite strip_self, Hl, Nat.eqb_refl.
      assert (A : r_apply (s_range (Sl c rest refs)) c = w).
      { rewrite Hv. apply (range_apply c e); subst c; [exact He|reflexivity]. }
      destruct (negb (can_replace mode)).
      * eexists _, c. split; [reflexivity|]. split; [exact Ho|exact A].
      * destruct (make_leaf fin l n v); cbn [rbind]; [|exact I]. eexists _, c. split; [reflexivity|]. split; [exact Ho|exact A].
    + destruct Ht as (m & cl & cr & Hm & Hrefs & Hrest & Ha & Hb). subst refs.
      destruct r as [|c0 r]; [subst key; rewrite app_nil_r in Hk; lia|].
      pose proof Hk as Hk'. rewrite Er, app_length in Hk'. cbn [length] in Hk'.
      rewrite (proj2 (Nat.eqb_neq _ _)) by lia. rewrite Nat.ltb_irrefl.
      subst c. cbn [c_refs length]. rewrite (proj2 (Nat.ltb_ge _ _)) by lia.
      unfold skip_bits. rewrite Hk, (proj2 (Nat.ltb_ge _ _)) by lia. cbn [rbind]. rewrite Er, drop_app. cbn [load_bit rbind].
      rewrite strip_app. destruct c0; cbn [ref_at c_refs lookup list_lookup rbind].
      * apply (IH m); try assumption; try lia. reflexivity.
      * apply (IH m); try assumption; try lia. reflexivity.
  - assert (cpfx key (lbl t) = p) as -> by (rewrite Ek, Elb; apply cpfx_diverge).
    assert (L2 : length p < length (lbl t)) by (rewrite Elb, app_length; cbn [length]; lia).
    assert (t_get t key = None) as Hg.
    { apply get_strip. rewrite Ek, Elb, strip_app_l, strip_app. cbn [strip]. destruct z; reflexivity. }
    rewrite Hg. pose proof Hk as Hk'. rewrite Ek, app_length in Hk'. cbn [length] in Hk'.
    rewrite (proj2 (Nat.eqb_neq _ _)) by lia.
    rewrite (proj2 (Nat.ltb_lt _ _)) by lia.
    destruct (negb (can_add mode)); [reflexivity|]. destruct (split_edge _ _ _ _ _ _); cbn [rbind]; [reflexivity|exact I].
Qed.

(** Flag and new root of [dict_insert_owned] are those of [dict_insert]. *)
Lemma dict_insert_owned_proj R n d es k v mode : reads R -> n <= 1023 -> is_dict R n d es -> length k = n ->
  match dict_insert_owned fin d k n v mode with
  | Ok (flag, prev, d') => dict_insert fin d k n v mode = Ok (flag, d') /\
      match dmap es !! k with
      | None => prev = None
      | Some w => exists r c, prev = Some (r, c) /\ r_apply r c = w
      end
  | Err e => dict_insert fin d k n v mode = Err e
  end.
Proof.
  intros HR Hn Hd Hk. unfold dict_insert_owned, dict_insert. rewrite Hk, Nat.eqb_refl. cbn [negb].
  destruct d as [c|]; cbn [is_dict] in Hd.
  - apply hashmap_rep in Hd. destruct Hd as (t & H & ->). rewrite t_get_spec, insert_owned_proj.
    pose proof (insert_owned_prev R n c t k v mode (S n) c [] HR Hn H Hk ltac:(lia) eq_refl) as P.
    destruct (insert_owned_loop fin (S n) c k v mode []) as [[o st]|]; cbn [rbind]; [|reflexivity].
    destruct o as [p|leaf p].
    + destruct (t_get t k) as [w|].
      * destruct P as (r & c' & -> & E & A). rewrite E. cbn [rbind]. split; [reflexivity|]. exists r, c'. auto.
      * rewrite P. split; [reflexivity|reflexivity].
    + destruct (t_get t k) as [w|].
      * destruct P as (r & c' & -> & E & A). rewrite E. cbn [rbind]. destruct (rebuild fin st leaf); cbn [rbind]; [|reflexivity].
        split; [reflexivity|]. exists r, c'. auto.
      * rewrite P. destruct (rebuild fin st leaf); cbn [rbind]; [|reflexivity]. split; reflexivity.
  - subst es. destruct (can_add mode).
    + destruct (make_leaf fin k n v); cbn [rbind]; [|reflexivity]. split; [reflexivity|]. cbn. rewrite lookup_empty. reflexivity.
    + split; [reflexivity|]. cbn. rewrite lookup_empty. reflexivity.
Qed.
End W.
