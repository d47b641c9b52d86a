(** * Augmented dictionaries: whole operations. *)
From Verif Require Import Err BitsProofs CellModel LabelModel LabelSpec LabelProofs DictModel DictSpec DictTree DictProofs DictProofs2 DictProofs3 DictProofs4 DictExist SplitSpec SplitProofs.
From Verif Require Import ChunkSpec AugModel AugSpec AugProofs.
Local Open Scope nat_scope.

Section W.
Context (fin : list bool -> list cell -> res unit) (comb : chunk -> chunk -> res chunk).
Notation CR := (canonical_dict fin).

(** An optional root and its optional tree. *)
Definition AD (R : rules) (n : nat) (d : option cell) (ot : option pt) : Prop :=
  match d, ot with
  | None, None => True
  | Some c, Some t => exists x, ARep comb R n c x t
  | _, _ => False
  end.
Lemma AD_dict R n d es : is_aug_dict comb R n d es <-> exists ot, AD R n d ot /\ es = oentries ot.
Proof.
  destruct d as [c|]; cbn [is_aug_dict AD].
  - split.
    + intros (x & H). apply aug_rep in H. destruct H as (t & H & ->). exists (Some t). split; [eauto|reflexivity].
    + intros ([t|] & H & ->); [|destruct H]. destruct H as (x & H). exists x. apply aug_rep. eauto.
  - split; [intros ->; exists None; auto|]. intros ([t|] & H & ->); [destruct H|reflexivity].
Qed.
Definition owft n (ot : option pt) : Prop := match ot with Some t => wft n t | None => True end.
Definition oplain (ot : option pt) : Prop := match ot with Some t => plain t | None => True end.
Definition oget (ot : option pt) (k : list bool) : option chunk := match ot with Some t => t_get t k | None => None end.
Lemma oget_spec ot k : dmap (oentries ot) !! k = oget ot k.
Proof. destruct ot; [apply t_get_spec|]. reflexivity. Qed.
Lemma AD_wft R n d ot : AD R n d ot -> owft n ot /\ oplain ot.
Proof.
  destruct d, ot; cbn [AD]; try (intros []; fail); [|intros _; split; exact I].
  intros (x & H). split; [eapply ARep_wft|eapply ARep_plain]; exact H.
Qed.
Lemma o_ext n ot ot' : owft n ot -> owft n ot' -> oplain ot -> oplain ot' ->
  dmap (oentries ot) = dmap (oentries ot') -> ot = ot'.
Proof.
  intros W W' P P' E.
  assert (G : forall k, oget ot k = oget ot' k) by (intros k; rewrite <- !oget_spec, E; reflexivity).
  destruct ot as [t|], ot' as [t'|]; cbn [owft oplain oget] in *.
  - f_equal. apply (t_ext n); assumption.
  - destruct (t_nonempty _ _ W) as (k & v & K). rewrite G in K. discriminate.
  - destruct (t_nonempty _ _ W') as (k & v & K). rewrite <- G in K. discriminate.
  - reflexivity.
Qed.
Lemma AD_det n d d' ot : AD CR n d ot -> AD CR n d' ot -> d = d'.
Proof.
  destruct d, d', ot; cbn [AD]; try tauto. intros (x & H) (x' & H'). destruct (ARep_det fin comb _ _ _ _ _ _ H H'). congruence.
Qed.
Lemma aug_unique n d d' es es' : is_aug_dict comb CR n d es -> is_aug_dict comb CR n d' es' -> dmap es = dmap es' -> d = d' /\ es = es'.
Proof.
  intros H H' E. apply AD_dict in H, H'. destruct H as (ot & H & ->), H' as (ot' & H' & ->).
  destruct (AD_wft _ _ _ _ H) as [W P], (AD_wft _ _ _ _ H') as [W' P'].
  assert (ot = ot') as -> by (apply (o_ext n); assumption). split; [|reflexivity]. eapply AD_det; eassumption.
Qed.

(** The outcome of an operation that should leave the map [m]. *)
Definition gives (R : rules) (n : nat) (r : res (option cell)) (m : gmap (list bool) chunk) : Prop :=
  match r with
  | Ok d => exists es, is_aug_dict comb R n d es /\ dmap es = m
  | Err _ => R = CR -> forall d es, is_aug_dict comb R n d es -> dmap es <> m
  end.
Lemma out_gives R n r t m : out fin comb R n r t -> wft n t -> plain t -> dmap (entries t) = m ->
  gives R n (let? c := r in Ok (Some c)) m.
Proof.
  destruct r as [c|]; cbn [out rbind gives]; intros H W P E.
  - exists (entries t). split; [|exact E]. destruct H as (x & H). exists x. apply aug_rep. eauto.
  - intros EC d es Hd Hm. apply AD_dict in Hd. destruct Hd as (ot & Hd & ->).
    destruct (AD_wft _ _ _ _ Hd) as [W' P'].
    assert (ot = Some t) as -> by (apply (o_ext n); try assumption; cbn [oentries]; congruence).
    destruct d as [c|]; [|destruct Hd]. destruct Hd as (x & Hd). exact (H EC c x Hd).
Qed.

Context (R : rules) (HR : reads R) (HW : awrites fin R).

(** An extra that cannot be stored: the same keys are refused, everything else fails. *)
Lemma bad_leaf k n e v : exists e', make_leaf_with_extra fin k n (Err e) v = Err e'.
Proof. unfold make_leaf_with_extra. destruct (write_label k n []); cbn [rbind]; eauto. Qed.
Lemma bad_split ch l p k e v : exists e', split_aug_edge fin comb ch l p k (Err e) v = Err e'.
Proof.
  unfold split_aug_edge. cbv zeta. destruct (skip_bits _ k) as [k'|]; cbn [rbind]; [|eauto].
  destruct (load_bit _) as [[z q]|]; cbn [rbind]; [|eauto]. destruct (make_leaf fin q (length k') ch); cbn [rbind]; [|eauto].
  destruct (bad_leaf k' (length k') e v) as (e' & ->). cbn [rbind]. eauto.
Qed.
Lemma bad_loop ex e v mode : forall fuel c k st,
  match aug_insert_loop fin comb fuel c k (Ok ex) v mode st with
  | Ok None => aug_insert_loop fin comb fuel c k (Err e) v mode st = Ok None
  | _ => exists e', aug_insert_loop fin comb fuel c k (Err e) v mode st = Err e'
  end.
Proof.
  induction fuel as [|fuel IH]; intros c k st; cbn [aug_insert_loop]; [eauto|].
  destruct (as_slice c) as [rd|]; cbn [rbind]; [|eauto]. destruct (read_label _ _) as [[pre rest]|]; cbn [rbind]; [|eauto].
  destruct (_ =? _).
  - destruct (negb _); [reflexivity|]. destruct (bad_leaf pre (length k) e v) as (e' & ->). cbn [rbind].
    destruct (make_leaf_with_extra _ _ _ _ _); cbn [rbind]; eauto.
  - destruct (_ <? _).
    + destruct (negb _); [reflexivity|]. destruct (bad_split (rest, s_refs rd) pre (cpfx k pre) k e v) as (e' & ->). cbn [rbind].
      destruct (split_aug_edge _ _ _ _ _ _ _ _); cbn [rbind]; eauto.
    + destruct (_ <? _); [eauto|]. destruct (skip_bits _ k) as [k1|]; cbn [rbind]; [|eauto]. destruct (load_bit k1) as [[b k2]|]; cbn [rbind]; [|eauto].
      destruct (ref_at b c); cbn [rbind]; [|eauto]. apply IH.
Qed.
Lemma bad_insert ex e d k n v mode :
  match aug_dict_insert fin comb d k n (Ok ex) v mode with
  | Ok (false, d') => aug_dict_insert fin comb d k n (Err e) v mode = Ok (false, d')
  | _ => exists e', aug_dict_insert fin comb d k n (Err e) v mode = Err e'
  end.
Proof.
  unfold aug_dict_insert. destruct (negb (length k =? n)); [eauto|]. destruct d as [c|].
  - pose proof (bad_loop ex e v mode (S (length k)) c k []) as L.
    destruct (aug_insert_loop fin comb (S (length k)) c k (Ok ex) v mode []) as [[[leaf st]|]|]; cbn [rbind].
    + destruct L as (e' & ->). cbn [rbind]. destruct (aug_rebuild _ _ _ _); cbn [rbind]; eauto.
    + rewrite L. reflexivity.
    + destruct L as (e' & ->). cbn [rbind]. eauto.
  - destruct (can_add mode); [|reflexivity]. destruct (bad_leaf k n e v) as (e' & ->). cbn [rbind]. destruct (make_leaf_with_extra _ _ _ _ _); cbn [rbind]; eauto.
Qed.

Lemma aug_insert_gives n d es k ex v mode : n <= 1023 -> is_aug_dict comb R n d es -> length k = n ->
  if refused mode (bool_decide (is_Some (dmap es !! k)))
  then aug_dict_insert fin comb d k n (Ok ex) v mode = Ok (false, d)
  else exists r, aug_dict_insert fin comb d k n (Ok ex) v mode = (let? d' := r in Ok (true, d')) /\
         gives R n r (<[k := capp ex v]> (dmap es)).
Proof.
  intros Hn Hd Hk. unfold aug_dict_insert. rewrite Hk, Nat.eqb_refl. cbn [negb].
  destruct d as [c|]; cbn [is_aug_dict] in Hd.
  - destruct Hd as (x & Hd). apply aug_rep in Hd. destruct Hd as (t & H & ->). rewrite <- t_get_present.
    pose proof (aug_insert_loop_spec fin comb R HR HW n c x t k ex v mode (S n) [] Hn H Hk ltac:(lia)) as S.
    destruct (refused mode _); [rewrite S; reflexivity|].
    destruct S as (r & E & Hr). unfold ains_rebuild in E. cbn [aug_rebuild rbind] in E.
    exists (let? c := r in Ok (Some c)). split.
    + destruct (aug_insert_loop fin comb (S n) c k (Ok ex) v mode []) as [[[leaf st]|]|]; cbn [rbind] in E |- *.
      * destruct (aug_rebuild fin comb st leaf) as [c2|]; cbn [rbind] in E |- *; destruct r; cbn [rbind] in E |- *; congruence.
      * destruct r; cbn [rbind] in E; discriminate.
      * destruct r; cbn [rbind] in E |- *; congruence.
    + pose proof (ARep_wft _ _ _ _ _ _ H) as Hw. pose proof (ARep_plain _ _ _ _ _ _ H) as Hp.
      eapply out_gives; [exact Hr|apply t_ins_wft; assumption|apply plain_ins; assumption|].
      apply (t_ins_map n); assumption.
  - subst es. unfold dmap at 1. cbn [list_to_map foldr].
    rewrite bool_decide_eq_false_2 by (rewrite lookup_empty; intros [? ?]; discriminate). cbn [refused].
    destruct (can_add mode); cbn [negb]; [|reflexivity].
    exists (let? c := make_leaf_with_extra fin k n (Ok ex) v in Ok (Some c)).
    split; [destruct (make_leaf_with_extra _ _ _ _ _); reflexivity|].
    eapply out_gives; [eapply outx_out, leaf_extra_out; [exact HW|exact Hk|exact Hn]|exact Hk|exact I|]. reflexivity.
Qed.

Lemma aug_remove_gives n d es k sub : n <= 1023 -> is_aug_dict comb R n d es -> length k = n ->
  match dmap es !! k with
  | None => aug_dict_remove_owned fin comb d k n sub = Ok (None, d)
  | Some v =>
    exists r, gives R n r (delete k (dmap es)) /\
    match r with
    | Ok d' => exists rg c, aug_dict_remove_owned fin comb d k n sub = Ok (Some (rg, c), d') /\ r_apply rg c = v
    | Err e => aug_dict_remove_owned fin comb d k n sub = Err e
    end
  end.
Proof.
  intros Hn Hd Hk. unfold aug_dict_remove_owned. rewrite Hk, Nat.eqb_refl. cbn [negb]. rewrite andb_false_r.
  destruct d as [c|]; cbn [is_aug_dict] in Hd; [|subst es; cbn; rewrite lookup_empty; reflexivity].
  destruct Hd as (x & Hd). apply aug_rep in Hd. destruct Hd as (t & H & ->). rewrite t_get_spec.
  pose proof (aug_find_remove_spec fin comb R HR HW n c x t k (S n) n [] Hn H Hk ltac:(lia)) as S.
  pose proof (ARep_wft _ _ _ _ _ _ H) as Hw. pose proof (t_rem_map n t k Hw) as M. pose proof (ARep_plain _ _ _ _ _ _ H) as Hp.
  destruct (t_get t k) as [v|]; [|rewrite S; reflexivity].
  destruct (t_rem t k) as [t'|] eqn:Et; cbn [oentries] in M.
  - destruct S as (r & res & E1 & E2 & E3). unfold arem_out in E1. cbn [aug_rebuild rbind] in E1.
    exists (let? (_, c1) := res in Ok (Some c1)). split.
    + replace (let? (_, c1) := res in Ok (Some c1)) with (let? c := (let? (_, c1) := res in Ok c1) in Ok (Some c)) by (destruct res as [[]|]; reflexivity).
      eapply out_gives; [exact E3|eapply t_rem_wft; eassumption|eapply plain_rem; eassumption|exact M].
    + destruct (find_remove_loop (Datatypes.S n) c k n []) as [[[[[[|last st] r'] pl] k']|]|]; cbn [rbind] in E1 |- *.
      * destruct res as [[value c1]|]; discriminate.
      * destruct (rebuild_as_removed fin last (length k') pl) as [[leaf value]|]; cbn [rbind] in E1 |- *.
        2:{ destruct res as [[value c1]|]; [discriminate|]. cbn [rbind] in E1 |- *. congruence. }
        destruct (aug_rebuild fin comb st leaf) as [c2|]; cbn [rbind] in E1 |- *.
        2:{ destruct res as [[value' c1]|]; [discriminate|]. cbn [rbind] in E1 |- *. congruence. }
        destruct res as [[value' c1]|]; cbn [rbind] in E1 |- *; [|discriminate]. injection E1 as -> -> ->.
        exists r, value'. split; [reflexivity|]. eapply E2. reflexivity.
      * destruct res as [[value c1]|]; discriminate.
      * destruct res as [[value c1]|]; [discriminate|]. cbn [rbind] in E1 |- *. congruence.
  - destruct S as (r & E1 & E2). rewrite E1. cbn [rbind]. exists (Ok None). split.
    + exists []. split; [reflexivity|exact M].
    + exists r, c. split; [reflexivity|exact E2].
Qed.

(** ** Splitting *)
Lemma rebuild_branch_out p n m c x t bit refs : n <= 1023 -> n = length p + S m -> ARep comb R m c x t ->
  exists r, rebuild_branch fin p n m (c :: refs) bit = (let? c' := r in Ok (c', refs)) /\
    outx fin comb R n r x (relabel (p ++ bit :: lbl t) t).
Proof.
  intros Hn Hm H. destruct (ARep_inv comb R HR m c x t ltac:(lia) H) as (bits & crefs & rest & Ec & _ & El & Hc & _).
  pose proof (ARep_wft _ _ _ _ _ _ H) as Hw. pose proof (lbl_le _ _ Hw) as Hl.
  assert (W : wft n (relabel (p ++ bit :: lbl t) t)).
  { eapply relabel_wft; [exact Hw|]. rewrite app_length. cbn [length]. lia. }
  pose proof (rebuild_branch_iff fin p n m c t bit refs Hn Hm bits crefs rest Ec El Hw) as K.
  pose proof (leaf_out fin comb R HW n t (rest, crefs) x _ Hc W Hn) as O.
  destruct (rebuild_branch fin p n m (c :: refs) bit) as [[c' rf]|e] eqn:E.
  - destruct (proj1 (K _) eq_refl) as (c1 & [= -> ->] & M). exists (Ok c1). rewrite M in O. split; [reflexivity|exact O].
  - exists (Err e). split; [reflexivity|]. cbn [outx].
    destruct (make_leaf fin (p ++ bit :: lbl t) n (rest, crefs)) as [c1|] eqn:M; [|exact O].
    assert (X : Err e = Ok (c1, refs)) by (apply K; exists c1; auto). discriminate X.
Qed.

Definition gives2 (n : nat) (r : res (option cell * option cell)) (ml mr : gmap (list bool) chunk) : Prop :=
  match r with
  | Ok (l, d) => (exists es, is_aug_dict comb R n l es /\ dmap es = ml) /\ (exists es, is_aug_dict comb R n d es /\ dmap es = mr)
  | Err _ => R = CR -> ~ ((exists l es, is_aug_dict comb R n l es /\ dmap es = ml) /\ (exists d es, is_aug_dict comb R n d es /\ dmap es = mr))
  end.
Lemma aug_split_gives n d es p : n <= 1023 -> length p < n -> is_aug_dict comb R n d es ->
  (forall k v, dmap es !! k = Some v -> p `prefix_of` k) ->
  gives2 n (dict_split_by_prefix fin d n p) (part (p ++ [false]) (dmap es)) (part (p ++ [true]) (dmap es)).
Proof.
  intros Hn Hp Hd Hall. unfold dict_split_by_prefix. destruct (Nat.eqb_spec n 0) as [->|N0]; [lia|].
  destruct d as [c|]; cbn [is_aug_dict] in Hd.
  2:{ subst es. split; exists []; (split; [reflexivity|]); symmetry; apply map_filter_empty. }
  pose proof Hd as Hd0. destruct Hd as (x & Hd). apply aug_rep in Hd. destruct Hd as (t & Ht & ->). pose proof (ARep_wft _ _ _ _ _ _ Ht) as Hw.
  pose proof (ARep_plain _ _ _ _ _ _ Ht) as Hpl.
  destruct (ARep_inv comb R HR n c x t Hn Ht) as (bits & refs & rest & Ec & Es & El & Hc & Hsh). rewrite Es. cbn [rbind s_bits s_refs].
  rewrite El. cbn [rbind].
  destruct (prefix_of_all n t p Hw) as [w Hw']; [intros k v G; apply (Hall k v); rewrite t_get_spec; exact G|].
  rewrite Hw', strip_app. destruct w as [|b w].
  - rewrite app_nil_r in *. destruct (Nat.ltb_spec n (length p + 1)); [lia|].
    destruct t as [l0 v|l0 y a b]; cbn [lbl wft] in *; [subst; lia|]. subst l0. destruct Hsh as (m & cl & cr & xa & xb & Hm & -> & -> & Ha & Hb & _).
    replace (n - (length p + 1)) with m by lia. cbn [plain] in Hpl. destruct Hpl as (-> & Pa & Pb).
    destruct (rebuild_branch_out p n m cl xa a false (cr :: snd x) Hn Hm Ha) as (r1 & E1 & O1).
    destruct (rebuild_branch_out p n m cr xb b true (snd x) Hn Hm Hb) as (r2 & E2 & O2).
    rewrite E1.
    assert (G1 : gives R n (let? c := r1 in Ok (Some c)) (part (p ++ [false]) (dmap (entries (Fork p ([], []) a b))))).
    { eapply out_gives; [eapply outx_out, O1| | |].
      - eapply relabel_wft; [eapply ARep_wft, Ha|]. rewrite app_length. cbn [length]. lia.
      - destruct a; exact Pa.
      - apply map_eq. intros k. rewrite t_get_spec. symmetry. apply (part_fork p _ a b false). }
    assert (G2 : gives R n (let? c := r2 in Ok (Some c)) (part (p ++ [true]) (dmap (entries (Fork p ([], []) a b))))).
    { eapply out_gives; [eapply outx_out, O2| | |].
      - eapply relabel_wft; [eapply ARep_wft, Hb|]. rewrite app_length. cbn [length]. lia.
      - destruct b; exact Pb.
      - apply map_eq. intros k. rewrite t_get_spec. symmetry. apply (part_fork p _ a b true). }
    destruct r1 as [c1|]; cbn [rbind gives gives2] in *.
    2:{ intros EC [(l & el & D1 & D2) _]. exact (G1 EC l el D1 D2). }
    rewrite E2. destruct r2 as [c2|]; cbn [rbind gives gives2] in *.
    2:{ intros EC [_ (l & el & D1 & D2)]. exact (G2 EC l el D1 D2). }
    split; assumption.
  - assert (D1 : is_aug_dict comb R n (Some c) (entries t)) by exact Hd0.
    assert (D2 : is_aug_dict comb R n None []) by reflexivity.
    destruct b; cbn [gives2].
    + split; [exists []|exists (entries t)]; (split; [assumption|]).
      * symmetry. exact (part_none t p false w Hw').
      * symmetry. apply part_label. exists w. rewrite Hw', <- app_assoc. reflexivity.
    + split; [exists (entries t)|exists []]; (split; [assumption|]).
      * symmetry. apply part_label. exists w. rewrite Hw', <- app_assoc. reflexivity.
      * symmetry. exact (part_none t p true w Hw').
Qed.

(** ** Merging *)
Lemma skip_if t l (refs : list cell) ch x m : acont comb R t ch x -> wft m (relabel l t) ->
  (if length l <? m then skip_refs 2 (snd ch) else Ok (snd ch)) = Ok (snd x) /\ fst ch = fst x.
Proof.
  destruct t as [l0 v|l0 y a b]; cbn [acont relabel wft].
  - intros [-> ->] <-. rewrite Nat.ltb_irrefl. auto.
  - intros (_ & m' & cl & cr & xa & xb & _ & _ & _ & ->) (m2 & -> & _). rewrite (proj2 (Nat.ltb_lt _ _)) by lia.
    unfold skip_refs. cbn [length fst snd]. rewrite (proj2 (Nat.ltb_ge _ _)) by lia. auto.
Qed.
Lemma aug_merge_gives n l r el er p : n <= 1023 -> is_aug_dict comb R n l el -> is_aug_dict comb R n r er ->
  (forall k v, dmap el !! k = Some v -> (p ++ [false]) `prefix_of` k) ->
  (forall k v, dmap er !! k = Some v -> (p ++ [true]) `prefix_of` k) ->
  gives R n (aug_dict_merge_siblings fin comb l r n) (dmap el ∪ dmap er).
Proof.
  intros Hn Hl Hr Al Ar. unfold aug_dict_merge_siblings. destruct l as [c1|], r as [c2|]; cbn [is_aug_dict] in Hl, Hr.
  - destruct Hl as (x1 & Hl), Hr as (x2 & Hr). apply aug_rep in Hl, Hr. destruct Hl as (t1 & H1 & ->), Hr as (t2 & H2 & ->).
    pose proof (ARep_wft _ _ _ _ _ _ H1) as W1. pose proof (ARep_wft _ _ _ _ _ _ H2) as W2.
    pose proof (lbl_le _ _ W1) as Hl1. pose proof (lbl_le _ _ W2) as Hl2.
    destruct (prefix_of_all n t1 (p ++ [false]) W1) as [l1 E1]; [intros k v G; apply (Al k v); rewrite t_get_spec; exact G|].
    destruct (prefix_of_all n t2 (p ++ [true]) W2) as [l2 E2]; [intros k v G; apply (Ar k v); rewrite t_get_spec; exact G|].
    rewrite <- app_assoc in E1, E2. cbn [app] in E1, E2.
    destruct (ARep_inv comb R HR n c1 x1 t1 Hn H1) as (bits1 & refs1 & rest1 & Ec1 & _ & El1 & C1 & _).
    destruct (ARep_inv comb R HR n c2 x2 t2 Hn H2) as (bits2 & refs2 & rest2 & Ec2 & _ & El2 & C2 & _).
    set (T := Fork p ([], []) (relabel l1 t1) (relabel l2 t2)).
    set (k := n - 1 - length p).
    assert (L1 : length (lbl t1) = length p + S (length l1)) by (rewrite E1, app_length; reflexivity).
    assert (L2 : length (lbl t2) = length p + S (length l2)) by (rewrite E2, app_length; reflexivity).
    assert (V1 : wft k (relabel l1 t1)) by (eapply relabel_wft; [eassumption|]; lia).
    assert (V2 : wft k (relabel l2 t2)) by (eapply relabel_wft; [eassumption|]; lia).
    eapply (out_gives R n _ T).
    + unfold aug_merge_sibling_roots. subst c1 c2. cbn [as_slice c_exotic c_bits c_refs rbind s_bits s_refs].
      rewrite El1. cbn [rbind]. rewrite El2. cbn [rbind]. rewrite E1, E2.
      assert (C : cpfx (p ++ false :: l1) (p ++ true :: l2) = p) by apply (cpfx_diverge p false). rewrite C.
      rewrite !app_length. cbn [length].
      destruct (Nat.eqb_spec (Nat.min (length p + S (length l1)) (length p + S (length l2))) 0); [lia|].
      rewrite (proj2 (Nat.leb_gt (Nat.min (length p + S (length l1)) (length p + S (length l2))) (length p))) by lia.
      rewrite (proj2 (Nat.ltb_ge n (length p + 1))) by lia. cbn [orb].
      unfold skip_bits. rewrite !app_length. cbn [length].
      rewrite (proj2 (Nat.ltb_ge (length p + S (length l1)) (length p))) by lia. cbn [rbind].
      rewrite (proj2 (Nat.ltb_ge (length p + S (length l2)) (length p))) by lia. cbn [rbind].
      rewrite !drop_app. cbn [load_bit rbind orb negb]. fold k.
      pose proof (leaf_out fin comb R HW k t1 _ _ l1 C1 V1 ltac:(lia)) as O1.
      pose proof (leaf_out fin comb R HW k t2 _ _ l2 C2 V2 ltac:(lia)) as O2.
      destruct (skip_if t1 l1 refs1 _ _ k C1 V1) as [S1 F1], (skip_if t2 l2 refs2 _ _ k C2 V2) as [S2 F2].
      cbn [fst snd] in S1, S2, F1, F2.
      destruct (make_leaf fin l1 k (rest1, refs1)) as [lf|]; cbn [rbind outx] in *.
      2:{ refine (no_left fin comb R n p _ _ _ _). intros EC m c y Hm. assert (m = k) as -> by lia. apply O1, EC. }
      destruct (make_leaf fin l2 k (rest2, refs2)) as [rt|]; cbn [rbind outx] in *.
      2:{ refine (no_right fin comb R n p _ _ _ _). intros EC m c y Hm. assert (m = k) as -> by lia. apply O2, EC. }
      rewrite S1. rewrite S2. rewrite F1, F2. cbn [rbind]. rewrite <- !surjective_pairing.
      eapply (fork_out fin comb R HR HW n p k lf rt x1 x2); [exact Hn|lia|exact O1|exact O2].
    + cbn [T wft]. exists k. split; [lia|auto].
    + cbn [T plain]. pose proof (ARep_plain _ _ _ _ _ _ H1) as P1. pose proof (ARep_plain _ _ _ _ _ _ H2) as P2.
      split; [reflexivity|]. split; [destruct t1; exact P1|destruct t2; exact P2].
    + apply (merge_map n); assumption.
  - subst er. exists el. split; [exact Hl|]. symmetry. apply (right_id_L ∅ (∪)).
  - subst el. exists er. split; [exact Hr|]. symmetry. apply (left_id_L ∅ (∪)).
  - subst. exists []. split; [reflexivity|]. symmetry. apply (left_id_L ∅ (∪)).
Qed.
End W.
