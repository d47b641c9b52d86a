(** * Augmented dictionaries: typed operations. *)
From Verif Require Import Err BitsProofs CellModel LabelModel LabelSpec LabelProofs DictModel DictSpec DictTree DictProofs DictProofs2 DictProofs3 DictProofs4 DictOrder DictExist SplitSpec SplitProofs.
From Verif Require Import ChunkSpec AugModel AugSpec AugProofs AugProofs2.
Local Open Scope nat_scope.

Section T.
Context (fin : list bool -> list cell -> res unit).
Context {A : Type} (a_store : A -> res chunk) (a_load : chunk -> res (A * chunk)) (a_add : A -> A -> res A) (a_default : A).
Context (LS : loads_stored a_store a_load).
Notation comb := (comp_add a_store a_load a_add).
Notation CR := (canonical_dict fin).
Notation aholds := (aholds a_store).
Notation aug_state := (aug_state a_store a_load a_add a_default).

Lemma comb_eq : (fun x y => let? (a, _) := a_load x in let? (b, _) := a_load y in let? c := a_add a b in a_store c) = comb.
Proof. reflexivity. Qed.

(** ** Typed and raw maps *)
Definition enc_ok (m : gmap (list bool) (A * chunk)) (cm : gmap (list bool) chunk) : Prop :=
  forall k, match m !! k with
            | Some p => exists ex, a_store (fst p) = Ok ex /\ cm !! k = Some (capp ex (snd p))
            | None => cm !! k = None
            end.
Lemma enc_lists l es : Forall2 aholds l es -> enc_ok (list_to_map l) (dmap es).
Proof.
  induction 1 as [|[k p] [k' ch] l es [E (ex & E1 & E2)] F IH]; intros q; cbn [fst snd] in *.
  - cbn. rewrite !lookup_empty. reflexivity.
  - subst k' ch. unfold dmap. cbn [list_to_map foldr fst snd]. destruct (decide (k = q)) as [<-|N].
    + rewrite !lookup_insert. eauto.
    + rewrite !lookup_insert_ne by exact N. exact (IH q).
Qed.
Lemma enc_build m es : NoDup (es.*1) -> enc_ok m (dmap es) -> exists l, Forall2 aholds l es /\ list_to_map l = m.
Proof.
  revert m. induction es as [|[k ch] es IH]; intros m ND E.
  - exists []. split; [constructor|]. symmetry. apply map_empty. intros k. specialize (E k). unfold dmap in E. cbn in E.
    destruct (m !! k); [|reflexivity]. destruct E as (ex & _ & E). rewrite lookup_empty in E. discriminate.
  - cbn [fmap list_fmap fst] in ND. apply NoDup_cons in ND. destruct ND as [NI ND].
    pose proof (E k) as Ek. unfold dmap in Ek. cbn [list_to_map foldr fst snd] in Ek. rewrite lookup_insert in Ek.
    destruct (m !! k) as [p|] eqn:Em; [|discriminate]. destruct Ek as (ex & E1 & [= ->]).
    destruct (IH (delete k m) ND) as (l & F & El).
    + intros q. destruct (decide (k = q)) as [<-|N].
      * rewrite lookup_delete. apply not_elem_of_list_to_map_1, NI.
      * rewrite lookup_delete_ne by exact N. specialize (E q). unfold dmap in E. cbn [list_to_map foldr fst snd] in E.
        rewrite lookup_insert_ne in E by exact N. exact E.
    + exists ((k, p) :: l). split; [constructor; [split; [reflexivity|eauto]|exact F]|].
      cbn [list_to_map foldr fst snd]. rewrite El. apply insert_delete. exact Em.
Qed.
Lemma enc_det m cm cm' : enc_ok m cm -> enc_ok m cm' -> cm = cm'.
Proof.
  intros E E'. apply map_eq. intros k. specialize (E k). specialize (E' k). destruct (m !! k); [|congruence].
  destruct E as (ex & E1 & ->), E' as (ex' & E1' & ->). congruence.
Qed.
Lemma enc_insert m cm k a v ex : enc_ok m cm -> a_store a = Ok ex -> enc_ok (<[k := (a, v)]> m) (<[k := capp ex v]> cm).
Proof.
  intros E Ex q. destruct (decide (k = q)) as [<-|N]; [rewrite !lookup_insert; eauto|].
  rewrite !lookup_insert_ne by exact N. apply E.
Qed.
Lemma enc_delete m cm k : enc_ok m cm -> enc_ok (delete k m) (delete k cm).
Proof.
  intros E q. destruct (decide (k = q)) as [<-|N]; [rewrite !lookup_delete; reflexivity|].
  rewrite !lookup_delete_ne by exact N. apply E.
Qed.
Lemma enc_present m cm k : enc_ok m cm -> bool_decide (is_Some (cm !! k)) = bool_decide (is_Some (m !! k)).
Proof.
  intros E. specialize (E k). apply bool_decide_ext. destruct (m !! k) as [p|].
  - destruct E as (ex & _ & ->). split; intros _; eauto.
  - rewrite E. split; intros [? ?]; discriminate.
Qed.

Definition tpart (p : list bool) (m : gmap (list bool) (A * chunk)) : gmap (list bool) (A * chunk) :=
  filter (fun kv => p `prefix_of` fst kv) m.
Lemma enc_part p m cm : enc_ok m cm -> enc_ok (tpart p m) (part p cm).
Proof.
  intros E q. specialize (E q). unfold tpart, part.
  destruct (decide (p `prefix_of` q)) as [D|D].
  - destruct (m !! q) as [x|] eqn:Em.
    + rewrite (map_filter_lookup_Some_2 _ _ _ _ Em D). destruct E as (ex & E1 & E2). exists ex. split; [exact E1|].
      apply map_filter_lookup_Some_2; [exact E2|exact D].
    + rewrite map_filter_lookup_None_2 by (left; exact Em). apply map_filter_lookup_None_2. left. exact E.
  - rewrite map_filter_lookup_None_2 by (right; intros x _ X; exact (D X)). apply map_filter_lookup_None_2. right. intros x _ X; exact (D X).
Qed.
Lemma enc_union m1 c1 m2 c2 : enc_ok m1 c1 -> enc_ok m2 c2 -> enc_ok (m1 ∪ m2) (c1 ∪ c2).
Proof.
  intros E1 E2 q. specialize (E1 q). specialize (E2 q). rewrite !lookup_union.
  destruct (m1 !! q) as [x|].
  - destruct E1 as (ex & A1 & ->). destruct (m2 !! q); cbn [union_with option_union_with]; exists ex; (split; [exact A1|]).
    + destruct E2 as (? & _ & ->). reflexivity.
    + rewrite E2. reflexivity.
  - rewrite E1. destruct (m2 !! q) as [y|]; [|rewrite E2; reflexivity]. destruct E2 as (ex & A2 & ->). exists ex. split; [exact A2|reflexivity].
Qed.

(** ** The root extra *)
Lemma holds_under p l es : Forall2 aholds l (under p es) -> exists l', l = agg_under p l' /\ Forall2 aholds l' es.
Proof.
  revert l. induction es as [|[k ch] es IH]; intros l F; cbn [under map] in F; inversion F as [|x y l0 es0 Hx F0]; subst.
  - exists []. split; [reflexivity|constructor].
  - destruct (IH _ F0) as (l' & -> & F'). destruct x as [k' p0]. destruct Hx as [E H]. cbn [fst snd] in *. subst k'.
    exists ((k, p0) :: l'). split; [reflexivity|]. constructor; [split; [reflexivity|exact H]|exact F'].
Qed.
Lemma root_agg R n c x es l : aug_hashmap comb R n c x es -> Forall2 aholds l es ->
  exists a rest, a_load x = Ok (a, rest) /\ agg a_add l a.
Proof.
  intros H. revert l. induction H as [n bits l0 v H1 H2 H3|n m bits l0 x cl cr xl xr el er H1 H2 H3 H4 HA IHA HB IHB]; intros l F.
  - inversion F as [|p y l1 es1 [E (ex & E1 & E2)] F0]; subst. inversion F0; subst. destruct p as [k [a w]]. cbn [fst snd] in *. subst k.
    exists a, w. split; [|constructor]. rewrite E2. apply LS, E1.
  - apply Forall2_app_inv_r in F. destruct F as (la & lb & Fa & Fb & ->).
    apply holds_under in Fa, Fb. destruct Fa as (la' & -> & Fa), Fb as (lb' & -> & Fb).
    destruct (IHA _ Fa) as (a & ra & Ea & Ga), (IHB _ Fb) as (b & rb & Eb & Gb).
    unfold comp_add in H3. rewrite Ea in H3. cbn [rbind] in H3. rewrite Eb in H3. cbn [rbind] in H3.
    destruct (a_add a b) as [c|] eqn:Ec; cbn [rbind] in H3; [|discriminate].
    exists c, ([], []). split; [|econstructor; eassumption].
    replace x with (capp x ([], [])) by (destruct x as [u w]; unfold capp; cbn; rewrite !app_nil_r; reflexivity).
    apply LS, H3.
Qed.

Section R.
Context (R : rules) (HR : reads R) (HW : awrites fin R).
Lemma aug_nodup n d es : is_aug_dict comb R n d es -> NoDup (es.*1).
Proof.
  destruct d as [c|]; cbn [is_aug_dict]; [|intros ->; constructor].
  intros (x & H). apply aug_rep in H. destruct H as (t & H & ->).
  rewrite <- (t_list_perm false false t). pose proof (t_list_sorted false false t) as S.
  induction S as [|e es S IH F]; cbn [fmap list_fmap]; constructor; [|exact IH].
  intros X. apply elem_of_list_fmap in X. destruct X as (e' & E & X). rewrite Forall_forall in F. specialize (F _ X).
  unfold edir in F. rewrite E in F. exact (kdir_irrefl _ _ _ F).
Qed.

(** A dictionary that holds [m] can be completed to a state, in one way. *)
Lemma state_of n root es m : n <= 1023 -> is_aug_dict comb R n root es -> enc_ok m (dmap es) ->
  exists a, root_extra_of a_load a_default root n = Ok a /\ aug_state R n root a m.
Proof.
  intros Hn H E. destruct (enc_build _ _ (aug_nodup _ _ _ H) E) as (l & F & El).
  destruct root as [c|]; cbn [is_aug_dict root_extra_of] in *.
  - destruct H as (x & H). destruct (root_agg _ _ _ _ _ _ H F) as (a & rest & Ea & _).
    pose proof H as H'. apply aug_rep in H'. destruct H' as (t & Ht & _).
    destruct (ARep_slice comb R HR n c x t Hn Ht) as (s & Es & _ & rs & rf & El1 & El2 & Ex).
    exists a. split.
    + rewrite Es. cbn [rbind]. rewrite El1. cbn [rbind]. rewrite El2. cbn [rbind]. rewrite <- Ex, Ea. reflexivity.
    + exists (Some x), es, l. split; [exact H|]. split; [exact F|]. split; [symmetry; exact El|]. eauto.
  - subst es. exists a_default. split; [reflexivity|]. exists None, [], l. split; [reflexivity|]. split; [exact F|]. split; [symmetry; exact El|reflexivity].
Qed.
Lemma state_inv n d a m : aug_state R n d a m -> exists es, is_aug_dict comb R n d es /\ enc_ok m (dmap es).
Proof.
  intros (o & es & l & H & F & -> & _). exists es. split; [|apply enc_lists, F].
  destruct d, o; cbn [is_aug_root is_aug_dict] in *; try contradiction; [eauto|exact H].
Qed.

(** ** Updates *)
(** What an update that should leave the map [m] does; [d0] is the state before. *)
Definition updates {B} (n : nat) (d0 : aug_dict) (r : aug_dict * res B) (m : gmap (list bool) (A * chunk)) (b : B -> Prop) : Prop :=
  match snd r with
  | Ok x => b x /\ aug_state R n (ad_root (fst r)) (ad_extra (fst r)) m
  | Err _ => fst r = d0 /\ (R = CR -> forall root a, ~ aug_state R n root a m)
  end.
Lemma gives_not n r m cm : enc_ok m cm -> gives fin comb R n r cm -> forall e, r = Err e -> R = CR -> forall root a, ~ aug_state R n root a m.
Proof.
  intros E G e -> EC root a H. destruct (state_inv _ _ _ _ H) as (es & D & E'). cbn [gives] in G.
  exact (G EC root es D (enc_det _ _ _ E' E)).
Qed.

Lemma aug_insert_updates n d m k a v mode : n <= 1023 -> aug_state R n (ad_root d) (ad_extra d) m -> length k = n ->
  if refused mode (bool_decide (is_Some (m !! k)))
  then aug_insert fin comb a_store a_load a_default d k n a v mode = (d, Ok false)
  else updates n d (aug_insert fin comb a_store a_load a_default d k n a v mode) (<[k := (a, v)]> m) (fun b => b = true).
Proof.
  intros Hn H Hk. destruct (state_inv _ _ _ _ H) as (es & D & E). unfold aug_insert.
  destruct (a_store a) as [ex|e] eqn:Ea.
  - pose proof (aug_insert_gives fin comb R HR HW n (ad_root d) es k ex v mode Hn D Hk) as G.
    rewrite (enc_present _ _ _ E) in G. destruct (refused mode _).
    + rewrite G. destruct d; reflexivity.
    + destruct G as (r & -> & G). pose proof (enc_insert _ _ k a v ex E Ea) as E'.
      destruct r as [root|e]; cbn [rbind].
      * cbn [gives] in G. destruct G as (es' & D' & M'). rewrite <- M' in E'.
        destruct (state_of n root es' _ Hn D' E') as (x & X1 & X2). unfold set_root. rewrite X1.
        cbn [updates fst snd ad_root ad_extra]. auto.
      * unfold updates. cbn [fst snd]. split; [reflexivity|]. eapply gives_not; [exact E'|exact G|reflexivity].
  - pose proof (aug_insert_gives fin comb R HR HW n (ad_root d) es k ([], []) v mode Hn D Hk) as G.
    pose proof (bad_insert fin comb ([], []) e (ad_root d) k n v mode) as B.
    rewrite (enc_present _ _ _ E) in G. destruct (refused mode _).
    + rewrite G in B. rewrite B. destruct d; reflexivity.
    + destruct G as (r & G & _). rewrite G in B.
      assert (B' : exists e', aug_dict_insert fin comb (ad_root d) k n (Err e) v mode = Err e') by (destruct r; cbn [rbind] in B; exact B).
      destruct B' as (e' & ->). unfold updates. cbn [fst snd]. split; [reflexivity|].
      intros _ root x Hs. destruct (state_inv _ _ _ _ Hs) as (es' & _ & E'). specialize (E' k). rewrite lookup_insert in E'.
      destruct E' as (ex & E' & _). cbn [fst] in E'. congruence.
Qed.

Lemma aug_remove_updates n d m k : n <= 1023 -> aug_state R n (ad_root d) (ad_extra d) m -> length k = n ->
  match m !! k with
  | None => aug_remove fin comb a_load a_default d k n = (d, Ok None)
  | Some p => updates n d (aug_remove fin comb a_load a_default d k n) (delete k m)
      (fun o => exists rg c ex, o = Some (rg, c) /\ a_store (fst p) = Ok ex /\ r_apply rg c = capp ex (snd p))
  end.
Proof.
  intros Hn H Hk. destruct (state_inv _ _ _ _ H) as (es & D & E). unfold aug_remove.
  pose proof (aug_remove_gives fin comb R HR HW n (ad_root d) es k false Hn D Hk) as G.
  pose proof (E k) as Ek. destruct (m !! k) as [p|].
  - destruct Ek as (ex & E1 & E2). rewrite E2 in G. destruct G as (r & G & Hr).
    pose proof (enc_delete _ _ k E) as E'. destruct r as [root|e].
    + destruct Hr as (rg & c & -> & Ha). cbn [gives] in G. destruct G as (es' & D' & M'). rewrite <- M' in E'.
      destruct (state_of n root es' _ Hn D' E') as (x & X1 & X2). unfold set_root. rewrite X1.
      unfold updates. cbn [fst snd ad_root ad_extra]. split; [|exact X2]. exists rg, c, ex. auto.
    + rewrite Hr. unfold updates. cbn [fst snd]. split; [reflexivity|]. eapply gives_not; [exact E'|exact G|reflexivity].
  - rewrite Ek in G. rewrite G. destruct d; reflexivity.
Qed.

Lemma aug_get_state n d a m k : n <= 1023 -> (forall n bits l rest, r_label R n bits l rest -> any_label n bits l rest) ->
  aug_state R n d a m -> length k = n -> aug_get a_load (AugDict d a) k n = Ok (m !! k).
Proof.
  intros Hn HL H Hk. destruct (state_inv _ _ _ _ H) as (es & D & E). unfold aug_get. cbn [ad_root].
  assert (D' : is_dict any_dict n d es).
  { destruct d as [c|]; cbn [is_aug_dict is_dict] in *; [|exact D]. destruct D as (x & D). eapply aug_hashmap_any; eassumption. }
  rewrite (dict_get_spec any_dict n d es k reads_any Hn D' Hk). cbn [rbind]. specialize (E k).
  destruct (m !! k) as [[b v]|]; [|rewrite E; reflexivity]. destruct E as (ex & E1 & ->). cbn [fst snd] in *.
  rewrite (LS _ _ _ E1). reflexivity.
Qed.

(** ** Splitting and merging *)
Lemma aug_split_state n d m p : n <= 1023 -> length p < n -> aug_state R n (ad_root d) (ad_extra d) m ->
  (forall k v, m !! k = Some v -> p `prefix_of` k) ->
  match aug_split_by_prefix fin a_load a_default d n p with
  | Ok (l, r) => aug_state R n (ad_root l) (ad_extra l) (tpart (p ++ [false]) m) /\
                 aug_state R n (ad_root r) (ad_extra r) (tpart (p ++ [true]) m)
  | Err _ => R = CR -> ~ ((exists root a, aug_state R n root a (tpart (p ++ [false]) m)) /\
                          (exists root a, aug_state R n root a (tpart (p ++ [true]) m)))
  end.
Proof.
  intros Hn Hp H Hall. destruct (state_inv _ _ _ _ H) as (es & D & E). unfold aug_split_by_prefix.
  assert (Hall' : forall k v, dmap es !! k = Some v -> p `prefix_of` k).
  { intros k v Hv. specialize (E k). destruct (m !! k) as [q|] eqn:Em; [|congruence]. exact (Hall _ _ Em). }
  pose proof (aug_split_gives fin comb R HR HW n (ad_root d) es p Hn Hp D Hall') as G.
  pose proof (enc_part (p ++ [false]) _ _ E) as E0. pose proof (enc_part (p ++ [true]) _ _ E) as E1.
  destruct (dict_split_by_prefix fin (ad_root d) n p) as [[l r]|e]; cbn [rbind gives2] in *.
  - destruct G as [(e0 & D0 & M0) (e1 & D1 & M1)]. rewrite <- M0 in E0. rewrite <- M1 in E1.
    destruct (state_of n l e0 _ Hn D0 E0) as (xl & X0 & S0). destruct (state_of n r e1 _ Hn D1 E1) as (xr & X1 & S1).
    rewrite X0. cbn [rbind]. rewrite X1. cbn [rbind ad_root ad_extra]. auto.
  - intros EC [(r0 & a0 & S0) (r1 & a1 & S1)]. apply (G EC).
    destruct (state_inv _ _ _ _ S0) as (e0 & D0 & F0), (state_inv _ _ _ _ S1) as (e1 & D1 & F1).
    split; [exists r0, e0|exists r1, e1]; (split; [assumption|]); eapply enc_det; eassumption.
Qed.

Lemma aug_merge_state n d r m mr p : n <= 1023 -> aug_state R n (ad_root d) (ad_extra d) m -> aug_state R n (ad_root r) (ad_extra r) mr ->
  (forall k v, m !! k = Some v -> (p ++ [false]) `prefix_of` k) -> (forall k v, mr !! k = Some v -> (p ++ [true]) `prefix_of` k) ->
  match aug_merge_with_right fin comb a_load a_default d r n with
  | Ok d' => aug_state R n (ad_root d') (ad_extra d') (m ∪ mr)
  | Err _ => R = CR -> forall root a, ~ aug_state R n root a (m ∪ mr)
  end.
Proof.
  intros Hn H H' A1 A2. destruct (state_inv _ _ _ _ H) as (es & D & E), (state_inv _ _ _ _ H') as (es' & D' & E'). unfold aug_merge_with_right.
  assert (P : forall (es : list entry) (m : gmap _ _) q, enc_ok m (dmap es) -> (forall k v, m !! k = Some v -> q `prefix_of` k) ->
    forall k v, dmap es !! k = Some v -> q `prefix_of` k).
  { intros e1 m1 q En Hall k v Hv. specialize (En k). destruct (m1 !! k) as [x|] eqn:Em; [|congruence]. exact (Hall _ _ Em). }
  pose proof (aug_merge_gives fin comb R HR HW n (ad_root d) (ad_root r) es es' p Hn D D' (P _ _ _ E A1) (P _ _ _ E' A2)) as G.
  pose proof (enc_union _ _ _ _ E E') as EU.
  destruct (aug_dict_merge_siblings fin comb (ad_root d) (ad_root r) n) as [root|e]; cbn [rbind].
  - cbn [gives] in G. destruct G as (e0 & D0 & M0). rewrite <- M0 in EU.
    destruct (state_of n root e0 _ Hn D0 EU) as (x & X & S). rewrite X. exact S.
  - eapply gives_not; [exact EU|exact G|reflexivity].
Qed.
End R.

Lemma state_unique n d a d' a' m : n <= 1023 -> aug_state CR n d a m -> aug_state CR n d' a' m -> d = d' /\ a = a'.
Proof.
  intros Hn (o & es & l & H & F & -> & Ho) (o' & es' & l' & H' & F' & El & Ho').
  assert (E : enc_ok (list_to_map l) (dmap es)) by apply enc_lists, F.
  assert (E' : enc_ok (list_to_map l) (dmap es')) by (rewrite El; apply enc_lists, F').
  pose proof (enc_det _ _ _ E E') as M.
  assert (D : is_aug_dict comb CR n d es) by (destruct d, o; cbn [is_aug_root is_aug_dict] in *; try contradiction; [eauto|exact H]).
  assert (D' : is_aug_dict comb CR n d' es') by (destruct d', o'; cbn [is_aug_root is_aug_dict] in *; try contradiction; [eauto|exact H']).
  destruct (aug_unique fin comb n d d' es es' D D' M) as [<- <-]. split; [reflexivity|].
  destruct d as [c|], o as [x|], o' as [x'|]; cbn [is_aug_root] in H, H'; try contradiction; [|congruence].
  apply aug_rep in H, H'. destruct H as (t & H & Et), H' as (t' & H' & Et').
  assert (t = t') as <-.
  { apply (t_ext n); [eapply ARep_wft, H|eapply ARep_wft, H'|eapply ARep_plain, H|eapply ARep_plain, H'|].
    intros k. rewrite <- !t_get_spec, <- Et, <- Et'. reflexivity. }
  destruct (ARep_det fin comb _ _ _ _ _ _ H H') as [_ <-]. destruct Ho as (r1 & Ho), Ho' as (r2 & Ho'). congruence.
Qed.
End T.
