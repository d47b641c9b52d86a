(** * Walking two dictionaries at once. *)
From Coq Require Import Sorting.Sorted.
From Verif Require Import Err BitsProofs CellModel LabelModel LabelSpec LabelProofs DictModel DictSpec DictTree DictProofs DictOrder IterModel IterProofs.
Local Open Scope nat_scope.

Definition uitem := (list bool * option chunk * option chunk)%type.

Section Un.
Context (R1 R2 : rules) (HR1 : reads R1) (HR2 : reads R2) (rev signed : bool) (n : nat) (Hn : n <= 1023).

(** Merging two sorted lists. *)
Fixpoint merge (L : list entry) : list entry -> list uitem :=
  fix go (Q : list entry) : list uitem :=
    match L, Q with
    | [], _ => map (fun e => (fst e, None, Some (snd e))) Q
    | _, [] => map (fun e => (fst e, Some (snd e), None)) L
    | (lk, lv) :: L', (rk, rv) :: Q' =>
      match union_cmp rev signed lk rk with
      | Lt => (lk, Some lv, None) :: merge L' Q
      | Gt => (rk, None, Some rv) :: go Q'
      | Eq => (lk, Some lv, Some rv) :: merge L' Q'
      end
    end.
Lemma merge_nil_l Q : merge [] Q = map (fun e => (fst e, None, Some (snd e))) Q.
Proof. destruct Q; reflexivity. Qed.
Lemma merge_nil_r L : merge L [] = map (fun e => (fst e, Some (snd e), None)) L.
Proof. destruct L as [|[]]; reflexivity. Qed.
Lemma merge_cons lk lv L rk rv Q : merge ((lk, lv) :: L) ((rk, rv) :: Q) =
  match union_cmp rev signed lk rk with
  | Lt => (lk, Some lv, None) :: merge L ((rk, rv) :: Q)
  | Gt => (rk, None, Some rv) :: merge ((lk, lv) :: L) Q
  | Eq => (lk, Some lv, Some rv) :: merge L Q
  end.
Proof. reflexivity. Qed.

Definition side (R : rules) (root : option cell) (it : raw_iter) (fin : bool) (pk : option (list bool * sl)) (es : list entry) : Prop :=
  match pk with
  | Some (k, d) => exists es', es = (k, s_chunk d) :: es' /\ iter_inv R rev signed n root it es' /\ fin = false
  | None => iter_inv R rev signed n root it es /\ (fin = true -> es = [])
  end.
Definition union_inv (l r : option cell) (u : union_iter) (L Q : list entry) : Prop :=
  side R1 l (un_left u) (un_lfin u) (un_lpeek u) L /\ side R2 r (un_right u) (un_rfin u) (un_rpeek u) Q.

Lemma peek_spec R root it fin pk es : reads R -> side R root it fin pk es ->
  exists pk' it' fin', union_peek it fin pk = (Ok pk', it', fin') /\ side R root it' fin' pk' es /\
    match es, pk' with [], None => True | e :: _, Some p => fst p = fst e /\ s_chunk (snd p) = snd e | _, _ => False end.
Proof.
  intros HR H. unfold union_peek. destruct pk as [[k d]|].
  - destruct H as (es' & -> & I & ->). exists (Some (k, d)), it, false. split; [reflexivity|]. split; [|split; reflexivity].
    exists es'. auto.
  - destruct H as [I F]. destruct fin.
    + rewrite (F eq_refl) in *. exists None, it, true. split; [reflexivity|]. split; [|exact Logic.I]. split; [exact I|reflexivity].
    + pose proof (iter_next_inv R HR rev signed n Hn root it es I) as N. destruct es as [|e es].
      * destruct N as (it' & -> & N). exists None, it', true. split; [reflexivity|]. split; [|exact Logic.I]. split; [exact N|reflexivity].
      * destruct N as (data & it' & -> & N & C & _). exists (Some (fst e, data)), it', false. split; [reflexivity|].
        split; [|split; [reflexivity|exact C]]. exists es. rewrite C. split; [destruct e; reflexivity|]. auto.
Qed.
Lemma side_it R root it fin pk es : side R root it fin pk es -> it_rev it = rev /\ it_signed it = signed /\ is_valid it = true.
Proof.
  intros H. assert (exists es', iter_inv R rev signed n root it es') as [es' (A & B & _ & C & _)].
  { destruct pk as [[k d]|]; [destruct H as (es' & _ & I & _)|destruct H as [I _]]; eauto. }
  unfold is_valid. rewrite C. auto.
Qed.

Definition view (o : option (res (list bool * option sl * option sl))) : option (res uitem) :=
  option_map (fun x => let? (kl, r) := x in let '(k, l) := kl in Ok (k, option_map s_chunk l, option_map s_chunk r)) o.

Lemma union_next_inv l r u L Q : union_inv l r u L Q ->
  exists o u', union_next u = (o, u') /\
    match merge L Q with
    | [] => o = None /\ union_inv l r u' [] []
    | x :: xs => view o = Some (Ok x) /\ exists L' Q', xs = merge L' Q' /\ union_inv l r u' L' Q'
    end.
Proof.
  intros [HL HQ]. destruct (side_it _ _ _ _ _ _ HL) as (L1 & L2 & L3). destruct (side_it _ _ _ _ _ _ HQ) as (Q1 & Q2 & Q3).
  destruct (peek_spec R1 _ _ _ _ _ HR1 HL) as (lp & li & lf & EL & SL & ML).
  destruct (peek_spec R2 _ _ _ _ _ HR2 HQ) as (rp & ri & rf & ER & SR & MR).
  unfold union_next. rewrite L3, Q3. cbn [negb orb]. rewrite EL, ER, L1, L2.
  destruct L as [|[lk lv] L]; destruct lp as [[lk' ld]|]; try contradiction; destruct Q as [|[rk rv] Q]; destruct rp as [[rk' rd]|]; try contradiction; cbn [fst snd] in ML, MR.
  - eexists _, _. split; [reflexivity|]. cbn [merge map]. split; [reflexivity|]. split; assumption.
  - destruct MR as [-> <-]. eexists _, _. split; [reflexivity|]. rewrite merge_nil_l. cbn [map fst snd]. split; [reflexivity|].
    destruct SR as (es' & E & I & ->). injection E as <-.
    exists [], Q. rewrite merge_nil_l. split; [reflexivity|]. split; [exact SL|]. split; [exact I|discriminate].
  - destruct ML as [-> <-]. eexists _, _. split; [reflexivity|]. rewrite merge_nil_r. cbn [map fst snd]. split; [reflexivity|].
    destruct SL as (es' & E & I & ->). injection E as <-.
    exists L, []. rewrite merge_nil_r. split; [reflexivity|]. split; [|exact SR]. split; [exact I|discriminate].
  - destruct ML as [-> <-]. destruct MR as [-> <-]. rewrite merge_cons.
    destruct SL as (es' & E & I & ->). injection E as <-. destruct SR as (es' & E' & I' & ->). injection E' as <-.
    destruct (union_cmp rev signed lk rk).
    + eexists _, _. split; [reflexivity|]. split; [reflexivity|]. exists L, Q. split; [reflexivity|].
      split; (split; [assumption|discriminate]).
    + eexists _, _. split; [reflexivity|]. split; [reflexivity|]. exists L, ((rk, s_chunk rd) :: Q). split; [reflexivity|].
      split; [split; [assumption|discriminate]|]. cbn. eauto.
    + eexists _, _. split; [reflexivity|]. split; [reflexivity|]. exists ((lk, s_chunk ld) :: L), Q. split; [reflexivity|].
      split; [cbn; eauto|split; [assumption|discriminate]].
Qed.

Lemma union_calls i l r u L Q : union_inv l r u L Q ->
  map view (calls union_next i u) = take i (map (fun x => Some (Ok x)) (merge L Q) ++ replicate i None).
Proof.
  revert u L Q. induction i as [|i IH]; intros u L Q H; [rewrite take_0; reflexivity|].
  destruct (union_next_inv _ _ _ _ _ H) as (o & u' & E & N). cbn [calls]. rewrite E.
  destruct (merge L Q) as [|x xs].
  - destruct N as [-> N]. cbn [map app replicate firstn view option_map]. f_equal. rewrite (IH _ _ _ N). reflexivity.
  - destruct N as (V & L' & Q' & -> & N). cbn [map app replicate take]. rewrite V. apply f_equal.
    rewrite (IH _ _ _ N). symmetry. apply (take_pad i).
Qed.

(** ** What the merge contains *)
Lemma union_cmp_spec a b : length a = length b ->
  match union_cmp rev signed a b with Lt => kdir signed rev a b | Eq => a = b | Gt => kdir signed rev b a end.
Proof.
  intros H. unfold union_cmp.
  assert (X : forall a b, length a = length b -> match lexcmp a b with Lt => klt false a b | Eq => a = b | Gt => klt false b a end).
  { clear a b H. induction a as [|x a IH]; intros [|y b] H; cbn [length] in H; try lia; [reflexivity|]. cbn [lexcmp klt].
    specialize (IH b ltac:(lia)). replace (Bool.eqb y x) with (Bool.eqb x y) by (destruct x, y; reflexivity). destruct (Bool.eqb x y) eqn:E.
    - apply eqb_prop in E. subst y. destruct (lexcmp a b); [congruence|assumption..].
    - destruct x, y; try discriminate; reflexivity. }
  destruct signed.
  - destruct a as [|x a], b as [|y b]; cbn [length] in H; try lia; [destruct rev; reflexivity|]. cbn [nth].
    specialize (X a b ltac:(lia)). cbn [lexcmp]. unfold kdir. cbn [klt]. replace (Bool.eqb y x) with (Bool.eqb x y) by (destruct x, y; reflexivity).
    destruct (Bool.eqb x y) eqn:E.
    + apply eqb_prop in E. subst y. rewrite xorb_nilpotent, xorb_false_r. destruct rev, (lexcmp a b); cbn [CompOpp]; try congruence; assumption.
    + destruct x, y, rev; try discriminate; reflexivity.
  - specialize (X a b H). unfold kdir. destruct rev, (lexcmp a b); cbn [CompOpp]; try congruence; assumption.
Qed.

Definition keyed (es : list entry) : Prop := Forall (fun e => length (fst e) = n) es.
Definition udir (x y : uitem) : Prop := kdir signed rev (fst (fst x)) (fst (fst y)).

Lemma dmap_before k es : Forall (fun e => kdir signed rev k (fst e)) es -> dmap es !! k = None.
Proof.
  intros H. apply not_elem_of_list_to_map_1. intros X. apply elem_of_list_fmap in X. destruct X as (e & -> & X).
  rewrite Forall_forall in H. specialize (H _ X). exact (kdir_irrefl _ _ _ H).
Qed.
Lemma dmap_cons k v es : dmap ((k, v) :: es) = <[k := v]> (dmap es).
Proof. reflexivity. Qed.

Lemma merge_in L Q k ol orr : keyed L -> keyed Q -> StronglySorted (edir signed rev) L -> StronglySorted (edir signed rev) Q ->
  In (k, ol, orr) (merge L Q) <-> (ol = dmap L !! k /\ orr = dmap Q !! k /\ (ol <> None \/ orr <> None)).
Proof.
  revert Q. induction L as [|[lk lv] L IHL]; intros Q.
  - intros _ KQ _ SQ. rewrite merge_nil_l. unfold dmap at 1. cbn [list_to_map foldr]. rewrite lookup_empty.
    induction SQ as [|[rk rv] Q SQ IHQ FQ].
    + cbn. rewrite lookup_empty. firstorder congruence.
    + inversion KQ; subst. specialize (IHQ ltac:(assumption)). rewrite dmap_cons. cbn [map In fst snd]. rewrite IHQ.
      pose proof (dmap_before _ _ FQ) as B.
      destruct (decide (rk = k)) as [->|N]; [rewrite lookup_insert|rewrite lookup_insert_ne by exact N].
      * cbn in B. rewrite B. split; [intros [X|(-> & -> & [X|X])]; [injection X as <- <-|congruence..]|intros (-> & -> & _)]; [|left; reflexivity].
        split; [reflexivity|]. split; [reflexivity|]. right. discriminate.
      * split; [intros [X|X]; [injection X; congruence|exact X]|intros X; right; exact X].
  - intros KL KQ SL SQ. induction SQ as [|[rk rv] Q SQ IHQ FQ].
    + rewrite merge_nil_r. clear IHL KQ. unfold dmap at 2. cbn [list_to_map foldr]. rewrite lookup_empty.
      revert KL SL. generalize ((lk, lv) :: L). intros es KL SL. induction SL as [|[rk rv] Q SQ IHQ FQ].
      * cbn. rewrite lookup_empty. firstorder congruence.
      * inversion KL; subst. specialize (IHQ ltac:(assumption)). rewrite dmap_cons. cbn [map In fst snd]. rewrite IHQ.
        pose proof (dmap_before _ _ FQ) as B.
        destruct (decide (rk = k)) as [->|N]; [rewrite lookup_insert|rewrite lookup_insert_ne by exact N].
        -- cbn in B. rewrite B. split; [intros [X|(-> & -> & [X|X])]; [injection X as <- <-|congruence..]|intros (-> & -> & _)]; [|left; reflexivity].
           split; [reflexivity|]. split; [reflexivity|]. left. discriminate.
        -- split; [intros [X|X]; [injection X; congruence|exact X]|intros X; right; exact X].
    + rewrite merge_cons. inversion KL as [|? ? Kl KL']; subst. inversion KQ as [|? ? Kr KQ']; subst. cbn [fst] in Kl, Kr.
      specialize (IHQ KQ'). inversion SL as [|? ? SL' FL]; subst.
      pose proof (dmap_before lk L FL) as BL. pose proof (dmap_before rk Q FQ) as BQ.
      pose proof (union_cmp_spec lk rk ltac:(congruence)) as C.
      assert (Trans : forall a b es, length a = n -> length b = n -> keyed es -> kdir signed rev a b -> Forall (edir signed rev (b, rv)) es -> dmap es !! a = None).
      { intros a b es La Lb Ke Hab F. apply dmap_before. unfold keyed in Ke. rewrite Forall_forall in F, Ke |- *. intros e He.
        apply (kdir_trans signed rev a b (fst e)); [congruence|rewrite (Ke _ He); exact Lb|exact Hab|exact (F _ He)]. }
      destruct (union_cmp rev signed lk rk).
      * subst rk. cbn [In]. rewrite IHL by assumption. rewrite !dmap_cons.
        destruct (decide (lk = k)) as [->|N]; [rewrite !lookup_insert|rewrite !lookup_insert_ne by exact N].
        -- rewrite BL, BQ. split; [intros [X|(-> & -> & [X|X])]; [injection X as <- <-|congruence..]|intros (-> & -> & _)]; [|left; reflexivity].
           split; [reflexivity|]. split; [reflexivity|]. left. discriminate.
        -- split; [intros [X|X]; [injection X; congruence|exact X]|intros X; right; exact X].
      * cbn [In]. rewrite IHL by (assumption || (constructor; assumption)). rewrite (dmap_cons lk).
        destruct (decide (lk = k)) as [->|N]; [rewrite !lookup_insert|rewrite !(lookup_insert_ne _ lk) by exact N].
        -- assert (B2 : dmap ((rk, rv) :: Q) !! k = None).
           { rewrite dmap_cons, lookup_insert_ne by (intros ->; exact (kdir_irrefl _ _ _ C)). eapply Trans; eauto. }
           rewrite BL. split; [intros [X|(-> & -> & [X|X])]; [injection X as <- <-|congruence|destruct (X B2)]|intros (-> & -> & _); left; f_equal; symmetry; exact B2].
           split; [reflexivity|]. split; [symmetry; exact B2|]. left. discriminate.
        -- split; [intros [X|X]; [injection X; congruence|exact X]|intros X; right; exact X].
      * cbn [In]. rewrite IHQ. rewrite (dmap_cons rk).
        destruct (decide (rk = k)) as [->|N]; [rewrite !(lookup_insert _ k)|rewrite !(lookup_insert_ne _ rk) by exact N].
        -- assert (B2 : dmap ((lk, lv) :: L) !! k = None).
           { rewrite dmap_cons, lookup_insert_ne by (intros ->; exact (kdir_irrefl _ _ _ C)). eapply (Trans k lk L); eauto. }
           rewrite BQ. split; [intros [X|(-> & -> & [X|X])]; [injection X as <- <-|destruct (X B2)|congruence]|intros (-> & -> & _); left; do 2 f_equal; symmetry; exact B2].
           split; [symmetry; exact B2|]. split; [reflexivity|]. right. discriminate.
        -- split; [intros [X|X]; [injection X; congruence|exact X]|intros X; right; exact X].
Qed.

Lemma merge_in_key L Q x : In x (merge L Q) -> (exists e, In e L /\ fst e = fst (fst x)) \/ (exists e, In e Q /\ fst e = fst (fst x)).
Proof.
  revert Q. induction L as [|[lk lv] L IHL]; intros Q.
  - rewrite merge_nil_l, in_map_iff. intros (e & <- & H). right. exists e. auto.
  - induction Q as [|[rk rv] Q IHQ].
    + rewrite merge_nil_r, in_map_iff. intros (e & <- & H). left. exists e. auto.
    + rewrite merge_cons. destruct (union_cmp rev signed lk rk); cbn [In].
      * intros [<-|H]; [left; exists (lk, lv); auto|]. destruct (IHL _ H) as [(e & A & B)|(e & A & B)]; [left|right]; exists e; cbn [In]; auto.
      * intros [<-|H]; [left; exists (lk, lv); auto|]. destruct (IHL _ H) as [(e & A & B)|(e & A & B)]; [left|right]; exists e; cbn [In]; auto.
      * intros [<-|H]; [right; exists (rk, rv); auto|]. destruct (IHQ H) as [(e & A & B)|(e & A & B)]; [left|right]; exists e; cbn [In]; auto.
Qed.

Lemma merge_sorted L Q : keyed L -> keyed Q -> StronglySorted (edir signed rev) L -> StronglySorted (edir signed rev) Q ->
  StronglySorted udir (merge L Q).
Proof.
  revert Q. induction L as [|[lk lv] L IHL]; intros Q.
  - intros _ _ _ SQ. rewrite merge_nil_l. induction SQ as [|e Q SQ IHQ FQ]; constructor; [exact IHQ|].
    apply List.Forall_map. exact FQ.
  - intros KL KQ SL SQ. induction SQ as [|[rk rv] Q SQ IHQ FQ].
    + rewrite merge_nil_r. clear IHL KL KQ. induction SL as [|e L' SL IH FL]; constructor; [exact IH|]. apply List.Forall_map. exact FL.
    + rewrite merge_cons. inversion KL as [|? ? Kl KL']; subst. inversion KQ as [|? ? Kr KQ']; subst. cbn [fst] in Kl, Kr.
      inversion SL as [|? ? SL' FL]; subst. unfold keyed in *.
      pose proof (union_cmp_spec lk rk ltac:(congruence)) as C. rewrite List.Forall_forall in FL, FQ.
      pose proof (proj1 (List.Forall_forall _ _) KL') as KL2. pose proof (proj1 (List.Forall_forall _ _) KQ') as KQ2. cbn beta in KL2, KQ2.
      destruct (union_cmp rev signed lk rk).
      * subst rk. constructor; [apply IHL; assumption|]. apply List.Forall_forall. intros x Hx. unfold udir. cbn [fst].
        destruct (merge_in_key _ _ _ Hx) as [(e & A & <-)|(e & A & <-)]; [exact (FL _ A)|exact (FQ _ A)].
      * constructor; [apply IHL; try assumption; constructor; [assumption|apply List.Forall_forall; exact FQ]|]. apply List.Forall_forall. intros x Hx. unfold udir. cbn [fst].
        destruct (merge_in_key _ _ _ Hx) as [(e & A & <-)|(e & A & <-)]; [exact (FL _ A)|].
        destruct A as [<-|A]; [exact C|]. apply (kdir_trans signed rev lk rk (fst e)); [congruence|rewrite (KQ2 _ A); exact Kr|exact C|exact (FQ _ A)].
      * constructor; [apply IHQ; assumption|]. apply List.Forall_forall. intros x Hx. unfold udir. cbn [fst].
        destruct (merge_in_key _ _ _ Hx) as [(e & A & <-)|(e & A & <-)]; [|exact (FQ _ A)].
        destruct A as [<-|A]; [exact C|]. apply (kdir_trans signed rev rk lk (fst e)); [congruence|rewrite (KL2 _ A); exact Kl|exact C|exact (FL _ A)].
Qed.
End Un.
