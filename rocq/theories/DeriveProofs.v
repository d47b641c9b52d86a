(** * Derived codecs are lawful *)
From Verif Require Import Err CellModel BitsProofs ChunkModel ChunkSpec ChunkProofs DeriveModel DeriveSpec.
Local Open Scope N_scope.

Lemma all_ok_write k l : forall w v, all_lawful l w -> all_ok l w v -> exists x, fields_c (@w_write) k l w v x.
Proof.
  induction l as [|f l IH]; intros w v L O; [exists ([], []); reflexivity|].
  destruct L as [L1 L2], O as [O1 O2]. destruct (IH (snd w) (snd v) L2 O2) as (z & Hz).
  cbn [fields_c]. destruct (present k (f_since f)) eqn:P.
  - destruct (law_ok _ _ L1 _ O1) as (y & Hy). exists (capp y z), y, z. split; [reflexivity|]. split; [exact Hz|exact Hy].
  - exists (capp ([], []) z), ([], []), z. split; [reflexivity|]. split; [exact Hz|reflexivity].
Qed.
Lemma fields_store k l : forall w v x, all_lawful l w -> fields_c (@w_write) k l w v x -> appends (store_fields k l v) x.
Proof.
  induction l as [|f l IH]; intros w v x L H.
  - cbn [fields_c] in H. subst x. apply appends_nil.
  - destruct L as [L1 L2]. destruct H as (y & z & -> & Hz & Hy). cbn [store_fields].
    apply (appends_bind (fun b => if present k (f_since f) then c_store (f_codec f) (fst v) b else Ok b)).
    + destruct (present k (f_since f)); [exact (law_store _ _ L1 _ _ Hy)|subst y; apply appends_nil].
    + exact (IH _ _ _ L2 Hz).
Qed.
(** What is read in version [k]. *)
Definition fields_read (k : option nat) (l : list field) (w : laws l) (v : vals l) (x : chunk) : Prop :=
  match k with Some k => holds k l v | None => True end /\ fields_c (@w_read) k l w v x.
Lemma fields_load k l : forall w, all_lawful l w -> reads_layout (load_fields k l) (fields_read k l w).
Proof.
  induction l as [|f l IH]; intros w L.
  - eapply reads_equiv; [|apply (reads_ret tt)]. intros [] x. unfold const_c, fields_read. cbn [fields_c holds]. destruct k; intuition.
  - destruct L as [L1 L2]. cbn [load_fields].
    eapply reads_equiv; [|eapply (reads_bind _ (fun a b => let? (v, b) := load_fields k l b in Ok ((a, v), b)))]; [| |intros a; eapply reads_bind; [exact (IH _ L2)|intros v; apply reads_ret]].
    2: { instantiate (1 := fun a y => if present k (f_since f) then w_read (fst w) a y else match f_since f with Some s => a = v_default s | None => True end /\ y = ([], [])).
      destruct (f_since f) as [s|]; cbn [present].
      - destruct k as [k|]; cbn [present]; [|exact (law_load _ _ L1)].
        destruct (v_index s <=? k)%nat; [exact (law_load _ _ L1)|apply (reads_ret (v_default s))].
      - replace (present k None) with true by (destruct k; reflexivity). exact (law_load _ _ L1). }
    intros [a v] x. unfold then_c, const_c, fields_read. cbn [fields_c fst snd holds]. split.
    + intros (a' & y & z & Hy & (v' & z1 & z2 & [Hh Hz] & [E1 E2] & ->) & ->). injection E1 as <- <-. subst z2. rewrite capp_nil in *.
      split.
      * destruct k as [k|]; [|exact Logic.I]. split; [|exact Hh]. destruct (f_since f) as [s|]; [|exact Logic.I]. intros J. cbn [present] in Hy.
        destruct (Nat.leb_spec (v_index s) k); [lia|]. exact (proj1 Hy).
      * exists y, z1. split; [reflexivity|]. split; [exact Hz|]. destruct (present k (f_since f)); [exact Hy|exact (proj2 Hy)].
    + intros (Hh & y & z & -> & Hz & Hy). exists a, y, z. split.
      * destruct (present k (f_since f)) eqn:P; [exact Hy|]. destruct k as [k|], (f_since f) as [s|]; cbn [present] in P; try discriminate.
        split; [|exact Hy]. apply Hh. destruct (Nat.leb_spec (v_index s) k); [discriminate|lia].
      * split; [|reflexivity]. exists v, z, ([], []). split; [|split; [split; reflexivity|symmetry; apply capp_nil]].
        split; [|exact Hz]. destruct k; [exact (proj2 Hh)|exact Logic.I].
Qed.
Lemma fields_same k l : forall w v x, all_lawful l w -> fields_c (@w_write) k l w v x -> fields_c (@w_read) k l w v x.
Proof.
  induction l as [|f l IH]; intros w v x L H; [exact H|]. destruct L as [L1 L2]. destruct H as (y & z & -> & Hz & Hy).
  exists y, z. split; [reflexivity|]. split; [exact (IH _ _ _ L2 Hz)|]. destruct (present k (f_since f)); [exact (law_same _ _ L1 _ _ Hy)|exact Hy].
Qed.
Lemma fields_size k l : forall w v x, all_lawful l w -> fields_c (@w_write) k l w v x -> (length (fst x) <= sum_bits l w)%nat /\ (length (snd x) <= sum_refs l w)%nat.
Proof.
  induction l as [|f l IH]; intros w v x L H; [cbn in H; subst x; split; apply le_n|]. destruct L as [L1 L2]. destruct H as (y & z & -> & Hz & Hy).
  destruct (IH _ _ _ L2 Hz) as [B R]. cbn [sum_bits sum_refs]. unfold capp. cbn [fst snd]. rewrite !app_length.
  destruct (present k (f_since f)).
  - pose proof (law_bits _ _ L1 _ _ Hy). pose proof (law_refs _ _ L1 _ _ Hy). lia.
  - subst y. cbn. lia.
Qed.

(** The version that is computed is the first that holds the value. *)
Lemma tag_version_holds n l : Forall (fun f => match f_since f with Some s => since_ok n s | None => True end) l -> forall v k, holds k l v <-> (tag_version l v <= k)%nat.
Proof.
  induction l as [|f l IH]; intros F v k; [cbn; intuition lia|]. inversion F as [|? ? F1 F2]; subst. cbn [holds tag_version]. rewrite (IH F2 (snd v) k).
  destruct (f_since f) as [s|]; [|intuition].
  destruct F1 as [_ E]. specialize (E (fst v)). destruct (v_same s (fst v) (v_default s)).
  - split; [intros [_ H]; lia|]. intros H. split; [intros _; apply E; reflexivity|lia].
  - split.
    + intros [D H]. destruct (Nat.le_gt_cases (v_index s) k) as [J|J]; [lia|]. specialize (D J). apply E in D. discriminate.
    + intros H. split; [intros J; lia|lia].
Qed.
Lemma tag_version_le n l : Forall (fun f => match f_since f with Some s => since_ok n s | None => True end) l -> forall v, (tag_version l v <= n)%nat.
Proof.
  induction l as [|f l IH]; intros F v; [cbn; lia|]. inversion F as [|? ? F1 F2]; subst. cbn [tag_version]. specialize (IH F2 (snd v)).
  destruct (f_since f) as [s|]; [|exact IH]. destruct F1 as [B _]. destruct (v_same s (fst v) (v_default s)); lia.
Qed.
Lemma no_since_version l : has_since l = false -> forall v, tag_version l v = O.
Proof.
  induction l as [|f l IH]; intros H v; [reflexivity|]. cbn [has_since existsb] in H. apply orb_false_iff in H. destruct H as [H1 H2].
  cbn [tag_version]. destruct (f_since f); [discriminate|]. apply IH. exact H2.
Qed.
Lemma no_since_fields k l : has_since l = false -> forall v b, store_fields k l v b = store_fields None l v b.
Proof.
  induction l as [|f l IH]; intros H v b; [reflexivity|]. cbn [has_since existsb] in H. apply orb_false_iff in H. destruct H as [H1 H2].
  cbn [store_fields]. destruct (f_since f); [discriminate|]. replace (present k None) with true by (destruct k; reflexivity). cbn [present].
  destruct (c_store (f_codec f) (fst v) b) as [b'|e]; cbn [rbind]; [|reflexivity]. apply IH. exact H2.
Qed.

Lemma appends_tag t : tag_ok t -> appends (store_tag t) (tag_c t).
Proof. intros H. apply appends_un. constructor. exact H. Qed.
Lemma reads_load_tag t : tag_ok t -> reads_layout (load_tag t) (fun _ x => x = tag_c t).
Proof.
  intros H. unfold load_tag. eapply reads_equiv; [|eapply reads_bind; [apply reads_un|intros x; apply (reads_if (x =? t_value t)); [apply reads_ret|apply reads_err]]].
  intros [] x. unfold then_c. split.
  - intros (a & y & z & U & C & ->). destruct (N.eqb_spec a (t_value t)) as [->|]; [|destruct C]. destruct C as [_ ->]. rewrite capp_nil. inversion U; subst. reflexivity.
  - intros ->. exists (t_value t), (tag_c t), ([], []). split; [constructor; exact H|]. rewrite N.eqb_refl. split; [split; reflexivity|symmetry; apply capp_nil].
Qed.
Lemma tag_index_some x l : forall i k, tag_index x l i = Some k -> exists j t, k = (i + j)%nat /\ nth_error l j = Some t /\ t_value t = x.
Proof.
  induction l as [|t l IH]; intros i k; [discriminate|]. cbn [tag_index]. destruct (N.eqb_spec x (t_value t)) as [->|N].
  - intros [= <-]. exists O, t. split; [lia|]. split; reflexivity.
  - intros H. destruct (IH _ _ H) as (j & u & -> & E & V). exists (S j), u. split; [lia|]. split; [exact E|exact V].
Qed.
Lemma tag_index_nth l : List.NoDup (map t_value l) -> forall i j t, nth_error l j = Some t -> tag_index (t_value t) l i = Some (i + j)%nat.
Proof.
  induction l as [|u l IH]; intros D i j t H; [destruct j; discriminate|]. inversion D as [|? ? D1 D2]; subst. cbn [tag_index]. destruct j as [|j].
  - injection H as ->. rewrite N.eqb_refl. f_equal. lia.
  - cbn in H. destruct (N.eqb_spec (t_value t) (t_value u)) as [E|E].
    + destruct D1. rewrite <- E. apply in_map. exact (nth_error_In _ _ H).
    + rewrite (IH D2 (S i) j t H). f_equal. lia.
Qed.
Lemma reads_tags t ts : Forall (fun u => tag_ok u /\ t_bits u = t_bits t) (t :: ts) -> List.NoDup (map t_value (t :: ts)) ->
  reads_layout (load_tags t ts) (fun k x => exists tk, nth_error (t :: ts) k = Some tk /\ x = tag_c tk).
Proof.
  intros F D b k r. unfold load_tags. split.
  - destruct (load_un (t_bits t) b) as [[v b']|] eqn:E; [|discriminate]. cbn [rbind]. destruct (tag_index v (t :: ts) 0) as [i|] eqn:T; [|discriminate]. intros [= -> ->].
    apply (reads_un (t_bits t) b v r) in E. destruct E as (x & U & ->). apply tag_index_some in T. destruct T as (j & tk & -> & E & <-).
    exists x. split; [|reflexivity]. exists tk. split; [exact E|]. inversion U; subst. unfold tag_c.
    destruct (proj1 (List.Forall_forall _ _) F tk (nth_error_In _ _ E)) as [_ ->]. reflexivity.
  - intros (x & (tk & E & ->) & ->). destruct (proj1 (List.Forall_forall _ _) F tk (nth_error_In _ _ E)) as [V W].
    assert (R : load_un (t_bits t) (capp (tag_c tk) r) = Ok (t_value tk, r)).
    { apply (reads_un (t_bits t)). exists (tag_c tk). split; [|reflexivity]. unfold tag_c. rewrite W. constructor. rewrite <- W. exact V. }
    rewrite R. cbn [rbind]. rewrite (tag_index_nth _ D 0 k tk E). reflexivity.
Qed.

Lemma lawful_struct s w : well_formed s -> all_lawful (s_fields s) w -> lawful (derived s) (struct_layout s w).
Proof.
  intros W L. constructor; cbn [struct_layout w_ok w_write w_read w_bits w_refs derived c_store c_load].
  - intros v [O V]. unfold struct_write. destruct (s_tags s) as [|t|t ts] eqn:T.
    + destruct (all_ok_write None _ w v L O) as (x & Hx). exists x. split; [exact V|exact Hx].
    + destruct (all_ok_write None _ w v L O) as (x & Hx). exists (capp (tag_c t) x). split; [exact V|]. exists x. split; [reflexivity|exact Hx].
    + unfold well_formed in W. rewrite T in W. destruct W as (F & D & G).
      destruct (all_ok_write (Some (tag_version _ v)) _ w v L O) as (x & Hx). pose proof (tag_version_le _ _ G v) as B.
      destruct (nth_error (t :: ts) (tag_version _ v)) as [tk|] eqn:E; [|apply nth_error_None in E; cbn in E; lia].
      exists (capp (tag_c tk) x). split; [exact V|]. exists (tag_version _ v), tk, x. split; [exact E|].
      split; [apply (tag_version_holds _ _ G); lia|]. split; [intros j J H; apply (tag_version_holds _ _ G) in H; lia|]. split; [reflexivity|exact Hx].
  - intros v x [V H]. apply (appends_ext (fun b => match s_tags s with
      | NoTag => store_fields None (s_fields s) v b
      | OneTag t => let? b := store_tag t b in store_fields None (s_fields s) v b
      | ManyTags t ts => let k := tag_version (s_fields s) v in let? b := store_tag (nth k (t :: ts) t) b in store_fields (Some k) (s_fields s) v b
      end)).
    { intros b _. unfold store_struct. rewrite V. cbn [negb]. destruct (s_tags s) as [|t|t ts]; [reflexivity..|]. destruct (has_since (s_fields s)) eqn:S; [reflexivity|]. cbv zeta.
      rewrite (no_since_version _ S). cbn [nth]. destruct (store_tag t b) as [b'|e]; cbn [rbind]; [|reflexivity]. apply no_since_fields. exact S. }
    unfold well_formed in W. destruct (s_tags s) as [|t|t ts].
    + exact (fields_store _ _ _ _ _ L H).
    + destruct H as (y & -> & H). apply (appends_bind (store_tag t)); [apply appends_tag; exact W|exact (fields_store _ _ _ _ _ L H)].
    + destruct W as (F & D & G). destruct H as (k & tk & y & E & H1 & H2 & -> & H). cbv zeta.
      assert (K : tag_version (s_fields s) v = k).
      { apply (tag_version_holds _ _ G) in H1. destruct (Nat.le_gt_cases k (tag_version (s_fields s) v)) as [J|J]; [lia|]. destruct (H2 _ J). apply (tag_version_holds _ _ G). lia. }
      rewrite K, (nth_error_nth _ _ _ E). apply (appends_bind (store_tag tk)); [|exact (fields_store _ _ _ _ _ L H)].
      apply appends_tag. exact (proj1 (proj1 (List.Forall_forall _ _) F tk (nth_error_In _ _ E))).
  - unfold load_struct. unfold well_formed in W. unfold struct_read.
    eapply reads_equiv; [|eapply reads_bind; [|intros v; apply (reads_if (s_valid s v)); [apply reads_ret|apply reads_err]]].
    2: { instantiate (1 := fun v x => match s_tags s with
          | NoTag => fields_c (@w_read) None (s_fields s) w v x
          | OneTag t => exists y, x = capp (tag_c t) y /\ fields_c (@w_read) None (s_fields s) w v y
          | ManyTags t ts => exists k tk y, nth_error (t :: ts) k = Some tk /\ holds k (s_fields s) v /\ x = capp (tag_c tk) y /\ fields_c (@w_read) (Some k) (s_fields s) w v y
          end).
      destruct (s_tags s) as [|t|t ts].
      - eapply reads_equiv; [|exact (fields_load None _ w L)]. intros v x. unfold fields_read. intuition.
      - eapply reads_equiv; [|eapply reads_bind; [apply reads_load_tag; exact W|intros u; exact (fields_load None _ w L)]].
        intros v x. unfold then_c, fields_read. split.
        + intros (_ & y & z & -> & [_ H] & ->). exists z. split; [reflexivity|exact H].
        + intros (y & -> & H). exists tt, (tag_c t), y. split; [reflexivity|]. split; [split; [exact Logic.I|exact H]|reflexivity].
      - destruct W as (F & D & G). eapply reads_equiv; [|eapply reads_bind; [apply reads_tags; assumption|intros k; exact (fields_load (Some k) _ w L)]].
        intros v x. unfold then_c, fields_read. split.
        + intros (k & y & z & (tk & E & ->) & [Hh H] & ->). exists k, tk, z. split; [exact E|]. split; [exact Hh|]. split; [reflexivity|exact H].
        + intros (k & tk & y & E & Hh & -> & H). exists k, (tag_c tk), y. split; [exists tk; split; [exact E|reflexivity]|]. split; [split; [exact Hh|exact H]|reflexivity]. }
    intros v x. unfold then_c. split.
    + intros (v' & y & z & H & C & ->). destruct (s_valid s v') eqn:V; [|destruct C]. destruct C as [-> ->]. rewrite capp_nil. split; [exact V|exact H].
    + intros [V H]. exists v, x, ([], []). split; [exact H|]. rewrite V. split; [split; reflexivity|symmetry; apply capp_nil].
  - intros v x [V H]. split; [exact V|]. destruct (s_tags s) as [|t|t ts].
    + exact (fields_same _ _ _ _ _ L H).
    + destruct H as (y & -> & H). exists y. split; [reflexivity|exact (fields_same _ _ _ _ _ L H)].
    + destruct H as (k & tk & y & E & H1 & _ & -> & H). exists k, tk, y. split; [exact E|]. split; [exact H1|]. split; [reflexivity|exact (fields_same _ _ _ _ _ L H)].
  - intros v x [V H]. unfold well_formed in W. destruct (s_tags s) as [|t|t ts]; cbn [tag_bits].
    + pose proof (fields_size _ _ _ _ _ L H). lia.
    + destruct H as (y & -> & H). pose proof (fields_size _ _ _ _ _ L H). unfold capp, tag_c. cbn [fst]. rewrite app_length, length_nbits. lia.
    + destruct W as (F & _ & _). destruct H as (k & tk & y & E & _ & _ & -> & H). pose proof (fields_size _ _ _ _ _ L H). unfold capp, tag_c. cbn [fst]. rewrite app_length, length_nbits.
      rewrite (proj2 (proj1 (List.Forall_forall _ _) F tk (nth_error_In _ _ E))). lia.
  - intros v x [V H]. destruct (s_tags s) as [|t|t ts].
    + pose proof (fields_size _ _ _ _ _ L H). lia.
    + destruct H as (y & -> & H). pose proof (fields_size _ _ _ _ _ L H). unfold capp, tag_c. cbn [snd app]. lia.
    + destruct H as (k & tk & y & E & _ & _ & -> & H). pose proof (fields_size _ _ _ _ _ L H). unfold capp, tag_c. cbn [snd app]. lia.
Qed.
