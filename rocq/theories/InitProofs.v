(** * Proofs about initial data of contracts *)
From Verif Require Import Err BitsProofs IntModel NumModel AddrModel AddrSpec CellModel DictModel DictSpec DictProofs DictProofs2 DictProofs4 DictProps ChunkModel ChunkSpec ChunkProofs AbiModel AbiSpec AbiProofs AbiProofs4 CallModel CallProofs InitModel InitSpec ConfigProofs.
Local Open Scope N_scope.

Lemma key64_inj a b : a < 2 ^ 64 -> b < 2 ^ 64 -> nbits 64 a = nbits 64 b -> a = b.
Proof. intros H1 H2 E. apply nbits_inj in E; assumption. Qed.

(** ** Dictionaries *)
Definition stored (R : rules) (d : option cell) (m : gmap N chunk) : Prop :=
  (forall key, 2 ^ 64 <= key -> m !! key = None) /\ exists es, is_dict R 64 d es /\ forall key, key < 2 ^ 64 -> dmap es !! nbits 64 key = m !! key.
Lemma stored_empty R : stored R None ∅.
Proof. split; [intros; apply lookup_empty|]. exists []. split; [reflexivity|]. intros; cbn. rewrite !lookup_empty. reflexivity. Qed.

Section Fin.
Context (fin : list bool -> list cell -> res unit).

Lemma stored_get R d m key : rules_ok fin R -> stored R d m -> key < 2 ^ 64 -> dict_get d 64 (nbits 64 key) = Ok (m !! key).
Proof. intros [HR _] (_ & es & D & M) Hk. rewrite (dict_get_spec R 64 d es _ HR ltac:(lia) D (length_nbits 64 key)), (M key Hk). reflexivity. Qed.
Lemma stored_set R d m key b f d' : rules_ok fin R -> stored R d m -> key < 2 ^ 64 -> dict_insert fin d (nbits 64 key) 64 b MSet = Ok (f, d') -> stored R d' (<[key := b]> m).
Proof.
  intros [HR HW] (Z & es & D & M) Hk E.
  pose proof (dict_insert_sound fin R 64 d es (nbits 64 key) b MSet HR HW ltac:(lia) D (length_nbits 64 key)) as S. rewrite refused_stores in S. cbn [stores negb] in S. rewrite E in S.
  destruct S as (_ & es' & D' & M'). split.
  - intros i Hi. rewrite lookup_insert_ne by lia. apply Z, Hi.
  - exists es'. split; [exact D'|]. intros i Hi. rewrite M'. destruct (decide (i = key)) as [->|Ne].
    + rewrite !lookup_insert. reflexivity.
    + rewrite !lookup_insert_ne; [apply M, Hi|congruence|]. intros X. apply key64_inj in X; congruence.
Qed.
Lemma set_field_inv sorted v key x d d' R m : rules_ok fin R -> stored R d m -> key < 2 ^ 64 -> set_field fin sorted v key x d = Ok d' ->
  exists b, make_builder fin sorted v x = Ok b /\ stored R d' (<[key := b]> m).
Proof.
  intros HR S Hk. unfold set_field. destruct (make_builder fin sorted v x) as [b|] eqn:Eb; cbn [rbind]; [|discriminate].
  destruct (dict_insert fin d (nbits 64 key) 64 b MSet) as [[f d1]|] eqn:E; cbn [rbind]; [|discriminate]. intros [= <-]. exists b. split; [reflexivity|]. eapply stored_set; eassumption.
Qed.
Lemma set_pubkey_inv p d d' R m : rules_ok fin R -> stored R d m -> set_pubkey fin p d = Ok d' -> stored R d' (<[0 := (bytes_bits p, [])]> m).
Proof.
  intros HR S. unfold set_pubkey. destruct (dict_insert fin d (nbits 64 0) 64 (bytes_bits p, []) MSet) as [[f d1]|] eqn:E; cbn [rbind]; [|discriminate]. intros [= <-].
  eapply stored_set; try eassumption. reflexivity.
Qed.

(** Cells *)
Lemma parse_init R c m : init_data R c m -> exists d, parse_dict c = Ok d /\ stored R d m.
Proof.
  intros (X & Z & d & x & rest & es & Dx & E & D & M). exists d. split; [|split; [exact Z|eauto]].
  unfold parse_dict, as_slice. rewrite X. cbn [rbind]. injection E as Eb Er. unfold sl_dict, sl_bits. cbn [s_bits s_refs s_cell]. rewrite Eb, Er.
  inversion Dx as [|c' y Hc]; subst; cbn [fst snd app load_bit rbind].
  - reflexivity.
  - inversion Hc; subst. cbn [capp fst snd app load_bit rbind sl_ref s_refs]. reflexivity.
Qed.
Lemma dict_cell_init R d m c : stored R d m -> dict_cell fin d = Ok c -> init_data R c m /\ parse_dict c = Ok d.
Proof.
  intros (Z & es & D & M) E. unfold dict_cell in E. destruct (store_dict d empty_b) as [b|] eqn:Eb; cbn [rbind] in E; [|discriminate]. apply build_ok in E. subst c.
  pose proof (appends_dict d (dchunk d) (dchunk_ok d) ([], []) ltac:(split; cbn; lia)) as A. unfold empty_b in Eb. rewrite Eb in A. destruct (_ || _); [discriminate|]. rewrite nil_capp in A. injection A as ->.
  assert (I : init_data R (chunk_cell (dchunk d)) m).
  { split; [reflexivity|]. split; [exact Z|]. exists d, (dchunk d), ([], []), es. split; [apply dchunk_ok|]. split; [|auto]. rewrite capp_nil. destruct (dchunk d); reflexivity. }
  split; [exact I|]. destruct d; reflexivity.
Qed.
End Fin.

(** ** Names *)
Lemma given_app {A} name (a b : list (list N * A)) : given name (a ++ b) = match given name b with Some x => Some x | None => given name a end.
Proof. induction a as [|[n x] a IH]; cbn [given app]; [destruct (given name b); reflexivity|]. rewrite IH. destruct (given name b); reflexivity. Qed.
Lemma given_in {A} name (l : list (list N * A)) x : given name l = Some x -> (name, x) ∈ l.
Proof.
  induction l as [|[n y] l IH]; cbn [given]; [discriminate|]. destruct (given name l) as [z|]; [intros [= <-]; right; apply IH; reflexivity|].
  destruct (decide (n = name)) as [->|]; [intros [= <-]; left|discriminate].
Qed.
Lemma given_none {A} name (l : list (list N * A)) : given name l = None <-> name ∉ map fst l.
Proof.
  induction l as [|[n y] l IH]; cbn [given map fst]; [split; [intros _ X; inversion X|reflexivity]|]. rewrite not_elem_of_cons, <- IH.
  destruct (given name l); [split; [discriminate|intros [_ X]; discriminate]|]. destruct (decide (n = name)) as [->|Ne]; split; try discriminate; try tauto. intros _. split; [congruence|reflexivity].
Qed.
Lemma given_some {A} name (l : list (list N * A)) x : NoDup (map fst l) -> (name, x) ∈ l -> given name l = Some x.
Proof.
  induction l as [|[n y] l IH]; cbn [given map fst]; intros Nd H; [inversion H|]. apply list.NoDup_cons in Nd. destruct Nd as [Nn Nd]. apply elem_of_cons in H. destruct H as [[= -> ->]|H].
  - apply given_none in Nn. rewrite Nn. destruct (decide (n = n)); [reflexivity|congruence].
  - rewrite (IH Nd H). reflexivity.
Qed.
Lemma field_get_in {A} name (l : list (list N * A)) x : field_get name l = Some x -> (name, x) ∈ l.
Proof.
  unfold field_get. destruct (List.find (named name) l) as [[n y]|] eqn:E; cbn [option_map snd]; [|discriminate]. intros [= <-]. apply List.find_some in E. destruct E as [I E].
  apply bool_decide_eq_true in E. cbn [fst] in E. subst n. apply elem_of_list_In, I.
Qed.
Lemma field_in_get {A} name (l : list (list N * A)) x : NoDup (map fst l) -> (name, x) ∈ l -> field_get name l = Some x.
Proof.
  unfold field_get. induction l as [|[n y] l IH]; cbn [map fst List.find]; intros Nd H; [inversion H|]. apply list.NoDup_cons in Nd. destruct Nd as [Nn Nd].
  unfold named at 1. cbn [fst]. apply elem_of_cons in H. destruct H as [[= -> ->]|H].
  - rewrite bool_decide_eq_true_2 by reflexivity. reflexivity.
  - rewrite bool_decide_eq_false_2; [apply IH; assumption|]. intros ->. apply Nn. apply elem_of_list_In, in_map_iff. exists (name, x). split; [reflexivity|apply elem_of_list_In, H].
Qed.
Lemma field_remove_in {A} name (l : list (list N * A)) e : e ∈ field_remove name l <-> e ∈ l /\ fst e <> name.
Proof.
  unfold field_remove. rewrite !elem_of_list_In, filter_In. unfold named. rewrite negb_true_iff, bool_decide_eq_false. reflexivity.
Qed.
Lemma field_remove_nodup {A B} name (g : list N * A -> B) (l : list (list N * A)) : NoDup (map g l) -> NoDup (map g (field_remove name l)).
Proof.
  unfold field_remove. induction l as [|e l IH]; cbn [map List.filter]; [auto|]. intros Nd. apply list.NoDup_cons in Nd. destruct Nd as [Nn Nd]. destruct (negb (named name e)); [|auto].
  cbn [map]. apply list.NoDup_cons. split; [|auto]. intros X. apply Nn. apply elem_of_list_In, in_map_iff in X. destruct X as (y & E & Hy). apply elem_of_list_In, in_map_iff. exists y. split; [exact E|]. apply filter_In in Hy. apply Hy.
Qed.
Lemma key_unique (l : list field) n1 n2 key t1 t2 : NoDup (map (fun e => fst (snd e)) l) -> (n1, (key, t1)) ∈ l -> (n2, (key, t2)) ∈ l -> n1 = n2 /\ t1 = t2.
Proof.
  induction l as [|e l IH]; cbn [map]; intros Nd H1 H2; [inversion H1|]. apply list.NoDup_cons in Nd. destruct Nd as [Nn Nd].
  assert (X : forall n t, (n, (key, t)) ∈ l -> key ∈ map (fun e : field => fst (snd e)) l).
  { intros n t H. apply elem_of_list_In, in_map_iff. exists (n, (key, t)). split; [reflexivity|apply elem_of_list_In, H]. }
  apply elem_of_cons in H1, H2. destruct H1 as [H1|H1], H2 as [H2|H2].
  - rewrite <- H1 in H2. injection H2 as -> ->. auto.
  - subst e. exfalso. apply Nn. eapply X; exact H2.
  - subst e. exfalso. apply Nn. eapply X; exact H1.
  - auto.
Qed.

(** ** Default values *)
Lemma default_type t : type_of (default_value t) = t.
Proof.
  induction t using aty_nest; cbn [default_value type_of]; rewrite ?map_map; try congruence; try (rewrite replicate_length; congruence).
  f_equal. induction H as [|x l E _ IH]; [reflexivity|]. cbn [map]. rewrite E, IH. reflexivity.
Qed.
Lemma default_ok utf8 t : utf8 [] = true -> type_ok t -> value_ok utf8 (default_value t).
Proof.
  intros U. induction t using aty_nest; cbn [default_value value_ok type_ok]; intros O; try exact Logic.I; try exact O.
  - apply N.neq_0_lt_0, N.pow_nonzero. discriminate.
  - apply Z.pow_pos_nonneg; [reflexivity|discriminate].
  - eexists. apply int_std, addr_std; [constructor|split; [discriminate|reflexivity]| |apply replicate_length]. apply Forall_forall. intros x Hx. apply elem_of_replicate in Hx. destruct Hx as [-> _]. reflexivity.
  - constructor.
  - apply Forall_forall. intros x Hx. apply elem_of_replicate in Hx. destruct Hx as [-> _]. reflexivity.
  - split; [constructor|exact U].
  - reflexivity.
  - induction H as [|x l Hx _ IH]; [exact Logic.I|]. destruct O as [O1 O2]. split; [apply Hx, O1|apply IH, O2].
  - split; [reflexivity|exact Logic.I].
  - destruct O as [O1 O2]. rewrite replicate_length. split; [exact O1|]. clear O1. induction n as [|n IH]; [exact Logic.I|]. split; [split; [apply IHt, O2|apply default_type]|exact IH].
  - split; [exact Logic.I|]. exists []. split; constructor.
  - apply IHt, O.
Qed.

(** ** Writing fields *)
Section Main.
Context (fin : list bool -> list cell -> res unit) (utf8 : list N -> bool) (sorted : forall A : Type, list (pval * A) -> list (pval * A)).

Lemma update_fields_ok k R : rules_ok fin R -> fields_ok (k_init k) -> forall tokens d d' m, stored R d m -> update_fields fin sorted k tokens d = Ok d' ->
  exists m', stored R d' m' /\
  (forall key, (forall name t, (name, (key, t)) ∈ k_init k -> given name tokens = None) -> m' !! key = m !! key) /\
  (forall name key t x, (name, (key, t)) ∈ k_init k -> given name tokens = Some x -> type_of x = t /\ exists b, make_builder fin sorted (k_version k) x = Ok b /\ m' !! key = Some b).
Proof.
  intros HR (Nn & Nk & Hk). induction tokens as [|[n x] tokens IH]; intros d d' m S; cbn [update_fields].
  - intros [= <-]. exists m. split; [exact S|]. split; [reflexivity|]. intros name key t y _ [=].
  - destruct (field_get n (k_init k)) as [[key t]|] eqn:F; [|discriminate]. apply field_get_in in F. unfold check_type. destruct (has_type x t) eqn:T; cbn [rbind]; [|discriminate]. apply has_type_iff in T.
    destruct (set_field fin sorted (k_version k) key x d) as [d1|] eqn:E; cbn [rbind]; [|discriminate]. intros U.
    destruct (set_field_inv fin sorted _ key x d d1 R m HR S (proj2 (Hk _ _ _ F)) E) as (b & Eb & S1).
    destruct (IH d1 d' _ S1 U) as (m' & S' & M1 & M2). exists m'. split; [exact S'|]. split.
    + intros key' G. rewrite M1.
      * destruct (decide (key' = key)) as [->|Ne]; [|apply lookup_insert_ne; congruence]. specialize (G n t F). cbn [given] in G. destruct (given n tokens); [discriminate|]. destruct (decide (n = n)); congruence.
      * intros name t' H. specialize (G name t' H). cbn [given] in G. destruct (given name tokens); [discriminate|reflexivity].
    + intros name key' t' y H G. cbn [given] in G. destruct (given name tokens) as [z|] eqn:Gz; [injection G as <-; apply (M2 name key' t' z H Gz)|].
      destruct (decide (n = name)) as [<-|]; [|discriminate]. injection G as <-.
      assert (Same : (key', t') = (key, t)). { pose proof (field_in_get n _ _ Nn H) as X1. pose proof (field_in_get n _ _ Nn F) as X2. congruence. }
      injection Same as -> ->. split; [exact T|]. exists b. split; [exact Eb|]. rewrite M1; [apply lookup_insert|]. intros name t' H2. destruct (key_unique _ n name key t t' Nk F H2) as [<- _]. exact Gz.
Qed.
Lemma update_fields_known k tokens : forall d d', update_fields fin sorted k tokens d = Ok d' -> forall name x, (name, x) ∈ tokens -> exists key, (name, (key, type_of x)) ∈ k_init k.
Proof.
  induction tokens as [|[n x] tokens IH]; intros d d'; cbn [update_fields]; [intros _ name y H; inversion H|].
  destruct (field_get n (k_init k)) as [[key t]|] eqn:F; [|discriminate]. unfold check_type. destruct (has_type x t) eqn:T; cbn [rbind]; [|discriminate]. apply has_type_iff in T.
  destruct (set_field _ _ _ _ _ _) as [d1|]; cbn [rbind]; [|discriminate]. intros U name y H. apply elem_of_cons in H. destruct H as [[= -> ->]|H]; [|eapply IH; eassumption].
  exists key. rewrite T. apply field_get_in, F.
Qed.
Lemma update_fields_app k a b : forall d, update_fields fin sorted k (a ++ b) d = (let? d := update_fields fin sorted k a d in update_fields fin sorted k b d).
Proof.
  induction a as [|[n x] a IH]; intros d; cbn [update_fields app]; [reflexivity|]. destruct (field_get n (k_init k)) as [[key t]|]; [|reflexivity]. destruct (check_type x t); cbn [rbind]; [|reflexivity].
  destruct (set_field _ _ _ _ _ _) as [d1|]; cbn [rbind]; [apply IH|reflexivity].
Qed.

(** Encoding is an update of nothing with the values given and the others. *)
Lemma write_given_ok k tokens : forall l d todo d', (forall name r, field_get name l = Some r -> field_get name (k_init k) = Some r) -> NoDup (map fst l) ->
  write_given fin sorted (k_version k) l tokens d = Ok (todo, d') ->
  update_fields fin sorted k tokens d = Ok d' /\ NoDup (map fst tokens) /\ (forall n, n ∈ map fst tokens -> n ∈ map fst l) /\ NoDup (map fst todo) /\ forall e, e ∈ todo <-> e ∈ l /\ fst e ∉ map fst tokens.
Proof.
  induction tokens as [|[n x] tokens IH]; intros l d todo d' Sub Nd; cbn [write_given update_fields map fst].
  - intros [= <- <-]. split; [reflexivity|]. split; [constructor|]. split; [intros n H; inversion H|]. split; [exact Nd|]. intros e. split; [intros H; split; [exact H|intros X; inversion X]|intros [H _]; exact H].
  - destruct (field_get n l) as [[key t]|] eqn:F; [|discriminate]. rewrite (Sub n _ F). destruct (check_type x t); cbn [rbind]; [|discriminate].
    destruct (set_field _ _ _ _ _ _) as [d1|]; cbn [rbind]; [|discriminate]. intros W.
    assert (Nd' : NoDup (map fst (field_remove n l))) by (apply (field_remove_nodup n fst), Nd).
    destruct (IH (field_remove n l) d1 todo d') as (U & N1 & N2 & N3 & T); [|exact Nd'|exact W|].
    { intros name r G. apply Sub. apply field_get_in, field_remove_in in G. apply field_in_get; [exact Nd|apply G]. }
    split; [exact U|]. split; [|split; [|split; [exact N3|]]].
    + apply list.NoDup_cons. split; [|exact N1]. intros X. apply N2 in X. apply elem_of_list_In, in_map_iff in X. destruct X as (e & E & H). apply elem_of_list_In, field_remove_in in H. destruct H as [_ H]. congruence.
    + intros n' H. apply elem_of_cons in H. destruct H as [->|H].
      * apply field_get_in in F. apply elem_of_list_In, in_map_iff. exists (n, (key, t)). split; [reflexivity|apply elem_of_list_In, F].
      * apply N2 in H. apply elem_of_list_In, in_map_iff in H. destruct H as (e & E & H). apply elem_of_list_In, field_remove_in in H. apply elem_of_list_In, in_map_iff. exists e. split; [exact E|apply elem_of_list_In, H].
    + intros e. rewrite T, field_remove_in, not_elem_of_cons. tauto.
Qed.
Definition defaults (l : list field) : list (list N * aval) := map (fun e => (fst e, default_value (snd (snd e)))) l.
Lemma write_defaults_eq k l : (forall e, e ∈ l -> field_get (fst e) (k_init k) = Some (snd e)) -> forall d, write_defaults fin sorted (k_version k) l d = update_fields fin sorted k (defaults l) d.
Proof.
  induction l as [|[n [key t]] l IH]; intros H d; cbn [write_defaults update_fields defaults map fst snd]; [reflexivity|].
  pose proof (H (n, (key, t)) ltac:(left)) as X. cbn [fst snd] in X. rewrite X. unfold check_type. rewrite (proj2 (has_type_iff _ _) (default_type t)). cbn [rbind].
  destruct (set_field _ _ _ _ _ _) as [d1|]; cbn [rbind]; [|reflexivity]. apply IH. intros e He. apply H. right. exact He.
Qed.
Lemma defaults_given l name key t : NoDup (map fst l) -> (name, (key, t)) ∈ l -> given name (defaults l) = Some (default_value t).
Proof.
  intros Nd H. apply given_some; unfold defaults.
  - rewrite map_map. exact Nd.
  - apply elem_of_list_In, in_map_iff. exists (name, (key, t)). split; [reflexivity|apply elem_of_list_In, H].
Qed.
Lemma defaults_none l name : name ∉ map fst l -> given name (defaults l) = None.
Proof. intros H. apply given_none. unfold defaults. rewrite map_map. exact H. Qed.

Lemma encode_eq k shuffle pubkey tokens c : (forall l, Permutation (shuffle l) l) -> NoDup (map fst (k_init k)) -> encode_init_data fin sorted shuffle k pubkey tokens = Ok c ->
  NoDup (map fst tokens) /\ exists all d d', update_fields fin sorted k all None = Ok d /\ set_pubkey fin pubkey d = Ok d' /\ dict_cell fin d' = Ok c /\
  (forall name key t, (name, (key, t)) ∈ k_init k -> given name all = Some (match given name tokens with Some x => x | None => default_value t end)) /\
  forall name x, (name, x) ∈ tokens -> exists key, (name, (key, type_of x)) ∈ k_init k.
Proof.
  intros Sh Nd. unfold encode_init_data. destruct (write_given fin sorted (k_version k) (k_init k) tokens None) as [[todo d1]|] eqn:W; cbn [rbind]; [|discriminate].
  destruct (write_given_ok k tokens _ _ _ _ (fun name r E => E) Nd W) as (U & N1 & N2 & N3 & T).
  assert (N4 : NoDup (map fst (shuffle todo))) by (rewrite (Sh todo); exact N3).
  assert (T' : forall e, e ∈ shuffle todo <-> e ∈ k_init k /\ fst e ∉ map fst tokens) by (intros e; rewrite (Sh todo); apply T).
  rewrite (write_defaults_eq k (shuffle todo)) by (intros [n r] He; apply T' in He; apply field_in_get; [exact Nd|apply He]).
  destruct (update_fields fin sorted k (defaults (shuffle todo)) d1) as [d2|] eqn:U2; cbn [rbind]; [|discriminate]. destruct (set_pubkey fin pubkey d2) as [d3|] eqn:P; cbn [rbind]; [|discriminate]. intros C.
  split; [exact N1|]. exists (tokens ++ defaults (shuffle todo)), d2, d3. split; [rewrite update_fields_app, U; exact U2|]. split; [exact P|]. split; [exact C|]. split; [|eapply update_fields_known; exact U].
  intros name key t H. rewrite given_app. destruct (given name tokens) as [x|] eqn:G.
  - rewrite defaults_none; [reflexivity|]. intros X. apply elem_of_list_In, in_map_iff in X. destruct X as (e & E & He). apply elem_of_list_In, T' in He. destruct He as [_ He]. apply He. rewrite E.
    apply given_in in G. apply elem_of_list_In, in_map_iff. exists (name, x). split; [reflexivity|apply elem_of_list_In, G].
  - rewrite (defaults_given _ name key t N4); [reflexivity|]. apply T'. split; [exact H|]. apply given_none, G.
Qed.

(** ** Reading fields *)
Section Read.
Context (leaf : chunk -> cell) (Hsorted : forall A l, Permutation (sorted A l) l).
Lemma read_field_ok k R d m key x b : rules_ok fin R -> 2 <= v_major (k_version k) -> stored R d m -> key < 2 ^ 64 -> value_ok utf8 x -> supported (k_version k) x ->
  make_builder fin sorted (k_version k) x = Ok b -> m !! key = Some b -> read_field utf8 leaf (k_version k) d key (type_of x) = Ok x.
Proof.
  intros HR Hv S Hk V U Eb Em. unfold read_field. rewrite (stored_get fin R d m key HR S Hk), Em. cbn [rbind]. eapply (child_whole fin utf8 sorted (k_version k)); try eassumption. apply all_correct; assumption.
Qed.
Lemma read_fields_map v d l g : (forall name key t, (name, (key, t)) ∈ l -> read_field utf8 leaf v d key t = Ok (g name t)) -> read_fields utf8 leaf v d l = Ok (map (fun e => (fst e, g (fst e) (snd (snd e)))) l).
Proof.
  induction l as [|[n [key t]] l IH]; intros H; cbn [read_fields map fst snd]; [reflexivity|]. rewrite (H n key t) by left. cbn [rbind]. rewrite IH; [reflexivity|]. intros name key' t' He. apply (H name key'). right. exact He.
Qed.
Lemma read_fields_after v d d' tokens l : forall r, (forall name key t x, (name, (key, t)) ∈ l -> given name tokens = Some x -> read_field utf8 leaf v d' key t = Ok x) ->
  (forall name key t, (name, (key, t)) ∈ l -> given name tokens = None -> read_field utf8 leaf v d' key t = read_field utf8 leaf v d key t) ->
  read_fields utf8 leaf v d l = Ok r -> read_fields utf8 leaf v d' l = Ok (map (fun e => (fst e, match given (fst e) tokens with Some y => y | None => snd e end)) r).
Proof.
  induction l as [|[n [key t]] l IH]; intros r H1 H2; cbn [read_fields]; [intros [= <-]; reflexivity|].
  destruct (read_field utf8 leaf v d key t) as [x|] eqn:E; cbn [rbind]; [|discriminate]. destruct (read_fields utf8 leaf v d l) as [r'|] eqn:E2; cbn [rbind]; [|discriminate]. intros [= <-]. cbn [map fst snd].
  rewrite (IH r'); [| |intros name key' t' He; apply (H2 name key'); right; exact He|reflexivity].
  - destruct (given n tokens) as [y|] eqn:G.
    + rewrite (H1 n key t y) by (left || exact G). reflexivity.
    + rewrite (H2 n key t) by (left || exact G). rewrite E. reflexivity.
  - intros name key' t' y He G. apply (H1 name key' t' y); [right; exact He|exact G].
Qed.
Lemma read_fields_all v d l : forall r, read_fields utf8 leaf v d l = Ok r -> map fst r = map fst l /\ forall name key t, (name, (key, t)) ∈ l -> exists x, read_field utf8 leaf v d key t = Ok x /\ (name, x) ∈ r.
Proof.
  induction l as [|[n [key t]] l IH]; intros r; cbn [read_fields]; [intros [= <-]; split; [reflexivity|intros name key t H; inversion H]|].
  destruct (read_field utf8 leaf v d key t) as [x|] eqn:E; cbn [rbind]; [|discriminate]. destruct (read_fields utf8 leaf v d l) as [r'|] eqn:E2; cbn [rbind]; [|discriminate]. intros [= <-].
  destruct (IH r' eq_refl) as [A B]. cbn [map fst]. split; [congruence|]. intros name key' t' H. apply elem_of_cons in H. destruct H as [[= -> -> ->]|H].
  - exists x. split; [exact E|left].
  - destruct (B _ _ _ H) as (y & Y1 & Y2). exists y. split; [exact Y1|right; exact Y2].
Qed.
End Read.
End Main.
