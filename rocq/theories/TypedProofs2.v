(** * Typed dictionaries. *)
From Coq Require Import Sorting.Sorted.
From Verif Require Import Err BitsProofs CellModel DictModel DictSpec DictTree DictProofs DictProps IterModel IterProps TypedModel TypedSpec TypedProofs.
Local Open Scope nat_scope.

Lemma weaken_dict fin n d es : is_dict (canonical_dict fin) n d es -> is_dict any_dict n d es.
Proof.
  destruct d as [c|]; [|exact (fun H => H)]. cbn [is_dict].
  induction 1 as [n bits l v [e [Hb [He _]]] L C|n m bits l x cl cr el er [e [Hb [He _]]] L X C H1 IH1 H2 IH2].
  - constructor; [exists e; auto|exact L|exact Logic.I].
  - econstructor; [exists e; eauto|exact L|exact Logic.I|exact Logic.I|exact IH1|exact IH2].
Qed.
Lemma raw_ok b : length b <= 1023 -> length (raw b) = 128 /\ Forall byte_ok (raw b) /\ take (length b) (bytes_bits (raw b)) = b.
Proof.
  intros H. unfold raw. assert (L : length (b ++ zeros (1024 - length b)) = 1024) by (rewrite app_length; unfold zeros; rewrite replicate_length; lia).
  split; [rewrite length_pack, L; reflexivity|]. split; [apply pack_ok|]. rewrite bytes_bits_pack, <- app_assoc. apply take_app_alt. reflexivity.
Qed.

Section Map.
Context {K V : Type} (E : EqDecision K) (kd : key_kind K) (ok : K -> Prop) (G : good_key kd ok).
Context (enc : V -> chunk) (load : chunk -> res (V * chunk)) (fin : list bool -> list cell -> res unit).
Notation n := (k_bits kd).
Notation typed_history := (typed_history E kd ok enc load fin).

Lemma good_store k : ok k -> exists b, k_store kd k = Ok b /\ length b = n.
Proof. apply G. Qed.
Lemma load_raw k b : ok k -> k_store kd k = Ok b -> k_load kd (raw b) = Some k.
Proof.
  clear E enc load fin. intros Hk Hb. destruct (good_store k Hk) as (b' & E' & L). rewrite Hb in E'. injection E' as <-. destruct G as (Hn & _ & GL).
  destruct (raw_ok b ltac:(lia)) as (R1 & R2 & R3). apply (GL (raw b) k R1 R2). split; [exact Hk|]. rewrite <- L, R3. exact Hb.
Qed.
Lemma store_inj k k' b : ok k -> ok k' -> k_store kd k = Ok b -> k_store kd k' = Ok b -> k = k'.
Proof. intros H H' S S'. apply (load_raw k b H) in S. apply (load_raw k' b H') in S'. congruence. Qed.

Definition rep (f : K -> option V) (m : gmap (list bool) chunk) : Prop :=
  (forall b c, m !! b = Some c <-> exists k v, ok k /\ k_store kd k = Ok b /\ f k = Some v /\ c = enc v) /\
  (forall k v, f k = Some v -> ok k /\ value_ok enc load v).
Lemma rep_lookup f m k b : rep f m -> ok k -> k_store kd k = Ok b -> m !! b = option_map enc (f k).
Proof.
  intros [R _] Hk Hb. destruct (f k) as [v|] eqn:F; cbn [option_map].
  - apply R. exists k, v. auto.
  - destruct (m !! b) as [c|] eqn:M; [|reflexivity]. apply R in M as (k' & v & H1 & H2 & H3 & _). rewrite (store_inj k k' b Hk H1 Hb H2) in F. congruence.
Qed.
Lemma rep_present f m k b : rep f m -> ok k -> k_store kd k = Ok b -> present m b = known f k.
Proof. intros R Hk Hb. unfold present, known. rewrite (rep_lookup f m k b R Hk Hb). destruct (f k); reflexivity. Qed.
Lemma rep_insert f m k b v : rep f m -> ok k -> k_store kd k = Ok b -> value_ok enc load v -> rep (updated E f k (Some v)) (<[b := enc v]> m).
Proof.
  intros [R1 R2] Hk Hb Hv. split.
  - intros b' c. rewrite lookup_insert_Some. split.
    + intros [[<- <-]|[N M]]; [exists k, v; unfold updated; rewrite decide_True by reflexivity; auto|].
      apply R1 in M as (k' & v' & H1 & H2 & H3 & H4). exists k', v'. unfold updated. rewrite decide_False; [auto|]. intros ->. congruence.
    + intros (k' & v' & H1 & H2 & H3 & H4). unfold updated in H3. destruct (decide (k' = k)) as [->|N].
      * left. split; [congruence|]. congruence.
      * right. split; [intros ->; apply N; eapply store_inj; eassumption|]. apply R1. exists k', v'. auto.
  - intros k' v'. unfold updated. destruct (decide (k' = k)) as [->|N]; [intros [= <-]; auto|apply R2].
Qed.
Lemma rep_delete f m k b : rep f m -> ok k -> k_store kd k = Ok b -> rep (updated E f k None) (delete b m).
Proof.
  intros [R1 R2] Hk Hb. split.
  - intros b' c. rewrite lookup_delete_Some. split.
    + intros [N M]. apply R1 in M as (k' & v' & H1 & H2 & H3 & H4). exists k', v'. unfold updated. rewrite decide_False; [auto|]. intros ->. congruence.
    + intros (k' & v' & H1 & H2 & H3 & H4). unfold updated in H3. destruct (decide (k' = k)) as [->|N]; [discriminate|].
      split; [intros ->; apply N; eapply store_inj; eassumption|]. apply R1. exists k', v'. auto.
  - intros k' v'. unfold updated. destruct (decide (k' = k)) as [->|N]; [discriminate|apply R2].
Qed.
Lemma typed_rep d f : typed_history d f -> exists m, history fin n d m /\ rep f m.
Proof.
  induction 1 as [|d f k v mode flag d' H (m & Hm & R) Hk Hv Ei|d f k o d' H (m & Hm & R) Hk Er].
  - exists ∅. split; [constructor|]. split; [|discriminate]. intros b c. rewrite lookup_empty. split; [discriminate|]. intros (k & v & _ & _ & X & _). discriminate.
  - destruct (good_store k Hk) as (b & Hb & L). unfold typed_insert in Ei. rewrite Hb in Ei. cbn [rbind] in Ei.
    exists (set_map mode b (enc v) m). split; [eapply h_set; eassumption|]. unfold set_map. rewrite (rep_present f m k b R Hk Hb).
    destruct (stores mode (known f k)); [apply rep_insert; assumption|exact R].
  - destruct (good_store k Hk) as (b & Hb & L). unfold typed_remove in Er. rewrite Hb in Er. cbn [rbind] in Er.
    destruct (dict_remove_owned fin d b n false) as [[p d2]|] eqn:D; [|discriminate]. cbn [rbind] in Er.
    assert (d2 = d') as ->. { destruct p as [[r c]|]; [|congruence]. destruct (load (r_apply r c)) as [[? ?]|]; [|discriminate]. cbn [rbind] in Er. congruence. }
    exists (delete b m). split; [eapply h_remove; eassumption|]. apply rep_delete; assumption.
Qed.
Lemma typed_dict d f : typed_history d f -> exists m es, history fin n d m /\ rep f m /\ is_dict any_dict n d es /\ dmap es = m.
Proof.
  intros H. destruct (typed_rep d f H) as (m & Hm & R). destruct (history_dict fin n d m (proj1 G) Hm) as (es & D & M).
  exists m, es. split; [exact Hm|]. split; [exact R|]. split; [apply (weaken_dict fin), D|exact M].
Qed.
Lemma rep_load f m k v : rep f m -> f k = Some v -> exists b rest, ok k /\ k_store kd k = Ok b /\ length b = n /\ m !! b = Some (enc v) /\ load (enc v) = Ok (v, rest).
Proof.
  intros R F. destruct (proj2 R k v F) as [Hk [rest L]]. destruct (good_store k Hk) as (b & Hb & Lb). exists b, rest.
  split; [exact Hk|]. split; [exact Hb|]. split; [exact Lb|]. split; [|exact L]. rewrite (rep_lookup f m k b R Hk Hb), F. reflexivity.
Qed.
(** An entry of the map of bits is an entry of the typed one. *)
Lemma rep_entry f m b c : rep f m -> m !! b = Some c -> exists k v rest, ok k /\ k_store kd k = Ok b /\ f k = Some v /\ k_load kd (raw b) = Some k /\ c = enc v /\ load c = Ok (v, rest).
Proof.
  intros R M. apply R in M as (k & v & Hk & Hb & F & ->). destruct (proj2 R k v F) as [_ [rest L]]. exists k, v, rest.
  split; [exact Hk|]. split; [exact Hb|]. split; [exact F|]. split; [apply load_raw; assumption|]. auto.
Qed.

(** ** Iteration *)
Lemma yields_nil {A} i : yields i (@nil A) = replicate i None.
Proof. unfold yields. cbn [map app]. apply take_ge. rewrite replicate_length. lia. Qed.
Lemma yields_cons {A} i (x : A) l : yields (S i) (x :: l) = Some (Ok x) :: yields i l.
Proof.
  unfold yields. cbn [map app take]. f_equal. rewrite replicate_S_end, app_assoc. apply take_app_le. rewrite app_length, replicate_length. lia.
Qed.
Lemma typed_calls i : forall it order torder,
  Forall2 (fun (e : entry) (x : K * V) => k_load kd (raw (fst e)) = Some (fst x) /\ exists rest, load (snd e) = Ok (snd x, rest)) order torder ->
  map (option_map item_view) (calls iter_next i it) = yields i order -> calls (typed_iter_next kd load) i it = yields i torder.
Proof.
  induction i as [|i IH]; intros it order torder F H; [reflexivity|]. cbn [calls] in H |- *. unfold typed_iter_next at 1.
  destruct (iter_next it) as [o it'] eqn:N. cbn [map] in H. destruct F as [|e x order torder [F1 [rest F2]] F].
  - rewrite yields_nil in H. rewrite yields_nil. cbn [replicate] in H |- *. injection H as H1 H2. destruct o; [discriminate|]. cbn.
    f_equal. rewrite <- yields_nil. apply (IH it' [] []); [constructor|]. rewrite yields_nil. exact H2.
  - rewrite yields_cons in H. rewrite yields_cons. injection H as H1 H2. destruct o as [[[key s]|]|]; cbn [option_map item_view rbind] in H1; try discriminate.
    injection H1 as <-. cbn [fst snd] in F1, F2. rewrite F1, F2. destruct x as [k v]. cbn [fst snd]. f_equal. apply (IH it' order torder F H2).
Qed.
Lemma Forall2_In_l {A B} (P : A -> B -> Prop) l l' : Forall2 P l l' -> forall a, In a l -> exists b, In b l' /\ P a b.
Proof. induction 1 as [|a b l l' H F IH]; intros x []; [subst; exists b; split; [left; reflexivity|exact H]|]. destruct (IH x H0) as (y & Iy & Py). exists y. split; [right; exact Iy|exact Py]. Qed.
Lemma Forall2_In_r {A B} (P : A -> B -> Prop) l l' : Forall2 P l l' -> forall b, In b l' -> exists a, In a l /\ P a b.
Proof. induction 1 as [|a b l l' H F IH]; intros x []; [subst; exists a; split; [left; reflexivity|exact H]|]. destruct (IH x H0) as (y & Iy & Py). exists y. split; [right; exact Iy|exact Py]. Qed.
Lemma choose {A B} (P : A -> B -> Prop) l : Forall (fun a => exists b, P a b) l -> exists l', Forall2 P l l'.
Proof. induction 1 as [|a l [b H] F [l' IH]]; [exists []; constructor|]. exists (b :: l'). constructor; assumption. Qed.

Lemma typed_iteration d f rev signed : typed_history d f -> exists order,
  StronglySorted (fun a b => key_before kd signed rev (fst a) (fst b)) order /\
  (forall k v, In (k, v) order <-> f k = Some v) /\
  forall i, calls (typed_iter_next kd load) i (typed_iter kd d rev signed) = yields i order.
Proof.
  intros H. destruct (typed_dict d f H) as (m & es & _ & R & D & M).
  destruct (C24_iteration n d es rev signed (proj1 G) D) as (order & (P & ND & S) & C).
  assert (NE : NoDup (map fst es)). { rewrite <- P. exact ND. }
  assert (L : forall e, In e order <-> m !! fst e = Some (snd e)).
  { intros [b c]. cbn [fst snd]. rewrite <- M. rewrite <- elem_of_list_In, P. unfold dmap. apply elem_of_list_to_map. exact NE. }
  destruct (choose (fun (e : entry) (x : K * V) => (k_load kd (raw (fst e)) = Some (fst x) /\ exists rest, load (snd e) = Ok (snd x, rest)) /\ k_store kd (fst x) = Ok (fst e) /\ f (fst x) = Some (snd x)) order) as (torder & F).
  { rewrite List.Forall_forall. intros [b c] I. apply L in I. cbn [fst snd] in I. destruct (rep_entry f m b c R I) as (k & v & rest & Hk & Hb & Fk & Hr & Hc & Hl). exists (k, v). cbn [fst snd]. eauto 10. }
  exists torder. split; [|split].
  - clear - F S. revert S. induction F as [|e x order torder [_ [B _]] F IH]; intros S; constructor; inversion S as [|? ? S1 S2]; subst; [apply IH, S1|].
    clear IH S S1. induction F as [|e' x' order torder [_ [B' _]] F IH]; constructor; inversion S2 as [|? ? Q1 Q2]; subst; [|apply IH, Q2].
    exists (fst e), (fst e'). auto.
  - intros k v. split.
    + intros I. destruct (Forall2_In_r _ _ _ F _ I) as (e & _ & _ & _ & X). exact X.
    + intros Fk. destruct (rep_load f m k v R Fk) as (b & rest & Hk & Hb & Lb & Mb & Hl).
      assert (I : In (b, enc v) order) by (apply L; exact Mb).
      destruct (Forall2_In_l _ _ _ F _ I) as ([k' v'] & I' & (A & rest' & B) & Hb' & Fk'). cbn [fst snd] in *.
      rewrite (load_raw k b Hk Hb) in A. injection A as <-. assert (v' = v) as -> by congruence. exact I'.
  - intros i. apply (typed_calls i _ order torder); [|apply C]. clear - F. induction F as [|e x order torder [A _] F IH]; constructor; assumption.
Qed.

(** ** Roots and serde *)
Lemma typed_unique d f d' f' : typed_history d f -> typed_history d' f' -> (forall k, f k = f' k) -> d = d'.
Proof.
  intros H H' Q. destruct (typed_rep d f H) as (m & Hm & R). destruct (typed_rep d' f' H') as (m' & Hm' & R').
  apply (C23_root_of_content fin n d m d' m' (proj1 G) Hm Hm'). apply map_eq. intros b. apply option_eq. intros c. rewrite (proj1 R b c), (proj1 R' b c).
  split; intros (k & v & H1 & H2 & H3 & H4); exists k, v; [rewrite <- Q|rewrite Q]; auto.
Qed.
Lemma entries_calls i : forall it order, calls (typed_iter_next kd load) i it = yields i order -> length order < i -> typed_entries kd load i it = Ok order.
Proof.
  induction i as [|i IH]; intros it order H L; [lia|]. cbn [calls typed_entries] in H |- *. destruct (typed_iter_next kd load it) as [o it'].
  destruct order as [|x order].
  - rewrite yields_nil in H. cbn [replicate] in H. injection H as -> _. reflexivity.
  - rewrite yields_cons in H. injection H as -> H. rewrite (IH it' order H) by (cbn [length] in L; lia). reflexivity.
Qed.
Lemma sorted_keys signed rev (order : list (K * V)) : StronglySorted (fun a b => key_before kd signed rev (fst a) (fst b)) order -> NoDup (map fst order).
Proof.
  clear E G enc load fin. induction 1 as [|e l S IH F]; constructor; [|exact IH]. intros X. apply elem_of_list_fmap in X. destruct X as (y & Ey & Hy).
  rewrite Forall_forall in F. destruct (F _ Hy) as (b & b' & B & B' & L). rewrite <- Ey, B in B'. injection B' as <-. unfold before in L. destruct rev; lia.
Qed.
Lemma collect_map l : forall d f d', typed_history d f -> (forall k v, In (k, v) l -> ok k /\ value_ok enc load v) -> NoDup (map fst l) -> typed_collect kd enc fin d l = Ok d' ->
  exists f', typed_history d' f' /\ (forall k v, In (k, v) l -> f' k = Some v) /\ (forall k, ~ In k (map fst l) -> f' k = f k).
Proof.
  induction l as [|[k v] l IH]; intros d f d' H A N C; cbn [typed_collect map fst] in C, N.
  - injection C as <-. exists f. split; [exact H|]. split; [intros ? ? []|reflexivity].
  - destruct (typed_set kd enc fin d k v) as [[flag d1]|] eqn:T; [|discriminate]. cbn [rbind] in C. inversion N as [|? ? N1 N2]; subst.
    destruct (A k v (or_introl eq_refl)) as [Hk Hv]. pose proof (th_insert E kd ok enc load fin d f k v MSet flag d1 H Hk Hv T) as H1. cbn [stores] in H1.
    destruct (IH d1 _ d' H1 (fun k' v' I => A k' v' (or_intror I)) N2 C) as (f' & Hf & F1 & F2). exists f'. split; [exact Hf|]. split.
    + intros k' v' [[= <- <-]|I]; [|apply F1, I]. rewrite F2 by (intros X; apply N1, elem_of_list_In, X). unfold updated. rewrite decide_True by reflexivity. reflexivity.
    + intros k' X. cbn [map fst In] in X. rewrite F2 by tauto. unfold updated. rewrite decide_False by (intros ->; tauto). reflexivity.
Qed.
End Map.
