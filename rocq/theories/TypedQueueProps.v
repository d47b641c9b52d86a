(** * C80: entries are taken out of typed dictionaries in the order of their keys *)
From Coq Require Import Sorting.Sorted.
From Verif Require Import Err BitsProofs IntModel NumModel AddrModel AddrSpec CellModel DictModel DictSpec DictTree DictProofs DictProofs2 DictProofs3 DictProofs4 DictOrder DictExist DictProps IterModel IterProps ChunkModel
  TypedModel TypedSpec TypedProofs TypedProofs2 TypedProps TypedQueueModel.
Local Open Scope nat_scope.

(** ** Specification *)
(** The entries that up to [i] removals of the smallest ([bound]: greatest) entry give, and the
    dictionary that is left. *)
Fixpoint drain {K} (kd : key_kind K) (fin : list bool -> list cell -> res unit) (bound signed : bool) (i : nat) (d : option cell) : res (list (K * chunk) * option cell) :=
  match i with
  | 0 => Ok ([], d)
  | S i =>
    let? (o, d) := typed_remove_bound kd fin d bound signed in
    match o with
    | None => Ok ([], d)
    | Some x => let? (l, d) := drain kd fin bound signed i d in Ok (x :: l, d)
    end
  end.

Section Map.
Context {K V : Type} (E : EqDecision K) (kd : key_kind K) (ok : K -> Prop) (G : good_key kd ok).
Context (enc : V -> chunk) (load : chunk -> res (V * chunk)) (fin : list bool -> list cell -> res unit).
Notation n := (k_bits kd).
Notation typed_history := (typed_history E kd ok enc load fin).
Notation rep := (rep kd ok enc load).

(** ** Proofs *)
Lemma get_of d f m k : history fin n d m -> rep f m -> ok k -> typed_get kd load d k = Ok (f k).
Proof.
  intros Hm R Hk. destruct (good_store kd ok G k Hk) as (b & Hb & Lb). unfold typed_get. rewrite Hb. cbn [rbind]. rewrite (proj1 (C20_lookup fin _ d m b (proj1 G) Hm Lb)). cbn [rbind].
  rewrite (rep_lookup kd ok G enc load f m k b R Hk Hb). destruct (f k) as [v|] eqn:F; cbn [option_map]; [|reflexivity]. destruct (proj2 R k v F) as [_ [rest ->]]. reflexivity.
Qed.
Lemma remove_bound_step d f m bound signed o d' : history fin n d m -> rep f m -> typed_remove_bound kd fin d bound signed = Ok (o, d') ->
  match o with
  | Some (k, c) => exists v, c = enc v /\ ok k /\ is_first kd f signed bound (Some (k, v)) /\ exists m', history fin n d' m' /\ rep (updated E f k None) m'
  | None => d = None /\ d' = None /\ forall k, f k = None
  end.
Proof.
  intros Hm R H. unfold typed_remove_bound in H. destruct (dict_remove_bound_owned fin d n bound signed) as [[p d1]|] eqn:D; cbn [rbind] in H; [|discriminate].
  pose proof (C25_remove_bound fin n d m bound signed p d1 (proj1 G) Hm D) as C. destruct p as [[b [r c]]|].
  - destruct C as [[X1 X2] Hm']. cbn [fst snd] in X1, X2. destruct (rep_entry kd ok G enc load f m b _ R X1) as (k & v & rest & Hk & Hb & F & Hr & Hc & Hl). rewrite Hr in H. injection H as <- <-.
    exists v. split; [exact Hc|]. split; [exact Hk|]. split.
    + split; [exact F|]. intros k' v' F'. destruct (rep_load kd ok G enc load f m k' v' R F') as (b' & _ & Hk' & Hb' & _ & M' & _).
      destruct (X2 b' _ M') as [->|B]; [left; eapply store_inj; eassumption|right; exists b, b'; auto].
    + exists (delete b m). split; [exact Hm'|]. apply (rep_delete E kd ok G enc load f m k b R Hk Hb).
  - injection H as <- <-. destruct C as [-> ->]. split; [reflexivity|]. split; [reflexivity|]. intros k. destruct (f k) as [v|] eqn:F; [|reflexivity]. exfalso.
    destruct (rep_load kd ok G enc load f m k v R F) as (b & _ & _ & _ & Lb & Mb & _). pose proof (proj1 (C20_lookup fin n None m b (proj1 G) Hm Lb)) as L. rewrite Mb in L.
    unfold dict_get in L. rewrite (proj2 (Nat.eqb_eq _ _) Lb) in L. discriminate L.
Qed.

(** ** The smallest and the greatest entry *)
(** They are taken out: the other entries stay, and what is left is the dictionary from which the key
    has been removed.  There is nothing to take exactly if there are no entries. *)
Theorem C80_remove_bound d f bound signed o d' : typed_history d f -> typed_remove_bound kd fin d bound signed = Ok (o, d') ->
  match o with
  | Some (k, c) => exists v, c = enc v /\ is_first kd f signed bound (Some (k, v)) /\ (forall k', ok k' -> typed_get kd load d' k' = Ok (updated E f k None k')) /\
      (forall o2 d2, typed_remove kd load fin d k = Ok (o2, d2) -> d2 = d')
  | None => d' = d /\ forall k, f k = None
  end.
Proof.
  intros H B. destruct (typed_rep E kd ok G enc load fin d f H) as (m & Hm & R). pose proof (remove_bound_step d f m bound signed o d' Hm R B) as S. destruct o as [[k c]|].
  - destruct S as (v & Hc & Hk & Fi & m' & Hm' & R'). exists v. split; [exact Hc|]. split; [exact Fi|]. split; [intros k' Hk'; exact (get_of d' _ m' k' Hm' R' Hk')|].
    intros o2 d2 X. pose proof (th_remove _ _ _ _ _ _ d f k o2 d2 H Hk X) as H2. destruct (typed_rep E kd ok G enc load fin d2 _ H2) as (m2 & Hm2 & R2).
    apply (C23_root_of_content fin n d2 m2 d' m' (proj1 G) Hm2 Hm'). apply map_eq. intros b. apply option_eq. intros x. rewrite (proj1 R2 b x), (proj1 R' b x). reflexivity.
  - destruct S as (-> & -> & X). split; [reflexivity|exact X].
Qed.
Theorem C80_min_max d f signed d' : typed_history d f ->
  (forall k c, typed_remove_min kd fin d signed = Ok (Some (k, c), d') -> exists v, c = enc v /\ is_first kd f signed false (Some (k, v))) /\
  (forall k c, typed_remove_max kd fin d signed = Ok (Some (k, c), d') -> exists v, c = enc v /\ is_first kd f signed true (Some (k, v))).
Proof.
  intros H. split; intros k c B; destruct (C80_remove_bound d f _ signed _ d' H B) as (v & X1 & X2 & _); exists v; split; assumption.
Qed.
(** They can be taken out whenever a removal is possible. *)
Theorem C80_succeeds d f bound signed : (forall b r, length b <= 1023 -> length r <= 4 -> fin b r = Ok tt) -> typed_history d f ->
  (forall k v, f k = Some v -> fits n (enc v)) -> exists o d', typed_remove_bound kd fin d bound signed = Ok (o, d').
Proof.
  intros HF H FT. destruct (typed_rep E kd ok G enc load fin d f H) as (m & Hm & R). destruct (history_dict fin n d m (proj1 G) Hm) as (es & D & M).
  destruct d as [c|]; [|unfold typed_remove_bound; cbn; eauto]. cbn [is_dict] in D. pose proof D as D0. apply hashmap_rep in D. destruct D as (t & Ht & ->).
  assert (FM : forall k' v', m !! k' = Some v' -> fits n v'). { intros b' x Mx. apply R in Mx as (k' & v' & _ & _ & F & ->). apply (FT k' v' F). }
  assert (X : exists p d', dict_remove_bound_owned fin (Some c) n bound signed = Ok (p, d')).
  { rewrite (dict_remove_bound_eq fin _ n c t bound signed (reads_canonical fin) (proj1 G) Ht). pose proof (Rep_wft _ _ _ _ Ht) as W.
    pose proof (t_get_len n t _ _ W (t_first_get signed bound t)) as Lk. pose proof (t_first_get signed bound t) as Tg. rewrite <- t_get_spec in Tg. rewrite M in Tg.
    destruct (C20_updates_succeed fin n (Some c) m (fst (t_first signed bound t)) _ MSet HF (proj1 G) Hm FM Lk (FM _ _ Tg)) as [_ (p & d2 & ->)]. cbn [rbind].
    eauto. }
  destruct X as (p & d' & X). pose proof (C25_remove_bound fin n (Some c) m bound signed p d' (proj1 G) Hm X) as C. unfold typed_remove_bound. rewrite X. cbn [rbind].
  destruct p as [[b [r x]]|]; [|eauto]. destruct C as [[X1 _] _]. cbn [fst snd] in X1. destruct (rep_entry kd ok G enc load f m b _ R X1) as (k & v & rest & _ & _ & _ & Hr & _). rewrite Hr. eauto.
Qed.

(** ** Taking many *)
(** Removals give entries in order, and all of them before those that are left; these are the entries
    whose keys have not been taken.  Fewer than asked for are given only if nothing is left. *)
Theorem C80_drain bound signed i d f l d' : typed_history d f -> drain kd fin bound signed i d = Ok (l, d') -> exists taken,
  l = map (fun x => (fst x, enc (snd x))) taken /\
  StronglySorted (fun a b => key_before kd signed bound (fst a) (fst b)) taken /\
  (forall k v, In (k, v) taken -> f k = Some v) /\
  (forall k v k' v', In (k, v) taken -> f k' = Some v' -> ~ In (k', v') taken -> key_before kd signed bound k k') /\
  (forall k, ok k -> typed_get kd load d' k = Ok (if decide (k ∈ map fst taken) then None else f k)) /\
  length taken <= i /\ (length taken < i -> d' = None).
Proof.
  intros H. destruct (typed_rep E kd ok G enc load fin d f H) as (m & Hm & R). clear H. revert d f m l d' Hm R. induction i as [|i IH]; intros d f m l d' Hm R X; cbn [drain] in X.
  - injection X as <- <-. exists []. split; [reflexivity|]. split; [constructor|]. split; [intros ? ? []|]. split; [intros ? ? ? ? []|]. split; [|cbn; lia].
    intros k Hk. rewrite (get_of d f m k Hm R Hk). destruct (decide (k ∈ map fst [])) as [e|e]; [apply elem_of_nil in e; destruct e|reflexivity].
  - destruct (typed_remove_bound kd fin d bound signed) as [[o d1]|] eqn:B; cbn [rbind] in X; [|discriminate]. pose proof (remove_bound_step d f m bound signed o d1 Hm R B) as S. destruct o as [[k c]|].
    + destruct S as (v & -> & Hk & [F Fi] & m' & Hm' & R'). destruct (drain kd fin bound signed i d1) as [[l1 d2]|] eqn:D; cbn [rbind] in X; [|discriminate]. injection X as <- <-.
      destruct (IH d1 _ m' l1 d2 Hm' R' D) as (tk & -> & S & I1 & I2 & I3 & I4 & I5).
      assert (U : forall k' v', updated E f k None k' = Some v' <-> k' <> k /\ f k' = Some v') by (intros k' v'; unfold updated; destruct (decide (k' = k)); split; [discriminate|intros []; contradiction|auto|intros []; auto]).
      assert (A : forall k' v', In (k', v') tk -> key_before kd signed bound k k'). { intros k' v' I. apply I1 in I. apply U in I as [N F']. destruct (Fi k' v' F'); [contradiction|assumption]. }
      exists ((k, v) :: tk). split; [reflexivity|]. split; [constructor; [exact S|apply List.Forall_forall; intros [k' v'] I; exact (A k' v' I)]|].
      split; [intros k' v' [[= <- <-]|I]; [exact F|apply I1, U in I as [_ I]; exact I]|]. split.
      { intros k1 v1 k' v' [[= <- <-]|I] F' N'.
        - destruct (Fi k' v' F') as [->|?]; [|assumption]. exfalso. apply N'. left. congruence.
        - apply (I2 k1 v1 k' v' I); [|intros Y; apply N'; right; exact Y]. apply U. split; [|exact F']. intros ->. apply N'. left. congruence. }
      split; [|cbn [length]; split; [lia|intros L; apply I5; lia]].
      intros k' Hk'. rewrite (I3 k' Hk'). f_equal. cbn [map fst]. unfold updated.
      destruct (decide (k' ∈ map fst tk)) as [e|e], (decide (k' ∈ k :: map fst tk)) as [e'|e'], (decide (k' = k)) as [q|q]; try reflexivity; exfalso; rewrite elem_of_cons in e'; tauto.
    + destruct S as (-> & -> & N). injection X as <- <-. exists []. split; [reflexivity|]. split; [constructor|]. split; [intros ? ? []|]. split; [intros ? ? ? ? []|]. split; [|cbn; split; [lia|reflexivity]].
      intros k Hk. rewrite (get_of None f m k Hm R Hk). destruct (decide (k ∈ map fst [])) as [e|e]; [apply elem_of_nil in e; destruct e|reflexivity].
Qed.

(** ** Keys *)
(** The keys come in the order of the iteration of the entries. *)
Theorem C80_keys d f rev signed : typed_history d f -> exists order,
  StronglySorted (fun a b => key_before kd signed rev a b) order /\ (forall k, In k order <-> f k <> None) /\
  forall i, calls (typed_keys_next kd) i (typed_keys kd d rev signed) = yields i order.
Proof.
  intros H. destruct (C78_iteration E kd ok G enc load fin d f rev signed H) as (order & S & I & C). exists (map fst order). split; [|split].
  - clear C I H. induction S as [|x l S IH F]; cbn [map]; constructor; [exact IH|]. apply List.Forall_map. exact F.
  - intros k. rewrite in_map_iff. split.
    + intros ([k' v] & <- & Ik). apply I in Ik. cbn [fst]. congruence.
    + intros N. destruct (f k) as [v|] eqn:F; [|contradiction]. exists (k, v). split; [reflexivity|apply I, F].
  - intros i. specialize (C i). change (typed_keys kd d rev signed) with (typed_iter kd d rev signed). generalize dependent (typed_iter kd d rev signed). clear S I H.
    revert order. induction i as [|i IH]; intros order it C; [reflexivity|]. cbn [calls] in C |- *. destruct (typed_iter_next kd load it) as [o it'] eqn:T.
    unfold typed_iter_next in T. unfold typed_keys_next at 1. destruct order as [|x order].
    + cbn [map]. rewrite yields_nil in C. rewrite yields_nil. cbn [replicate] in C |- *. injection C as -> C. destruct (iter_next it) as [[[[key s]|e]|] it2]; [destruct (k_load kd (raw key)); [destruct (load (s_chunk s)) as [[? ?]|]|]; discriminate|discriminate|].
      injection T as <-. f_equal. rewrite <- (yields_nil i) in C. change (@nil K) with (map (@fst K V) []) . rewrite <- yields_nil. apply (IH [] it2 C).
    + cbn [map]. rewrite yields_cons in C. rewrite yields_cons. injection C as -> C. destruct (iter_next it) as [[[[key s]|e]|] it2]; [|discriminate|discriminate].
      destruct (k_load kd (raw key)) as [k|]; [|discriminate]. destruct (load (s_chunk s)) as [[v rest]|e]; [|discriminate]. injection T as <- <-. cbn [fst]. f_equal. apply (IH order it2 C).
Qed.
(** A key that cannot be loaded is an error. *)
Theorem C80_errors d bound signed it it' b s r c d' i : k_load kd (raw b) = None ->
  (dict_remove_bound_owned fin d n bound signed = Ok (Some (b, (r, c)), d') -> typed_remove_bound kd fin d bound signed = Err CellUnderflow) /\
  (iter_next it = (Some (Ok (b, s)), it') -> calls (typed_keys_next kd) (S i) it = Some (Err CellUnderflow) :: replicate i None).
Proof.
  intros L. split.
  - intros X. unfold typed_remove_bound. rewrite X. cbn [rbind]. rewrite L. reflexivity.
  - intros X. cbn [calls]. unfold typed_keys_next at 1. rewrite X, L. f_equal.
    assert (Y : forall j x, calls (typed_keys_next kd) j (set_status x StBroken) = replicate j None).
    { induction j as [|j IH]; intros x; [reflexivity|]. cbn [calls replicate]. unfold typed_keys_next at 1. cbn. f_equal. exact (IH x). }
    apply Y.
Qed.
(** If the iteration of bits ends with an error, so do those of the keys and of the entries, with the
    same error in its place unless an earlier entry is invalid. *)
Theorem C80_passed_on it : forall i e l, map (option_map (fun x => match x with Ok _ => Ok tt | Err e => Err e end)) (calls iter_next i it) = l ++ [Some (Err e)] ->
  (exists j e', j < i /\ nth_error (calls (typed_keys_next kd) i it) j = Some (Some (Err e')) /\ j <= length l /\ (j = length l -> e' = e)) /\
  (exists j e', j < i /\ nth_error (calls (typed_iter_next kd load) i it) j = Some (Some (Err e')) /\ j <= length l /\ (j = length l -> e' = e)).
Proof.
  intros i. revert it. induction i as [|i IH]; intros it e l C; [destruct l; discriminate|]. cbn [calls] in C |- *. unfold typed_keys_next at 1, typed_iter_next at 1.
  destruct (iter_next it) as [[[[key s]|e0]|] it'] eqn:N; cbn [map option_map] in C.
  - destruct l as [|x l]; [discriminate|]. injection C as _ C. destruct (IH it' e l C) as [(j & e1 & J1 & J2 & J3 & J4) (q & e2 & Q1 & Q2 & Q3 & Q4)]. cbn [length].
    destruct (k_load kd (raw key)) as [k|]; [|split; exists 0, CellUnderflow; repeat split; lia]. split; [exists (S j), e1; repeat split; [lia|exact J2|lia|intros X; apply J4; lia]|].
    destruct (load (s_chunk s)) as [[v rest]|e3]; [exists (S q), e2; repeat split; [lia|exact Q2|lia|intros X; apply Q4; lia]|exists 0, e3; repeat split; lia].
  - assert (X : 0 = length l -> e0 = e) by (destruct l; [intros _; injection C as -> _; reflexivity|discriminate]). split; exists 0, e0; repeat split; try lia; exact X.
  - destruct l as [|x l]; [discriminate|]. injection C as _ C. destruct (IH it' e l C) as [(j & e1 & J1 & J2 & J3 & J4) (q & e2 & Q1 & Q2 & Q3 & Q4)]. cbn [length].
    split; [exists (S j), e1; repeat split; [lia|exact J2|lia|intros X; apply J4; lia]|exists (S q), e2; repeat split; [lia|exact Q2|lia|intros X; apply Q4; lia]].
Qed.
End Map.
Print Assumptions C80_remove_bound.
Print Assumptions C80_min_max.
Print Assumptions C80_succeeds.
Print Assumptions C80_drain.
Print Assumptions C80_keys.
Print Assumptions C80_errors.
Print Assumptions C80_passed_on.

(** ** The hypotheses can be met *)
(** The dictionary of [C78_case], which has a history: -5, 7 and 1000000. *)
Example C80_case : exists f d d', typed_history _ (int_key 4) (AddrSpec.in_int 32) byte_chunk (load_un 8) no_error TypedProps.ex3 f /\
  typed_remove_min (int_key 4) no_error TypedProps.ex3 true = Ok (Some ((-5)%Z, byte_chunk 1), d) /\ typed_get (int_key 4) (load_un 8) d 7%Z = Ok (Some 2%N) /\
  typed_remove_max (int_key 4) no_error TypedProps.ex3 false = Ok (Some ((-5)%Z, byte_chunk 1), d) /\
  drain (int_key 4) no_error true true 2 TypedProps.ex3 = Ok ([(1000000%Z, byte_chunk 3); (7%Z, byte_chunk 2)], d') /\ d' <> None /\
  drain (int_key 4) no_error false true 9 TypedProps.ex3 = Ok ([((-5)%Z, byte_chunk 1); (7%Z, byte_chunk 2); (1000000%Z, byte_chunk 3)], None) /\
  calls (typed_keys_next (int_key 4)) 4 (typed_keys (int_key 4) TypedProps.ex3 true true) = yields 4 [1000000%Z; 7%Z; (-5)%Z].
Proof.
  destruct C78_case as (f & H & _). exists f. eexists _, _. split; [exact H|]. split; [vm_compute; reflexivity|]. split; [vm_compute; reflexivity|]. split; [vm_compute; reflexivity|].
  split; [vm_compute; reflexivity|]. split; [discriminate|]. split; vm_compute; reflexivity.
Qed.
