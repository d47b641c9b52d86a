(** * C41: promises deliver the published value, to everyone. *)
From Verif Require Import Err PromiseModel PromiseSpec.
Local Open Scope nat_scope.

Section Value.
Context {T : Type}.
Implicit Types (s : state T) (t : thread T).

Definition holds (p : @pc T) : bool :=
  match p with SetLocked _ | SetStored | SetNotified | Check | Cloned _ => true | Idle | Asleep | Woken => false end.
Record ok s : Prop := {
  ok_lock : forall i t, threads s !! i = Some t -> (holds (t_pc t) = true <-> lock s = Some i);
  ok_holder : forall i, lock s = Some i -> exists t, threads s !! i = Some t;
  ok_asleep : forall i t, threads s !! i = Some t -> t_pc t = Asleep -> slot s = None \/ exists j u, threads s !! j = Some u /\ t_pc u = SetStored;
  ok_slot : slot s = last_published (log s);
  ok_clone : forall i t v, threads s !! i = Some t -> t_pc t = Cloned v -> slot s = Some v;
  ok_log : forall l1 i v l2, log s = l1 ++ Returned i v :: l2 -> last_published l1 = Some v
}.

Lemma last_app (l1 l2 : list (event T)) : last_published (l1 ++ l2) = match last_published l2 with Some v => Some v | None => last_published l1 end.
Proof. induction l1 as [|e l1 IH]; cbn; [destruct (last_published l2); reflexivity|]. rewrite IH. destruct (last_published l2); reflexivity. Qed.

Lemma start_ok programs : ok (start programs).
Proof.
  assert (P : forall i t, threads (start programs) !! i = Some t -> t_pc t = Idle).
  { intros i t E. cbn in E. rewrite list_lookup_fmap in E. destruct (programs !! i); cbn in E; [injection E as <-; reflexivity|discriminate]. }
  split; cbn [start lock slot log].
  - intros i t E. rewrite (P i t E). cbn. split; discriminate.
  - discriminate.
  - intros i t E. rewrite (P i t E). discriminate.
  - reflexivity.
  - intros i t v E. rewrite (P i t E). discriminate.
  - intros l1 i v l2 E. destruct l1; discriminate.
Qed.

Lemma wake_lookup (l : list (thread T)) i t : map wake l !! i = Some t -> exists t0, l !! i = Some t0 /\ t = wake t0.
Proof. intros E. rewrite list_lookup_fmap in E. destruct (l !! i) as [t0|]; [|discriminate]. injection E as <-. eauto. Qed.
Lemma wake_holds t : holds (t_pc (wake t)) = holds (t_pc t).
Proof. unfold wake. destruct t as [[] ?]; reflexivity. Qed.
Lemma wake_asleep t : t_pc (wake t) <> Asleep.
Proof. unfold wake. destruct t as [[] ?]; discriminate. Qed.
Lemma wake_cloned t v : t_pc (wake t) = Cloned v -> t_pc t = Cloned v.
Proof. unfold wake. destruct t as [[] ?]; try discriminate; auto. Qed.

(** Steps that change one thread, the lock and possibly the slot. *)
Lemma insert_look (l : list (thread T)) i t0 t' j t : l !! i = Some t0 -> <[i := t']> l !! j = Some t -> (j = i /\ t = t') \/ (j <> i /\ l !! j = Some t).
Proof.
  intros E0 E. destruct (decide (j = i)) as [->|D].
  - rewrite list_lookup_insert in E by (eapply lookup_lt_Some; eassumption). injection E as <-. auto.
  - rewrite list_lookup_insert_ne in E by congruence. auto.
Qed.

Lemma step_ok i s s' : ok s -> step i s = Some s' -> ok s'.
Proof.
  intros [O1 O2 O3 O4 O5 O6] E. unfold step in E. destruct (threads s !! i) as [[p todo]|] eqn:Ei; [|discriminate].
  pose proof (O1 i _ Ei) as Hi. cbn [t_pc] in Hi.
  assert (LI : forall t', exists t, <[i := t']> (threads s) !! i = Some t).
  { intros t'. exists t'. apply list_lookup_insert. eapply lookup_lt_Some; eassumption. }
  (* changes of the lock only *)
  assert (G : forall lk p' todo', holds p' = match lk with Some j => bool_decide (j = i) | None => false end ->
    (lk = Some i \/ lk = None) -> (lock s = None \/ lock s = Some i) -> (forall v, p' <> Cloned v) ->
    (p' = Asleep -> slot s = None) -> p <> SetStored ->
    ok (mkS lk (slot s) (<[i := mkT p' todo']> (threads s)) (log s))).
  { intros lk p' todo' H HL HS HC HA NS. split; cbn [threads lock slot log]; try assumption.
    - intros j t Ej. destruct (insert_look _ _ _ _ _ _ Ei Ej) as [(-> & ->)|(D & Ej')].
      + cbn [t_pc]. rewrite H. destruct HL as [-> | ->]; [rewrite bool_decide_eq_true_2 by reflexivity; tauto|split; discriminate].
      + rewrite (O1 j t Ej'). destruct HL as [-> | ->], HS as [-> | ->]; split; congruence.
    - intros j Ej. destruct HL as [-> | ->]; [|discriminate]. injection Ej as <-. apply LI.
    - intros j t Ej As. destruct (insert_look _ _ _ _ _ _ Ei Ej) as [(-> & ->)|(D & Ej')].
      + left. apply HA. exact As.
      + destruct (O3 j t Ej' As) as [|(j' & u & Eu & Su)]; [auto|]. right. exists j', u. split; [|exact Su].
        rewrite list_lookup_insert_ne; [exact Eu|]. intros ->. rewrite Ei in Eu. injection Eu as <-. apply NS. exact Su.
    - intros j t v Ej As. destruct (insert_look _ _ _ _ _ _ Ei Ej) as [(-> & ->)|(D & Ej')]; [destruct (HC v As)|]. eapply O5; eassumption. }
  destruct p as [|v| | | | | |v].
  - destruct todo as [|[v|] todo]; [discriminate| |]; destruct (lock s) eqn:EL; try discriminate; injection E as <-.
    + apply G; auto; try congruence. cbn. rewrite bool_decide_eq_true_2; reflexivity.
    + apply G; auto; try congruence. cbn. rewrite bool_decide_eq_true_2; reflexivity.
  - injection E as <-. assert (EL : lock s = Some i) by (apply Hi; reflexivity).
    split; cbn [threads lock slot log].
    + intros j t Ej. destruct (insert_look _ _ _ _ _ _ Ei Ej) as [(-> & ->)|(D & Ej')]; [cbn; tauto|apply O1; exact Ej'].
    + intros j Ej. rewrite EL in Ej. injection Ej as <-. apply LI.
    + intros j t Ej As. right. exists i, (mkT SetStored todo). split; [|reflexivity]. apply list_lookup_insert. eapply lookup_lt_Some; eassumption.
    + rewrite last_app. reflexivity.
    + intros j t v' Ej As. destruct (insert_look _ _ _ _ _ _ Ei Ej) as [(-> & ->)|(D & Ej')]; [discriminate As|].
      exfalso. apply D. assert (holds (t_pc t) = true) as X by (rewrite As; reflexivity). apply (O1 j t Ej') in X. congruence.
    + intros l1 j v' l2 EE. destruct l2 as [|e l2 _] using rev_ind; [apply app_inj_tail in EE; destruct EE; discriminate|].
      rewrite app_comm_cons, app_assoc in EE. apply app_inj_tail in EE. destruct EE as (EE & _). eapply O6; eassumption.
  - injection E as <-. assert (EL : lock s = Some i) by (apply Hi; reflexivity).
    split; cbn [threads lock slot log]; try assumption.
    + intros j t Ej. destruct (wake_lookup _ _ _ Ej) as (t0 & Ej0 & ->). rewrite wake_holds.
      destruct (insert_look _ _ _ _ _ _ Ei Ej0) as [(-> & ->)|(D & Ej')]; [cbn; tauto|apply O1; exact Ej'].
    + intros j Ej. rewrite EL in Ej. injection Ej as <-. destruct (LI (mkT SetNotified todo)) as (t & Et). exists (wake t). rewrite list_lookup_fmap, Et. reflexivity.
    + intros j t Ej As. destruct (wake_lookup _ _ _ Ej) as (t0 & Ej0 & ->). destruct (wake_asleep _ As).
    + intros j t v' Ej As. destruct (wake_lookup _ _ _ Ej) as (t0 & Ej0 & ->). apply wake_cloned in As.
      destruct (insert_look _ _ _ _ _ _ Ei Ej0) as [(-> & ->)|(D & Ej')]; [discriminate As|]. eapply O5; eassumption.
  - injection E as <-. apply G; auto; try congruence. right. apply Hi. reflexivity.
  - assert (EL : lock s = Some i) by (apply Hi; reflexivity). destruct (slot s) as [v|] eqn:ES; injection E as <-.
    + split; cbn [threads lock slot log]; try assumption.
      * intros j t Ej. destruct (insert_look _ _ _ _ _ _ Ei Ej) as [(-> & ->)|(D & Ej')]; [cbn; tauto|apply O1; exact Ej'].
      * intros j Ej. rewrite EL in Ej. injection Ej as <-. apply LI.
      * intros j t Ej As. destruct (insert_look _ _ _ _ _ _ Ei Ej) as [(-> & ->)|(D & Ej')]; [discriminate As|].
        destruct (O3 j t Ej' As) as [|(j' & u & Eu & Su)]; [discriminate|]. right. exists j', u. split; [|exact Su].
        rewrite list_lookup_insert_ne; [exact Eu|]. intros ->. rewrite Ei in Eu. injection Eu as <-. discriminate.
      * intros j t v' Ej As. destruct (insert_look _ _ _ _ _ _ Ei Ej) as [(-> & ->)|(D & Ej')]; [cbn in As; congruence|]. eapply O5; eassumption.
    + apply G; auto; try congruence.
  - discriminate.
  - destruct (lock s) eqn:EL; [discriminate|]. injection E as <-. apply G; auto; try congruence. cbn. rewrite bool_decide_eq_true_2; reflexivity.
  - injection E as <-. assert (EL : lock s = Some i) by (apply Hi; reflexivity).
    assert (G' : ok (mkS None (slot s) (<[i:=mkT Idle todo]> (threads s)) (log s))) by (apply G; auto; congruence).
    destruct G' as [Q1 Q2 Q3 Q4 Q5 Q6]. split; try assumption; cbn [threads lock slot log] in *.
    + rewrite last_app. cbn. exact O4.
    + intros l1 j v' l2 EE. destruct l2 as [|e l2 _] using rev_ind.
      * apply app_inj_tail in EE. destruct EE as (E1 & EE). rewrite <- E1. injection EE as <- <-. rewrite <- O4. apply (O5 i _ v Ei). reflexivity.
      * rewrite app_comm_cons, app_assoc in EE. apply app_inj_tail in EE. destruct EE as (EE & _). eapply O6; eassumption.
Qed.
Lemma spurious_ok i s s' : ok s -> spurious i s = Some s' -> ok s'.
Proof.
  intros [O1 O2 O3 O4 O5 O6] E. unfold spurious in E. destruct (threads s !! i) as [[p todo]|] eqn:Ei; [|discriminate]. destruct p; try discriminate. injection E as <-.
  pose proof (O1 i _ Ei) as Hi. cbn [t_pc] in Hi. split; cbn [threads lock slot log]; try assumption.
  - intros j t Ej. destruct (insert_look _ _ _ _ _ _ Ei Ej) as [(-> & ->)|(D & Ej')]; [exact Hi|apply O1; exact Ej'].
  - intros j Ej. destruct (O2 j Ej) as (t & Et). destruct (decide (j = i)) as [->|D]; [|exists t; rewrite list_lookup_insert_ne by congruence; exact Et].
    eexists. apply list_lookup_insert. eapply lookup_lt_Some; eassumption.
  - intros j t Ej As. destruct (insert_look _ _ _ _ _ _ Ei Ej) as [(-> & ->)|(D & Ej')]; [discriminate As|].
    destruct (O3 j t Ej' As) as [|(j' & u & Eu & Su)]; [auto|]. right. exists j', u. split; [|exact Su].
    rewrite list_lookup_insert_ne; [exact Eu|]. intros ->. rewrite Ei in Eu. injection Eu as <-. discriminate.
  - intros j t v' Ej As. destruct (insert_look _ _ _ _ _ _ Ei Ej) as [(-> & ->)|(D & Ej')]; [discriminate As|]. eapply O5; eassumption.
Qed.
Lemma moves_ok s s' : ok s -> moves s s' -> ok s'.
Proof. intros O M. inversion M; subst; [eapply step_ok|eapply spurious_ok]; eassumption. Qed.
Lemma execution_ok n s s' : ok s -> execution n s s' -> ok s'.
Proof. intros O E. induction E; [exact O|]. apply IHE. eapply moves_ok; eassumption. Qed.
Lemma reached_ok s : reached s -> ok s.
Proof. intros (p & n & E). eapply execution_ok; [apply start_ok|exact E]. Qed.

(** In every execution, a call of [wait_cloned] that returns does so after a publication,
    and returns the value published last. *)
Theorem C41_value s l1 i v l2 : reached s -> log s = l1 ++ Returned i v :: l2 -> last_published l1 = Some v.
Proof. intros R. apply (ok_log s (reached_ok s R)). Qed.
(** In particular a promise that is set once gives exactly that value. *)
Theorem C41_once s v i w : reached s -> (forall x, In (Published x) (log s) -> x = v) -> In (Returned i w) (log s) ->
  w = v /\ In (Published v) (log s).
Proof.
  intros R U I. apply in_split in I. destruct I as (l1 & l2 & E). pose proof (C41_value s l1 i w l2 R E) as L.
  assert (P : In (Published w) l1).
  { clear -L. induction l1 as [|e l1 IH]; [discriminate|]. cbn in L. destruct (last_published l1) as [x|] eqn:EX.
    - right. apply IH. exact L.
    - destruct e; [|discriminate]. injection L as ->. left. reflexivity. }
  assert (In (Published w) (log s)) as P' by (rewrite E; apply in_or_app; left; exact P).
  pose proof (U w P') as ->. auto.
Qed.

(** Work left to do. *)
Definition pc_work (p : @pc T) : nat := match p with Idle => 0 | SetLocked _ => 3 | SetStored => 2 | SetNotified => 1 | Check => 2 | Asleep => 4 | Woken => 3 | Cloned _ => 1 end.
Definition work_t t : nat := pc_work (t_pc t) + 5 * length (t_todo t).
Definition work s : nat := list_sum (map work_t (threads s)).
Lemma work_insert (l : list (thread T)) i t t' : l !! i = Some t -> work_t t' < work_t t -> list_sum (map work_t (<[i := t']> l)) < list_sum (map work_t l).
Proof.
  assert (C : forall x l', list_sum (map work_t (x :: l')) = work_t x + list_sum (map work_t l')) by reflexivity.
  revert i. induction l as [|x l IH]; intros [|i] E L; try discriminate; cbn [lookup list_lookup] in E.
  - injection E as ->. change (<[0 := t']> (t :: l)) with (t' :: l). rewrite !C. lia.
  - change (<[S i := t']> (x :: l)) with (x :: <[i := t']> l). rewrite !C. specialize (IH i E L). lia.
Qed.
Lemma work_wake (l : list (thread T)) : list_sum (map work_t (map wake l)) <= list_sum (map work_t l).
Proof.
  induction l as [|x l IH]; [reflexivity|]. cbn [map]. unfold list_sum in *. cbn [fold_right].
  enough (work_t (wake x) <= work_t x) by lia. unfold wake, work_t. destruct x as [[] ?]; cbn; lia.
Qed.
Lemma moves_work s s' : slot s <> None -> moves s s' -> slot s' <> None /\ work s' < work s.
Proof.
  intros NS M. inversion M as [i ? ? E|i ? ? E]; subst.
  - unfold step in E. destruct (threads s !! i) as [[p todo]|] eqn:Ei; [|discriminate].
    destruct p as [|v| | | | | |v].
    + destruct todo as [|[v|] todo]; [discriminate| |]; destruct (lock s); try discriminate; injection E as <-;
        (split; [exact NS|]; eapply work_insert; [exact Ei|]; unfold work_t; cbn; lia).
    + injection E as <-. split; [discriminate|]. eapply work_insert; [exact Ei|]. unfold work_t. cbn. lia.
    + injection E as <-. split; [exact NS|]. unfold work. cbn [threads]. eapply Nat.le_lt_trans; [apply work_wake|]. eapply work_insert; [exact Ei|]. unfold work_t. cbn. lia.
    + injection E as <-. split; [exact NS|]. eapply work_insert; [exact Ei|]. unfold work_t. cbn. lia.
    + destruct (slot s); [|congruence]. injection E as <-. split; [discriminate|]. eapply work_insert; [exact Ei|]. unfold work_t. cbn. lia.
    + discriminate.
    + destruct (lock s); [discriminate|]. injection E as <-. split; [exact NS|]. eapply work_insert; [exact Ei|]. unfold work_t. cbn. lia.
    + injection E as <-. split; [exact NS|]. eapply work_insert; [exact Ei|]. unfold work_t. cbn. lia.
  - unfold spurious in E. destruct (threads s !! i) as [[p todo]|] eqn:Ei; [|discriminate]. destruct p; try discriminate. injection E as <-.
    split; [exact NS|]. eapply work_insert; [exact Ei|]. unfold work_t. cbn. lia.
Qed.

(** Once a value is published, every continuation ends after a bounded number of actions ... *)
Theorem C41_bounded s : reached s -> last_published (log s) <> None -> exists bound, forall n s', execution n s s' -> n <= bound.
Proof.
  intros R P. rewrite <- (ok_slot s (reached_ok s R)) in P. exists (work s). clear R. intros n s' E. induction E as [|n s s1 s2 M E IH]; [lia|].
  destruct (moves_work s s1 P M) as (P' & W). specialize (IH P'). lia.
Qed.
(** ... and ends only when every call of every thread has returned: no wake-up is lost, and no
    thread depends on waking up without notification. *)
Theorem C41_no_lost_wakeup s : reached s -> last_published (log s) <> None -> quiet s -> Forall finished (threads s).
Proof.
  intros R P Q. pose proof (reached_ok s R) as [O1 O2 O3 O4 O5 O6]. rewrite <- O4 in P.
  assert (NL : lock s = None).
  { destruct (lock s) as [i|] eqn:EL; [|reflexivity]. exfalso. destruct (O2 i eq_refl) as ([p todo] & Ei). pose proof (proj2 (O1 i _ Ei) eq_refl) as H.
    specialize (Q i). unfold step in Q. rewrite Ei in Q. destruct p; try discriminate. destruct (slot s); discriminate. }
  apply Forall_lookup. intros i [p todo] Ei. pose proof (Q i) as Qi. unfold step in Qi. rewrite Ei, NL in Qi.
  assert (NH : holds p = false).
  { destruct (holds p) eqn:H; [|reflexivity]. apply (O1 i _ Ei) in H. congruence. }
  destruct p; try discriminate.
  - destruct todo as [|[v|] todo]; try discriminate. split; reflexivity.
  - destruct (O3 i _ Ei eq_refl) as [|(j & u & Eu & Su)]; [congruence|].
    assert (holds (t_pc u) = true) as H by (rewrite Su; reflexivity). apply (O1 j u Eu) in H. congruence.
Qed.
(** Counting the returns of a thread. *)
Fixpoint waits (c : list (call T)) : nat := match c with [] => 0 | Wait :: c' => S (waits c') | Set_ _ :: c' => waits c' end.
Fixpoint returns (i : nat) (l : list (event T)) : nat :=
  match l with [] => 0 | Returned j _ :: l' => (if j =? i then 1 else 0) + returns i l' | Published _ :: l' => returns i l' end.
Definition pending t : nat := match t_pc t with Check | Asleep | Woken | Cloned _ => 1 | _ => 0 end.
Definition owed i (l : list (event T)) t : nat := returns i l + pending t + waits (t_todo t).
Lemma returns_app i l1 l2 : returns i (l1 ++ l2) = returns i l1 + returns i l2.
Proof. induction l1 as [|[]]; cbn; lia. Qed.
Lemma moves_owed s s' i t' : moves s s' -> threads s' !! i = Some t' -> exists t, threads s !! i = Some t /\ owed i (log s') t' = owed i (log s) t.
Proof.
  intros M E'. inversion M as [j ? ? E|j ? ? E]; subst.
  - unfold step in E. destruct (threads s !! j) as [[p todo]|] eqn:Ej; [|discriminate].
    assert (G : forall lk sl p' todo' ev, s' = mkS lk sl (<[j := mkT p' todo']> (threads s)) (log s ++ ev) ->
      owed j (log s ++ ev) (mkT p' todo') = owed j (log s) (mkT p todo) -> (forall k, k <> j -> returns k ev = 0) ->
      exists t, threads s !! i = Some t /\ owed i (log s') t' = owed i (log s) t).
    { intros lk sl p' todo' ev -> O Z. cbn [threads log] in *. destruct (insert_look _ _ _ _ _ _ Ej E') as [(-> & ->)|(D & Ei)]; [eauto|].
      exists t'. split; [exact Ei|]. unfold owed. rewrite returns_app, (Z i D). lia. }
    assert (G0 : forall lk sl p' todo', s' = mkS lk sl (<[j := mkT p' todo']> (threads s)) (log s) ->
      owed j (log s) (mkT p' todo') = owed j (log s) (mkT p todo) -> exists t, threads s !! i = Some t /\ owed i (log s') t' = owed i (log s) t).
    { intros lk sl p' todo' -> O. apply (G lk sl p' todo' []); rewrite ?app_nil_r; auto. }
    destruct p as [|v| | | | | |v].
    + destruct todo as [|[v|] todo]; [discriminate| |]; destruct (lock s); try discriminate; injection E as E; symmetry in E; eapply G0; try exact E; unfold owed; cbn; lia.
    + injection E as E; symmetry in E. eapply G; [exact E|unfold owed; rewrite returns_app; cbn; lia|reflexivity].
    + injection E as <-. cbn [threads log] in *. destruct (wake_lookup _ _ _ E') as (t0 & E0 & ->).
      destruct (insert_look _ _ _ _ _ _ Ej E0) as [(-> & ->)|(D & Ei)]; [exists (mkT SetStored todo); split; [exact Ej|reflexivity]|].
      exists t0. split; [exact Ei|]. unfold owed, wake. destruct t0 as [[] ?]; reflexivity.
    + injection E as E; symmetry in E; eapply G0; try exact E; unfold owed; cbn; lia.
    + destruct (slot s); injection E as E; symmetry in E; eapply G0; try exact E; unfold owed; cbn; lia.
    + discriminate.
    + destruct (lock s); [discriminate|]. injection E as E; symmetry in E; eapply G0; try exact E; unfold owed; cbn; lia.
    + injection E as E; symmetry in E. eapply G; [exact E| |].
      * unfold owed. rewrite returns_app. cbn. rewrite Nat.eqb_refl. lia.
      * intros k K. cbn. destruct (Nat.eqb_spec j k); [congruence|reflexivity].
  - unfold spurious in E. destruct (threads s !! j) as [[p todo]|] eqn:Ej; [|discriminate]. destruct p; try discriminate. injection E as <-. cbn [threads log] in *.
    destruct (insert_look _ _ _ _ _ _ Ej E') as [(-> & ->)|(D & Ei)]; [exists (mkT Asleep todo); auto|eauto].
Qed.
Lemma execution_snoc n s s' s'' : execution n s s' -> moves s' s'' -> execution (S n) s s''.
Proof. intros E M. induction E; [econstructor; [exact M|constructor]|]. econstructor; [eassumption|auto]. Qed.
Lemma execution_owed n s s' : execution n s s' -> forall i t', threads s' !! i = Some t' -> exists t, threads s !! i = Some t /\ owed i (log s') t' = owed i (log s) t.
Proof.
  intros E. induction E as [s|n s s1 s2 M E IH]; intros i t' E'; [eauto|].
  destruct (IH i t' E') as (t1 & E1 & ->). eapply moves_owed; eassumption.
Qed.
(** An execution that publishes a value and cannot continue has returned from every call of
    [wait_cloned], of every thread. *)
Theorem C41_all_return programs n s i p : execution n (start programs) s -> last_published (log s) <> None -> quiet s ->
  programs !! i = Some p -> returns i (log s) = waits p.
Proof.
  intros E P Q Ep.
  assert (L : length (threads s) = length programs).
  { clear -E. replace (length programs) with (length (threads (start programs))) by (cbn; apply map_length). induction E as [|n s s1 s2 M E IH]; [reflexivity|].
    rewrite IH. inversion M as [j ? ? X|j ? ? X]; subst.
    - unfold step in X. destruct (threads s !! j) as [[pc todo]|]; [|discriminate].
      repeat match goal with X : match ?x with _ => _ end = Some _ |- _ => destruct x; try discriminate X end; injection X as <-; cbn [threads]; rewrite ?map_length, ?insert_length; reflexivity.
    - unfold spurious in X. destruct (threads s !! j) as [[[] todo]|]; try discriminate. injection X as <-. cbn [threads]. apply insert_length. }
  destruct (threads s !! i) as [t'|] eqn:Et.
  2:{ apply lookup_ge_None in Et. apply lookup_lt_Some in Ep. lia. }
  destruct (execution_owed n _ s E i t' Et) as (t & Es & O). cbn in Es. rewrite list_lookup_fmap, Ep in Es. injection Es as <-.
  pose proof (C41_no_lost_wakeup s) as F. rewrite Forall_lookup in F. destruct (F (ex_intro _ programs (ex_intro _ n E)) P Q i t' Et) as (F1 & F2).
  destruct t' as [pc' todo']. cbn in F1, F2. subst. unfold owed in O. cbn in O. lia.
Qed.
End Value.
Print Assumptions C41_value.
Print Assumptions C41_once.
Print Assumptions C41_bounded.
Print Assumptions C41_no_lost_wakeup.
Print Assumptions C41_all_return.

(** Two threads that wait and one that publishes 7: the first waiter goes to sleep, is woken
    up by the publication, and both get the value. *)
Fixpoint play (l : list nat) (s : state nat) : option (state nat) :=
  match l with [] => Some s | i :: l' => match step i s with Some s' => play l' s' | None => None end end.
Lemma play_execution l : forall s s', play l s = Some s' -> execution (length l) s s'.
Proof.
  induction l as [|i l IH]; intros s s' E; cbn in E; [injection E as ->; constructor|].
  destruct (step i s) as [s1|] eqn:E1; [|discriminate]. econstructor; [econstructor 1; exact E1|apply IH; exact E].
Qed.
Example C41_case : exists s, execution 12 (start [[Wait]; [Set_ 7]; [Wait]]) s /\ quiet s /\
  log s = [Published 7; Returned 2 7; Returned 0 7].
Proof.
  destruct (play [0; 0; 1; 1; 1; 1; 2; 2; 2; 0; 0; 0] (start [[Wait]; [Set_ 7]; [Wait]])) as [s|] eqn:E; [|vm_compute in E; discriminate].
  exists s. vm_compute in E. injection E as <-. split; [|split; [|reflexivity]].
  - apply (play_execution [0; 0; 1; 1; 1; 1; 2; 2; 2; 0; 0; 0]). reflexivity.
  - intros [|[|[|i]]]; reflexivity.
Qed.
