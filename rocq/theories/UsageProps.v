(** * C40: usage trees record exactly what was used. *)
From Verif Require Import Err BuilderModel CellModel HashSpec HashModel FcellSpec Sha256 UsageModel UsageSpec HashProps UsageProofs.
Local Open Scope nat_scope.

(** Whatever the interleaving was: when no call is in progress, the tree contains exactly the
    hashes of the cells that were loaded (or read). *)
Theorem C40_exact m s h : reached m s -> at_rest s -> (h ∈ visited s <-> exists c, used m s c /\ hash_of c = h).
Proof.
  intros R A. pose proof (reached_ok m s R) as O. unfold at_rest in A. rewrite Forall_lookup in A.
  assert (NH : forall t p, pcs s !! t = Some p -> p = Idle) by (intros t p E; eapply A; exact E).
  split.
  - intros H. destruct (ok_above _ _ O h H) as (c & E & [U|(t & p & Et & X)]); [eauto|]. rewrite (NH t p Et) in X. destruct m; destruct X.
  - intros (c & U & <-). destruct m; cbn [used] in U.
    + assert (N : exists k, nodes s !! k = Some c).
      { destruct U as (e & I & X). pose proof (ok_log _ _ O e I) as L. destruct e as [c' k|n d|n i [k|]]; try contradiction; [|eauto]. subst c'. exists k. exact L. }
      destruct N as (k & Ek). destruct (ok_below _ _ O eq_refl k c Ek) as [H|(t & p & Et & X)]; [exact H|]. rewrite (NH t p Et) in X. discriminate.
    + destruct U as (n & d & I & En). destruct (ok_log _ _ O _ I) as (c' & En' & _ & V). rewrite En in En'. injection En' as <-. apply V. reflexivity.
Qed.
(** At any moment, a recorded hash is the hash of a cell that was used or that a call in
    progress is using. *)
Theorem C40_no_more m s h : reached m s -> h ∈ visited s -> exists c, hash_of c = h /\ (used m s c \/ exists t p, pcs s !! t = Some p /\ holding m (nodes s) p c).
Proof. intros R. apply (ok_above _ _ (reached_ok m s R)). Qed.
(** Data accesses are recorded before they return, whatever the other threads do. *)
Theorem C40_data s c : reached OnDataAccess s -> read s c -> hash_of c ∈ visited s.
Proof.
  intros R (n & d & I & En). destruct (ok_log _ _ (reached_ok _ s R) _ I) as (c' & En' & _ & V). rewrite En in En'. injection En' as <-. apply V. reflexivity.
Qed.
(** Tracked cells behave like the cells they wrap: the data is the same, and the references
    lead to tracked cells that wrap the references of the cell. *)
Theorem C40_navigation m s : reached m s ->
  (forall c n, In (Tracked c n) (log s) -> nodes s !! n = Some c) /\
  (forall n d, In (GotData n d) (log s) -> exists c, nodes s !! n = Some c /\ d = f_data c) /\
  (forall n i r, In (GotRef n i r) (log s) -> exists c, nodes s !! n = Some c /\
     match r with
     | Some k => exists c', f_refs c !! i = Some c' /\ nodes s !! k = Some c'
     | None => f_refs c !! i = None \/ 4 <= i
     end).
Proof.
  intros R. pose proof (ok_log _ _ (reached_ok m s R)) as L. split; [|split].
  - intros c n I. exact (L _ I).
  - intros n d I. destruct (L _ I) as (c & E & D & _). eauto.
  - intros n i r I. destruct (L _ I) as (Ln & X). destruct (Nat.ltb_spec i 4) as [Li|Li].
    + destruct X as (c & E & X). exists c. split; [exact E|]. destruct r; auto.
    + subst r. destruct (nodes s !! n) as [c|] eqn:E; [exists c; auto|]. apply lookup_ge_None in E. lia.
Qed.
(** A tracked cell keeps wrapping the same cell. *)
Theorem C40_stable s s' n c : moves s s' -> nodes s !! n = Some c -> nodes s' !! n = Some c.
Proof.
  intros M E. inversion M as [t o ? ? X|t ? ? X]; subst.
  - unfold invoke in X. repeat match goal with X : context [match ?x with _ => _ end] |- _ => destruct x; try discriminate X end; injection X as <-; exact E.
  - unfold step in X. destruct (pcs s !! t) as [p|]; [|discriminate].
    destruct p; repeat match goal with X : match ?x with _ => _ end = Some _ |- _ => destruct x; try discriminate X end; try discriminate; injection X as <-; cbn [nodes]; try exact E;
      apply lookup_app_l_Some; exact E.
Qed.
(** No thread waits for ever: while a call is in progress, some thread can go on. *)
Theorem C40_progress m s : reached m s -> ~ at_rest s -> exists t s', step t s = Some s'.
Proof.
  intros R NA. pose proof (reached_ok m s R) as O. unfold at_rest in NA.
  destruct (existsb (fun p => match p with Idle => false | _ => true end) (pcs s)) eqn:X.
  2:{ exfalso. apply NA. apply List.Forall_forall. intros p I. destruct p; try reflexivity;
      (rewrite <- not_true_iff_false in X; exfalso; apply X, existsb_exists; eexists; split; [exact I|reflexivity]). }
  apply existsb_exists in X. destruct X as (p & I & D). apply elem_of_list_In, elem_of_list_lookup in I. destruct I as (t & Et).
  pose proof (ok_pc _ _ O t p Et) as PC.
  assert (LK : forall n, n < length (nodes s) -> exists c, nodes s !! n = Some c) by (intros n L; apply lookup_lt_is_Some; exact L).
  assert (RUN : forall t p x, pcs s !! t = Some p -> runs p = Some x -> exists t s', step t s = Some s').
  { intros t' p' x Et' Rp. pose proof (ok_pc _ _ O t' p' Et') as PC'. exists t'. unfold step. rewrite Et'. destruct p'; try discriminate Rp; [|eauto].
    destruct PC' as (Ln & _). destruct (LK _ Ln) as (c & ->). destruct (f_refs c !! i); eauto. }
  destruct p as [|c|c|n|n|n|n|n i|n i|n i ch sh|n i ch sh|n i ch].
  - discriminate.
  - exists t. unfold step. rewrite Et. eauto.
  - exists t. unfold step. rewrite Et. eauto.
  - exists t. unfold step. rewrite Et. eauto.
  - exists t. unfold step. rewrite Et. destruct PC as (Ln & _). destruct (LK _ Ln) as (c & ->). eauto.
  - exists t. unfold step. rewrite Et. eauto.
  - exists t. unfold step. rewrite Et. destruct PC as (Ln & _). destruct (LK _ Ln) as (c & ->). eauto.
  - destruct (Nat.ltb_spec i 4) as [Li|Li].
    + destruct (slots s !! (n, i)) as [[|ch]|] eqn:ES.
      * destruct (ok_runner _ _ O _ ES) as (t' & p' & Et' & Rp). eapply RUN; eassumption.
      * exists t. unfold step. rewrite Et, ES. destruct (_ <? _); eauto.
      * exists t. unfold step. rewrite Et, ES. destruct (_ <? _); eauto.
    + exists t. unfold step. rewrite Et. destruct (Nat.ltb_spec i 4); [lia|]. eauto.
  - eapply RUN; [exact Et|reflexivity].
  - eapply RUN; [exact Et|reflexivity].
  - exists t. unfold step. rewrite Et. destruct sh, (ch ≫= (nodes s !!.)); eauto.
  - exists t. unfold step. rewrite Et. eauto.
Qed.
Print Assumptions C40_exact.
Print Assumptions C40_no_more.
Print Assumptions C40_data.
Print Assumptions C40_navigation.
Print Assumptions C40_stable.
Print Assumptions C40_progress.

(** ** Two threads on the tree of [ex_node] *)
Inductive act := Call (t : nat) (o : op) | Go (t : nat).
Fixpoint play (l : list act) (s : state) : option state :=
  match l with
  | [] => Some s
  | a :: l' => match (match a with Call t o => invoke t o s | Go t => step t s end) with Some s' => play l' s' | None => None end
  end.
Lemma play_reached m l : forall s s', reached m s -> play l s = Some s' -> reached m s'.
Proof.
  induction l as [|a l IH]; intros s s' R E; cbn in E; [injection E as <-; exact R|].
  destruct a as [t o|t].
  - destruct (invoke t o s) as [s1|] eqn:E1; [|discriminate]. apply (IH s1); [|exact E]. econstructor; [exact R|econstructor 1; exact E1].
  - destruct (step t s) as [s1|] eqn:E1; [|discriminate]. apply (IH s1); [|exact E]. econstructor; [exact R|econstructor 2; exact E1].
Qed.
(** Two threads load the same reference: the first one creates the tracked child, the second
    one finds it and returns before the first one has recorded it. *)
Definition ex_race : list act :=
  [Call 0 (Track ex_node); Go 0; Go 0; Call 0 (Ref 0 0); Go 0; Go 0; Go 0; Call 1 (Ref 0 0); Go 1; Go 1; Go 1].
Theorem C40_load_not_immediate_refuted : exists s c, reached OnLoad s /\ loaded s c /\ hash_of c ∉ visited s.
Proof.
  destruct (play ex_race (start OnLoad 2)) as [s|] eqn:E; [|vm_compute in E; discriminate].
  exists s, ex_leaf. split; [eapply play_reached; [constructor|exact E]|]. unfold ex_race in E.
  vm_compute in E. injection E as <-. split.
  - exists (GotRef 0 0 (Some 1)). split; [right; left; reflexivity|vm_compute; reflexivity].
  - apply (bool_decide_eq_true_1 (hash_of ex_leaf ∉ _)). vm_compute. reflexivity.
Qed.
Print Assumptions C40_load_not_immediate_refuted.
(** When both threads are done, the two cells are recorded and nothing else. *)
Example C40_case : exists s, reached OnLoad s /\ at_rest s /\ loaded s ex_leaf /\ loaded s ex_node /\ visited s = {[hash_of ex_leaf; hash_of ex_node]}.
Proof.
  destruct (play (ex_race ++ [Go 0; Go 0]) (start OnLoad 2)) as [s|] eqn:E; [|vm_compute in E; discriminate].
  exists s. split; [eapply play_reached; [constructor|exact E]|]. unfold ex_race in E.
  vm_compute in E. injection E as <-. split; [repeat constructor|]. split; [|split].
  - exists (GotRef 0 0 (Some 1)). split; [right; left; reflexivity|vm_compute; reflexivity].
  - eexists. split; [left; reflexivity|reflexivity].
  - apply (bool_decide_eq_true_1 (_ = _)). vm_compute. reflexivity.
Qed.
