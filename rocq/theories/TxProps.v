(** * C59: transactions and their phases are written and read in the layouts of their schemes *)
From Verif Require Import Err BitsProofs IntModel NumModel AddrSpec NumSpec CurrencyModel CellModel DictModel ChunkModel ChunkSpec ChunkProofs DeriveModel DeriveSpec AccountModel StructsModel StructsSpec StructsProofs DeriveProps
  CasesSpec CasesProofs TxModel TxSpec TxProofs.
Local Open Scope N_scope.

(** ** The phases: every one is written as its scheme says and read from it *)
Theorem C59_phases fin :
  lawful change_k change_w /\
  lawful reason_k reason_w /\
  lawful (derived storage_phase) storage_phase_w /\
  lawful (derived credit_phase) credit_phase_w /\
  lawful (compute_k fin) (compute_w fin) /\
  lawful action_k action_w /\
  lawful bounce_k bounce_w.
Proof. split_and!; [apply lawful_change|apply lawful_reason|apply lawful_storage_phase|apply lawful_credit|apply lawful_compute|apply lawful_action|apply lawful_bounce]. Qed.
Print Assumptions C59_phases.
Theorem C59_info fin : lawful (info_k fin) (info_w fin).
Proof. apply lawful_info. Qed.
Print Assumptions C59_info.
Theorem C59_transaction fin : lawful (transaction_k fin) (transaction_w fin).
Proof. apply lawful_transaction. Qed.
Print Assumptions C59_transaction.

(** ** Every value in range is written, has room in a cell, and is read back, whatever follows *)
Theorem C59_round_trip fin :
  (forall i, w_ok (info_w fin) i -> exists x, c_store (info_k fin) i ([], []) = Ok x /\ forall rest, c_load (info_k fin) (capp x rest) = Ok (i, rest)) /\
  (forall t, w_ok (transaction_w fin) t -> exists x, c_store (transaction_k fin) t ([], []) = Ok x /\ forall rest, c_load (transaction_k fin) (capp x rest) = Ok (t, rest)).
Proof.
  split.
  - intros i O. destruct (C58_round_trip _ _ i (lawful_info fin) O) as (x & _ & S & L & _); [vm_compute; lia|vm_compute; lia|eauto].
  - intros t O. destruct (C58_round_trip _ _ t (lawful_transaction fin) O) as (x & _ & S & L & _); [vm_compute; lia|vm_compute; lia|eauto].
Qed.
Print Assumptions C59_round_trip.

(** What the conditions mean: the numbers and hashes fit, and the cells of the parts can be
    built.  Nothing else is asked for. *)
Definition phases_ok (e : executed) : Prop :=
  e_gas_fees e < 2 ^ 120 /\ e_gas_used e < 2 ^ 56 /\ e_gas_limit e < 2 ^ 56 /\ (forall c, e_gas_credit e = Some c -> c < 2 ^ 24) /\
  (-2 ^ 7 <= e_mode e < 2 ^ 7)%Z /\ (-2 ^ 31 <= e_exit_code e < 2 ^ 31)%Z /\ (forall a, e_exit_arg e = Some a -> (-2 ^ 31 <= a < 2 ^ 31)%Z) /\ e_vm_steps e < 2 ^ 32 /\
  (Forall byte_ok (e_init_hash e) /\ length (e_init_hash e) = 32%nat) /\ (Forall byte_ok (e_final_hash e) /\ length (e_final_hash e) = 32%nat).
Theorem C59_executed_ok e : w_ok (compute_w (fun _ _ => Ok tt)) (Executed e) <-> phases_ok e.
Proof.
  destruct e as [s u a g used lim cr mode code arg steps h1 h2].
  cbn [compute_w cases_w w_ok br_layout br_value executed_w executed_fields seq_w end_w bool_w tokens_w var_w exact_w in_cell_w maybe_w int_w uint_w hash_w bytes_w fst snd
    e_success e_state_used e_activated e_gas_fees e_gas_used e_gas_limit e_gas_credit e_mode e_exit_code e_exit_arg e_vm_steps e_init_hash e_final_hash].
  unfold phases_ok, in_int.
  cbn [e_success e_state_used e_activated e_gas_fees e_gas_used e_gas_limit e_gas_credit e_mode e_exit_code e_exit_arg e_vm_steps e_init_hash e_final_hash].
  change (8 * (2 ^ N.of_nat 4 - 1)) with 120. change (8 * (2 ^ N.of_nat 3 - 1)) with 56. change (8 * (2 ^ N.of_nat 2 - 1)) with 24. change (N.of_nat 32) with 32.
  change (Z.of_nat 8 - 1)%Z with 7%Z. change (Z.of_nat 32 - 1)%Z with 31%Z.
  assert (O : forall {A} (P : A -> Prop) (o : option A), match o with Some a => P a | None => True end <-> forall a, o = Some a -> P a).
  { intros A P [x|]; split; auto; [intros H y [= <-]; exact H|discriminate]. }
  rewrite (O N (fun a => a < 2 ^ 24) cr), (O Z (fun a => (- 2 ^ 31 <= a < 2 ^ 31)%Z) arg). tauto.
Qed.
Print Assumptions C59_executed_ok.

(** ** Only that is read *)
(** Nothing but the scheme is read as a transaction: the tag, the fields in the order of the
    scheme, and the messages in the first reference. *)
Theorem C59_read fin b t rest : c_load (transaction_k fin) b = Ok (t, rest) <-> exists x, w_read (transaction_w fin) t x /\ b = capp x rest.
Proof. apply C58_read, lawful_transaction. Qed.
Print Assumptions C59_read.
(** Transactions with equal representations are equal. *)
Theorem C59_injective fin t u x : w_read (transaction_w fin) t x -> w_read (transaction_w fin) u x -> t = u.
Proof. apply (C58_injective _ _ _ _ _ (lawful_transaction fin)). Qed.
Print Assumptions C59_injective.
(** Every representation starts with 0111; descriptions with 0000 or 001; the phases that start
    with other bits are refused. *)
Theorem C59_tags fin :
  (forall t x, w_read (transaction_w fin) t x -> take 4 (fst x) = [false; true; true; true]) /\
  (forall i x, w_read (info_w fin) i x -> take 4 (fst x) = [false; false; false; false] \/ take 3 (fst x) = [false; false; true]) /\
  (forall b r rest, c_load reason_k b = Ok (r, rest) -> take 3 (fst b) <> [true; true; true]).
Proof.
  split_and!.
  - intros t x (y & -> & _). reflexivity.
  - intros [i|i] x (y & -> & _); [left|right]; reflexivity.
  - intros b r rest H. apply (law_load _ _ lawful_reason) in H. destruct H as (x & (y & -> & Y) & ->). destruct r; cbn in Y; subst y; cbn; try discriminate; destruct (fst rest) as [|c ?]; discriminate.
Qed.
Print Assumptions C59_tags.
(** The number of outgoing messages in a transaction is not compared with the messages. *)
Theorem C59_count_unchecked fin t n : w_ok (transaction_w fin) t -> n < 2 ^ 15 ->
  let t' := Transaction (t_account t) (t_lt t) (t_prev_hash t) (t_prev_lt t) (t_now t) n (t_orig t) (t_end t) (t_in_msg t) (t_out_msgs t) (t_fees t) (t_update t) (t_info t) in
  exists x, c_store (transaction_k fin) t' ([], []) = Ok x /\ forall rest, c_load (transaction_k fin) (capp x rest) = Ok (t', rest).
Proof.
  intros O N t'. apply C59_round_trip. unfold transaction_w, as_w in *. cbn [w_ok] in *. destruct t. subst t'. unfold transaction_fields in *. cbn in *. tauto.
Qed.
Print Assumptions C59_count_unchecked.

(** Cases: an ordinary transaction with all phases, and its description. *)
Example C59_case :
  let ok (_ : list bool) (_ : list cell) : res unit := Ok tt in
  let h := List.repeat 171 32 in
  let storage := (5, (Some 7, (ToFrozen, tt))) in
  let comp := Executed (Executed' true false true 1000 900 10000 (Some 100) (-1) 4 (Some (-9)%Z) 77 h h) in
  let act := Action true true false Unchanged (Some 3) None (-2) (Some 8%Z) 4 1 2 3 h (1, (2, tt)) in
  let i := Ordinary (Ordinary' true (Some storage) (Some (None, (Currency 6 None, tt))) comp (Some act) false (Some (NoFunds ((1, (600, tt)), (9, tt)))) true) in
  let j := TickTock (TickTock' Tock storage (Skipped (Suspended, tt)) None true false) in
  let c := Cell false [true; false] [] in
  let t := Transaction h 100 h 99 1700000000 3 SUninit SActive (Some c) (Some c) (Currency 11 None) c c in
  let via {A} (k : codec A) (a : A) := (let? x := c_store k a ([], []) in let? (a', rest) := c_load k x in Ok (length (fst x), length (snd x), a', rest)) in
  w_ok (info_w ok) i /\ w_ok (info_w ok) j /\ w_ok (transaction_w ok) t /\
  via (info_k ok) i = Ok (120%nat, 2%nat, i, ([], [])) /\ via (info_k ok) j = Ok (38%nat, 0%nat, j, ([], [])) /\ via (transaction_k ok) t = Ok (708%nat, 3%nat, t, ([], [])).
Proof.
  assert (H : Forall byte_ok (List.repeat 171 32) /\ length (List.repeat 171 32) = 32%nat) by (split; [repeat constructor|reflexivity]).
  cbv zeta. refine (conj _ (conj _ (conj _ _))); [| | |split_and!; vm_compute; reflexivity]; revert H; generalize (List.repeat 171 32); intros h H.
  all: repeat first [exact Logic.I | exact H | reflexivity | intros y _; reflexivity | split | discriminate].
Qed.
