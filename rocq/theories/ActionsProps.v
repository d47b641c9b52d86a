(** * Output actions (C67) *)
From Verif Require Import Err BitsProofs IntModel IterModel NumModel CurrencyModel CurrencySpec CellModel DictModel ChunkModel LazyModel ChunkSpec ChunkProofs
  DeriveModel DeriveSpec StructsModel StructsSpec StructsProofs DeriveProps CasesSpec CasesProofs TxModel TxProofs BlockProofs ActionsModel ActionsSpec ActionsProofs.
Local Open Scope N_scope.

(** An action is stored as the schema says, and what is loaded is exactly what the schema reads. *)
Theorem C67_layout : lawful out_action_k out_action_w.
Proof. exact lawful_out_action. Qed.
Print Assumptions C67_layout.

(** What was stored is loaded back, whatever stands behind it. *)
Theorem C67_round_trip a : w_ok out_action_w a -> forall rest,
  exists x, store_action_out a ([], []) = Ok x /\ load_action_out (capp x rest) = Ok (a, rest).
Proof.
  intros H rest. destruct (law_ok _ _ lawful_out_action a H) as (x & W).
  assert (B : (length (fst x) <= 296)%nat /\ (length (snd x) <= 1)%nat).
  { pose proof (law_bits _ _ lawful_out_action a x W) as B1. pose proof (law_refs _ _ lawful_out_action a x W) as B2. auto. }
  exists x. split.
  - pose proof (law_store _ _ lawful_out_action a x W ([], [])) as S. cbn [out_action_k c_store] in S. rewrite S by (split; cbn; lia).
    cbn [fst snd length Nat.add]. rewrite (proj2 (Nat.ltb_ge _ _)), (proj2 (Nat.ltb_ge _ _)) by lia. destruct x. reflexivity.
  - exact (reads_back _ _ _ _ rest (law_load _ _ lawful_out_action) (law_same _ _ lawful_out_action _ _ W)).
Qed.
Print Assumptions C67_round_trip.

(** The actions come back from the last to the first, then nothing comes any more. *)
Lemma calls_done i : calls actions_next i ([], []) = repeat None i.
Proof. induction i as [|i IH]; [reflexivity|]. cbn [calls repeat]. rewrite <- IH. reflexivity. Qed.
Theorem C67_iterator l s : out_list l s -> forall i,
  calls actions_next i s = firstn i (map (fun a => Some (Ok a)) (rev l) ++ repeat None i).
Proof.
  induction 1 as [|l a p x rest H IH W]; intros i.
  - rewrite calls_done. cbn [rev map app]. rewrite firstn_all2; [reflexivity|]. rewrite repeat_length. lia.
  - destruct i as [|i]; [reflexivity|]. cbn [calls]. rewrite (proj2 (next_spec _ a (fst p, snd p))) by (exists (Cell false (fst p) (snd p)), x, rest; split; [reflexivity|]; split; [exact W|]; split; reflexivity).
    rewrite rev_app_distr. cbn [rev app map firstn]. f_equal. destruct p as [pb pr]. cbn [fst snd]. rewrite IH. 
    cbn [repeat]. change (None :: repeat None i) with (repeat (@None (res out_action)) (1 + i)). rewrite !firstn_app. f_equal.
    rewrite map_length, rev_length. set (k := (i - length l)%nat). assert (K : (k <= i)%nat) by lia. revert K. generalize k. clear. intros k. revert i.
    induction k as [|k IH]; intros i K; [reflexivity|]. destruct i as [|i]; [lia|]. cbn [repeat firstn Nat.add]. f_equal. apply (IH i). lia.
Qed.
Print Assumptions C67_iterator.

(** Only a list of actions gives actions up to an end, and those it gives are the list's. *)
Theorem C67_iterator_only l s : calls actions_next (S (length l)) s = map (fun a => Some (Ok a)) (rev l) ++ [None] -> out_list l s.
Proof.
  revert s. induction l as [|a l IH] using rev_ind; intros s.
  - cbn [length rev map app calls]. destruct (actions_next s) as [o s'] eqn:E. intros [= ->]. apply next_none in E. destruct E as [-> _]. constructor.
  - rewrite app_length, rev_app_distr. cbn [length rev app map]. rewrite Nat.add_1_r. cbn [calls]. destruct (actions_next s) as [o s'] eqn:E. intros [= -> F].
    apply next_spec in E. destruct E as (c & x & rest & -> & W & X & ->). specialize (IH (c_bits c, c_refs c) F).
    pose proof (out_list_next l a (c_bits c, c_refs c) x rest IH W) as R. cbn [fst snd] in R. destruct c as [[] cb cr]; [discriminate X|exact R].
Qed.
Print Assumptions C67_iterator_only.

(** One slice is the list of no two sequences of actions. *)
Theorem C67_unique l l' s : out_list l s -> out_list l' s -> l = l'.
Proof.
  intros H. revert l'. induction H as [|l a p x rest H IH W]; intros l' H'.
  - inversion H'. reflexivity.
  - pose proof (C67_iterator _ _ (out_list_next l a p x rest H W) 1) as E1. pose proof (C67_iterator _ _ H' 1) as E2. rewrite E1 in E2. rewrite rev_app_distr in E2.
    cbn [rev app map firstn] in E2. remember (capp ([], [Cell false (fst p) (snd p)]) (capp x rest)) as t eqn:E3. destruct H' as [|l2 a2 p2 x2 rest2 H2 W2].
    + discriminate E3.
    + rewrite rev_app_distr in E2. cbn [rev app map firstn] in E2. injection E2 as <-. f_equal. apply IH.
      apply (f_equal snd) in E3. unfold capp in E3. cbn [fst snd app] in E3. injection E3 as E4 E5 _. destruct p, p2. cbn [fst snd] in *. subst. exact H2.
Qed.
Print Assumptions C67_unique.

(** A concrete case: three actions, each in front of the list before it. *)
Definition ex_msg := Cell false [true; false] [].
Definition ex_lib := Cell false (nbits 16 0xbeef) [].
Definition ex_actions := [SendMsg 64 ex_msg; ChangeLibrary 127 (LibCell ex_lib); ChangeLibrary 1 (LibHash (repeat 7 32)); SetCode ex_msg].
Definition ex_push (s : chunk) (a : out_action) : chunk := match store_action_out a ([], [Cell false (fst s) (snd s)]) with Ok s => s | Err _ => s end.
Definition ex_list := fold_left ex_push ex_actions ([], []).
Example C67_case : out_list ex_actions ex_list /\ calls actions_next 5 ex_list = map (fun a => Some (Ok a)) (rev ex_actions) ++ [None].
Proof. assert (C : calls actions_next 5 ex_list = map (fun a => Some (Ok a)) (rev ex_actions) ++ [None]) by (vm_compute; reflexivity). split; [apply C67_iterator_only|]; exact C. Qed.

(** Finding: the iterator need not end.  A slice that holds no reference but some bits gives the
    same error at every call. *)
Theorem C67_endless_refuted b s i : calls actions_next i (b :: s, []) = repeat (Some (Err InvalidData)) i.
Proof. induction i as [|i IH]; [reflexivity|]. cbn [calls repeat]. rewrite <- IH. reflexivity. Qed.
Print Assumptions C67_endless_refuted.

(** Finding: the mode of a change of a library has seven bits in a cell and eight in memory.  The
    top bit is lost without an error. *)
Theorem C67_mode_refuted mode lib rest : mode < 256 -> w_ok out_action_w (ChangeLibrary (mode mod 128) lib) ->
  exists x, store_action_out (ChangeLibrary mode lib) ([], []) = Ok x /\ load_action_out (capp x rest) = Ok (ChangeLibrary (mode mod 128) lib, rest).
Proof.
  intros M H. assert (E : w8 (N.shiftl mode 1) = w8 (N.shiftl (mode mod 128) 1)).
  { unfold w8. rewrite !N.shiftl_mul_pow2. change (2 ^ 1) with 2. change 256 with (128 * 2) at 1 2. rewrite !N.mul_mod_distr_r by discriminate. rewrite N.mod_mod by discriminate. reflexivity. }
  replace (store_action_out (ChangeLibrary mode lib) ([], [])) with (store_action_out (ChangeLibrary (mode mod 128) lib) ([], [])) by (destruct lib; cbn [store_action_out]; rewrite E; reflexivity).
  exact (C67_round_trip _ H rest).
Qed.
Print Assumptions C67_mode_refuted.
Example C67_mode_case : store_action_out (ChangeLibrary 130 (LibCell ex_lib)) ([], []) = store_action_out (ChangeLibrary 2 (LibCell ex_lib)) ([], []).
Proof. reflexivity. Qed.
