(** * Transactions *)
From Verif Require Import Err BitsProofs IntModel NumModel CurrencyModel CurrencySpec CellModel DictModel ChunkModel LazyModel AccountModel ChunkSpec ChunkProofs LayoutProofs
  DeriveModel DeriveSpec StructsModel StructsSpec StructsProofs DeriveProps CasesSpec CasesProofs TxModel TxSpec.
Local Open Scope N_scope.

Lemma lawful_cases {A} (c : codec A) (f : A -> branch) bits refs :
  (forall a, proper (br_layout (f a)) /\ (length (br_prefix (f a)) + w_bits (br_layout (f a)) <= bits)%nat /\ (w_refs (br_layout (f a)) <= refs)%nat) ->
  (forall a y, w_write (br_layout (f a)) (br_value (f a)) y -> appends (c_store c a) (capp (br_prefix (f a), []) y)) ->
  reads_layout (c_load c) (fun a x => exists y, x = capp (br_prefix (f a), []) y /\ w_read (br_layout (f a)) (br_value (f a)) y) -> lawful c (cases_w f bits refs).
Proof.
  intros P S R. apply proper_lawful; [apply proper_cases, P| |exact R]. cbn [cases_w w_write]. intros a x (y & -> & Y). apply S, Y.
Qed.
(** Prefixes that are numbers. *)
Lemma appends_prefix n v p : p = nbits n v -> v < 2 ^ N.of_nat n -> appends (store_un n v) (p, []).
Proof. intros -> H. apply appends_un. constructor. exact H. Qed.
Lemma appends_flag b : appends (store_bool b) ([b], []).
Proof. apply appends_bool. constructor. Qed.
Lemma appends_done s x : appends s x -> appends s (capp x ([], [])).
Proof. rewrite capp_nil. auto. Qed.

Lemma lawful_change : lawful change_k change_w.
Proof.
  apply lawful_cases.
  - intros []; (split; [exact proper_end|]); cbn; lia.
  - intros [] y ->; apply appends_done; [apply appends_flag|apply appends_prefix; reflexivity|apply appends_prefix; reflexivity].
  - eapply reads_equiv; [|cbn [change_k c_load]; apply (reads_ext (fun b => let? (f, b) := load_bool b in if f : bool then (let? (f, b) := load_bool b in if f : bool then Ok (Deleted, b) else Ok (ToFrozen, b)) else Ok (Unchanged, b)))];
      [|intros b; unfold load_change; destruct (load_bool b) as [[[] ?]|]; reflexivity|apply reads_bit; [apply reads_ret|apply reads_bit; apply reads_ret]].
    intros a x. split.
    + intros ([] & y & -> & H); [destruct H as ([] & z & -> & ->& ->)|destruct H as [-> ->]]; cbn; exists ([], []); split; reflexivity.
    + intros (y & -> & H). destruct a; cbn [br_layout br_value w_read end_w] in H; subst y; [exists false, ([], [])|exists true, (flag false)|exists true, (flag true)]; (split; [reflexivity|]); [split; reflexivity|exists false, ([], []); repeat split|exists true, ([], []); repeat split].
Qed.
Lemma lawful_reason : lawful reason_k reason_w.
Proof.
  apply lawful_cases.
  - intros []; (split; [exact proper_end|]); cbn; lia.
  - intros [] y ->; apply appends_done; apply appends_prefix; reflexivity.
  - eapply reads_equiv; [|cbn [reason_k c_load]; apply (reads_tag 2 _ (fun t => if t =? 0 then const_c NoState else if t =? 1 then const_c BadState else if t =? 2 then const_c NoGas else (fun a x => exists f y, x = capp ([f], []) y /\ if f : bool then no_c a y else const_c Suspended a y)))].
    2: { intros t _. destruct (t =? 0); [apply reads_ret|]. destruct (t =? 1); [apply reads_ret|]. destruct (t =? 2); [apply reads_ret|]. apply reads_bit; [apply reads_ret|apply reads_err]. }
    intros a x. split.
    + intros (t & y & T & -> & H). change (2 ^ N.of_nat 2) with 4 in T. assert (C : t = 0 \/ t = 1 \/ t = 2 \/ t = 3) by lia.
      destruct C as [->|[->|[->| ->]]]; cbn [N.eqb Pos.eqb] in H; [destruct H as [-> ->]| destruct H as [-> ->]|destruct H as [-> ->]|destruct H as ([] & z & -> & H); [destruct H|destruct H as [-> ->]]]; exists ([], []); split; reflexivity.
    + intros (y & -> & H). destruct a; cbn [br_layout br_value w_read end_w] in H; subst y; [exists 0, ([], [])|exists 1, ([], [])|exists 2, ([], [])|exists 3, ([false], [])]; (split; [reflexivity|]); (split; [reflexivity|]); [split; reflexivity ..|].
      cbn [N.eqb Pos.eqb]. exists false, ([], []). repeat split.
Qed.
Definition status_k := Codec store_status load_status.
Lemma lawful_status : lawful status_k status_w.
Proof.
  apply lawful_cases.
  - intros []; (split; [exact proper_end|]); cbn; lia.
  - intros [] y ->; apply appends_done; apply appends_prefix; reflexivity.
  - eapply reads_equiv; [|cbn [status_k c_load]; unfold load_status; apply (reads_tag 2 _ (fun t => if t =? 0 then const_c SUninit else if t =? 1 then const_c SFrozen else if t =? 2 then const_c SActive else if t =? 3 then const_c SNotExists else no_c))].
    2: { intros t _. destruct (t =? 0); [apply reads_ret|]. destruct (t =? 1); [apply reads_ret|]. destruct (t =? 2); [apply reads_ret|]. destruct (t =? 3); [apply reads_ret|apply reads_err]. }
    intros a x. split.
    + intros (t & y & T & -> & H). change (2 ^ N.of_nat 2) with 4 in T. assert (C : t = 0 \/ t = 1 \/ t = 2 \/ t = 3) by lia.
      destruct C as [->|[->|[->| ->]]]; cbn [N.eqb Pos.eqb] in H; destruct H as [-> ->]; exists ([], []); split; reflexivity.
    + intros (y & -> & H). destruct a; cbn [br_layout br_value w_read end_w] in H; subst y; [exists 0|exists 1|exists 2|exists 3]; exists ([], []); repeat split.
Qed.
#[export] Hint Resolve lawful_change lawful_reason lawful_status : layouts.
Lemma lawful_storage_phase : lawful (derived storage_phase) storage_phase_w.
Proof. struct_by. Qed.
Lemma lawful_skipped_phase : lawful (derived skipped_phase) skipped_phase_w.
Proof. struct_by. Qed.

(** ** Reading tuples *)
Definition pair_l {A B} (f : chunk -> res (A * chunk)) (g : chunk -> res (B * chunk)) (b : chunk) : res ((A * B) * chunk) :=
  let? (x, b) := f b in let? (y, b) := g b in Ok ((x, y), b).
Definition unit_l (b : chunk) : res (unit * chunk) := Ok (tt, b).
Lemma reads_pair {A B} (f : chunk -> res (A * chunk)) (g : chunk -> res (B * chunk)) l m :
  reads_layout f (w_read l) -> reads_layout g (w_read m) -> reads_layout (pair_l f g) (w_read (seq_w l m)).
Proof.
  intros F G b [x y] r. unfold pair_l. cbn [seq_w w_read fst snd]. split.
  - destruct (f b) as [[x' b1]|] eqn:E1; [|discriminate]. cbn [rbind]. destruct (g b1) as [[y' b2]|] eqn:E2; [|discriminate]. cbn [rbind]. intros [= <- <- <-].
    apply F in E1. apply G in E2. destruct E1 as (u & U & ->), E2 as (v & V & ->). exists (capp u v). split; [exists u, v; auto|apply capp_assoc].
  - intros (c & (u & v & -> & U & V) & ->). rewrite <- capp_assoc, (reads_back _ _ _ _ _ F U). cbn [rbind]. rewrite (reads_back _ _ _ _ _ G V). reflexivity.
Qed.
Lemma reads_unit : reads_layout unit_l (w_read end_w).
Proof. intros b [] r. unfold unit_l. cbn [end_w w_read]. split; [intros [= <-]; exists ([], []); rewrite nil_capp; auto|intros (x & -> & ->); rewrite nil_capp; reflexivity]. Qed.
Lemma reads_law {A} (c : codec A) l : lawful c l -> reads_layout (c_load c) (w_read l).
Proof. apply law_load. Qed.
(** A value read as another one. *)
Lemma reads_iso {A B} (k : chunk -> res (B * chunk)) (l : chunk -> res (A * chunk)) (f : A -> B) (g : B -> A) (L : A -> chunk -> Prop) (M : B -> chunk -> Prop) :
  reads_layout k M -> (forall b, l b = let? (v, b) := k b in Ok (g v, b)) -> (forall v, f (g v) = v) -> (forall a, g (f a) = a) -> (forall a x, L a x <-> M (f a) x) -> reads_layout l L.
Proof.
  intros K E FG GF Q. eapply reads_ext; [intros c; symmetry; apply E|]. eapply reads_equiv; [|apply (reads_map k g), K].
  intros a x. rewrite Q. split; [intros (v & -> & V); rewrite FG; exact V|intros H; exists (f a); rewrite GF; auto].
Qed.

(** Flags in one number. *)
Definition unpack3 (v : N) : bool * (bool * (bool * unit)) := (has v 4, (has v 2, (has v 1, tt))).
Definition flags3_l (b : chunk) : res ((bool * (bool * (bool * unit))) * chunk) := let? (v, b) := load_un 3 b in Ok (unpack3 v, b).
Lemma reads_flags3 : reads_layout flags3_l (w_read w[bool_w, bool_w, bool_w]).
Proof.
  eapply reads_equiv; [|apply (reads_map (load_un 3) unpack3), reads_un]. intros (o & p & q & []) x. cbn [seq_w bool_w end_w exact_w w_read fst snd]. split.
  - intros (v & [= -> -> ->] & V). apply flags3 in V. destruct V as [_ ->]. eexists _, _. split; [reflexivity|]. split; [constructor|]. eexists _, _. split; [reflexivity|]. split; [constructor|].
    eexists _, ([], []). rewrite capp_nil. split; [reflexivity|]. split; [constructor|reflexivity].
  - intros (? & ? & -> & [] & ? & ? & -> & [] & ? & ? & -> & [] & ->). destruct (has_flags3 b b0 b1) as (H4 & H2 & H1). eexists. unfold unpack3. rewrite flags3.
    split; [rewrite H4, H2, H1; reflexivity|]. rewrite H4, H2, H1. split; [reflexivity|]. rewrite capp_nil. reflexivity.
Qed.
Definition unpack2 (v : N) : bool * (bool * unit) := (has v 2, (has v 1, tt)).
Definition flags2_l (b : chunk) : res ((bool * (bool * unit)) * chunk) := let? (v, b) := load_un 2 b in Ok (unpack2 v, b).
Lemma reads_flags2 : reads_layout flags2_l (w_read w[bool_w, bool_w]).
Proof.
  eapply reads_equiv; [|apply (reads_map (load_un 2) unpack2), reads_un]. intros (p & q & []) x. cbn [seq_w bool_w end_w exact_w w_read fst snd]. split.
  - intros (v & [= -> ->] & V). apply flags2 in V. destruct V as [_ ->]. eexists _, _. split; [reflexivity|]. split; [constructor|].
    eexists _, ([], []). rewrite capp_nil. split; [reflexivity|]. split; [constructor|reflexivity].
  - intros (? & ? & -> & [] & ? & ? & -> & [] & ->). destruct (has_flags2 b b0) as (H2 & H1). eexists. unfold unpack2. rewrite flags2.
    split; [rewrite H2, H1; reflexivity|]. rewrite H2, H1. split; [reflexivity|]. rewrite capp_nil. reflexivity.
Qed.
(** ** Regrouping *)
Lemma regroup3 {A B C D} (a : layout A) (b : layout B) (c : layout C) (d : layout D) x y z r u :
  w_read (seq_w a (seq_w b (seq_w c d))) (x, (y, (z, r))) u <-> w_read (seq_w w[a, b, c] d) ((x, (y, (z, tt))), r) u.
Proof.
  cbn [seq_w end_w w_read fst snd]. split.
  - intros (p & ? & -> & P & q & ? & -> & Q & s & t & -> & S & T). exists (capp p (capp q (capp s ([], [])))), t. rewrite capp_nil, <- !capp_assoc. split; [reflexivity|]. split; [|exact T].
    exists p, (capp q s). split; [reflexivity|]. split; [exact P|]. exists q, s. split; [reflexivity|]. split; [exact Q|]. exists s, ([], []). rewrite capp_nil. auto.
  - intros (v & t & -> & (p & ? & -> & P & q & ? & -> & Q & s & ? & -> & S & ->) & T). rewrite capp_nil, <- !capp_assoc. exists p, (capp q (capp s t)). split; [reflexivity|]. split; [exact P|].
    exists q, (capp s t). split; [reflexivity|]. split; [exact Q|]. exists s, t. auto.
Qed.
Lemma regroup2 {A B C} (a : layout A) (b : layout B) (d : layout C) x y r u :
  w_read (seq_w a (seq_w b d)) (x, (y, r)) u <-> w_read (seq_w w[a, b] d) ((x, (y, tt)), r) u.
Proof.
  cbn [seq_w end_w w_read fst snd]. split.
  - intros (p & ? & -> & P & q & t & -> & Q & T). exists (capp p (capp q ([], []))), t. rewrite capp_nil, <- !capp_assoc. split; [reflexivity|]. split; [|exact T].
    exists p, q. split; [reflexivity|]. split; [exact P|]. exists q, ([], []). rewrite capp_nil. auto.
  - intros (v & t & -> & (p & ? & -> & P & q & ? & -> & Q & ->) & T). rewrite capp_nil, <- !capp_assoc. exists p, (capp q t). split; [reflexivity|]. split; [exact P|]. exists q, t. auto.
Qed.

Ltac runs := repeat (cbn [rbind]; try reflexivity;
  match goal with |- context [rbind ?e _] => lazymatch e with rbind _ _ => fail | _ => let p := fresh "p" in destruct e as [p|]; [lazymatch type of p with (_ * _)%type => destruct p | _ => idtac end|] end end).

Ltac propers := repeat first [exact proper_end | apply proper_seq | apply proper_tag | apply proper_maybe | apply proper_in_cell | apply proper_as
  | exact (lawful_proper _ _ (lawful_uint _)) | exact (lawful_proper _ _ lawful_bool) | exact (lawful_proper _ _ (lawful_bytes _)) | exact (lawful_proper _ _ lawful_cell)
  | exact (lawful_proper _ _ lawful_lazy) | exact (lawful_proper _ _ lawful_dict) | exact (lawful_proper _ _ lawful_currency)
  | exact (lawful_proper _ _ (lawful_var VarUint24 2 eq_refl)) | exact (lawful_proper _ _ (lawful_var VarUint56 3 eq_refl)) | exact (lawful_proper _ _ (lawful_var Tokens 4 eq_refl))
  | refine (lawful_proper _ _ (lawful_int _ _)); apply Nat.ltb_lt; reflexivity
  | exact (lawful_proper _ _ lawful_change) | exact (lawful_proper _ _ lawful_reason) | exact (lawful_proper _ _ lawful_status)].

Section Fin.
Context (fin : list bool -> list cell -> res unit).
Definition cell_l {A} (l : chunk -> res (A * chunk)) (b : chunk) : res (A * chunk) := let? (c, b) := load_ref b in let? a := from_cell l c in Ok (a, b).
Lemma reads_cell {A} (l : chunk -> res (A * chunk)) w : reads_layout l (w_read w) -> reads_layout (cell_l l) (w_read (in_cell_w fin w)).
Proof. intros H. exact (reads_in_cell l _ H). Qed.

(** ** The compute phase *)
Definition vm_w := w[var_w 3, var_w 3, maybe_w (var_w 2), int_w 8, int_w 32, maybe_w (int_w 32), uint_w 32, hash_w, hash_w].
Definition vm_l := pair_l (c_load (var_k VarUint56)) (pair_l (c_load (var_k VarUint56)) (pair_l (c_load (opt_k (var_k VarUint24))) (pair_l (c_load (int_k 8)) (pair_l (c_load (int_k 32))
  (pair_l (c_load (opt_k (int_k 32))) (pair_l (load_un 32) (pair_l (load_bs 32) (pair_l (load_bs 32) unit_l)))))))).
Ltac parts := repeat first [apply reads_unit | apply reads_pair | apply reads_flags3 | apply reads_flags2 | apply (reads_law _ _ lawful_change) | apply reads_cell
  | apply (reads_law (uint_k _) _ (lawful_uint _)) | apply (reads_law (bytes_k _) _ (lawful_bytes _)) | apply reads_law; solve [eauto 4 with layouts] ].
Lemma reads_vm : reads_layout vm_l (w_read vm_w).
Proof. unfold vm_l, vm_w. parts. Qed.
Lemma proper_vm : proper vm_w.
Proof. unfold vm_w. propers. Qed.
Definition executed_l := pair_l flags3_l (pair_l (c_load (var_k Tokens)) (pair_l (cell_l vm_l) unit_l)).
Lemma reads_executed : reads_layout executed_l (w_read (seq_w w[bool_w, bool_w, bool_w] w[tokens_w, in_cell_w fin vm_w])).
Proof. unfold executed_l. parts. Qed.
Definition executed_of (v : (bool * (bool * (bool * unit))) * (N * ((N * (N * (option N * (Z * (Z * (option Z * (N * (list N * (list N * unit))))))))) * unit))) : executed :=
  let '((s, (m, (a, _))), (fees, ((used, (limit, (credit, (mode, (code, (arg, (steps, (h1, (h2, _))))))))), _))) := v in
  Executed' s m a fees used limit credit mode code arg steps h1 h2.
Lemma load_executed_eq b :
  (let? (flags, b) := load_un 3 b in let? (fees, b) := c_load (var_k Tokens) b in let? (c, b) := load_ref b in
   let? e := from_cell (load_executed_cell flags fees) c in Ok (Executed e, b)) = let? (v, b) := executed_l b in Ok (Executed (executed_of v), b).
Proof.
  unfold executed_l, pair_l, flags3_l, cell_l, from_cell, load_executed_cell, vm_l, unit_l, pair_l, int_k. cbn [c_load]. runs.
Qed.
Ltac by_law L := match goal with H : w_write _ _ ?y |- appends _ ?y => exact (law_store _ _ L _ _ H) end.
Ltac one := first [by_law (lawful_uint 16) | by_law (lawful_uint 32) | by_law (lawful_uint 64) | by_law lawful_bool | by_law (lawful_bytes 32) | by_law (lawful_var VarUint56 3 eq_refl) | by_law (lawful_var Tokens 4 eq_refl)
  | by_law (lawful_opt _ _ (lawful_var VarUint24 2 eq_refl)) | by_law (lawful_opt _ _ (lawful_var Tokens 4 eq_refl))
  | by_law (lawful_int 8 (Nat.lt_0_succ 7)) | by_law (lawful_int 32 (Nat.lt_0_succ 31)) | by_law (lawful_opt _ _ (lawful_int 32 (Nat.lt_0_succ 31)))
  | by_law lawful_change | by_law lawful_status | by_law lawful_currency | by_law lawful_lazy | by_law lawful_storage_phase].
Ltac writes := rewrite ?capp_nil; repeat (apply appends_bind; [one|]); one.
Lemma store_vm e y : w_write vm_w (e_gas_used e, (e_gas_limit e, (e_gas_credit e, (e_mode e, (e_exit_code e, (e_exit_arg e, (e_vm_steps e, (e_init_hash e, (e_final_hash e, tt))))))))) y ->
  appends (store_executed_cell e) y.
Proof. intros F. unfold vm_w in F. unpack2 F. subst. unfold store_executed_cell. writes. Qed.
Lemma flags4 s m a : appends (store_un 4 (N.lor (N.lor (N.lor 8 (N.shiftl (b2n s) 2)) (N.shiftl (b2n m) 1)) (b2n a))) (capp (flag true) (capp (flag s) (capp (flag m) (flag a)))).
Proof. replace (capp (flag true) _) with (nbits 4 (N.lor (N.lor (N.lor 8 (N.shiftl (b2n s) 2)) (N.shiftl (b2n m) 1)) (b2n a)), @nil cell) by (destruct s, m, a; reflexivity). apply appends_un. constructor. destruct s, m, a; reflexivity. Qed.
Lemma proper_executed : proper (executed_w fin).
Proof. unfold executed_w. propers. Qed.
Lemma store_executed e y : w_write (executed_w fin) (executed_fields e) y -> appends (store_compute fin (Executed e)) (capp (flag true) y).
Proof.
  unfold executed_w, executed_fields. intros F. unpack2 F. subst. cbn [in_cell_w w_write] in H3. destruct H3 as (y & -> & Y & FY). fold vm_w in Y.
  pose proof (pr_bits _ proper_vm _ _ Y) as B. pose proof (pr_refs _ proper_vm _ _ Y) as R. assert (B' : (w_bits vm_w <= 1023)%nat) by (vm_compute; lia). assert (R' : (w_refs vm_w <= 4)%nat) by (vm_compute; lia).
  unfold store_compute. rewrite (in_cell_ok fin _ y (store_vm e y Y)) by (assumption || lia). cbn [rbind]. inversion H; inversion H0; inversion H1. subst. rewrite capp_nil.
  replace (capp (flag true) _) with (capp (capp (flag true) (capp (flag (e_success e)) (capp (flag (e_state_used e)) (flag (e_activated e))))) (capp y3 ([], [Cell false (fst y) (snd y)]))) by (rewrite <- !capp_assoc; reflexivity).
  apply appends_bind; [apply flags4|]. apply appends_bind; [one|]. apply appends_ref.
Qed.
Lemma proper_skipped : proper skipped_phase_w.
Proof. exact (lawful_proper _ _ lawful_skipped_phase). Qed.
Lemma lawful_compute : lawful (compute_k fin) (compute_w fin).
Proof.
  apply lawful_cases.
  - intros [r|e]; cbn [br_layout br_prefix].
    + split; [exact proper_skipped|]. vm_compute. lia.
    + split; [exact proper_executed|]. vm_compute. lia.
  - intros [r|e] y; cbn [br_layout br_prefix br_value compute_k c_store]; intros W.
    + apply appends_bind; [apply appends_flag|]. exact (law_store _ _ lawful_skipped_phase _ _ W).
    + exact (store_executed e y W).
  - eapply reads_equiv; [|cbn [compute_k c_load]; eapply reads_ext; [|apply reads_bit; [apply (reads_map (c_load (derived skipped_phase)) Skipped), (law_load _ _ lawful_skipped_phase)|apply (reads_map executed_l (fun v => Executed (executed_of v))), reads_executed]]].
    + intros c x. split.
      * intros ([] & y & -> & v & -> & V); exists y; (split; [reflexivity|]); cbn [br_layout br_value]; [|exact V].
        destruct v as ((s & m & a & []) & fees & (used & limit & credit & mode & code & arg & steps & h1 & h2 & []) & []). apply regroup3. exact V.
      * intros (y & -> & V). destruct c as [r|e]; cbn [br_layout br_value br_prefix] in *; [exists false, y|exists true, y]; (split; [reflexivity|]); [exists r; auto|].
        apply regroup3 in V. eexists. split; [|exact V]. destruct e; reflexivity.
    + intros b. unfold load_compute. destruct (load_bool b) as [[[] b1]|]; cbn [rbind negb]; [symmetry; apply load_executed_eq|reflexivity|reflexivity].
Qed.

(** ** The action phase *)
Lemma lor_add x y n : y < 2 ^ n -> N.lor (N.shiftl x n) y = x * 2 ^ n + y.
Proof.
  intros Y. assert (Z : N.land (N.shiftl x n) y = 0).
  { apply N.bits_inj. intros i. rewrite N.land_spec, N.bits_0. destruct (N.lt_ge_cases i n) as [L|L]; [rewrite N.shiftl_spec_low by exact L; reflexivity|].
    rewrite <- (N.mod_small y (2 ^ n)) by exact Y. rewrite N.mod_pow2_bits_high by exact L. apply andb_false_r. }
  rewrite <- N.lxor_lor by exact Z. rewrite <- N.add_nocarry_lxor by exact Z. rewrite N.shiftl_mul_pow2. reflexivity.
Qed.
Definition pack4 (a b c d : N) : N := N.lor (N.lor (N.lor (N.shiftl a 48) (N.shiftl b 32)) (N.shiftl c 16)) d.
Definition counts_w := w[uint_w 16, uint_w 16, uint_w 16, uint_w 16].
Definition counts_of (v : N) : N * (N * (N * (N * unit))) := (w16 (N.shiftr v 48), (w16 (N.shiftr v 32), (w16 (N.shiftr v 16), (w16 v, tt)))).
Definition counts_l (b : chunk) : res ((N * (N * (N * (N * unit)))) * chunk) := let? (v, b) := load_un 64 b in Ok (counts_of v, b).
Lemma pack4_eq a b c d : b < 65536 -> c < 65536 -> d < 65536 -> pack4 a b c d = ((a * 65536 + b) * 65536 + c) * 65536 + d.
Proof.
  intros B C D. unfold pack4. replace (N.shiftl a 48) with (N.shiftl (N.shiftl (N.shiftl a 16) 16) 16) by (rewrite !N.shiftl_shiftl; reflexivity).
  replace (N.shiftl b 32) with (N.shiftl (N.shiftl b 16) 16) by (rewrite !N.shiftl_shiftl; reflexivity).
  rewrite <- !N.shiftl_lor. rewrite !lor_add by assumption. reflexivity.
Qed.
Lemma counts_split v x : uint_c 64 v x <-> exists p q r s, x = capp p (capp q (capp r s)) /\ uint_c 16 (v / 65536 / 65536 / 65536) p /\ uint_c 16 (v / 65536 / 65536 mod 65536) q /\ uint_c 16 (v / 65536 mod 65536) r /\ uint_c 16 (v mod 65536) s.
Proof.
  rewrite (uint_split 48 16). change (2 ^ N.of_nat 16) with 65536. split.
  - intros (y & s & -> & Y & S). apply (uint_split 32 16) in Y. change (2 ^ N.of_nat 16) with 65536 in Y. destruct Y as (y2 & r & -> & Y & R). apply (uint_split 16 16) in Y. change (2 ^ N.of_nat 16) with 65536 in Y.
    destruct Y as (p & q & -> & P & Q). exists p, q, r, s. rewrite <- !capp_assoc. auto.
  - intros (p & q & r & s & -> & P & Q & R & S). exists (capp (capp p q) r), s. rewrite <- !capp_assoc. split; [reflexivity|]. split; [|exact S].
    apply (uint_split 32 16). change (2 ^ N.of_nat 16) with 65536. exists (capp p q), r. rewrite <- !capp_assoc. split; [reflexivity|]. split; [|exact R].
    apply (uint_split 16 16). change (2 ^ N.of_nat 16) with 65536. exists p, q. auto.
Qed.
Lemma counts_eq v : v < 2 ^ 64 -> counts_of v = (v / 65536 / 65536 / 65536, (v / 65536 / 65536 mod 65536, (v / 65536 mod 65536, (v mod 65536, tt)))).
Proof.
  intros V. unfold counts_of, w16. replace (N.shiftr v 48) with (v / 65536 / 65536 / 65536). 2: { rewrite !N.div_div by discriminate. rewrite N.shiftr_div_pow2. reflexivity. }
  replace (N.shiftr v 32) with (v / 65536 / 65536). 2: { rewrite !N.div_div by discriminate. rewrite N.shiftr_div_pow2. reflexivity. }
  rewrite N.shiftr_div_pow2. change (2 ^ 16) with 65536. rewrite (N.mod_small (v / 65536 / 65536 / 65536)); [reflexivity|]. rewrite !N.div_div by discriminate. apply N.div_lt_upper_bound; [discriminate|exact V].
Qed.
Lemma reads_counts : reads_layout counts_l (w_read counts_w).
Proof.
  eapply reads_equiv; [|apply (reads_map (load_un 64) counts_of), reads_un]. intros (p & q & r & s & []) x. unfold counts_w. cbn [seq_w uint_w end_w exact_w w_read fst snd]. split.
  - intros (v & E & V). assert (L : v < 2 ^ 64) by (inversion V; assumption). rewrite counts_eq in E by exact L. injection E as -> -> -> ->. apply counts_split in V.
    destruct V as (p & q & r & s & -> & P & Q & R & S). exists p, (capp q (capp r s)). split; [reflexivity|]. split; [exact P|]. exists q, (capp r s). split; [reflexivity|]. split; [exact Q|]. exists r, s. split; [reflexivity|]. split; [exact R|].
    exists s, ([], []). rewrite capp_nil. auto.
  - intros (? & ? & -> & P & ? & ? & -> & Q & ? & ? & -> & R & ? & ? & -> & S & ->). rewrite capp_nil.
    assert (p < 65536 /\ q < 65536 /\ r < 65536 /\ s < 65536) as (Lp & Lq & Lr & Ls) by (inversion P; inversion Q; inversion R; inversion S; auto).
    assert (E : ((p * 65536 + q) * 65536 + r) * 65536 + s < 2 ^ 64) by (change (2 ^ 64) with (65536 * 65536 * 65536 * 65536); lia).
    assert (D : forall h l, l < 65536 -> (h * 65536 + l) / 65536 = h) by (intros h l Hl; rewrite N.div_add_l by discriminate; rewrite (N.div_small l) by exact Hl; lia).
    assert (M : forall h l, l < 65536 -> (h * 65536 + l) mod 65536 = l) by (intros h l Hl; rewrite N.add_comm, N.mod_add by discriminate; apply N.mod_small, Hl).
    eexists. rewrite counts_eq, counts_split by exact E. rewrite !D, !M by assumption. split; [reflexivity|]. eexists _, _, _, _. split; [reflexivity|]. auto.
Qed.
Lemma store_counts a b c d x : w_write counts_w (a, (b, (c, (d, tt)))) x -> appends (store_un 64 (pack4 a b c d)) x.
Proof.
  intros W. apply appends_un. change (w_read counts_w (a, (b, (c, (d, tt)))) x) in W. pose proof (reads_back _ _ _ _ ([], []) reads_counts W) as E. unfold counts_l in E.
  destruct (load_un 64 (capp x ([], []))) as [[v r]|] eqn:F; [|discriminate]. cbn [rbind] in E. injection E as E1 E2. subst r. apply (reads_un 64) in F. destruct F as (y & Y & F). rewrite !capp_nil in F. subst y.
  assert (L : v < 2 ^ 64) by (inversion Y; assumption). assert (E : counts_of v = (a, (b, (c, (d, tt))))) by (unfold counts_of; congruence). rewrite counts_eq in E by exact L. injection E as <- <- <- <-.
  rewrite pack4_eq by (apply N.mod_lt; discriminate). pose proof (N.div_mod v 65536). pose proof (N.div_mod (v / 65536) 65536). pose proof (N.div_mod (v / 65536 / 65536) 65536).
  replace (_ * 65536 + v mod 65536) with v; [exact Y|]. lia.
Qed.
Lemma seq_cong {A B C} (a : layout A) (m : layout B) (n : layout C) x v w u : (forall z, w_read m v z <-> w_read n w z) -> (w_read (seq_w a m) (x, v) u <-> w_read (seq_w a n) (x, w) u).
Proof. intros E. cbn [seq_w w_read fst snd]. split; intros (p & q & -> & P & Q); exists p, q; (split; [reflexivity|]); (split; [exact P|]); apply E, Q. Qed.
Lemma regroup4 {A B C D E} (a : layout A) (b : layout B) (c : layout C) (d : layout D) (e : layout E) x y z t r u :
  w_read (seq_w a (seq_w b (seq_w c (seq_w d e)))) (x, (y, (z, (t, r)))) u <-> w_read (seq_w w[a, b, c, d] e) ((x, (y, (z, (t, tt)))), r) u.
Proof.
  rewrite (seq_cong a (seq_w b (seq_w c (seq_w d e))) (seq_w w[b, c, d] e) x (y, (z, (t, r))) ((y, (z, (t, tt))), r) u) by (intros v; apply regroup3).
  cbn [seq_w end_w w_read fst snd]. split.
  - intros (p & ? & -> & P & q & s & -> & Q & S). exists (capp p q), s. rewrite <- capp_assoc. split; [reflexivity|]. split; [|exact S]. exists p, q. auto.
  - intros (v & s & -> & (p & q & -> & P & Q) & S). exists p, (capp q s). rewrite <- capp_assoc. split; [reflexivity|]. split; [exact P|]. exists q, s. auto.
Qed.
Definition action_l := pair_l flags3_l (pair_l load_change (pair_l (c_load (opt_k (var_k Tokens))) (pair_l (c_load (opt_k (var_k Tokens))) (pair_l (c_load (int_k 32)) (pair_l (c_load (opt_k (int_k 32)))
  (pair_l counts_l (pair_l (load_bs 32) (pair_l (c_load (derived storage_used_short)) unit_l)))))))).
Definition action_of (v : (bool * (bool * (bool * unit))) * (change * (option N * (option N * (Z * (option Z * ((N * (N * (N * (N * unit)))) * (list N * (vals (s_fields storage_used_short) * unit))))))))) : action :=
  let '((s, (m, (a, _))), (ch, (fwd, (fees, (code, (arg, ((p, (q, (r, (t, _)))), (h, (size, _))))))))) := v in Action s m a ch fwd fees code arg p q r t h size.
Lemma lawful_size : lawful (derived storage_used_short) storage_used_short_w.
Proof. struct_by. Qed.
Lemma reads_action_l : reads_layout action_l (w_read (seq_w w[bool_w, bool_w, bool_w] (seq_w change_w (seq_w (maybe_w tokens_w) (seq_w (maybe_w tokens_w) (seq_w (int_w 32) (seq_w (maybe_w (int_w 32)) (seq_w counts_w w[hash_w, storage_used_short_w])))))))).
Proof. unfold action_l. parts; [apply reads_counts|apply (law_load _ _ lawful_size)]. Qed.
Lemma proper_action : proper action_w.
Proof. unfold action_w. propers. Qed.
Lemma flags3_w o p q : appends (store_un 3 (N.lor (N.lor (N.shiftl (b2n o) 2) (N.shiftl (b2n p) 1)) (b2n q))) (capp (flag o) (capp (flag p) (flag q))).
Proof. replace (capp (flag o) _) with (nbits 3 (N.lor (N.lor (N.shiftl (b2n o) 2) (N.shiftl (b2n p) 1)) (b2n q)), @nil cell) by (destruct o, p, q; reflexivity). apply appends_un. constructor. destruct o, p, q; reflexivity. Qed.
Lemma flags2_w p q : appends (store_un 2 (N.lor (N.shiftl (b2n p) 1) (b2n q))) (capp (flag p) (flag q)).
Proof. replace (capp (flag p) _) with (nbits 2 (N.lor (N.shiftl (b2n p) 1) (b2n q)), @nil cell) by (destruct p, q; reflexivity). apply appends_un. constructor. destruct p, q; reflexivity. Qed.
Lemma lawful_action : lawful action_k action_w.
Proof.
  apply proper_lawful; [exact proper_action| |].
  - intros a x F. unfold action_w, as_w in F. cbn [w_write] in F. unfold action_fields in F. unpack2 F. subst. cbn [action_k c_store]. unfold store_action. cbv zeta.
    inversion H; inversion H0; inversion H1. subst. rewrite capp_nil.
    match goal with |- appends _ (capp _ (capp _ (capp _ ?r))) => replace (capp _ _) with (capp (capp (flag (a_success a)) (capp (flag (a_valid a)) (flag (a_no_funds a)))) r) by (rewrite <- !capp_assoc; reflexivity) end.
    apply appends_bind; [apply flags3_w|]. do 5 (apply appends_bind; [one|]).
    match goal with |- appends _ (capp ?p (capp ?q (capp ?r (capp ?s ?t)))) => replace (capp _ _) with (capp (capp p (capp q (capp r s))) t) by (rewrite <- !capp_assoc; reflexivity) end.
    apply appends_bind.
    + apply store_counts. repeat (eexists _, _; split; [reflexivity|]; split; [eassumption|]). eexists _, ([], []). rewrite capp_nil. split; [reflexivity|]. split; [eassumption|reflexivity].
    + apply appends_bind; [one|]. by_law lawful_size.
  - apply (reads_iso action_l _ (fun a => ((a_success a, (a_valid a, (a_no_funds a, tt))), (a_change a, (a_fwd_fees a, (a_action_fees a, (a_code a, (a_arg a, ((a_total a, (a_special a, (a_skipped a, (a_created a, tt)))), (a_hash a, (a_size a, tt)))))))))) action_of _ _ reads_action_l).
    + intros b. cbn [action_k c_load]. unfold load_action, action_l, pair_l, flags3_l, counts_l, unit_l, int_k. cbn [c_load]. runs.
    + intros ((s & m & a & []) & ch & fwd & fees & code & arg & (p & q & r & t & []) & h & size & []). reflexivity.
    + intros []. reflexivity.
    + intros a x. unfold action_w, as_w, action_fields. cbn [w_read]. rewrite regroup3. do 6 (apply seq_cong; intros ?). apply regroup4.
Qed.

(** ** The bounce phase *)
Lemma lawful_no_funds : lawful (derived no_funds_bounce_phase) no_funds_bounce_phase_w.
Proof. struct_by. Qed.
Lemma lawful_bounced : lawful (derived executed_bounce_phase) executed_bounce_phase_w.
Proof. struct_by. Qed.
Lemma lawful_bounce : lawful bounce_k bounce_w.
Proof.
  apply lawful_cases.
  - intros [|p|p]; cbn [br_layout br_prefix]; (split; [first [exact proper_end | exact (lawful_proper _ _ lawful_no_funds) | exact (lawful_proper _ _ lawful_bounced)]|]); vm_compute; lia.
  - intros [|p|p] y; cbn [br_layout br_prefix br_value bounce_k c_store]; intros W.
    + cbn in W. subst y. apply appends_done, appends_prefix; reflexivity.
    + apply appends_bind; [apply appends_prefix; reflexivity|by_law lawful_no_funds].
    + apply appends_bind; [apply appends_flag|by_law lawful_bounced].
  - eapply reads_equiv; [|cbn [bounce_k c_load]; unfold load_bounce; apply reads_bit; [apply reads_bit; [apply reads_ret|apply (reads_map (c_load (derived no_funds_bounce_phase)) NoFunds), (law_load _ _ lawful_no_funds)]|apply (reads_map (c_load (derived executed_bounce_phase)) Bounced), (law_load _ _ lawful_bounced)]].
    intros c x. split.
    + intros ([] & y & -> & V); [destruct V as (v & -> & V)|destruct V as ([] & z & -> & V); [destruct V as (v & -> & V)|destruct V as [-> ->]]]; cbn [br_layout br_prefix br_value].
      * exists y. auto.
      * exists z. rewrite capp_assoc. auto.
      * exists ([], []). split; reflexivity.
    + intros (y & -> & V). destruct c as [|p|p]; cbn [br_layout br_prefix br_value] in *.
      * cbn in V. subst y. exists false, (flag false). split; [reflexivity|]. exists false, ([], []). repeat split.
      * exists false, (capp (flag true) y). rewrite capp_assoc. split; [reflexivity|]. exists true, y. split; [reflexivity|]. exists p. auto.
      * exists true, y. split; [reflexivity|]. exists p. auto.
Qed.

(** ** The descriptions *)
Definition opt_action_l (b : chunk) : res (option action * chunk) := let? (c, b) := c_load (opt_k cell_k) b in let? a := parse_action c in Ok (a, b).
Lemma reads_opt_action : reads_layout opt_action_l (w_read (maybe_w (in_cell_w fin action_w))).
Proof.
  eapply reads_ext; [|apply (reads_opt (cell_l load_action)), reads_cell, (law_load _ _ lawful_action)].
  intros b. unfold opt_action_l, load_opt_c, opt_k, cell_k, cell_l, parse_action. cbn [c_load]. unfold load_opt_c. destruct (from_bits load_bit b) as [[[] b1]|]; cbn [rbind]; [|reflexivity|reflexivity].
  destruct (load_ref b1) as [[c b2]|]; cbn [rbind]; [|reflexivity]. destruct (from_cell load_action c); reflexivity.
Qed.
Lemma build_action_ok a x : w_write (maybe_w (in_cell_w fin action_w)) a x -> exists c, build_action fin a = Ok c /\ appends (c_store (opt_k cell_k) c) x.
Proof.
  cbn [maybe_w w_write]. intros [|v y W].
  - exists None. split; [reflexivity|]. apply (law_store _ _ (lawful_opt _ _ lawful_cell)). constructor.
  - cbn [in_cell_w w_write] in W. destruct W as (z & -> & Z & F).
    pose proof (pr_bits _ proper_action _ _ Z) as B. pose proof (pr_refs _ proper_action _ _ Z) as R. assert (B' : (w_bits action_w <= 1023)%nat) by (vm_compute; lia). assert (R' : (w_refs action_w <= 4)%nat) by (vm_compute; lia).
    exists (Some (Cell false (fst z) (snd z))). unfold build_action. rewrite (in_cell_ok fin (store_action v) z (law_store _ _ lawful_action _ _ Z)) by (assumption || lia). split; [reflexivity|].
    apply (law_store _ _ (lawful_opt _ _ lawful_cell)). constructor. constructor.
Qed.
Lemma lawful_credit : lawful (derived credit_phase) credit_phase_w.
Proof. struct_by. Qed.
Ltac one2 := first [one | by_law lawful_compute | by_law (lawful_opt _ _ lawful_storage_phase) | by_law (lawful_opt _ _ lawful_credit) | by_law (lawful_opt _ _ lawful_bounce)].
Definition ordinary_l := pair_l load_bool (pair_l (c_load (opt_k (derived storage_phase))) (pair_l (c_load (opt_k (derived credit_phase))) (pair_l load_compute
  (pair_l opt_action_l (pair_l load_bool (pair_l (c_load (opt_k bounce_k)) (pair_l load_bool unit_l))))))).
Lemma reads_ordinary_l : reads_layout ordinary_l (w_read (ordinary_w fin)).
Proof.
  unfold ordinary_l, ordinary_w. repeat first [apply reads_pair | exact reads_unit | exact reads_bool | exact reads_opt_action].
  - exact (law_load _ _ (lawful_opt _ _ lawful_storage_phase)).
  - exact (law_load _ _ (lawful_opt _ _ lawful_credit)).
  - exact (law_load _ _ lawful_compute).
  - exact (law_load _ _ (lawful_opt _ _ lawful_bounce)).
Qed.
Lemma reads_ordinary : reads_layout load_ordinary (fun i => w_read (ordinary_w fin) (ordinary_fields i)).
Proof.
  apply (reads_iso ordinary_l _ ordinary_fields (fun v => let '(a, (b, (c, (d, (e, (f, (g, (h, _)))))))) := v in Ordinary' a b c d e f g h) _ _ reads_ordinary_l).
  - intros b. unfold load_ordinary, ordinary_l, pair_l, unit_l, opt_action_l. runs.
  - intros (a & b & c & d & e & f & g & h & []). reflexivity.
  - intros []. reflexivity.
  - reflexivity.
Qed.
Lemma store_ordinary_ok i x : w_write (ordinary_w fin) (ordinary_fields i) x -> appends (store_ordinary fin i) x.
Proof.
  unfold ordinary_w, ordinary_fields. intros F. unpack2 F. subst. destruct (build_action_ok _ _ H3) as (c & E & A). unfold store_ordinary. rewrite E. cbn [rbind]. rewrite capp_nil.
  do 4 (apply appends_bind; [one2|]). apply appends_bind; [exact A|]. do 2 (apply appends_bind; [one2|]). one2.
Qed.
Lemma proper_compute : proper (compute_w fin).
Proof. exact (lawful_proper _ _ lawful_compute). Qed.
Lemma proper_ordinary : proper (ordinary_w fin).
Proof.
  unfold ordinary_w. repeat first [exact proper_end | exact proper_compute | apply proper_in_cell; exact proper_action | exact (lawful_proper _ _ lawful_bounce) | exact (lawful_proper _ _ lawful_bool)
    | exact (lawful_proper _ _ lawful_storage_phase) | exact (lawful_proper _ _ lawful_credit) | apply proper_maybe | apply proper_seq].
Qed.

Definition ticktock_l := pair_l load_bool (pair_l (c_load (derived storage_phase)) (pair_l load_compute (pair_l opt_action_l flags2_l))).
Lemma reads_ticktock_l : reads_layout ticktock_l (w_read (ticktock_w fin)).
Proof.
  unfold ticktock_l, ticktock_w. repeat first [apply reads_flags2 | exact reads_opt_action | apply reads_pair | exact reads_unit | exact reads_bool].
  - exact (law_load _ _ lawful_storage_phase).
  - exact (law_load _ _ lawful_compute).
Qed.
Lemma reads_ticktock : reads_layout load_ticktock (fun i => w_read (ticktock_w fin) (ticktock_fields i)).
Proof.
  apply (reads_iso ticktock_l _ ticktock_fields (fun v => let '(a, (b, (c, (d, (e, (f, _)))))) := v in TickTock' (if a : bool then Tock else Tick) b c d e f) _ _ reads_ticktock_l).
  - intros b. unfold load_ticktock, ticktock_l, pair_l, load_edge, flags2_l, opt_action_l. destruct (load_bool b) as [[[] b1]|]; runs.
  - intros ([] & b & c & d & e & f & []); reflexivity.
  - intros [[] ? ? ? ? ?]; reflexivity.
  - reflexivity.
Qed.
Lemma store_ticktock_ok i x : w_write (ticktock_w fin) (ticktock_fields i) x -> appends (store_ticktock fin i) x.
Proof.
  unfold ticktock_w, ticktock_fields. intros F. unpack2 F. subst. destruct (build_action_ok _ _ H2) as (c & E & A). unfold store_ticktock. rewrite E. cbn [rbind]. rewrite capp_nil.
  apply appends_bind; [one2|]. do 2 (apply appends_bind; [one2|]). apply appends_bind; [exact A|]. inversion H3; inversion H4. subst. apply flags2_w.
Qed.
Lemma proper_ticktock : proper (ticktock_w fin).
Proof.
  unfold ticktock_w. repeat first [exact proper_end | exact proper_compute | apply proper_in_cell; exact proper_action | exact (lawful_proper _ _ lawful_bool)
    | exact (lawful_proper _ _ lawful_storage_phase) | apply proper_maybe | apply proper_seq].
Qed.
Lemma lawful_info : lawful (info_k fin) (info_w fin).
Proof.
  apply lawful_cases.
  - intros [i|i]; cbn [br_layout br_prefix]; (split; [first [exact proper_ordinary | exact proper_ticktock]|]); vm_compute; lia.
  - intros [i|i] y; cbn [br_layout br_prefix br_value info_k c_store]; intros W.
    + apply appends_bind; [apply appends_prefix; reflexivity|exact (store_ordinary_ok i y W)].
    + apply appends_bind; [apply appends_prefix; reflexivity|exact (store_ticktock_ok i y W)].
  - eapply reads_equiv; [|cbn [info_k c_load]; unfold load_info; apply (reads_tag 3 _ (fun t => if t =? 1 then (fun c x => exists i, c = TickTock i /\ w_read (ticktock_w fin) (ticktock_fields i) x) else if t =? 0 then
      (fun c x => exists f y, x = capp ([f], []) y /\ if f : bool then no_c c y else exists i, c = Ordinary i /\ w_read (ordinary_w fin) (ordinary_fields i) y) else no_c))].
    2: { intros t _. destruct (t =? 1); [apply (reads_map load_ticktock TickTock), reads_ticktock|]. destruct (t =? 0); [|apply reads_err].
         apply (reads_ext (fun b => let? (f, b) := load_bool b in if f : bool then Err InvalidTag else let? (i, b) := load_ordinary b in Ok (Ordinary i, b)));
           [intros b; destruct (load_bool b) as [[[] ?]|]; reflexivity|]. apply reads_bit; [apply (reads_map load_ordinary Ordinary), reads_ordinary|apply reads_err]. }
    intros c x. split.
    + intros (t & y & T & -> & V). destruct (N.eqb_spec t 1) as [->|_]; [destruct V as (i & -> & V); exists y; auto|]. destruct (N.eqb_spec t 0) as [->|_]; [|destruct V].
      destruct V as ([] & z & -> & V); [destruct V|]. destruct V as (i & -> & V). exists z. rewrite capp_assoc. auto.
    + intros (y & -> & V). destruct c as [i|i]; cbn [br_layout br_prefix br_value] in *.
      * exists 0, (capp (flag false) y). rewrite capp_assoc. split; [reflexivity|]. split; [reflexivity|]. cbn [N.eqb]. exists false, y. split; [reflexivity|]. exists i. auto.
      * exists 1, y. split; [reflexivity|]. split; [reflexivity|]. cbn [N.eqb]. exists i. auto.
Qed.

(** ** Transactions *)
Definition bits_w {A} (l : layout A) : Prop := forall a x, w_read l a x -> snd x = [].
Definition refs_w {A} (l : layout A) : Prop := forall a x, w_read l a x -> fst x = [].
Lemma swap {A B C} (a : layout A) (c : layout B) (r : layout C) x y z u : bits_w a -> refs_w c ->
  (w_read (seq_w a (seq_w c r)) (x, (y, z)) u <-> w_read (seq_w c (seq_w a r)) (y, (x, z)) u).
Proof.
  intros Ba Rc. assert (S : forall p q : chunk, snd p = [] -> fst q = [] -> capp p q = capp q p).
  { intros [p1 p2] [q1 q2]. cbn [fst snd]. intros -> ->. unfold capp. cbn [fst snd app]. rewrite !app_nil_r. reflexivity. }
  cbn [seq_w w_read fst snd]. split.
  - intros (p & ? & -> & P & q & s & -> & Q & R). exists q, (capp p s). rewrite capp_assoc, (S p q), <- capp_assoc by eauto. split; [reflexivity|]. split; [exact Q|]. exists p, s. auto.
  - intros (q & ? & -> & Q & p & s & -> & P & R). exists p, (capp q s). rewrite capp_assoc, <- (S p q), <- capp_assoc by eauto. split; [reflexivity|]. split; [exact P|]. exists q, s. auto.
Qed.
Lemma bits_uint n : bits_w (uint_w n). Proof. intros a x []. reflexivity. Qed.
Lemma bits_bytes n : bits_w (bytes_w n). Proof. intros a x []. reflexivity. Qed.
Lemma bits_status : bits_w status_w. Proof. intros a x (y & -> & H). destruct a; cbn in H; subst y; reflexivity. Qed.
Lemma refs_in_cell {A} (l : layout A) : refs_w (in_cell_w fin l). Proof. intros a x (y & r & -> & _). reflexivity. Qed.
Definition messages_w := w[maybe_w ref_w, dict_w].
Definition messages_l (b : chunk) : res ((option cell * (option cell * unit)) * chunk) := let? (io, b) := load_messages b in Ok ((fst io, (snd io, tt)), b).
Lemma reads_messages : reads_layout messages_l (w_read messages_w).
Proof.
  apply (reads_ext (pair_l (c_load (opt_k cell_k)) (pair_l (c_load dict_k) unit_l))).
  - intros b. unfold messages_l, load_messages, pair_l, unit_l, dict_k. cbn [c_load]. runs.
  - apply reads_pair; [exact (law_load _ _ (lawful_opt _ _ lawful_cell))|]. apply reads_pair; [exact (law_load _ _ lawful_dict)|exact reads_unit].
Qed.
Lemma proper_messages : proper messages_w.
Proof. unfold messages_w. propers. Qed.
Lemma store_messages_ok t y : w_write messages_w (t_in_msg t, (t_out_msgs t, tt)) y -> appends (store_messages t) y.
Proof.
  unfold messages_w. intros F. unpack2 F. subst. unfold store_messages. rewrite capp_nil. apply appends_bind; [by_law (lawful_opt _ _ lawful_cell)|by_law lawful_dict].
Qed.
Definition transaction_l := pair_l (cell_l messages_l) (pair_l (load_bs 32) (pair_l (load_un 64) (pair_l (load_bs 32) (pair_l (load_un 64) (pair_l (load_un 32) (pair_l (c_load (small_k Uint15))
  (pair_l load_status (pair_l load_status (pair_l load_cc (pair_l (load_lazy false) (pair_l (load_lazy false) unit_l))))))))))).
Definition loaded_w := w[in_cell_w fin messages_w, hash_w, uint_w 64, hash_w, uint_w 64, uint_w 32, uint_w 15, status_w, status_w, currency_w, lazy_w, lazy_w].
Lemma reads_transaction_l : reads_layout transaction_l (w_read loaded_w).
Proof.
  unfold transaction_l, loaded_w. repeat first [apply reads_pair | exact reads_unit | exact (reads_bs 32) | exact (reads_un _) | apply reads_cell; exact reads_messages | exact (law_load _ _ lawful_status)
    | exact (law_load _ _ lawful_currency) | exact (law_load _ _ lawful_lazy) | exact (law_load _ _ (lawful_small Uint15))].
Qed.
Definition transaction_of (v : (option cell * (option cell * unit)) * (list N * (N * (list N * (N * (N * (N * (status * (status * (CurrencyModel.currency * (cell * (cell * unit)))))))))))) : transaction :=
  let '((i, (o, _)), (a, (b, (c, (d, (e, (f, (g, (h, (k, (l, (m, _)))))))))))) := v in Transaction a b c d e f g h i o k l m.
Definition transaction_to (t : transaction) := ((t_in_msg t, (t_out_msgs t, tt)), (t_account t, (t_lt t, (t_prev_hash t, (t_prev_lt t, (t_now t, (t_out_count t, (t_orig t, (t_end t, (t_fees t, (t_update t, (t_info t, tt)))))))))))).
Lemma proper_transaction : proper (transaction_w fin).
Proof. unfold transaction_w. propers. Qed.
Lemma lawful_transaction : lawful (transaction_k fin) (transaction_w fin).
Proof.
  apply proper_lawful; [exact proper_transaction| |].
  - intros t x F. unfold transaction_w, as_w in F. cbn [w_write tag_w] in F. destruct F as (r & -> & F). unfold transaction_fields in F. unpack2 F. subst.
    match goal with H : w_write (in_cell_w _ _) _ _ |- _ => cbn [in_cell_w w_write] in H; destruct H as (z & -> & Y & FY) end. fold messages_w in Y.
    pose proof (pr_bits _ proper_messages _ _ Y) as B. pose proof (pr_refs _ proper_messages _ _ Y) as R. assert (B' : (w_bits messages_w <= 1023)%nat) by (vm_compute; lia). assert (R' : (w_refs messages_w <= 4)%nat) by (vm_compute; lia).
    cbn [transaction_k c_store]. unfold store_transaction. rewrite (in_cell_ok fin (store_messages t) z (store_messages_ok t z Y)) by (assumption || lia). cbn [rbind]. rewrite capp_nil.
    apply appends_bind; [apply appends_prefix; reflexivity|]. do 5 (apply appends_bind; [one|]). apply appends_bind; [by_law (lawful_small Uint15)|]. do 2 (apply appends_bind; [one|]).
    apply appends_bind; [apply appends_ref|]. do 2 (apply appends_bind; [one|]). one.
  - eapply reads_equiv; [|apply (reads_ext (fun b => let? (t, b) := load_un 4 b in if t =? 7 then (let? (v, b) := transaction_l b in Ok (transaction_of v, b)) else Err InvalidTag));
      [|apply (reads_tag 4 (fun t b => if t =? 7 then (let? (v, b) := transaction_l b in Ok (transaction_of v, b)) else Err InvalidTag)); intros t _; apply (reads_if (t =? 7)); [apply (reads_map transaction_l transaction_of), reads_transaction_l|apply reads_err]]].
    + assert (Q : forall t x, w_read loaded_w (transaction_to t) x <-> w_read w[hash_w, uint_w 64, hash_w, uint_w 64, uint_w 32, uint_w 15, status_w, status_w, in_cell_w fin messages_w, currency_w, lazy_w, lazy_w] (transaction_fields t) x).
      { intros t x. unfold loaded_w, transaction_to, transaction_fields. assert (I := refs_in_cell messages_w).
        do 7 (rewrite <- swap by (exact I || apply bits_bytes || apply bits_uint || apply bits_status); apply seq_cong; intros ?). symmetry. apply swap; [apply bits_status|exact I]. }
      intros t x. unfold transaction_w, as_w. cbn [w_read tag_w]. split.
      * intros (k & y & K & -> & V). exists y. destruct (N.eqb_spec k 7) as [->|_]; [|destruct V]. split; [reflexivity|]. destruct V as (v & -> & V).
        destruct v as ((i & o & []) & a & b & c & d & e & f & g & h & p & l & m & []). apply (Q (Transaction a b c d e f g h i o p l m)). exact V.
      * intros (y & -> & V). exists 7, y. split; [reflexivity|]. split; [reflexivity|]. cbn [N.eqb Pos.eqb]. exists (transaction_to t). split; [destruct t; reflexivity|]. apply Q, V.
    + intros b. cbn [transaction_k c_load]. unfold load_transaction. destruct (load_un 4 b) as [[t b1]|]; cbn [rbind]; [|reflexivity]. destruct (t =? 7); cbn [negb]; [|reflexivity].
      unfold transaction_l, cell_l, messages_l, from_cell, pair_l, unit_l. runs.
Qed.
End Fin.
