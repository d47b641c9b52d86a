(** * Descriptions of shards *)
From Verif Require Import Err BitsProofs IntModel NumModel CurrencyModel CellModel DictModel ChunkModel ChunkSpec ChunkProofs CurrencySpec DeriveModel DeriveSpec StructsModel StructsSpec StructsProofs DeriveProps CasesSpec CasesProofs
  TxModel TxProofs ParamsSpec ParamsProofs ShardModel HashesModel HashesSpec.
Local Open Scope N_scope.

Lemma lawful_future : lawful future_k future_w.
Proof.
  apply lawful_cases.
  - intros [u i|u i]; cbn [br_layout br_prefix]; (split; [unfold u32_w; propers|]); cbn; lia.
  - intros [u i|u i] y Y; cbn [br_layout br_value br_prefix future_k c_store store_future] in Y |- *; unfold u32_w in Y; unpack2 Y; subst; (apply appends_bind; [apply appends_flag|]); writes.
  - eapply reads_equiv; [|cbn [future_k c_load]; eapply reads_ext; [|apply reads_bit; [apply (reads_map (two_l 32) (fun v => FSplit (fst v) (fst (snd v)))), reads_two|apply (reads_map (two_l 32) (fun v => FMerge (fst v) (fst (snd v)))), reads_two]]].
    + intros f x. split.
      * intros ([] & y & -> & (u & i & []) & -> & V); exists y; (split; [reflexivity|]); exact V.
      * intros (y & -> & V). destruct f as [u i|u i]; cbn [br_layout br_value br_prefix] in *; [exists false, y|exists true, y]; (split; [reflexivity|]); exists (u, (i, tt)); auto.
    + intros b. unfold load_future, two_l, pair_l, unit_l. destruct (load_bool b) as [[[] b1]|]; runs.
Qed.

(** ** Flags *)
Definition flags8 (v : N) : bool * (bool * (bool * (bool * (bool * (unit * unit))))) := (has v 128, (has v 64, (has v 32, (has v 16, (has v 8, (tt, tt)))))).
Definition flags8_l (b : chunk) : res ((bool * (bool * (bool * (bool * (bool * (unit * unit)))))) * chunk) :=
  let? (v, b) := load_un 8 b in if negb (N.land v 3 =? 0) then Err InvalidData else Ok (flags8 v, b).
Lemma small_cases (P : N -> bool) : forallb P (map N.of_nat (seq 0 256)) = true -> forall v, v < 256 -> P v = true.
Proof. intros H v B. rewrite forallb_forall in H. apply H. apply in_map_iff. exists (N.to_nat v). split; [lia|]. apply in_seq. lia. Qed.
Definition flags8_check (v : N) : bool := negb (N.land v 3 =? 0) || bool_decide (nbits 8 v = [has v 128; has v 64; has v 32; has v 16; has v 8; has v 4; false; false]).
Lemma flags8_bits v : v < 256 -> N.land v 3 = 0 -> nbits 8 v = [has v 128; has v 64; has v 32; has v 16; has v 8; has v 4; false; false].
Proof.
  intros B Z. assert (C : flags8_check v = true) by (apply small_cases; [vm_compute; reflexivity|exact B]).
  unfold flags8_check in C. rewrite Z in C. exact (proj1 (bool_decide_eq_true _) C).
Qed.
Lemma bool_read p x : w_read bool_w p x -> x = ([p], []).
Proof. intros []. reflexivity. Qed.
Lemma reads_flags8 : reads_layout flags8_l (w_read w[bool_w, bool_w, bool_w, bool_w, bool_w, spare_w]).
Proof.
  eapply reads_equiv; [|apply (reads_filter (load_un 8) (uint_c 8) (fun v => N.land v 3 =? 0) flags8 InvalidData), reads_un].
  intros (o & p & q & r & s & [] & []) x. split.
  - intros (v & E & Z & V). apply N.eqb_eq in Z. destruct V as [v B]. rewrite (flags8_bits v B Z). unfold flags8 in E. injection E as -> -> -> -> ->.
    do 5 (eexists _, _; split; [match goal with |- (?b :: ?l, _) = _ => exact (eq_refl : (b :: l, @nil cell) = capp ([b], []) (l, [])) end|]; split; [constructor|]).
    eexists _, ([], []). rewrite capp_nil. split; [reflexivity|]. split; [eexists; reflexivity|reflexivity].
  - intros F. unpack2 F. repeat match goal with H : w_read bool_w _ _ |- _ => apply bool_read in H end. match goal with H : w_read spare_w _ _ |- _ => destruct H as [t ->] end. subst.
    cbn [capp fst snd app]. exists (bval [o; p; q; r; s; t; false; false]). split; [|split].
    + destruct o, p, q, r, s, t; reflexivity.
    + destruct o, p, q, r, s, t; reflexivity.
    + assert (U : uint_c 8 (bval [o; p; q; r; s; t; false; false]) (nbits 8 (bval [o; p; q; r; s; t; false; false]), [])) by (constructor; apply (bval_lt [o; p; q; r; s; t; false; false])). rewrite (nbits_bval' 8) in U by reflexivity. exact U.
Qed.
Lemma store_flags8 o p q r s : appends (store_un 8 (N.lor (N.lor (N.lor (N.lor (N.shiftl (b2n o) 7) (N.shiftl (b2n p) 6)) (N.shiftl (b2n q) 5)) (N.shiftl (b2n r) 4)) (N.shiftl (b2n s) 3)))
  (capp (flag o) (capp (flag p) (capp (flag q) (capp (flag r) (capp (flag s) (nbits 3 0, [])))))).
Proof.
  replace (capp (flag o) _) with (nbits 8 (N.lor (N.lor (N.lor (N.lor (N.shiftl (b2n o) 7) (N.shiftl (b2n p) 6)) (N.shiftl (b2n q) 5)) (N.shiftl (b2n r) 4)) (N.shiftl (b2n s) 3)), @nil cell) by (destruct o, p, q, r, s; reflexivity).
  apply appends_prefix; [reflexivity|destruct o, p, q, r, s; reflexivity].
Qed.
Lemma proper_spare : proper spare_w.
Proof. constructor; cbn; [intros; eauto|intros _ x ->; exists false; reflexivity|intros _ x ->; cbn; lia|intros _ x ->; cbn; lia]. Qed.

(** ** The whole *)
Section Fin.
Context (fin : list bool -> list cell -> res unit).
Definition head_l := pair_l (load_un 32) (pair_l (load_un 32) (pair_l (load_un 64) (pair_l (load_un 64) (pair_l (load_bs 32) (pair_l (load_bs 32) (pair_l flags8_l
  (pair_l (load_un 32) (pair_l (load_un 64) (pair_l (load_un 32) (pair_l (load_un 32) (pair_l (c_load (opt_k future_k)) unit_l))))))))))).
Lemma reads_head : reads_layout head_l (w_read sdescr_head_w).
Proof. unfold head_l, sdescr_head_w, u32_w, u64_w, hash_w. parts; [apply reads_flags8|]. parts. exact (law_load _ _ (lawful_opt _ _ lawful_future)). Qed.
Definition funds_l := pair_l (c_load currency_k) (pair_l (c_load currency_k) unit_l).
Lemma reads_funds : reads_layout funds_l (w_read w[currency_w, currency_w]).
Proof. unfold funds_l. parts. Qed.
Definition sdescr_of (v : (N * (N * (N * (N * (list N * (list N * ((bool * (bool * (bool * (bool * (bool * (unit * unit)))))) * (N * (N * (N * (N * (option future * unit)))))))))))) * (currency * (currency * unit))) : sdescr :=
  let '((a, (b, (c, (d, (e, (f, ((o, (p, (q, (r, (s, _))))), (g, (h, (i, (j, (k, _)))))))))))), (x, (y, _))) := v in Sdescr a b c d e f o p q r s g h i j k x y.
Lemma load_sdescr_eq b : load_sdescr b =
  let? (t, b) := load_un 4 b in
  pick [(0xa, fun b => let? (v, b) := pair_l head_l (cell_l funds_l) b in Ok (sdescr_of v, b)); (0xb, fun b => let? (v, b) := pair_l head_l funds_l b in Ok (sdescr_of v, b))] t b.
Proof.
  unfold load_sdescr. destruct (load_un 4 b) as [[t b1]|]; [|reflexivity]. cbn [rbind pick]. destruct (t =? 0xa); [|destruct (t =? 0xb); [|reflexivity]]; cbn [rbind];
    unfold pair_l at 1, head_l, pair_l, unit_l, flags8_l, flags8.
  - destruct (load_un 32 b1) as [[p1 b2]|]; [|reflexivity]. cbn [rbind]. destruct (load_un 32 b2) as [[p2 b3]|]; [|reflexivity]. cbn [rbind]. destruct (load_un 64 b3) as [[p3 b4]|]; [|reflexivity]. cbn [rbind]. destruct (load_un 64 b4) as [[p4 b5]|]; [|reflexivity]. cbn [rbind].
    destruct (load_bs 32 b5) as [[p5 b6]|]; [|reflexivity]. cbn [rbind]. destruct (load_bs 32 b6) as [[p6 b7]|]; [|reflexivity]. cbn [rbind]. destruct (load_un 8 b7) as [[p7 b8]|]; [|reflexivity]. cbn [rbind]. destruct (negb (N.land p7 3 =? 0)); [reflexivity|].
    cbn [rbind]. unfold cell_l, from_cell, load_funds, funds_l, pair_l, unit_l. runs.
  - destruct (load_un 32 b1) as [[p1 b2]|]; [|reflexivity]. cbn [rbind]. destruct (load_un 32 b2) as [[p2 b3]|]; [|reflexivity]. cbn [rbind]. destruct (load_un 64 b3) as [[p3 b4]|]; [|reflexivity]. cbn [rbind]. destruct (load_un 64 b4) as [[p4 b5]|]; [|reflexivity]. cbn [rbind].
    destruct (load_bs 32 b5) as [[p5 b6]|]; [|reflexivity]. cbn [rbind]. destruct (load_bs 32 b6) as [[p6 b7]|]; [|reflexivity]. cbn [rbind]. destruct (load_un 8 b7) as [[p7 b8]|]; [|reflexivity]. cbn [rbind]. destruct (negb (N.land p7 3 =? 0)); [reflexivity|].
    cbn [rbind]. unfold load_funds, funds_l, pair_l, unit_l. runs.
Qed.
Lemma proper_head : proper sdescr_head_w.
Proof. unfold sdescr_head_w, u32_w, u64_w, hash_w. propers; [exact proper_spare|exact (lawful_proper _ _ lawful_future)]. Qed.
Lemma store_sdescr_ok d x : w_write (sdescr_w fin) d x -> appends (store_sdescr fin d) x.
Proof.
  intros (z & -> & h & c & -> & H & y & -> & Y & F).
  assert (C : in_cell fin (store_funds d) = Ok (Cell false (fst y) (snd y))).
  { apply in_cell_ok; [| | |exact F].
    - cbn [snd sdescr_view] in Y. unpack2 Y. subst. unfold store_funds. rewrite capp_nil. apply appends_bind; by_law lawful_currency.
    - assert (P : proper w[currency_w, currency_w]) by propers. pose proof (pr_bits _ P _ _ Y) as B. refine (Nat.le_trans _ _ _ B _). apply Nat.leb_le. reflexivity.
    - assert (P : proper w[currency_w, currency_w]) by propers. pose proof (pr_refs _ P _ _ Y) as B. refine (Nat.le_trans _ _ _ B _). apply Nat.leb_le. reflexivity. }
  clear F Y. unfold sdescr_head_w, sdescr_view, sdescr_head in H. cbn [fst] in H. unfold u32_w, u64_w, hash_w in H. unpack2 H. subst.
  match goal with W : w_write (seq_w bool_w _) _ _ |- _ => unpack2 W end. repeat match goal with W : w_write bool_w _ _ |- _ => apply bool_written in W end. match goal with W : w_write spare_w _ _ |- _ => cbn [spare_w w_write] in W end. subst.
  unfold store_sdescr. rewrite C. cbn [rbind]. cbv zeta.
  apply appends_bind; [apply appends_prefix; reflexivity|]. rewrite !capp_nil, <- !capp_assoc.
  do 6 (apply appends_bind; [one|]).
  match goal with |- appends _ (capp ?o (capp ?p (capp ?q (capp ?r (capp ?s (capp ?z ?t)))))) => replace (capp o (capp p (capp q (capp r (capp s (capp z t)))))) with (capp (capp o (capp p (capp q (capp r (capp s z))))) t) by (rewrite <- !capp_assoc; reflexivity) end.
  apply appends_bind; [apply store_flags8|]. do 4 (apply appends_bind; [one|]). apply appends_bind; [by_law (lawful_opt _ _ lawful_future)|]. apply appends_ref.
Qed.
Lemma lawful_sdescr : lawful (sdescr_k fin) (sdescr_w fin).
Proof.
  apply proper_lawful.
  - apply proper_or, proper_as, proper_tag, proper_seq; [exact proper_head|]. propers.
  - exact store_sdescr_ok.
  - eapply reads_ext; [intros b; symmetry; apply load_sdescr_eq|]. eapply reads_equiv; [|apply reads_tags; cbn [map fst]].
    2: { repeat constructor; cbn; intros H; intuition discriminate. }
    2: { repeat constructor; reflexivity. }
    2: { constructor; [|constructor; [|constructor]]; cbn [snd]; [apply (reads_map (pair_l head_l (cell_l funds_l)) sdescr_of), reads_pair; [apply reads_head|apply (reads_cell fin), reads_funds]|apply (reads_map (pair_l head_l funds_l) sdescr_of), reads_pair; [apply reads_head|apply reads_funds]]. }
    assert (V : forall v, sdescr_view (sdescr_of v) = v) by (intros ((a & b & c & d & e & f & (o & p & q & r & s & [] & []) & g & h & i & j & k & []) & (u & w & [])); reflexivity).
    assert (W : forall d, d = sdescr_of (sdescr_view d)) by (intros []; reflexivity).
    intros d x. cbn [map fst picked sdescr_w or_w as_w w_read]. split.
    + intros [(y & -> & v & -> & R)|[(y & -> & v & -> & R)|[]]]; rewrite V; [left|right]; exists y; auto.
    + intros [(y & -> & R)|(y & -> & R)]; [left|right; left]; exists y; (split; [reflexivity|]); exists (sdescr_view d); auto.
Qed.
(** Descriptions take at most 895 bits and one reference. *)
Lemma sdescr_fits d x : w_write (sdescr_w fin) d x -> (length (fst x) <= 1022)%nat /\ (length (snd x) <= 4)%nat.
Proof.
  intros H. pose proof (law_bits _ _ lawful_sdescr _ _ H) as B. pose proof (law_refs _ _ lawful_sdescr _ _ H) as R. split; [refine (Nat.le_trans _ _ _ B _)|refine (Nat.le_trans _ _ _ R _)]; apply Nat.leb_le; reflexivity.
Qed.
Lemma make_leaf_ok d x : w_write (sdescr_w fin) d x -> fin (false :: fst x) (snd x) = Ok tt -> make_leaf fin d = Ok (Cell false (false :: fst x) (snd x)).
Proof.
  intros W F. destruct (sdescr_fits d x W) as [B R]. unfold make_leaf. change (false :: fst x) with (fst (capp (flag false) x)). change (snd x) with (snd (capp (flag false) x)).
  apply in_cell_ok; [apply appends_bind; [apply appends_flag|exact (store_sdescr_ok d x W)]| | |exact F]; cbn [capp fst snd flag app length]; lia.
Qed.
Lemma make_leaf_inv d c : w_ok (sdescr_w fin) d -> make_leaf fin d = Ok c -> exists x, w_write (sdescr_w fin) d x /\ c = Cell false (false :: fst x) (snd x) /\ fin (false :: fst x) (snd x) = Ok tt.
Proof.
  intros O H. destruct (law_ok _ _ lawful_sdescr d O) as (x & W). exists x. split; [exact W|]. destruct (sdescr_fits d x W) as [B R].
  unfold make_leaf, in_cell in H. assert (A : appends (fun b => let? b := store_bool false b in store_sdescr fin d b) (capp (flag false) x)) by (apply appends_bind; [apply appends_flag|exact (store_sdescr_ok d x W)]).
  rewrite (A ([], [])) in H by (split; cbn; lia). rewrite nil_capp in H. cbn [capp flag fst snd app length Nat.add] in H.
  destruct (Nat.ltb_spec 1023 (S (length (fst x)))); [lia|]. destruct (Nat.ltb_spec 4 (length (snd x))); [lia|]. cbn [orb rbind] in H.
  unfold build in H. cbn [capp flag fst snd app] in H. destruct (fin (false :: fst x) (snd x)) as [[]|] eqn:F; [|exfalso; cbn [rbind] in H; congruence]. cbn [rbind] in H. injection H as <-. split; reflexivity.
Qed.
Lemma make_edge_ok l r : fin [true] [l; r] = Ok tt -> make_edge fin l r = Ok (Cell false [true] [l; r]).
Proof.
  intros F. unfold make_edge. change [true] with (fst (capp (flag true) (capp ([], [l]) ([], [r])))). change [l; r] with (snd (capp (flag true) (capp ([], [l]) ([], [r])))).
  apply in_cell_ok; [apply appends_bind; [apply appends_flag|apply appends_bind; apply appends_ref]|cbn; lia|cbn; lia|exact F].
Qed.
Lemma make_edge_inv l r c : make_edge fin l r = Ok c -> c = Cell false [true] [l; r] /\ fin [true] [l; r] = Ok tt.
Proof.
  assert (E : make_edge fin l r = let? _ := fin [true] [l; r] in Ok (Cell false [true] [l; r])) by reflexivity.
  rewrite E. destruct (fin [true] [l; r]) as [[]|]; [|discriminate]. cbn [rbind]. intros [= <-]. auto.
Qed.
(** The identifier of the block without the rest of the description. *)
Lemma skip_chunk n x r : length x = n -> on_bits (skip_bits n) (capp (x, []) r) = Ok r.
Proof.
  intros <-. unfold on_bits, skip_bits. cbn [capp fst snd app]. destruct (Nat.ltb_spec (length (x ++ fst r)) (length x)) as [L|_]; [rewrite app_length in L; lia|]. cbn [rbind]. rewrite drop_app. destruct r. reflexivity.
Qed.
Lemma block_of_read s v d r : load_sdescr (s_chunk v) = Ok (d, r) -> block_of s v = Ok (as_block_id d s).
Proof.
  intros H. apply (law_load _ _ lawful_sdescr) in H. destruct H as (x & X & E). unfold block_of. cbv zeta. rewrite E.
  assert (Y : exists t h z, length t = 4%nat /\ w_read sdescr_head_w (sdescr_head d) h /\ x = capp (t, []) (capp h z)).
  { destruct X as [(y & -> & h & z & -> & Hh & _)|(y & -> & h & z & -> & Hh & _)]; eexists _, h, z; (split; [|split; [exact Hh|reflexivity]]); reflexivity. }
  clear X E. destruct Y as (t & h & z & T & Hh & ->). unfold sdescr_head_w, sdescr_head, u32_w, u64_w, hash_w in Hh. unpack2 Hh. subst. rewrite !capp_nil, <- !capp_assoc.
  rewrite (skip_chunk 4 t) by exact T. cbn [rbind]. rewrite (reads_back _ _ _ _ _ (reads_un 32) H). cbn [rbind].
  destruct H0 as [? H0]. destruct H1 as [? H1]. destruct H2 as [? H2].
  match goal with |- context [on_bits _ (capp (?a, []) (capp (?b, []) (capp (?c, []) ?t)))] => replace (capp (a, []) (capp (b, []) (capp (c, []) t))) with (capp (a ++ b ++ c, []) t) by (unfold capp; cbn [fst snd app]; rewrite !app_assoc; reflexivity) end.
  rewrite skip_chunk by (rewrite !app_length, !length_nbits; reflexivity). cbn [rbind].
  rewrite (reads_back _ _ _ _ _ (reads_bs 32) H3). cbn [rbind]. rewrite (reads_back _ _ _ _ _ (reads_bs 32) H4). reflexivity.
Qed.
End Fin.
