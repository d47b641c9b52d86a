(** * Parameters with codecs written by hand *)
From Verif Require Import Err BitsProofs IntModel NumModel CellModel DictModel ChunkModel ChunkSpec ChunkProofs CurrencySpec FeesModel VsetModel VsetSpec
  DeriveModel DeriveSpec StructsModel StructsSpec StructsProofs DeriveProps CasesSpec CasesProofs TxModel TxProofs ParamsModel ParamsSpec.
Local Open Scope N_scope.

Ltac parts := repeat first [apply reads_unit | apply reads_pair | apply reads_flags3 | apply reads_flags2
  | apply (reads_law (uint_k _) _ (lawful_uint _)) | apply (reads_law (bytes_k _) _ (lawful_bytes _)) | apply (reads_law (nonzero_k _) _ (lawful_nonzero _)) | apply reads_law; solve [eauto 4 with layouts] ].
Ltac by_law L := match goal with H : w_write _ _ ?y |- appends _ ?y => exact (law_store _ _ L _ _ H) end.
Ltac one := first [by_law (lawful_uint 8) | by_law (lawful_uint 16) | by_law (lawful_uint 32) | by_law (lawful_uint 64) | by_law lawful_bool | by_law (lawful_bytes 32)].
Ltac writes := rewrite ?capp_nil; repeat (apply appends_bind; [one|]); one.

(** ** Tags *)
Definition loader A := chunk -> res (A * chunk).
Fixpoint pick {A} (cs : list (N * loader A)) (t : N) (b : chunk) : res (A * chunk) :=
  match cs with [] => Err InvalidTag | (t0, l) :: cs => if t =? t0 then l b else pick cs t b end.
Fixpoint picked {A} n (ts : list N) (Ls : list (A -> chunk -> Prop)) (a : A) (x : chunk) : Prop :=
  match ts, Ls with t :: ts, L :: Ls => (exists y, x = capp (nbits n t, []) y /\ L a y) \/ picked n ts Ls a x | _, _ => False end.
Lemma reads_tags {A} n (cs : list (N * loader A)) Ls : List.NoDup (map fst cs) -> Forall (fun t => t < 2 ^ N.of_nat n) (map fst cs) -> Forall2 (fun c L => reads_layout (snd c) L) cs Ls ->
  reads_layout (fun b => let? (t, b) := load_un n b in pick cs t b) (picked n (map fst cs) Ls).
Proof.
  intros ND T F.
  set (P := fix P (cs : list (N * loader A)) (Ls : list (A -> chunk -> Prop)) (t : N) : A -> chunk -> Prop :=
    match cs, Ls with (t0, _) :: cs, L :: Ls => if t =? t0 then L else P cs Ls t | _, _ => no_c end).
  eapply reads_equiv; [|apply (reads_tag n (pick cs) (P cs Ls))].
  - intros a x. induction F as [|[t0 l] L cs Ls R F IH]; cbn [map fst picked pick].
    + split; [intros (t & y & _ & _ & [])|intros []].
    + inversion_clear ND as [|? ? N1 N2]. inversion_clear T as [|? ? T1 T2]. specialize (IH N2 T2). rewrite <- IH. cbn [P]. split.
      * intros (t & y & Ht & -> & H). destruct (N.eqb_spec t t0) as [->|NE]; [left; exists y; auto|right; exists t, y; auto].
      * intros [(y & -> & Y)|(t & y & Ht & -> & H)].
        -- exists t0, y. rewrite N.eqb_refl. auto.
        -- exists t, y. destruct (N.eqb_spec t t0) as [->|NE]; [|auto]. exfalso. clear - H N1 F. induction F as [|[t1 l1] L1 cs Ls R F IH]; cbn [P] in H; [destruct H|].
           cbn in N1. destruct (N.eqb_spec t0 t1) as [->|]; [apply N1; left; reflexivity|]. apply IH; [intros Q; apply N1; right; exact Q|exact H].
  - intros t _. clear ND T. induction F as [|[t0 l] L cs Ls R F IH]; cbn [pick P]; [apply reads_err|]. destruct (t =? t0); [exact R|exact IH].
Qed.
(** A number whose high bits must be zero. *)
Lemma reads_padded {A} n k (g : N -> A) L : reads_layout (fun b => let? (v, b) := load_un k b in Ok (g v, b)) L ->
  reads_layout (fun b => let? (v, b) := load_un (n + k) b in if negb (N.shiftr v (N.of_nat k) =? 0) then Err InvalidData else Ok (g v, b)) (fun a x => exists y, x = capp (nbits n 0, []) y /\ L a y).
Proof.
  intros H b a r. assert (Z : 2 ^ N.of_nat k <> 0) by (apply N.pow_nonzero; lia). split.
  - destruct (load_un (n + k) b) as [[v b']|] eqn:E; [|discriminate]. cbn [rbind]. destruct (N.eqb_spec (N.shiftr v (N.of_nat k)) 0) as [S|]; [|discriminate]. cbn [negb]. intros [= <- <-].
    apply (reads_un _) in E. destruct E as (x & X & ->). apply uint_split in X. destruct X as (y & z & -> & Y & W). rewrite N.shiftr_div_pow2 in S. rewrite S in Y. inversion Y; subst.
    exists (capp (nbits n 0, []) z). split; [|reflexivity]. exists z. split; [reflexivity|].
    assert (V : v mod 2 ^ N.of_nat k = v) by (apply N.mod_small; apply N.div_small_iff in S; auto). rewrite V in W.
    assert (Q : (let? (v, b) := load_un k (capp z ([], [])) in Ok (g v, b)) = Ok (g v, ([], []))) by (rewrite (reads_back _ _ v z ([], []) (reads_un k) W); reflexivity).
    apply H in Q. destruct Q as (z' & Z' & E). rewrite !capp_nil in E. subst z'. exact Z'.
  - intros (x & (y & -> & Y) & ->). pose proof (reads_back _ _ a y ([], []) H Y) as Q. cbn beta in Q. destruct (load_un k (capp y ([], []))) as [[v b']|] eqn:E; [|discriminate]. cbn [rbind] in Q. injection Q as <- ->.
    apply (reads_un _) in E. destruct E as (y' & Y' & E). rewrite !capp_nil in E. subst y'. pose proof Y' as B. destruct B as [v B].
    assert (U : uint_c (n + k) v (capp (nbits n 0, []) (nbits k v, []))).
    { apply uint_split. exists (nbits n 0, []), (nbits k v, []). split; [reflexivity|]. rewrite N.div_small, N.mod_small by exact B. split; [constructor; apply N.neq_0_lt_0, N.pow_nonzero; lia|exact Y']. }
    rewrite (reads_back _ _ v _ r (reads_un (n + k)) U). cbn [rbind]. rewrite N.shiftr_div_pow2, N.div_small by exact B. reflexivity.
Qed.

(** ** More layouts *)
Lemma proper_or {A} (l : layout A) old : proper l -> proper (or_w l old).
Proof. intros P. constructor; [exact (pr_ok _ P)|intros a x H; left; exact (pr_same _ P _ _ H)|exact (pr_bits _ P)|exact (pr_refs _ P)]. Qed.
Lemma proper_write_if {A} (Q : A -> Prop) (l : layout A) : proper l -> proper (write_if Q l).
Proof.
  intros P. constructor.
  - intros a (O & H). destruct (pr_ok _ P a O) as (x & X). exists x. split; assumption.
  - intros a x (_ & H). exact (pr_same _ P _ _ H).
  - intros a x (_ & H). exact (pr_bits _ P _ _ H).
  - intros a x (_ & H). exact (pr_refs _ P _ _ H).
Qed.
Lemma proper_zeros n : proper (zeros_w n).
Proof. constructor; cbn; [intros; eauto|auto|intros _ x ->; cbn; rewrite length_nbits; lia|intros _ x ->; cbn; lia]. Qed.
Lemma tag_seq {A B} n t (a : layout A) (b : layout B) v x : w_read (tag_w n t (seq_w a b)) v x <-> w_read (seq_w (tag_w n t a) b) v x.
Proof.
  cbn [tag_w seq_w w_read]. split.
  - intros (y & -> & p & q & -> & P & Q). exists (capp (nbits n t, []) p), q. rewrite capp_assoc. split; [reflexivity|]. split; [exists p; auto|exact Q].
  - intros (? & q & -> & (p & -> & P) & Q). exists (capp p q). rewrite capp_assoc. split; [reflexivity|]. exists p, q. auto.
Qed.
Lemma tag_cong {A B} n t (a : layout A) (b : layout B) v w x : (forall z, w_read a v z <-> w_read b w z) -> (w_read (tag_w n t a) v x <-> w_read (tag_w n t b) w x).
Proof. intros H. cbn [tag_w w_read]. split; intros (y & -> & Y); exists y; split; try reflexivity; apply H, Y. Qed.

(** ** Catchain parameters *)
Definition four_l := pair_l (load_un 32) (pair_l (load_un 32) (pair_l (load_un 32) (pair_l (load_un 32) unit_l))).
Lemma reads_four : reads_layout four_l (w_read w[u32_w, u32_w, u32_w, u32_w]).
Proof. unfold four_l, u32_w. parts. Qed.
Definition flags_6_2_l (b : chunk) : res ((bool * (bool * unit)) * chunk) :=
  let? (v, b) := load_un (6 + 2) b in if negb (N.shiftr v (N.of_nat 2) =? 0) then Err InvalidData else Ok (unpack2 v, b).
Lemma reads_flags_6_2 : reads_layout flags_6_2_l (w_read (tag_w 6 0 w[bool_w, bool_w])).
Proof. exact (reads_padded 6 2 unpack2 _ reads_flags2). Qed.
Definition catchain_of (v : (bool * (bool * unit)) * (N * (N * (N * (N * unit))))) : catchain :=
  let '((i, (s, _)), (mc, (sh, (vl, (n, _))))) := v in Catchain i s mc sh vl n.
Lemma load_catchain_eq b : load_catchain b =
  let? (t, b) := load_un 8 b in
  pick [(0xc1, fun b => let? (v, b) := four_l b in Ok (catchain_of ((false, (false, tt)), v), b)); (0xc2, fun b => let? (v, b) := pair_l flags_6_2_l four_l b in Ok (catchain_of v, b))] t b.
Proof.
  unfold load_catchain. destruct (load_un 8 b) as [[t b1]|]; [|reflexivity]. cbn [rbind pick]. destruct (t =? 0xc1); [|destruct (t =? 0xc2); [|reflexivity]].
  - unfold four_l, pair_l, unit_l. cbn [rbind]. change (negb (N.shiftr 0 2 =? 0)) with false. cbv iota. runs.
  - unfold pair_l at 1, flags_6_2_l. change (6 + 2)%nat with 8%nat. change (N.of_nat 2) with 2. destruct (load_un 8 b1) as [[v b2]|]; [|reflexivity]. cbn [rbind]. destruct (negb (N.shiftr v 2 =? 0)); [reflexivity|]. cbn [rbind].
    unfold four_l, pair_l, unit_l. runs.
Qed.
Lemma w8_bits_flags p q : appends (store_un 8 (N.lor (N.shiftl (b2n p) 1) (b2n q))) (capp (nbits 6 0, []) (capp (flag p) (flag q))).
Proof. replace (capp (nbits 6 0, []) (capp (flag p) (flag q))) with (nbits 8 (N.lor (N.shiftl (b2n p) 1) (b2n q)), @nil cell) by (destruct p, q; reflexivity). apply appends_prefix; [reflexivity|destruct p, q; reflexivity]. Qed.
Lemma lawful_catchain : lawful catchain_k catchain_w.
Proof.
  apply proper_lawful.
  - apply proper_or, proper_as. unfold catchain_v2_w, u32_w. propers.
  - intros [i s mc sh vl n] x. cbn [catchain_w or_w as_w w_write catchain_numbers cc_isolate cc_shuffle cc_mc_lifetime cc_shard_lifetime cc_vals_lifetime cc_vals_num]. intros F. unfold catchain_v2_w, u32_w in F. unpack2 F. subst. repeat match goal with H : w_write bool_w _ _ |- _ => destruct H end.
    cbn [c_store catchain_k]. unfold store_catchain. cbn [cc_isolate cc_shuffle cc_mc_lifetime cc_shard_lifetime cc_vals_lifetime cc_vals_num].
    apply appends_bind; [apply appends_prefix; reflexivity|]. rewrite (capp_assoc ([b0], [])), (capp_assoc (nbits 6 0, [])). cbn [catchain_numbers fst snd cc_mc_lifetime cc_shard_lifetime cc_vals_lifetime cc_vals_num] in *. apply appends_bind; [apply w8_bits_flags|]. writes.
  - eapply reads_ext; [intros b; symmetry; apply load_catchain_eq|]. eapply reads_equiv; [|apply reads_tags; cbn [map fst]].
    2: { repeat constructor; cbn; intros H; intuition discriminate. }
    2: { repeat constructor; reflexivity. }
    2: { constructor; [|constructor; [|constructor]]; cbn [snd]; [apply (reads_map four_l (fun v => catchain_of ((false, (false, tt)), v))), reads_four|apply (reads_map (pair_l flags_6_2_l four_l) catchain_of), reads_pair; [apply reads_flags_6_2|apply reads_four]]. }
    intros [i s mc sh vl n] x. cbn [map fst picked catchain_w or_w as_w w_read catchain_numbers cc_isolate cc_shuffle cc_mc_lifetime cc_shard_lifetime cc_vals_lifetime cc_vals_num]. split.
    + intros [(y & -> & (a & b & c & d & []) & [= -> -> -> -> -> ->] & R)|[(y & -> & ((p & q & []) & a & b & c & d & []) & [= -> -> -> -> -> ->] & R)|[]]].
      * right. split; [reflexivity|]. split; [reflexivity|]. exists y. auto.
      * left. exists y. split; [reflexivity|]. apply (tag_seq 6 0) in R. revert R. apply tag_cong. intros z. apply regroup2.
    + intros [(y & -> & R)|(-> & -> & y & -> & R)].
      * right. left. exists y. split; [reflexivity|]. exists ((i, (s, tt)), (mc, (sh, (vl, (n, tt))))). split; [reflexivity|]. apply (tag_seq 6 0). revert R. apply tag_cong. intros z. symmetry. apply regroup2.
      * left. exists y. split; [reflexivity|]. exists (mc, (sh, (vl, (n, tt)))). auto.
Qed.

(** ** Consensus parameters *)
Definition seven_l (w : nat) := pair_l (load_un w) (pair_l (load_un w) (pair_l (load_un w) (pair_l (load_un w) (pair_l (load_un w) (pair_l (load_un w) (pair_l (load_un w) unit_l)))))).
Lemma reads_seven w : reads_layout (seven_l w) (w_read w[uint_w w, uint_w w, uint_w w, uint_w w, uint_w w, uint_w w, uint_w w]).
Proof. unfold seven_l. parts. Qed.
Definition flag_7_l (b : chunk) : res (bool * chunk) := let? (v, b) := load_un (7 + 1) b in if negb (N.shiftr v (N.of_nat 1) =? 0) then Err InvalidData else Ok (has v 1, b).
Lemma flag1 v x : uint_c 1 v x <-> v = b2n (has v 1) /\ x = flag (has v 1).
Proof.
  split.
  - intros [u H]. change (2 ^ N.of_nat 1) with 2 in H. assert (C : u = 0 \/ u = 1) by lia. destruct C as [->| ->]; split; reflexivity.
  - generalize (has v 1). intros p [-> ->]. replace (flag p) with (nbits 1 (b2n p), @nil cell) by (destruct p; reflexivity). constructor. destruct p; reflexivity.
Qed.
Lemma reads_flag_7 : reads_layout flag_7_l (w_read (tag_w 7 0 bool_w)).
Proof.
  apply (reads_padded 7 1 (fun v => has v 1)). eapply reads_equiv; [|apply (reads_map (load_un 1) (fun v => has v 1)), reads_un]. intros p x. cbn [bool_w exact_w w_read]. split.
  - intros (v & -> & V). apply flag1 in V. destruct V as [_ ->]. constructor.
  - intros []. exists (b2n b). rewrite flag1. destruct b; repeat split.
Qed.
Definition consensus_of (f : bool) (v : N * (N * (N * (N * (N * (N * (N * (N * unit)))))))) : consensus :=
  let '(n, (a, (b, (c, (d, (e, (g, (h, _)))))))) := v in Consensus f n a b c d e g h.
Lemma load_consensus_eq b : load_consensus b =
  let? (t, b) := load_un 8 b in
  pick [(0xd6, fun b => let? (v, b) := pair_l (c_load (nonzero_k 32)) (seven_l 32) b in Ok (consensus_of false v, b));
        (0xd7, fun b => let? (v, b) := pair_l flag_7_l (pair_l (c_load (nonzero_k 8)) (seven_l 32)) b in Ok (consensus_of (fst v) (snd v), b))] t b.
Proof.
  unfold load_consensus. destruct (load_un 8 b) as [[t b1]|]; [|reflexivity]. cbn [rbind pick]. destruct (t =? 0xd6); [|destruct (t =? 0xd7); [|reflexivity]].
  - unfold seven_l, pair_l, unit_l. cbn [rbind]. destruct (c_load (nonzero_k 32) b1) as [[n b2]|]; [|reflexivity]. runs.
  - unfold pair_l at 1, flag_7_l. change (7 + 1)%nat with 8%nat. change (N.of_nat 1) with 1. destruct (load_un 8 b1) as [[v b2]|]; [|reflexivity]. cbn [rbind]. destruct (negb (N.shiftr v 1 =? 0)); [reflexivity|]. cbn [rbind].
    unfold seven_l, pair_l, unit_l. destruct (c_load (nonzero_k 8) b2) as [[n b3]|]; [|reflexivity]. runs.
Qed.
Lemma w8_bits_flag p : appends (store_un 8 (b2n p)) (capp (nbits 7 0, []) (flag p)).
Proof. replace (capp (nbits 7 0, []) (flag p)) with (nbits 8 (b2n p), @nil cell) by (destruct p; reflexivity). apply appends_prefix; [reflexivity|destruct p; reflexivity]. Qed.
Lemma lawful_consensus : lawful consensus_k consensus_w.
Proof.
  apply proper_lawful.
  - apply proper_or, proper_as. unfold consensus_v2_w, seven_w, u32_w. propers. exact (lawful_proper _ _ (lawful_nonzero 8)).
  - intros [f n a b c d e g h] x. cbn [consensus_w or_w as_w w_write consensus_numbers co_new_ids co_candidates co_delay co_timeout co_attempts co_duration co_deps co_block co_collated]. intros F. unfold consensus_v2_w, seven_w, u32_w in F. unpack2 F. subst.
    match goal with H : w_write bool_w _ _ |- _ => destruct H end. 
match goal with H : w_write (nonzero_w 8) _ _ |- _ => destruct H as (NZ & HW) end. pose proof HW as B. destruct B as [v B].
    cbn [c_store consensus_k]. unfold store_consensus. cbn [co_new_ids co_candidates co_delay co_timeout co_attempts co_duration co_deps co_block co_collated].
    apply appends_bind; [apply appends_prefix; reflexivity|]. rewrite (capp_assoc (nbits 7 0, [])). apply appends_bind; [apply w8_bits_flag|]. unfold w8. rewrite (N.mod_small v) by exact B. cbn [consensus_numbers fst snd co_delay co_timeout co_attempts co_duration co_deps co_block co_collated] in *.
    apply appends_bind; [apply appends_un; constructor; exact B|]. writes.
  - eapply reads_ext; [intros b; symmetry; apply load_consensus_eq|]. eapply reads_equiv; [|apply reads_tags; cbn [map fst]].
    2: { repeat constructor; cbn; intros H; intuition discriminate. }
    2: { repeat constructor; reflexivity. }
    2: { constructor; [|constructor; [|constructor]]; cbn [snd].
         - apply (reads_map (pair_l (c_load (nonzero_k 32)) (seven_l 32)) (consensus_of false)), reads_pair; [apply (law_load _ _ (lawful_nonzero 32))|apply reads_seven].
         - apply (reads_map (pair_l flag_7_l (pair_l (c_load (nonzero_k 8)) (seven_l 32))) (fun v => consensus_of (fst v) (snd v))), reads_pair; [apply reads_flag_7|apply reads_pair; [apply (law_load _ _ (lawful_nonzero 8))|apply reads_seven]]. }
    intros [f n a b c d e g h] x. cbn [map fst picked consensus_w or_w as_w w_read consensus_numbers co_new_ids co_candidates co_delay co_timeout co_attempts co_duration co_deps co_block co_collated]. split.
    + intros [(y & -> & (n' & a' & b' & c' & d' & e' & g' & h' & []) & [= -> -> -> -> -> -> -> -> ->] & R)|[(y & -> & (f' & n' & a' & b' & c' & d' & e' & g' & h' & []) & [= -> -> -> -> -> -> -> -> ->] & R)|[]]].
      * right. split; [reflexivity|]. exists y. auto.
      * left. exists y. split; [reflexivity|]. apply (tag_seq 7 0) in R. exact R.
    + intros [(y & -> & R)|(-> & y & -> & R)].
      * right. left. exists y. split; [reflexivity|]. exists (f, (n, (a, (b, (c, (d, (e, (g, (h, tt))))))))). split; [reflexivity|]. apply (tag_seq 7 0). exact R.
      * left. exists y. split; [reflexivity|]. exists (n, (a, (b, (c, (d, (e, (g, (h, tt)))))))). auto.
Qed.

(** ** Gas limits and prices *)
Definition six_l (w : nat) := pair_l (load_un w) (pair_l (load_un w) (pair_l (load_un w) (pair_l (load_un w) (pair_l (load_un w) (pair_l (load_un w) unit_l))))).
Definition two_l (w : nat) := pair_l (load_un w) (pair_l (load_un w) unit_l).
Lemma reads_six w : reads_layout (six_l w) (w_read w[uint_w w, uint_w w, uint_w w, uint_w w, uint_w w, uint_w w]).
Proof. unfold six_l. parts. Qed.
Lemma reads_two w : reads_layout (two_l w) (w_read w[uint_w w, uint_w w]).
Proof. unfold two_l. parts. Qed.
Definition gas_of7 (fl fp : N) (v : N * (N * (N * (N * (N * (N * (N * unit))))))) : gas_prices := let '(a, (b, (c, (d, (e, (f, (g, _))))))) := v in GasPrices a b c d e f g fl fp.
Definition gas_of6 (fl fp : N) (v : N * (N * (N * (N * (N * (N * unit)))))) : gas_prices := let '(a, (b, (d, (e, (f, (g, _)))))) := v in GasPrices a b 0 d e f g fl fp.
Lemma gas_loop_eq fuel fl fp b : load_gas_loop (S fuel) fl fp b =
  let? (t, b) := load_un 8 b in
  pick [(0xd1, fun b => let? (v, b) := two_l 64 b in load_gas_loop fuel (fst v) (fst (snd v)) b); (0xde, fun b => let? (v, b) := seven_l 64 b in Ok (gas_of7 fl fp v, b));
        (0xdd, fun b => let? (v, b) := six_l 64 b in Ok (gas_of6 fl fp v, b))] t b.
Proof.
  cbn [load_gas_loop]. destruct (load_un 8 b) as [[t b1]|]; [|reflexivity]. cbn [rbind pick]. destruct (t =? 0xd1); [|destruct (t =? 0xde); [|destruct (t =? 0xdd); [|reflexivity]]].
  - unfold two_l, pair_l, unit_l. runs.
  - unfold seven_l, pair_l, unit_l. runs.
  - unfold six_l, pair_l, unit_l. runs.
Qed.
Lemma reads_gas_loop fuel : forall fl fp b g r, (length (fst b) < fuel)%nat -> load_gas_loop fuel fl fp b = Ok (g, r) <-> exists x, gas_c fl fp g x /\ b = capp x r.
Proof.
  induction fuel as [|fuel IH]; intros fl fp b g r Hf; [lia|]. rewrite gas_loop_eq. split.
  - destruct (load_un 8 b) as [[t b1]|] eqn:E; [|discriminate]. cbn [rbind pick]. apply (reads_un 8) in E. destruct E as (y & Y & ->). destruct Y as [t T]. cbn [capp fst app] in Hf. rewrite app_length, length_nbits in Hf.
    destruct (N.eqb_spec t 0xd1) as [->|]; [|destruct (N.eqb_spec t 0xde) as [->|]; [|destruct (N.eqb_spec t 0xdd) as [->|]; [|discriminate]]].
    + destruct (two_l 64 b1) as [[(fl' & fp' & []) b2]|] eqn:E; [|discriminate]. cbn [rbind fst snd]. apply (reads_two 64) in E. destruct E as (z & Z & ->). unfold capp in Hf. cbn [fst] in Hf. rewrite app_length in Hf.
      intros H. apply IH in H; [|lia]. destruct H as (u & U & ->). exists (capp (capp (nbits 8 0xd1, []) z) u). split; [|rewrite <- !capp_assoc; reflexivity].
      apply (gas_flat fl fp fl' fp'); [exists z; auto|exact U].
    + intros H. apply (reads_map (seven_l 64) (gas_of7 fl fp) _ (reads_seven 64)) in H. destruct H as (z & ((p1 & p2 & p3 & p4 & p5 & p6 & p7 & []) & -> & Z) & ->). exists (capp (nbits 8 0xde, []) z). split; [|apply capp_assoc]. apply gas_ext. exists z. auto.
    + intros H. apply (reads_map (six_l 64) (gas_of6 fl fp) _ (reads_six 64)) in H. destruct H as (z & ((p1 & p2 & p3 & p4 & p5 & p6 & []) & -> & Z) & ->). exists (capp (nbits 8 0xdd, []) z). split; [|apply capp_assoc]. apply gas_base. exists z. auto.
  - intros (x & X & ->). assert (T : forall t y, t < 256 -> load_un 8 (capp (capp (nbits 8 t, []) y) r) = Ok (t, capp y r)).
    { intros t y Ht. rewrite <- capp_assoc. apply (reads_back _ (uint_c 8) _ _ _ (reads_un 8)). constructor. exact Ht. }
    destruct X as [p1 p2 p3 p4 p5 p6 p7 x (y & -> & Y)|p1 p2 p3 p4 p5 p6 x (y & -> & Y)|fl' fp' g x z (y & -> & Y) G].
    + rewrite T by reflexivity. cbn [rbind pick N.eqb Pos.eqb]. rewrite (reads_back _ _ _ _ r (reads_seven 64) Y). reflexivity.
    + rewrite T by reflexivity. cbn [rbind pick N.eqb Pos.eqb]. rewrite (reads_back _ _ _ _ r (reads_six 64) Y). reflexivity.
    + rewrite <- !capp_assoc, (reads_back _ (uint_c 8) 0xd1 (nbits 8 0xd1, []) _ (reads_un 8)) by (constructor; reflexivity). cbn [rbind pick N.eqb Pos.eqb].
      rewrite (reads_back _ _ _ _ (capp z r) (reads_two 64) Y). cbn [rbind fst snd]. apply IH; [|exists z; auto]. unfold capp in Hf |- *. cbn [fst] in Hf |- *. rewrite !app_length, length_nbits in Hf. rewrite app_length. lia.
Qed.
Lemma gas_written g x : w_read w[flat_w, gas_ext_w] (gas_ext_view g) x -> gas_c 0 0 g x.
Proof.
  destruct g as [p1 p2 p3 p4 p5 p6 p7 fl fp]. intros (y & z & -> & F & u & v & -> & G & ->). rewrite capp_nil. apply (gas_flat 0 0 fl fp); [exact F|]. apply gas_ext. exact G.
Qed.
Lemma lawful_gas : lawful gas_k gas_w.
Proof.
  apply proper_lawful.
  - apply proper_or, proper_as. unfold flat_w, gas_ext_w, u64_w. propers.
  - intros [p1 p2 p3 p4 p5 p6 p7 fl fp] x. cbn [gas_w or_w as_w w_write gas_ext_view gas_numbers gp_price gp_limit gp_special gp_credit gp_block gp_freeze gp_delete gp_flat_limit gp_flat_price].
    intros (y & z & -> & F & u & v & -> & G & ->). unfold flat_w, u64_w in F. unfold gas_ext_w, u64_w in G. destruct F as (yf & -> & F), G as (yg & -> & G). unpack2 F. unpack2 G. subst. rewrite !capp_nil, <- !capp_assoc. cbn [fst snd] in *.
    cbn [c_store gas_k]. unfold store_gas. cbn [gp_price gp_limit gp_special gp_credit gp_block gp_freeze gp_delete gp_flat_limit gp_flat_price].
    apply appends_bind; [apply appends_prefix; reflexivity|]. do 2 (apply appends_bind; [one|]). apply appends_bind; [apply appends_prefix; reflexivity|]. writes.
  - cbn [gas_k c_load]. intros b g r. unfold load_gas. rewrite (reads_gas_loop (S (length (fst b))) 0 0 b g r (Nat.lt_succ_diag_r _)). cbn [gas_w or_w as_w w_read]. split; intros (x & X & ->); exists x; (split; [|reflexivity]); [right; exact X|].
    destruct X as [X|X]; [apply gas_written, X|exact X].
Qed.

(** ** Workchains *)
Lemma lawful_basic : lawful (derived workchain_format_basic) workchain_format_basic_w.
Proof. struct_by. Qed.
Lemma extended_valid v : s_valid workchain_format_extended v = true <-> 64 <= fst v /\ fst v <= fst (snd v) /\ fst (snd v) <= 1023 /\ fst (snd (snd v)) <= 1023.
Proof. destruct v as (lo & hi & step & n & []). cbn. rewrite !andb_true_iff, !N.leb_le. tauto. Qed.
Lemma lawful_extended : lawful (derived workchain_format_extended) workchain_format_extended_w.
Proof. apply C58_checked_structs. Qed.
Lemma lawful_format : lawful format_k format_w.
Proof.
  apply lawful_cases.
  - intros [f|f]; (split; [first [exact (lawful_proper _ _ lawful_basic) | exact (lawful_proper _ _ lawful_extended)]|]); cbn; lia.
  - intros [f|f] y Y; cbn [br_layout br_value br_prefix] in Y |- *; (apply appends_bind; [apply appends_prefix; reflexivity|]); [exact (law_store _ _ lawful_basic _ _ Y)|exact (law_store _ _ lawful_extended _ _ Y)].
  - eapply reads_ext; [|eapply reads_equiv; [|apply (reads_tags 4 [(1, fun b => let? (f, b) := c_load (derived workchain_format_basic) b in Ok (Basic f, b)); (0, fun b => let? (f, b) := c_load (derived workchain_format_extended) b in Ok (Extended f, b))])]].
    1: intros b; reflexivity.
    2: { repeat constructor; cbn; intros H; intuition discriminate. }
    2: { repeat constructor; reflexivity. }
    2: { constructor; [|constructor; [|constructor]]; cbn [snd]; [apply (reads_map _ Basic), (law_load _ _ lawful_basic)|apply (reads_map _ Extended), (law_load _ _ lawful_extended)]. }
    intros a x. cbn [map fst picked]. split.
    + intros [(y & -> & f & -> & Y)|[(y & -> & f & -> & Y)|[]]]; exists y; split; try reflexivity; exact Y.
    + intros (y & -> & Y). destruct a as [f|f]; cbn [br_layout br_value br_prefix] in Y |- *; [left; exists y; split; [reflexivity|exists f; auto]|right; left; exists y; split; [reflexivity|exists f; auto]].
Qed.
(** Values that are refused after they were read. *)
Lemma reads_filter {A B} (l : loader A) L (ok : A -> bool) (g : A -> B) e : reads_layout l L ->
  reads_layout (fun b => let? (a, b) := l b in if negb (ok a) then Err e else Ok (g a, b)) (fun c x => exists a, c = g a /\ ok a = true /\ L a x).
Proof.
  intros H b c r. split.
  - destruct (l b) as [[a r']|] eqn:E; [|discriminate]. cbn [rbind]. destruct (ok a) eqn:O; [|discriminate]. cbn [negb]. intros [= <- <-]. apply H in E. destruct E as (x & X & ->). exists x. split; [exists a; auto|reflexivity].
  - intros (x & (a & -> & O & X) & ->). rewrite (reads_back _ _ _ _ r H X). cbn [rbind]. rewrite O. reflexivity.
Qed.
Definition flags_13_l (b : chunk) : res ((bool * (bool * (bool * (unit * unit)))) * chunk) :=
  let? (v, b) := load_un 16 b in if negb (w16 (N.shiftl v 3) =? 0) then Err InvalidData else Ok ((has v 0x8000, (has v 0x4000, (has v 0x2000, (tt, tt)))), b).
Lemma flags16 v x : uint_c 16 v x /\ w16 (N.shiftl v 3) = 0 <->
  x = capp (flag (has v 0x8000)) (capp (flag (has v 0x4000)) (capp (flag (has v 0x2000)) (nbits 13 0, []))) /\ v = N.lor (N.lor (N.shiftl (b2n (has v 0x8000)) 15) (N.shiftl (b2n (has v 0x4000)) 14)) (N.shiftl (b2n (has v 0x2000)) 13).
Proof.
  split.
  - intros (U & Z). pose proof U as B. destruct B as [v B]. change (2 ^ N.of_nat 16) with 65536 in B. unfold w16 in Z. rewrite N.shiftl_mul_pow2 in Z. change (2 ^ 3) with 8 in Z. 
    assert (M : v mod 8192 = 0). { change (v * 8 mod (8192 * 8) = 0) in Z. rewrite N.mul_mod_distr_r in Z by discriminate. lia. } pose proof (N.div_mod v 8192 ltac:(discriminate)) as D. rewrite M, N.add_0_r in D.
    assert (L : v / 8192 < 8) by lia. set (u := v / 8192) in *. clearbody u. clear M Z B. subst v. assert (C : u = 0 \/ u = 1 \/ u = 2 \/ u = 3 \/ u = 4 \/ u = 5 \/ u = 6 \/ u = 7) by lia. clear U L.
    destruct C as [->|[->|[->|[->|[->|[->|[->| ->]]]]]]]; split; reflexivity.
  - generalize (has v 0x8000), (has v 0x4000), (has v 0x2000). intros o p q [-> ->]. split; [|destruct o, p, q; reflexivity].
    replace (capp (flag o) (capp (flag p) (capp (flag q) (nbits 13 0, [])))) with (nbits 16 (N.lor (N.lor (N.shiftl (b2n o) 15) (N.shiftl (b2n p) 14)) (N.shiftl (b2n q) 13)), @nil cell) by (destruct o, p, q; reflexivity). constructor. destruct o, p, q; reflexivity.
Qed.
Lemma has_flags16 o p q : let v := N.lor (N.lor (N.shiftl (b2n o) 15) (N.shiftl (b2n p) 14)) (N.shiftl (b2n q) 13) in has v 0x8000 = o /\ has v 0x4000 = p /\ has v 0x2000 = q.
Proof. destruct o, p, q; repeat split; reflexivity. Qed.
Lemma reads_flags_13 : reads_layout flags_13_l (w_read w[bool_w, bool_w, bool_w, zeros_w 13]).
Proof.
  eapply reads_equiv; [|apply (reads_filter (load_un 16) (uint_c 16) (fun v => w16 (N.shiftl v 3) =? 0) (fun v => (has v 0x8000, (has v 0x4000, (has v 0x2000, (tt, tt))))) InvalidData), reads_un].
  intros (o & p & q & [] & []) x. cbn [seq_w bool_w end_w zeros_w exact_w w_read fst snd]. split.
  - intros (v & [= -> -> ->] & Z & V). apply N.eqb_eq in Z. destruct (proj1 (flags16 v x) (conj V Z)) as [-> _]. eexists _, _. split; [reflexivity|]. split; [constructor|]. eexists _, _. split; [reflexivity|]. split; [constructor|]. eexists _, _. split; [reflexivity|]. split; [constructor|].
    eexists _, ([], []). rewrite capp_nil. auto.
  - intros (? & ? & -> & [] & ? & ? & -> & [] & ? & ? & -> & [] & ? & ? & -> & -> & ->). destruct (has_flags16 b b0 b1) as (H1 & H2 & H3). eexists. split; [rewrite H1, H2, H3; reflexivity|].
    rewrite capp_nil, N.eqb_eq. apply and_comm. apply flags16. rewrite H1, H2, H3. split; reflexivity.
Qed.
Definition workchain_l := pair_l (load_un 32) (pair_l (load_un 8) (pair_l (load_un 8) (pair_l (load_un 8) (pair_l flags_13_l (pair_l (load_bs 32) (pair_l (load_bs 32) (pair_l (load_un 32) (pair_l load_format unit_l)))))))).
Definition workchain_of (v : N * (N * (N * (N * ((bool * (bool * (bool * (unit * unit)))) * (list N * (list N * (N * (format * unit))))))))) : workchain :=
  let '(since, (actual, (lo, (hi, ((_, (active, (accept, _))), (root, (file, (ver, (f, _))))))))) := v in Workchain since actual lo hi active accept root file ver f.
Definition basic_agrees (v : N * (N * (N * (N * ((bool * (bool * (bool * (unit * unit)))) * (list N * (list N * (N * (format * unit))))))))) : bool :=
  let '(_, (_, (_, (_, ((basic, _), (_, (_, (_, (f, _))))))))) := v in Bool.eqb basic (is_basic f).
Lemma load_workchain_eq b : load_workchain b =
  let? (t, b) := load_un 8 b in pick [(0xa6, fun b => let? (v, b) := workchain_l b in if negb (basic_agrees v) then Err InvalidData else Ok (workchain_of v, b))] t b.
Proof.
  unfold load_workchain. destruct (load_un 8 b) as [[t b1]|]; [|reflexivity]. cbn [rbind pick]. destruct (t =? 0xa6); [|reflexivity]. unfold workchain_l, pair_l, unit_l, flags_13_l.
  destruct (load_un 32 b1) as [[p1 b2]|]; [|reflexivity]. cbn [rbind]. destruct (load_un 8 b2) as [[p2 b3]|]; [|reflexivity]. cbn [rbind]. destruct (load_un 8 b3) as [[p3 b4]|]; [|reflexivity]. cbn [rbind]. destruct (load_un 8 b4) as [[p4 b5]|]; [|reflexivity]. cbn [rbind].
  destruct (load_un 16 b5) as [[p5 b6]|]; [|reflexivity]. cbn [rbind]. destruct (negb (w16 (N.shiftl p5 3) =? 0)); [reflexivity|]. runs.
Qed.
Lemma reads_workchain_l : reads_layout workchain_l (w_read (seq_w (uint_w 32) (seq_w (uint_w 8) (seq_w (uint_w 8) (seq_w (uint_w 8) (seq_w w[bool_w, bool_w, bool_w, zeros_w 13] w[hash_w, hash_w, u32_w, format_w])))))).
Proof. unfold workchain_l, u32_w, hash_w. parts; [apply reads_flags_13|]. parts. apply (law_load _ _ lawful_format). Qed.
Lemma proper_workchain : proper workchain_any_w.
Proof. apply proper_as. unfold u32_w. propers; [apply proper_zeros|exact (lawful_proper _ _ lawful_format)]. Qed.
Lemma wc_valid_spec w x : w_write format_w (wc_format w) x -> (wc_valid w = true <-> wc_min w <= wc_max w /\ wc_max w <= 60).
Proof.
  intros (y & -> & Y). unfold wc_valid. rewrite !andb_true_iff, !N.leb_le. destruct (wc_format w) as [f|f]; cbn [format_valid br_layout br_value] in Y |- *; [tauto|].
  destruct Y as (V & _). apply extended_valid in V. tauto.
Qed.
Lemma bool_written p x : w_write bool_w p x -> x = ([p], []).
Proof. intros []. reflexivity. Qed.
Lemma lawful_workchain : lawful workchain_k workchain_w.
Proof.
  apply proper_lawful.
  - apply proper_write_if, proper_workchain.
  - intros w x (V & F). unfold workchain_any_w, u32_w in F. cbn [as_w w_write] in F. destruct F as (yf & -> & F). destruct w as [since actual lo hi active accept root file ver f]. cbn [workchain_view wc_since wc_actual wc_min wc_max wc_active wc_accept wc_root wc_file wc_version wc_format] in *. unpack2 F. subst.
    cbn [workchain_view fst snd wc_since wc_actual wc_min wc_max wc_active wc_accept wc_root wc_file wc_version wc_format] in *. repeat match goal with H : w_write bool_w ?p _ |- _ => apply bool_written in H; subst end. match goal with H : w_write (zeros_w 13) _ _ |- _ => cbn [zeros_w w_write] in H; subst end. match goal with H : w_write format_w _ _ |- _ => rename H into HF end.
    cbn [c_store workchain_k]. unfold store_workchain. rewrite (proj2 (wc_valid_spec (Workchain since actual lo hi active accept root file ver f) _ HF) V). cbn [negb wc_since wc_actual wc_min wc_max wc_active wc_accept wc_root wc_file wc_version wc_format].
    apply appends_bind; [apply appends_prefix; reflexivity|]. do 4 (apply appends_bind; [one|]). 
    match goal with |- appends _ (capp ([?p], []) (capp ([?q], []) (capp ([?r], []) (capp ?z ?t)))) =>
      rewrite (capp_assoc ([r], [])), (capp_assoc ([q], [])), (capp_assoc ([p], [])); apply appends_bind; [replace (capp ([p], []) (capp ([q], []) (capp ([r], []) z))) with (nbits 16 (N.lor (N.lor (N.shiftl (b2n p) 15) (N.shiftl (b2n q) 14)) (N.shiftl (b2n r) 13)), @nil cell) by (destruct p, q, r; reflexivity); apply appends_prefix; [reflexivity|destruct p, q, r; reflexivity]|] end.
    do 3 (apply appends_bind; [one|]). rewrite capp_nil. exact (law_store _ _ lawful_format _ _ HF).
  - eapply reads_ext; [intros b; symmetry; apply load_workchain_eq|]. eapply reads_equiv; [|apply reads_tags; cbn [map fst]].
    2: { repeat constructor; cbn; intros H; intuition discriminate. }
    2: { repeat constructor; reflexivity. }
    2: { constructor; [|constructor]; cbn [snd]; eapply (reads_filter workchain_l _ basic_agrees workchain_of InvalidData), reads_workchain_l. }
    intros [since actual lo hi active accept root file ver f] x. cbn [map fst picked workchain_w write_if workchain_any_w as_w w_read workchain_view wc_since wc_actual wc_min wc_max wc_active wc_accept wc_root wc_file wc_version wc_format]. split.
    + intros [(y & -> & (p1 & p2 & p3 & p4 & (c1 & c2 & c3 & [] & []) & p5 & p6 & p7 & p8 & []) & [= -> -> -> -> -> -> -> -> -> ->] & A & R)|[]]. cbn in A. apply Bool.eqb_prop in A. subst c1.
      exists y. split; [reflexivity|]. revert R. unfold workchain_view. cbn [wc_since wc_actual wc_min wc_max wc_active wc_accept wc_root wc_file wc_version wc_format]. do 4 (apply seq_cong; intros). first [apply regroup4 | symmetry; apply regroup4].
    + intros (y & -> & R). left. exists y. split; [reflexivity|].
      exists (since, (actual, (lo, (hi, ((is_basic f, (active, (accept, (tt, tt)))), (root, (file, (ver, (f, tt))))))))). split; [reflexivity|]. split; [cbn; apply Bool.eqb_reflx|].
      revert R. unfold workchain_view. cbn [wc_since wc_actual wc_min wc_max wc_active wc_accept wc_root wc_file wc_version wc_format]. do 4 (apply seq_cong; intros). first [apply regroup4 | symmetry; apply regroup4].
Qed.
