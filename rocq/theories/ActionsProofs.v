(** * Output actions *)
From Verif Require Import Err BitsProofs IntModel NumModel CurrencyModel CurrencySpec CellModel DictModel ChunkModel LazyModel ChunkSpec ChunkProofs
  DeriveModel DeriveSpec StructsModel StructsSpec StructsProofs DeriveProps CasesSpec CasesProofs TxModel TxProofs BlockProofs ActionsModel ActionsSpec.
Local Open Scope N_scope.

Definition lib_l (t : N) (b : chunk) : res (out_action * chunk) :=
  if N.land t 1 =? 0 then let? (h, b) := load_bs 32 b in Ok (ChangeLibrary (N.shiftr t 1) (LibHash h), b)
  else let? (c, b) := load_ref b in Ok (ChangeLibrary (N.shiftr t 1) (LibCell c), b).
Definition send_l := fun b => let? (v, b) := pair_l (load_un 8) (pair_l (load_lazy false) unit_l) b in Ok (SendMsg (fst v) (fst (snd v)), b).
Definition code_l := fun b => let? (c, b) := load_ref b in Ok (SetCode c, b).
Definition reserve_l := fun b => let? (v, b) := pair_l (load_un 8) (pair_l load_cc unit_l) b in Ok (ReserveCurrency (fst v) (fst (snd v)), b).
Lemma load_action_eq b : load_action_out b = (let? (t, b) := load_un 32 b in
  (if t =? 0x0ec3c86d then send_l else if t =? 0xad4de08e then code_l else if t =? 0x36e6b809 then reserve_l
   else if t =? 0x26fa1dd4 then (fun b => let? (t, b) := load_un 8 b in lib_l t b) else fun _ => Err InvalidTag) b).
Proof.
  unfold load_action_out. destruct (load_un 32 b) as [[t r]|]; cbn [rbind]; [|reflexivity].
  destruct (t =? 0x0ec3c86d); [unfold send_l, pair_l, unit_l; destruct (load_un 8 r) as [[? r1]|]; cbn [rbind]; [|reflexivity]; destruct (load_lazy false r1) as [[? ?]|]; reflexivity|].
  destruct (t =? 0xad4de08e); [reflexivity|].
  destruct (t =? 0x36e6b809); [unfold reserve_l, pair_l, unit_l; destruct (load_un 8 r) as [[? r1]|]; cbn [rbind]; [|reflexivity]; destruct (load_cc r1) as [[? ?]|]; reflexivity|].
  destruct (t =? 0x26fa1dd4); reflexivity.
Qed.
Lemma bit8 t : t < 256 -> nbits 8 t = nbits 7 (N.shiftr t 1) ++ [negb (N.land t 1 =? 0)].
Proof.
  intros H. rewrite (nbits_app 7 1). f_equal. change (N.land t 1) with (N.land t (N.ones 1)). rewrite N.land_ones. change (2 ^ 1) with 2. rewrite <- (nbits_mod 1 1 t) by lia. change (2 ^ N.of_nat 1) with 2.
  assert (L : t mod 2 < 2) by (apply N.mod_lt; discriminate). assert (C : t mod 2 = 0 \/ t mod 2 = 1) by lia. destruct C as [-> | ->]; reflexivity.
Qed.
Lemma byte_of mode (f : bool) : mode < 128 -> let t := N.lor (w8 (N.shiftl mode 1)) (N.b2n f) in t < 256 /\ N.shiftr t 1 = mode /\ N.land t 1 = N.b2n f.
Proof.
  intros H. cbn zeta. unfold w8. rewrite N.shiftl_mul_pow2. change (2 ^ 1) with 2. rewrite N.mod_small by lia.
  replace (N.lor (mode * 2) (N.b2n f)) with (mode * 2 + N.b2n f).
  2: { symmetry. replace (mode * 2) with (N.shiftl mode 1) by (rewrite N.shiftl_mul_pow2; reflexivity). rewrite lor_add by (destruct f; reflexivity). rewrite N.shiftl_mul_pow2; reflexivity. }
  split; [destruct f; cbn [N.b2n]; lia|]. split.
  - rewrite N.shiftr_div_pow2. change (2 ^ 1) with 2. rewrite N.div_add_l by discriminate. destruct f; cbn [N.b2n]; [change (1 / 2) with 0|change (0 / 2) with 0]; lia.
  - match goal with |- N.land ?x 1 = _ => change (N.land x 1) with (N.land x (N.ones 1)) end. rewrite N.land_ones. change (2 ^ 1) with 2. rewrite N.add_comm, N.mod_add by discriminate. destruct f; reflexivity.
Qed.
Lemma appends_lib mode f y z : mode < 128 -> appends z y -> appends (fun b => let? b := store_un 8 (N.lor (w8 (N.shiftl mode 1)) (N.b2n f)) b in z b) (capp (nbits 7 mode, []) (capp ([f], []) y)).
Proof.
  intros H A. destruct (byte_of mode f H) as (B1 & B2 & B3). rewrite capp_assoc. apply appends_bind; [|exact A]. apply appends_prefix; [|exact B1].
  rewrite bit8, B2, B3 by exact B1. unfold capp. cbn [fst snd app]. destruct f; reflexivity.
Qed.

Definition is_l {A B} (f : A -> B) (l : layout A) (b : B) (x : chunk) : Prop := exists a, b = f a /\ w_read l a x.
Definition lib_c (t : N) : out_action -> chunk -> Prop :=
  if N.land t 1 =? 0 then is_l (fun h => ChangeLibrary (N.shiftr t 1) (LibHash h)) hash_w else is_l (fun c => ChangeLibrary (N.shiftr t 1) (LibCell c)) ref_w.
Lemma reads_lib t : reads_layout (lib_l t) (lib_c t).
Proof.
  unfold lib_l, lib_c. destruct (N.land t 1 =? 0).
  - apply (reads_map (load_bs 32) (fun h => ChangeLibrary (N.shiftr t 1) (LibHash h))), reads_bs.
  - apply (reads_map load_ref (fun c => ChangeLibrary (N.shiftr t 1) (LibCell c))), reads_ref.
Qed.
Lemma lawful_out_action : lawful out_action_k out_action_w.
Proof.
  apply lawful_cases.
  - intros [mode m|c|mode v|mode [h|c]]; cbn [br_layout br_prefix]; (split; [propers|]); rewrite ?length_nbits; vm_compute; lia.
  - intros [mode m|c|mode v|mode [h|c]] y; cbn [br_layout br_prefix br_value out_action_k c_store store_action_out]; intros W; (apply appends_bind; [apply appends_prefix; reflexivity|]).
    + destruct W as (p & ? & -> & P & q & ? & -> & Q & ->). rewrite capp_nil. apply appends_bind; [exact (law_store _ _ (lawful_uint 8) _ _ P)|exact (law_store _ _ lawful_lazy _ _ Q)].
    + destruct W as (p & ? & -> & P & ->). rewrite capp_nil. exact (law_store _ _ lawful_cell _ _ P).
    + destruct W as (p & ? & -> & P & q & ? & -> & Q & ->). rewrite capp_nil. apply appends_bind; [exact (law_store _ _ (lawful_uint 8) _ _ P)|exact (law_store _ _ lawful_currency _ _ Q)].
    + destruct W as (p & ? & -> & P & q & ? & -> & (z & -> & Q) & ->). rewrite capp_nil. cbn [uint_w exact_w w_write w_read fst snd tag_w] in P, Q; inversion P as [u Pu]; subst; clear P; rename Pu into P. replace (w8 (N.shiftl mode 1)) with (N.lor (w8 (N.shiftl mode 1)) (N.b2n false)) by apply N.lor_0_r.
      apply (appends_lib mode false); [exact P|exact (law_store _ _ (lawful_bytes 32) _ _ Q)].
    + destruct W as (p & ? & -> & P & q & ? & -> & (z & -> & Q) & ->). rewrite capp_nil. cbn [uint_w exact_w w_write w_read fst snd tag_w] in P, Q; inversion P as [u Pu]; subst; clear P; rename Pu into P.
      apply (appends_lib mode true); [exact P|exact (law_store _ _ lawful_cell _ _ Q)].
  - cbn [out_action_k c_load]. eapply reads_ext; [intros c; symmetry; apply load_action_eq|]. eapply reads_equiv; [|apply (reads_tag 32 _ (fun t => if t =? 0x0ec3c86d then is_l (fun v => SendMsg (fst v) (fst (snd v))) w[uint_w 8, lazy_w]
      else if t =? 0xad4de08e then is_l SetCode ref_w else if t =? 0x36e6b809 then is_l (fun v => ReserveCurrency (fst v) (fst (snd v))) w[uint_w 8, currency_w]
      else if t =? 0x26fa1dd4 then (fun a x => exists t y, t < 2 ^ N.of_nat 8 /\ x = capp (nbits 8 t, []) y /\ lib_c t a y) else no_c))].
    2: { intros t _. destruct (t =? 0x0ec3c86d).
         { apply (reads_map _ (fun v : N * (cell * unit) => SendMsg (fst v) (fst (snd v)))). apply (reads_pair _ _ (uint_w 8)); [exact (law_load _ _ (lawful_uint 8))|]. apply (reads_pair _ _ lazy_w); [exact (law_load _ _ lawful_lazy)|apply reads_unit]. }
         destruct (t =? 0xad4de08e); [apply (reads_map load_ref SetCode), reads_ref|]. destruct (t =? 0x36e6b809).
         { apply (reads_map _ (fun v : N * (currency * unit) => ReserveCurrency (fst v) (fst (snd v)))). apply (reads_pair _ _ (uint_w 8)); [exact (law_load _ _ (lawful_uint 8))|]. apply (reads_pair _ _ currency_w); [exact (law_load _ _ lawful_currency)|apply reads_unit]. }
         destruct (t =? 0x26fa1dd4); [|apply reads_err]. apply (reads_tag 8 lib_l lib_c). intros u _. apply reads_lib. }
    intros a x. split.
    + intros (t & y & T & -> & V). destruct (N.eqb_spec t 0x0ec3c86d) as [->|_]; [|destruct (N.eqb_spec t 0xad4de08e) as [->|_]; [|destruct (N.eqb_spec t 0x36e6b809) as [->|_]; [|destruct (N.eqb_spec t 0x26fa1dd4) as [->|_]; [|destruct V]]]].
      * destruct V as ((m & c & []) & -> & V). exists y. auto.
      * destruct V as (c & -> & V). exists y. split; [reflexivity|]. exists y, ([], []). rewrite capp_nil. split; [reflexivity|]. split; [exact V|reflexivity].
      * destruct V as ((m & c & []) & -> & V). exists y. auto.
      * destruct V as (u & z & U & -> & V). unfold lib_c in V. rewrite (bit8 u U). destruct (N.land u 1 =? 0).
        { destruct V as (h & -> & V); cbn [negb].
          eexists; (split; [reflexivity|]); exists (nbits 7 (N.shiftr u 1), []), (capp ([false], []) z);
          (split; [rewrite capp_assoc; reflexivity|]); (split; [constructor; rewrite N.shiftr_div_pow2; change (2 ^ 1) with 2; apply N.div_lt_upper_bound; [discriminate|exact U]|]);
          exists (capp ([false], []) z), ([], []); rewrite capp_nil; (split; [reflexivity|]); (split; [|reflexivity]); exists z; (split; [reflexivity|exact V]). }
        { destruct V as (h & -> & V); cbn [negb].
          eexists; (split; [reflexivity|]); exists (nbits 7 (N.shiftr u 1), []), (capp ([true], []) z);
          (split; [rewrite capp_assoc; reflexivity|]); (split; [constructor; rewrite N.shiftr_div_pow2; change (2 ^ 1) with 2; apply N.div_lt_upper_bound; [discriminate|exact U]|]);
          exists (capp ([true], []) z), ([], []); rewrite capp_nil; (split; [reflexivity|]); (split; [|reflexivity]); exists z; (split; [reflexivity|exact V]). }
    + intros (y & -> & V). destruct a as [mode m|c|mode v|mode [h|c]]; cbn [br_layout br_prefix br_value] in *.
      * exists 0x0ec3c86d, y. split; [reflexivity|]. split; [reflexivity|]. cbn [N.eqb Pos.eqb]. exists (mode, (m, tt)). auto.
      * exists 0xad4de08e, y. split; [reflexivity|]. split; [reflexivity|]. cbn [N.eqb Pos.eqb]. exists c. split; [reflexivity|]. destruct V as (p & ? & -> & V & ->). rewrite capp_nil. exact V.
      * exists 0x36e6b809, y. split; [reflexivity|]. split; [reflexivity|]. cbn [N.eqb Pos.eqb]. exists (mode, (v, tt)). auto.
      * exists 0x26fa1dd4, y. split; [reflexivity|]. split; [reflexivity|]. cbn [N.eqb Pos.eqb]. destruct V as (p & ? & -> & P & q & ? & -> & (z & -> & Q) & ->). rewrite capp_nil. cbn [uint_w exact_w w_write w_read fst snd tag_w] in P, Q; inversion P as [u Pu]; subst; clear P; rename Pu into P.
        destruct (byte_of mode false P) as (B1 & B2 & B3). exists (N.lor (w8 (N.shiftl mode 1)) (N.b2n false)), z. split; [exact B1|]. split; [rewrite bit8, B2, B3 by exact B1; rewrite capp_assoc; reflexivity|].
        unfold lib_c. rewrite B2, B3. exists h. auto.
      * exists 0x26fa1dd4, y. split; [reflexivity|]. split; [reflexivity|]. cbn [N.eqb Pos.eqb]. destruct V as (p & ? & -> & P & q & ? & -> & (z & -> & Q) & ->). rewrite capp_nil. cbn [uint_w exact_w w_write w_read fst snd tag_w] in P, Q; inversion P as [u Pu]; subst; clear P; rename Pu into P.
        destruct (byte_of mode true P) as (B1 & B2 & B3). exists (N.lor (w8 (N.shiftl mode 1)) (N.b2n true)), z. split; [exact B1|]. split; [rewrite bit8, B2, B3 by exact B1; rewrite capp_assoc; reflexivity|].
        unfold lib_c. rewrite B2, B3. exists c. auto.
Qed.

(** ** Lists *)
Lemma next_spec s a s' : actions_next s = (Some (Ok a), s') <->
  exists c x rest, s = capp ([], [c]) (capp x rest) /\ w_read out_action_w a x /\ c_exotic c = false /\ s' = (c_bits c, c_refs c).
Proof.
  unfold actions_next. split.
  - destruct (load_ref s) as [[c s1]|] eqn:E1; [|destruct (match fst s, snd s with [], [] => true | _, _ => false end); discriminate].
    destruct (load_action_out s1) as [[a' s2]|] eqn:E2; [|discriminate]. unfold as_slice. destruct (c_exotic c) eqn:X; [discriminate|]. intros [= -> <-].
    apply (law_load _ _ lawful_out_action) in E2. destruct E2 as (x & W & ->). apply (law_load _ _ lawful_cell) in E1. destruct E1 as (y & Y & ->). destruct Y as [c'].
    exists c', x, s2. auto.
  - intros (c & x & rest & -> & W & X & ->). rewrite (reads_back _ _ _ _ _ (law_load _ _ lawful_cell) (cell_intro c)).
    pose proof (reads_back _ _ _ _ rest (law_load _ _ lawful_out_action) W) as E. cbn [out_action_k c_load] in E. rewrite E. unfold as_slice. rewrite X. reflexivity.
Qed.
Lemma next_none s s' : actions_next s = (None, s') <-> s = ([], []) /\ s' = ([], []).
Proof.
  unfold actions_next. split.
  - destruct (load_ref s) as [[c s1]|] eqn:E1.
    + destruct (load_action_out s1) as [[a s2]|]; [|discriminate]. destruct (as_slice c); discriminate.
    + destruct s as [[|] [|]]; cbn [fst snd]; try discriminate. intros [= <-]. auto.
  - intros [-> ->]. reflexivity.
Qed.
