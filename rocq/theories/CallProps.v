(** * C71: calls of contract functions arrive as they were made *)
From Verif Require Import Err BitsProofs IntModel NumProofs AddrModel AddrSpec AddrProofs CellModel ChunkModel ChunkSpec AbiModel AbiSpec AbiProofs AbiProofs4 AbiProps CallModel CallSpec CallProofs.
From Verif Require ShardProps.
Local Open Scope N_scope.

Lemma args_all utf8 v l : args_ok utf8 v l -> all (value_ok utf8) l /\ all (supported v) l.
Proof.
  intros O. split; induction l as [|x l IH]; try exact Logic.I; (split; [apply (O x); left|apply IH; intros y Hy; apply O; right; exact Hy]).
Qed.
Lemma take_front {A} (a b : list A) n : length a = n -> take n (a ++ b) = a.
Proof. intros <-. apply take_app. Qed.

Lemma skip_signature_whole sig c B R : signature_ok sig -> skip_signature (Sl c (signature_layout sig ++ B) R) = Ok (Sl c B R).
Proof. apply (skip_signature_ok (fun _ _ => Ok tt) (Version 2 0) (N.le_refl 2)). Qed.

(** ** Internal messages: arguments, results and events are read back, whatever follows is
    noticed, and the identifier stands in front. *)
Theorem C71_internal fin utf8 sorted f l b :
  (forall A l, Permutation (sorted A l) l) -> 2 <= v_major (f_version f) -> f_input_id f < 2 ^ 32 -> args_ok utf8 (f_version f) l ->
  encode_internal_input fin sorted f l = Ok b ->
  map type_of l = f_inputs f /\ take 32 (fst b) = nbits 32 (f_input_id f) /\ forall c partial, decode_internal_input utf8 f partial (Sl c (fst b) (snd b)) = Ok l.
Proof.
  intros S V Hi O. destruct (args_all _ _ _ O) as [O1 O2]. unfold encode_internal_input, decode_internal_input. destruct (check_types l (f_inputs f)) as [[]|] eqn:Ct; cbn [rbind]; [|discriminate]. apply check_types_iff in Ct.
  intros E. destruct (body_round_trip fin utf8 sorted S _ V _ _ _ Hi O1 O2 E) as (B & R & -> & D). rewrite <- Ct.
  split; [reflexivity|]. split; [apply take_front, length_nbits|exact D].
Qed.
Print Assumptions C71_internal.
Theorem C71_output fin utf8 sorted f l b :
  (forall A l, Permutation (sorted A l) l) -> 2 <= v_major (f_version f) -> f_output_id f < 2 ^ 32 -> args_ok utf8 (f_version f) l ->
  encode_output fin sorted f l = Ok b ->
  map type_of l = f_outputs f /\ take 32 (fst b) = nbits 32 (f_output_id f) /\ forall c partial, decode_output utf8 f partial (Sl c (fst b) (snd b)) = Ok l.
Proof.
  intros S V Hi O. destruct (args_all _ _ _ O) as [O1 O2]. unfold encode_output, decode_output. destruct (check_types l (f_outputs f)) as [[]|] eqn:Ct; cbn [rbind]; [|discriminate]. apply check_types_iff in Ct.
  intros E. destruct (body_round_trip fin utf8 sorted S _ V _ _ _ Hi O1 O2 E) as (B & R & -> & D). rewrite <- Ct.
  split; [reflexivity|]. split; [apply take_front, length_nbits|exact D].
Qed.
Print Assumptions C71_output.
Theorem C71_event fin utf8 sorted e l b :
  (forall A l, Permutation (sorted A l) l) -> 2 <= v_major (e_version e) -> e_id e < 2 ^ 32 -> args_ok utf8 (e_version e) l ->
  encode_event fin sorted e l = Ok b ->
  map type_of l = e_inputs e /\ take 32 (fst b) = nbits 32 (e_id e) /\ forall c partial, decode_event utf8 e partial (Sl c (fst b) (snd b)) = Ok l.
Proof.
  intros S V Hi O. destruct (args_all _ _ _ O) as [O1 O2]. unfold encode_event, decode_event. destruct (check_types l (e_inputs e)) as [[]|] eqn:Ct; cbn [rbind]; [|discriminate]. apply check_types_iff in Ct.
  intros E. destruct (body_round_trip fin utf8 sorted S _ V _ _ _ Hi O1 O2 E) as (B & R & -> & D). rewrite <- Ct.
  split; [reflexivity|]. split; [apply take_front, length_nbits|exact D].
Qed.
Print Assumptions C71_event.

(** A body with another identifier is never decoded. *)
Lemma wrong_id utf8 v id id' ts partial c B R : id' < 2 ^ 32 -> id' <> id -> decode_body utf8 v id ts partial (Sl c (nbits 32 id' ++ B) R) = Err InvalidData.
Proof.
  intros H N. unfold decode_body, sl_bits. cbn [s_bits s_cell s_refs]. rewrite load_id by exact H. cbn [rbind]. destruct (N.eqb_spec id' id); [contradiction|reflexivity].
Qed.
Theorem C71_other_id utf8 f e id partial c B R : id < 2 ^ 32 ->
  (id <> f_input_id f -> decode_internal_input utf8 f partial (Sl c (nbits 32 id ++ B) R) = Err InvalidData) /\
  (id <> f_output_id f -> decode_output utf8 f partial (Sl c (nbits 32 id ++ B) R) = Err InvalidData) /\
  (id <> e_id e -> decode_event utf8 e partial (Sl c (nbits 32 id ++ B) R) = Err InvalidData).
Proof. intros H. split; [|split]; intros N; apply wrong_id; assumption. Qed.
Print Assumptions C71_other_id.

(** Values of other types, more of them or fewer are never encoded. *)
Theorem C71_types fin sorted f e x now l :
  (map type_of l <> f_inputs f -> encode_internal_input fin sorted f l = Err InvalidData) /\
  (map type_of l <> f_outputs f -> encode_output fin sorted f l = Err InvalidData) /\
  (map type_of l <> e_inputs e -> encode_event fin sorted e l = Err InvalidData) /\
  (map type_of (x_tokens x) <> f_inputs f -> build_input fin sorted f x now = Err InvalidData /\ build_input_without_signature fin sorted f x now = Err InvalidData).
Proof.
  split; [|split; [|split]]; intros N; apply check_types_no in N; unfold encode_internal_input, encode_output, encode_event, build_input, build_input_ext, build_input_without_signature, build_payload; rewrite N; auto.
Qed.
Print Assumptions C71_types.

(** ** External messages: signature, headers, identifier, arguments. *)
Definition header_values (f : func) (x : call) (now : N) : list hval := map (header_value x now) (f_headers f).
Theorem C71_external fin utf8 sorted f x now address u sig c :
  (forall A l, Permutation (sorted A l) l) -> 2 <= v_major (f_version f) -> f_input_id f < 2 ^ 32 -> NoDup (f_headers f) ->
  call_ok x now -> signature_ok sig -> args_ok utf8 (f_version f) (x_tokens x) ->
  build_input_ext fin sorted f x now address = Ok u -> fill_signature fin u sig = Ok c ->
  ub_expire u = call_expire x now /\ c_exotic c = false /\
  (forall partial, decode_external_input utf8 f partial (whole_slice c) = Ok (x_tokens x)) /\
  exists rest, c_bits c = signature_layout sig ++ concat (map header_layout (header_values f x now)) ++ nbits 32 (f_input_id f) ++ rest.
Proof.
  intros S V Hi Nd O Hs A Eu Ec. destruct (args_all _ _ _ A) as [O1 O2].
  destruct (build_input_inv fin sorted _ f x now address u eq_refl Eu) as (Uv & Ep & _).
  destruct (payload_ok fin utf8 sorted (fun _ => true) S _ V f x now true _ _ eq_refl Hi Nd O O1 O2 Ep) as (Ee & _ & B & R & Pc & D).
  apply (fill_ok fin _ V) in Ec; [|rewrite Uv; exact V|exact Hs|rewrite Pc; reflexivity]. rewrite Pc in Ec. cbn [app c_bits c_refs] in Ec. subst c.
  split; [exact Ee|]. split; [reflexivity|]. split; [|exists B; reflexivity].
  intros partial. unfold whole_slice. cbn [c_bits c_refs]. eapply (decode_ok fin utf8 (fun _ => true)); [exact V|reflexivity|exact Hi|exact O|exact Hs|exact D].
Qed.
Print Assumptions C71_external.
(** Without a signature from the start. *)
Theorem C71_unsigned fin utf8 sorted f x now e c :
  (forall A l, Permutation (sorted A l) l) -> 2 <= v_major (f_version f) -> f_input_id f < 2 ^ 32 -> NoDup (f_headers f) ->
  call_ok x now -> args_ok utf8 (f_version f) (x_tokens x) ->
  build_input_without_signature fin sorted f x now = Ok (e, c) ->
  e = call_expire x now /\ c_exotic c = false /\
  (forall partial, decode_external_input utf8 f partial (whole_slice c) = Ok (x_tokens x)) /\
  exists rest, c_bits c = [false] ++ concat (map header_layout (header_values f x now)) ++ nbits 32 (f_input_id f) ++ rest.
Proof.
  intros S V Hi Nd O A Ep. destruct (args_all _ _ _ A) as [O1 O2].
  destruct (payload_ok fin utf8 sorted (fun _ => true) S _ V f x now false _ _ eq_refl Hi Nd O O1 O2 Ep) as (Ee & _ & B & R & -> & D).
  split; [exact Ee|]. split; [reflexivity|]. split; [|exists B; reflexivity].
  intros partial. unfold whole_slice. cbn [c_bits c_refs]. change [false] with (signature_layout None). eapply (decode_ok fin utf8 (fun _ => true)); [exact V|reflexivity|exact Hi|exact O|intros s; discriminate|exact D].
Qed.
Print Assumptions C71_unsigned.
(** The headers of such a body are read one after another as they were given (a public key must be a
    point of the curve). *)
Theorem C71_headers valid_key f x now sig c rest refs :
  call_ok x now -> signature_ok sig -> (forall k, x_pubkey x = Some k -> valid_key k = true) ->
  (let? s := skip_signature (Sl c (signature_layout sig ++ concat (map header_layout (header_values f x now)) ++ rest) refs) in load_headers valid_key (f_headers f) s) =
    Ok (header_values f x now, Sl c rest refs).
Proof.
  intros O Hs K. rewrite skip_signature_whole by exact Hs. cbn [rbind]. rewrite <- (kinds x now (f_headers f)) at 1. apply (load_headers_ok (fun _ _ => Ok tt) (fun _ => true) valid_key (Version 2 0) (N.le_refl 2)).
  - apply List.Forall_forall. intros h Hin. apply in_map_iff in Hin. destruct Hin as (t & <- & _). apply header_value_ok, O.
  - apply List.Forall_forall. intros h Hin. apply in_map_iff in Hin. destruct Hin as (t & <- & _). destruct t; try exact Logic.I. cbn [header_value key_valid]. destruct (x_pubkey x) as [k|]; [apply K; reflexivity|exact Logic.I].
Qed.
Print Assumptions C71_headers.

(** ** What is signed says everything: two calls of a contract whose signed cells are the same have the
    same destination (from version 2.3 on), headers, function and arguments.  (Equal hashes are equal
    cells but for collisions: C11.) *)
Theorem C71_signed fin utf8 sorted f1 f2 x1 x2 now1 now2 a1 a2 u1 u2 :
  (forall A l, Permutation (sorted A l) l) -> 2 <= v_major (f_version f1) -> f_version f2 = f_version f1 -> f_headers f2 = f_headers f1 -> NoDup (f_headers f1) ->
  f_input_id f1 < 2 ^ 32 -> f_input_id f2 < 2 ^ 32 -> call_ok x1 now1 -> call_ok x2 now2 ->
  args_ok utf8 (f_version f1) (x_tokens x1) -> args_ok utf8 (f_version f1) (x_tokens x2) ->
  (exists bits, std_tlb a1 bits) -> (exists bits, std_tlb a2 bits) ->
  build_input_ext fin sorted f1 x1 now1 (Some a1) = Ok u1 -> build_input_ext fin sorted f2 x2 now2 (Some a2) = Ok u2 ->
  ub_signed u1 = ub_signed u2 ->
  (from_2_3 (f_version f1) = true -> a1 = a2) /\ ub_payload u1 = ub_payload u2 /\
  header_values f1 x1 now1 = header_values f2 x2 now2 /\ f_input_id f1 = f_input_id f2 /\
  (f_inputs f1 = f_inputs f2 -> x_tokens x1 = x_tokens x2).
Proof.
  intros S V Ev Eh Nd I1 I2 C1 C2 A1 A2 (b1 & T1) (b2 & T2) U1 U2 Es.
  destruct (args_all _ _ _ A1) as [O1 O1']. destruct (args_all _ _ _ A2) as [O2 O2'].
  destruct (build_input_inv fin sorted _ f1 x1 now1 _ u1 eq_refl U1) as (_ & P1 & H1). destruct (build_input_inv fin sorted _ f2 x2 now2 _ u2 Ev U2) as (_ & P2 & H2).
  destruct (payload_ok fin utf8 sorted (fun _ => true) S _ V f1 x1 now1 true _ _ eq_refl I1 Nd C1 O1 O1' P1) as (_ & Ty1 & B1 & R1 & E1 & D1).
  destruct (payload_ok fin utf8 sorted (fun _ => true) S _ V f2 x2 now2 true _ _ Ev I2 ltac:(rewrite Eh; exact Nd) C2 O2 O2' P2) as (_ & Ty2 & B2 & R2 & E2 & D2).
  assert (K : (from_2_3 (f_version f1) = true -> a1 = a2) /\ ub_payload u1 = ub_payload u2).
  { destruct (from_2_3 (f_version f1)).
    - destruct H1 as (a & bits1 & [= <-] & S1 & _ & G1). destruct H2 as (a & bits2 & [= <-] & S2 & _ & G2). rewrite G1, G2 in Es. rewrite E1, E2 in *; cbn [c_bits c_refs] in Es; rewrite ?app_nil_l in Es.
      unfold on_bits in S1, S2. cbn [empty_b fst snd] in S1, S2. rewrite (store_std_put _ _ _ T1) in S1. rewrite (store_std_put _ _ _ T2) in S2.
      destruct (put b1 []) as [y1|] eqn:Y1; cbn [rbind] in S1; [|discriminate]. destruct (put b2 []) as [y2|] eqn:Y2; cbn [rbind] in S2; [|discriminate].
      apply put_ok in Y1, Y2. destruct Y1 as [-> _], Y2 as [-> _]. injection S1 as <-. injection S2 as <-. cbn [fst snd] in Es. pose proof (f_equal c_bits Es) as Eb. pose proof (f_equal c_refs Es) as Er. cbn [c_bits c_refs] in Eb, Er. rewrite ?app_nil_l in Eb; rewrite ?app_nil_l in Er.
      pose proof (proj2 (load_std_iff (b1 ++ front x1 now1 (f_headers f1) ++ nbits 32 (f_input_id f1) ++ B1) a1 (front x1 now1 (f_headers f1) ++ nbits 32 (f_input_id f1) ++ B1)) (ex_intro _ b1 (conj T1 eq_refl))) as L1. pose proof (proj2 (load_std_iff (b2 ++ front x2 now2 (f_headers f2) ++ nbits 32 (f_input_id f2) ++ B2) a2 (front x2 now2 (f_headers f2) ++ nbits 32 (f_input_id f2) ++ B2)) (ex_intro _ b2 (conj T2 eq_refl))) as L2.
      rewrite <- Eb, L1 in L2. assert (Ea : a1 = a2) by congruence. assert (Ep : front x1 now1 (f_headers f1) ++ nbits 32 (f_input_id f1) ++ B1 = front x2 now2 (f_headers f2) ++ nbits 32 (f_input_id f2) ++ B2) by congruence. split; [intros _; exact Ea|]. f_equal; [exact Ep|exact Er].
    - split; [discriminate|]. congruence. }
  destruct K as [Ka Kp]. split; [exact Ka|]. split; [exact Kp|]. rewrite E1, E2 in Kp. pose proof (f_equal c_bits Kp) as Kb. pose proof (f_equal c_refs Kp) as Kr. cbn [c_bits c_refs] in Kb, Kr. rewrite ?app_nil_l in Kb.
  assert (Hd : forall f x now B, call_ok x now -> load_headers (fun _ => true) (f_headers f) (Sl (Cell false [] []) (front x now (f_headers f) ++ B) []) = Ok (header_values f x now, Sl (Cell false [] []) B [])).
  { intros f x now B C. pose proof (C71_headers (fun _ => true) f x now None (Cell false [] []) B [] C ltac:(intros s; discriminate) ltac:(reflexivity)) as X.
    rewrite skip_signature_whole in X by (intros s; discriminate). exact X. }
  pose proof (Hd f1 x1 now1 (nbits 32 (f_input_id f1) ++ B1) C1) as X1. pose proof (Hd f2 x2 now2 (nbits 32 (f_input_id f2) ++ B2) C2) as X2. rewrite Kb, Eh in X1. rewrite Eh in X2. rewrite X2 in X1.
  assert (Hv : header_values f2 x2 now2 = header_values f1 x1 now1) by congruence.
  assert (Hr : nbits 32 (f_input_id f2) ++ B2 = nbits 32 (f_input_id f1) ++ B1) by congruence.
  pose proof (load_id (f_input_id f1) B1 I1) as J1. pose proof (load_id (f_input_id f2) B2 I2) as J2. rewrite Hr, J1 in J2. injection J2 as Ji <-.
  split; [symmetry; exact Hv|]. split; [exact Ji|]. intros Et. destruct (D1 (Cell false [] []) false) as (s1 & L1 & _). destruct (D2 (Cell false [] []) false) as (s2 & L2 & _). rewrite Et, Kr, L2 in L1. congruence.
Qed.
Print Assumptions C71_signed.
(** The same for what is put in front of the hash: networks with different signature identifiers, or
    without one, never sign the same bytes. *)
Theorem C71_signature_id d1 d2 i1 i2 :
  length d1 = 32%nat -> length d2 = 32%nat -> (forall i, i1 = Some i -> (- 2 ^ 31 <= i < 2 ^ 31)%Z) -> (forall i, i2 = Some i -> (- 2 ^ 31 <= i < 2 ^ 31)%Z) ->
  extend_with_id d1 i1 = extend_with_id d2 i2 -> d1 = d2 /\ i1 = i2.
Proof.
  intros L1 L2 H1 H2 E. pose proof (f_equal (@length _) E) as El. destruct i1 as [i1|], i2 as [i2|]; cbn [extend_with_id] in *; rewrite ?app_length, ?to_be_length, L1, L2 in El; try discriminate; [|auto].
  apply app_inj_1 in E; [|rewrite !to_be_length; reflexivity]. destruct E as [E ->]. split; [reflexivity|].
  specialize (H1 _ eq_refl). specialize (H2 _ eq_refl). apply (f_equal from_be) in E. rewrite !from_be_bval, !bytes_bits_to_be in E by apply to_be_ok.
  assert (B : forall i, as_unsigned 32 i < 2 ^ 32) by (intros i; unfold as_unsigned; pose proof (Z.mod_pos_bound i (2 ^ Z.of_N 32) ltac:(reflexivity)); change (2 ^ 32) with (Z.to_N (2 ^ Z.of_N 32)); apply Z2N.inj_lt; lia).
  rewrite !bval_nbits_small in E by (apply B). f_equal. unfold as_unsigned in E. apply Z2N.inj in E; try (apply Z.mod_pos_bound; reflexivity).
  change (2 ^ Z.of_N 32)%Z with (2 * 2 ^ 31)%Z in E. rewrite (Z.mod_eq i1), (Z.mod_eq i2) in E by discriminate.
  assert (Q : forall i, (- 2 ^ 31 <= i < 2 ^ 31)%Z -> (i / (2 * 2 ^ 31) = if i <? 0 then -1 else 0)%Z).
  { intros i Hi. destruct (Z.ltb_spec i 0); [symmetry; apply (Z.div_unique _ _ _ (i + 2 * 2 ^ 31)); lia|apply Z.div_small; lia]. }
  rewrite (Q i1 H1), (Q i2 H2) in E. destruct (Z.ltb_spec i1 0), (Z.ltb_spec i2 0); lia.
Qed.
Print Assumptions C71_signature_id.

(** ** Identifiers: those computed from a signature text differ for calls and results by the highest
    bit; a given one is used for both. *)
Lemma high_bit k h : h < 2 ^ N.succ k -> N.lor h (2 ^ k) = h mod 2 ^ k + 2 ^ k.
Proof.
  intros H. rewrite <- (N.land_ones h k).
  assert (X : N.lor h (2 ^ k) = N.lor (N.land h (N.ones k)) (2 ^ k)).
  { apply N.bits_inj. intros i. rewrite !N.lor_spec, N.land_spec. destruct (N.lt_ge_cases i k) as [G|G]; [rewrite N.ones_spec_low by exact G; rewrite andb_true_r; reflexivity|].
    rewrite N.ones_spec_high by exact G. rewrite andb_false_r. destruct (N.eq_dec i k) as [->|G2]; [rewrite N.pow2_bits_true, orb_true_r; reflexivity|].
    rewrite N.pow2_bits_false by congruence. rewrite !orb_false_r. destruct (N.eq_dec h 0) as [->|Hz]; [apply N.bits_0|]. apply N.bits_above_log2. apply N.log2_lt_pow2 in H; lia. }
  assert (Y : N.land (N.land h (N.ones k)) (2 ^ k) = 0).
  { apply N.bits_inj. intros i. rewrite !N.land_spec, N.bits_0. destruct (N.eq_dec k i) as [->|G2]; [rewrite N.ones_spec_high by apply N.le_refl; rewrite andb_false_r; reflexivity|rewrite N.pow2_bits_false by exact G2; rewrite andb_false_r; reflexivity]. }
  rewrite X, <- (N.lxor_lor _ _ Y), <- (N.add_nocarry_lxor _ _ Y). reflexivity.
Qed.
Theorem C71_ids v hs ins outs hash id : hash < 2 ^ 32 ->
  (let f := func_build v hs ins outs None hash in
   f_input_id f < 2 ^ 31 /\ 2 ^ 31 <= f_output_id f < 2 ^ 32 /\ f_input_id f = hash mod 2 ^ 31 /\ f_output_id f = hash mod 2 ^ 31 + 2 ^ 31) /\
  (let f := func_build v hs ins outs (Some id) hash in f_input_id f = id /\ f_output_id f = id) /\
  e_id (event_build v ins None hash) = hash mod 2 ^ 31 /\ e_id (event_build v ins (Some id) hash) = id.
Proof.
  intros H. cbn [func_build event_build f_input_id f_output_id e_id]. change INPUT_ID_MASK with (N.ones 31). rewrite N.land_ones.
  pose proof (N.mod_lt hash (2 ^ 31) ltac:(discriminate)) as M.
  assert (O : N.lor hash 0x80000000 = hash mod 2 ^ 31 + 2 ^ 31).
  { replace 0x80000000 with (2 ^ 31) by reflexivity. apply high_bit. replace (N.succ 31) with 32 by reflexivity. exact H. }
  rewrite O. assert (P : 2 ^ 32 = 2 ^ 31 + 2 ^ 31) by reflexivity. rewrite P. generalize dependent (hash mod 2 ^ 31). clear. generalize (2 ^ 31). intros a m M _. split; [split; [exact M|split; [lia|split; reflexivity]]|]. split; [split; reflexivity|]. split; reflexivity.
Qed.
Print Assumptions C71_ids.

(** ** When a call expires *)
Theorem C71_expire x now :
  (forall t, x_expire x = Some t -> call_expire x now = t) /\
  (x_expire x = None -> call_time x now / 1000 + 60 < 2 ^ 32 -> call_expire x now = call_time x now / 1000 + 60).
Proof.
  unfold call_expire. split; [intros t ->; reflexivity|]. intros -> H. unfold w32, DEFAULT_TIMEOUT_SEC. rewrite (N.mod_small (call_time x now / 1000)) by lia. apply N.mod_small, H.
Qed.
Print Assumptions C71_expire.
(** Else it has expired long ago. *)
Theorem C71_expire_refuted : exists x now, call_ok x now /\ x_expire x = None /\ call_expire x now = 10.
Proof.
  exists (Call [] (Some 4294967246000) None None None), 0. split; [|split; [reflexivity|vm_compute; reflexivity]].
  split; [reflexivity|]. split; [intros t [= <-]; reflexivity|]. split; intros; discriminate.
Qed.
Print Assumptions C71_expire_refuted.

(** ** A case *)
Definition some_key : list N := replicate 32 7.
Definition some_addr : std_addr := StdAddr None (-1)%Z (replicate 32 5).
Definition some_func (v : version) : func := func_build v [HPubkey; HTime; HExpire] (map type_of some_args) [TBool; TCell] None 0xdeadbeef.
Definition some_call : call := Call some_args (Some 1700000000123) None (Some some_key) (Some some_addr).
Definition some_sig : list N := replicate 64 9.
Lemma some_call_ok : call_ok some_call 0.
Proof. split; [reflexivity|]. split; [intros t [= <-]; reflexivity|]. split; [intros t [=]|]. intros k [= <-]. split; [repeat constructor|reflexivity]. Qed.
Example C71_case : forall v, v = v2_0 \/ v = v2_3 ->
  NoDup (f_headers (some_func v)) /\ f_input_id (some_func v) < 2 ^ 32 /\ call_ok some_call 0 /\ args_ok any_text v some_args /\ signature_ok (Some some_sig) /\
  (exists u c, build_input yes keep (some_func v) some_call 0 = Ok u /\ fill_signature yes u (Some some_sig) = Ok c /\ ub_expire u = 1700000060 /\ decode_external_input any_text (some_func v) false (whole_slice c) = Ok some_args) /\
  (exists b, encode_internal_input yes keep (some_func v) some_args = Ok b /\ decode_internal_input any_text (some_func v) false (Sl (Cell false [] []) (fst b) (snd b)) = Ok some_args) /\
  (exists b, encode_output yes keep (some_func v) [VBool true; VCell (byte_cell 3)] = Ok b).
Proof.
  intros v Hv. split; [|split; [|split; [|split; [|split; [|split; [|split]]]]]].
  - apply list.NoDup_cons. split; [intros X; apply elem_of_cons in X; destruct X as [X|X]; [discriminate|apply elem_of_list_singleton in X; discriminate]|].
    apply list.NoDup_cons. split; [intros X; apply elem_of_list_singleton in X; discriminate|]. apply NoDup_singleton.
  - destruct Hv; subst v; vm_compute; reflexivity.
  - exact some_call_ok.
  - intros x Hx. apply (C57_case v Hv); exact Hx.
  - intros s [= <-]. split; [repeat constructor|reflexivity].
  - destruct Hv; subst v; do 2 eexists; (split; [vm_compute; reflexivity|]); (split; [vm_compute; reflexivity|]); split; vm_compute; reflexivity.
  - destruct Hv; subst v; eexists; (split; [vm_compute; reflexivity|]); vm_compute; reflexivity.
  - destruct Hv; subst v; eexists; vm_compute; reflexivity.
Qed.

(** ** What does not hold *)
(** Version 1: the signed body has the signature only (contract.rs:1201-1208: the payload is stored in the
    other branch), whatever is called; the body without a signature is not read (the decoder expects the
    identifier in front of the signature). *)
Definition v1 : version := Version 1 0.
Theorem C71_version_1_refuted :
  (forall fin u1 u2 sig, v_major (ub_version u1) = 1 -> v_major (ub_version u2) = 1 -> fill_signature fin u1 sig = fill_signature fin u2 sig) /\
  (let f := func_build v1 [HTime; HExpire] [TUint 8] [] None 5 in let x := Call [VUint 8 3] (Some 7) (Some 9) None None in
   (exists u c, build_input yes keep f x 0 = Ok u /\ fill_signature yes u (Some some_sig) = Ok c /\ decode_external_input any_text f false (whole_slice c) = Err CellUnderflow) /\
   (exists e c, build_input_without_signature yes keep f x 0 = Ok (e, c) /\ decode_external_input any_text f false (whole_slice c) = Err InvalidData)).
Proof.
  split.
  - intros fin u1 u2 sig E1 E2. unfold fill_signature. rewrite E1, E2. reflexivity.
  - cbv zeta. split; do 2 eexists; (split; [vm_compute; reflexivity|]); [split; vm_compute; reflexivity|vm_compute; reflexivity].
Qed.
Print Assumptions C71_version_1_refuted.
(** A header that is declared more than once can leave no room for the identifier, which is then written
    to another cell but not looked for there. *)
Theorem C71_headers_refuted :
  let f := func_build v2_3 [HPubkey; HTime; HTime; HExpire] [] [] None 5 in
  exists u c, build_input yes keep f (Call [] (Some 7) (Some 9) (Some some_key) (Some some_addr)) 0 = Ok u /\ fill_signature yes u None = Ok c /\
    decode_external_input any_text f false (whole_slice c) = Err CellUnderflow.
Proof. cbv zeta. do 2 eexists. split; [vm_compute; reflexivity|]. split; vm_compute; reflexivity. Qed.
Print Assumptions C71_headers_refuted.
