(** * Proofs for C74: calls *)
From Verif Require Import Err BitsProofs IntModel NumModel NumSpec NumProofs AddrModel AddrSpec AddrProofs BigIntModel BigIntSpec BigIntProofs CellModel CodecProofs ChunkModel ChunkSpec ChunkProofs LayoutProofs
  DictModel DictSpec IterModel DictProps BuildProps AbiModel AbiSpec AbiProofs AbiProofs2 AbiProofs4 CallModel CallSpec CallProofs EncSpec EncProofs EncProofs2 EncProofs3.
Local Open Scope N_scope.

Section Main.
Context (fin : list bool -> list cell -> res unit) (sorted : forall A : Type, list (pval * A) -> list (pval * A)).
Context (Hsorted : forall A l, Permutation (sorted A l) l).
Context (Hfin : forall b r, (length b <= 1023)%nat -> (length r <= 4)%nat -> fin b r = Ok tt).
Context (v : version).
Notation write := (write fin sorted v).
Notation ok O T s rest s' := (inv v O T s' /\ r_left s' = rest /\ keeps s s').

Lemma reserved l : forall s, fold_left (fun s x => reserve v x s) l s = Ser (r_cur s) (sadd (r_left s) (ssum (map (size_full v) l))) (r_stack s).
Proof.
  induction l as [|x l IH]; intros [c f st]; cbn [fold_left map]; [f_equal; apply size_eq; cbn; lia|]. rewrite IH, ssum_cons. cbn [reserve r_cur r_left r_stack]. f_equal. apply size_eq; cbn; lia.
Qed.
Definition hsizes (has_key : bool) (hs : list htype) : size := ssum (map (fun h => Size (header_bits v has_key h) 0) hs).
Lemma reserved_headers has_key hs : forall s, fold_left (reserve_header v has_key) hs s = Ser (r_cur s) (sadd (r_left s) (hsizes has_key hs)) (r_stack s).
Proof.
  unfold hsizes. induction hs as [|h hs IH]; intros [c f st]; cbn [fold_left map]; [f_equal; apply size_eq; cbn; lia|]. rewrite IH, ssum_cons. cbn [reserve_header r_cur r_left r_stack]. f_equal. apply size_eq; cbn [sadd z_bits z_refs]; lia.
Qed.
Lemma id_size id : size_full v (VUint 32 id) = Size 32 0.
Proof. cbn [size_full max_short exact_short]. destruct (use_max v); reflexivity. Qed.
Lemma id_encodable id : id < 2 ^ 32 -> encodable v (VUint 32 id).
Proof. intros H. split; [lia|exact H]. Qed.

Lemma body_total id l : id < 2 ^ 32 -> all (encodable v) l -> exists b, encode_body fin sorted v id l = Ok b.
Proof.
  intros Hi E. unfold encode_body. rewrite reserved. cbn [reserve ser_new r_cur r_left r_stack].
  set (s := Ser zero_size _ []). assert (I0 : inv v zero_size (32 + z_bits (ssum (map (size_full v) l))) s).
  { constructor; subst s; cbn [r_cur r_left r_stack]; rewrite ?id_size; cbn [zero_size sadd z_bits z_refs]; try lia; try reflexivity; discriminate. }
  destruct (all_total fin sorted Hsorted Hfin v (VUint 32 id) (id_encodable id Hi) _ _ s (ssum (map (size_full v) l)) I0) as (s1 & W1 & I1 & L1 & _); [subst s; cbn [r_left]; apply size_eq; cbn [zero_size sadd z_bits z_refs]; lia|].
  rewrite W1. cbn [rbind].
  destruct (total_seq fin sorted v l ltac:(apply Forall_forall; intros; apply (all_total fin sorted Hsorted Hfin v)) E _ _ s1 zero_size I1) as (s2 & W2 & I2 & L2 & _); [rewrite L1; apply size_eq; cbn [zero_size sadd z_bits z_refs]; lia|].
  rewrite W2. cbn [rbind]. destruct (finalize_total fin Hfin v _ _ _ I2 L2) as (b & F & _). eauto.
Qed.

Lemma header_total x now h : call_ok x now -> forall O T s rest, inv v O T s -> r_left s = sadd (Size (header_bits v (match x_pubkey x with Some _ => true | None => false end) h) 0) rest ->
  exists s', write_header v (header_value x now h) s = Ok s' /\ ok O T s rest s'.
Proof.
  intros (O1 & O2 & O3 & O4) O T s rest I L. destruct h; cbn [header_value write_header header_bits] in *.
  - apply (emit_total v O T s _ rest _ (nbits 64 (call_time x now), []) I L).
    + split; cbn; lia.
    + apply appends_un. constructor. unfold call_time. destruct (x_time x) as [t|]; [apply O2; reflexivity|exact O1].
    + split; cbn [csize fst snd z_bits z_refs]; rewrite ?length_nbits; cbn; lia.
    + intros _. apply size_eq; cbn [csize fst snd z_bits z_refs]; rewrite ?length_nbits; reflexivity.
  - apply (emit_total v O T s _ rest _ (nbits 32 (call_expire x now), []) I L).
    + split; cbn; lia.
    + apply appends_un. constructor. unfold call_expire. destruct (x_expire x) as [t|]; [apply O3; reflexivity|apply N.mod_lt; discriminate].
    + split; cbn [csize fst snd z_bits z_refs]; rewrite ?length_nbits; cbn; lia.
    + intros _. apply size_eq; cbn [csize fst snd z_bits z_refs]; rewrite ?length_nbits; reflexivity.
  - destruct (x_pubkey x) as [k|].
    + destruct (O4 k eq_refl) as [K1 K2]. apply (emit_total v O T s _ rest _ (capp ([true], []) (bytes_bits k, [])) I L).
      * unfold key_bits. rewrite orb_true_r. split; cbn; lia.
      * apply (appends_bind (store_bool true) ([true], [])); [apply appends_bool; constructor|apply (appends_bs 32); constructor; assumption].
      * rewrite csize_capp. unfold key_bits. rewrite orb_true_r. split; cbn [csize sadd fst snd length z_bits z_refs]; rewrite ?length_bytes_bits, ?K2; cbn; lia.
      * intros M. rewrite csize_capp. unfold key_bits. rewrite orb_true_r. apply size_eq; cbn [csize sadd fst snd length z_bits z_refs]; rewrite ?length_bytes_bits, ?K2; reflexivity.
    + apply (emit_total v O T s _ rest _ ([false], []) I L).
      * unfold key_bits. destruct (use_max v); split; cbn; lia.
      * apply appends_bool. constructor.
      * unfold key_bits. destruct (use_max v); split; cbn; lia.
      * intros M. unfold key_bits. rewrite M. reflexivity.
Qed.
Lemma headers_total x now hs : call_ok x now -> forall O T s rest, inv v O T s -> r_left s = sadd (hsizes (match x_pubkey x with Some _ => true | None => false end) hs) rest ->
  exists s', foldm (fun h => write_header v (header_value x now h)) hs s = Ok s' /\ ok O T s rest s'.
Proof.
  intros C. unfold hsizes. induction hs as [|h hs IH]; intros O T s rest I L; cbn [foldm].
  - exists s. split; [reflexivity|]. split; [exact I|]. split; [rewrite L; apply size_eq; cbn; lia|apply keeps_refl].
  - cbn [map] in L. rewrite ssum_cons in L.
    destruct (header_total x now h C O T s (sadd (ssum (map (fun h => Size (header_bits v (match x_pubkey x with Some _ => true | None => false end) h) 0) hs)) rest) I) as (s1 & W & I1 & L1 & K1); [rewrite L; apply size_eq; cbn [sadd z_bits z_refs]; lia|]. rewrite W. cbn [rbind].
    destruct (IH O T s1 rest I1 L1) as (s' & W' & I' & L' & K'). exists s'. split; [exact W'|]. split; [exact I'|]. split; [exact L'|]. eapply keeps_trans; eassumption.
Qed.
Lemma offset_small : z_bits (offset v) <= 591 /\ z_refs (offset v) <= 1.
Proof. unfold offset. change INT_BITS_MAX with 591. destruct (v_major v =? 1); [cbn; lia|]. destruct (from_2_3 v); cbn [z_bits z_refs]; lia. Qed.
Lemma payload_total f x now rs : f_version f = v -> f_input_id f < 2 ^ 32 -> call_ok x now -> map type_of (x_tokens x) = f_inputs f -> all (encodable v) (x_tokens x) ->
  exists b, build_payload fin sorted f x now rs = Ok (call_expire x now, chunk_cell b) /\ sle (sadd (csize b) (offset v)) (Size 1023 4).
Proof.
  intros Ev Hi C Ht E. apply check_types_iff in Ht. unfold build_payload. rewrite Ht. cbn [rbind]. rewrite Ev. cbv zeta. rewrite reserved_headers, reserved. cbn [reserve r_cur r_left r_stack]. rewrite id_size.
  set (hk := match x_pubkey x with Some _ => true | None => false end). set (H := hsizes hk (f_headers f)). set (A := ssum (map (size_full v) (x_tokens x))).
  set (y := if v_major v =? 1 then VCell (Cell false [] []) else VBool false). set (s0 := Ser (offset v) _ []). destruct offset_small as [Of1 Of2].
  assert (Ey : encodable v y) by (subst y; destruct (v_major v =? 1); exact Logic.I).
  assert (Start : exists T s1, (if rs then Ok s0 else write y (Ser (r_cur s0) (sadd (r_left s0) (size_full v y)) (r_stack s0))) = Ok s1 /\ inv v (offset v) T s1 /\ r_left s1 = sadd H (sadd (Size 32 0) A)).
  { destruct rs.
    - exists (z_bits (offset v) + z_bits H + 32 + z_bits A), s0. split; [reflexivity|]. split; [|subst s0; cbn [r_left]; apply size_eq; cbn [zero_size sadd z_bits z_refs]; lia].
      constructor; subst s0; cbn [r_cur r_left r_stack zero_size sadd z_bits z_refs]; try lia; try reflexivity.
    - exists (z_bits (offset v) + z_bits H + 32 + z_bits A + z_bits (size_full v y)). set (s := Ser _ _ _).
      assert (I0 : inv v (offset v) (z_bits (offset v) + z_bits H + 32 + z_bits A + z_bits (size_full v y)) s).
      { constructor; subst s s0; cbn [r_cur r_left r_stack zero_size sadd z_bits z_refs]; try lia; try reflexivity. }
      destruct (all_total fin sorted Hsorted Hfin v y Ey _ _ s (sadd H (sadd (Size 32 0) A)) I0) as (s1 & W & I1 & L1 & _); [subst s s0; cbn [r_left]; apply size_eq; cbn [zero_size sadd z_bits z_refs]; lia|]. eauto. }
  destruct Start as (T & s1 & W1 & I1 & L1). change (reserve v y s0) with (Ser (r_cur s0) (sadd (r_left s0) (size_full v y)) (r_stack s0)). rewrite W1. cbn [rbind].
  destruct (headers_total x now (f_headers f) C _ T s1 (sadd (Size 32 0) A) I1 L1) as (s2 & W2 & I2 & L2 & _). rewrite W2. cbn [rbind].
  destruct (all_total fin sorted Hsorted Hfin v (VUint 32 (f_input_id f)) (id_encodable _ Hi) _ T s2 A I2) as (s3 & W3 & I3 & L3 & _); [rewrite L2, id_size; reflexivity|]. rewrite W3. cbn [rbind].
  destruct (total_seq fin sorted v (x_tokens x) ltac:(apply Forall_forall; intros; apply (all_total fin sorted Hsorted Hfin v)) E _ T s3 zero_size I3) as (s4 & W4 & I4 & L4 & _); [rewrite L3; apply size_eq; cbn [zero_size sadd z_bits z_refs]; fold A; lia|].
  rewrite W4. cbn [rbind]. destruct (finalize_total fin Hfin v _ _ _ I4 L4) as (b & F & [B1 B2] & _). rewrite F. cbn [rbind]. cbn [sadd z_bits z_refs] in B1, B2.
  rewrite (build_total fin Hfin b) by (split; cbn [z_bits z_refs]; lia). cbn [rbind]. exists b. split; [reflexivity|]. split; cbn [sadd z_bits z_refs]; lia.
Qed.
Lemma std_bits a bits : std_tlb a bits -> (length bits <= 304)%nat.
Proof.
  intros [ac x wc id M _ _ L]. assert (Lx : N.of_nat (length x) <= 37) by (refine (maybe_any_len (fun _ _ => Ok tt) (Version 2 0) _ ac x M); cbn; lia).
  rewrite !app_length, length_bytes_bits, L. unfold int_bits. rewrite ?length_zbits. cbn [length]. assert (length (int_bits 8 wc) = 8)%nat by (unfold int_bits; apply length_nbits). unfold int_bits in H. lia.
Qed.
Lemma cell_slice b : as_slice (chunk_cell b) = Ok (Sl (chunk_cell b) (fst b) (snd b)).
Proof. reflexivity. Qed.
Lemma put_front b a : sle (sadd (csize b) (csize a)) (Size 1023 4) -> putc b a = Ok (capp a b).
Proof. intros [A B]. apply appends_fits; [apply appends_putc|]. split; cbn [sadd z_bits z_refs] in *; lia. Qed.
Lemma input_total f x now address : f_version f = v -> 2 <= v_major v -> f_input_id f < 2 ^ 32 -> call_ok x now -> map type_of (x_tokens x) = f_inputs f -> all (encodable v) (x_tokens x) ->
  (from_2_3 v = true -> exists a bits, address = Some a /\ std_tlb a bits) ->
  exists u, build_input_ext fin sorted f x now address = Ok u /\ forall sig, signature_ok sig -> exists c, fill_signature fin u sig = Ok c.
Proof.
  intros Ev V Hi C Ht E Ha. destruct (payload_total f x now true Ev Hi C Ht E) as (b & P & [B1 B2]). unfold build_input_ext. rewrite P. cbn [rbind]. rewrite Ev. cbn [sadd z_bits z_refs] in B1, B2.
  assert (Of : 513 <= z_bits (offset v) /\ (from_2_3 v = true -> 591 <= z_bits (offset v))).
  { unfold offset. change INT_BITS_MAX with 591. destruct (N.eqb_spec (v_major v) 1); [lia|]. destruct (from_2_3 v); cbn [z_bits z_refs]; split; try lia; discriminate. }
  assert (Fill : forall w e, exists u, Ok (Unsigned v (chunk_cell b) w e) = Ok u /\ forall sig, signature_ok sig -> exists c, fill_signature fin u sig = Ok c).
  { intros w e. eexists. split; [reflexivity|]. intros sig Hs. unfold fill_signature. cbn [ub_version ub_payload]. destruct (N.eqb_spec (v_major v) 1); [lia|].
    assert (G : exists q, (match sig with Some sig => let? b := store_bool true empty_b in store_bs sig b | None => store_bool false empty_b end) = Ok q /\ z_bits (csize q) <= 513 /\ z_refs (csize q) = 0).
    { destruct sig as [sg|]; [|eexists; split; [reflexivity|cbn; lia]]. destruct (Hs sg eq_refl) as [G1 G2].
      assert (Ap : appends (fun b => let? b := store_bool true b in store_bs sg b) (capp ([true], []) (bytes_bits sg, []))) by (apply appends_bind; [apply appends_bool; constructor|apply (appends_bs 64); constructor; assumption]).
      assert (Cs : csize (capp ([true], []) (bytes_bits sg, [])) = Size 513 0) by (rewrite csize_capp; apply size_eq; cbn [csize sadd fst snd length z_bits z_refs]; rewrite ?length_bytes_bits, ?G2; reflexivity).
      eexists. split; [apply (appends_fits _ _ empty_b Ap); rewrite Cs; split; cbn; lia|]. unfold empty_b. rewrite nil_capp, Cs. cbn. lia. }
    destruct G as (q & G & Q1 & Q2). rewrite G. cbn [rbind]. rewrite cell_slice. cbn [rbind]. unfold s_chunk. cbn [s_bits s_refs]. rewrite <- surjective_pairing.
    rewrite put_front by (split; cbn [sadd z_bits z_refs]; lia). cbn [rbind]. eexists. apply (build_total fin Hfin). rewrite csize_capp. split; cbn [sadd z_bits z_refs]; lia. }
  destruct (from_2_3 v) eqn:F23; [|cbn [rbind]; apply Fill].
  destruct (Ha eq_refl) as (a & bits & -> & Hb). pose proof (std_bits a bits Hb) as Lb. destruct Of as [_ Of]. specialize (Of eq_refl).
  assert (Q : on_bits (store_std a) empty_b = Ok (bits, [])).
  { unfold on_bits, empty_b. cbn [fst snd]. rewrite (store_std_put a bits [] Hb). unfold put. cbn [length app]. change MAX_BITS with 1023%nat. destruct (Nat.ltb_spec 1023 (0 + length bits)); [lia|reflexivity]. }
  rewrite Q. cbn [rbind]. rewrite cell_slice. cbn [rbind]. unfold s_chunk. cbn [s_bits s_refs]. rewrite <- surjective_pairing.
  rewrite put_front by (split; cbn [sadd csize fst snd length z_bits z_refs] in *; lia). cbn [rbind].
  rewrite (build_total fin Hfin) by (rewrite csize_capp; split; cbn [sadd csize fst snd length z_bits z_refs] in *; lia). cbn [rbind]. apply Fill.
Qed.
End Main.
