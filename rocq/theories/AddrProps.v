(** * C38: addresses *)
From Verif Require Import Err BitsProofs WordProofs IntModel IntProofs CellModel TextModel TextSpec TextProofs TextProofs2 BitstringProps NumModel Crc16Model Crc16Spec Crc16Proofs AddrModel AddrSpec CodecProofs AddrProofs AddrProofs2 AddrProofs3.
Local Open Scope N_scope.

(** ** In cells *)
(** An internal address is stored as its layout says, or not at all when the cell has no room;
    [bit_len] is the number of bits. *)
Theorem C38_store a x b : int_tlb a x ->
  int_bit_len a = count x /\
  store_int a b = if (1023 <? length b + length x)%nat then Err CellOverflow else Ok (b ++ x).
Proof. intros H. split; [symmetry; apply int_len, H|]. rewrite (store_int_put a x b H). reflexivity. Qed.
Print Assumptions C38_store.
(** Loading succeeds exactly on the layouts of addresses, gives that address and leaves the
    bits that follow. *)
Theorem C38_load b a r : load_int b = Ok (a, r) <-> exists x, int_tlb a x /\ b = x ++ r.
Proof. apply load_int_addr_iff. Qed.
Print Assumptions C38_load.
Theorem C38_round_trip a x b b' : int_tlb a x -> store_int a b = Ok b' ->
  exists x, b' = b ++ x /\ forall r, load_int (x ++ r) = Ok (a, r).
Proof.
  intros H E. rewrite (store_int_put a x b H), put_unfold in E. destruct (_ <? _)%nat; [discriminate|]. injection E as <-.
  exists x. split; [reflexivity|]. intros r. apply C38_load. exists x. auto.
Qed.
Print Assumptions C38_round_trip.
(** The same for the loader of standard addresses only. *)
Theorem C38_std_load b a r : load_std b = Ok (a, r) <-> exists x, std_tlb a x /\ b = x ++ r.
Proof. apply load_std_iff. Qed.
Print Assumptions C38_std_load.
Theorem C38_std_store a x b : std_tlb a x ->
  std_bit_len a = count x /\ store_std a b = if (1023 <? length b + length x)%nat then Err CellOverflow else Ok (b ++ x).
Proof. intros H. split; [symmetry; apply std_len, H|]. rewrite (store_std_put a x b H). reflexivity. Qed.
Print Assumptions C38_std_store.
(** An internal address that may be missing. *)
Theorem C38_opt a x b r : opt_int_tlb a x ->
  opt_int_bit_len a = count x /\
  (store_opt_int a b = if (1023 <? length b + length x)%nat then Err CellOverflow else Ok (b ++ x)) /\
  load_opt_int (x ++ r) = Ok (a, r).
Proof.
  intros H. split; [symmetry; apply opt_int_len, H|]. split; [rewrite (store_opt_int_put a x b H); reflexivity|]. apply load_opt_int_iff. exists x. auto.
Qed.
Print Assumptions C38_opt.
Theorem C38_opt_load b a r : load_opt_int b = Ok (a, r) <-> exists x, opt_int_tlb a x /\ b = x ++ r.
Proof. apply load_opt_int_iff. Qed.
Print Assumptions C38_opt_load.
(** External addresses. *)
Theorem C38_ext a x b r : ext_tlb a x ->
  opt_ext_bit_len a = count x /\
  (store_ext a b = if (1023 <? length b + length x)%nat then Err CellOverflow else Ok (b ++ x)) /\
  load_ext (x ++ r) = Ok (a, r).
Proof.
  intros H. split; [symmetry; apply ext_len, H|]. split; [rewrite (store_ext_put a x b H); reflexivity|]. apply load_ext_iff. exists x. auto.
Qed.
Print Assumptions C38_ext.
Theorem C38_ext_load b a r : load_ext b = Ok (a, r) <-> exists x, ext_tlb a x /\ b = x ++ r.
Proof. apply load_ext_iff. Qed.
Print Assumptions C38_ext_load.

(** Nothing but these errors comes out of the loaders. *)
Definition load_error (e : err) : Prop := e = CellUnderflow \/ e = InvalidTag \/ e = IntOverflow.
Lemma load_bit_err b e : load_bit b = Err e -> load_error e.
Proof. destruct b; cbn; [intros [= <-]; left; reflexivity|discriminate]. Qed.
Lemma load_uint_err k b e : load_uint k b = Err e -> load_error e.
Proof. unfold load_uint. destruct (_ <? _)%nat; [intros [= <-]; left; reflexivity|discriminate]. Qed.
Lemma load_sd_err b e : load_sd b = Err e -> load_error e.
Proof.
  unfold load_sd. destruct (load_uint 5 b) as [[v r]|e0] eqn:E; cbn [rbind]; [|intros [= <-]; eapply load_uint_err; exact E].
  unfold sd_new. destruct (v =? 0); [intros [= <-]; right; right; reflexivity|discriminate].
Qed.
Lemma load_sk_err k b e : load_sk k b = Err e -> load_error e.
Proof. unfold load_sk. destruct (load_uint _ b) as [[v r]|e0] eqn:E; cbn [rbind]; [discriminate|intros [= <-]; eapply load_uint_err; exact E]. Qed.
Lemma load_raw_err n b e : load_raw_bits n b = Err e -> load_error e.
Proof. unfold load_raw_bits. destruct (_ <? _)%nat; [intros [= <-]; left; reflexivity|discriminate]. Qed.
Lemma load_anycast_err b e : load_anycast b = Err e -> load_error e.
Proof.
  unfold load_anycast. destruct (load_sd b) as [[v r]|e0] eqn:E; cbn [rbind]; [|intros [= <-]; eapply load_sd_err; exact E].
  destruct (negb _); [intros [= <-]; left; reflexivity|]. destruct (load_raw_bits v r) as [[w s]|e0] eqn:E2; cbn [rbind]; [discriminate|intros [= <-]; eapply load_raw_err; exact E2].
Qed.
Lemma load_opt_err {A} (l : list bool -> res (A * list bool)) b e : (forall b e, l b = Err e -> load_error e) -> load_opt l b = Err e -> load_error e.
Proof.
  intros H. unfold load_opt. destruct (load_bit b) as [[f r]|e0] eqn:E; cbn [rbind]; [|intros [= <-]; eapply load_bit_err; exact E].
  destruct f; [|discriminate]. destruct (l r) as [[w s]|e0] eqn:E2; cbn [rbind]; [discriminate|intros [= <-]; eapply H; exact E2].
Qed.
Lemma load_std_body_err b e : load_std_body b = Err e -> load_error e.
Proof.
  unfold load_std_body. destruct (load_opt load_anycast b) as [[v r]|e0] eqn:E; cbn [rbind]; [|intros [= <-]; eapply load_opt_err; [apply load_anycast_err|exact E]].
  destruct (load_uint 8 r) as [[v2 r2]|e0] eqn:E2; cbn [rbind]; [|intros [= <-]; eapply load_uint_err; exact E2].
  destruct (load_uint 256 r2) as [[v3 r3]|e0] eqn:E3; cbn [rbind]; [discriminate|intros [= <-]; eapply load_uint_err; exact E3].
Qed.
Lemma load_var_body_err b e : load_var_body b = Err e -> load_error e.
Proof.
  unfold load_var_body. destruct (load_opt load_anycast b) as [[v r]|e0] eqn:E; cbn [rbind]; [|intros [= <-]; eapply load_opt_err; [apply load_anycast_err|exact E]].
  destruct (load_sk Uint9 r) as [[v2 r2]|e0] eqn:E2; cbn [rbind]; [|intros [= <-]; eapply load_sk_err; exact E2].
  destruct (load_uint 32 r2) as [[v3 r3]|e0] eqn:E3; cbn [rbind]; [|intros [= <-]; eapply load_uint_err; exact E3].
  destruct (negb _); [intros [= <-]; left; reflexivity|]. destruct (load_raw_bits v2 r3) as [[w s]|e0] eqn:E4; cbn [rbind]; [discriminate|intros [= <-]; eapply load_raw_err; exact E4].
Qed.
Theorem C38_load_errors b e :
  load_int b = Err e \/ load_std b = Err e \/ load_ext b = Err e \/ load_opt_int b = Err e -> e = CellUnderflow \/ e = InvalidTag \/ e = IntOverflow.
Proof.
  change (load_int b = Err e \/ load_std b = Err e \/ load_ext b = Err e \/ load_opt_int b = Err e -> load_error e).
  assert (I : forall b e, load_int b = Err e -> load_error e).
  { clear. intros b e. unfold load_int. destruct (load_bit b) as [[t r]|e0] eqn:E; cbn [rbind]; [|intros [= <-]; eapply load_bit_err; exact E].
    destruct (negb t); [intros [= <-]; right; left; reflexivity|]. destruct (load_bit r) as [[t2 r2]|e0] eqn:E2; cbn [rbind]; [|intros [= <-]; eapply load_bit_err; exact E2].
    destruct t2; [destruct (load_var_body r2) as [[v s]|e0] eqn:E3|destruct (load_std_body r2) as [[v s]|e0] eqn:E3]; cbn [rbind]; try discriminate; intros [= <-];
      [eapply load_var_body_err|eapply load_std_body_err]; exact E3. }
  intros [H|[H|[H|H]]]; revert H.
  - apply I.
  - unfold load_std. destruct (load_bit b) as [[t r]|e0] eqn:E; cbn [rbind]; [|intros [= <-]; eapply load_bit_err; exact E].
    destruct (negb t); [intros [= <-]; right; left; reflexivity|]. destruct (load_bit r) as [[t2 r2]|e0] eqn:E2; cbn [rbind]; [|intros [= <-]; eapply load_bit_err; exact E2].
    destruct t2; [intros [= <-]; right; left; reflexivity|apply load_std_body_err].
  - unfold load_ext. destruct (load_bit b) as [[t r]|e0] eqn:E; cbn [rbind]; [|intros [= <-]; eapply load_bit_err; exact E].
    destruct t; [intros [= <-]; right; left; reflexivity|]. destruct (load_bit r) as [[t2 r2]|e0] eqn:E2; cbn [rbind]; [|intros [= <-]; eapply load_bit_err; exact E2].
    destruct (negb t2); [discriminate|]. destruct (load_sk Uint9 r2) as [[v3 r3]|e0] eqn:E3; cbn [rbind]; [|intros [= <-]; eapply load_sk_err; exact E3].
    destruct (negb _); [intros [= <-]; left; reflexivity|]. destruct (load_raw_bits v3 r3) as [[w s]|e0] eqn:E4; cbn [rbind]; [discriminate|intros [= <-]; eapply load_raw_err; exact E4].
  - unfold load_opt_int. destruct (load_bit b) as [[t r]|e0] eqn:E; cbn [rbind]; [|intros [= <-]; eapply load_bit_err; exact E].
    destruct t; [destruct (load_int b) as [[v s]|e0] eqn:E3; cbn [rbind]; [discriminate|intros [= <-]; eapply I; exact E3]|].
    destruct (load_uint 2 b) as [[v s]|e0] eqn:E3; cbn [rbind]; [|intros [= <-]; eapply load_uint_err; exact E3]. destruct (v =? 0); [discriminate|intros [= <-]; right; left; reflexivity].
Qed.
Print Assumptions C38_load_errors.

(** An address whose bytes have more bits than its length says is stored like the one without
    the superfluous bits. *)
Theorem C38_superfluous ac len wc bytes b : Forall byte_ok bytes -> (N.to_nat len <= 8 * length bytes)%nat ->
  store_var (VarAddr ac len wc bytes) b = store_var (VarAddr ac len wc (pack (take (N.to_nat len) (bytes_bits bytes)))) b
  /\ store_ext (Some (ExtAddr len bytes)) b = store_ext (Some (ExtAddr len (pack (take (N.to_nat len) (bytes_bits bytes))))) b.
Proof.
  intros F L.
  assert (E : raw_data bytes len = raw_data (pack (take (N.to_nat len) (bytes_bits bytes))) len).
  { assert (C : count (take (N.to_nat len) (bytes_bits bytes)) = len) by (unfold count; rewrite take_length, length_bytes_bits; lia).
    rewrite <- C at 3. rewrite raw_data_pack. unfold raw_data. replace (N.to_nat len - 8 * length bytes)%nat with 0%nat by lia. reflexivity. }
  unfold store_var, store_ext, store_raw_bits, var_bit_len. cbn [va_anycast va_len va_wc va_addr ea_len ea_data]. rewrite <- E. split; reflexivity.
Qed.
Print Assumptions C38_superfluous.

(** The schema allows at most 30 bits of anycast prefix; the loader also accepts 31. *)
Theorem C38_anycast_depth_refuted : exists b a r, load_anycast b = Ok (a, r) /\ 30 < ac_depth a.
Proof. exists (nbits 5 31 ++ zeros 31). eexists _, _. split; [vm_compute; reflexivity|cbn; lia]. Qed.
Print Assumptions C38_anycast_depth_refuted.
(** A prefix of 32 or more bits, accepted by [Anycast::from_slice], is stored with a wrong
    depth and read back as something else. *)
Theorem C38_anycast_long_refuted : exists bits a b a' r, ac_from_slice bits = Ok a /\ store_anycast a [] = Ok b /\ load_anycast b = Ok (a', r) /\ a' <> a.
Proof. exists (zeros 33). eexists _, _, _, _. split; [vm_compute; reflexivity|]. split; [vm_compute; reflexivity|]. split; [vm_compute; reflexivity|]. discriminate. Qed.
Print Assumptions C38_anycast_long_refuted.

Definition id7 : list N := replicate 31 0x7 ++ [0xab].
Lemma id7_ok : Forall byte_ok id7 /\ length id7 = 32%nat.
Proof. split; [|reflexivity]. apply Forall_app. split; [apply Forall_replicate; reflexivity|repeat constructor]. Qed.
Example C38_case :
  int_tlb (IStd (StdAddr (Some (Anycast 3 [0xa0])) (-1) id7)) ([true; false] ++ (true :: nbits 5 3 ++ [true; false; true]) ++ replicate 8 true ++ bytes_bits id7)
  /\ int_tlb (IVar (VarAddr None 10 5 [0xff; 0xc0])) ([true; true] ++ [false] ++ nbits 9 10 ++ nbits 32 5 ++ replicate 10 true)
  /\ ext_tlb (Some (ExtAddr 4 [0x90])) ([false; true] ++ nbits 9 4 ++ [true; false; false; true]).
Proof.
  split_and!.
  - constructor. apply (addr_std (Some (Anycast 3 [0xa0])) (true :: nbits 5 3 ++ [true; false; true]) (-1) id7); [|unfold in_int; lia|apply id7_ok|apply id7_ok].
    constructor. apply (anycast_info [true; false; true]). unfold count. cbn. lia.
  - constructor. apply (addr_var None [false] 5 (replicate 10 true)); [constructor|unfold in_int; lia|reflexivity].
  - apply (ext_some [true; false; false; true]). reflexivity.
Qed.

(** ** As dictionary key *)
(** The key is the layout of the address (267 bits); an anycast address has no key. *)
Theorem C38_key_store a x b : std_tlb a x ->
  std_store_key a b = match sa_anycast a with
                      | Some _ => Err InvalidData
                      | None => if (1023 <? length b + 267)%nat then Err InvalidData else Ok (b ++ x)
                      end.
Proof.
  intros H. destruct H as [ac y wc id Hm Hw F L]. cbn [sa_anycast]. destruct Hm as [|c y Hc]; [|reflexivity]. rewrite std_store_key_ok by assumption. reflexivity.
Qed.
Print Assumptions C38_key_store.
(** Reading the key from the buffer gives the address whose layout it starts with. *)
Theorem C38_key_load data a : Forall byte_ok data -> (34 <= length data)%nat ->
  std_load_key data = Some a <-> sa_anycast a = None /\ exists x rest, std_tlb a x /\ bytes_bits data = x ++ rest.
Proof.
  intros F L. rewrite std_load_key_ok by assumption. set (B := bytes_bits data).
  assert (LB : (272 <= length B)%nat) by (unfold B; rewrite length_bytes_bits; lia).
  split.
  - destruct (bool_decide_reflect (take 3 B = [true; false; false])) as [T|T]; [|discriminate]. intros [= <-]. cbn [sa_anycast]. split; [reflexivity|].
    assert (LT : load_uint 8 (drop 3 B) = Ok (bval (take 8 (drop 3 B)), drop 8 (drop 3 B))).
    { unfold load_uint. destruct (Nat.ltb_spec (length (drop 3 B)) 8) as [C|C]; [rewrite drop_length in C; lia|reflexivity]. }
    destruct (load_int_inv 8 _ _ _ ltac:(lia) LT) as [Hz Ed].
    eexists _, (drop 256 (drop 11 B)). split.
    { apply (addr_std None [false]); [constructor|exact Hz|apply pack_ok|]. rewrite length_pack, take_length, drop_length. replace (256 `min` (length B - 11))%nat with 256%nat by lia. reflexivity. }
    rewrite bytes_bits_pack. replace (8 * _ - _)%nat with 0%nat by (rewrite length_pack, take_length, drop_length; replace (256 `min` (length B - 11))%nat with 256%nat by lia; reflexivity).
    rewrite app_nil_r, <- !app_assoc. rewrite take_drop. rewrite <- (take_drop 3 B) at 1. rewrite T. change (N.of_nat 8) with 8 in *. rewrite drop_drop in Ed. change (3 + 8)%nat with 11%nat in Ed.
    set (z := as_signed 8 _) in *. clearbody z. rewrite Ed. reflexivity.
  - intros [Ha (x & rest & H & E)]. destruct H as [ac y wc id Hm Hw Fi Li]. cbn [sa_anycast] in Ha. subst ac. inversion Hm; subst y. rewrite E.
    replace (take 3 ((([true; false] ++ [false] ++ int_bits 8 wc ++ bytes_bits id)) ++ rest)) with [true; false; false] by reflexivity. rewrite bool_decide_eq_true_2 by reflexivity.
    replace (drop 3 (([true; false] ++ [false] ++ int_bits 8 wc ++ bytes_bits id) ++ rest)) with ((int_bits 8 wc ++ bytes_bits id) ++ rest) by reflexivity.
    replace (drop 11 (([true; false] ++ [false] ++ int_bits 8 wc ++ bytes_bits id) ++ rest)) with (drop 8 ((int_bits 8 wc ++ bytes_bits id) ++ rest)) by reflexivity.
    rewrite <- app_assoc. rewrite take_app_alt, drop_app_alt by (rewrite length_int_bits; reflexivity).
    rewrite take_app_alt by (rewrite length_bytes_bits, Li; reflexivity). rewrite pack_bytes_bits by exact Fi.
    rewrite <- (as_unsigned_bits 8), bval_nbits_small by (apply as_unsigned_lt). rewrite as_signed_unsigned; [reflexivity|reflexivity|exact Hw].
Qed.
Print Assumptions C38_key_load.
Example C38_key_case : std_load_key (pack ([true; false; false] ++ int_bits 8 (-1) ++ bytes_bits id7) ++ replicate 94 0) = Some (StdAddr None (-1) id7).
Proof. vm_compute. reflexivity. Qed.

(** ** As text *)
(** The texts that are accepted, and what they mean: a signed decimal number that fits 8 bits,
    a colon, 64 hexadecimal digits. *)
Theorem C38_text_parse s a : parse_std s = AOk a <->
  exists p q wc id, s = p ++ 58 :: q /\ int_text wc p /\ in_int 8 wc /\ spells q (bytes_bits id)
    /\ Forall byte_ok id /\ length id = 32%nat /\ a = StdAddr None wc id.
Proof. apply parse_std_iff. Qed.
Print Assumptions C38_text_parse.
Theorem C38_text wc id : in_int 8 wc -> Forall byte_ok id -> length id = 32%nat ->
  exists s, show_std (StdAddr None wc id) = Ok s /\ parse_std s = AOk (StdAddr None wc id).
Proof.
  intros Hw F L. eexists. split; [reflexivity|]. apply C38_text_parse. cbn [sa_wc sa_addr]. exists (show_int wc), (hex_encode HEX_LOWER id), wc, id.
  split_and!; [reflexivity|apply show_int_text|apply Hw| |exact F|exact L|reflexivity].
  apply spells_nibs. apply (hex_encode_ok false id F).
Qed.
Print Assumptions C38_text.
Example C38_text_case : exists s, show_std (StdAddr None (-1) id7) = Ok s /\ length s = 67%nat.
Proof. eexists. split; vm_compute; reflexivity. Qed.
(** The text of an address with an anycast prefix is never accepted. *)
Theorem C38_text_anycast_refuted : exists a x s, std_tlb a x /\ show_std a = Ok s /\ parse_std s = AErr AInvalidAccountId.
Proof.
  eexists (StdAddr (Some (Anycast 8 [0x12])) 0 (replicate 32 0)), _, _. split; [|split; vm_compute; reflexivity].
  apply (addr_std _ (true :: nbits 5 8 ++ byte_bits 0x12)); [|unfold in_int; lia|apply Forall_replicate; reflexivity|reflexivity].
  constructor. apply (anycast_info (byte_bits 0x12)). unfold count. cbn. lia.
Qed.
Print Assumptions C38_text_anycast_refuted.
(** External addresses. *)
Theorem C38_ext_text ad : count ad < 512 ->
  exists s, show_ext (ExtAddr (count ad) (pack ad)) = Ok s /\ parse_ext s = AOk (ExtAddr (count ad) (pack ad)).
Proof.
  intros H. unfold count in *. assert (Lp : (length ad <= 8 * length (pack ad))%nat).
  { rewrite length_pack. pose proof (Nat.div_mod (length ad + 7) 8 ltac:(lia)). pose proof (Nat.mod_upper_bound (length ad + 7) 8 ltac:(lia)). lia. }
  assert (Lb : N.of_nat (length (pack ad)) < 8192).
  { rewrite length_pack. pose proof (Nat.div_mod (length ad + 7) 8 ltac:(lia)). lia. }
  destruct (C44_format false (pack ad) (length ad) (pack_ok ad) Lb Lp) as (t & Et & _ & _).
  exists (58 :: t). split; [unfold show_ext; cbn [ea_data ea_len]; rewrite Et; reflexivity|].
  pose proof (C44_round_trip false (pack ad) (length ad) t (pack_ok ad) Lp ltac:(lia) Lb Et) as R.
  rewrite bytes_bits_pack, take_app in R. unfold parse_ext. change (58 =? CCOLON) with true. cbn [negb]. rewrite R. unfold ext_new.
  assert (sk_valid Uint9 (N.of_nat (length ad)) = true) as ->; [|reflexivity]. apply N.leb_le. change (sk_max Uint9) with 511. lia.
Qed.
Print Assumptions C38_ext_text.
Theorem C38_ext_text_parse s len data : parse_ext s = AOk (ExtAddr len data) <->
  exists t bits, s = 58 :: t /\ (length t <= 256)%nat /\ denotes t bits /\ len = count bits /\ data = pack bits /\ len < 512.
Proof.
  unfold parse_ext. split.
  - destruct s as [|c s]; [discriminate|]. destruct (N.eqb_spec c CCOLON) as [->|]; [|discriminate]. cbn [negb].
    destruct (from_hex_str s) as [[d n]|e] eqn:E; [|discriminate]. unfold ext_new. destruct (sk_valid Uint9 n) eqn:V; [|discriminate]. intros [= <- <-].
    apply C44_parse in E. destruct E as (L & bits & D & -> & ->). apply N.leb_le in V. change (sk_max Uint9) with 511 in V.
    exists s, bits. split_and!; try reflexivity; try assumption. lia.
  - intros (t & bits & -> & L & D & -> & -> & Hl). change (58 =? CCOLON) with true. cbn [negb].
    rewrite (proj2 (C44_parse t (pack bits) (N.of_nat (length bits)))) by (split; [exact L|exists bits; auto]). unfold ext_new, count in *.
    assert (sk_valid Uint9 (N.of_nat (length bits)) = true) as ->; [|reflexivity]. apply N.leb_le. change (sk_max Uint9) with 511. lia.
Qed.
Print Assumptions C38_ext_text_parse.

(** ** Base64 *)
(** The 36 bytes of the base64 form. *)
Definition packet (tag : N) (wc : Z) (id : list N) : list N :=
  let m := tag :: Z.to_N (wc mod 256) :: id in m ++ [crc16_xmodem m / 256; crc16_xmodem m mod 256].
Lemma crc_lt m : crc16_xmodem m < 65536.
Proof. change 65536 with (2 ^ 16). apply run_lt. lia. Qed.
Lemma crc_bytes m : w8 (N.shiftr (crc16_xmodem m) 8) = crc16_xmodem m / 256 /\ w8 (N.land (crc16_xmodem m) 255) = crc16_xmodem m mod 256
  /\ N.shiftr (crc16_xmodem m) 8 = crc16_xmodem m / 256 /\ N.land (crc16_xmodem m) 255 = crc16_xmodem m mod 256 /\ crc16_xmodem m / 256 < 256 /\ crc16_xmodem m mod 256 < 256.
Proof.
  pose proof (crc_lt m) as L. set (c := crc16_xmodem m) in *. clearbody c.
  assert (D : c / 256 < 256) by (apply N.div_lt_upper_bound; lia). assert (Mo : c mod 256 < 256) by (apply N.mod_lt; lia).
  assert (E1 : N.shiftr c 8 = c / 256) by apply N.shiftr_div_pow2. assert (E2 : N.land c 255 = c mod 256) by (change 255 with (N.ones 8); apply N.land_ones).
  rewrite E1, E2. unfold w8. rewrite !N.mod_small by assumption. auto 10.
Qed.
Lemma tag_ok f : byte_ok (tag_byte f) /\ N.testbit (tag_byte f) 7 = f_testnet f /\ N.testbit (tag_byte f) 6 = negb (f_bounceable f).
Proof. destruct f as [[] u []]; vm_compute; auto. Qed.
Lemma packet_ok tag wc id : byte_ok tag -> Forall byte_ok id -> length id = 32%nat -> Forall byte_ok (packet tag wc id) /\ length (packet tag wc id) = 36%nat.
Proof.
  intros Ht F L. unfold packet. cbn zeta. destruct (crc_bytes (tag :: Z.to_N (wc mod 256) :: id)) as (_ & _ & _ & _ & B1 & B2). split.
  - cbn [app]. constructor; [exact Ht|]. constructor; [pose proof (Z.mod_pos_bound wc 256 ltac:(lia)); unfold byte_ok; lia|]. apply Forall_app. split; [exact F|]. repeat constructor; assumption.
  - cbn [app length]. rewrite app_length, L. reflexivity.
Qed.
Lemma bit_test b i : (negb (N.land b (2 ^ i) =? 0)) = N.testbit b i.
Proof.
  destruct (N.testbit b i) eqn:E.
  - destruct (N.eqb_spec (N.land b (2 ^ i)) 0) as [Z|Z]; [|reflexivity]. apply (f_equal (fun x => N.testbit x i)) in Z. rewrite N.land_spec, E, N.pow2_bits_true, N.bits_0 in Z. discriminate.
  - assert (N.land b (2 ^ i) = 0) as ->; [|reflexivity]. apply N.bits_inj_0. intros j. rewrite N.land_spec. destruct (N.eq_dec i j) as [<-|H]; [rewrite E; reflexivity|]. rewrite N.pow2_bits_false by exact H. apply andb_false_r.
Qed.

(** The 48-character texts that are accepted: base64 of 36 bytes - a tag, the workchain, the
    account and the CRC-16/XMODEM checksum of what precedes it. *)
Theorem C38_base64_parse s fmt a fl : length s = 48%nat -> allow_base64 fmt || allow_base64_url fmt = true ->
  parse_std_ext s fmt = Ok (AOk (a, fl)) <->
  exists tag wc id, byte_ok tag /\ in_int 8 wc /\ Forall byte_ok id /\ length id = 32%nat
    /\ b64_text (special s) (packet tag wc id) s
    /\ a = StdAddr None wc id /\ fl = Flags (N.testbit tag 7) (special s) (negb (N.testbit tag 6)).
Proof.
  intros L HF. unfold parse_std_ext. rewrite L. change (N.of_nat 48) with 48. change (48 =? 0) with false. change (66 <=? 48) with false. cbn [andb]. change (48 =? 48) with true. rewrite HF. cbn [andb].
  fold (special s). split.
  - destruct (b64_decode (special s) s) as [buf|] eqn:E; [|discriminate]. apply b64_decode_text in E. destruct E as [Fb T].
    destruct (Nat.eqb_spec (length buf) 36) as [Lb|]; [|discriminate]. cbn [negb].
    destruct buf as [|b0 [|b1 buf]]; try (cbn in Lb; lia). cbn [length] in Lb.
    assert (Eb : exists id c1 c2, buf = id ++ [c1; c2] /\ length id = 32%nat).
    { rewrite <- (take_drop 32 buf). exists (take 32 buf). assert (Ld : length (drop 32 buf) = 2%nat) by (rewrite drop_length; lia).
      destruct (drop 32 buf) as [|c1 [|c2 [|]]]; try discriminate. exists c1, c2. split; [reflexivity|]. rewrite take_length. lia. }
    destruct Eb as (id & c1 & c2 & -> & Li). change (b0 :: b1 :: id ++ [c1; c2]) with ((b0 :: b1 :: id) ++ [c1; c2]) in *.
    rewrite take_app_alt by (cbn; lia). inversion_clear Fb as [|? ? B0 Fb1]. inversion_clear Fb1 as [|? ? B1 Fb2]. apply Forall_app in Fb2. destruct Fb2 as [Fid Fc].
    inversion_clear Fc as [|? ? C1 Fc']. inversion_clear Fc' as [|? ? C2 _].
    rewrite crc_16_ok by (repeat constructor; assumption). cbn [rbind].
    assert (L34 : ((b0 :: b1 :: id) ++ [c1; c2]) !! 34%nat = Some c1) by (rewrite lookup_app_r by (cbn; lia); replace (34 - length (b0 :: b1 :: id))%nat with 0%nat by (cbn; lia); reflexivity).
    assert (L35 : ((b0 :: b1 :: id) ++ [c1; c2]) !! 35%nat = Some c2) by (rewrite lookup_app_r by (cbn; lia); replace (35 - length (b0 :: b1 :: id))%nat with 1%nat by (cbn; lia); reflexivity).
    rewrite L34, L35. cbn [of_opt rbind]. destruct (crc_bytes (b0 :: b1 :: id)) as (_ & _ & X1 & X2 & _). rewrite X1, X2.
    destruct (N.eqb_spec c1 (crc16_xmodem (b0 :: b1 :: id) / 256)) as [->|]; [|discriminate]. destruct (N.eqb_spec c2 (crc16_xmodem (b0 :: b1 :: id) mod 256)) as [->|]; [|discriminate].
    cbn [negb orb app lookup list_lookup of_opt rbind]. intros [= <- <-].
    assert (LU : load_uint 8 (nbits 8 b1) = Ok (b1, [])) by (apply load_uint_iff'; split; [exact B1|rewrite app_nil_r; reflexivity]).
    destruct (load_int_inv 8 _ _ _ ltac:(lia) LU) as [Hz Eb]. change (N.of_nat 8) with 8 in *. rewrite app_nil_r in Eb.
    assert (E1 : Z.to_N (as_signed 8 b1 mod 256) = b1).
    { unfold int_bits in Eb. apply nbits_inj in Eb; [symmetry; exact Eb|exact B1|]. pose proof (Z.mod_pos_bound (as_signed 8 b1) (2 ^ Z.of_nat 8) ltac:(reflexivity)) as B. change (2 ^ Z.of_nat 8)%Z with 256%Z in *. change (2 ^ N.of_nat 8) with 256. lia. }
    exists b0, (as_signed 8 b1), id. split_and!; try assumption.
    + unfold packet. cbn zeta. rewrite E1. exact T.
    + f_equal. rewrite <- Li at 1. exact (take_app id _).
    + f_equal; [apply (bit_test b0 7)|]. rewrite <- (bit_test b0 6), negb_involutive. reflexivity.
  - intros (tag & wc & id & Ht & Hw & F & Li & T & -> & ->). destruct (packet_ok tag wc id Ht F Li) as [Fp Lp].
    rewrite (b64_text_decode _ _ _ Fp T), Lp. cbn [Nat.eqb negb].
    assert (Ew : byte_ok (Z.to_N (wc mod 256))) by (pose proof (Z.mod_pos_bound wc 256 ltac:(lia)); unfold byte_ok; lia).
    unfold packet. cbn zeta. set (m := tag :: Z.to_N (wc mod 256) :: id). assert (Lm : length m = 34%nat) by (unfold m; cbn [length]; lia).
    rewrite take_app_alt by (symmetry; exact Lm). rewrite crc_16_ok by (unfold m; repeat constructor; assumption). cbn [rbind].
    rewrite !lookup_app_r by lia. rewrite Lm. cbn [Nat.sub lookup list_lookup of_opt rbind]. destruct (crc_bytes m) as (_ & _ & X1 & X2 & _). rewrite X1, X2, !N.eqb_refl. cbn [negb orb].
    set (cs := [crc16_xmodem m / 256; crc16_xmodem m mod 256]).
    assert (Et : take 32 (drop 2 (m ++ cs)) = id) by (rewrite <- Li at 1; exact (take_app id cs)).
    rewrite Et. assert (E0 : (m ++ cs) !! 0%nat = Some tag) by reflexivity. assert (E1 : (m ++ cs) !! 1%nat = Some (Z.to_N (wc mod 256))) by reflexivity.
    rewrite E0, E1. cbn [of_opt rbind].
    pose proof (bit_test tag 6) as T6. change (2 ^ 6) with 64 in T6. rewrite <- T6, negb_involutive. rewrite <- (bit_test tag 7).
    pose proof (as_signed_unsigned 8 wc ltac:(lia) Hw) as S. unfold as_unsigned in S. change (2 ^ Z.of_N 8)%Z with 256%Z in S. rewrite S. reflexivity.
Qed.
Print Assumptions C38_base64_parse.

Lemma b64_encode_text url bs : Forall byte_ok bs -> (length bs mod 3 = 0)%nat -> b64_text url bs (b64_encode url bs).
Proof. intros F L. apply b64_decode_text. apply b64_round; assumption. Qed.
Lemma text_url url bs s : b64_text url bs s -> (special s = true -> url = true) /\ (special s = false -> b64_text false bs s).
Proof.
  intros (vals & F & E). split.
  - intros S. destruct url; [reflexivity|exfalso]. unfold special in S. apply existsb_exists in S. destruct S as (c & I & S).
    apply elem_of_list_In in I. apply elem_of_list_lookup in I. destruct I as (i & I). destruct (Forall2_lookup_r _ _ _ _ _ F I) as (v & _ & A).
    apply alphabet_val in A. apply b64_char_val in A. destruct A as [Hv A].
    assert (G : forallb (fun v => negb ((b64_char false v =? 95) || (b64_char false v =? 45))) (map N.of_nat (seq 0 64)) = true) by (vm_compute; reflexivity).
    assert (K : negb ((b64_char false v =? 95) || (b64_char false v =? 45)) = true).
    { apply (range_in (fun v => negb ((b64_char false v =? 95) || (b64_char false v =? 45)) = true) _ 64 G); [auto|exact Hv]. }
    rewrite A, S in K. discriminate.
  - intros S. exists vals. split; [|exact E]. clear E. revert S. induction F as [|v c vals s A F IH]; intros S; [constructor|].
    unfold special in S. cbn [existsb] in S. apply orb_false_iff in S. destruct S as [S1 S2]. constructor; [|apply IH, S2].
    destruct url; [|exact A]. apply alphabet_val in A. apply alphabet_val. unfold b64_val in *. apply orb_false_iff in S1. destruct S1 as [S3 S4]. rewrite S4, S3 in A.
    destruct (_ && _); [exact A|]. destruct (_ && _); [exact A|]. destruct (_ && _); [exact A|]. discriminate.
Qed.
(** The printed form, in either alphabet and with any flags, is read back as the same address
    with the same flags; only the alphabet is not always recognised, since it is told from the
    characters '-' and '_', which need not occur. *)
Theorem C38_base64 wc id f fmt : in_int 8 wc -> Forall byte_ok id -> length id = 32%nat -> allow_base64 fmt || allow_base64_url fmt = true ->
  exists s, show_base64 (StdAddr None wc id) f = Ok s /\ length s = 48%nat
    /\ parse_std_ext s fmt = Ok (AOk (StdAddr None wc id, Flags (f_testnet f) (special s) (f_bounceable f)))
    /\ (special s = true -> f_url f = true).
Proof.
  intros Hw F L HF. destruct (tag_ok f) as (Ht & T7 & T6). destruct (packet_ok (tag_byte f) wc id Ht F L) as [Fp Lp].
  assert (Ew : byte_ok (Z.to_N (wc mod 256))) by (pose proof (Z.mod_pos_bound wc 256 ltac:(lia)); unfold byte_ok; lia).
  assert (T : b64_text (f_url f) (packet (tag_byte f) wc id) (b64_encode (f_url f) (packet (tag_byte f) wc id))) by (apply b64_encode_text; [exact Fp|rewrite Lp; reflexivity]).
  assert (L48 : length (b64_encode (f_url f) (packet (tag_byte f) wc id)) = 48%nat) by (rewrite b64_length by (rewrite Lp; reflexivity); rewrite Lp; reflexivity).
  exists (b64_encode (f_url f) (packet (tag_byte f) wc id)).
  destruct (text_url _ _ _ T) as [U1 U2].
  split; [|split; [exact L48|split; [|exact U1]]].
  - unfold show_base64, addr_payload. cbn [sa_wc sa_addr]. unfold as_unsigned. change (2 ^ Z.of_N 8)%Z with 256%Z. rewrite crc_16_ok by (repeat constructor; assumption). cbn [rbind].
    destruct (crc_bytes (tag_byte f :: Z.to_N (wc mod 256) :: id)) as (X1 & X2 & _). rewrite X1, X2. reflexivity.
  - apply C38_base64_parse; [exact L48|exact HF|]. exists (tag_byte f), wc, id. split_and!; try assumption.
    + destruct (special (b64_encode (f_url f) (packet (tag_byte f) wc id))) eqn:S; [rewrite U1 in T by reflexivity; rewrite U1 in * by reflexivity; exact T|apply U2; reflexivity].
    + reflexivity.
    + rewrite T7, T6, negb_involutive. reflexivity.
Qed.
Print Assumptions C38_base64.

(** A wrong checksum is rejected. *)
Theorem C38_base64_checksum s fmt m c1 c2 : length s = 48%nat -> allow_base64 fmt || allow_base64_url fmt = true ->
  Forall byte_ok (m ++ [c1; c2]) -> length m = 34%nat -> b64_text (special s) (m ++ [c1; c2]) s ->
  c1 * 256 + c2 <> crc16_xmodem m -> parse_std_ext s fmt = Ok (AErr ABadFormat).
Proof.
  intros L HF F Lm T Hc. unfold parse_std_ext. rewrite L. change (N.of_nat 48) with 48. change (48 =? 0) with false. change (66 <=? 48) with false. cbn [andb]. change (48 =? 48) with true. rewrite HF. cbn [andb].
  fold (special s). rewrite (b64_text_decode _ _ _ F T). rewrite app_length, Lm. cbn [length Nat.add Nat.eqb negb].
  apply Forall_app in F. destruct F as [Fm _]. rewrite take_app_alt by (symmetry; exact Lm). rewrite crc_16_ok by exact Fm. cbn [rbind].
  rewrite !lookup_app_r by lia. rewrite Lm. cbn [Nat.sub lookup list_lookup of_opt rbind]. destruct (crc_bytes m) as (_ & _ & X1 & X2 & _). rewrite X1, X2.
  destruct (N.eqb_spec c1 (crc16_xmodem m / 256)) as [->|]; [|reflexivity]. destruct (N.eqb_spec c2 (crc16_xmodem m mod 256)) as [->|]; [|reflexivity].
  exfalso. apply Hc. pose proof (N.div_mod' (crc16_xmodem m) 256). lia.
Qed.
Print Assumptions C38_base64_checksum.

(** Two accepted texts that differ in one or two adjacent characters denote the same address
    with the same flags: a typo is never taken for another address. *)
Lemma packet_rem tag wc id : poly_rem (bytes_bits (packet tag wc id)) = 0.
Proof.
  unfold packet. cbn zeta. set (m := tag :: Z.to_N (wc mod 256) :: id). destruct (crc_bytes m) as (_ & _ & _ & _ & B1 & B2). pose proof (crc_lt m) as Lc.
  rewrite bytes_bits_app. set (cb := bytes_bits [crc16_xmodem m / 256; crc16_xmodem m mod 256]).
  assert (Lcb : length cb = 16%nat) by reflexivity.
  assert (Vc : bval cb = crc16_xmodem m).
  { unfold cb. rewrite <- from_be_bval by (repeat constructor; assumption). unfold from_be. cbn [fold_left]. pose proof (N.div_mod' (crc16_xmodem m) 256). lia. }
  change (poly_rem (bytes_bits m ++ cb)) with (run 0 (bytes_bits m ++ cb)).
  assert (X : bytes_bits m ++ cb = xorl (bytes_bits m ++ zeros 16) (zeros (length (bytes_bits m)) ++ cb)).
  { rewrite xorl_app by (rewrite length_zeros; reflexivity). f_equal; [symmetry; apply xorl_zeros_r|]. rewrite <- Lcb. symmetry. apply xorl_zeros_l. }
  rewrite X. change 0 with (N.lxor 0 0) at 1. rewrite run_linear; [|rewrite !app_length, !length_zeros, Lcb; reflexivity|lia|lia].
  change (run 0 (bytes_bits m ++ zeros 16)) with (crc16_xmodem m). rewrite run_app, run_zeros, run_bval by lia. rewrite Vc. apply N.lxor_nilpotent.
Qed.
Lemma vals_same u1 u2 s vals1 vals2 : Forall2 (fun v c => alphabet u1 !! N.to_nat v = Some c) vals1 s -> Forall2 (fun v c => alphabet u2 !! N.to_nat v = Some c) vals2 s -> vals1 = vals2.
Proof.
  intros F1. revert vals2. induction F1 as [|v c vals s A F IH]; intros vals2 F2; inversion F2 as [|v2 ? vals2' ? A2 F2']; subst; [reflexivity|]. f_equal; [|apply IH, F2'].
  apply alphabet_val in A, A2. revert A A2. unfold b64_val. destruct (_ && _); [congruence|]. destruct (_ && _); [congruence|]. destruct (_ && _); [congruence|].
  destruct u1, u2; repeat match goal with |- context [c =? ?k] => destruct (N.eqb_spec c k) end; congruence.
Qed.
Theorem C38_base64_typo s t fmt fmt' a f a' f' : length s = 48%nat -> near 2 s t ->
  parse_std_ext s fmt = Ok (AOk (a, f)) -> parse_std_ext t fmt' = Ok (AOk (a', f')) ->
  a = a' /\ f_testnet f = f_testnet f' /\ f_bounceable f = f_bounceable f'.
Proof.
  intros L (p & x & y & q & -> & -> & Lxy & L2) P1 P2.
  assert (L' : length (p ++ y ++ q) = 48%nat) by (rewrite !app_length in *; lia).
  assert (AF : forall s fmt r, length s = 48%nat -> parse_std_ext s fmt = Ok (AOk r) -> allow_base64 fmt || allow_base64_url fmt = true).
  { clear. intros s fmt r L. unfold parse_std_ext. rewrite L. change (N.of_nat 48) with 48. change (48 =? 0) with false. change (66 <=? 48) with false. cbn [andb]. change (48 =? 48) with true. cbn [andb].
    destruct (_ || _); [reflexivity|discriminate]. }
  apply (C38_base64_parse _ _ _ _ L (AF _ _ _ L P1)) in P1. apply (C38_base64_parse _ _ _ _ L' (AF _ _ _ L' P2)) in P2.
  destruct P1 as (tag & wc & id & Ht & Hw & F & Li & (vals & FV & E) & -> & ->). destruct P2 as (tag' & wc' & id' & Ht' & Hw' & F' & Li' & (vals' & FV' & E') & -> & ->).
  cbn [f_testnet f_bounceable].
  apply Forall2_app_inv_r in FV. destruct FV as (vp & vxq & Fp & Fxq & ->). apply Forall2_app_inv_r in Fxq. destruct Fxq as (vx & vq & Fx & Fq & ->).
  apply Forall2_app_inv_r in FV'. destruct FV' as (vp' & vxq' & Fp' & Fxq' & ->). apply Forall2_app_inv_r in Fxq'. destruct Fxq' as (vy & vq' & Fy & Fq' & ->).
  pose proof (vals_same _ _ _ _ _ Fp Fp') as <-. pose proof (vals_same _ _ _ _ _ Fq Fq') as <-.
  assert (SB : forall v : list N, length (concat (map (nbits 6) v)) = (6 * length v)%nat).
  { intros v. induction v as [|z v IH]; [reflexivity|]. cbn [map concat]. rewrite app_length, length_nbits, IH. cbn [length]. lia. }
  rewrite !map_app, !concat_app in E, E'. set (X := concat (map (nbits 6) vx)) in *. set (Y := concat (map (nbits 6) vy)) in *.
  apply Forall2_length in Fx, Fy.
  assert (LX : length X = length Y) by (unfold X, Y; rewrite !SB; lia). assert (LX2 : (length X <= 12)%nat) by (unfold X; rewrite SB; lia).
  destruct (packet_ok tag wc id Ht F Li) as [Fk _]. destruct (packet_ok tag' wc' id' Ht' F' Li') as [Fk' _].
  assert (XY : X = Y).
  { destruct (decide (X = Y)) as [|N]; [assumption|exfalso]. eapply (burst_detected (bytes_bits (packet tag wc id)) (bytes_bits (packet tag' wc' id'))).
    - exists (concat (map (nbits 6) vp)), X, Y, (concat (map (nbits 6) vq)). split_and!; [exact E|exact E'|exact LX|lia|exact N].
    - change (run 0 (bytes_bits (packet tag wc id) ++ zeros 16) = run 0 (bytes_bits (packet tag' wc' id') ++ zeros 16)). rewrite !run_app.
      change (run 0 (bytes_bits (packet tag wc id))) with (poly_rem (bytes_bits (packet tag wc id))). change (run 0 (bytes_bits (packet tag' wc' id'))) with (poly_rem (bytes_bits (packet tag' wc' id'))).
      rewrite !packet_rem. reflexivity. }
  rewrite XY, <- E' in E. apply bytes_bits_inj in E; [|assumption..]. unfold packet in E. cbn zeta in E. cbn [app] in E. injection E as E1 E2 E3. subst tag'.
  apply app_inj_1 in E3; [|congruence]. destruct E3 as [-> _].
  assert (wc = wc').
  { assert (Em : (wc mod 256 = wc' mod 256)%Z) by (pose proof (Z.mod_pos_bound wc 256 ltac:(lia)); pose proof (Z.mod_pos_bound wc' 256 ltac:(lia)); lia).
    unfold in_int in *. change (2 ^ (8 - 1))%Z with 128%Z in *. pose proof (Z.div_mod wc 256 ltac:(lia)). pose proof (Z.div_mod wc' 256 ltac:(lia)). lia. }
  subst wc'. auto.
Qed.
Print Assumptions C38_base64_typo.
Example C38_base64_case : exists s, show_base64 (StdAddr None (-1) id7) (Flags false true true) = Ok s
  /\ parse_std_ext s (Format false false true) = Ok (AOk (StdAddr None (-1) id7, Flags false (special s) true)).
Proof. eexists. split; vm_compute; reflexivity. Qed.
(** The options that choose between the two alphabets are not told apart: the URL-safe form is
    accepted when only the standard one is allowed. *)
Theorem C38_base64_alphabet_refuted : exists s a f, parse_std_ext s (Format false true false) = Ok (AOk (a, f)) /\ f_url f = true.
Proof.
  exists (b64_encode true (packet 0x11 (-1) (replicate 32 0xff))). eexists _, _. split; vm_compute; reflexivity.
Qed.
Print Assumptions C38_base64_alphabet_refuted.
