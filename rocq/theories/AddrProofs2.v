(** * Proofs about addresses as keys and as text. *)
From Verif Require Import Err BitsProofs WordProofs IntModel IntProofs CellModel TextModel TextSpec TextProofs TextProofs2 NumModel NumSpec Var248Proofs2 Crc16Model Crc16Spec Crc16Proofs AddrModel AddrSpec CodecProofs AddrProofs.
Local Open Scope N_scope.

(** ** Keys of dictionaries *)
Lemma std_store_key_ok wc id b : Forall byte_ok id -> length id = 32%nat ->
  std_store_key (StdAddr None wc id) b =
  if (MAX_BITS <? length b + 267)%nat then Err InvalidData else Ok (b ++ [true; false; false] ++ int_bits 8 wc ++ bytes_bits id).
Proof.
  intros F L. unfold std_store_key, has_capacity, BITS_WITHOUT_ANYCAST. cbn [sa_anycast sa_wc sa_addr orb].
  destruct (Nat.ltb_spec MAX_BITS (length b + 267)) as [C|C]; unfold MAX_BITS in C.
  { destruct (N.leb_spec (N.of_nat (length b) + (2 + 1 + 8 + 256)) 1023); [lia|reflexivity]. }
  destruct (N.leb_spec (N.of_nat (length b) + (2 + 1 + 8 + 256)) 1023); [|lia]. cbn [negb].
  transitivity (put ([true; false; false] ++ int_bits 8 wc ++ bytes_bits id) b).
  { apply (bind_put [true; false; false]). intros b1. unfold put_uint. change (N.to_nat 8) with 8%nat. rewrite <- (as_unsigned_bits 8). apply bind_put. reflexivity. }
  rewrite put_unfold, !app_length, length_int_bits, length_bytes_bits, L. cbn [length]. unfold MAX_BITS.
  destruct (Nat.ltb_spec 1023 (length b + (3 + (8 + 8 * 32)))); [lia|reflexivity].
Qed.
Lemma orb_frame (a b : list bool) n m : length a = n -> length b = m ->
  zip_with orb (zeros n ++ b) (a ++ zeros m) = a ++ b.
Proof.
  intros <- <-. rewrite zip_with_app by apply length_zeros. f_equal.
  - induction a as [|x a IH]; [reflexivity|]. cbn. f_equal. exact IH.
  - induction b as [|x b IH]; [reflexivity|]. cbn. rewrite orb_false_r. f_equal. exact IH.
Qed.
Lemma drop_nbits a b v : drop a (nbits (a + b) v) = nbits b v.
Proof. rewrite nbits_app, drop_app_alt by (rewrite length_nbits; reflexivity). reflexivity. Qed.
Lemma shift_in h v : h < 2 ^ 128 -> nbits 128 (N.lor (N.shiftr h 5) (shl 128 v 123)) = nbits 5 v ++ take 123 (nbits 128 h).
Proof.
  intros Hh. rewrite nbits_lor. change 5 with (N.of_nat 5) at 1. rewrite nbits_shiftr by (exact Hh || lia).
  unfold shl. change (2 ^ 128) with (2 ^ N.of_nat 128) at 1. rewrite nbits_mod by lia. change 123 with (N.of_nat 123) at 1. rewrite nbits_shiftl by lia.
  replace (drop 123 (nbits 128 v)) with (nbits 5 v) by (symmetry; exact (drop_nbits 123 5 v)). change (128 - 5)%nat with 123%nat.
  apply orb_frame; [apply length_nbits|]. rewrite take_length, length_nbits. reflexivity.
Qed.
Lemma wc_byte f s : s < 256 -> byte_bits (N.lor (shl 8 f 3) (N.shiftr s 5)) = nbits 5 f ++ take 3 (byte_bits s).
Proof.
  intros Hs. unfold byte_bits. rewrite nbits_lor. change 5 with (N.of_nat 5) at 1. rewrite nbits_shiftr by (exact Hs || lia).
  unfold shl. change (2 ^ 8) with (2 ^ N.of_nat 8) at 1. rewrite nbits_mod by lia. change 3 with (N.of_nat 3) at 1. rewrite nbits_shiftl by lia.
  replace (drop 3 (nbits 8 f)) with (nbits 5 f) by (symmetry; exact (drop_nbits 3 5 f)).
  assert (C : forall a b : list bool, zip_with orb a b = zip_with orb b a).
  { intros a. induction a as [|x a IH]; intros [|y b]; cbn; [reflexivity..|]. rewrite orb_comm. f_equal. apply IH. }
  rewrite C. apply orb_frame; [apply length_nbits|]. rewrite take_length, length_nbits. reflexivity.
Qed.
Lemma key_tag f : byte_ok f -> (N.land (N.lxor f 128) 224 =? 0) = true <-> take 3 (byte_bits f) = [true; false; false].
Proof.
  intros Hf. assert (G : forallb (fun f => Bool.eqb (N.land (N.lxor f 128) 224 =? 0) (bool_decide (take 3 (byte_bits f) = [true; false; false]))) (map N.of_nat (seq 0 256)) = true) by (vm_compute; reflexivity).
  apply (range_in (fun f => (N.land (N.lxor f 128) 224 =? 0) = true <-> take 3 (byte_bits f) = [true; false; false]) _ 256 G); [|exact Hf].
  intros y Hy. apply eqb_prop in Hy. rewrite Hy. apply bool_decide_eq_true.
Qed.
Lemma std_load_key_ok data : Forall byte_ok data -> (34 <= length data)%nat ->
  std_load_key data =
  if bool_decide (take 3 (bytes_bits data) = [true; false; false])
  then Some (StdAddr None (as_signed 8 (bval (take 8 (drop 3 (bytes_bits data))))) (pack (take 256 (drop 11 (bytes_bits data)))))
  else None.
Proof.
  intros F L. destruct data as [|f [|s data]]; cbn [length] in L; try lia.
  inversion_clear F as [|? ? Hf F1]. inversion_clear F1 as [|? ? Hs Fd]. unfold std_load_key.
  rewrite !bytes_bits_cons.
  replace (take 3 (byte_bits f ++ byte_bits s ++ bytes_bits data)) with (take 3 (byte_bits f)) by reflexivity.
  pose proof (key_tag f Hf) as T. destruct (N.land (N.lxor f 128) 224 =? 0); cbn [negb].
  2:{ rewrite bool_decide_eq_false_2; [reflexivity|]. intros E. apply T in E. discriminate. }
  rewrite bool_decide_eq_true_2 by (apply T; reflexivity).
  assert (Ew : take 8 (drop 3 (byte_bits f ++ byte_bits s ++ bytes_bits data)) = byte_bits (N.lor (shl 8 f 3) (N.shiftr s 5))).
  { rewrite wc_byte by exact Hs. unfold byte_bits. reflexivity. }
  assert (Wlt : N.lor (shl 8 f 3) (N.shiftr s 5) < 256).
  { apply (bits_lt _ 8). intros i Hi. rewrite N.lor_spec, (lt_bits (shl 8 f 3) 8 i), (lt_bits (N.shiftr s 5) 8 i); [reflexivity| | | |]; try exact Hi.
    - rewrite N.shiftr_div_pow2. apply N.div_lt_upper_bound; [discriminate|]. unfold byte_ok in Hs. change (2 ^ 5 * 2 ^ 8) with 8192. lia.
    - apply N.mod_lt. discriminate. }
  rewrite Ew. unfold byte_bits at 1. rewrite bval_nbits_small by exact Wlt. do 2 f_equal.
  set (H := take 16 data). set (R := take 16 (drop 16 data)).
  assert (FH : Forall byte_ok H) by (apply Forall_take, Fd). assert (FR : Forall byte_ok R) by (apply Forall_take, Forall_drop, Fd).
  assert (LH : length H = 16%nat) by (unfold H; rewrite take_length; lia).
  assert (LR : length R = 16%nat) by (unfold R; rewrite take_length, drop_length; lia).
  assert (BH : forall X, Forall byte_ok X -> length X = 16%nat -> from_be X < 2 ^ 128 /\ nbits 128 (from_be X) = bytes_bits X).
  { intros X FX LX. pose proof (from_be_lt X FX) as B. rewrite LX in B. split; [exact B|]. rewrite from_be_bval by exact FX. apply nbits_bval'. rewrite length_bytes_bits, LX. reflexivity. }
  destruct (BH H FH LH) as [H1 H2]. destruct (BH R FR LR) as [R1 R2].
  apply bytes_bits_inj; [apply Forall_app; split; apply to_be_ok|apply pack_ok|].
  rewrite bytes_bits_app, !bytes_bits_to_be. change (8 * 16)%nat with 128%nat. rewrite !shift_in by assumption. rewrite H2, R2.
  assert (Ed : bytes_bits data = bytes_bits H ++ bytes_bits R ++ bytes_bits (drop 16 (drop 16 data))).
  { rewrite <- !bytes_bits_app. f_equal. unfold H, R. rewrite !take_drop. reflexivity. }
  assert (E5 : nbits 5 (from_be H) = drop 123 (bytes_bits H)) by (rewrite <- H2; symmetry; apply (drop_nbits 123 5)).
  assert (LbH : length (bytes_bits H) = 128%nat) by (rewrite length_bytes_bits, LH; reflexivity).
  assert (LbR : length (bytes_bits R) = 128%nat) by (rewrite length_bytes_bits, LR; reflexivity).
  assert (Ex : take 256 (drop 11 (byte_bits f ++ byte_bits s ++ bytes_bits data)) = nbits 5 s ++ bytes_bits H ++ take 123 (bytes_bits R)).
  { replace (drop 11 (byte_bits f ++ byte_bits s ++ bytes_bits data)) with (nbits 5 s ++ bytes_bits data) by reflexivity. rewrite Ed.
    rewrite take_app_ge by (rewrite length_nbits; lia). rewrite length_nbits. f_equal. rewrite take_app_ge by lia. rewrite LbH. f_equal.
    change (256 - 5 - 128)%nat with 123%nat. apply take_app_le. lia. }
  rewrite Ex, bytes_bits_pack, length_pack. replace (8 * _ - _)%nat with 0%nat. 2:{ rewrite !app_length, take_length, length_nbits, LbH, LbR. reflexivity. }
  cbn [zeros replicate]. rewrite app_nil_r, E5. rewrite <- !app_assoc. f_equal. rewrite app_assoc, take_drop. reflexivity.
Qed.
