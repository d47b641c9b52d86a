(** * C47: the checksum of textual addresses is CRC-16/XMODEM *)
From Verif Require Import Err Bits BitsProofs Crc16Model Crc16Spec Crc16Proofs.
Local Open Scope N_scope.

(** The table-driven computation is the remainder of the polynomial division, and never
    leaves the table. *)
Theorem C47_crc16 data : Forall byte_ok data -> crc_16 data = Ok (crc16_xmodem data).
Proof. apply crc_16_ok. Qed.
Print Assumptions C47_crc16.
(** The check value of the CRC catalogue: "123456789" gives 0x31C3. *)
Example C47_crc16_case : crc_16 [49; 50; 51; 52; 53; 54; 55; 56; 57] = Ok 0x31C3.
Proof. vm_compute. reflexivity. Qed.

(** The checksum of the XOR of two strings is the XOR of the checksums. *)
Theorem C47_linear a b x y z : length a = length b -> Forall byte_ok a -> Forall byte_ok b ->
  crc_16 a = Ok x -> crc_16 b = Ok y -> crc_16 (zip_with N.lxor a b) = Ok z -> z = N.lxor x y.
Proof.
  intros Hl Ha Hb E1 E2 E3. rewrite crc_16_ok in E1, E2 by assumption.
  assert (Hx : Forall byte_ok (zip_with N.lxor a b)).
  { clear - Ha Hb. revert b Hb. induction Ha as [|u a' Hu Ha IH]; intros b Hb; [constructor|].
    destruct Hb as [|v b' Hv Hb]; [constructor|]. cbn. constructor; [|auto]. unfold byte_ok in *. apply (lxor_lt 8); assumption. }
  rewrite crc_16_ok in E3 by assumption. injection E1 as <-. injection E2 as <-. injection E3 as <-.
  unfold crc16_xmodem, poly_rem.
  assert (Hz : bytes_bits (zip_with N.lxor a b) = xorl (bytes_bits a) (bytes_bits b)).
  { clear Ha Hb Hx. revert b Hl. induction a as [|u a IH]; intros [|v b] Hl; try discriminate; [reflexivity|].
    cbn [zip_with]. rewrite !bytes_bits_cons, byte_bits_lxor, IH by (cbn in Hl; lia). rewrite xorl_app by (rewrite !length_byte_bits; reflexivity). reflexivity. }
  assert (Hlen : length (bytes_bits a) = length (bytes_bits b)) by (rewrite !length_bytes_bits; lia).
  rewrite Hz. transitivity (run 0 (xorl (bytes_bits a ++ zeros 16) (bytes_bits b ++ zeros 16))).
  { unfold run. rewrite xorl_app by exact Hlen. reflexivity. }
  change 0 with (N.lxor 0 0) at 1. rewrite run_linear; [reflexivity|rewrite !app_length; lia|reflexivity|reflexivity].
Qed.
Print Assumptions C47_linear.

(** Two byte strings of the same length that differ only inside of a window of 16 bits have
    different checksums. *)
Theorem C47_burst a b x y : Forall byte_ok a -> Forall byte_ok b -> burst 16 (bytes_bits a) (bytes_bits b) ->
  crc_16 a = Ok x -> crc_16 b = Ok y -> x <> y.
Proof.
  intros Ha Hb Hd E1 E2. rewrite crc_16_ok in E1, E2 by assumption. injection E1 as <-. injection E2 as <-.
  apply burst_detected. exact Hd.
Qed.
Print Assumptions C47_burst.
Example C47_burst_case : burst 16 (bytes_bits [1; 2; 3; 4]) (bytes_bits [1; 130; 252; 4]).
Proof. exists (byte_bits 1), (bytes_bits [2; 3]), (bytes_bits [130; 252]), (byte_bits 4). split_and!; try reflexivity; try (vm_compute; lia). intros H. apply (f_equal bval) in H. vm_compute in H. discriminate. Qed.
(** A single changed bit is the shortest window. *)
Theorem C47_single_bit a b p c s x y : Forall byte_ok a -> Forall byte_ok b ->
  bytes_bits a = p ++ [c] ++ s -> bytes_bits b = p ++ [negb c] ++ s -> crc_16 a = Ok x -> crc_16 b = Ok y -> x <> y.
Proof.
  intros Ha Hb Ea Eb. apply C47_burst; [assumption..|]. exists p, [c], [negb c], s. split_and!; [assumption|assumption|reflexivity|cbn; lia|destruct c; discriminate].
Qed.
Print Assumptions C47_single_bit.
