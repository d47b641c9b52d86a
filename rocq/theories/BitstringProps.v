(** * C44: the hexadecimal notation of bit strings *)
From Verif Require Import Err BitsProofs TextModel TextSpec TextProofs.
Local Open Scope N_scope.

(** Parsing is decided by the notation: a text of at most 256 characters is accepted iff it
    denotes some bit string, and then exactly that bit string is returned, padded with
    zeros to whole bytes. *)
Theorem C44_parse s bytes n :
  from_hex_str s = Ok (bytes, n) <->
  (length s <= 256)%nat /\ exists bits, denotes s bits /\ bytes = pack bits /\ n = N.of_nat (length bits).
Proof.
  split.
  - intros H. assert (Hl : (length s <= 256)%nat).
    { unfold from_hex_str in H. destruct (Nat.ltb_spec 256 (length s)) as [L|L]; [|exact L].
      rewrite orb_true_r in H. discriminate. }
    split; [exact Hl|]. destruct (parse_spec s Hl) as [(b & Hb & E)|[_ E]]; rewrite E in H; [|discriminate].
    injection H as <- <-. exists b. split_and!; [exact Hb|reflexivity|reflexivity].
  - intros (Hl & b & Hb & -> & ->). destruct (parse_spec s Hl) as [(b' & Hb' & E)|[N E]]; [|exfalso; exact (N b Hb)].
    rewrite (denotes_det s b b' Hb Hb'). exact E.
Qed.
Print Assumptions C44_parse.
(** Every other text is rejected with an error, never a panic. *)
Theorem C44_reject s : (forall bits, ~ denotes s bits) \/ (256 < length s)%nat -> from_hex_str s = Err InvalidData.
Proof.
  intros H. destruct (Nat.ltb_spec 256 (length s)) as [L|L].
  - unfold from_hex_str. assert ((256 <? length s)%nat = true) as -> by (apply Nat.ltb_lt; exact L). rewrite orb_true_r. reflexivity.
  - destruct (parse_spec s L) as [(b & Hb & E)|[_ E]]; [|exact E]. destruct H as [H|H]; [exfalso; exact (H b Hb)|lia].
Qed.
Print Assumptions C44_reject.
(** "xyz" is not a bit string; "a" with a blank in front neither. *)
Example C44_reject_case : from_hex_str [120; 121; 122] = Err InvalidData /\ from_hex_str [32; 97] = Err InvalidData.
Proof. split; vm_compute; reflexivity. Qed.

(** Formatting the first [n] bits of some bytes (whatever the bits after them) gives digits
    of one case that denote those bits. *)
Theorem C44_format upper bytes n : Forall byte_ok bytes -> N.of_nat (length bytes) < 8192 -> (n <= 8 * length bytes)%nat ->
  exists text, fmt_hex upper bytes (N.of_nat n) = Ok text /\ denotes text (take n (bytes_bits bytes))
    /\ (forall c, c ∈ text -> c = 95 \/ c ∈ (if upper then HEX_UPPER else HEX_LOWER)).
Proof.
  intros H1 H2 H3. destruct (fmt_ok upper bytes n H1 H2 H3) as (t & E & D & _ & C). exists t. split_and!; assumption.
Qed.
Print Assumptions C44_format.

(** Print and parse: every bit string of at most 1020 bits survives. *)
Theorem C44_round_trip upper bytes n text : Forall byte_ok bytes -> (n <= 8 * length bytes)%nat -> (n <= 1020)%nat ->
  N.of_nat (length bytes) < 8192 ->
  fmt_hex upper bytes (N.of_nat n) = Ok text ->
  from_hex_str text = Ok (pack (take n (bytes_bits bytes)), N.of_nat n).
Proof.
  intros H1 H2 H3 H4 E. destruct (fmt_ok upper bytes n H1 H4 H2) as (t & E' & D & L & _).
  rewrite E in E'. injection E' as <-. apply C44_parse. split.
  - rewrite L. unfold frame_len. assert ((n + 3) / 4 < 256)%nat by (apply Nat.div_lt_upper_bound; lia).
    destruct (n mod 4 =? 0)%nat; lia.
  - exists (take n (bytes_bits bytes)). split_and!; [exact D|reflexivity|]. rewrite take_length, length_bytes_bits. lia.
Qed.
Print Assumptions C44_round_trip.
(** 5 bits 10100 of the byte 0xA7 are printed as "A4_" and read back as 0xA0, 5 bits. *)
Example C44_round_trip_case : fmt_hex true [0xA7] 5 = Ok [65; 52; 95] /\ from_hex_str [65; 52; 95] = Ok ([0xA0], 5).
Proof. split; vm_compute; reflexivity. Qed.

(** The text of a longer bit string that is not made of whole digits has 257 characters and
    is not read back: the limit of 256 characters does not leave room for the underscore. *)
Theorem C44_long_refuted : exists bytes n text, Forall byte_ok bytes /\ (n <= 8 * length bytes)%nat /\ (n <= 1023)%nat
  /\ fmt_hex false bytes (N.of_nat n) = Ok text /\ from_hex_str text = Err InvalidData.
Proof.
  exists (replicate 128 0xAA), 1023%nat. eexists. split_and!; [|cbn; lia|lia|vm_compute; reflexivity|vm_compute; reflexivity].
  apply Forall_replicate. reflexivity.
Qed.
Print Assumptions C44_long_refuted.
