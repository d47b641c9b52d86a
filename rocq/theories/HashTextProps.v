(** * C76: hashes and bags of cells as text *)
From Verif Require Import Err BitsProofs CellModel TextModel TextSpec TextProofs TextProofs2 AddrSpec AddrProofs3 HashSpec HashModel FcellSpec Sha256 HashProps BocSpec BocModel BocProps Crc32c
  HashTextModel HashTextSpec HashTextProofs HashTextProofs2.
Local Open Scope N_scope.

(** A hash is printed as its 64 digits, and read back from them, from them after any two characters
    (such as "0x"), and from its base64; the serde forms come back as well. *)
Theorem C76_print h upper : Forall byte_ok h -> length h = 32%nat ->
  length (show_hash upper h) = 64%nat /\ spells (show_hash upper h) (bytes_bits h) /\ padded h (encode_base64 h) /\
  parse_hash (show_hash upper h) = Ok h /\ (forall x y, parse_hash (x :: y :: show_hash upper h) = Ok h) /\ parse_hash (encode_base64 h) = Ok h /\
  (forall readable, unserde_hash readable (serde_hash readable h) = Some h).
Proof.
  intros F L. assert (S : forall u, spells (show_hash u h) (bytes_bits h)).
  { intros u. apply (hex_decode_to_iff 32). apply (hex_encode_decode_to u 32 h F L). }
  pose proof (encode_base64_padded h F) as P.
  split; [apply (hash_length h _ L (S upper))|]. split; [apply S|]. split; [exact P|].
  split; [apply parse_hash_iff; split; [exact F|]; split; [exact L|apply text_digits, S]|].
  split; [intros x y; apply parse_hash_iff; split; [exact F|]; split; [exact L|apply text_prefixed, S]|].
  split; [apply parse_hash_iff; split; [exact F|]; split; [exact L|apply text_base64, P]|].
  intros [|]; cbn [unserde_hash serde_hash].
  - apply hex_decode_to_iff. auto.
  - rewrite L. reflexivity.
Qed.
Print Assumptions C76_print.

(** Exactly the texts of the specification are read, each as the hash that it means; a text means
    one hash. *)
Theorem C76_parse s h : parse_hash s = Ok h <-> Forall byte_ok h /\ length h = 32%nat /\ hash_text h s.
Proof. apply parse_hash_iff. Qed.
Print Assumptions C76_parse.
Theorem C76_one s h h' : Forall byte_ok h -> Forall byte_ok h' -> length h = 32%nat -> length h' = 32%nat -> hash_text h s -> hash_text h' s -> h = h'.
Proof.
  intros F F' L L' T T'. assert (E : parse_hash s = Ok h) by (apply C76_parse; auto). assert (E' : parse_hash s = Ok h') by (apply C76_parse; auto). congruence.
Qed.
Print Assumptions C76_one.
(** Every other text is an error, except that a text of 66 bytes with a character across its third
    byte panics; so no text of ASCII characters does. *)
Theorem C76_errors s : (parse_hash s = Err Panic <-> length s = 66%nat /\ exists c, s !! 2%nat = Some c /\ 128 <= c < 192) /\
  (Forall (fun c => c < 128) s -> parse_hash s <> Err Panic).
Proof.
  split; [apply parse_hash_panic|]. intros A H. apply parse_hash_panic in H. destruct H as (_ & c & E & Hc).
  pose proof (Forall_lookup_1 _ _ _ _ A E) as X. cbn in X. lia.
Qed.
Print Assumptions C76_errors.
(** Human-readable serde forms are exactly the 64 digits, the others exactly the 32 bytes. *)
Theorem C76_serde x h : (unserde_hash true x = Some h <-> Forall byte_ok h /\ length h = 32%nat /\ spells x (bytes_bits h)) /\
  (unserde_hash false x = Some h <-> x = h /\ length h = 32%nat).
Proof.
  split; [apply hex_decode_to_iff|]. cbn [unserde_hash]. destruct (Nat.eqb_spec (length x) 32) as [E|E]; split.
  - intros X. injection X as <-. auto.
  - intros [-> _]. reflexivity.
  - discriminate.
  - intros [-> X]. contradiction.
Qed.
Print Assumptions C76_serde.
(** Base64 of any bytes: what is written is read back, and exactly the padded texts are read. *)
Theorem C76_base64 bs s : (Forall byte_ok bs -> padded bs (encode_base64 bs) /\ decode_base64 (encode_base64 bs) = Some bs) /\
  (decode_base64 s = Some bs <-> Forall byte_ok bs /\ padded bs s).
Proof. split; [intros F; split; [apply encode_base64_padded, F|apply encode_base64_round, F]|apply decode_base64_iff]. Qed.
Print Assumptions C76_base64.

(** ** Bags of cells *)
Section Sha.
Context (sha : list N -> list N) (Hsha : sha_like sha) (crc : N -> list N -> N).
(** A cell comes back from both its texts. *)
Theorem C76_boc c : finalized sha c -> distinct_hashes sha [tree_of c] -> countable_cells [tree_of c] ->
  exists hex b64 c1 c2, boc_encode_hex crc c = Ok hex /\ boc_encode_base64 crc c = Ok b64 /\
  boc_decode_hex crc sha hex = BOk c1 /\ boc_decode_base64 crc sha b64 = BOk c2 /\
  tree_of c1 = tree_of c /\ tree_of c2 = tree_of c /\ finalized sha c1 /\ finalized sha c2.
Proof.
  intros F D C. destruct (C15_single sha Hsha crc c F D C) as (bytes & c' & E1 & E2 & E3 & E4).
  pose proof (boc_encode_ok sha Hsha crc c bytes F D C E1) as B.
  exists (hex_encode HEX_LOWER bytes), (encode_base64 bytes), c', c'. unfold boc_encode_hex, boc_encode_base64, boc_decode_hex, boc_decode_base64. rewrite E1. cbn [rbind].
  pose proof (hex_encode_decode false bytes B) as X. cbn [tab] in X. rewrite X, (encode_base64_round bytes B). split_and!; auto.
Qed.
(** What is read from a text is what is read from the bytes that it spells; a text that spells no
    bytes is an unknown tag. *)
Theorem C76_boc_text s : (forall data, Forall byte_ok data -> spells s (bytes_bits data) -> boc_decode_hex crc sha s = decode crc sha data) /\
  ((forall data, Forall byte_ok data -> ~ spells s (bytes_bits data)) -> boc_decode_hex crc sha s = BErr UnknownBocTag) /\
  (forall data, Forall byte_ok data -> padded data s -> boc_decode_base64 crc sha s = decode crc sha data) /\
  ((forall data, Forall byte_ok data -> ~ padded data s) -> boc_decode_base64 crc sha s = BErr UnknownBocTag).
Proof.
  assert (HX : forall data, hex_decode s = Some data <-> Forall byte_ok data /\ spells s (bytes_bits data)).
  { intros data. pose proof (hex_decode_to_iff (length s / 2) s data) as I. unfold hex_decode_to in I.
    rewrite Nat.eqb_refl in I. cbn [negb] in I. split.
    - intros E. assert (EV : (length s mod 2 = 0)%nat).
      { rewrite hex_decode_nibs in E. destruct (Nat.even (length s)) eqn:V; [|discriminate]. apply Nat.even_spec in V. destruct V as [m ->]. rewrite Nat.mul_comm. apply Nat.mod_mul. lia. }
      rewrite EV in I. cbn [Nat.eqb negb] in I. apply I in E. split; [apply E|apply E].
    - intros [F S]. pose proof (spells_length _ _ S) as L. rewrite length_bytes_bits in L.
      assert (L2 : length s = (length data * 2)%nat) by lia.
      assert (X : hex_decode_to (length data) s = Some data) by (apply hex_decode_to_iff; auto).
      unfold hex_decode_to in X. rewrite L2, Nat.mod_mul, Nat.div_mul, !Nat.eqb_refl in X by lia. exact X. }
  unfold boc_decode_hex, boc_decode_base64. split; [|split; [|split]].
  - intros data F S. rewrite (proj2 (HX data)) by auto. reflexivity.
  - intros N. destruct (hex_decode s) as [data|]; [|reflexivity]. destruct (proj1 (HX data) eq_refl) as [F S]. destruct (N data F S).
  - intros data F P. rewrite (proj2 (decode_base64_iff s data)) by auto. reflexivity.
  - intros N. destruct (decode_base64 s) as [data|] eqn:E; [|reflexivity]. apply decode_base64_iff in E. destruct E as [F P]. destruct (N data F P).
Qed.
End Sha.
Print Assumptions C76_boc.
Print Assumptions C76_boc_text.

(** ** Where the properties fail *)
(** A text of 66 bytes panics instead of being an error: "a", the three bytes of the euro sign, 62
    zeros. *)
Theorem C76_panic_refuted : exists s, s = [97; 226; 130; 172] ++ replicate 62 48 /\ parse_hash s = Err Panic.
Proof. eexists. split; [reflexivity|]. vm_compute. reflexivity. Qed.
Print Assumptions C76_panic_refuted.
(** The two characters before 64 digits are not checked: "zz" is as good as "0x". *)
Theorem C76_prefix_refuted : exists h, length h = 32%nat /\ parse_hash ([122; 122] ++ show_hash false h) = Ok h.
Proof. exists (replicate 32 7). split; [reflexivity|]. vm_compute. reflexivity. Qed.
Print Assumptions C76_prefix_refuted.
(** The base64 of 31 bytes is read as a hash with a zero at the end. *)
Theorem C76_short_refuted : exists h', length h' = 31%nat /\ parse_hash (encode_base64 h') = Ok (h' ++ [0]).
Proof. exists (replicate 31 7). split; [reflexivity|]. vm_compute. reflexivity. Qed.
Print Assumptions C76_short_refuted.

(** ** The hypotheses can be met *)
Example C76_case :
  let h := map N.of_nat (seq 200 32) in
  Forall byte_ok h /\ length h = 32%nat /\ take 4 (show_hash true h) = [67; 56; 67; 57] /\ drop 40 (encode_base64 h) = [53; 117; 99; 61] /\
  parse_hash (take 63 (show_hash false h)) = Err InvalidData /\
  parse_hash (take 42 (encode_base64 h) ++ [100; 61]) = Err InvalidData /\
  (finalized sha256 ex_node /\ distinct_hashes sha256 [tree_of ex_node] /\ countable_cells [tree_of ex_node]) /\
  boc_encode_base64 crc32c_append ex_node = Ok (map N.of_nat [116; 101; 54; 99; 99; 103; 69; 66; 65; 103; 69; 65; 67; 81; 65; 67; 65; 104; 73; 66; 65; 81; 65; 68; 113; 57; 65; 61]%nat).
Proof.
  cbn zeta. split; [repeat constructor|]. split; [reflexivity|]. split; [reflexivity|]. split; [reflexivity|]. split; [vm_compute; reflexivity|]. split; [vm_compute; reflexivity|].
  split; [|vm_compute; reflexivity].
  assert (M : forall t, subtree [tree_of ex_node] t -> subtree (map tree_of ex_roots) t).
  { induction 1 as [t [<-|[]]|e b ks k _ IH Hk]; [apply sub_root; left; reflexivity|apply (sub_child _ e b ks k IH Hk)]. }
  destruct ex_distinct as [D C]. split; [exact ex_node_fin|]. split.
  - intros a b Sa Sb. apply (D a b (M a Sa) (M b Sb)).
  - intros l ND F. apply (C l ND). refine (List.Forall_impl _ _ F). exact M.
Qed.
