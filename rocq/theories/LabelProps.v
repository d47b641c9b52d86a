(** * C29: edge labels. *)
From Verif Require Import Err BitsProofs CellModel LabelModel LabelSpec LabelProofs.
Local Open Scope nat_scope.

(** The writer emits the canonical (shortest) encoding of the label for the remaining key
    width, and fails only if that encoding does not fit into a cell. *)
Theorem C29_write_canonical : forall n key, length key <= n -> n <= 1023 ->
  exists e, hml_canonical n e key /\
    (length e <= 1023 -> write_label key n [] = Ok e) /\
    (1023 < length e -> write_label key n [] = Err InvalidData).
Proof.
  intros n key Hk Hn. exists (label_bits n key). split; [apply label_bits_canonical, Hk|].
  rewrite write_label_spec by assumption. split; intros H.
  - rewrite (proj2 (Nat.leb_le _ _)) by exact H. reflexivity.
  - rewrite (proj2 (Nat.leb_gt _ _)) by exact H. reflexivity.
Qed.
Print Assumptions C29_write_canonical.

(** The variant used by removal, given the label in three parts, writes the same bits as
    the plain writer given the whole label. *)
Theorem C29_write_parts_canonical : forall n pfx bit rem, length (pfx ++ bit :: rem) <= n -> n <= 1023 ->
  write_label_parts pfx bit rem n [] = write_label (pfx ++ bit :: rem) n [].
Proof.
  intros n pfx bit rem Hk Hn. rewrite write_label_spec by assumption.
  rewrite app_length in Hk. cbn [length] in Hk. apply write_label_parts_spec; lia.
Qed.
Print Assumptions C29_write_parts_canonical.

(** The canonical encoding is unique: the same label and width always give the same bits. *)
Theorem C29_canonical_unique : forall n key e e', length key <= n ->
  hml_canonical n e key -> hml_canonical n e' key -> e = e'.
Proof.
  intros n key e e' Hk [A B] [A' B']. destruct (B _ A') as [H|[H [H1|H1]]], (B' _ A) as [H'|[H' [H1'|H1']]]; try congruence; lia.
Qed.
Print Assumptions C29_canonical_unique.

(** Every valid encoding, canonical or not, decodes to its label and leaves exactly the
    bits that followed it. *)
Theorem C29_read_any_encoding : forall n e key rest, n <= 1023 ->
  hml n e key -> read_label n (e ++ rest) = Ok (key, rest).
Proof. intros n e key rest Hn H. apply read_label_hml; assumption. Qed.
Print Assumptions C29_read_any_encoding.

(** Write then read. *)
Theorem C29_round_trip : forall n key e rest, length key <= n -> n <= 1023 ->
  write_label key n [] = Ok e -> read_label n (e ++ rest) = Ok (key, rest).
Proof.
  intros n key e rest Hk Hn. rewrite write_label_spec by assumption.
  destruct (_ <=? _); [|discriminate]. intros [= <-]. apply read_label_bits; assumption.
Qed.
Print Assumptions C29_round_trip.

(** Whatever the reader accepts is one of the three encodings followed by the rest, as long
    as the label is not longer than the remaining key width; a cell without bits is read
    as the empty label when no key bits remain. *)
Theorem C29_read_sound : forall n l key rest, n <= 1023 -> read_label n l = Ok (key, rest) ->
  length key <= n ->
  (exists e, l = e ++ rest /\ hml n e key) \/ (n = 0 /\ l = [] /\ key = [] /\ rest = []).
Proof.
  intros n l key rest Hn H Hk. apply read_label_inv in H; [|exact Hn].
  destruct H as [(-> & -> & -> & ->)|[->|[->|(v & k & -> & ->)]]].
  - right. auto.
  - left. eexists. split; [reflexivity|]. apply hml_short, Hk.
  - left. eexists. split; [reflexivity|]. apply hml_long; [apply bits_for_len_width|exact Hk].
  - left. rewrite replicate_length in Hk. eexists. split; [reflexivity|]. apply hml_same; [apply bits_for_len_width|exact Hk].
Qed.
Print Assumptions C29_read_sound.

(** The reader never fails except by running out of bits, and never returns more bits than a
    cell can hold when it is given the bits of a cell. *)
Theorem C29_read_total : forall n l, n <= 1023 -> length l <= 1023 ->
  (exists key rest, read_label n l = Ok (key, rest) /\ length key <= 1023 /\ length rest <= length l) \/
  read_label n l = Err CellUnderflow.
Proof.
  intros n l Hn Hl. destruct (read_label n l) as [[key rest]|e] eqn:E.
  - left. exists key, rest. split; [reflexivity|]. pose proof (bits_for_len_10 n Hn) as Hb.
    unfold read_label in E. cbv zeta in E.
    destruct (_ && _); [injection E as <- <-; cbn [length]; lia|].
    destruct l as [|[] l]; cbn [load_bit rbind negb] in E; [discriminate| |].
    + destruct l as [|[] l]; cbn [load_bit rbind negb] in E; [discriminate| |].
      * unfold read_hml_same in E. destruct l as [|v l]; cbn [load_bit rbind] in E; [discriminate|].
        destruct (load_uint (bits_for_len n) l) as [[k r]|] eqn:E1; cbn [rbind] in E; [|discriminate].
        apply load_uint_inv in E1. destruct E1 as [-> E1]. injection E as <- <-.
        rewrite replicate_length. unfold MAX_BITS. cbn [length]. rewrite app_length. lia.
      * unfold read_hml_long in E. destruct (load_uint (bits_for_len n) l) as [[k r]|] eqn:E1; cbn [rbind] in E; [|discriminate].
        apply load_uint_inv in E1. destruct E1 as [-> E1]. apply take_label_inv in E. destruct E as [-> E].
        cbn [length] in *. rewrite !app_length in *. lia.
    + unfold read_hml_short in E. destruct (read_unary l) as [[k r]|] eqn:E1; cbn [rbind] in E; [|discriminate].
      apply read_unary_inv in E1. subst l. apply take_label_inv in E. destruct E as [-> E].
      cbn [length] in *. rewrite !app_length in *. cbn [length] in *. rewrite !app_length in *. lia.
  - right. f_equal. revert E. unfold read_label. cbv zeta.
    destruct (_ && _); [discriminate|].
    assert (U : forall l, match read_unary l with Ok _ => True | Err e => e = CellUnderflow end).
    { intros u. induction u as [|[] u IH]; cbn; [reflexivity| |exact I]. destruct (read_unary u) as [[]|]; [exact I|exact IH]. }
    assert (T : forall k l s, take_label k l = Err s -> s = CellUnderflow).
    { intros k u s. unfold take_label, skip_bits. destruct (_ <? _); cbn; congruence. }
    assert (Lu : forall k l s, load_uint k l = Err s -> s = CellUnderflow).
    { intros k u s. unfold load_uint. destruct (_ <? _); congruence. }
    destruct l as [|[] l]; cbn [load_bit rbind negb]; [congruence| |].
    + destruct l as [|[] l]; cbn [load_bit rbind negb]; [congruence| |].
      * unfold read_hml_same. destruct l as [|v l]; cbn [load_bit rbind]; [congruence|].
        destruct (load_uint (bits_for_len n) l) as [[k r]|] eqn:E1; cbn [rbind]; [discriminate|].
        intros [= <-]. apply (Lu _ _ _ E1).
      * unfold read_hml_long. destruct (load_uint (bits_for_len n) l) as [[k r]|] eqn:E1; cbn [rbind]; [apply T|].
        intros [= <-]. apply (Lu _ _ _ E1).
    + unfold read_hml_short. specialize (U l). destruct (read_unary l) as [[k r]|] eqn:E1; cbn [rbind]; [apply T|].
      intros [= <-]. exact U.
Qed.
Print Assumptions C29_read_total.

(** The reader does not compare the length field with the remaining key width: a
    non-canonical cell yields a label longer than the key.  (Callers reject it when they
    compare it with the key.) *)
Theorem C29_overlong_label_refuted :
  exists n l key rest, n <= 1023 /\ read_label n l = Ok (key, rest) /\ n < length key.
Proof.
  exists 2, [true; true; false; true; true], [false; false; false], []. vm_compute.
  split; [apply (proj1 (Nat.leb_le 2 1023)); reflexivity|]. split; reflexivity || lia.
Qed.
Print Assumptions C29_overlong_label_refuted.

Example C29_case :
  (* short, long and same labels for an 8-bit key *)
  write_label [true; false] 8 [] = Ok [false; true; true; false; true; false] /\
  write_label [true; false; true; true; false; true; true] 8 [] =
    Ok ([true; false] ++ [false; true; true; true] ++ [true; false; true; true; false; true; true]) /\
  write_label (replicate 8 true) 8 [] = Ok ([true; true; true] ++ [true; false; false; false]) /\
  read_label 8 ([true; true; true; true; false; false; false] ++ [false; true]) = Ok (replicate 8 true, [false; true]).
Proof. vm_compute. auto. Qed.
