(** * Proofs about printed and parsed integers, splitting, hexadecimal bytes and base64. *)
From Verif Require Import Err BitsProofs WordProofs TextModel TextSpec TextProofs.
Local Open Scope N_scope.

(** ** Digits *)
Fixpoint dval (radix : N) (s : list N) (acc : N) : option N :=
  match s with
  | [] => Some acc
  | c :: s' => match to_digit radix c with Some d => dval radix s' (acc * radix + d) | None => None end
  end.
Lemma dval_app radix a b acc : dval radix (a ++ b) acc = match dval radix a acc with Some x => dval radix b x | None => None end.
Proof. revert acc. induction a as [|c a IH]; intros acc; cbn [app dval]; [reflexivity|]. destruct (to_digit radix c); [apply IH|reflexivity]. Qed.
Lemma dval_ge radix s acc x : 1 <= radix -> dval radix s acc = Some x -> acc <= x.
Proof.
  intros Hr. revert acc. induction s as [|c s IH]; intros acc H; cbn [dval] in H; [injection H as <-; lia|].
  destruct (to_digit radix c) as [d|]; [|discriminate]. apply IH in H. nia.
Qed.
Lemma parse_digits_dval radix max s : 1 <= radix -> forall acc x, dval radix s acc = Some x -> x <= max -> parse_digits radix max s acc = Some x.
Proof.
  intros Hr. induction s as [|c s IH]; intros acc x H Hx; cbn [dval parse_digits] in *; [exact H|].
  destruct (to_digit radix c) as [d|]; [|discriminate]. cbn zeta. pose proof (dval_ge _ _ _ _ Hr H).
  destruct (N.ltb_spec max (acc * radix + d)); [lia|]. apply IH; assumption.
Qed.
Lemma parse_digits_inv radix max s : forall acc x, acc <= max -> parse_digits radix max s acc = Some x -> dval radix s acc = Some x /\ x <= max.
Proof.
  induction s as [|c s IH]; intros acc x Ha H; cbn [dval parse_digits] in *; [injection H as <-; split; [reflexivity|exact Ha]|].
  destruct (to_digit radix c) as [d|]; [|discriminate]. cbn zeta in H.
  destruct (N.ltb_spec max (acc * radix + d)); [discriminate|]. apply IH; assumption.
Qed.
Lemma digit_char up radix d : radix <= 16 -> d < radix -> to_digit radix (nth (N.to_nat d) (tab up) 0) = Some d.
Proof.
  intros Hr Hd. assert (E : to_digit 16 (nth (N.to_nat d) (tab up) 0) = Some d).
  { assert (C : d = 0 \/ d = 1 \/ d = 2 \/ d = 3 \/ d = 4 \/ d = 5 \/ d = 6 \/ d = 7 \/ d = 8 \/ d = 9 \/ d = 10 \/ d = 11 \/ d = 12 \/ d = 13 \/ d = 14 \/ d = 15) by lia.
    destruct up; repeat (destruct C as [ -> |C]; [reflexivity|]); subst d; reflexivity. }
  unfold to_digit in *. destruct (if (48 <=? _) && _ then _ else _) as [e|]; [|discriminate].
  destruct (e <? 16); [|discriminate]. injection E as ->. apply N.ltb_lt in Hd. rewrite Hd. reflexivity.
Qed.
Lemma tab_in up d : d < 16 -> nth (N.to_nat d) (tab up) 0 ∈ tab up.
Proof. intros H. apply elem_of_list_In, nth_In. destruct up; cbn; lia. Qed.
Lemma show_fuel_ok up radix : 2 <= radix -> radix <= 16 -> forall f n acc, n < 2 ^ N.of_nat f ->
  exists ds, show_fuel (S f) radix (tab up) n acc = ds ++ acc /\ ds <> [] /\ dval radix ds 0 = Some n /\ Forall (fun c => c ∈ tab up) ds
    /\ (forall w, n < radix ^ N.of_nat (S w) -> (length ds <= S w)%nat).
Proof.
  intros H2 H16. induction f as [|f IH]; intros n acc Hn.
  - change (2 ^ N.of_nat 0) with 1 in Hn. assert (n = 0) as -> by lia. cbn [show_fuel].
    rewrite N.mod_0_l, N.div_0_l by lia. cbn [N.eqb]. exists [nth (N.to_nat 0) (tab up) 0]. split_and!; [reflexivity|discriminate| |constructor; [apply tab_in; lia|constructor]|cbn; lia].
    cbn [dval]. rewrite digit_char by lia. reflexivity.
  - remember (S f) as sf. cbn [show_fuel]. set (c := nth (N.to_nat (n mod radix)) (tab up) 0).
    pose proof (N.mod_lt n radix ltac:(lia)) as Hm. pose proof (N.div_mod n radix ltac:(lia)) as D.
    assert (Hc : to_digit radix c = Some (n mod radix)) by (apply digit_char; assumption).
    assert (Cin : c ∈ tab up) by (apply tab_in; lia).
    destruct (N.eqb_spec (n / radix) 0) as [E|E].
    + exists [c]. split_and!; [reflexivity|discriminate| |repeat constructor; exact Cin|cbn; lia].
      cbn [dval]. rewrite Hc. f_equal. rewrite E in D. lia.
    + subst sf. destruct (IH (n / radix) (c :: acc)) as (ds & Eq & Hne & Hv & Hin & Hlen).
      { rewrite Nat2N.inj_succ, N.pow_succ_r' in Hn. apply N.div_lt_upper_bound; [lia|]. apply N.lt_le_trans with (2 * 2 ^ N.of_nat f); [exact Hn|]. apply N.mul_le_mono_r. exact H2. }
      exists (ds ++ [c]). split_and!.
      * rewrite Eq, <- app_assoc. reflexivity.
      * destruct ds; discriminate.
      * rewrite dval_app, Hv. cbn [dval]. rewrite Hc. f_equal. lia.
      * apply Forall_app. split; [exact Hin|]. repeat constructor; exact Cin.
      * intros w Hw. rewrite app_length. cbn [length]. destruct w as [|w].
        { change (N.of_nat 1) with 1 in Hw. rewrite N.pow_1_r in Hw. exfalso. apply E. apply N.div_small. exact Hw. }
        rewrite (Nat2N.inj_succ (S w)), N.pow_succ_r' in Hw.
        assert (n / radix < radix ^ N.of_nat (S w)) by (apply N.div_lt_upper_bound; lia).
        apply Hlen in H. lia.
Qed.
Lemma show_radix_ok up radix n : 2 <= radix -> radix <= 16 ->
  let s := show_radix radix (tab up) n in
  s <> [] /\ dval radix s 0 = Some n /\ Forall (fun c => c ∈ tab up) s /\ (forall w, n < radix ^ N.of_nat (S w) -> (length s <= S w)%nat).
Proof.
  intros H2 H16. unfold show_radix. cbn zeta.
  destruct (show_fuel_ok up radix H2 H16 (N.to_nat (N.size n)) n []) as (ds & E & R).
  { rewrite N2Nat.id. apply N.size_gt. }
  rewrite E, app_nil_r. exact R.
Qed.
Lemma tab_char up c : c ∈ tab up -> c <> 43 /\ c <> 45 /\ c <> 58.
Proof.
  intros H. assert (G : forallb (fun c => negb (c =? 43) && negb (c =? 45) && negb (c =? 58)) (tab up) = true) by (destruct up; reflexivity).
  rewrite List.forallb_forall in G. apply elem_of_list_In in H. apply G in H.
  apply andb_true_iff in H. destruct H as [H H3]. apply andb_true_iff in H. destruct H as [H1 H2].
  apply negb_true_iff in H1, H2, H3. apply N.eqb_neq in H1, H2, H3. split_and!; assumption.
Qed.
Lemma parse_unsigned_digits up radix max s n : 1 <= radix -> s <> [] -> dval radix s 0 = Some n -> Forall (fun c => c ∈ tab up) s -> n <= max ->
  parse_unsigned radix max s = Some n.
Proof.
  intros Hr Hne Hv Hin Hx. unfold parse_unsigned. destruct s as [|c s']; [congruence|].
  inversion_clear Hin as [|? ? Hc _]. destruct (tab_char _ _ Hc) as (A & B & _). apply N.eqb_neq in A, B. rewrite A, B. cbn [orb].
  destruct s'; apply parse_digits_dval; assumption.
Qed.
Lemma parse_signed_pos up w s n : s <> [] -> dval 10 s 0 = Some n -> Forall (fun c => c ∈ tab up) s -> n <= 2 ^ (w - 1) - 1 ->
  parse_signed w s = Some (Z.of_N n).
Proof.
  intros Hne Hv Hin Hx. unfold parse_signed. cbn zeta. destruct s as [|c s']; [congruence|].
  inversion_clear Hin as [|? ? Hc _]. destruct (tab_char _ _ Hc) as (A & B & _). apply N.eqb_neq in A, B. rewrite A, B. cbn [orb].
  destruct s'; rewrite (parse_digits_dval 10 _ _ ltac:(lia) _ _ Hv Hx); reflexivity.
Qed.
(** Decimal integers *)
Lemma show_dec_parse max n : n <= max -> parse_unsigned 10 max (show_dec n) = Some n.
Proof.
  intros H. destruct (show_radix_ok false 10 n) as (A & B & C & _); [lia..|]. unfold show_dec. change HEX_LOWER with (tab false).
  apply parse_unsigned_digits with false; try assumption; lia.
Qed.
Lemma show_int_parse w z : 1 <= w -> (- 2 ^ (Z.of_N w - 1) <= z < 2 ^ (Z.of_N w - 1))%Z -> parse_signed w (show_int z) = Some z.
Proof.
  intros Hw Hz. unfold show_int, show_dec. change HEX_LOWER with (tab false).
  destruct (show_radix_ok false 10 (Z.abs_N z)) as (A & B & C & _); [lia..|].
  assert (P : Z.of_N (2 ^ (w - 1)) = (2 ^ (Z.of_N w - 1))%Z) by (rewrite N2Z.inj_pow, N2Z.inj_sub by exact Hw; reflexivity).
  assert (Mx : 2 ^ (w - 1) - 1 + 1 = 2 ^ (w - 1)) by (pose proof (N.pow_nonzero 2 (w - 1)); lia).
  assert (B1 : (z < 0)%Z -> Z.abs_N z <= 2 ^ (w - 1)).
  { intros L. apply N2Z.inj_le. rewrite P, N2Z.inj_abs_N. lia. }
  assert (B2 : (0 <= z)%Z -> Z.abs_N z <= 2 ^ (w - 1) - 1).
  { intros L. cut (Z.abs_N z < 2 ^ (w - 1)); [lia|]. apply N2Z.inj_lt. rewrite P, N2Z.inj_abs_N. lia. }
  destruct (Z.ltb_spec z 0) as [L|L].
  - unfold parse_signed. cbn zeta. destruct (show_radix 10 (tab false) (Z.abs_N z)) as [|c s] eqn:E; [congruence|].
    change (45 =? 43) with false. change (45 =? 45) with true. cbn iota.
    rewrite (parse_digits_dval 10 _ _ ltac:(lia) _ _ B (B1 L)). cbn [option_map]. f_equal. lia.
  - rewrite (parse_signed_pos false w _ (Z.abs_N z) A B C (B2 L)). f_equal. lia.
Qed.
Lemma show_int_chars z : Forall (fun c => c <> 58) (show_int z).
Proof.
  destruct (show_radix_ok false 10 (Z.abs_N z)) as (_ & _ & C & _); [lia..|]. unfold show_int, show_dec. change HEX_LOWER with (tab false).
  assert (Forall (fun c => c <> 58) (show_radix 10 (tab false) (Z.abs_N z))) as F.
  { eapply Forall_impl; [|exact C]. intros c Hc. apply tab_char in Hc. tauto. }
  destruct (z <? 0)%Z; [|exact F]. constructor; [lia|exact F].
Qed.
Lemma show_dec_chars n : Forall (fun c => c <> 58) (show_dec n).
Proof.
  destruct (show_radix_ok false 10 n) as (_ & _ & C & _); [lia..|]. unfold show_dec. change HEX_LOWER with (tab false).
  eapply Forall_impl; [|exact C]. intros c Hc. apply tab_char in Hc. tauto.
Qed.
(** Padded hexadecimal *)
Lemma dval_zeros radix k acc s : 1 <= radix -> dval radix (replicate k 48 ++ s) acc = dval radix s (acc * radix ^ N.of_nat k).
Proof.
  intros Hr. revert acc. induction k as [|k IH]; intros acc; cbn [replicate app].
  - change (radix ^ N.of_nat 0) with 1. rewrite N.mul_1_r. reflexivity.
  - cbn [dval]. assert (E : to_digit radix 48 = Some 0).
    { unfold to_digit. change ((48 <=? 48) && (48 <=? 57)) with true. cbn iota. destruct (N.ltb_spec (48 - 48) radix); [reflexivity|lia]. }
    rewrite E, N.add_0_r, IH, Nat2N.inj_succ, N.pow_succ_r', N.mul_assoc. reflexivity.
Qed.
Lemma show_hex_ok up w n : (1 <= w)%nat -> n < 16 ^ N.of_nat w ->
  let s := show_hex w (tab up) n in
  length s = w /\ dval 16 s 0 = Some n /\ Forall (fun c => c ∈ tab up) s.
Proof.
  intros Hw Hn. unfold show_hex. cbn zeta. destruct (show_radix_ok up 16 n) as (A & B & C & D); [lia..|].
  set (s := show_radix 16 (tab up) n) in *.
  assert (L : (length s <= w)%nat). { destruct w as [|w]; [lia|]. apply D. exact Hn. }
  split_and!.
  - rewrite app_length, replicate_length. lia.
  - rewrite dval_zeros by lia. rewrite N.mul_0_l. exact B.
  - apply Forall_app. split; [|exact C]. apply Forall_replicate. destruct up; left.
Qed.
Lemma show_hex_parse up w max n : (1 <= w)%nat -> n < 16 ^ N.of_nat w -> n <= max -> parse_unsigned 16 max (show_hex w (tab up) n) = Some n.
Proof.
  intros Hw Hn Hx. destruct (show_hex_ok up w n Hw Hn) as (L & B & C).
  apply parse_unsigned_digits with up; try assumption; [lia|]. intros E. rewrite E in L. cbn in L. lia.
Qed.

(** ** Splitting *)
Lemma split_at_app sep a b : Forall (fun c => c <> sep) a -> split_at sep (a ++ sep :: b) = a :: split_at sep b.
Proof.
  induction 1 as [|c a Hc Ha IH]; cbn [app split_at]; [rewrite N.eqb_refl; reflexivity|].
  apply N.eqb_neq in Hc. rewrite Hc, IH. reflexivity.
Qed.
Lemma split_at_last sep a : Forall (fun c => c <> sep) a -> split_at sep a = [a].
Proof. induction 1 as [|c a Hc Ha IH]; cbn [split_at]; [reflexivity|]. apply N.eqb_neq in Hc. rewrite Hc, IH. reflexivity. Qed.

(** ** Bytes *)
Lemma hex_encode_decode up bs : Forall byte_ok bs -> hex_decode (hex_encode (tab up) bs) = Some bs.
Proof.
  intros H. destruct (hex_encode_ok up bs H) as [A B]. rewrite hex_decode_nibs, B, A.
  rewrite even_mod, Nat.mul_comm, Nat.mod_mul by lia. cbn [Nat.eqb option_map]. rewrite pack_bytes_bits by exact H. reflexivity.
Qed.
Lemma hex_encode_decode_to up n bs : Forall byte_ok bs -> length bs = n -> hex_decode_to n (hex_encode (tab up) bs) = Some bs.
Proof.
  intros H <-. destruct (hex_encode_ok up bs H) as [_ B]. unfold hex_decode_to. rewrite B, (Nat.mul_comm 2), Nat.mod_mul, Nat.div_mul by lia.
  rewrite !Nat.eqb_refl. cbn [negb]. apply hex_encode_decode, H.
Qed.
Lemma byte2hex_in up b : byte_ok b -> Forall (fun c => c ∈ tab up) (byte2hex (tab up) b).
Proof.
  intros Hb. unfold byte2hex. repeat constructor; apply tab_in.
  - rewrite N.shiftr_div_pow2. apply N.div_lt_upper_bound; [lia|]. change (2 ^ 4 * 16) with (2 ^ 8). apply bits_lt. intros i Hi.
    rewrite N.land_spec, (lt_bits b 8 i) by (exact Hb || exact Hi). reflexivity.
  - change 16 with (2 ^ 4). apply bits_lt. intros i Hi. rewrite N.land_spec, (lt_bits 15 4 i) by (reflexivity || exact Hi). apply andb_false_r.
Qed.
Lemma hex_encode_in up bs : Forall byte_ok bs -> Forall (fun c => c ∈ tab up) (hex_encode (tab up) bs).
Proof.
  induction 1 as [|b bs Hb Hbs IH]; [constructor|]. unfold hex_encode in *. cbn [map concat]. apply Forall_app. split; [apply byte2hex_in, Hb|exact IH].
Qed.
Lemma hex_encode_chars up bs : Forall byte_ok bs -> Forall (fun c => c <> 58) (hex_encode (tab up) bs).
Proof. intros H. eapply Forall_impl; [|apply hex_encode_in, H]. intros c Hc. apply tab_char in Hc. tauto. Qed.
Lemma hex_decode_ok s bs : hex_decode s = Some bs -> Forall byte_ok bs.
Proof.
  rewrite hex_decode_nibs. destruct (Nat.even _); [|discriminate]. destruct (nibs s); [|discriminate]. intros [= <-]. apply pack_ok.
Qed.

(** ** Base64 *)
Lemma b64_val_char url x : x < 64 -> b64_val url (b64_char url x) = Some x.
Proof.
  intros H. assert (G : forallb (fun x => bool_decide (b64_val url (b64_char url x) = Some x)) (map N.of_nat (seq 0 64)) = true) by (destruct url; vm_compute; reflexivity).
  apply (range_in (fun x => b64_val url (b64_char url x) = Some x) _ 64 G); [|exact H]. intros y Hy. apply bool_decide_eq_true in Hy. exact Hy.
Qed.
Lemma b64_char_val url c x : b64_val url c = Some x -> x < 64 /\ b64_char url x = c.
Proof.
  unfold b64_val. intros H.
  destruct (N.leb_spec 65 c), (N.leb_spec c 90); cbn [andb] in H.
  { injection H as <-. unfold b64_char. destruct (N.ltb_spec (c - 65) 26); [split; lia|lia]. }
  all: destruct (N.leb_spec 97 c), (N.leb_spec c 122); cbn [andb] in H; try lia.
  all: try (injection H as <-; unfold b64_char; destruct (N.ltb_spec (c - 97 + 26) 26); [lia|]; destruct (N.ltb_spec (c - 97 + 26) 52); [split; lia|lia]).
  all: destruct (N.leb_spec 48 c), (N.leb_spec c 57); cbn [andb] in H; try lia.
  all: try (injection H as <-; unfold b64_char; destruct (N.ltb_spec (c - 48 + 52) 26); [lia|]; destruct (N.ltb_spec (c - 48 + 52) 52); [lia|]; destruct (N.ltb_spec (c - 48 + 52) 62); [split; lia|lia]).
  all: destruct (N.eqb_spec c (if url then 45 else 43)) as [E|E]; [injection H as <-; split; [lia|symmetry; exact E]|].
  all: destruct (N.eqb_spec c (if url then 95 else 47)) as [E2|E2]; [injection H as <-; split; [lia|symmetry; exact E2]|discriminate].
Qed.
(** Groups as bits: three bytes are four sextets. *)
Lemma sextets a b c : byte_ok a -> byte_ok b -> byte_ok c ->
  let w := N.shiftr a 2 in let x := N.lor (shl 6 a 4) (N.shiftr b 4) in
  let y := N.lor (shl 6 b 2) (N.shiftr c 6) in let z := N.land c 63 in
  w < 64 /\ x < 64 /\ y < 64 /\ z < 64 /\ nbits 6 w ++ nbits 6 x ++ nbits 6 y ++ nbits 6 z = byte_bits a ++ byte_bits b ++ byte_bits c.
Proof.
  intros Ha Hb Hc. cbn zeta.
  assert (P6 : forall v, v mod 2 ^ 6 < 64) by (intros v; apply (N.mod_lt v (2 ^ 6)); discriminate).
  assert (L6 : forall v k, v < 256 -> 2 <= k -> N.shiftr v k < 2 ^ 6).
  { intros v k Hv Hk. rewrite N.shiftr_div_pow2. apply N.div_lt_upper_bound; [apply N.pow_nonzero; lia|].
    apply N.lt_le_trans with (2 ^ 2 * 2 ^ 6); [exact Hv|]. apply N.mul_le_mono_r, N.pow_le_mono_r; lia. }
  split_and!.
  - apply (L6 a 2); [exact Ha|lia].
  - change 64 with (2 ^ 6). apply bits_lt. intros i Hi. rewrite N.lor_spec, (lt_bits (shl 6 a 4) 6 i), (lt_bits (N.shiftr b 4) 6 i); [reflexivity| | | |]; try exact Hi; [apply L6; [exact Hb|lia]|apply P6].
  - change 64 with (2 ^ 6). apply bits_lt. intros i Hi. rewrite N.lor_spec, (lt_bits (shl 6 b 2) 6 i), (lt_bits (N.shiftr c 6) 6 i); [reflexivity| | | |]; try exact Hi; [apply L6; [exact Hc|lia]|apply P6].
  - change 64 with (2 ^ 6). apply bits_lt. intros i Hi. rewrite N.land_spec, (lt_bits 63 6 i) by (reflexivity || exact Hi). apply andb_false_r.
  - unfold byte_bits. cbn [nbits app].
    repeat rewrite ?N.lor_spec, ?N.land_spec. unfold shl.
    repeat (rewrite N.mod_pow2_bits_low by (vm_compute; reflexivity)).
    rewrite !N.shiftr_spec'.
    repeat match goal with |- context[N.testbit (N.shiftl ?v ?k) ?i] =>
      first [rewrite (N.shiftl_spec_low v k i) by (vm_compute; reflexivity)
            |rewrite (N.shiftl_spec_high' v k i) by (vm_compute; discriminate)] end.
    assert (Z : forall v i, v < 256 -> 8 <= i -> N.testbit v i = false) by (intros v i Hv Hi; apply (lt_bits v 8 i Hv Hi)).
    rewrite !orb_false_l.
    repeat match goal with |- context[N.testbit ?v (N.of_nat ?n + ?k)] =>
      let m := eval vm_compute in (N.of_nat n + k) in change (N.testbit v (N.of_nat n + k)) with (N.testbit v m) end.
    repeat match goal with |- context[N.testbit ?v (N.of_nat ?n - ?k)] =>
      let m := eval vm_compute in (N.of_nat n - k) in change (N.testbit v (N.of_nat n - k)) with (N.testbit v m) end.
    repeat match goal with |- context[N.testbit ?v (N.of_nat ?n)] =>
      let m := eval vm_compute in (N.of_nat n) in change (N.testbit v (N.of_nat n)) with (N.testbit v m) end.
    rewrite ?(Z b 8), ?(Z b 9), ?(Z c 8), ?(Z c 9), ?(Z c 10), ?(Z c 11) by (assumption || lia).
    rewrite ?orb_false_r.
    change (N.testbit 63 0) with true. change (N.testbit 63 1) with true. change (N.testbit 63 2) with true.
    change (N.testbit 63 3) with true. change (N.testbit 63 4) with true. change (N.testbit 63 5) with true.
    rewrite ?andb_true_r. reflexivity.
Qed.
Lemma octets w x y z : w < 64 -> x < 64 -> y < 64 -> z < 64 ->
  let a := N.lor (shl 8 w 2) (N.shiftr x 4) in let b := N.lor (shl 8 x 4) (N.shiftr y 2) in let c := N.lor (shl 8 y 6) z in
  byte_ok a /\ byte_ok b /\ byte_ok c /\ byte_bits a ++ byte_bits b ++ byte_bits c = nbits 6 w ++ nbits 6 x ++ nbits 6 y ++ nbits 6 z.
Proof.
  intros Hw Hx Hy Hz. cbn zeta. unfold byte_ok.
  assert (P8 : forall v, v mod 2 ^ 8 < 2 ^ 8) by (intros v; apply (N.mod_lt v (2 ^ 8)); discriminate).
  assert (L8 : forall v k, v < 64 -> N.shiftr v k < 2 ^ 8).
  { intros v k Hv. rewrite N.shiftr_div_pow2. apply N.le_lt_trans with v; [|change (2 ^ 8) with 256; lia]. apply N.div_le_upper_bound; [apply N.pow_nonzero; lia|].
    pose proof (N.pow_nonzero 2 k). nia. }
  assert (LO : forall u v, u < 2 ^ 8 -> v < 2 ^ 8 -> N.lor u v < 256).
  { intros u v Hu Hv. change 256 with (2 ^ 8). apply bits_lt. intros i Hi. rewrite N.lor_spec, (lt_bits u 8 i), (lt_bits v 8 i) by assumption. reflexivity. }
  split_and!.
  - apply LO; [apply P8|apply L8, Hx].
  - apply LO; [apply P8|apply L8, Hy].
  - apply LO; [apply P8|change (2 ^ 8) with 256; lia].
  - unfold byte_bits. cbn [nbits app].
    repeat rewrite ?N.lor_spec, ?N.land_spec. unfold shl.
    repeat (rewrite N.mod_pow2_bits_low by (vm_compute; reflexivity)).
    rewrite !N.shiftr_spec'.
    repeat match goal with |- context[N.testbit (N.shiftl ?v ?k) ?i] =>
      first [rewrite (N.shiftl_spec_low v k i) by (vm_compute; reflexivity)
            |rewrite (N.shiftl_spec_high' v k i) by (vm_compute; discriminate)] end.
    assert (Z : forall v i, v < 64 -> 6 <= i -> N.testbit v i = false) by (intros v i Hv Hi; apply (lt_bits v 6 i Hv Hi)).
    rewrite !orb_false_l.
    repeat match goal with |- context[N.testbit ?v (N.of_nat ?n + ?k)] =>
      let m := eval vm_compute in (N.of_nat n + k) in change (N.testbit v (N.of_nat n + k)) with (N.testbit v m) end.
    repeat match goal with |- context[N.testbit ?v (N.of_nat ?n - ?k)] =>
      let m := eval vm_compute in (N.of_nat n - k) in change (N.testbit v (N.of_nat n - k)) with (N.testbit v m) end.
    repeat match goal with |- context[N.testbit ?v (N.of_nat ?n)] =>
      let m := eval vm_compute in (N.of_nat n) in change (N.testbit v (N.of_nat n)) with (N.testbit v m) end.
    rewrite ?(Z x 6), ?(Z x 7), ?(Z x 8), ?(Z x 9), ?(Z x 10), ?(Z x 11), ?(Z y 6), ?(Z y 7), ?(Z y 8), ?(Z y 9), ?(Z z 6), ?(Z z 7) by (assumption || lia).
    rewrite ?orb_false_r. reflexivity.
Qed.
Lemma app3_inj (a b c a' b' c' : list bool) : length a = length a' -> length b = length b' -> a ++ b ++ c = a' ++ b' ++ c' -> a = a' /\ b = b' /\ c = c'.
Proof. intros L1 L2 E. apply app_inj_1 in E; [|exact L1]. destruct E as [-> E]. apply app_inj_1 in E; [|exact L2]. destruct E as [-> ->]. split_and!; reflexivity. Qed.
Lemma b64_round url bs : Forall byte_ok bs -> (length bs mod 3 = 0)%nat -> b64_decode url (b64_encode url bs) = Some bs.
Proof.
  remember (length bs) as n eqn:Hn. revert bs Hn. induction n as [n IH] using lt_wf_ind. intros bs -> Hb H3.
  destruct bs as [|a [|b [|c bs]]]; [reflexivity|discriminate|discriminate|].
  inversion_clear Hb as [|? ? Ha Hb1]. inversion_clear Hb1 as [|? ? Hb' Hb2]. inversion_clear Hb2 as [|? ? Hc Hbs].
  cbn [b64_encode b64_decode]. destruct (sextets a b c Ha Hb' Hc) as (L1 & L2 & L3 & L4 & E).
  rewrite !b64_val_char by assumption.
  rewrite (IH (length bs) ltac:(cbn; lia) bs eq_refl Hbs).
  2:{ cbn [length] in H3. replace (S (S (S (length bs)))) with (length bs + 1 * 3)%nat in H3 by lia. rewrite Nat.mod_add in H3 by lia. exact H3. }
  destruct (octets _ _ _ _ L1 L2 L3 L4) as (O1 & O2 & O3 & O). rewrite E in O.
  apply app3_inj in O; [|rewrite !length_byte_bits; reflexivity..]. destruct O as (X1 & X2 & X3).
  apply byte_bits_inj in X1, X2, X3; try assumption. rewrite X1, X2, X3. reflexivity.
Qed.
Lemma b64_length url bs : (length bs mod 3 = 0)%nat -> length (b64_encode url bs) = (length bs / 3 * 4)%nat.
Proof.
  remember (length bs) as n eqn:Hn. revert bs Hn. induction n as [n IH] using lt_wf_ind. intros bs -> H3.
  destruct bs as [|a [|b [|c bs]]]; [reflexivity|discriminate|discriminate|].
  cbn [b64_encode length] in *. replace (S (S (S (length bs)))) with (length bs + 1 * 3)%nat in * by lia. rewrite Nat.mod_add in H3 by lia.
  rewrite (IH (length bs) ltac:(lia) bs eq_refl H3), Nat.div_add by lia. lia.
Qed.
Lemma b64_decode_inv url s bs : b64_decode url s = Some bs -> Forall byte_ok bs /\ b64_encode url bs = s /\ (length bs mod 3 = 0)%nat.
Proof.
  remember (length s) as n eqn:Hn. revert s Hn bs. induction n as [n IH] using lt_wf_ind. intros s -> bs H.
  destruct s as [|p [|q [|r [|t s]]]]; try discriminate.
  { injection H as <-. split_and!; [constructor|reflexivity|reflexivity]. }
  cbn [b64_decode] in H.
  destruct (b64_val url p) as [w|] eqn:E1; [|discriminate]. destruct (b64_val url q) as [x|] eqn:E2; [|discriminate].
  destruct (b64_val url r) as [y|] eqn:E3; [|discriminate]. destruct (b64_val url t) as [z|] eqn:E4; [|discriminate].
  destruct (b64_decode url s) as [rest|] eqn:E5; [|discriminate]. injection H as <-.
  destruct (IH (length s) ltac:(cbn; lia) s eq_refl rest E5) as (R1 & R2 & R3).
  apply b64_char_val in E1, E2, E3, E4. destruct E1 as [L1 <-], E2 as [L2 <-], E3 as [L3 <-], E4 as [L4 <-].
  destruct (octets _ _ _ _ L1 L2 L3 L4) as (O1 & O2 & O3 & O).
  set (a := N.lor (shl 8 w 2) (N.shiftr x 4)) in *. set (b := N.lor (shl 8 x 4) (N.shiftr y 2)) in *. set (c := N.lor (shl 8 y 6) z) in *.
  destruct (sextets a b c O1 O2 O3) as (S1 & S2 & S3 & S4 & E). rewrite O in E.
  apply app_inj_1 in E; [|rewrite !length_nbits; reflexivity]. destruct E as [X1 E].
  apply app3_inj in E; [|rewrite !length_nbits; reflexivity..]. destruct E as (X2 & X3 & X4).
  apply nbits_inj in X1, X2, X3, X4; try assumption.
  split_and!.
  - repeat constructor; assumption.
  - cbn [b64_encode]. rewrite X1, X2, X3, X4, R2. reflexivity.
  - cbn [length]. replace (S (S (S (length rest)))) with (length rest + 1 * 3)%nat by lia. rewrite Nat.mod_add by lia. exact R3.
Qed.
