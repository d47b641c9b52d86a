(** * Proofs about addresses as text. *)
From Verif Require Import Err BitsProofs WordProofs IntModel IntProofs CellModel TextModel TextSpec TextProofs TextProofs2 NumModel NumSpec Var248Proofs2 Crc16Model Crc16Spec Crc16Proofs AddrModel AddrSpec CodecProofs AddrProofs.
Local Open Scope N_scope.

(** ** Signed numbers *)
Lemma dval_digits s n : dval 10 s 0 = Some n /\ s <> [] <-> digits_of n s.
Proof.
  rewrite dval_iff by lia. unfold digits_of. split.
  - intros [(ds & F & E) Hs]. exists ds. split; [intros ->; inversion F; subst; congruence|]. split; [|split; [|exact E]].
    + clear - F. induction F as [|d c ds s Hd F IH]; constructor; [apply Hd|exact IH].
    + clear - F. induction F as [|d c ds s Hd F IH]; [reflexivity|]. cbn [map]. f_equal; [unfold digit_text in Hd; lia|exact IH].
  - intros (ds & Hn & F & -> & E). split; [|destruct ds; [congruence|discriminate]]. exists ds. split; [|exact E].
    clear - F. induction F as [|d ds Hd F IH]; cbn [map]; constructor; [unfold digit_text; lia|exact IH].
Qed.
Lemma digits_sign n cs : digits_of n cs -> cs <> [] /\ (forall c r, cs = c :: r -> c <> 43 /\ c <> 45).
Proof.
  intros (ds & Hn & F & -> & _). destruct ds as [|d ds]; [congruence|]. inversion_clear F. cbn [map]. split; [discriminate|].
  intros c r [= <- _]. lia.
Qed.
Lemma digits_unique n m cs : digits_of n cs -> digits_of m cs -> n = m.
Proof. intros H1 H2. apply dval_digits in H1, H2. destruct H1, H2. congruence. Qed.
Lemma parse_digits_iff max s n : s <> [] -> parse_digits 10 max s 0 = Some n <-> digits_of n s /\ n <= max.
Proof.
  intros Hs. split.
  - intros H. apply parse_digits_inv in H; [|lia]. destruct H as [H L]. split; [|exact L]. apply dval_digits. auto.
  - intros [H L]. apply dval_digits in H. apply parse_digits_dval; [lia|apply H|exact L].
Qed.
Lemma parse_signed_iff w s z : 1 <= w -> parse_signed w s = Some z <-> int_text z s /\ in_int (Z.of_N w) z.
Proof.
  intros Hw. unfold int_text, in_int.
  assert (PZ : Z.of_N (2 ^ (w - 1)) = (2 ^ (Z.of_N w - 1))%Z) by (rewrite N2Z.inj_pow; f_equal; lia).
  assert (P0 : 0 < 2 ^ (w - 1)) by (apply N.neq_0_lt_0, N.pow_nonzero; lia).
  (* the three readings *)
  assert (POS : forall cs, cs <> [] -> option_map Z.of_N (parse_digits 10 (2 ^ (w - 1) - 1) cs 0) = Some z <->
      exists n, digits_of n cs /\ z = Z.of_N n /\ (z < 2 ^ (Z.of_N w - 1))%Z).
  { intros cs Hc. destruct (parse_digits 10 (2 ^ (w - 1) - 1) cs 0) as [n|] eqn:E.
    - cbn [option_map]. apply parse_digits_iff in E; [|exact Hc]. destruct E as [D L]. split.
      + intros [= <-]. exists n. split; [exact D|]. split; [reflexivity|lia].
      + intros (m & Dm & -> & _). f_equal. f_equal. eapply digits_unique; eassumption.
    - split; [discriminate|]. intros (n & D & -> & L). rewrite (proj2 (parse_digits_iff _ cs n Hc)) in E; [discriminate|]. split; [exact D|lia]. }
  assert (NEG : forall cs, cs <> [] -> option_map (fun x => (- Z.of_N x)%Z) (parse_digits 10 (2 ^ (w - 1)) cs 0) = Some z <->
      exists n, digits_of n cs /\ z = (- Z.of_N n)%Z /\ (- 2 ^ (Z.of_N w - 1) <= z)%Z).
  { intros cs Hc. destruct (parse_digits 10 (2 ^ (w - 1)) cs 0) as [n|] eqn:E.
    - cbn [option_map]. apply parse_digits_iff in E; [|exact Hc]. destruct E as [D L]. split.
      + intros [= <-]. exists n. split; [exact D|]. split; [reflexivity|lia].
      + intros (m & Dm & -> & _). f_equal. f_equal. f_equal. eapply digits_unique; eassumption.
    - split; [discriminate|]. intros (n & D & -> & L). rewrite (proj2 (parse_digits_iff _ cs n Hc)) in E; [discriminate|]. split; [exact D|lia]. }
  assert (PLAIN : forall c r, s = c :: r -> c <> 43 -> c <> 45 ->
      (exists n, digits_of n s /\ z = Z.of_N n /\ (z < 2 ^ (Z.of_N w - 1))%Z) <->
      (exists n cs, digits_of n cs /\ ((s = cs \/ s = 43 :: cs) /\ z = Z.of_N n \/ s = 45 :: cs /\ z = (- Z.of_N n)%Z)) /\ (- 2 ^ (Z.of_N w - 1) <= z < 2 ^ (Z.of_N w - 1))%Z).
  { intros c r Hs H1 H2. split.
    - intros (n & D & -> & L). split; [|lia]. exists n, s. auto.
    - intros [(n & cs & D & [[[E|E] Ez]|[E Ez]]) L]; [|congruence|congruence]. exists n. subst cs. split; [exact D|lia]. }
  unfold parse_signed. cbn zeta. destruct s as [|c [|c' s]].
  - split; [discriminate|]. intros [(n & cs & D & [[[<-|E] _]|[E _]]) _]; [|discriminate|discriminate]. apply digits_sign in D. destruct D as [D _]. congruence.
  - destruct (N.eqb_spec c 43) as [->|H1]; [|destruct (N.eqb_spec c 45) as [->|H2]]; cbn [orb].
    + split; [discriminate|]. intros [(n & cs & D & [[[<-|E] _]|[E _]]) _].
      * apply digits_sign in D. destruct D as [_ D]. specialize (D 43 [] eq_refl). lia.
      * injection E as <-. apply digits_sign in D. destruct D as [D _]. congruence.
      * discriminate.
    + split; [discriminate|]. intros [(n & cs & D & [[[<-|E] _]|[E _]]) _].
      * apply digits_sign in D. destruct D as [_ D]. specialize (D 45 [] eq_refl). lia.
      * discriminate.
      * injection E as <-. apply digits_sign in D. destruct D as [D _]. congruence.
    + rewrite POS by discriminate. eapply PLAIN; [reflexivity|exact H1|exact H2].
  - destruct (N.eqb_spec c 43) as [->|H1]; [|destruct (N.eqb_spec c 45) as [->|H2]].
    + rewrite POS by discriminate. split.
      * intros (n & D & -> & L). split; [|lia]. exists n, (c' :: s). auto.
      * intros [(n & cs & D & [[[<-|E] Ez]|[E _]]) L].
        -- apply digits_sign in D. destruct D as [_ D]. specialize (D 43 _ eq_refl). lia.
        -- injection E as <-. exists n. split; [exact D|lia].
        -- discriminate.
    + rewrite NEG by discriminate. split.
      * intros (n & D & -> & L). split; [|lia]. exists n, (c' :: s). auto.
      * intros [(n & cs & D & [[[<-|E] Ez]|[E Ez]]) L].
        -- apply digits_sign in D. destruct D as [_ D]. specialize (D 45 _ eq_refl). lia.
        -- discriminate.
        -- injection E as <-. exists n. split; [exact D|lia].
    + rewrite POS by discriminate. eapply PLAIN; [reflexivity|exact H1|exact H2].
Qed.
Lemma int_text_chars z s : int_text z s -> s <> [] /\ Forall (fun c => c <> 58) s.
Proof.
  intros (n & cs & D & H). assert (C : cs <> [] /\ Forall (fun c => c <> 58) cs).
  { split; [apply (digits_sign n cs D)|]. destruct D as (ds & _ & F & -> & _). clear - F. induction F as [|d ds Hd F IH]; cbn [map]; constructor; [lia|exact IH]. }
  destruct C as [C1 C2]. destruct H as [[[->| ->] _]|[-> _]]; (split; [assumption || discriminate|]); try assumption; constructor; try assumption; discriminate.
Qed.

(** ** Splitting at colons *)
Lemma split_at_inv sep s : split_at sep s <> [] /\ Forall (Forall (fun c => c <> sep)) (split_at sep s)
  /\ (forall p, split_at sep s = [p] -> s = p)
  /\ (forall p q r, split_at sep s = p :: q :: r -> exists t, s = p ++ sep :: t /\ split_at sep t = q :: r).
Proof.
  induction s as [|c s (N1 & F & I1 & I2)]; cbn [split_at].
  { split_and!; [discriminate|repeat constructor|intros p [= <-]; reflexivity|discriminate]. }
  destruct (N.eqb_spec c sep) as [->|Hc].
  - split_and!; [discriminate|constructor; [constructor|exact F]|intros p [= <- E]; congruence|].
    intros p q r [= <- E]. exists s. split; [reflexivity|exact E].
  - destruct (split_at sep s) as [|p0 ps] eqn:E; [congruence|]. inversion_clear F as [|? ? F0 Fs]. split_and!; [discriminate|repeat constructor; assumption| |].
    + intros p [= <- ->]. f_equal. apply I1. reflexivity.
    + intros p q r [= <- ->]. destruct (I2 p0 q r eq_refl) as (t & -> & Et). exists t. split; [reflexivity|exact Et].
Qed.

(** ** Hexadecimal identifiers *)
Lemma hex_decode_to_iff n s bs : hex_decode_to n s = Some bs <-> Forall byte_ok bs /\ length bs = n /\ spells s (bytes_bits bs).
Proof.
  unfold hex_decode_to. split.
  - destruct (negb _) eqn:E0; [discriminate|]. intros H. apply negb_false_iff, Nat.eqb_eq in E0.
    assert (H' : hex_decode s = Some bs /\ length bs = n).
    { destruct (length s / 2 =? n)%nat eqn:E1; cbn [negb] in H; [|discriminate]. apply Nat.eqb_eq in E1. split; [exact H|].
      rewrite hex_decode_nibs in H. destruct (Nat.even (length s)); [|discriminate]. destruct (nibs s) as [x|] eqn:En; [|discriminate]. injection H as <-.
      rewrite length_pack. apply nibs_length in En. rewrite En. rewrite <- E1.
      pose proof (Nat.div_mod (length s) 2 ltac:(lia)). rewrite E0 in *. set (k := (length s / 2)%nat) in *. replace (4 * length s + 7)%nat with (7 + k * 8)%nat by lia. rewrite Nat.div_add by lia. reflexivity. }
    destruct H' as [H1 H2]. split; [eapply hex_decode_ok; exact H1|]. split; [exact H2|].
    rewrite hex_decode_nibs in H1. destruct (Nat.even (length s)) eqn:Ev; [|discriminate]. destruct (nibs s) as [x|] eqn:En; [|discriminate]. injection H1 as <-.
    apply spells_nibs. rewrite En. f_equal. rewrite bytes_bits_pack, length_pack. apply nibs_length in En. rewrite En.
    pose proof (Nat.div_mod (length s) 2 ltac:(lia)). rewrite E0 in *. set (k := (length s / 2)%nat) in *. replace (4 * length s + 7)%nat with (7 + k * 8)%nat by lia. rewrite Nat.div_add by lia.
    change (7 / 8)%nat with 0%nat. replace (8 * (0 + k) - 4 * length s)%nat with 0%nat by lia. rewrite app_nil_r. reflexivity.
  - intros (F & L & Sp). pose proof (spells_length _ _ Sp) as Ls. rewrite length_bytes_bits in Ls.
    assert (E : length s = (n * 2)%nat) by lia. rewrite E, Nat.mod_mul, Nat.div_mul by lia. rewrite !Nat.eqb_refl. cbn [negb].
    rewrite hex_decode_nibs, E. replace (Nat.even (n * 2)) with true by (symmetry; apply Nat.even_spec; exists n; lia).
    apply spells_nibs in Sp. rewrite Sp. cbn [option_map]. f_equal. apply pack_bytes_bits. exact F.
Qed.
Lemma spells_chars s b : spells s b -> Forall (fun c => c <> 58) s.
Proof.
  induction 1 as [|c v s b Hc Hs IH]; constructor; [|exact IH]. apply hexdigit_val in Hc. intros ->. vm_compute in Hc. discriminate.
Qed.

Lemma parse_std_iff s a : parse_std s = AOk a <->
  exists p q wc id, s = p ++ 58 :: q /\ int_text wc p /\ in_int 8 wc /\ spells q (bytes_bits id) /\ Forall byte_ok id /\ length id = 32%nat /\ a = StdAddr None wc id.
Proof.
  split.
  - unfold parse_std. destruct s as [|c0 s0] eqn:Es0; [discriminate|]. rewrite <- Es0. clear c0 s0 Es0. change CCOLON with 58.
    destruct (split_at_inv 58 s) as (_ & _ & _ & I2). destruct (split_at 58 s) as [|p [|q r]] eqn:E; [discriminate| |].
    { destruct (parse_signed 8 p); discriminate. }
    destruct (parse_signed 8 p) as [wc|] eqn:Ep; [|discriminate]. destruct (hex_decode_to 32 q) as [id|] eqn:Eq; [|discriminate]. destruct r; [|discriminate].
    intros [= <-]. destruct (I2 p q [] eq_refl) as (t & -> & Et). destruct (split_at_inv 58 t) as (_ & _ & I1 & _). apply I1 in Et. subst t.
    apply parse_signed_iff in Ep; [|lia]. apply hex_decode_to_iff in Eq. exists p, q, wc, id. split_and!; try reflexivity; try apply Ep; apply Eq.
  - intros (p & q & wc & id & -> & T & Hw & Sp & F & L & ->). destruct (int_text_chars wc p T) as [Pn Pc].
    unfold parse_std. destruct (p ++ 58 :: q) as [|c0 s0] eqn:Es0; [destruct p; discriminate|]. rewrite <- Es0. clear c0 s0 Es0. change CCOLON with 58.
    rewrite split_at_app by exact Pc. rewrite split_at_last by (eapply spells_chars; exact Sp).
    rewrite (proj2 (parse_signed_iff 8 p wc ltac:(lia)) (conj T Hw)). rewrite (proj2 (hex_decode_to_iff 32 q id) (conj F (conj L Sp))). reflexivity.
Qed.
Lemma show_int_text z : int_text z (show_int z).
Proof.
  assert (D : forall n, digits_of n (show_dec n)).
  { intros n. apply dval_digits. destruct (show_radix_ok false 10 n) as (A & B & _); [lia..|]. split; [exact B|exact A]. }
  unfold int_text, show_int. destruct (Z.ltb_spec z 0) as [H|H]; exists (Z.abs_N z), (show_dec (Z.abs_N z)); (split; [apply D|]); [right; split; [reflexivity|lia]|left; split; [left; reflexivity|lia]].
Qed.

(** ** Base64 *)
Lemma alphabet_val url v c : alphabet url !! N.to_nat v = Some c <-> b64_val url c = Some v.
Proof.
  assert (G : forall u, forallb (fun x => bool_decide (alphabet u !! N.to_nat x = Some (b64_char u x))) (map N.of_nat (seq 0 64)) = true) by (intros [|]; vm_compute; reflexivity).
  assert (E : forall x, x < 64 -> alphabet url !! N.to_nat x = Some (b64_char url x)).
  { intros x Hx. apply (range_in (fun x => alphabet url !! N.to_nat x = Some (b64_char url x)) _ 64 (G url)); [|exact Hx]. intros y Hy. apply bool_decide_eq_true in Hy. exact Hy. }
  split.
  - intros H. assert (Hv : v < 64). { apply lookup_lt_Some in H. destruct url; vm_compute length in H; lia. }
    rewrite E in H by exact Hv. injection H as <-. apply b64_val_char. exact Hv.
  - intros H. apply b64_char_val in H. destruct H as [Hv <-]. apply E, Hv.
Qed.
Lemma b64_decode_text url s : forall bs, b64_decode url s = Some bs -> Forall byte_ok bs /\ b64_text url bs s.
Proof.
  remember (length s) as n eqn:Hn. revert s Hn. induction n as [n IH] using lt_wf_ind. intros s -> bs H.
  destruct s as [|p [|q [|r [|t s]]]]; try discriminate.
  { injection H as <-. split; [constructor|]. exists []. split; [constructor|reflexivity]. }
  cbn [b64_decode] in H.
  destruct (b64_val url p) as [w|] eqn:E1; [|discriminate]. destruct (b64_val url q) as [x|] eqn:E2; [|discriminate].
  destruct (b64_val url r) as [y|] eqn:E3; [|discriminate]. destruct (b64_val url t) as [z|] eqn:E4; [|discriminate].
  destruct (b64_decode url s) as [rest|] eqn:E5; [|discriminate]. injection H as <-.
  destruct (IH (length s) ltac:(cbn; lia) s eq_refl rest E5) as (R1 & vals & R2 & R3).
  destruct (b64_char_val _ _ _ E1) as [L1 _]. destruct (b64_char_val _ _ _ E2) as [L2 _]. destruct (b64_char_val _ _ _ E3) as [L3 _]. destruct (b64_char_val _ _ _ E4) as [L4 _].
  destruct (octets _ _ _ _ L1 L2 L3 L4) as (O1 & O2 & O3 & O). split; [repeat constructor; assumption|].
  exists (w :: x :: y :: z :: vals). split; [repeat (constructor; [apply alphabet_val; assumption|]); exact R2|].
  rewrite !bytes_bits_cons. cbn [map concat]. rewrite R3.
  rewrite !app_assoc. f_equal. rewrite <- !app_assoc. exact O.
Qed.
Lemma b64_text_length url bs s : b64_text url bs s -> (3 * length s = 4 * length bs)%nat.
Proof.
  intros (vals & F & E). apply Forall2_length in F. apply (f_equal length) in E. rewrite length_bytes_bits in E.
  assert (L : length (concat (map (nbits 6) vals)) = (6 * length vals)%nat).
  { clear. induction vals as [|v vals IH]; [reflexivity|]. cbn [map concat]. rewrite app_length, length_nbits, IH. cbn [length]. lia. }
  lia.
Qed.
Lemma b64_text_decode url s : forall bs, Forall byte_ok bs -> b64_text url bs s -> b64_decode url s = Some bs.
Proof.
  remember (length s) as n eqn:Hn. revert s Hn. induction n as [n IH] using lt_wf_ind. intros s -> bs Fb T. pose proof (b64_text_length _ _ _ T) as TL.
  destruct s as [|p [|q [|r [|t s]]]]; cbn [length] in TL; try lia.
  { destruct bs; [reflexivity|cbn in TL; lia]. }
  destruct bs as [|a [|b [|c bs]]]; cbn [length] in TL; try lia.
  inversion_clear Fb as [|? ? Ha Fb1]. inversion_clear Fb1 as [|? ? Hb Fb2]. inversion_clear Fb2 as [|? ? Hc Fbs].
  destruct T as (vals & F & E). inversion F as [|w ? v1 ? E1 F1]; subst. inversion F1 as [|x ? v2 ? E2 F2]; subst. inversion F2 as [|y ? v3 ? E3 F3]; subst. inversion F3 as [|z ? v4 ? E4 F4]; subst.
  apply alphabet_val in E1, E2, E3, E4.
  destruct (b64_char_val _ _ _ E1) as [L1 _]. destruct (b64_char_val _ _ _ E2) as [L2 _]. destruct (b64_char_val _ _ _ E3) as [L3 _]. destruct (b64_char_val _ _ _ E4) as [L4 _].
  destruct (octets _ _ _ _ L1 L2 L3 L4) as (O1 & O2 & O3 & O).
  rewrite !bytes_bits_cons in E. cbn [map concat] in E.
  replace (nbits 6 w ++ nbits 6 x ++ nbits 6 y ++ nbits 6 z ++ concat (map (nbits 6) v4)) with ((nbits 6 w ++ nbits 6 x ++ nbits 6 y ++ nbits 6 z) ++ concat (map (nbits 6) v4)) in E by (rewrite <- !app_assoc; reflexivity).
  rewrite <- O, <- !app_assoc in E. apply app_inj_1 in E; [|rewrite !length_byte_bits; reflexivity]. destruct E as [X1 E]. apply app3_inj in E; [|rewrite !length_byte_bits; reflexivity..]. destruct E as (X2 & X3 & E).
  cbn [b64_decode]. rewrite E1, E2, E3, E4.
  rewrite (IH (length s) ltac:(cbn; lia) s eq_refl bs Fbs) by (exists v4; auto).
  apply byte_bits_inj in X1, X2, X3; try assumption. rewrite <- X1, <- X2, <- X3. reflexivity.
Qed.
