(** * Proofs about texts of hashes *)
From Verif Require Import Err BitsProofs WordProofs CellModel TextModel TextSpec TextProofs TextProofs2 AddrSpec AddrProofs3 HashTextModel HashTextSpec.
Local Open Scope N_scope.

Lemma val_pad : b64_val false 61 = None. Proof. reflexivity. Qed.
Lemma val_zero : b64_val false 65 = Some 0. Proof. reflexivity. Qed.
Lemma low4 x : x < 64 -> (N.land x 15 =? 0) = (N.lor (shl 8 x 4) (N.shiftr 0 2) =? 0).
Proof.
  intros H. assert (G : forallb (fun x => bool_decide ((N.land x 15 =? 0) = (N.lor (shl 8 x 4) (N.shiftr 0 2) =? 0))) (map N.of_nat (seq 0 64)) = true) by (vm_compute; reflexivity).
  apply (range_in (fun x => (N.land x 15 =? 0) = (N.lor (shl 8 x 4) (N.shiftr 0 2) =? 0)) _ 64 G); [|exact H]. intros y Hy. apply bool_decide_eq_true in Hy. exact Hy.
Qed.
Lemma low2 x : x < 64 -> (N.land x 3 =? 0) = (N.lor (shl 8 x 6) 0 =? 0).
Proof.
  intros H. assert (G : forallb (fun x => bool_decide ((N.land x 3 =? 0) = (N.lor (shl 8 x 6) 0 =? 0))) (map N.of_nat (seq 0 64)) = true) by (vm_compute; reflexivity).
  apply (range_in (fun x => (N.land x 3 =? 0) = (N.lor (shl 8 x 6) 0 =? 0)) _ 64 G); [|exact H]. intros y Hy. apply bool_decide_eq_true in Hy. exact Hy.
Qed.

(** The text without its padding, decoded as a text of whole groups. *)
Definition filled (bs s : list N) : Prop :=
  exists k t, (k < 3)%nat /\ b64_decode false (t ++ replicate k 65) = Some (bs ++ replicate k 0) /\ s = t ++ replicate k 61.
Lemma decode_length s : forall bs, b64_decode false s = Some bs -> (3 * length s = 4 * length bs)%nat.
Proof. intros bs H. apply b64_decode_text in H. apply (b64_text_length false), H. Qed.

Lemma last_filled p q r t bs : last_quad p q r t = Some bs -> filled bs [p; q; r; t].
Proof.
  unfold last_quad. destruct (N.eqb_spec t 61) as [->|Ht].
  - destruct (N.eqb_spec r 61) as [->|Hr].
    + destruct (b64_val false p) as [a|] eqn:Ep; [|discriminate]. destruct (b64_val false q) as [b|] eqn:Eq; [|discriminate].
      destruct (b64_char_val _ _ _ Eq) as [Lb _]. rewrite (low4 b Lb). destruct (N.eqb_spec (N.lor (shl 8 b 4) (N.shiftr 0 2)) 0) as [E0|]; [|discriminate].
      intros E. injection E as <-. exists 2%nat, [p; q]. split; [lia|]. split; [|reflexivity].
      cbn [app replicate b64_decode]. rewrite Ep, Eq, val_zero, E0. reflexivity.
    + destruct (b64_val false p) as [a|] eqn:Ep; [|discriminate]. destruct (b64_val false q) as [b|] eqn:Eq; [|discriminate]. destruct (b64_val false r) as [c|] eqn:Er; [|discriminate].
      destruct (b64_char_val _ _ _ Er) as [Lc _]. rewrite (low2 c Lc). destruct (N.eqb_spec (N.lor (shl 8 c 6) 0) 0) as [E0|]; [|discriminate].
      intros E. injection E as <-. exists 1%nat, [p; q; r]. split; [lia|]. split; [|reflexivity].
      cbn [app replicate b64_decode]. rewrite Ep, Eq, Er, val_zero, E0. reflexivity.
  - intros E. exists 0%nat, [p; q; r; t]. split; [lia|]. split; [|reflexivity]. cbn [replicate]. rewrite !app_nil_r. exact E.
Qed.
Lemma decode_filled s : forall bs, decode_base64 s = Some bs -> filled bs s.
Proof.
  remember (length s) as n eqn:Hn. revert s Hn. induction n as [n IH] using lt_wf_ind. intros s -> bs H.
  destruct s as [|p [|q [|r [|t s]]]]; try discriminate.
  { injection H as <-. exists 0%nat, []. split; [lia|]. split; reflexivity. }
  destruct s as [|c0 s].
  { apply last_filled. exact H. }
  cbn [decode_base64] in H. fold decode_base64 in H.
  destruct (b64_val false p) as [w|] eqn:E1; [|discriminate]. destruct (b64_val false q) as [x|] eqn:E2; [|discriminate].
  destruct (b64_val false r) as [y|] eqn:E3; [|discriminate]. destruct (b64_val false t) as [z|] eqn:E4; [|discriminate].
  match type of H with match ?d with _ => _ end = _ => destruct d as [rest|] eqn:E5; [|discriminate] end. injection H as <-.
  destruct (IH (length (c0 :: s)) ltac:(cbn; lia) (c0 :: s) eq_refl rest E5) as (k & u & Hk & D & ->).
  exists k, (p :: q :: r :: t :: u). split; [exact Hk|]. split; [|reflexivity].
  cbn [app b64_decode]. rewrite E1, E2, E3, E4, D. reflexivity.
Qed.
Lemma decode_quad p q r t s : s <> [] -> decode_base64 (p :: q :: r :: t :: s) =
  match b64_val false p, b64_val false q, b64_val false r, b64_val false t, decode_base64 s with
  | Some a, Some b, Some c, Some d, Some rest =>
    Some (N.lor (shl 8 a 2) (N.shiftr b 4) :: N.lor (shl 8 b 4) (N.shiftr c 2) :: N.lor (shl 8 c 6) d :: rest)
  | _, _, _, _, _ => None
  end.
Proof. destruct s; [congruence|reflexivity]. Qed.
Lemma filled_last k u bs : (k < 3)%nat -> length (u ++ replicate k 65) = 4%nat -> b64_decode false (u ++ replicate k 65) = Some (bs ++ replicate k 0) ->
  decode_base64 (u ++ replicate k 61) = Some bs.
Proof.
  intros Hk L D. pose proof (decode_length _ _ D) as LB. rewrite app_length, replicate_length in L. rewrite !app_length, !replicate_length in LB.
  destruct k as [|[|[|]]]; [| | |lia].
  - destruct u as [|p [|q [|r [|t [|]]]]]; cbn [length] in L; try lia. cbn [replicate] in *. rewrite !app_nil_r in *. cbn [decode_base64]. unfold last_quad.
    destruct (N.eqb_spec t 61) as [->|]; [|exact D]. cbn [b64_decode] in D. rewrite val_pad in D.
    destruct (b64_val false p), (b64_val false q), (b64_val false r); discriminate.
  - destruct u as [|p [|q [|r [|]]]]; cbn [length] in L; try lia. destruct bs as [|a [|b [|]]]; cbn [length] in LB; try lia.
    cbn [replicate app b64_decode] in D. rewrite val_zero in D.
    destruct (b64_val false p) as [w|] eqn:E1; [|discriminate]. destruct (b64_val false q) as [x|] eqn:E2; [|discriminate]. destruct (b64_val false r) as [y|] eqn:E3; [|discriminate].
    destruct (b64_char_val _ _ _ E3) as [L3 _]. injection D as <- <- D.
    cbn [replicate app decode_base64]. unfold last_quad. rewrite E1, E2, E3, (low2 y L3), D. cbn [N.eqb].
    destruct (N.eqb_spec r 61) as [->|]; [rewrite val_pad in E3; discriminate|]. reflexivity.
  - destruct u as [|p [|q [|]]]; cbn [length] in L; try lia. destruct bs as [|a [|]]; cbn [length] in LB; try lia.
    cbn [replicate app b64_decode] in D. rewrite val_zero in D.
    destruct (b64_val false p) as [w|] eqn:E1; [|discriminate]. destruct (b64_val false q) as [x|] eqn:E2; [|discriminate].
    destruct (b64_char_val _ _ _ E2) as [L2 _]. injection D as <- D.
    cbn [replicate app decode_base64]. unfold last_quad. rewrite E1, E2, (low4 x L2), D. reflexivity.
Qed.
Lemma filled_decode k : (k < 3)%nat -> forall u bs, b64_decode false (u ++ replicate k 65) = Some (bs ++ replicate k 0) ->
  decode_base64 (u ++ replicate k 61) = Some bs.
Proof.
  intros Hk u. remember (length u) as n eqn:Hn. revert u Hn. induction n as [n IH] using lt_wf_ind. intros u -> bs D.
  pose proof (decode_length _ _ D) as LB. rewrite !app_length, !replicate_length in LB.
  destruct (Nat.eq_dec (length u + k) 4) as [E4|N4].
  { apply filled_last; [exact Hk|rewrite app_length, replicate_length; exact E4|exact D]. }
  destruct (Nat.eq_dec (length u) 0) as [E0|N0].
  { destruct u; [|discriminate]. cbn [length] in *. assert (k = 0%nat) by lia. subst k. destruct bs; [reflexivity|cbn in LB; lia]. }
  destruct u as [|p [|q [|r [|t u]]]]; cbn [length] in *; try lia.
  cbn [app] in *. cbn [b64_decode] in D.
  destruct (b64_val false p) as [w|] eqn:E1; [|discriminate]. destruct (b64_val false q) as [x|] eqn:E2; [|discriminate].
  destruct (b64_val false r) as [y|] eqn:E3; [|discriminate]. destruct (b64_val false t) as [z|] eqn:E4; [|discriminate].
  destruct (b64_decode false (u ++ replicate k 65)) as [rest|] eqn:E5; [|discriminate].
  assert (LR : length rest = (length bs + k - 3)%nat). { injection D as D. apply (f_equal length) in D. rewrite app_length, replicate_length in D. cbn [length] in D. lia. }
  destruct bs as [|a [|b [|c bs]]]; cbn [length] in *; try lia.
  injection D as <- <- <- ->.
  rewrite decode_quad. 2:{ intros E. apply (f_equal length) in E. rewrite app_length, replicate_length in E. cbn in E. lia. }
  rewrite E1, E2, E3, E4, (IH (length u) ltac:(lia) u eq_refl bs E5). reflexivity.
Qed.
Theorem decode_base64_iff s bs : decode_base64 s = Some bs <-> Forall byte_ok bs /\ padded bs s.
Proof.
  split.
  - intros H. apply decode_filled in H. destruct H as (k & t & Hk & D & ->). apply b64_decode_text in D. destruct D as [F T].
    split; [apply Forall_app in F; apply F|]. exists k, t. auto.
  - intros (F & k & t & Hk & T & ->). apply (filled_decode k Hk). apply b64_text_decode; [|exact T].
    apply Forall_app. split; [exact F|]. apply Forall_replicate. reflexivity.
Qed.
Lemma encode_base64_fill bs : Forall byte_ok bs -> exists k t, (k < 3)%nat /\ ((length bs + k) mod 3 = 0)%nat /\
  b64_encode false (bs ++ replicate k 0) = t ++ replicate k 65 /\ encode_base64 bs = t ++ replicate k 61.
Proof.
  remember (length bs) as n eqn:Hn. revert bs Hn. induction n as [n IH] using lt_wf_ind. intros bs -> F.
  destruct bs as [|a [|b [|c bs]]].
  - exists 0%nat, []. split; [lia|]. auto.
  - exists 2%nat. eexists. split; [lia|]. split; [reflexivity|]. cbn [app replicate b64_encode encode_base64]. rewrite N.shiftr_0_l, N.lor_0_r.
    split; [|exact (eq_refl ([_; _] ++ [61; 61]))]. reflexivity.
  - exists 1%nat. eexists. split; [lia|]. split; [reflexivity|]. cbn [app replicate b64_encode encode_base64]. rewrite N.shiftr_0_l, N.lor_0_r.
    split; [|exact (eq_refl ([_; _; _] ++ [61]))]. reflexivity.
  - inversion_clear F as [|? ? _ F1]. inversion_clear F1 as [|? ? _ F2]. inversion_clear F2 as [|? ? _ F3].
    destruct (IH (length bs) ltac:(cbn; lia) bs eq_refl F3) as (k & t & Hk & M & E1 & E2).
    exists k. eexists. split; [exact Hk|]. split. { cbn [length]. replace (S (S (S (length bs))) + k)%nat with (length bs + k + 1 * 3)%nat by lia. rewrite Nat.mod_add by lia. exact M. }
    cbn [app b64_encode encode_base64]. rewrite E1, E2. split; [|exact (eq_refl ((_ :: _ :: _ :: _ :: t) ++ replicate k 61))]. reflexivity.
Qed.
Theorem encode_base64_padded bs : Forall byte_ok bs -> padded bs (encode_base64 bs).
Proof.
  intros F. destruct (encode_base64_fill bs F) as (k & t & Hk & M & E1 & E2). exists k, t. split; [exact Hk|]. split; [|exact E2].
  rewrite <- E1. apply b64_decode_text. apply b64_round.
  - apply Forall_app. split; [exact F|]. apply Forall_replicate. reflexivity.
  - rewrite app_length, replicate_length. exact M.
Qed.
Lemma padded_length bs s : padded bs s -> (exists k, k < 3 /\ 3 * length s = 4 * (length bs + k))%nat.
Proof.
  intros (k & t & Hk & T & ->). exists k. split; [exact Hk|]. apply b64_text_length in T. rewrite !app_length, !replicate_length in T. rewrite app_length, replicate_length. lia.
Qed.
Lemma encode_base64_round bs : Forall byte_ok bs -> decode_base64 (encode_base64 bs) = Some bs.
Proof. intros F. apply decode_base64_iff. split; [exact F|apply encode_base64_padded, F]. Qed.

(** ** Hashes *)
Lemma spells_length s b : spells s b -> (length b = 4 * length s)%nat.
Proof. induction 1 as [|c v s b H S IH]; [reflexivity|]. rewrite app_length, length_nbits, IH. cbn [length]. lia. Qed.
Lemma hash_length h s : length h = 32%nat -> spells s (bytes_bits h) -> length s = 64%nat.
Proof. intros L S. apply spells_length in S. rewrite length_bytes_bits in S. lia. Qed.
Lemma of_opt_ok {A} e (o : option A) x : of_opt e o = Ok x <-> o = Some x.
Proof. destruct o; cbn [of_opt]; split; intros E; congruence. Qed.
Lemma parse_64 s : length s = 64%nat -> parse_hash s = of_opt InvalidData (hex_decode_to 32 s).
Proof. intros L. unfold parse_hash. rewrite L. reflexivity. Qed.
Lemma parse_66 s : length s = 66%nat -> parse_hash s = if boundary 2 s then of_opt InvalidData (hex_decode_to 32 (drop 2 s)) else Err Panic.
Proof. intros L. unfold parse_hash. rewrite L. reflexivity. Qed.
Lemma parse_44 s : length s = 44%nat -> parse_hash s = of_opt InvalidData (decode_base64_slice 32 s).
Proof. intros L. unfold parse_hash. rewrite L. reflexivity. Qed.
Lemma parse_other s : length s <> 64%nat -> length s <> 66%nat -> length s <> 44%nat -> parse_hash s = Err InvalidData.
Proof.
  intros A B C. unfold parse_hash. remember (length s) as n eqn:E. clear E.
  do 67 (destruct n as [|n]; [reflexivity || congruence|]). reflexivity.
Qed.
Lemma slice_iff s h : length s = 44%nat -> decode_base64_slice 32 s = Some h <->
  Forall byte_ok h /\ length h = 32%nat /\ (padded h s \/ exists h', h = h' ++ [0] /\ padded h' s).
Proof.
  intros L. unfold decode_base64_slice. split.
  - destruct (decode_base64 s) as [bs|] eqn:D; [|discriminate]. apply decode_base64_iff in D. destruct D as [F P].
    destruct (padded_length _ _ P) as (k & Hk & E). rewrite L in E.
    destruct (Nat.ltb_spec 32 (length bs)); [discriminate|]. intros X. injection X as <-.
    assert (C : length bs = 32%nat \/ length bs = 31%nat) by lia. destruct C as [C|C]; rewrite C.
    + cbn [Nat.sub replicate]. rewrite app_nil_r. auto.
    + cbn [Nat.sub replicate]. split; [apply Forall_app; split; [exact F|repeat constructor]|]. split; [rewrite app_length, C; reflexivity|]. right. exists bs. auto.
  - intros (F & L32 & [P|(h' & -> & P)]).
    + assert (D : decode_base64 s = Some h) by (apply decode_base64_iff; auto). rewrite D, L32. cbn [Nat.ltb Nat.leb Nat.sub replicate]. rewrite app_nil_r. reflexivity.
    + apply Forall_app in F. assert (D : decode_base64 s = Some h') by (apply decode_base64_iff; split; [apply F|exact P]).
      rewrite app_length in L32. cbn [length] in L32. rewrite D. assert (C : length h' = 31%nat) by lia. rewrite C. reflexivity.
Qed.
Lemma spells_first c s b : spells (c :: s) b -> c < 128.
Proof. intros X. inversion X as [|? v ? b' Hc Hs]; subst. apply hexdigit_val, hex_ascii in Hc. apply N.ltb_lt in Hc. exact Hc. Qed.
Theorem parse_hash_iff s h : parse_hash s = Ok h <-> Forall byte_ok h /\ length h = 32%nat /\ hash_text h s.
Proof.
  destruct (Nat.eq_dec (length s) 64) as [L|N64].
  { rewrite parse_64, of_opt_ok, hex_decode_to_iff by exact L. split; intros (F & L32 & T); (split; [exact F|]; split; [exact L32|]); [apply text_digits, T|].
    inversion T as [? S|x y s' S|? P|h' ? E P]; subst; [exact S| | |].
    - apply (hash_length _ _ L32) in S. cbn [length] in L. lia.
    - apply padded_length in P. destruct P as (k & Hk & E). lia.
    - apply padded_length in P. destruct P as (k & Hk & E). rewrite app_length in L32. cbn [length] in L32. lia. }
  destruct (Nat.eq_dec (length s) 66) as [L|N66].
  { rewrite parse_66 by exact L. destruct s as [|x [|y [|z s]]]; try discriminate. cbn [drop]. unfold boundary. cbn [lookup list_lookup].
    split.
    - destruct ((z <? 128) || (192 <=? z)); [|discriminate]. rewrite of_opt_ok, hex_decode_to_iff. intros (F & L32 & T). split; [exact F|]. split; [exact L32|]. apply text_prefixed, T.
    - intros (F & L32 & T). inversion T as [? S|x' y' s' S|? P|h' ? E P]; subst.
      + apply (hash_length _ _ L32) in S. cbn [length] in L, S. lia.
      + pose proof (spells_first _ _ _ S) as Z. destruct (N.ltb_spec z 128); [|lia]. cbn [orb]. rewrite of_opt_ok, hex_decode_to_iff. auto.
      + apply padded_length in P. destruct P as (k & Hk & E). lia.
      + apply padded_length in P. destruct P as (k & Hk & E). rewrite app_length in L32. cbn [length] in L32. lia. }
  destruct (Nat.eq_dec (length s) 44) as [L|N44].
  { rewrite parse_44, of_opt_ok, slice_iff by exact L. split.
    - intros (F & L32 & [P|(h' & E & P)]); (split; [exact F|]; split; [exact L32|]); [apply text_base64, P|apply (text_short h h' s E P)].
    - intros (F & L32 & T). split; [exact F|]. split; [exact L32|]. inversion T as [? S|x' y' s' S|? P|h' ? E P]; subst.
      + apply (hash_length _ _ L32) in S. lia.
      + apply (hash_length _ _ L32) in S. cbn [length] in L. lia.
      + left. exact P.
      + right. exists h'. auto. }
  rewrite parse_other by assumption. split; [discriminate|]. intros (F & L32 & T). exfalso. inversion T as [? S|x' y' s' S|? P|h' ? E P]; subst.
  - apply (hash_length _ _ L32) in S. lia.
  - apply (hash_length _ _ L32) in S. cbn [length] in N66. lia.
  - apply padded_length in P. destruct P as (k & Hk & E). lia.
  - apply padded_length in P. destruct P as (k & Hk & E). rewrite app_length in L32. cbn [length] in L32. lia.
Qed.
Lemma parse_hash_panic s : parse_hash s = Err Panic <-> length s = 66%nat /\ exists c, s !! 2%nat = Some c /\ 128 <= c < 192.
Proof.
  split.
  - intros H. destruct (Nat.eq_dec (length s) 64) as [L|N64]. { rewrite parse_64 in H by exact L. destruct (hex_decode_to 32 s); discriminate. }
    destruct (Nat.eq_dec (length s) 66) as [L|N66].
    { rewrite parse_66 in H by exact L. split; [exact L|]. unfold boundary in H. destruct (s !! 2%nat) as [c|] eqn:E; [|apply lookup_ge_None in E; lia].
      exists c. split; [reflexivity|]. destruct (N.ltb_spec c 128); cbn [orb] in H; [destruct (hex_decode_to 32 (drop 2 s)); discriminate|].
      destruct (N.leb_spec 192 c); [destruct (hex_decode_to 32 (drop 2 s)); discriminate|lia]. }
    destruct (Nat.eq_dec (length s) 44) as [L|N44]. { rewrite parse_44 in H by exact L. destruct (decode_base64_slice 32 s); discriminate. }
    rewrite parse_other in H by assumption. discriminate.
  - intros (L & c & E & Hc). rewrite parse_66 by exact L. unfold boundary. rewrite E. destruct (N.ltb_spec c 128); [lia|]. destruct (N.leb_spec 192 c); [lia|]. reflexivity.
Qed.
