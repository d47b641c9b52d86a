(** * C35, C36, C51, C52: integer types.

    Specification: NumSpec.v.  Model: NumModel.v, Var248Model.v. *)
From Verif Require Import Err BitsProofs CellModel ShardProofs TextModel TextProofs TextProofs2 NumModel Var248Model NumSpec NumProofs Var248Proofs DivProofs DivProofs2 Var248Proofs2.
Local Open Scope N_scope.

(** ** C35: variable-length integers *)
(** A store succeeds exactly if the value is in range and there is room; it then appends the
    shortest notation and otherwise reports an overflow. *)
Theorem C35_store k v b : v < 2 ^ vk_width k ->
  match store_vk k v b with
  | Ok b' => v <= 256 ^ vk_bytes k - 1 /\ exists bits, var_uint_bits (N.to_nat (vk_len_bits k)) v bits /\ b' = b ++ bits /\ (length b' <= MAX_BITS)%nat
  | Err e => e = CellOverflow /\ (256 ^ vk_bytes k - 1 < v \/ forall bits, var_uint_bits (N.to_nat (vk_len_bits k)) v bits -> (MAX_BITS < length b + length bits)%nat)
  end.
Proof. intros H. rewrite <- vk_max_eq. apply store_vk_spec. exact H. Qed.
Print Assumptions C35_store.
(** A load reads exactly the texts of the notation, minimal or not, never yields a number out
    of range, and fails only for want of bits. *)
Theorem C35_load k b :
  (forall v r, load_vk k b = Ok (v, r) <-> exists bits, loose_var_uint_bits (N.to_nat (vk_len_bits k)) v bits /\ b = bits ++ r) /\
  (forall v r, load_vk k b = Ok (v, r) -> v <= 256 ^ vk_bytes k - 1) /\
  (forall e, load_vk k b = Err e -> e = CellUnderflow).
Proof.
  rewrite load_vk_ok. assert (A : forall v r, load_var (N.to_nat (vk_len_bits k)) b = Ok (v, r) <-> exists bits, loose_var_uint_bits (N.to_nat (vk_len_bits k)) v bits /\ b = bits ++ r) by (intros; apply load_var_spec).
  split; [exact A|]. split; [|intros e; apply load_var_err].
  intros v r H. apply A in H. destruct H as (bits & (n & Hv & Hn & _) & _). rewrite N2Nat.id in Hn.
  pose proof (vk_bytes_lt k). assert (256 ^ n <= 256 ^ vk_bytes k) by (apply N.pow_le_mono_r; lia). lia.
Qed.
Print Assumptions C35_load.
Theorem C35_round_trip k v b b' : v < 2 ^ vk_width k -> store_vk k v b = Ok b' ->
  exists bits, b' = b ++ bits /\ vk_bit_len k v = Some (N.of_nat (length bits)) /\ vk_exact_size k v = N.of_nat (length bits)
    /\ vk_unwrap_bit_len k v = N.of_nat (length bits) /\ forall rest, load_vk k (bits ++ rest) = Ok (v, rest).
Proof.
  intros Hv H. pose proof (C35_store k v b Hv) as S. rewrite H in S. destruct S as (Hm & bits & Hb & -> & _).
  exists bits. split; [reflexivity|]. assert (BL : vk_bit_len k v = Some (N.of_nat (length bits))).
  { unfold vk_bit_len. rewrite <- vk_max_eq in Hm. apply (vk_len_le k v Hv) in Hm. destruct (N.ltb_spec (vk_bytes k) (vk_len k v)); [lia|].
    apply var_bits_length in Hb. destruct Hb as (n & Sn & ->). rewrite (shortest_unique _ _ _ Sn (vk_len_shortest k v Hv)). f_equal. lia. }
  split; [exact BL|]. split; [unfold vk_exact_size; rewrite BL; reflexivity|].
  split; [unfold vk_bit_len, vk_unwrap_bit_len in *; destruct (_ <? _); congruence|].
  intros rest. apply C35_load. exists bits. split; [apply var_loose; exact Hb|reflexivity].
Qed.
Print Assumptions C35_round_trip.
(** The reported length is the length of the notation, and there is none out of range. *)
Theorem C35_bit_len k v : v < 2 ^ vk_width k ->
  match vk_bit_len k v with
  | Some n => v <= 256 ^ vk_bytes k - 1 /\ exists bits, var_uint_bits (N.to_nat (vk_len_bits k)) v bits /\ N.of_nat (length bits) = n
  | None => 256 ^ vk_bytes k - 1 < v
  end.
Proof.
  intros H. rewrite <- vk_max_eq. pose proof (vk_len_le k v H) as Le. unfold vk_bit_len.
  destruct (N.ltb_spec (vk_bytes k) (vk_len k v)) as [L|L]; [lia|]. split; [lia|].
  eexists. split; [exists (vk_len k v); split; [apply vk_len_shortest; exact H|]; split; [|reflexivity]|].
  - rewrite N2Nat.id. pose proof (vk_bytes_lt k). lia.
  - rewrite app_length, !length_nbits. lia.
Qed.
Print Assumptions C35_bit_len.
Example C35_case :
  store_vk Tokens 1000000000 [true] = Ok (true :: nbits 4 4 ++ nbits 32 1000000000) /\
  load_vk Tokens (nbits 4 5 ++ nbits 40 7 ++ [true]) = Ok (7, [true]) /\
  store_vk VarUint24 (2 ^ 24) [] = Err CellOverflow /\ vk_bit_len VarUint56 0 = Some 3.
Proof. vm_compute. auto. Qed.
(** The same for [VarUint248]. *)
Theorem C35_store248 a b : v248_ok a ->
  match store_v248 a b with
  | Ok b' => v248_val a <= MAX248 /\ exists bits, var_uint_bits 5 (v248_val a) bits /\ b' = b ++ bits /\ (length b' <= MAX_BITS)%nat
  | Err e => e = CellOverflow /\ (MAX248 < v248_val a \/ forall bits, var_uint_bits 5 (v248_val a) bits -> (MAX_BITS < length b + length bits)%nat)
  end.
Proof. apply store_v248_spec. Qed.
Print Assumptions C35_store248.
Theorem C35_load248 b :
  match load_v248 b with
  | Ok (a, r) => v248_ok a /\ v248_val a <= MAX248 /\ exists bits, loose_var_uint_bits 5 (v248_val a) bits /\ b = bits ++ r
  | Err e => e = CellUnderflow /\ forall v bits r, loose_var_uint_bits 5 v bits -> b <> bits ++ r
  end.
Proof.
  pose proof (load_v248_ok b) as H. destruct (load_v248 b) as [[a r]|e].
  - destruct H as [Ok H]. split; [exact Ok|]. apply load_var_spec in H. destruct H as (bits & L & E). split; [|eauto].
    destruct L as (n & Hv & Hn & _). change (2 ^ N.of_nat 5) with 32 in Hn.
    assert (256 ^ n <= 256 ^ 31) by (apply N.pow_le_mono_r; lia). assert (256 ^ 31 = MAX248 + 1) by reflexivity. lia.
  - split; [apply load_var_err in H; exact H|]. intros v bits r L E.
    assert (X : load_var 5 b = Ok (v, r)) by (apply load_var_spec; eauto). congruence.
Qed.
Print Assumptions C35_load248.
Theorem C35_round_trip248 a b b' : v248_ok a -> store_v248 a b = Ok b' ->
  exists bits, b' = b ++ bits /\ v248_bit_len a = Some (N.of_nat (length bits)) /\ forall rest, load_v248 (bits ++ rest) = Ok (a, rest).
Proof.
  intros Ha H. pose proof (C35_store248 a b Ha) as S. rewrite H in S. destruct S as (Hm & bits & Hb & -> & _).
  exists bits. split; [reflexivity|]. split.
  - unfold v248_bit_len. apply (v248_len_le a Ha) in Hm. destruct (N.ltb_spec 31 (v248_len a)); [lia|].
    apply var_bits_length in Hb. destruct Hb as (n & Sn & ->). rewrite (shortest_unique _ _ _ Sn (v248_len_shortest a Ha)). f_equal. lia.
  - intros rest. assert (X : load_var 5 (bits ++ rest) = Ok (v248_val a, rest)) by (apply load_var_spec; exists bits; split; [apply var_loose; exact Hb|reflexivity]).
    pose proof (load_v248_ok (bits ++ rest)) as L. destruct (load_v248 (bits ++ rest)) as [[a' r']|e]; [|congruence].
    destruct L as [Ha' L]. rewrite X in L. injection L as E <-. repeat f_equal. apply v248_val_inj; [exact Ha'|exact Ha|congruence].
Qed.
Print Assumptions C35_round_trip248.
Example C35_case248 :
  let a := V248 (2 ^ 119) 12345 in
  v248_ok a /\ v248_bit_len a = Some 253 /\ match store_v248 a [true] with Ok b => load_v248 (tl b) = Ok (a, []) | _ => False end.
Proof. cbn zeta. split; [split; reflexivity|]. split; vm_compute; reflexivity. Qed.

(** ** C36: arithmetic *)
Theorem C36_checked k a b : a < 2 ^ vk_width k -> b < 2 ^ vk_width k ->
  let max := 256 ^ vk_bytes k - 1 in
  exactly max (Z.of_N a + Z.of_N b) (vk_checked_add k a b) /\
  exactly max (Z.of_N a - Z.of_N b) (vk_checked_sub k a b) /\
  exactly max (Z.of_N a * Z.of_N b) (vk_checked_mul k a b) /\
  (b <> 0 -> exactly max (Z.of_N a / Z.of_N b) (vk_checked_div k a b)) /\ vk_checked_div k a 0 = None.
Proof.
  intros _ _. cbn zeta. rewrite <- vk_max_eq. assert (M : vk_max k < 2 ^ vk_width k) by (destruct k; reflexivity).
  split_and!.
  - apply upto_add. exact M.
  - apply upto_sub.
  - apply upto_mul. exact M.
  - intros. apply upto_div. assumption.
  - reflexivity.
Qed.
Print Assumptions C36_checked.
Theorem C36_saturating k a b :
  let max := 256 ^ vk_bytes k - 1 in
  Z.of_N (vk_saturating_add k a b) = clamp max (Z.of_N a + Z.of_N b) /\
  Z.of_N (vk_saturating_sub k a b) = clamp max (Z.of_N a - Z.of_N b) /\
  Z.of_N (vk_saturating_mul k a b) = clamp max (Z.of_N a * Z.of_N b).
Proof.
  cbn zeta. rewrite <- vk_max_eq. assert (M : vk_max k < 2 ^ vk_width k) by (destruct k; reflexivity).
  unfold vk_saturating_add, vk_saturating_sub, vk_saturating_mul, p_add, p_sub, p_mul, clamp. rewrite <- N2Z.inj_mul.
  generalize dependent (vk_max k). intros max M. generalize dependent (2 ^ vk_width k). intros W M. generalize (a * b). intros m.
  split_and!.
  - destruct (N.ltb_spec (a + b) W), (N.leb_spec (a + b) max); lia.
  - destruct (N.leb_spec b a), (N.leb_spec (a - b) max); lia.
  - destruct (N.ltb_spec m W), (N.leb_spec m max); lia.
Qed.
Print Assumptions C36_saturating.
(** The assigning forms leave the value alone when they fail. *)
Theorem C36_try_assign k a b :
  let tried (op : res unit * N) (o : option N) :=
    match o with Some r => op = (Ok tt, r) | None => op = (Err IntOverflow, a) end in
  tried (vk_try_add k a b) (vk_checked_add k a b) /\ tried (vk_try_sub k a b) (vk_checked_sub k a b) /\
  tried (vk_try_mul k a b) (vk_checked_mul k a b) /\ tried (vk_try_div k a b) (vk_checked_div k a b).
Proof.
  cbn zeta. unfold vk_try_add, vk_try_sub, vk_try_mul, vk_try_div, try_assign.
  split_and!; [destruct (vk_checked_add k a b)|destruct (vk_checked_sub k a b)|destruct (vk_checked_mul k a b)|destruct (vk_checked_div k a b)]; reflexivity.
Qed.
Print Assumptions C36_try_assign.
(** The operators [+ - * /] of a build with overflow checks give the number or panic; without
    the checks they agree whenever the result fits the machine word. *)
Theorem C36_operators k a b :
  let max := 2 ^ vk_width k - 1 in
  let done (r : res N) := match r with Ok v => Some v | Err _ => None end in
  exactly max (Z.of_N a + Z.of_N b) (done (o_add true (vk_width k) a b)) /\
  exactly max (Z.of_N a * Z.of_N b) (done (o_mul true (vk_width k) a b)) /\
  (a <= max -> exactly max (Z.of_N a - Z.of_N b) (done (o_sub true (vk_width k) a b))) /\
  (b <> 0 -> o_div a b = Ok (a / b)) /\ o_div a 0 = Err Panic /\
  forall op, op = o_add \/ op = o_sub \/ op = o_mul -> forall v, op true (vk_width k) a b = Ok v -> op false (vk_width k) a b = Ok v.
Proof.
  cbn zeta. unfold o_add, o_mul, o_sub, o_div, exactly. rewrite <- N2Z.inj_mul. assert (P : 0 < 2 ^ vk_width k) by (destruct k; reflexivity).
  generalize dependent (2 ^ vk_width k). intros W P. generalize (a * b). intros m. split_and!.
  - destruct (N.ltb_spec (a + b) W); lia.
  - destruct (N.ltb_spec m W); lia.
  - intros. destruct (N.leb_spec b a); lia.
  - intros H. destruct (N.eqb_spec b 0); [lia|reflexivity].
  - reflexivity.
  - intros op [ -> |[ -> | -> ]] v; [destruct (_ <? _)|destruct (_ <=? _)|destruct (_ <? _)]; congruence.
Qed.
Print Assumptions C36_operators.
Example C36_case : vk_checked_add VarUint24 0xffffff 1 = None /\ vk_checked_add VarUint24 0xfffffe 1 = Some 0xffffff /\
  vk_saturating_mul VarUint56 (2 ^ 40) (2 ^ 40) = 2 ^ 56 - 1 /\ vk_saturating_sub Tokens 3 5 = 0 /\ vk_checked_div Tokens 7 2 = Some 3.
Proof. vm_compute. auto. Qed.

(** [VarUint248] *)
Theorem C36_checked248 a b : v248_ok a -> v248_ok b ->
  exactly MAX248 (Z.of_N (v248_val a) + Z.of_N (v248_val b)) (option_map v248_val (v248_checked_add a b)) /\
  exactly MAX248 (Z.of_N (v248_val a) - Z.of_N (v248_val b)) (option_map v248_val (v248_checked_sub a b)) /\
  Z.of_N (v248_val (v248_saturating_add a b)) = clamp MAX248 (Z.of_N (v248_val a) + Z.of_N (v248_val b)) /\
  Z.of_N (v248_val (v248_saturating_sub a b)) = clamp MAX248 (Z.of_N (v248_val a) - Z.of_N (v248_val b)) /\
  (forall r, v248_checked_add a b = Some r \/ v248_checked_sub a b = Some r -> v248_ok r).
Proof.
  intros Ha Hb. destruct (checked_add_ok a b Ha Hb) as [A A'], (checked_sub_ok a b Ha Hb) as [S S'].
  split; [exact A|]. split; [exact S|]. split; [apply saturating_add_ok; assumption|]. split; [apply saturating_sub_ok; assumption|].
  intros r [H|H]; auto.
Qed.
Print Assumptions C36_checked248.
(** Subtraction, multiplication, division, remainder, shifts and comparison agree with the
    integers; multiplication and left shift keep the low 256 bits. *)
Theorem C36_operators248 a b n : v248_ok a -> v248_ok b ->
  (v248_val b <= v248_val a -> v248_val (v248_sub a b) = v248_val a - v248_val b) /\
  (exists r, v248_mul a b = Ok r /\ v248_val r = (v248_val a * v248_val b) mod 2 ^ 256) /\
  (v248_val b <> 0 -> exists q r, v248_div a b = Ok q /\ v248_rem a b = Ok r /\
     v248_val q = v248_val a / v248_val b /\ v248_val r = v248_val a mod v248_val b) /\
  (n < 256 -> exists r, v248_shr a n = Ok r /\ v248_val r = v248_val a / 2 ^ n) /\
  (n < 256 -> exists r, v248_shl a n = Ok r /\ v248_val r = (v248_val a * 2 ^ n) mod 2 ^ 256) /\
  v248_cmp a b = N.compare (v248_val a) (v248_val b).
Proof.
  intros Ha Hb. assert (W : W128 * W128 = 2 ^ 256) by reflexivity. split; [intros H; apply v248_sub_ok; assumption|]. split.
  { destruct (v248_mul_ok a b Ha Hb) as (r & E & _ & V). rewrite W in V. eauto. }
  split.
  { intros Nb. destruct (udivmod_ok a b Ha Hb Nb) as (q & r & E & _ & _ & Q & R). exists q, r. unfold v248_div, v248_rem. rewrite E. auto. }
  split; [intros Hn; destruct (v248_shr_ok a n Ha Hn) as (r & E & _ & V); eauto|].
  split; [intros Hn; destruct (v248_shl_ok a n Ha Hn) as (r & E & _ & V); rewrite W in V; eauto|].
  apply v248_cmp_ok; assumption.
Qed.
Print Assumptions C36_operators248.
(** The checked product is exact up to 256 bits, instead of the 248 bits of the type: a product
    between the two limits comes back as an invalid value. *)
Theorem C36_checked_mul248_partial a b : v248_ok a -> v248_ok b -> v248_val a <= MAX248 ->
  exists o, v248_checked_mul a b = Ok o /\ exactly (2 ^ 256 - 1) (Z.of_N (v248_val a) * Z.of_N (v248_val b)) (option_map v248_val o).
Proof.
  intros Ha Hb Va. destruct (v248_checked_mul_ok a b Ha Hb) as (o & E & X & _); [|exists o; split; [exact E|exact X]].
  apply v248_valid_iff; [|exact Va]. rewrite v248_ok_eq in Ha. apply Ha.
Qed.
Print Assumptions C36_checked_mul248_partial.
Theorem C36_checked_mul248_refuted : exists a b r, v248_ok a /\ v248_ok b /\ v248_val a <= MAX248 /\ v248_val b <= MAX248 /\
  v248_checked_mul a b = Ok (Some r) /\ MAX248 < v248_val r.
Proof. exists (V248 (2 ^ 119) 0), (V248 0 2), (V248 (2 ^ 120) 0).
  split; [split; reflexivity|]. split; [split; reflexivity|]. split; [vm_compute; discriminate|]. split; [vm_compute; discriminate|]. split; vm_compute; reflexivity.
Qed.
Print Assumptions C36_checked_mul248_refuted.
(** The operator [+] replaces the high word of the left operand by that of the right one, so
    it is exact only when the two are equal modulo the word size. *)
Theorem C36_add248_partial a b : v248_ok a -> v248_ok b -> v248_val a + v248_val b < 2 ^ 256 ->
  v248_val (v248_add a b) = v248_val a + v248_val b <-> v_hi a = v_hi b.
Proof.
  intros Ha Hb L. destruct (v248_add_ok a b Ha Hb) as [_ ->]. rewrite !v248_val_eq in *. rewrite v248_ok_eq in Ha, Hb. destruct Ha as [Ah Al], Hb as [Bh Bl].
  change (2 ^ 256) with (W128 * W128) in L. split; intros E.
  - (* equality modulo the square of the word size gives equality of the high words *)
    assert (W : W128 <> 0) by discriminate.
    set (c := (v_lo a + v_lo b) / W128). set (m := (v_lo a + v_lo b) mod W128).
    pose proof (N.div_mod (v_lo a + v_lo b) W128 W) as D. fold c m in D. assert (Lm : m < W128) by (apply N.mod_lt; exact W).
    assert (c <= 1) by (assert (c < 2); [apply N.div_lt_upper_bound; [exact W|lia]|lia]).
    assert (E1 : 2 * v_hi b * W128 + v_lo a + v_lo b = (2 * v_hi b + c) * W128 + m) by (rewrite <- N.add_assoc, D; ring).
    assert (E2 : v_hi a * W128 + v_lo a + (v_hi b * W128 + v_lo b) = (v_hi a + v_hi b + c) * W128 + m) by (transitivity ((v_hi a + v_hi b) * W128 + (v_lo a + v_lo b)); [ring|rewrite D; ring]).
    rewrite E1, E2 in E. rewrite E2 in L.
    assert (Ls : v_hi a + v_hi b + c < W128) by (apply (N.mul_lt_mono_pos_r W128); [reflexivity|]; lia).
    pose proof (N.div_mod ((2 * v_hi b + c) * W128 + m) (W128 * W128) ltac:(discriminate)) as DD. rewrite E in DD.
    set (k := ((2 * v_hi b + c) * W128 + m) / (W128 * W128)) in *.
    assert (EH : 2 * v_hi b + c = W128 * k + (v_hi a + v_hi b + c)).
    { apply (N.mul_cancel_r _ _ W128 W). apply (N.add_cancel_r _ _ m). rewrite DD. ring. }
    destruct (N.eq_dec k 0) as [Z|Z]; [rewrite Z in EH; lia|].
    exfalso. assert (W128 * 1 <= W128 * k) by (apply N.mul_le_mono_l; lia). lia.
  - rewrite E in *. rewrite N.mod_small; [ring|]. eapply N.le_lt_trans; [|exact L]. apply N.eq_le_incl. ring.
Qed.
Print Assumptions C36_add248_partial.
Theorem C36_add248_refuted : exists a b, v248_ok a /\ v248_ok b /\ v248_val a + v248_val b <= MAX248 /\ v248_val (v248_add a b) <> v248_val a + v248_val b.
Proof. exists (V248 1 0), (V248 0 1).
  split; [split; reflexivity|]. split; [split; reflexivity|]. split; vm_compute; discriminate.
Qed.
Print Assumptions C36_add248_refuted.
Example C36_case248 :
  let a := V248 (2 ^ 119 + 7) (2 ^ 100) in let b := V248 3 (2 ^ 127 + 1) in
  v248_ok a /\ v248_ok b /\ v248_val b <> 0 /\
  match v248_div a b, v248_rem a b with Ok q, Ok r => v248_val q = v248_val a / v248_val b /\ v248_val r = v248_val a mod v248_val b | _, _ => False end.
Proof. cbn zeta. split; [split; reflexivity|]. split; [split; reflexivity|]. split; [discriminate|]. vm_compute. auto. Qed.

(** ** C51: small fixed-width integers *)
Theorem C51_store_load k v b : v < 2 ^ 16 ->
  match store_sk k v b with
  | Ok b' => v < 2 ^ sk_bits k /\ (length b' <= MAX_BITS)%nat /\ b' = b ++ nbits (N.to_nat (sk_bits k)) v /\
      forall rest, load_sk k (nbits (N.to_nat (sk_bits k)) v ++ rest) = Ok (v, rest)
  | Err e => (e = IntOverflow /\ 2 ^ sk_bits k <= v) \/ (e = CellOverflow /\ v < 2 ^ sk_bits k /\ (MAX_BITS < length b + N.to_nat (sk_bits k))%nat)
  end.
Proof.
  intros Hv. unfold store_sk, sk_valid. assert (M : sk_max k + 1 = 2 ^ sk_bits k) by (destruct k; reflexivity).
  destruct (N.leb_spec v (sk_max k)) as [L|L]; cbn [negb]; [|left; split; [reflexivity|lia]].
  unfold put_uint, put. rewrite length_nbits. destruct (Nat.ltb_spec MAX_BITS (length b + N.to_nat (sk_bits k))) as [C|C]; [right; split_and!; [reflexivity|lia|exact C]|].
  split; [lia|]. split; [rewrite app_length, length_nbits; lia|]. split; [reflexivity|].
  intros rest. unfold load_sk. rewrite load_uint_nbits by (rewrite N2Nat.id; lia). cbn [rbind]. unfold w16. rewrite N.mod_small by exact Hv. reflexivity.
Qed.
Print Assumptions C51_store_load.
Theorem C51_load k b v r : load_sk k b = Ok (v, r) <-> v < 2 ^ sk_bits k /\ b = nbits (N.to_nat (sk_bits k)) v ++ r.
Proof.
  unfold load_sk. assert (B : 2 ^ sk_bits k <= 2 ^ 16) by (apply N.pow_le_mono_r; destruct k; cbn; lia). split.
  - destruct (load_uint (N.to_nat (sk_bits k)) b) as [[x b']|e] eqn:E; [|discriminate]. cbn [rbind]. intros [= <- <-].
    apply load_uint_iff in E. rewrite N2Nat.id in E. destruct E as [L ->]. unfold w16. rewrite N.mod_small by lia. auto.
  - intros [L ->]. rewrite load_uint_nbits by (rewrite N2Nat.id; exact L). cbn [rbind]. unfold w16. rewrite N.mod_small by lia. reflexivity.
Qed.
Print Assumptions C51_load.
(** As a dictionary key: reading the first bytes of a buffer that starts with the stored bits. *)
Theorem C51_dict_key k v data rest : v < 2 ^ sk_bits k -> Forall byte_ok data -> (2 <= length data)%nat ->
  bytes_bits data = nbits (N.to_nat (sk_bits k)) v ++ rest -> sk_load_key k data = Some v.
Proof.
  intros Hv F L E. destruct data as [|d0 [|d1 data]]; cbn [length] in L; try lia. cbn [sk_load_key]. f_equal.
  change (d0 :: d1 :: data) with ([d0; d1] ++ data) in E. rewrite bytes_bits_app in E.
  assert (F2 : Forall byte_ok [d0; d1]) by (inversion F as [|? ? ? F']; subst; inversion F'; subst; repeat constructor; assumption).
  rewrite from_be_bval by exact F2. rewrite shr_div.
  assert (K : (N.to_nat (sk_bits k) <= 16)%nat) by (destruct k; cbn; lia).
  assert (L2 : length (bytes_bits [d0; d1]) = 16%nat) by (rewrite length_bytes_bits; reflexivity).
  rewrite <- (take_drop (N.to_nat (sk_bits k)) (bytes_bits [d0; d1])).
  assert (T : take (N.to_nat (sk_bits k)) (bytes_bits [d0; d1]) = nbits (N.to_nat (sk_bits k)) v).
  { apply (f_equal (take (N.to_nat (sk_bits k)))) in E. rewrite take_app_le in E by lia. rewrite take_app_alt in E by (rewrite length_nbits; reflexivity). exact E. }
  rewrite T, bval_app, drop_length, L2, bval_nbits_small by (rewrite N2Nat.id; exact Hv).
  replace (N.of_nat (16 - N.to_nat (sk_bits k))) with (16 - sk_bits k) by lia.
  set (d := drop (N.to_nat (sk_bits k)) (bytes_bits [d0; d1])). assert (Ld : bval d < 2 ^ (16 - sk_bits k)).
  { pose proof (bval_lt d) as B. replace (N.of_nat (length d)) with (16 - sk_bits k) in B; [exact B|]. unfold d. rewrite drop_length, L2. lia. }
  rewrite N.div_add_l by (apply N.pow_nonzero; lia). rewrite N.div_small by exact Ld. apply N.add_0_r.
Qed.
Print Assumptions C51_dict_key.
Theorem C51_arith k a b :
  let max := 2 ^ sk_bits k - 1 in
  exactly max (Z.of_N a + Z.of_N b) (sk_checked_add k a b) /\ exactly max (Z.of_N a - Z.of_N b) (sk_checked_sub k a b) /\
  exactly max (Z.of_N a * Z.of_N b) (sk_checked_mul k a b) /\
  (b <> 0 -> exactly max (Z.of_N a / Z.of_N b) (sk_checked_div k a b)) /\ sk_checked_div k a 0 = None /\
  Z.of_N (sk_saturating_add k a b) = clamp max (Z.of_N a + Z.of_N b) /\
  Z.of_N (sk_saturating_sub k a b) = clamp max (Z.of_N a - Z.of_N b) /\
  Z.of_N (sk_saturating_mul k a b) = clamp max (Z.of_N a * Z.of_N b).
Proof.
  cbn zeta. replace (2 ^ sk_bits k - 1) with (sk_max k) by (destruct k; reflexivity). assert (M : sk_max k < 2 ^ 16) by (destruct k; reflexivity).
  split; [apply upto_add; exact M|]. split; [apply upto_sub|]. split; [apply upto_mul; exact M|]. split; [intros; apply upto_div; assumption|]. split; [reflexivity|].
  unfold sk_saturating_add, sk_saturating_sub, sk_saturating_mul, p_add, p_sub, p_mul, clamp. rewrite <- N2Z.inj_mul.
  generalize dependent (sk_max k). intros max M. generalize dependent (2 ^ 16). intros W M. generalize (a * b). intros m. split_and!.
  - destruct (N.ltb_spec (a + b) W), (N.leb_spec (a + b) max); lia.
  - destruct (N.leb_spec b a), (N.leb_spec (a - b) max); lia.
  - destruct (N.ltb_spec m W), (N.leb_spec m max); lia.
Qed.
Print Assumptions C51_arith.
(** A split depth that fits five bits comes back; zero is never produced. *)
Theorem C51_split_depth_partial v b rest : 1 <= v <= 31 -> (length b + 5 <= MAX_BITS)%nat ->
  sd_new v = Ok v /\ store_sd v b = Ok (b ++ nbits 5 v) /\ load_sd (nbits 5 v ++ rest) = Ok (v, rest).
Proof.
  intros Hv Hb. unfold sd_new, store_sd, load_sd, put_uint. destruct (N.eqb_spec v 0); [lia|]. split; [reflexivity|].
  split; [apply put_ok; rewrite length_nbits; exact Hb|]. rewrite load_uint_nbits by (change (2 ^ N.of_nat 5) with 32; lia). cbn [rbind].
  unfold sd_new. destruct (N.eqb_spec v 0); [lia|reflexivity].
Qed.
Print Assumptions C51_split_depth_partial.
Theorem C51_split_depth_load b v r : load_sd b = Ok (v, r) -> 1 <= v <= 31 /\ b = nbits 5 v ++ r.
Proof.
  unfold load_sd. destruct (load_uint 5 b) as [[x b']|e] eqn:E; [|discriminate]. cbn [rbind]. unfold sd_new. destruct (N.eqb_spec x 0); [discriminate|].
  cbn [rbind]. intros [= <- <-]. apply load_uint_iff in E. destruct E as [L ->]. change (2 ^ N.of_nat 5) with 32 in L. split; [lia|reflexivity].
Qed.
Print Assumptions C51_split_depth_load.
(** Depths above 31 are accepted by the constructor and written modulo 32. *)
Theorem C51_split_depth_refuted : exists v v' b, sd_new v = Ok v /\ store_sd v [] = Ok b /\ load_sd b = Ok (v', []) /\ v' <> v.
Proof. exists 33, 1, (nbits 5 33). vm_compute. split_and!; try reflexivity. discriminate. Qed.
Print Assumptions C51_split_depth_refuted.
Example C51_case : store_sk Uint12 0xabc [true] = Ok (true :: nbits 12 0xabc) /\ sk_load_key Uint12 [0xab; 0xcf] = Some 0xabc /\ store_sk Uint9 512 [] = Err IntOverflow.
Proof. vm_compute. auto. Qed.

(** ** C52: numbers as text *)
Lemma parse_unsigned_body radix max s : parse_unsigned radix max s = match body s with [] => None | _ => parse_digits radix max (body s) 0 end.
Proof.
  unfold parse_unsigned, body. destruct s as [|c [|c' s]]; [reflexivity| |].
  - cbn [length Nat.eqb]. rewrite andb_true_r. destruct (N.eqb_spec c 43), (N.eqb_spec c 45); reflexivity.
  - cbn [length Nat.eqb]. rewrite andb_false_r. destruct (c =? 43); reflexivity.
Qed.
Lemma parse_unsigned_iff radix max s v : 1 <= radix <= 36 -> parse_unsigned radix max s = Some v <-> number_text radix v s /\ v <= max.
Proof.
  intros Hr. rewrite number_text_body by lia. rewrite parse_unsigned_body. destruct (body s) as [|c b] eqn:B.
  - split; [discriminate|]. intros [[H _] _]. congruence.
  - split.
    + intros H. apply parse_digits_inv in H; [|lia]. destruct H. split; [split; [discriminate|assumption]|assumption].
    + intros [[_ H] L]. apply parse_digits_dval; [lia|exact H|exact L].
Qed.
Theorem C52_parse k s v : vk_from_str k s = Some v <-> number_text 10 v s /\ v <= 256 ^ vk_bytes k - 1.
Proof.
  unfold vk_from_str. rewrite <- vk_max_eq. assert (M : vk_max k <= 2 ^ vk_width k - 1) by (destruct k; vm_compute; discriminate). split.
  - destruct (parse_unsigned 10 (2 ^ vk_width k - 1) s) as [x|] eqn:E; [|discriminate]. unfold vk_valid. destruct (N.leb_spec x (vk_max k)); [|discriminate].
    intros [= <-]. apply parse_unsigned_iff in E; [|lia]. split; [apply E|assumption].
  - intros [T L]. rewrite (proj2 (parse_unsigned_iff 10 (2 ^ vk_width k - 1) s v ltac:(lia)) (conj T (N.le_trans _ _ _ L M))).
    unfold vk_valid. destruct (N.leb_spec v (vk_max k)); [reflexivity|lia].
Qed.
Print Assumptions C52_parse.
Lemma tab_digit radix d c : radix <= 10 -> c ∈ tab false -> to_digit radix c = Some d -> c = 48 + d.
Proof. intros Hr _ H. apply to_digit_iff in H; [|lia]. unfold digit_text in H. lia. Qed.
Lemma digits_lt ds : Forall (fun d => d < 10) ds -> digits_val 10 ds < 10 ^ N.of_nat (length ds).
Proof.
  induction ds as [|x l IH] using rev_ind; intros F; [reflexivity|]. apply Forall_app in F. destruct F as [F1 F2].
  rewrite digits_val_app, app_length, Nat2N.inj_add, N.pow_add_r. cbn [length]. change (10 ^ N.of_nat 1) with 10. apply Forall_inv in F2.
  specialize (IH F1). change (digits_val 10 [x]) with x. lia.
Qed.
Lemma show_dec_decimal v : decimal v (show_dec v).
Proof.
  destruct (show_radix_ok false 10 v) as (A & B & C & D); [lia..|]. unfold show_dec. change HEX_LOWER with (tab false). set (s := show_radix 10 (tab false) v) in *.
  apply dval_iff in B; [|lia]. destruct B as (ds & F & E). exists ds.
  assert (Sm : s = map (fun d => 48 + d) ds). { clear - F. induction F as [|d c ds s Hd F IH]; cbn [map]; [reflexivity|]. f_equal; [unfold digit_text in Hd; lia|exact IH]. }
  assert (Fd : Forall (fun d => d < 10) ds). { clear - F. induction F as [|d c ds s Hd F IH]; constructor; [apply Hd|exact IH]. }
  split; [intros ->; apply A; exact Sm|]. split; [exact Fd|]. split; [|split; [exact E|exact Sm]].
  intros H0. destruct ds as [|d ds]; [exfalso; apply A; exact Sm|]. cbn [hd] in H0. subst d. destruct ds as [|d ds]; [reflexivity|]. exfalso.
  assert (L : length s = S (S (length ds))) by (rewrite Sm, map_length; reflexivity).
  assert (V : v < 10 ^ N.of_nat (S (length ds))).
  { rewrite <- E. change (fold_left _ (0 :: d :: ds) 0) with (digits_val 10 (d :: ds)). apply Forall_inv_tail in Fd. clear - Fd.
    apply (digits_lt _ Fd). }
  apply D in V. rewrite L in V. lia.
Qed.
Theorem C52_display k v : v < 2 ^ vk_width k -> decimal v (vk_display v) /\ (v <= 256 ^ vk_bytes k - 1 -> vk_from_str k (vk_display v) = Some v).
Proof.
  intros _. split; [apply show_dec_decimal|]. intros H. apply C52_parse. split; [|exact H].
  apply (parse_unsigned_iff 10 v); [lia|]. apply show_dec_parse. lia.
Qed.
Print Assumptions C52_display.
Theorem C52_display248 a : v248_ok a -> exists s, v248_display a = Ok s /\ decimal (v248_val a) s.
Proof. apply display_ok. Qed.
Print Assumptions C52_display248.
(** Parsing is exact for texts of more than 64 digits and for radices above 16, and exact
    below two to the 128 otherwise. *)
Theorem C52_parse248_long radix s : 2 <= radix <= 36 -> 16 < radix \/ (65 < length s)%nat ->
  exists o, v248_from_str_radix radix s = Ok o /\
    (forall v, option_map v248_val o = Some v <-> number_text radix v s /\ v <= MAX248) /\ (forall a, o = Some a -> v248_ok a).
Proof.
  intros Hr Hl. unfold v248_from_str_radix. destruct (N.leb_spec 2 radix), (N.leb_spec radix 36); cbn [andb negb]; try lia.
  change (match s with [] => [] | c :: s' => if ((c =? 43) || (c =? 45)) && (length s' =? 0)%nat then [] else if c =? 43 then s' else s end) with (body s).
  assert (E : forall v, parse_unsigned radix MAX248 s = Some v <-> number_text radix v s /\ v <= MAX248) by (intros; apply parse_unsigned_iff; lia).
  rewrite parse_unsigned_body in E. destruct (Nat.eqb_spec (length (body s)) 0) as [Z|Z].
  { apply nil_length_inv in Z. rewrite Z in E. exists None. split; [reflexivity|]. split; [exact E|discriminate]. }
  assert (Lb : (length s <= S (length (body s)))%nat).
  { unfold body in *. destruct s as [|c s]; [cbn; lia|]. destruct (_ && _); [exfalso; apply Z; reflexivity|]. destruct (c =? 43); cbn [length]; lia. }
  assert (((radix <=? 16) && (length (body s) <=? 64)%nat) = false) as ->.
  { destruct (N.leb_spec radix 16), (Nat.leb_spec (length (body s)) 64); try reflexivity. lia. }
  destruct (parse_slow_ok radix (body s) ltac:(lia) v248_zero) as (o & -> & Eo & Ho); [apply ok_intro; reflexivity|vm_compute; discriminate|].
  exists o. split; [reflexivity|]. split; [|exact Ho]. intros v. rewrite Eo. rewrite <- E. change (v248_val v248_zero) with 0.
  destruct (body s); [cbn in Z; lia|reflexivity].
Qed.
Print Assumptions C52_parse248_long.
Theorem C52_parse248_partial radix s v : 2 <= radix <= 36 -> number_text radix v s -> v < 2 ^ 128 ->
  exists a, v248_from_str_radix radix s = Ok (Some a) /\ v248_val a = v.
Proof.
  intros Hr T V. pose proof T as T'. apply number_text_body in T'; [|lia]. destruct T' as [Nb D].
  unfold v248_from_str_radix. destruct (N.leb_spec 2 radix), (N.leb_spec radix 36); cbn [andb negb]; try lia.
  change (match s with [] => [] | c :: s' => if ((c =? 43) || (c =? 45)) && (length s' =? 0)%nat then [] else if c =? 43 then s' else s end) with (body s).
  destruct (Nat.eqb_spec (length (body s)) 0) as [Z|Z]; [apply nil_length_inv in Z; congruence|].
  destruct ((radix <=? 16) && (length (body s) <=? 64)%nat).
  - destruct (parse_fast_ok radix (body s) ltac:(lia) ltac:(lia) v248_zero v) as (a & E & _ & Ea); [apply ok_intro; reflexivity|exact D|exact V|]. eauto.
  - destruct (parse_slow_ok radix (body s) ltac:(lia) v248_zero) as (o & -> & Eo & Ho); [apply ok_intro; reflexivity|vm_compute; discriminate|].
    change (v248_val v248_zero) with 0 in Eo. rewrite (parse_digits_dval radix MAX248 (body s) ltac:(lia) 0 v D) in Eo by (apply N.lt_le_incl, N.lt_trans with (2 ^ 128); [exact V|reflexivity]).
    destruct o as [a|]; [|discriminate]. exists a. split; [reflexivity|]. cbn in Eo. congruence.
Qed.
Print Assumptions C52_parse248_partial.
(** Above that the high word is lost: the decimal notation of [2 ^ 128 + 4] is read as 4, so
    printing and parsing back changes the value. *)
Theorem C52_parse248_refuted : exists a s b, v248_ok a /\ v248_val a <= MAX248 /\ v248_display a = Ok s /\ number_text 10 (v248_val a) s /\
  v248_from_str_radix 10 s = Ok (Some b) /\ v248_val b <> v248_val a.
Proof.
  destruct (display_ok (V248 1 4)) as (s & E & (ds & N & F & H & V & S)); [split; reflexivity|].
  exists (V248 1 4), s, (V248 0 4). split; [split; reflexivity|]. split; [vm_compute; discriminate|]. split; [exact E|]. split.
  - exists ds, s. split; [|split; [exact N|split; [exact V|left; reflexivity]]]. rewrite S. clear - F. induction F as [|d ds Hd F IH]; cbn [map]; constructor; [|exact IH].
    split; [exact Hd|left; split; [exact Hd|reflexivity]].
  - clear - E. split; [|vm_compute; discriminate]. vm_compute in E. injection E as <-. vm_compute. reflexivity.
Qed.
Print Assumptions C52_parse248_refuted.
Example C52_case : vk_from_str VarUint24 [43; 49; 50] = Some 12 /\ vk_from_str VarUint24 [49; 54; 55; 55; 55; 50; 49; 54] = None /\
  v248_display (V248 1 0) = Ok [51;52;48;50;56;50;51;54;54;57;50;48;57;51;56;52;54;51;52;54;51;51;55;52;54;48;55;52;51;49;55;54;56;50;49;49;52;53;54].
Proof. vm_compute. auto. Qed.
