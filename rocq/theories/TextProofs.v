(** * Proofs about hexadecimal text and bit strings. *)
From Verif Require Import Err BitsProofs TextModel TextSpec.
Local Open Scope N_scope.

Lemma range_in (P : N -> Prop) (f : N -> bool) n : forallb f (map N.of_nat (seq 0 n)) = true ->
  (forall x, f x = true -> P x) -> forall x, x < N.of_nat n -> P x.
Proof.
  intros H HP x Hx. apply HP. rewrite List.forallb_forall in H. apply H.
  apply in_map_iff. exists (N.to_nat x). split; [lia|]. apply in_seq. lia.
Qed.

Lemma hexdigit_lt c v : hexdigit c v -> v < 16.
Proof. intros [H|H]; apply lookup_lt_Some in H; cbn [length HEX_LOWER HEX_UPPER] in H; lia. Qed.
Lemma hexdigit_val c v : hexdigit c v <-> hex_val c = Some v.
Proof.
  split.
  - intros H. pose proof (hexdigit_lt _ _ H) as Hv.
    assert (v = 0 \/ v = 1 \/ v = 2 \/ v = 3 \/ v = 4 \/ v = 5 \/ v = 6 \/ v = 7 \/ v = 8 \/ v = 9 \/ v = 10 \/ v = 11 \/ v = 12 \/ v = 13 \/ v = 14 \/ v = 15) as C by lia.
    repeat (destruct C as [ -> |C]; [destruct H as [H|H]; vm_compute in H; injection H as <-; reflexivity|]).
    subst v. destruct H as [H|H]; vm_compute in H; injection H as <-; reflexivity.
  - unfold hex_val. intros H.
    destruct (N.leb_spec 65 c), (N.leb_spec c 70); cbn [andb] in H.
    { injection H as <-. assert (c = 65 \/ c = 66 \/ c = 67 \/ c = 68 \/ c = 69 \/ c = 70) as C by lia.
      repeat (destruct C as [ -> |C]; [right; reflexivity|]). subst c. right. reflexivity. }
    all: destruct (N.leb_spec 97 c), (N.leb_spec c 102); cbn [andb] in H; try lia.
    all: try (injection H as <-; assert (c = 97 \/ c = 98 \/ c = 99 \/ c = 100 \/ c = 101 \/ c = 102) as C by lia;
      repeat (destruct C as [ -> |C]; [left; reflexivity|]); subst c; left; reflexivity).
    all: destruct (N.leb_spec 48 c), (N.leb_spec c 57); cbn [andb] in H; try lia; try discriminate.
    all: injection H as <-; assert (c = 48 \/ c = 49 \/ c = 50 \/ c = 51 \/ c = 52 \/ c = 53 \/ c = 54 \/ c = 55 \/ c = 56 \/ c = 57) as C by lia;
      repeat (destruct C as [ -> |C]; [left; reflexivity|]); subst c; left; reflexivity.
Qed.
Lemma hex_val_lt c v : hex_val c = Some v -> v < 16.
Proof. intros H. apply hexdigit_lt with c, hexdigit_val, H. Qed.

Fixpoint nibs (s : list N) : option (list bool) :=
  match s with
  | [] => Some []
  | c :: s' => match hex_val c, nibs s' with Some v, Some b => Some (nbits 4 v ++ b) | _, _ => None end
  end.
Lemma spells_nibs s b : spells s b <-> nibs s = Some b.
Proof.
  split.
  - induction 1 as [|c v s b Hc Hs IH]; [reflexivity|]. cbn [nibs]. apply hexdigit_val in Hc. rewrite Hc, IH. reflexivity.
  - revert b. induction s as [|c s IH]; intros b H; cbn [nibs] in H; [injection H as <-; constructor|].
    destruct (hex_val c) as [v|] eqn:E; [|discriminate]. destruct (nibs s) as [b'|]; [|discriminate]. injection H as <-.
    constructor; [apply hexdigit_val, E|apply IH; reflexivity].
Qed.
Lemma spells_length s b : spells s b -> length b = (4 * length s)%nat.
Proof. induction 1 as [|c v s b Hc Hs IH]; [reflexivity|]. rewrite app_length, length_nbits, IH. cbn [length]. lia. Qed.
Lemma spells_app s1 b1 s2 b2 : spells s1 b1 -> spells s2 b2 -> spells (s1 ++ s2) (b1 ++ b2).
Proof. induction 1 as [|c v s b Hc Hs IH]; intros H2; [exact H2|]. cbn [app]. rewrite <- app_assoc. constructor; auto. Qed.
Lemma spells_app_inv s1 : forall s2 b, spells (s1 ++ s2) b -> exists b1 b2, b = b1 ++ b2 /\ spells s1 b1 /\ spells s2 b2.
Proof.
  induction s1 as [|c s1 IH]; intros s2 b H; cbn [app] in H; [exists [], b; split_and!; [reflexivity|constructor|exact H]|].
  inversion H as [|? v ? b' Hc Hs]; subst. destruct (IH _ _ Hs) as (b1 & b2 & -> & H1 & H2).
  exists (nbits 4 v ++ b1), b2. rewrite app_assoc. split_and!; [reflexivity|constructor; assumption|assumption].
Qed.
Lemma spells_det s b1 b2 : spells s b1 -> spells s b2 -> b1 = b2.
Proof. rewrite !spells_nibs. intros -> [= ->]. reflexivity. Qed.

Lemma nib_pair x y : x < 16 -> y < 16 -> N.lor (shl 8 x 4) y = x * 16 + y /\ bval (nbits 4 x ++ nbits 4 y) = x * 16 + y.
Proof.
  intros Hx Hy.
  assert (G : forallb (fun x => forallb (fun y => (N.lor (shl 8 x 4) y =? x * 16 + y) && (bval (nbits 4 x ++ nbits 4 y) =? x * 16 + y)) (map N.of_nat (seq 0 16))) (map N.of_nat (seq 0 16)) = true) by (vm_compute; reflexivity).
  pose proof (range_in (fun x => forallb (fun y => (N.lor (shl 8 x 4) y =? x * 16 + y) && (bval (nbits 4 x ++ nbits 4 y) =? x * 16 + y)) (map N.of_nat (seq 0 16)) = true) _ _ G (fun _ h => h) x Hx) as G2.
  cbv beta in G2.
  pose proof (range_in (fun y => (N.lor (shl 8 x 4) y =? x * 16 + y) && (bval (nbits 4 x ++ nbits 4 y) =? x * 16 + y) = true) _ _ G2 (fun _ h => h) y Hy) as G3.
  cbv beta in G3. apply andb_true_iff in G3. destruct G3 as [A B]. apply N.eqb_eq in A, B. split; assumption.
Qed.
Lemma hex_decode_nibs s : hex_decode s = if Nat.even (length s) then option_map pack (nibs s) else None.
Proof.
  remember (length s) as n eqn:Hn. revert s Hn. induction n as [n IH] using lt_wf_ind. intros s ->.
  destruct s as [|a [|b s]]; [reflexivity|reflexivity|]. cbn [hex_decode nibs length Nat.even].
  rewrite (IH (length s) ltac:(cbn; lia) s eq_refl).
  destruct (hex_val a) as [x|] eqn:Ea, (hex_val b) as [y|] eqn:Eb.
  2-4: destruct (Nat.even (length s)); [|reflexivity]; reflexivity.
  destruct (Nat.even (length s)) eqn:Ev; [|reflexivity].
  destruct (nibs s) as [r|]; cbn [option_map]; [|reflexivity]. f_equal.
  rewrite app_assoc, pack_byte_app by (rewrite app_length, !length_nbits; reflexivity).
  destruct (nib_pair x y (hex_val_lt _ _ Ea) (hex_val_lt _ _ Eb)) as [-> ->]. reflexivity.
Qed.

Lemma hex_char_val c : hex_char c = hex_val c.
Proof. reflexivity. Qed.
Lemma nibs_app a b : nibs (a ++ b) = match nibs a, nibs b with Some x, Some y => Some (x ++ y) | _, _ => None end.
Proof.
  induction a as [|c a IH]; cbn [app nibs]; [destruct (nibs b); reflexivity|]. rewrite IH.
  destruct (hex_val c), (nibs a), (nibs b); try reflexivity.
Qed.
Lemma pack_nib h : h < 16 -> pack (nbits 4 h) = [shl 8 h 4].
Proof.
  intros H. assert (h = 0 \/ h = 1 \/ h = 2 \/ h = 3 \/ h = 4 \/ h = 5 \/ h = 6 \/ h = 7 \/ h = 8 \/ h = 9 \/ h = 10 \/ h = 11 \/ h = 12 \/ h = 13 \/ h = 14 \/ h = 15) as C by lia.
  repeat (destruct C as [ -> |C]; [reflexivity|]). subst h. reflexivity.
Qed.
Lemma nibs_length s b : nibs s = Some b -> length b = (4 * length s)%nat.
Proof. intros H. apply spells_length, spells_nibs, H. Qed.

(** The part of [from_hex_str] before the tag is removed. *)
Definition parse_hex_data (s : list N) : res (list N * N) :=
  let? (s, half) :=
    (if negb (length s mod 2 =? 0)%nat then
       match rev s with
       | c :: r => match hex_char c with Some h => Ok (rev r, Some h) | None => Err InvalidData end
       | [] => Ok (s, None)
       end
     else Ok (s, None)) in
  let? data := of_opt InvalidData (hex_decode s) in
  let bit_len := w16 (w16 (N.of_nat (length data)) * 8) in
  Ok (match half with Some h => (data ++ [shl 8 h 4], w16 (bit_len + 4)) | None => (data, bit_len) end).
Lemma even_mod s : Nat.even s = (s mod 2 =? 0)%nat.
Proof.
  destruct (Nat.even s) eqn:E.
  - apply Nat.even_spec in E. destruct E as [k ->]. rewrite (Nat.mul_comm 2), Nat.mod_mul by lia. reflexivity.
  - destruct (s mod 2 =? 0)%nat eqn:M; [|reflexivity]. apply Nat.eqb_eq in M.
    rewrite (Nat.div_mod_eq s 2), M, Nat.add_0_r, Nat.even_mul in E. discriminate.
Qed.
Lemma parse_hex_data_ok s : (length s <= 256)%nat ->
  parse_hex_data s = match nibs s with Some b => Ok (pack b, N.of_nat (length b)) | None => Err InvalidData end.
Proof.
  intros Hl. unfold parse_hex_data. destruct (length s mod 2 =? 0)%nat eqn:Em; cbn [negb rbind].
  - rewrite hex_decode_nibs, even_mod, Em. destruct (nibs s) as [b|] eqn:E; cbn [option_map of_opt rbind]; [|reflexivity].
    pose proof (nibs_length _ _ E) as Lb. do 2 f_equal. rewrite length_pack. unfold w16.
    apply Nat.eqb_eq in Em. pose proof (Nat.div_mod_eq (length s) 2) as D.
    assert (length b = 8 * (length s / 2))%nat by lia.
    assert ((length b + 7) / 8 = length s / 2)%nat as ->.
    { symmetry. apply Nat.div_unique with 7%nat; lia. }
    rewrite (N.mod_small (N.of_nat (length s / 2))) by lia. rewrite N.mod_small by lia. lia.
  - destruct (rev s) as [|c r] eqn:Er.
    { apply (f_equal (@rev N)) in Er. rewrite rev_involutive in Er. subst s. discriminate. }
    apply (f_equal (@rev N)) in Er. rewrite rev_involutive in Er. cbn [rev] in Er. subst s.
    set (p := rev r) in *. clearbody p. clear r. rewrite app_length in *. cbn [length] in *.
    rewrite nibs_app. cbn [nibs]. rewrite hex_char_val. destruct (hex_val c) as [h|] eqn:Ec; cbn [rbind].
    2:{ destruct (nibs p); reflexivity. }
    apply Nat.eqb_neq in Em.
    assert (Ep : (length p mod 2 = 0)%nat).
    { pose proof (Nat.mod_upper_bound (length p) 2). pose proof (Nat.div_mod_eq (length p) 2).
      destruct (length p mod 2)%nat as [|[|]] eqn:E; [reflexivity| |lia]. exfalso. apply Em.
      replace (length p + 1)%nat with ((length p / 2 + 1) * 2)%nat by lia. apply Nat.mod_mul. lia. }
    rewrite hex_decode_nibs, even_mod, Ep. cbn [Nat.eqb]. destruct (nibs p) as [b|] eqn:E; cbn [option_map of_opt rbind]; [|reflexivity].
    pose proof (nibs_length _ _ E) as Lb. pose proof (hex_val_lt _ _ Ec) as Hh.
    assert (D : (length p = 2 * (length p / 2))%nat) by (pose proof (Nat.div_mod_eq (length p) 2); lia).
    rewrite app_nil_r, pack_app_bytes by (replace (length b) with (length p / 2 * 8)%nat by lia; apply Nat.mod_mul; lia).
    rewrite pack_nib by exact Hh. do 2 f_equal. rewrite length_pack, app_length, length_nbits. unfold w16.
    assert ((length b + 7) / 8 = length p / 2)%nat as ->.
    { symmetry. apply Nat.div_unique with 7%nat; lia. }
    rewrite (N.mod_small (N.of_nat (length p / 2))) by lia. rewrite (N.mod_small (_ * 8)) by lia. rewrite N.mod_small by lia. lia.
Qed.

(** ** Removing the tag *)
Definition masked (b : N) : N := N.land b (shl 8 (shl 8 255 (trailing_zeros b)) 1).
Lemma tag_byte b : byte_ok b -> b <> 0 ->
  let t := N.to_nat (trailing_zeros b) in
  (t <= 7)%nat /\ byte_bits b = take (7 - t) (byte_bits b) ++ [true] ++ zeros t
  /\ (if (7 - t =? 0)%nat then masked b = 0 else [masked b] = pack (take (7 - t) (byte_bits b))).
Proof.
  intros Hb H0. pose (f := fun b => if b =? 0 then true else
    let t := N.to_nat (trailing_zeros b) in
    (t <=? 7)%nat && bool_decide (byte_bits b = take (7 - t) (byte_bits b) ++ [true] ++ zeros t)
    && (if (7 - t =? 0)%nat then masked b =? 0 else bool_decide ([masked b] = pack (take (7 - t) (byte_bits b))))).
  assert (G : forallb f (map N.of_nat (seq 0 256)) = true) by (vm_compute; reflexivity).
  pose proof (range_in (fun b => f b = true) f 256 G (fun _ h => h) b Hb) as E. unfold f in E.
  apply N.eqb_neq in H0. rewrite H0 in E. cbn zeta in *. apply andb_true_iff in E. destruct E as [E E3].
  apply andb_true_iff in E. destruct E as [E1 E2]. apply Nat.leb_le in E1. apply bool_decide_eq_true in E2.
  split_and!; [exact E1|exact E2|]. destruct (7 - N.to_nat (trailing_zeros b) =? 0)%nat; [apply N.eqb_eq, E3|apply bool_decide_eq_true in E3; exact E3].
Qed.
Lemma byte_bits_0 : byte_bits 0 = zeros 8.
Proof. reflexivity. Qed.

Lemma untag_ok data : Forall byte_ok data -> N.of_nat (length data) < 8192 ->
  forall r n, untag (rev data) (N.of_nat (8 * length data)) = (r, n) ->
  (exists b k, bytes_bits data = b ++ [true] ++ zeros k /\ n = N.of_nat (length b) /\ take (N.to_nat ((n + 7) / 8)) (rev r) = pack b)
  \/ (bytes_bits data = zeros (8 * length data) /\ n = 0).
Proof.
  induction data as [|x d IH] using rev_ind; intros Hd Hl r n H.
  { cbn [rev untag length] in H. injection H as <- <-. right. split; reflexivity. }
  rewrite rev_unit in H. cbn [untag] in H. apply Forall_app in Hd. destruct Hd as [Hd Hx]. inversion_clear Hx as [|? ? Hx' _].
  rewrite app_length in *. cbn [length] in *.
  assert (W : forall k, k <= 8 -> w16 (N.of_nat (8 * (length d + 1)) + 65536 - k) = N.of_nat (8 * (length d + 1)) - k).
  { intros k Hk. unfold w16. symmetry. apply N.mod_unique with 1; lia. }
  destruct (N.eqb_spec x 0) as [ -> |Hne].
  - rewrite W in H by lia. replace (N.of_nat (8 * (length d + 1)) - 8) with (N.of_nat (8 * length d)) in H by lia.
    destruct (untag (rev d) (N.of_nat (8 * length d))) as [r' n'] eqn:E. injection H as <- <-.
    destruct (IH Hd ltac:(lia) _ _ eq_refl) as [(b & k & Eb & En & Ep)|[Ez En]].
    + left. exists b, (k + 8)%nat. split_and!.
      * rewrite bytes_bits_app, Eb, bytes_bits_cons, byte_bits_0. change (bytes_bits []) with (@nil bool).
        rewrite app_nil_r, zeros_app, <- !app_assoc. reflexivity.
      * exact En.
      * cbn [rev]. rewrite take_app_le; [exact Ep|].
        assert (length (rev r') = length d).
        { clear - E. rewrite <- (rev_length d). revert E. generalize (rev d) as l. intros l. rewrite rev_length. generalize (N.of_nat (8 * length d)) as q. clear d.
          revert r' n'. induction l as [|y l IHl]; intros r' n' q E; cbn [untag] in E; [injection E as <- <-; reflexivity|].
          destruct (y =? 0); [|injection E as <- <-; reflexivity].
          destruct (untag l _) as [r2 n2] eqn:E2. injection E as <- <-. cbn [length]. f_equal. eapply IHl, E2. }
        assert (length b + 1 + k = 8 * length d)%nat.
        { apply (f_equal length) in Eb. rewrite length_bytes_bits, !app_length, length_zeros in Eb. cbn [length] in Eb. lia. }
        rewrite H, En. assert ((N.of_nat (length b) + 7) / 8 < N.of_nat (length d) + 1); [|lia].
        apply N.div_lt_upper_bound; lia.
    + right. split; [|exact En]. rewrite bytes_bits_app, Ez, bytes_bits_cons, byte_bits_0. change (bytes_bits []) with (@nil bool).
      rewrite app_nil_r, <- zeros_app. f_equal. lia.
  - injection H as <- <-. destruct (tag_byte x Hx' Hne) as (Ht & Eb & Em). cbn zeta in Ht, Eb, Em.
    set (t := N.to_nat (trailing_zeros x)) in *. fold (masked x).
    rewrite W by (unfold t in Ht; lia).
    assert (Lt : length (take (7 - t) (byte_bits x)) = (7 - t)%nat) by (rewrite take_length, length_byte_bits; lia).
    left. exists (bytes_bits d ++ take (7 - t) (byte_bits x)), t. split_and!.
    + rewrite bytes_bits_app, bytes_bits_cons, <- app_assoc, <- Eb. change (bytes_bits []) with (@nil bool). rewrite app_nil_r. reflexivity.
    + rewrite app_length, length_bytes_bits, Lt. unfold t in *. lia.
    + cbn [rev]. rewrite rev_involutive.
      rewrite pack_app_bytes by (rewrite length_bytes_bits, Nat.mul_comm; apply Nat.mod_mul; lia).
      rewrite pack_bytes_bits by exact Hd.
      destruct (7 - t =? 0)%nat eqn:Ez.
      * apply Nat.eqb_eq in Ez. rewrite Ez. rewrite take_0. change (pack []) with (@nil N). rewrite app_nil_r.
        replace (N.to_nat _) with (length d); [apply take_app|].
        replace ((N.of_nat (8 * (length d + 1)) - (1 + trailing_zeros x) + 7) / 8) with (N.of_nat (length d)); [lia|].
        apply N.div_unique with 7; unfold t in *; lia.
      * apply Nat.eqb_neq in Ez. rewrite <- Em. apply take_ge. rewrite app_length. cbn [length].
        replace ((N.of_nat (8 * (length d + 1)) - (1 + trailing_zeros x) + 7) / 8) with (N.of_nat (length d) + 1); [lia|].
        apply N.div_unique with (6 - trailing_zeros x); unfold t in *; lia.
Qed.

Lemma strip_tag_cases s : (exists p, s = p ++ [95] /\ strip_tag s = (p, true)) \/ (strip_tag s = (s, false) /\ forall p, s <> p ++ [95]).
Proof.
  unfold strip_tag. destruct (rev s) as [|c r] eqn:E.
  - right. split; [reflexivity|]. intros p ->. rewrite rev_unit in E. discriminate.
  - apply (f_equal (@rev N)) in E. rewrite rev_involutive in E. cbn [rev] in E. destruct (N.eqb_spec c 95) as [ -> |Hc].
    + left. exists (rev r). split; [exact E|reflexivity].
    + right. split; [reflexivity|]. intros p Hp. rewrite Hp in E. apply app_inj_tail in E. destruct E. congruence.
Qed.
Lemma from_hex_str_alt s : from_hex_str s =
  if negb (forallb (fun c => c <? 128) s) || (256 <? length s)%nat then Err InvalidData
  else let '(p, tag) := strip_tag s in
       let? (data, n) := parse_hex_data p in
       if tag then
         let '(r, m) := untag (rev data) (w16 (w16 (N.of_nat (length data)) * 8)) in
         Ok (take (N.to_nat ((m + 7) / 8)) (rev r), m)
       else Ok (data, n).
Proof.
  unfold from_hex_str, parse_hex_data. destruct (negb _ || _); [reflexivity|]. destruct (strip_tag s) as [p tag].
  destruct (if negb (length p mod 2 =? 0)%nat then _ else _) as [[p' half]|e]; cbn [rbind]; [|reflexivity].
  destruct (hex_decode p') as [data|]; cbn [of_opt rbind]; [|reflexivity].
  destruct half; reflexivity.
Qed.
Lemma hex_ascii c v : hex_val c = Some v -> (c <? 128) = true.
Proof.
  intros H. apply N.ltb_lt. unfold hex_val in H.
  destruct (N.leb_spec c 102); [lia|]. destruct (N.leb_spec c 70); [lia|]. destruct (N.leb_spec c 57); [lia|].
  rewrite !andb_false_r in H. discriminate.
Qed.
Lemma nibs_ascii s b : nibs s = Some b -> forallb (fun c => c <? 128) s = true.
Proof.
  revert b. induction s as [|c s IH]; intros b H; [reflexivity|]. cbn [nibs] in H. cbn [forallb].
  destruct (hex_val c) as [v|] eqn:E; [|discriminate]. destruct (nibs s) as [b'|]; [|discriminate].
  rewrite (hex_ascii _ _ E). cbn [andb]. eapply IH. reflexivity.
Qed.
Lemma denotes_ascii s b : denotes s b -> forallb (fun c => c <? 128) s = true.
Proof.
  intros H. destruct H as [s b H|s b k H|s k H]; apply spells_nibs, nibs_ascii in H; [exact H|..]; rewrite forallb_app, H; reflexivity.
Qed.
Lemma no_under v : hex_val 95 <> Some v.
Proof. vm_compute. discriminate. Qed.
Lemma tag_split a : forall k b j, a ++ [true] ++ zeros k = b ++ [true] ++ zeros j -> a = b /\ k = j.
Proof.
  assert (Z : forall k b j, [true] ++ zeros k = b ++ [true] ++ zeros j -> b = [] /\ k = j).
  { intros k [|y b] j H; cbn [app] in H.
    - injection H as H. split; [reflexivity|]. apply (f_equal length) in H. rewrite !length_zeros in H. exact H.
    - injection H as _ H. exfalso. assert (X : true ∈ zeros k) by (rewrite H; apply elem_of_app; right; left).
      unfold zeros in X. apply elem_of_replicate in X. destruct X; discriminate. }
  induction a as [|x a IH]; intros k b j H.
  - apply Z in H. destruct H as [-> ->]. split; reflexivity.
  - destruct b as [|y b]; [symmetry in H; apply (Z j (x :: a) k) in H; destruct H; discriminate|].
    cbn [app] in H. injection H as <- H. destruct (IH k b j H) as [-> ->]. split; reflexivity.
Qed.
Lemma tag_zeros b k j : b ++ [true] ++ zeros k <> zeros j.
Proof.
  intros H. assert (X : true ∈ zeros j) by (rewrite <- H; apply elem_of_app; right; left).
  unfold zeros in X. apply elem_of_replicate in X. destruct X; discriminate.
Qed.
(** All zeros or a tag. *)
Lemma tag_or_zeros b : (exists a k, b = a ++ [true] ++ zeros k) \/ b = zeros (length b).
Proof.
  induction b as [|x b [(a & k & ->)|E]]; [right; reflexivity|left; exists (x :: a), k; reflexivity|].
  destruct x; [left; exists [], (length b); rewrite E at 1; reflexivity|right; rewrite E at 1; reflexivity].
Qed.

Lemma parse_spec s : (length s <= 256)%nat ->
  (exists b, denotes s b /\ from_hex_str s = Ok (pack b, N.of_nat (length b)))
  \/ ((forall b, ~ denotes s b) /\ from_hex_str s = Err InvalidData).
Proof.
  intros Hl. rewrite from_hex_str_alt.
  assert ((256 <? length s)%nat = false) as -> by (apply Nat.ltb_ge; exact Hl). rewrite orb_false_r.
  destruct (forallb (fun c => c <? 128) s) eqn:Ha; cbn [negb].
  2:{ right. split; [|reflexivity]. intros b Hb. apply denotes_ascii in Hb. congruence. }
  destruct (strip_tag_cases s) as [(p & -> & ->)|[-> Hs]].
  - rewrite app_length in Hl. cbn [length] in Hl. rewrite parse_hex_data_ok by lia.
    destruct (nibs p) as [b|] eqn:E; cbn [rbind].
    2:{ right. split; [|reflexivity]. intros b Hb. inversion Hb as [s b' H E1 E2|s b' k H E1|s k H E1]; subst.
        - apply spells_nibs in H. rewrite nibs_app in H. cbn [nibs] in H. destruct (nibs p); discriminate.
        - apply app_inj_tail in E1. destruct E1 as [-> _]. apply spells_nibs in H. congruence.
        - apply app_inj_tail in E1. destruct E1 as [-> _]. apply spells_nibs in H. congruence. }
    left. pose proof (nibs_length _ _ E) as Lb.
    assert (Lp : N.of_nat (length (pack b)) < 8192).
    { rewrite length_pack. assert ((length b + 7) / 8 < 200)%nat by (apply Nat.div_lt_upper_bound; lia). lia. }
    destruct (untag _ _) as [r n] eqn:Eu.
    replace (w16 (w16 (N.of_nat (length (pack b))) * 8)) with (N.of_nat (8 * length (pack b))) in Eu.
    2:{ unfold w16. rewrite (N.mod_small (N.of_nat _)) by lia. rewrite N.mod_small by lia. lia. }
    destruct (untag_ok (pack b) (pack_ok b) Lp r n Eu) as [(a & k & Eb & -> & Ep)|[Ez ->]].
    + rewrite Ep. exists a. split; [|reflexivity]. rewrite bytes_bits_pack in Eb.
      destruct (tag_or_zeros b) as [(a' & k' & Eb')|Ezb].
      * assert (a' = a) as ->.
        { rewrite Eb' in Eb. rewrite <- !app_assoc in Eb. rewrite <- zeros_app in Eb. apply tag_split in Eb. apply Eb. }
        apply den_tag with k'. rewrite <- Eb'. apply spells_nibs, E.
      * exfalso. rewrite Ezb, <- zeros_app in Eb. symmetry in Eb. apply tag_zeros in Eb. exact Eb.
    + exists []. split; [|reflexivity]. apply den_zeros with (length b).
      assert (b = zeros (length b)) as <-; [|apply spells_nibs, E].
      rewrite bytes_bits_pack in Ez. destruct (tag_or_zeros b) as [(a' & k' & Eb')|H]; [|exact H].
      exfalso. rewrite Eb' in Ez at 1. rewrite <- !app_assoc, <- zeros_app in Ez. apply tag_zeros in Ez. exact Ez.
  - rewrite parse_hex_data_ok by lia. destruct (nibs s) as [b|] eqn:E; cbn [rbind].
    + left. exists b. split; [apply den_plain, spells_nibs, E|reflexivity].
    + right. split; [|reflexivity]. intros b Hb. inversion Hb as [s' b' H|s' b' k H E1|s' k H E1]; subst.
      * apply spells_nibs in H. congruence.
      * exact (Hs s' eq_refl).
      * exact (Hs s' eq_refl).
Qed.
Lemma denotes_det s b1 b2 : denotes s b1 -> denotes s b2 -> b1 = b2.
Proof.
  assert (U : forall s b, ~ spells (s ++ [95]) b).
  { intros s0 b H. apply spells_nibs in H. rewrite nibs_app in H. cbn [nibs] in H. destruct (nibs s0); discriminate. }
  intros H1 H2. destruct H1 as [s b H|s b k H|s k H].
  - inversion H2 as [s' b' H'|s' b' k' H' E|s' k' H' E]; subst; [eapply spells_det; eassumption|exfalso; eapply U; exact H..].
  - inversion H2 as [s' b' H'|s' b' k' H' E|s' k' H' E]; subst; [exfalso; eapply U; exact H'| |]; apply app_inj_tail in E; destruct E as [<- _];
      pose proof (spells_det _ _ _ H H') as X; [apply tag_split in X; apply X|apply tag_zeros in X; contradiction].
  - inversion H2 as [s' b' H'|s' b' k' H' E|s' k' H' E]; subst; [exfalso; eapply U; exact H'| |]; apply app_inj_tail in E; destruct E as [<- _];
      pose proof (spells_det _ _ _ H H') as X; [symmetry in X; apply tag_zeros in X; contradiction|reflexivity].
Qed.

(** ** Formatting *)
Definition tab (upper : bool) : list N := if upper then HEX_UPPER else HEX_LOWER.
Lemma byte2hex_ok upper b : byte_ok b -> nibs (byte2hex (tab upper) b) = Some (byte_bits b) /\ length (byte2hex (tab upper) b) = 2%nat.
Proof.
  intros Hb. split; [|reflexivity].
  assert (G : forallb (fun b => bool_decide (nibs (byte2hex (tab upper) b) = Some (byte_bits b))) (map N.of_nat (seq 0 256)) = true) by (destruct upper; vm_compute; reflexivity).
  apply (range_in (fun b => nibs (byte2hex (tab upper) b) = Some (byte_bits b)) _ 256 G); [|exact Hb].
  intros x. cbv beta. intros X. apply bool_decide_eq_true in X. exact X.
Qed.
Lemma hex_encode_ok upper bs : Forall byte_ok bs -> nibs (hex_encode (tab upper) bs) = Some (bytes_bits bs) /\ length (hex_encode (tab upper) bs) = (2 * length bs)%nat.
Proof.
  induction 1 as [|b bs Hb Hbs [IH1 IH2]]; [split; reflexivity|]. destruct (byte2hex_ok upper b Hb) as [H1 H2]. unfold hex_encode in *. cbn [map concat]. split.
  - rewrite nibs_app, H1, IH1. reflexivity.
  - rewrite app_length, H2, IH2. cbn [length]. lia.
Qed.

(** The digits printed for the bits of the last byte. *)
Definition last_text (upper : bool) (last rem : N) : list N :=
  let tag_mask := shl 8 1 (7 - rem) in
  let data_mask := N.lxor (tag_mask - 1) 255 in
  let last := N.lor (N.land last data_mask) tag_mask in
  let tag := if negb (rem =? 4) then [95] else [] in
  let width := if 4 <? rem then 2%nat else 1%nat in
  let last := if (width =? 1)%nat then N.shiftr last 4 else last in
  show_hex width (tab upper) last ++ tag.
Definition tag_text (rem : N) : list N := if negb (rem =? 4) then [95] else [].
Definition last_digits (upper : bool) (last rem : N) : list N :=
  let tag_mask := shl 8 1 (7 - rem) in
  let data_mask := N.lxor (tag_mask - 1) 255 in
  let last := N.lor (N.land last data_mask) tag_mask in
  let width := if 4 <? rem then 2%nat else 1%nat in
  let last := if (width =? 1)%nat then N.shiftr last 4 else last in
  show_hex width (tab upper) last.
Lemma last_ok upper b rem : byte_ok b -> 1 <= rem -> rem <= 7 ->
  nibs (last_digits upper b rem) = Some (take (N.to_nat rem) (byte_bits b) ++ (if rem =? 4 then [] else [true] ++ zeros (N.to_nat ((if 4 <? rem then 7 else 3) - rem))))
  /\ length (last_digits upper b rem) = (if 4 <? rem then 2%nat else 1%nat).
Proof.
  intros Hb H1 H7.
  pose (f := fun rem b => bool_decide (nibs (last_digits upper b rem) = Some (take (N.to_nat rem) (byte_bits b) ++ (if rem =? 4 then [] else [true] ++ zeros (N.to_nat ((if 4 <? rem then 7 else 3) - rem)))))
    && (length (last_digits upper b rem) =? (if (4 <? rem)%N then 2 else 1))%nat).
  assert (G : f rem b = true).
  { assert (C : rem = 1 \/ rem = 2 \/ rem = 3 \/ rem = 4 \/ rem = 5 \/ rem = 6 \/ rem = 7) by lia.
    assert (A : forall r, forallb (f r) (map N.of_nat (seq 0 256)) = true -> f r b = true) by (intros r Hr; apply (range_in (fun b => f r b = true) _ 256 Hr (fun _ h => h) b Hb)).
    repeat (destruct C as [ -> |C]; [apply A; destruct upper; vm_compute; reflexivity|]). subst rem. apply A; destruct upper; vm_compute; reflexivity. }
  unfold f in G. apply andb_true_iff in G. destruct G as [G1 G2]. apply bool_decide_eq_true in G1. apply Nat.eqb_eq in G2. split; assumption.
Qed.

Lemma last_chars upper b rem c : byte_ok b -> 1 <= rem -> rem <= 7 -> c ∈ last_digits upper b rem -> c ∈ tab upper.
Proof.
  intros Hb H1 H7.
  pose (f := fun rem b => forallb (fun c => existsb (N.eqb c) (tab upper)) (last_digits upper b rem)).
  assert (G : f rem b = true).
  { assert (C : rem = 1 \/ rem = 2 \/ rem = 3 \/ rem = 4 \/ rem = 5 \/ rem = 6 \/ rem = 7) by lia.
    assert (A : forall r, forallb (f r) (map N.of_nat (seq 0 256)) = true -> f r b = true) by (intros r Hr; apply (range_in (fun b => f r b = true) _ 256 Hr (fun _ h => h) b Hb)).
    repeat (destruct C as [ -> |C]; [apply A; destruct upper; vm_compute; reflexivity|]). subst rem. apply A; destruct upper; vm_compute; reflexivity. }
  unfold f in G. rewrite List.forallb_forall in G. intros Hc. apply elem_of_list_In in Hc. apply G in Hc.
  apply existsb_exists in Hc. destruct Hc as (x & Hx & E). apply N.eqb_eq in E. subst x. apply elem_of_list_In, Hx.
Qed.

Definition frame_len (n : nat) : nat := (n + 3) / 4 + (if (n mod 4 =? 0)%nat then 0 else 1).
Lemma fmt_ok upper bytes n : Forall byte_ok bytes -> N.of_nat (length bytes) < 8192 -> (n <= 8 * length bytes)%nat ->
  exists text, fmt_hex upper bytes (N.of_nat n) = Ok text /\ denotes text (take n (bytes_bits bytes)) /\ length text = frame_len n
    /\ (forall c, c ∈ text -> c = 95 \/ c ∈ tab upper).
Proof.
  intros Hb Hl Hn. unfold fmt_hex. cbn zeta. fold (tab upper).
  replace (w16 (N.min (N.of_nat n) (N.of_nat (length bytes) * 8))) with (N.of_nat n).
  2:{ symmetry. rewrite N.min_l by lia. unfold w16. apply N.mod_small. lia. }
  pose proof (Nat.div_mod_eq n 8) as D. pose proof (Nat.mod_upper_bound n 8 ltac:(lia)) as M.
  set (q := (n / 8)%nat) in *. set (m := (n mod 8)%nat) in *.
  assert (Erem : N.of_nat n mod 8 = N.of_nat m) by (symmetry; apply N.mod_unique with (N.of_nat q); lia).
  rewrite Erem.
  assert (Elen : N.to_nat ((N.of_nat n + 7) / 8) = (if (m =? 0)%nat then q else q + 1)%nat).
  { destruct (Nat.eqb_spec m 0) as [Em|Em].
    - replace ((N.of_nat n + 7) / 8) with (N.of_nat q); [lia|]. apply N.div_unique with 7; lia.
    - replace ((N.of_nat n + 7) / 8) with (N.of_nat q + 1); [lia|]. apply N.div_unique with (N.of_nat m - 1); lia. }
  rewrite Elen.
  assert (Cin : forall bs, Forall byte_ok bs -> forall c, c ∈ hex_encode (tab upper) bs -> c ∈ tab upper).
  { intros bs Hbs c Hc. unfold hex_encode in Hc. apply elem_of_list_In, in_concat in Hc. destruct Hc as (l & Hl1 & Hl2).
    apply in_map_iff in Hl1. destruct Hl1 as (x & <- & Hx). apply List.Forall_forall with (x := x) in Hbs; [|exact Hx].
    pose (f := fun x => forallb (fun c => bool_decide (c ∈ tab upper)) (byte2hex (tab upper) x)).
    assert (G : forallb f (map N.of_nat (seq 0 256)) = true) by (destruct upper; vm_compute; reflexivity).
    pose proof (range_in (fun x => f x = true) f 256 G (fun _ h => h) x Hbs) as E. unfold f in E.
    rewrite List.forallb_forall in E. specialize (E c Hl2). apply bool_decide_eq_true in E. exact E. }
  assert (Hfr4 : forall d, n = (4 * d)%nat -> frame_len n = d).
  { intros d ->. unfold frame_len. rewrite (Nat.mul_comm 4 d), Nat.mod_mul by lia. cbn [Nat.eqb].
    rewrite Nat.add_0_r. symmetry. apply Nat.div_unique with 3%nat; lia. }
  destruct (Nat.eqb_spec m 0) as [Em|Em].
  - destruct (Nat.ltb_spec (length bytes) q) as [H|_]; [lia|]. rewrite Em.
    assert (Ht : Forall byte_ok (take q bytes)) by (apply Forall_take, Hb).
    destruct (hex_encode_ok upper _ Ht) as [E1 E2].
    exists (hex_encode (tab upper) (take q bytes)). split_and!.
    + destruct (rev (take q bytes)); reflexivity.
    + apply den_plain, spells_nibs. rewrite E1. f_equal.
      replace n with (length (bytes_bits (take q bytes))) by (rewrite length_bytes_bits, take_length; lia).
      rewrite <- (take_drop q bytes) at 3. rewrite bytes_bits_app, take_app. reflexivity.
    + rewrite E2, take_length. rewrite (Hfr4 (2 * q)%nat) by lia. lia.
    + intros c Hc. right. eapply Cin; eassumption.
  - destruct (Nat.ltb_spec (length bytes) (q + 1)) as [H|_]; [lia|].
    assert (Hq : (q < length bytes)%nat) by lia.
    destruct (lookup_lt_is_Some_2 bytes q Hq) as [last Elast].
    assert (Etake : take (q + 1) bytes = take q bytes ++ [last]) by (replace (q + 1)%nat with (S q) by lia; apply take_S_r, Elast).
    rewrite Etake, rev_unit. assert ((N.of_nat m =? 0) = false) as -> by (apply N.eqb_neq; lia). cbn [negb].
    rewrite rev_involutive.
    assert (Ht : Forall byte_ok (take q bytes)) by (apply Forall_take, Hb).
    assert (Hlast : byte_ok last) by (exact (Forall_lookup_1 _ _ _ _ Hb Elast)).
    destruct (hex_encode_ok upper _ Ht) as [E1 E2].
    destruct (last_ok upper last (N.of_nat m) Hlast ltac:(lia) ltac:(lia)) as [E3 E4].
    fold (tag_text (N.of_nat m)).
    match goal with |- exists text, Ok (?a ++ ?b ++ ?c) = _ /\ _ => change b with (last_digits upper last (N.of_nat m)) end.
    assert (Ebits : take n (bytes_bits bytes) = bytes_bits (take q bytes) ++ take m (byte_bits last)).
    { rewrite <- (take_drop q bytes) at 1. rewrite (drop_S _ _ _ Elast), bytes_bits_app, bytes_bits_cons.
      rewrite take_app_ge by (rewrite length_bytes_bits, take_length; lia).
      f_equal. rewrite length_bytes_bits. assert (length (take q bytes) = q) as -> by (rewrite take_length; lia). replace (n - 8 * q)%nat with m by lia.
      apply take_app_le. rewrite length_byte_bits. lia. }
    rewrite Ebits.
    assert (Ls : length (take q bytes) = q) by (rewrite take_length; lia).
    assert (Cl : forall c, c ∈ last_digits upper last (N.of_nat m) -> c ∈ tab upper).
    { intros c. apply last_chars; [exact Hlast|lia|lia]. }
    eexists. split; [reflexivity|]. split_and!.
    + destruct (Nat.eqb_spec m 4) as [E4m|N4].
      * rewrite E4m in *. change (tag_text (N.of_nat 4)) with (@nil N). rewrite app_nil_r.
        apply den_plain, spells_nibs. rewrite nibs_app, E1, E3. change (N.of_nat 4 =? 4) with true. cbn iota. rewrite app_nil_r. reflexivity.
      * assert (E4' : (N.of_nat m =? 4) = false) by (apply N.eqb_neq; lia). unfold tag_text. rewrite E4' in *. cbn [negb].
        rewrite app_assoc. apply den_tag with (N.to_nat ((if 4 <? N.of_nat m then 7 else 3) - N.of_nat m)).
        apply spells_nibs. rewrite nibs_app, E1, E3. rewrite Nat2N.id, <- app_assoc. reflexivity.
    + rewrite !app_length, E2, E4, Ls. unfold tag_text.
      assert (C : (m = 1 \/ m = 2 \/ m = 3 \/ m = 4 \/ m = 5 \/ m = 6 \/ m = 7)%nat) by lia.
      assert (F : forall d r, n = (4 * d + r)%nat -> (1 <= r <= 3)%nat -> frame_len n = (d + 2)%nat).
      { intros d r -> Hr. unfold frame_len.
        assert (((4 * d + r + 3) / 4)%nat = (d + 1)%nat) as -> by (symmetry; apply Nat.div_unique with (r - 1)%nat; lia).
        assert (((4 * d + r) mod 4)%nat = r) as -> by (symmetry; apply Nat.mod_unique with d; lia).
        destruct (Nat.eqb_spec r 0); lia. }
      destruct C as [C|[C|[C|[C|[C|[C|C]]]]]]; rewrite C in *.
      all: try (rewrite (F (2 * q)%nat _ D) || rewrite (F (2 * q)%nat 1%nat ltac:(lia)) || rewrite (F (2 * q)%nat 2%nat ltac:(lia))
        || rewrite (F (2 * q)%nat 3%nat ltac:(lia)) || rewrite (F (2 * q + 1)%nat 1%nat ltac:(lia)) || rewrite (F (2 * q + 1)%nat 2%nat ltac:(lia))
        || rewrite (F (2 * q + 1)%nat 3%nat ltac:(lia)) || rewrite (Hfr4 (2 * q + 1)%nat ltac:(lia)); vm_compute N.ltb; vm_compute N.eqb; cbn [negb length]; lia).
      all: cbn; lia.
    + intros c Hc. rewrite !elem_of_app in Hc. destruct Hc as [Hc|[Hc|Hc]]; [right; eapply Cin; eassumption|right; apply Cl, Hc|].
      unfold tag_text in Hc. destruct (negb _); [|apply elem_of_nil in Hc; contradiction]. left. apply elem_of_list_singleton, Hc.
Qed.
