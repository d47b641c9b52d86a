(** * Proofs about the integer types of num/mod.rs *)
From Verif Require Import Err CellModel BitsProofs ShardProofs TextModel NumModel Var248Model NumSpec.
Local Open Scope N_scope.

Lemma size_le v k : N.size v <= k <-> v < 2 ^ k.
Proof.
  split; intros H.
  - eapply N.lt_le_trans; [apply N.size_gt|]. apply N.pow_le_mono_r; lia.
  - destruct (N.eq_dec v 0) as [->|Nz]; [cbn; lia|].
    rewrite N.size_log2 by exact Nz. assert (N.log2 v < k); [|lia]. apply N.log2_lt_pow2; lia.
Qed.
Lemma pow256 n : 256 ^ n = 2 ^ (8 * n).
Proof. change 256 with (2 ^ 8). rewrite <- N.pow_mul_r. reflexivity. Qed.
Lemma shortest_size v : shortest v ((N.size v + 7) / 8).
Proof.
  split.
  - rewrite pow256. apply size_le. pose proof (N.div_mod (N.size v + 7) 8). pose proof (N.mod_lt (N.size v + 7) 8). lia.
  - intros m H. rewrite pow256 in H. apply size_le in H. pose proof (N.div_mod (N.size v + 7) 8). pose proof (N.mod_lt (N.size v + 7) 8). nia.
Qed.
Lemma shortest_unique v n m : shortest v n -> shortest v m -> n = m.
Proof. intros [A B] [C D]. specialize (B _ C). specialize (D _ A). lia. Qed.
Lemma len_size w v : N.size v <= 8 * w -> w <= 32 -> w8 (w - (8 * w - N.size v) / 8) = (N.size v + 7) / 8.
Proof.
  intros H Hw. unfold w8.
  pose proof (N.div_mod (N.size v + 7) 8). pose proof (N.mod_lt (N.size v + 7) 8).
  pose proof (N.div_mod (8 * w - N.size v) 8). pose proof (N.mod_lt (8 * w - N.size v) 8).
  rewrite N.mod_small; lia.
Qed.
Lemma vk_len_size k v : v < 2 ^ vk_width k -> vk_len k v = (N.size v + 7) / 8.
Proof.
  intros H. apply size_le in H. unfold vk_len, lz.
  destruct k; cbn [vk_width] in *.
  - exact (len_size 4 v H ltac:(lia)).
  - exact (len_size 8 v H ltac:(lia)).
  - exact (len_size 16 v H ltac:(lia)).
Qed.
Lemma vk_len_shortest k v : v < 2 ^ vk_width k -> shortest v (vk_len k v).
Proof. intros H. rewrite vk_len_size by exact H. apply shortest_size. Qed.
Lemma vk_max_eq k : vk_max k = 256 ^ vk_bytes k - 1.
Proof. destruct k; reflexivity. Qed.
Lemma vk_bytes_lt k : 2 ^ vk_len_bits k = vk_bytes k + 1.
Proof. destruct k; reflexivity. Qed.
Lemma vk_len_le k v : v < 2 ^ vk_width k -> vk_len k v <= vk_bytes k <-> v <= vk_max k.
Proof.
  intros H. destruct (vk_len_shortest k v H) as [A B]. rewrite vk_max_eq.
  pose proof (N.pow_nonzero 256 (vk_bytes k) ltac:(lia)).
  split; intros L.
  - assert (256 ^ vk_len k v <= 256 ^ vk_bytes k) by (apply N.pow_le_mono_r; lia). lia.
  - apply B. lia.
Qed.

(** ** Storing *)
Lemma put_uint_ok v n b : (length b + N.to_nat n <= MAX_BITS)%nat -> put_uint v n b = Ok (b ++ nbits (N.to_nat n) v).
Proof. intros H. unfold put_uint. apply put_ok. rewrite length_nbits. exact H. Qed.
Lemma nbits_w64 (n : nat) v : N.of_nat n <= 64 -> nbits n (w64 v) = nbits n v.
Proof. intros H. unfold w64. apply nbits_ext. intros i Hi. apply N.mod_pow2_bits_low. lia. Qed.
Lemma store_u128_ok v n b : n <= 128 -> (length b + N.to_nat n <= MAX_BITS)%nat ->
  store_u128 v n b = Ok (b ++ nbits (N.to_nat n) v).
Proof.
  intros Hn H. unfold store_u128, p_sub. destruct (N.leb_spec 64 n) as [L|L].
  - rewrite put_uint_ok by lia. cbn [rbind]. rewrite put_uint_ok by (rewrite app_length, length_nbits; lia).
    rewrite <- app_assoc. do 2 f_equal.
    rewrite !nbits_w64 by lia. replace (N.to_nat (n - (n - 64))) with 64%nat by lia.
    replace (N.to_nat n) with (N.to_nat (n - 64) + 64)%nat by lia. rewrite nbits_app. reflexivity.
  - rewrite put_uint_ok by lia. rewrite nbits_w64 by lia. reflexivity.
Qed.
Lemma var_bits_length lb v bits : var_uint_bits lb v bits -> exists n, shortest v n /\ length bits = (lb + N.to_nat (8 * n))%nat.
Proof. intros (n & S & _ & ->). exists n. split; [exact S|]. rewrite app_length, !length_nbits. reflexivity. Qed.
Lemma has_capacity_spec b n : has_capacity b n = negb (MAX_BITS <? length b + N.to_nat n)%nat.
Proof.
  unfold has_capacity. destruct (N.leb_spec (N.of_nat (length b) + n) 1023), (Nat.ltb_spec MAX_BITS (length b + N.to_nat n)); unfold MAX_BITS in *; try reflexivity; lia.
Qed.
Lemma store_vk_ok k v b : v < 2 ^ vk_width k ->
  store_vk k v b =
  if (vk_max k <? v) || (MAX_BITS <? length b + N.to_nat (vk_len_bits k + vk_len k v * 8))%nat then Err CellOverflow
  else Ok (b ++ nbits (N.to_nat (vk_len_bits k)) (vk_len k v) ++ nbits (N.to_nat (vk_len k v * 8)) v).
Proof.
  intros H. unfold store_vk. cbn zeta. rewrite has_capacity_spec, negb_involutive.
  pose proof (vk_len_le k v H) as L.
  assert ((vk_bytes k <? vk_len k v) = (vk_max k <? v)) as ->.
  { destruct (N.ltb_spec (vk_bytes k) (vk_len k v)), (N.ltb_spec (vk_max k) v); try reflexivity; lia. }
  destruct (N.ltb_spec (vk_max k) v) as [M|M]; [reflexivity|]. cbn [orb].
  destruct (Nat.ltb_spec MAX_BITS (length b + N.to_nat (vk_len_bits k + vk_len k v * 8))) as [C|C]; [reflexivity|].
  rewrite put_uint_ok by lia. cbn [rbind].
  assert (vk_len k v <= 15) by (etransitivity; [apply L; exact M|]; destruct k; cbn; lia).
  destruct k; (rewrite put_uint_ok || rewrite store_u128_ok); try rewrite <- app_assoc; try reflexivity; try (rewrite app_length, length_nbits; lia); lia.
Qed.
Lemma store_vk_spec k v b : v < 2 ^ vk_width k ->
  match store_vk k v b with
  | Ok b' => v <= vk_max k /\ exists bits, var_uint_bits (N.to_nat (vk_len_bits k)) v bits /\ b' = b ++ bits /\ (length b' <= MAX_BITS)%nat
  | Err e => e = CellOverflow /\ (vk_max k < v \/ forall bits, var_uint_bits (N.to_nat (vk_len_bits k)) v bits -> (MAX_BITS < length b + length bits)%nat)
  end.
Proof.
  intros H. rewrite store_vk_ok by exact H. pose proof (vk_len_shortest k v H) as S.
  destruct (N.ltb_spec (vk_max k) v) as [M|M]; cbn [orb]; [split; [reflexivity|left; exact M]|].
  destruct (Nat.ltb_spec MAX_BITS (length b + N.to_nat (vk_len_bits k + vk_len k v * 8))) as [C|C].
  - split; [reflexivity|]. right. intros bits V. apply var_bits_length in V. destruct V as (n & S' & ->).
    rewrite (shortest_unique _ _ _ S' S). lia.
  - split; [exact M|]. eexists. split; [|split; [reflexivity|]].
    + exists (vk_len k v). split; [exact S|]. split.
      * rewrite N2Nat.id, vk_bytes_lt. apply (vk_len_le k v H) in M. lia.
      * rewrite (N.mul_comm 8). reflexivity.
    + rewrite !app_length, !length_nbits. lia.
Qed.
(** ** Loading *)
Lemma load_uint_app n m b : load_uint (n + m) b =
  let? (x, b1) := load_uint n b in let? (y, b2) := load_uint m b1 in Ok (x * 2 ^ N.of_nat m + y, b2).
Proof.
  unfold load_uint. destruct (Nat.ltb_spec (length b) n) as [L|L]; cbn [rbind].
  { destruct (Nat.ltb_spec (length b) (n + m)); [reflexivity|lia]. }
  rewrite drop_length.
  destruct (Nat.ltb_spec (length b - n) m), (Nat.ltb_spec (length b) (n + m)); try lia; [reflexivity|]. cbn [rbind].
  rewrite drop_drop. do 2 f_equal.
  rewrite <- take_take_drop, bval_app, take_length, drop_length. repeat f_equal. lia.
Qed.
Lemma load_uint_lt n b x r : load_uint n b = Ok (x, r) -> x < 2 ^ N.of_nat n.
Proof.
  unfold load_uint. destruct (Nat.ltb_spec (length b) n); [discriminate|]. intros [= <- _].
  replace n with (length (take n b)) at 2 by (rewrite take_length; lia). apply bval_lt.
Qed.
Lemma lor_shl x y n : y < 2 ^ n -> N.lor (x * 2 ^ n) y = x * 2 ^ n + y.
Proof.
  intros H. assert (D : N.land (x * 2 ^ n) y = 0).
  { apply N.bits_inj. intros i. rewrite N.land_spec, N.bits_0.
    rewrite <- N.shiftl_mul_pow2. destruct (N.lt_ge_cases i n) as [L|L].
    + rewrite N.shiftl_spec_low by exact L. reflexivity.
    + rewrite <- (N.mod_small y (2 ^ n)) by exact H. rewrite N.mod_pow2_bits_high by exact L. apply andb_false_r. }
  rewrite N.add_nocarry_lxor by exact D. symmetry. apply N.lxor_lor. exact D.
Qed.
Lemma load_u128_ok bytes b : bytes <= 16 -> load_u128 bytes b = load_uint (N.to_nat (bytes * 8)) b.
Proof.
  intros H. unfold load_u128, p_sub. destruct (N.leb_spec 8 bytes) as [L|L].
  - destruct (N.ltb_spec 0 (bytes - 8)) as [P|P].
    + replace (bytes - (bytes - 8)) with 8 by lia.
      replace (N.to_nat (bytes * 8)) with (N.to_nat ((bytes - 8) * 8) + 64)%nat by lia. rewrite load_uint_app.
      destruct (load_uint (N.to_nat ((bytes - 8) * 8)) b) as [[x b1]|e] eqn:E; [|reflexivity]. cbn [rbind].
      change (N.to_nat (8 * 8)) with 64%nat.
      destruct (load_uint 64 b1) as [[y b2]|e] eqn:E2; [|reflexivity]. cbn [rbind].
      apply load_uint_lt in E, E2. do 2 f_equal.
      assert (x < 2 ^ 64). { eapply N.lt_le_trans; [exact E|]. apply N.pow_le_mono_r; lia. }
      unfold shl. rewrite N.shiftl_mul_pow2, N.mod_small.
      * apply lor_shl. exact E2.
      * change (2 ^ 128) with (2 ^ 64 * 2 ^ 64). apply N.mul_lt_mono_pos_r; [reflexivity|exact H0].
    + cbn [rbind]. destruct (load_uint (N.to_nat (bytes * 8)) b) as [[x b1]|e]; reflexivity.
  - cbn [rbind]. destruct (load_uint (N.to_nat (bytes * 8)) b) as [[x b1]|e]; reflexivity.
Qed.
Definition load_var (lb : nat) (b : list bool) : res (N * list bool) :=
  let? (n, b) := load_uint lb b in load_uint (N.to_nat (n * 8)) b.
Lemma load_vk_ok k b : load_vk k b = load_var (N.to_nat (vk_len_bits k)) b.
Proof.
  unfold load_vk, load_var. destruct (load_uint (N.to_nat (vk_len_bits k)) b) as [[n b1]|e] eqn:E; [|reflexivity].
  cbn [rbind]. apply load_uint_lt in E. destruct k.
  - destruct (load_uint (N.to_nat (n * 8)) b1) as [[v b2]|e] eqn:E2; [|reflexivity]. cbn [rbind].
    apply load_uint_lt in E2. unfold w32. rewrite N.mod_small; [reflexivity|].
    eapply N.lt_le_trans; [exact E2|]. apply N.pow_le_mono_r; [lia|]. change (2 ^ N.of_nat (N.to_nat (vk_len_bits VarUint24))) with 4 in E. lia.
  - reflexivity.
  - apply load_u128_ok. change (2 ^ N.of_nat (N.to_nat (vk_len_bits Tokens))) with 16 in E. lia.
Qed.
Lemma load_uint_iff n b x r : load_uint n b = Ok (x, r) <-> x < 2 ^ N.of_nat n /\ b = nbits n x ++ r.
Proof.
  split.
  - intros H. split; [eapply load_uint_lt; exact H|]. unfold load_uint in H. destruct (Nat.ltb_spec (length b) n) as [L|L]; [discriminate|].
    injection H as <- <-. rewrite nbits_bval' by (rewrite take_length; lia). symmetry. apply take_drop.
  - intros [H ->]. apply load_uint_nbits. exact H.
Qed.
Lemma load_var_spec lb b v r : load_var lb b = Ok (v, r) <-> exists bits, loose_var_uint_bits lb v bits /\ b = bits ++ r.
Proof.
  unfold load_var. split.
  - destruct (load_uint lb b) as [[n b1]|e] eqn:E; [|discriminate]. cbn [rbind]. intros H.
    apply load_uint_iff in E. destruct E as [E ->]. apply load_uint_iff in H. destruct H as [H ->].
    exists (nbits lb n ++ nbits (N.to_nat (8 * n)) v). rewrite <- app_assoc. rewrite (N.mul_comm 8 n). split; [|reflexivity].
    exists n. rewrite (N.mul_comm 8 n). split_and!; try assumption; [|reflexivity]. rewrite pow256, (N.mul_comm 8 n). rewrite N2Nat.id in H. exact H.
  - intros (bits & (n & Hv & Hn & ->) & ->). rewrite <- app_assoc. rewrite load_uint_nbits by exact Hn. cbn [rbind].
    rewrite (N.mul_comm 8 n). apply load_uint_nbits. rewrite N2Nat.id. rewrite pow256, N.mul_comm in Hv. exact Hv.
Qed.
Lemma load_var_err lb b e : load_var lb b = Err e -> e = CellUnderflow.
Proof.
  unfold load_var, load_uint. destruct (length b <? lb)%nat; cbn [rbind]; [congruence|].
  destruct (Nat.ltb _ _); congruence.
Qed.
Lemma var_loose lb v bits : var_uint_bits lb v bits -> loose_var_uint_bits lb v bits.
Proof. intros (n & [S _] & Hn & ->). exists n. auto. Qed.

(** ** Arithmetic *)
Lemma upto_add w max a b : max < 2 ^ w -> exactly max (Z.of_N a + Z.of_N b) (upto max (p_add w a b)).
Proof.
  intros H. unfold exactly, upto, p_add. destruct (N.ltb_spec (a + b) (2 ^ w)); [|lia].
  destruct (N.leb_spec (a + b) max); lia.
Qed.
Lemma upto_sub max a b : exactly max (Z.of_N a - Z.of_N b) (upto max (p_sub a b)).
Proof.
  unfold exactly, upto, p_sub. destruct (N.leb_spec b a); [|lia]. destruct (N.leb_spec (a - b) max); lia.
Qed.
Lemma upto_mul w max a b : max < 2 ^ w -> exactly max (Z.of_N a * Z.of_N b) (upto max (p_mul w a b)).
Proof.
  intros H. rewrite <- N2Z.inj_mul. unfold exactly, upto, p_mul. destruct (N.ltb_spec (a * b) (2 ^ w)); [|lia].
  destruct (N.leb_spec (a * b) max); lia.
Qed.
Lemma upto_div max a b : b <> 0 -> exactly max (Z.of_N a / Z.of_N b) (upto max (p_div a b)).
Proof.
  intros H. rewrite <- N2Z.inj_div. unfold exactly, upto, p_div. destruct (N.eqb_spec b 0); [lia|].
  destruct (N.leb_spec (a / b) max); lia.
Qed.
Lemma clamp_of (max : N) (z : Z) (r : N) : (match exactly max z (Some r) with x => x end) -> Z.of_N r = clamp max z.
Proof. cbn. unfold clamp. lia. Qed.
