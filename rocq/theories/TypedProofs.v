(** * Typed keys. *)
From Verif Require Import Err BitsProofs IntModel IntProofs NumModel AddrModel AddrSpec CodecProofs AddrProps CellModel DictModel DictSpec DictProps TypedModel TypedSpec.
Local Open Scope nat_scope.

Lemma ok_inj {A} (x y : A) : Ok x = Ok y -> x = y.
Proof. intros [= H]. exact H. Qed.
Lemma take_split a b {A} (l : list A) : take (a + b) l = take a l ++ take b (drop a l).
Proof.
  revert l. induction a as [|a IH]; intros l; [reflexivity|]. destruct l as [|x l]; [cbn; destruct b; reflexivity|]. cbn. f_equal. apply IH.
Qed.
Lemma take_bits n data : take (8 * n) (bytes_bits data) = bytes_bits (take n data).
Proof.
  revert data. induction n as [|n IH]; intros data; [reflexivity|]. destruct data as [|x data]; [reflexivity|].
  cbn [take]. rewrite !bytes_bits_cons. replace (8 * S n) with (8 + 8 * n) by lia.
  rewrite take_split, take_app_alt, drop_app_alt by (symmetry; apply (length_nbits 8)). rewrite IH. reflexivity.
Qed.
Lemma drop_bits n data : drop (8 * n) (bytes_bits data) = bytes_bits (drop n data).
Proof.
  revert data. induction n as [|n IH]; intros data; [reflexivity|]. destruct data as [|x data]; [reflexivity|].
  cbn [drop]. rewrite !bytes_bits_cons. replace (8 * S n) with (8 + 8 * n) by lia.
  rewrite <- drop_drop, drop_app_alt by (symmetry; apply (length_nbits 8)). apply IH.
Qed.
Lemma be_bits n data : Forall byte_ok data -> from_be (take n data) = bval (take (8 * n) (bytes_bits data)).
Proof. intros F. rewrite take_bits. apply from_be_bval. apply Forall_take, F. Qed.
Lemma num_iff w B k : length B = w -> bval B = k <-> (k < 2 ^ N.of_nat w)%N /\ nbits w k = B.
Proof.
  intros L. split.
  - intros <-. rewrite <- L at 1. split; [apply bval_lt|apply nbits_bval', L].
  - intros [H <-]. apply bval_nbits_small, H.
Qed.
Lemma int_iff w B z : 0 < w -> length B = w -> as_signed (N.of_nat w) (bval B) = z <-> AddrSpec.in_int (Z.of_nat w) z /\ nbits w (as_unsigned (N.of_nat w) z) = B.
Proof.
  intros Hw L. pose proof (load_int_iff w B z [] Hw) as E.
  assert (LU : load_uint w B = Ok (bval B, [])).
  { unfold load_uint. destruct (Nat.ltb_spec (length B) w) as [C|C]; [lia|]. rewrite take_ge, drop_ge by lia. reflexivity. }
  rewrite LU in E. cbn [rbind] in E. rewrite app_nil_r, <- as_unsigned_bits in E. split.
  - intros <-. destruct (proj1 E eq_refl) as [I B']. split; [exact I|symmetry; exact B'].
  - intros [I B']. symmetry in B'. pose proof (proj2 E (conj I B')) as X. injection X as X. exact X.
Qed.
Lemma put_nil x : length x <= 1023 -> put x [] = Ok x.
Proof. intros H. unfold put, MAX_BITS. cbn [length plus app]. destruct (Nat.ltb_spec 1023 (length x)); [lia|reflexivity]. Qed.
Lemma put_nbits w v b : length b + w <= 1023 -> put_uint v (N.of_nat w) b = Ok (b ++ nbits w v).
Proof. intros H. unfold put_uint, put, MAX_BITS. rewrite Nat2N.id, length_nbits. destruct (Nat.ltb_spec 1023 (length b + w)); [lia|reflexivity]. Qed.
Lemma take_len n data : length data = 128 -> n <= 128 -> length (take (8 * n) (bytes_bits data)) = 8 * n.
Proof. intros L H. rewrite take_length, length_bytes_bits. lia. Qed.

Lemma bool_good : good_key bool_key (fun _ => True).
Proof.
  split; [cbn; lia|]. split; [intros k _; exists [k]; split; reflexivity|]. intros data k L F. destruct data as [|x data]; [discriminate|].
  inversion F as [|? ? Hx _]; subst. cbn [k_load bool_key nth k_bits k_store]. rewrite put_nil by (cbn; lia).
  assert (T : take 1 (bytes_bits (x :: data)) = [negb (N.land x 128 =? 0)%N]).
  { rewrite bytes_bits_cons. rewrite take_app_le by (unfold byte_bits; rewrite length_nbits; lia).
    assert (C : forallb (fun x => bool_decide (take 1 (byte_bits x) = [negb (N.land x 128 =? 0)%N])) (map N.of_nat (seq 0 256)) = true) by (vm_compute; reflexivity).
    rewrite forallb_forall in C. refine (proj1 (bool_decide_eq_true _) (C x _)). apply in_map_iff. exists (N.to_nat x). split; [apply N2Nat.id|]. unfold byte_ok in Hx. apply in_seq. lia. }
  rewrite T. split; [intros [= <-]; auto|]. intros [_ [= <-]]. reflexivity.
Qed.
Lemma uint_good n : n <= 127 -> good_key (uint_key n) (fun x => (x < 2 ^ N.of_nat (8 * n))%N).
Proof.
  intros Hn. split; [cbn [k_bits uint_key]; lia|]. cbn [k_store uint_key k_bits k_load].
  split; [intros k _; exists (nbits (8 * n) k); rewrite put_nbits by (cbn [length]; lia); split; [reflexivity|apply length_nbits]|].
  intros data k L F. rewrite put_nbits by (cbn [length]; lia). cbn [app]. rewrite be_bits by exact F.
  pose proof (num_iff (8 * n) _ k (take_len n data L ltac:(lia))) as E. split.
  - intros [= H]. apply E in H as [H1 H2]. split; [exact H1|]. f_equal. exact H2.
  - intros [H1 [= H2]]. f_equal. apply E. auto.
Qed.
Lemma int_good n : 1 <= n <= 127 -> good_key (int_key n) (AddrSpec.in_int (Z.of_nat (8 * n))).
Proof.
  intros Hn. split; [cbn [k_bits int_key]; lia|]. cbn [k_store int_key k_bits k_load].
  split; [intros k _; eexists; rewrite put_nbits by (cbn [length]; lia); split; [reflexivity|apply length_nbits]|].
  intros data k L F. rewrite put_nbits by (cbn [length]; lia). cbn [app]. rewrite be_bits by exact F.
  pose proof (int_iff (8 * n) _ k ltac:(lia) (take_len n data L ltac:(lia))) as E. split.
  - intros [= H]. apply E in H as [H1 H2]. split; [exact H1|]. f_equal. exact H2.
  - intros [H1 [= H2]]. f_equal. apply E. auto.
Qed.
Lemma bytes_good n : n <= 127 -> good_key (bytes_key n) (fun x => length x = n /\ Forall byte_ok x).
Proof.
  intros Hn. split; [cbn [k_bits bytes_key]; lia|]. cbn [k_store bytes_key k_bits k_load].
  split; [intros k [Lk Fk]; exists (bytes_bits k); rewrite put_nil by (rewrite length_bytes_bits; lia); split; [reflexivity|rewrite length_bytes_bits; lia]|].
  intros data k L F. rewrite take_bits. split.
  - intros [= <-]. split; [split; [rewrite take_length; lia|apply Forall_take, F]|]. apply put_nil. rewrite length_bytes_bits, take_length. lia.
  - intros [[Lk Fk] H]. rewrite put_nil in H by (rewrite length_bytes_bits; lia). injection H as H. f_equal. symmetry. 
    apply bytes_bits_inj; [exact Fk|apply Forall_take, F|exact H].
Qed.
Lemma take_len_drop n m data : length data = 128 -> n + m <= 128 -> length (take (8 * n) (bytes_bits (drop m data))) = 8 * n.
Proof. intros L H. rewrite take_length, length_bytes_bits, drop_length. lia. Qed.
Lemma pair_good : good_key pair_key (fun x => (fst x < 2 ^ 64)%N /\ (snd x < 2 ^ 32)%N).
Proof.
  split; [cbn; lia|]. cbn [k_store pair_key k_bits k_load].
  assert (P : forall x : N * N, rbind (put_uint (fst x) 64 []) (fun b => put_uint (snd x) 32 b) = Ok (nbits 64 (fst x) ++ nbits 32 (snd x))).
  { intros x. rewrite (put_nbits 64) by (cbn [length]; lia). cbn [rbind app]. rewrite (put_nbits 32) by (rewrite length_nbits; lia). reflexivity. }
  split; [intros k _; rewrite P; eexists; split; [reflexivity|rewrite app_length, !length_nbits; reflexivity]|].
  intros data [a b] L F. rewrite P. cbn [fst snd]. rewrite !be_bits by (exact F || apply Forall_drop, F).
  change 96 with (8 * 8 + 8 * 4). rewrite take_split, drop_bits.
  pose proof (num_iff (8 * 8) _ a (take_len 8 data L ltac:(lia))) as E1. pose proof (num_iff (8 * 4) _ b (take_len_drop 4 8 data L ltac:(lia))) as E2.
  pose proof (take_len 8 data L ltac:(lia)) as L1. split.
  - intros [= H1 H2]. apply E1 in H1 as [H1 B1]. apply E2 in H2 as [H2 B2]. split; [split; [exact H1|exact H2]|]. rewrite <- B1, <- B2. reflexivity.
  - intros [[H1 H2] H]. apply ok_inj in H. apply app_inj_1 in H; [|rewrite L1; apply (length_nbits 64)]. destruct H as [B1 B2].
    f_equal. f_equal; [apply E1|apply E2]; auto.
Qed.
Lemma shard_good : good_key shard_key (fun x => AddrSpec.in_int 32 (fst x) /\ (snd x < 2 ^ 64)%N).
Proof.
  split; [cbn; lia|]. cbn [k_store shard_key k_bits k_load].
  assert (P : forall x : Z * N, rbind (put_uint (as_unsigned 32 (fst x)) 32 []) (fun b => put_uint (snd x) 64 b) = Ok (nbits 32 (as_unsigned 32 (fst x)) ++ nbits 64 (snd x))).
  { intros x. rewrite (put_nbits 32) by (cbn [length]; lia). cbn [rbind app]. rewrite (put_nbits 64) by (rewrite length_nbits; lia). reflexivity. }
  split; [intros k _; rewrite P; eexists; split; [reflexivity|rewrite app_length, !length_nbits; reflexivity]|].
  intros data [a b] L F. rewrite P. cbn [fst snd]. rewrite !be_bits by (exact F || apply Forall_drop, F).
  change 96 with (8 * 4 + 8 * 8). rewrite take_split, drop_bits.
  pose proof (int_iff (8 * 4) _ a ltac:(lia) (take_len 4 data L ltac:(lia))) as E1. pose proof (num_iff (8 * 8) _ b (take_len_drop 8 4 data L ltac:(lia))) as E2.
  pose proof (take_len 4 data L ltac:(lia)) as L1. split.
  - intros [= H1 H2]. apply E1 in H1 as [H1 B1]. apply E2 in H2 as [H2 B2]. split; [split; [exact H1|exact H2]|]. rewrite <- B1, <- B2. reflexivity.
  - intros [[H1 H2] H]. apply ok_inj in H. apply app_inj_1 in H; [|rewrite L1; apply (length_nbits 32)]. destruct H as [B1 B2].
    f_equal. f_equal; [apply E1|apply E2]; auto.
Qed.
Lemma small_good n : 1 <= n <= 16 -> good_key (small_key n) (fun x => (x < 2 ^ N.of_nat n)%N).
Proof.
  intros Hn. split; [cbn [k_bits small_key]; lia|]. cbn [k_store small_key k_bits k_load].
  split. { intros k Hk. exists (nbits n k). rewrite (proj2 (N.ltb_lt _ _) Hk), put_nbits by (cbn [length]; lia). split; [reflexivity|apply length_nbits]. }
  intros data k L F. rewrite be_bits by exact F. change (8 * 2) with 16. replace 16 with (n + (16 - n)) by lia. rewrite take_split, bval_app.
  set (X := take n (bytes_bits data)). set (Y := take (16 - n) _). 
  assert (LX : length X = n) by (unfold X; rewrite take_length, length_bytes_bits; lia).
  assert (LY : length Y = 16 - n) by (unfold Y; rewrite take_length, drop_length, length_bytes_bits; lia).
  assert (S : N.shiftr (bval X * 2 ^ N.of_nat (length Y) + bval Y) (16 - N.of_nat n) = bval X).
  { replace (16 - N.of_nat n)%N with (N.of_nat (length Y)) by (rewrite LY; lia). rewrite N.shiftr_div_pow2. pose proof (bval_lt Y). rewrite N.div_add_l by (apply N.pow_nonzero; lia). rewrite N.div_small by assumption. lia. }
  replace (N.of_nat (n + (16 - n))) with 16%N by lia. rewrite S. pose proof (num_iff n X k LX) as E. split.
  - intros [= H]. apply E in H as [H1 H2]. split; [exact H1|]. rewrite (proj2 (N.ltb_lt _ _) H1), put_nbits by (cbn [length]; lia). cbn [app]. f_equal. exact H2.
  - intros [H1 H]. rewrite (proj2 (N.ltb_lt _ _) H1), put_nbits in H by (cbn [length]; lia). injection H as H. f_equal. apply E. auto.
Qed.
Lemma std_len wc id x : std_tlb (StdAddr None wc id) x -> length x = 267.
Proof.
  intros H. inversion H as [ac y wc' id' Hm Hw F L]; subst. inversion Hm; subst. rewrite !app_length, length_bytes_bits, L. unfold int_bits. rewrite length_nbits. reflexivity.
Qed.
Lemma std_fun a x y : sa_anycast a = None -> std_tlb a x -> std_tlb a y -> x = y.
Proof.
  destruct a as [ac wc id]. cbn [sa_anycast]. intros -> H1 H2. inversion H1 as [? ? ? ? M1]; subst. inversion H2 as [? ? ? ? M2]; subst. inversion M1; inversion M2; subst. reflexivity.
Qed.
Lemma addr_good : good_key addr_key (fun a => sa_anycast a = None /\ exists x, std_tlb a x).
Proof.
  split; [cbn; lia|]. cbn [k_store addr_key k_bits k_load].
  assert (P : forall a x, sa_anycast a = None -> std_tlb a x -> std_store_key a [] = Ok x /\ length x = 267).
  { intros a x N H. rewrite (C38_key_store a x [] H), N. split; [reflexivity|]. destruct a as [ac wc id]. cbn [sa_anycast] in N. subst ac. apply (std_len _ _ _ H). }
  split; [intros a [N [x H]]; exists x; apply (P a x N H)|].
  intros data a L F. rewrite (C38_key_load data a F) by lia. split.
  - intros (N & x & rest & H & E). split; [split; [exact N|exists x; exact H]|]. destruct (P a x N H) as [-> Lx]. rewrite E, take_app_alt by (symmetry; exact Lx). reflexivity.
  - intros [[N [x H]] E]. split; [exact N|]. destruct (P a x N H) as [E' Lx]. rewrite E' in E. injection E as E. exists x, (drop 267 (bytes_bits data)). split; [exact H|]. rewrite E. symmetry. apply take_drop.
Qed.

(** ** Order *)
Lemma key_num_unsigned b : key_num false b = Z.of_N (bval b).
Proof. destruct b as [|x r]; [reflexivity|]. cbn [key_num]. rewrite bval_cons, N2Z.inj_add, N2Z.inj_mul, N2Z.inj_pow, nat_N_Z. destruct x; cbn [N.b2n]; lia. Qed.
Lemma key_num_signed b : 0 < length b -> key_num true b = as_signed (N.of_nat (length b)) (bval b).
Proof.
  destruct b as [|x r]; [cbn; lia|]. intros _. cbn [key_num length]. rewrite bval_cons. unfold as_signed.
  replace (N.of_nat (S (length r)) - 1)%N with (N.of_nat (length r)) by lia. pose proof (bval_lt r) as B.
  assert (P : (2 ^ Z.of_N (N.of_nat (S (length r))) = 2 * 2 ^ Z.of_nat (length r))%Z) by (rewrite <- Z.pow_succ_r by lia; f_equal; lia).
  assert (Q : Z.of_N (2 ^ N.of_nat (length r)) = (2 ^ Z.of_nat (length r))%Z) by (rewrite N2Z.inj_pow, nat_N_Z; reflexivity).
  destruct x; cbn [N.b2n].
  - destruct (N.ltb_spec (1 * 2 ^ N.of_nat (length r) + bval r) (2 ^ N.of_nat (length r))); [lia|]. rewrite P, N2Z.inj_add, N.mul_1_l, Q. lia.
  - destruct (N.ltb_spec (0 * 2 ^ N.of_nat (length r) + bval r) (2 ^ N.of_nat (length r))); lia.
Qed.
Lemma uint_number n : n <= 127 -> number_key (uint_key n) (fun x => (x < 2 ^ N.of_nat (8 * n))%N) false Z.of_N.
Proof.
  intros Hn k b Hk. cbn [k_store uint_key]. rewrite put_nbits by (cbn [length]; lia). intros [= <-]. cbn [app]. rewrite key_num_unsigned, bval_nbits_small by exact Hk. reflexivity.
Qed.
Lemma small_number n : 1 <= n <= 16 -> number_key (small_key n) (fun x => (x < 2 ^ N.of_nat n)%N) false Z.of_N.
Proof.
  intros Hn k b Hk. cbn [k_store small_key]. rewrite (proj2 (N.ltb_lt _ _) Hk), put_nbits by (cbn [length]; lia). intros [= <-]. cbn [app]. rewrite key_num_unsigned, bval_nbits_small by exact Hk. reflexivity.
Qed.
Lemma int_number n : 1 <= n <= 127 -> number_key (int_key n) (AddrSpec.in_int (Z.of_nat (8 * n))) true (fun z => z).
Proof.
  intros Hn k b Hk. cbn [k_store int_key]. rewrite put_nbits by (cbn [length]; lia). intros [= <-]. cbn [app]. rewrite key_num_signed; rewrite length_nbits; [|lia].
  apply (int_iff (8 * n) _ k ltac:(lia)); [apply length_nbits|]. auto.
Qed.
