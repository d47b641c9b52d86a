(** * Proofs for C74: sizes, the serializer *)
From Verif Require Import Err BitsProofs IntModel NumModel NumSpec NumProofs AddrModel AddrSpec AddrProofs BigIntModel BigIntSpec BigIntProofs CellModel CodecProofs ChunkModel ChunkSpec ChunkProofs LayoutProofs
  DictModel DictSpec IterModel DictProps BuildProps AbiModel AbiSpec AbiProofs AbiProofs2 AbiProofs4 EncSpec.
Local Open Scope N_scope.

(** ** Numbers *)
Lemma neg_bytes_len x k : 0 < x -> (1 <= k)%nat -> x <= 2 ^ (N.of_nat (8 * k) - 1) -> (length (neg_bytes x) <= k)%nat.
Proof.
  intros Hx Hk Hb. destruct (to_bytes_facts x) as (H1 & H2 & H3 & H4). unfold neg_bytes.
  set (l0 := to_bytes_le x) in *. cbv zeta. rewrite rev_length, twos_len.
  assert (L : exists b l', l0 = l' ++ [b]).
  { destruct l0 as [|z l0'] using rev_ind; [cbn in H2; lia|]. eauto. }
  assert (Nk : (length l0 <= k)%nat).
  { rewrite H2. assert (x < 2 ^ N.of_nat (8 * k)).
    { eapply N.le_lt_trans; [exact Hb|]. apply N.pow_lt_mono_r; lia. }
    apply BigIntProofs.size_lt in H. unfold nbytes. lia. }
  destruct L as (b & l' & E). rewrite E, last_snoc, rev_app_distr. cbn [rev app tail].
  rewrite E in H1, H2, H3, Nk. apply Forall_app in H1. destruct H1 as [Hl Hb1]. inversion_clear Hb1 as [|? ? Hb' _]. rewrite app_length in H2, Nk. cbn [length] in H2, Nk.
  unfold byte_ok in Hb'. unfold from_le in H3. rewrite rev_app_distr in H3. cbn [rev app] in H3. rewrite from_be_cons, rev_length in H3.
  pose proof (bytes_rev _ Hl) as Hr. pose proof (from_be_lt (rev l') Hr) as B. rewrite rev_length in B. set (P := 2 ^ N.of_nat (8 * length l')) in *.
  assert (Pk : (length l' + 1)%nat = k -> 2 ^ (N.of_nat (8 * k) - 1) = 128 * P).
  { intros <-. replace (N.of_nat (8 * (length l' + 1)) - 1) with (7 + N.of_nat (8 * length l')) by lia. rewrite N.pow_add_r. reflexivity. }
  destruct (N.ltb_spec 127 b) as [G|G]; cbn [andb]; [|rewrite app_length; cbn [length]; lia].
  destruct (Nat.eq_dec (length l' + 1)%nat k) as [Ek|Ek].
  - specialize (Pk Ek). rewrite Pk in Hb. assert (b = 128 /\ from_be (rev l') = 0) as [-> Z].
    { assert (128 * P <= b * P) by (apply N.mul_le_mono_r; lia).
      destruct (N.eq_dec b 128) as [->|]; [split; [reflexivity|lia]|]. exfalso. assert (129 * P <= b * P) by (apply N.mul_le_mono_r; lia).
      assert (0 < P) by (apply N.neq_0_lt_0, N.pow_nonzero; lia). lia. }
    rewrite (all_zero' _ Hr Z), N.eqb_refl. cbn [andb negb]. rewrite app_length. cbn [length]. lia.
  - match goal with |- context [if ?c then _ else _] => destruct c end; rewrite ?app_length; cbn [length]; lia.
Qed.
Lemma var_bytes_len n neg x : (neg = true -> 0 < x) -> 2 <= n -> (if neg then x <= 2 ^ (8 * (n - 1) - 1) else x < 2 ^ (8 * (n - 1))) ->
  N.of_nat (length (var_bytes neg x)) <= n - 1.
Proof.
  intros H Hn B. unfold var_bytes. destruct neg.
  - pose proof (neg_bytes_len x (N.to_nat (n - 1)) (H eq_refl) ltac:(lia)) as L. replace (N.of_nat (8 * N.to_nat (n - 1)) - 1) with (8 * (n - 1) - 1) in L by lia. specialize (L B). lia.
  - destruct (to_bytes_facts x) as (_ & A & _). rewrite rev_length, A. apply BigIntProofs.size_lt in B. unfold nbytes. lia.
Qed.
Lemma var_bytes_exact neg x : (neg = true -> 0 < x) -> (neg = false \/ N.size x mod 8 <> 0) -> length (var_bytes neg x) = nbytes x.
Proof.
  intros H E. destruct (var_bytes_facts neg x H) as (_ & A & _). unfold var_bytes in *. destruct neg.
  - destruct E as [E|E]; [discriminate|]. assert (B : (length (neg_bytes x) <= nbytes x)%nat); [|lia].
    apply neg_bytes_len; [apply H; reflexivity|unfold nbytes; lia|]. apply N.lt_le_incl, BigIntProofs.size_lt. unfold nbytes.
    pose proof (N.div_mod (N.size x) 8 ltac:(lia)). pose proof (N.mod_lt (N.size x) 8 ltac:(lia)). lia.
  - rewrite rev_length. apply to_bytes_facts.
Qed.
Lemma store_ubig_put n x b : n <= 1023 -> x < 2 ^ n -> store_ubig n x b = put (nbits (N.to_nat n) x) b.
Proof.
  intros Hn H. unfold store_ubig. assert (S : N.size x <= 65000) by (apply BigIntProofs.size_lt in H; lia).
  assert (ubitsize x false <= n).
  { apply ubitsize_fits; [exact S|]. cbn [fits_in]. split; [lia|]. apply N2Z.inj_lt in H. rewrite N2Z.inj_pow in H. exact H. }
  destruct (N.ltb_spec n (ubitsize x false)); [lia|reflexivity].
Qed.
Lemma fits_in_small n x : n <= 1023 -> fits_in x n true -> zsize x <= 65000.
Proof.
  intros Hn H. apply zsize_65000. unfold fits_in in H.
  assert ((2 ^ 1023 < 2 ^ 65000)%Z) by (apply Z.pow_lt_mono_r; lia).
  assert ((2 ^ (Z.of_N n - 1) <= 2 ^ 1023)%Z) by (destruct (N.eq_dec n 0) as [->|]; [apply Z.lt_le_incl; change (2 ^ (Z.of_N 0 - 1))%Z with 0%Z; apply Z.pow_pos_nonneg; lia|apply Z.pow_le_mono_r; lia]).
  assert ((0 < 2 ^ 65000)%Z) by (apply Z.pow_pos_nonneg; lia).
  generalize dependent (2 ^ 65000)%Z. generalize dependent (2 ^ 1023)%Z. intros a Ha b Hb Hc. destruct H as [->|[_ H]]; [exact Hc|]. lia.
Qed.
Lemma store_big_put n x b : n <= 1023 -> fits_in x n true -> store_big n x b = put (zbits (N.to_nat n) x) b.
Proof.
  intros Hn H. unfold store_big. assert (bitsize x true <= n) by (apply bitsize_fits; [eapply fits_in_small; eassumption|auto|exact H]).
  destruct (N.ltb_spec n (bitsize x true)); [lia|reflexivity].
Qed.
(** Lemmas of C57 that hold for any version. *)
Lemma addr_len' a x : int_tlb a x -> 2 <= N.of_nat (length x) <= INT_BITS_MAX.
Proof. refine (AbiProofs4.addr_len (fun _ _ => Ok tt) (fun _ => true) (Version 2 0) _ a x). cbn. lia. Qed.
Lemma one_if_le' {A} (l : list A) : one_if l <= 1.
Proof. refine (AbiProofs4.one_if_le (Version 2 0) _ l). cbn. lia. Qed.
Lemma opt_max_ok' t : z_bits (opt_max t) <= 1023 /\ z_refs (opt_max t) <= 3 /\ 1 <= z_bits (opt_max t).
Proof. refine (AbiProofs4.opt_max_ok (Version 2 0) _ t). cbn. lia. Qed.
Lemma len_bits_ok' n : 1 <= n <= 255 -> len_bits n = N.size (n - 1).
Proof. refine (AbiProofs4.len_bits_ok (Version 2 0) _ n). cbn. lia. Qed.
