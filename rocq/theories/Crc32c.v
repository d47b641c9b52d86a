(** * CRC-32C as in the crate crc32c: an executable instance of the parameter of the model of bags
    of cells. *)
From Verif Require Import Err BitsProofs.
Local Open Scope N_scope.

(** One bit and one byte of the reflected polynomial. *)
Definition crc_bit (x : N) : N := N.lxor (N.shiftr x 1) (if N.testbit x 0 then 0x82f63b78 else 0).
Definition crc_byte (x b : N) : N := Nat.iter 8 crc_bit (N.lxor x (b mod 256)).
Definition not32 (x : N) : N := N.lxor (x mod 2 ^ 32) (N.ones 32).
(** [crc32c_append] *)
Definition crc32c_append (c : N) (data : list N) : N := not32 (fold_left crc_byte data (not32 c)).

Lemma lxor_lt a b n : a < 2 ^ n -> b < 2 ^ n -> N.lxor a b < 2 ^ n.
Proof.
  intros Ha Hb. destruct (N.eq_dec (N.lxor a b) 0) as [->|Z]; [apply N.neq_0_lt_0, N.pow_nonzero; discriminate|].
  apply N.log2_lt_pow2; [lia|]. eapply N.le_lt_trans; [apply N.log2_lxor|].
  assert (X : forall c, c < 2 ^ n -> c = 0 \/ N.log2 c < n).
  { intros c H. destruct (N.eq_dec c 0) as [->|Zc]; [left; reflexivity|right]. apply N.log2_lt_pow2; lia. }
  destruct (N.eq_dec n 0) as [->|Zn]; [change (2 ^ 0) with 1 in *; replace a with 0 in Z by lia; replace b with 0 in Z by lia; destruct (Z eq_refl)|].
  apply N.max_lub_lt; [destruct (X a Ha) as [->|H]|destruct (X b Hb) as [->|H]]; try exact H; cbn; lia.
Qed.
Lemma not32_lt x : not32 x < 2 ^ 32.
Proof. unfold not32. apply lxor_lt; [apply N.mod_lt; discriminate|reflexivity]. Qed.
Lemma not32_not32 x : x < 2 ^ 32 -> not32 (not32 x) = x.
Proof.
  intros H. unfold not32 at 1. rewrite (N.mod_small (not32 x)) by apply not32_lt. unfold not32. rewrite (N.mod_small x) by exact H.
  rewrite N.lxor_assoc, N.lxor_nilpotent, N.lxor_0_r. reflexivity.
Qed.
Lemma crc_bit_lt x : x < 2 ^ 32 -> crc_bit x < 2 ^ 32.
Proof.
  intros H. unfold crc_bit. apply lxor_lt; [|destruct (N.testbit x 0); reflexivity].
  rewrite N.shiftr_div_pow2. apply N.le_lt_trans with x; [apply N.div_le_upper_bound; [discriminate|]; change (2 ^ 1) with 2; lia|exact H].
Qed.
Lemma crc_byte_lt x b : x < 2 ^ 32 -> crc_byte x b < 2 ^ 32.
Proof.
  intros H. unfold crc_byte. assert (B : N.lxor x (b mod 256) < 2 ^ 32).
  { apply lxor_lt; [exact H|]. apply N.lt_le_trans with 256; [apply N.mod_lt; discriminate|discriminate]. }
  revert B. generalize (N.lxor x (b mod 256)). intros y B. cbn [Nat.iter nat_rect]. do 8 apply crc_bit_lt. exact B.
Qed.
Lemma crc_fold_lt data : forall x, x < 2 ^ 32 -> fold_left crc_byte data x < 2 ^ 32.
Proof. induction data as [|b data IH]; intros x H; [exact H|]. cbn [fold_left]. apply IH, crc_byte_lt, H. Qed.

Lemma crc32c_lt c data : crc32c_append c data < 2 ^ 32.
Proof. apply not32_lt. Qed.
Lemma crc32c_app c a b : crc32c_append (crc32c_append c a) b = crc32c_append c (a ++ b).
Proof.
  unfold crc32c_append. rewrite not32_not32, fold_left_app; [reflexivity|]. apply crc_fold_lt, not32_lt.
Qed.
(** The check value of the polynomial: the checksum of "123456789". *)
Lemma crc32c_check : crc32c_append 0 (map N.of_nat (seq 49 9)) = 0xe3069283.
Proof. vm_compute. reflexivity. Qed.
