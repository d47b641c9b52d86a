(** * Proofs for C57: numbers, byte strings and the positions of a decoder *)
From Coq Require Import Sorting.Sorted.
From Verif Require Import Err BitsProofs BigIntSpec BigIntModel BigIntProofs IntModel NumModel NumSpec NumProofs AddrModel AddrSpec AddrProofs
  CellModel ChunkModel ChunkSpec ChunkProofs DictModel DictSpec CurrencyModel AbiModel AbiSpec.
Local Open Scope N_scope.

(** ** Numbers *)
Lemma put_ok x b b' : put x b = Ok b' -> b' = b ++ x /\ (length b + length x <= 1023)%nat.
Proof. unfold put, MAX_BITS. destruct (Nat.ltb_spec 1023 (length b + length x)); [discriminate|]. intros [= <-]. auto. Qed.
Lemma store_ubig_ok n x b b' : x < 2 ^ 65000 -> store_ubig n x b = Ok b' -> x < 2 ^ n /\ put (nbits (N.to_nat n) x) b = Ok b'.
Proof.
  unfold store_ubig. intros Hx. apply size_lt in Hx. destruct (N.ltb_spec n (ubitsize x false)) as [|G]; [discriminate|]. intros E.
  split; [|exact E]. apply ubitsize_fits in G; [|exact Hx]. cbn [fits_in] in G. apply N2Z.inj_lt. rewrite N2Z.inj_pow. exact (proj2 G).
Qed.
Lemma store_big_ok n x b b' : (Z.abs x < 2 ^ 65000)%Z -> store_big n x b = Ok b' -> fits_in x n true /\ put (zbits (N.to_nat n) x) b = Ok b'.
Proof.
  unfold store_big. intros Hx. apply zsize_65000 in Hx. destruct (N.ltb_spec n (bitsize x true)) as [|G]; [discriminate|]. intros E.
  split; [|exact E]. apply bitsize_fits in G; auto.
Qed.
Lemma load_ubig_ok n x r : x < 2 ^ n -> load_ubig n (nbits (N.to_nat n) x ++ r) = Ok (x, r).
Proof.
  intros H. unfold load_ubig, load_uint. rewrite app_length, length_nbits. destruct (Nat.ltb_spec (N.to_nat n + length r) (N.to_nat n)); [lia|].
  rewrite take_app_alt, drop_app_alt by (rewrite length_nbits; reflexivity). rewrite bval_nbits_small by (rewrite N2Nat.id; exact H). reflexivity.
Qed.
Lemma load_big_ok n x r : fits_in x n true -> load_big n (zbits (N.to_nat n) x ++ r) = Ok (x, r).
Proof.
  intros H. unfold load_big, load_uint. rewrite app_length, length_zbits. destruct (Nat.ltb_spec (N.to_nat n + length r) (N.to_nat n)); [lia|].
  rewrite take_app_alt, drop_app_alt by (rewrite length_zbits; reflexivity). cbn [rbind]. f_equal. f_equal.
  unfold zbits. destruct (N.eqb_spec n 0) as [->|N0]; [destruct H as [->|[H _]]; [reflexivity|lia]|].
  assert (P : (0 < 2 ^ Z.of_N n)%Z) by (apply Z.pow_pos_nonneg; lia).
  pose proof (Z.mod_pos_bound x (2 ^ Z.of_N n) P) as B. rewrite N_nat_Z.
  rewrite bval_nbits_small. 2:{ rewrite N2Nat.id. apply N2Z.inj_lt. rewrite N2Z.inj_pow, Z2N.id by lia. change (Z.of_N 2) with 2%Z. lia. }
  rewrite Z2N.id by lia.
  assert (S : (2 ^ Z.of_N n = 2 * 2 ^ (Z.of_N n - 1))%Z) by (rewrite <- (Z.pow_succ_r 2 (Z.of_N n - 1)) by lia; f_equal; lia).
  assert (L : (Z.to_N (x mod 2 ^ Z.of_N n) <? 2 ^ (n - 1)) = (x mod 2 ^ Z.of_N n <? 2 ^ (Z.of_N n - 1))%Z).
  { apply eq_bool_prop_intro. rewrite !Is_true_true, N.ltb_lt, Z.ltb_lt. rewrite N2Z.inj_lt, N2Z.inj_pow, N2Z.inj_sub, Z2N.id by lia. reflexivity. }
  rewrite L. assert (Hx : (- 2 ^ (Z.of_N n - 1) <= x < 2 ^ (Z.of_N n - 1))%Z).
  { destruct H as [->|[_ H]]; [|exact H]. assert (0 < 2 ^ (Z.of_N n - 1))%Z by (apply Z.pow_pos_nonneg; lia). lia. }
  destruct (Z.ltb_spec x 0) as [N|N].
  - assert (E : (x mod 2 ^ Z.of_N n = x + 2 ^ Z.of_N n)%Z).
    { symmetry. apply Z.mod_unique with (q := (-1)%Z); lia. }
    rewrite E. destruct (Z.ltb_spec (x + 2 ^ Z.of_N n) (2 ^ (Z.of_N n - 1))); lia.
  - rewrite Z.mod_small by lia. destruct (Z.ltb_spec x (2 ^ (Z.of_N n - 1))); lia.
Qed.

(** Bytes of numbers of variable length *)
Lemma bytes_rev l : Forall byte_ok l -> Forall byte_ok (rev l).
Proof. intros H. rewrite !Forall_forall in *. intros x. rewrite elem_of_list_In, <- in_rev, <- elem_of_list_In. apply H. Qed.
Lemma from_be_app a b : from_be (a ++ b) = from_be a * 2 ^ N.of_nat (8 * length b) + from_be b.
Proof.
  unfold from_be. rewrite fold_left_app. generalize (fold_left (fun acc x => 256 * acc + x) a 0). clear a.
  induction b as [|x b IH] using rev_ind; intros z; [cbn; lia|]. rewrite !fold_left_app. cbn [fold_left]. rewrite IH, app_length. cbn [length].
  replace (N.of_nat (8 * (length b + 1))) with (N.of_nat (8 * length b) + 8) by lia. rewrite N.pow_add_r. change (2 ^ 8) with 256. lia.
Qed.
Lemma from_be_one x : from_be [x] = x.
Proof. unfold from_be. cbn. lia. Qed.
Lemma twos_len c l : length (twos_le c l) = length l.
Proof. revert c. induction l as [|d l IH]; intros c; cbn [twos_le]; [reflexivity|]. destruct c; cbn [length]; rewrite IH; reflexivity. Qed.
Lemma twos_ok l : forall c, Forall byte_ok l -> Forall byte_ok (twos_le c l).
Proof.
  induction l as [|d l IH]; intros c H; cbn [twos_le]; [constructor|]. inversion_clear H as [|? ? Hd Hl]. unfold byte_ok in Hd.
  destruct c; constructor; auto; unfold byte_ok, w8; [apply N.mod_lt; lia|lia].
Qed.
Definition from_le (l : list N) : N := from_be (rev l).
Lemma from_le_cons x l : from_le (x :: l) = x + 256 * from_le l.
Proof. unfold from_le. cbn [rev]. rewrite from_be_app, from_be_one. cbn [length]. change (2 ^ N.of_nat (8 * 1)) with 256. lia. Qed.
Lemma from_le_lt l : Forall byte_ok l -> from_le l < 2 ^ N.of_nat (8 * length l).
Proof. intros H. unfold from_le. rewrite <- (rev_length l). apply from_be_lt. apply bytes_rev. exact H. Qed.
Lemma twos_value l : forall c, Forall byte_ok l ->
  from_le (twos_le c l) = (2 ^ N.of_nat (8 * length l) - 1 - from_le l + (if c then 1 else 0)) mod 2 ^ N.of_nat (8 * length l).
Proof.
  induction l as [|d l IH]; intros c H; [destruct c; reflexivity|]. inversion_clear H as [|? ? Hd Hl]. unfold byte_ok in Hd.
  cbn [length]. replace (N.of_nat (8 * S (length l))) with (8 + N.of_nat (8 * length l)) by lia. rewrite N.pow_add_r. change (2 ^ 8) with 256.
  pose proof (from_le_lt l Hl) as B. set (P := 2 ^ N.of_nat (8 * length l)) in *.
  rewrite (from_le_cons d). cbn [twos_le].
  destruct c.
  - rewrite from_le_cons, IH by exact Hl. fold P. destruct (N.leb_spec 256 (255 - d + 1)) as [G|G].
    + assert (d = 0) as -> by lia. unfold w8. change ((255 - 0 + 1) mod 256) with 0.
      replace (256 * P - 1 - (0 + 256 * from_le l) + 1) with (256 * (P - 1 - from_le l + 1)) by lia.
      rewrite N.mul_mod_distr_l by lia. lia.
    + unfold w8. rewrite N.mod_small by lia. rewrite !N.mod_small by lia. lia.
  - rewrite from_le_cons, IH by exact Hl. fold P. rewrite !N.mod_small by lia. lia.
Qed.
Lemma twos_neg l : Forall byte_ok l -> 0 < from_le l -> from_le (twos_le true l) = 2 ^ N.of_nat (8 * length l) - from_le l.
Proof. intros H P. rewrite twos_value by exact H. pose proof (from_le_lt l H). rewrite N.mod_small; lia. Qed.

Definition nbytes (x : N) : nat := N.to_nat (N.max 1 ((N.size x + 7) / 8)).
Lemma to_bytes_facts x : Forall byte_ok (to_bytes_le x) /\ length (to_bytes_le x) = nbytes x /\ from_le (to_bytes_le x) = x /\ (1 <= nbytes x)%nat.
Proof.
  unfold to_bytes_le, from_le. fold (nbytes x). assert (1 <= nbytes x)%nat by (unfold nbytes; lia).
  split; [apply bytes_rev, to_be_ok|]. split; [rewrite rev_length, to_be_length; reflexivity|]. split; [|assumption]. rewrite rev_involutive. apply from_be_to_be.
  apply size_lt. unfold nbytes. lia.
Qed.
Lemma from_be_cons b l : from_be (b :: l) = b * 2 ^ N.of_nat (8 * length l) + from_be l.
Proof. change (b :: l) with ([b] ++ l). rewrite from_be_app, from_be_one. reflexivity. Qed.
Lemma signed_of_be l : l <> [] -> Forall byte_ok l ->
  from_signed_bytes_be l = if from_be l <? 2 ^ (N.of_nat (8 * length l) - 1) then Z.of_N (from_be l) else (Z.of_N (from_be l) - 2 ^ (8 * Z.of_nat (length l)))%Z.
Proof.
  destruct l as [|b l]; [congruence|]. intros _ H. inversion_clear H as [|? ? Hb Hl]. unfold byte_ok in Hb. unfold from_signed_bytes_be.
  pose proof (from_be_lt l Hl) as B. rewrite from_be_cons. cbn [length].
  replace (N.of_nat (8 * S (length l)) - 1) with (7 + N.of_nat (8 * length l)) by lia. rewrite N.pow_add_r. change (2 ^ 7) with 128.
  set (P := 2 ^ N.of_nat (8 * length l)) in *.
  destruct (N.leb_spec 128 b) as [G|G]; destruct (N.ltb_spec (b * P + from_be l) (128 * P)) as [G2|G2]; try reflexivity.
  - exfalso. assert (128 * P <= b * P) by (apply N.mul_le_mono_r; lia). lia.
  - exfalso. assert ((b + 1) * P <= 128 * P) by (apply N.mul_le_mono_r; lia). lia.
Qed.
Lemma last_top (l : list N) b : list.last l = Some b -> exists l', l = l' ++ [b].
Proof. intros H. exists (removelast l). destruct l as [|x l] using rev_ind; [discriminate|]. rewrite last_snoc in H. injection H as <-. rewrite removelast_last. reflexivity. Qed.
Lemma all_zero l : forallb (fun b => b =? 0) l = true -> from_be l = 0.
Proof.
  induction l as [|x l IH]; [reflexivity|]. cbn [forallb]. rewrite andb_true_iff, N.eqb_eq. intros [-> H]. rewrite from_be_cons, IH by exact H. lia.
Qed.
Lemma all_zero' l : Forall byte_ok l -> from_be l = 0 -> forallb (fun b => b =? 0) l = true.
Proof.
  induction l as [|x l IH]; [reflexivity|]. intros H. inversion_clear H. rewrite from_be_cons. intros E. cbn [forallb].
  assert (0 < 2 ^ N.of_nat (8 * length l)) by (apply N.neq_0_lt_0, N.pow_nonzero; lia).
  assert (x = 0) by (destruct (N.eq_dec x 0); [assumption|]; assert (1 * 2 ^ N.of_nat (8 * length l) <= x * 2 ^ N.of_nat (8 * length l)) by (apply N.mul_le_mono_r; lia); lia).
  rewrite andb_true_iff, N.eqb_eq. split; [assumption|]. apply IH; [assumption|lia].
Qed.
Lemma neg_bytes_facts x : 0 < x -> Forall byte_ok (neg_bytes x) /\ (nbytes x <= length (neg_bytes x))%nat /\ from_signed_bytes_be (neg_bytes x) = (- Z.of_N x)%Z.
Proof.
  intros Hx. destruct (to_bytes_facts x) as (H1 & H2 & H3 & H4). unfold neg_bytes.
  set (l0 := to_bytes_le x) in *. cbv zeta. match goal with |- context [twos_le true ?z] => set (ll := z) end.
  assert (F : Forall byte_ok ll /\ from_le ll = x /\ (nbytes x <= length ll)%nat /\ x <= 2 ^ (N.of_nat (8 * length ll) - 1)).
  { assert (L : exists b l', l0 = l' ++ [b]).
    { destruct l0 as [|z l0'] using rev_ind; [cbn in H2; lia|]. eauto. }
    destruct L as (b & l' & E). subst ll. rewrite E, last_snoc, rev_app_distr. cbn [rev app tail].
    rewrite E in H1, H2, H3. apply Forall_app in H1. destruct H1 as [Hl Hb]. inversion_clear Hb as [|? ? Hb' _]. rewrite app_length in H2. cbn [length] in H2.
    unfold byte_ok in Hb'. unfold from_le in H3. rewrite rev_app_distr in H3. cbn [rev app] in H3. rewrite from_be_cons, rev_length in H3.
    pose proof (from_be_lt (rev l') (bytes_rev _ Hl)) as B. rewrite rev_length in B. set (P := 2 ^ N.of_nat (8 * length l')) in *.
    destruct (N.ltb_spec 127 b) as [G|G]; cbn [andb].
    - destruct (N.eqb_spec b 128) as [->|G2]; cbn [andb negb].
      + destruct (forallb _ (rev l')) eqn:Z; cbn [negb].
        * apply all_zero in Z. split; [apply Forall_app; split; [exact Hl|constructor; [unfold byte_ok; lia|constructor]]|].
          split; [unfold from_le; rewrite rev_app_distr; cbn [rev app]; rewrite from_be_cons, rev_length; exact H3|]. rewrite app_length. cbn [length].
          split; [lia|]. replace (N.of_nat (8 * (length l' + 1)) - 1) with (7 + N.of_nat (8 * length l')) by lia. rewrite N.pow_add_r. fold P. change (2 ^ 7) with 128. lia.
        * split; [repeat (apply Forall_app; split); [exact Hl|constructor; [unfold byte_ok; lia|constructor]|constructor; [unfold byte_ok; lia|constructor]]|].
          split; [unfold from_le; rewrite !rev_app_distr; cbn [rev app]; rewrite !from_be_cons; cbn [length]; rewrite rev_length; fold P; lia|]. rewrite !app_length. cbn [length].
          split; [lia|]. replace (N.of_nat (8 * (length l' + 1 + 1)) - 1) with (15 + N.of_nat (8 * length l')) by lia. rewrite N.pow_add_r. fold P. change (2 ^ 15) with 32768. lia.
      + split; [repeat (apply Forall_app; split); [exact Hl|constructor; [unfold byte_ok; lia|constructor]|constructor; [unfold byte_ok; lia|constructor]]|].
        split; [unfold from_le; rewrite !rev_app_distr; cbn [rev app]; rewrite !from_be_cons; cbn [length]; rewrite rev_length; fold P; lia|]. rewrite !app_length. cbn [length].
        split; [lia|]. replace (N.of_nat (8 * (length l' + 1 + 1)) - 1) with (15 + N.of_nat (8 * length l')) by lia. rewrite N.pow_add_r. fold P. change (2 ^ 15) with 32768.
        assert ((b + 1) * P <= 256 * P) by (apply N.mul_le_mono_r; lia). lia.
    - split; [apply Forall_app; split; [exact Hl|constructor; [unfold byte_ok; lia|constructor]]|].
      split; [unfold from_le; rewrite rev_app_distr; cbn [rev app]; rewrite from_be_cons, rev_length; exact H3|]. rewrite app_length. cbn [length].
      split; [lia|]. replace (N.of_nat (8 * (length l' + 1)) - 1) with (7 + N.of_nat (8 * length l')) by lia. rewrite N.pow_add_r. fold P. change (2 ^ 7) with 128.
      assert ((b + 1) * P <= 128 * P) by (apply N.mul_le_mono_r; lia). lia. }
  destruct F as (F1 & F2 & F3 & F4). pose proof (twos_neg ll F1 ltac:(lia)) as T.
  split; [apply bytes_rev, twos_ok, F1|]. rewrite rev_length, twos_len. split; [exact F3|].
  rewrite signed_of_be.
  2:{ intros E. apply (f_equal (@length N)) in E. rewrite rev_length, twos_len in E. cbn in E. lia. }
  2:{ apply bytes_rev, twos_ok, F1. }
  rewrite rev_length, twos_len. unfold from_le in T at 1. rewrite T, F2.
  assert (E : 2 ^ N.of_nat (8 * length ll) = 2 * 2 ^ (N.of_nat (8 * length ll) - 1)).
  { rewrite <- N.pow_succ_r'. f_equal. lia. }
  destruct (N.ltb_spec (2 ^ N.of_nat (8 * length ll) - x) (2 ^ (N.of_nat (8 * length ll) - 1))); [lia|].
  rewrite N2Z.inj_sub by lia. rewrite N2Z.inj_pow. replace (Z.of_N (N.of_nat (8 * length ll))) with (8 * Z.of_nat (length ll))%Z by lia. change (Z.of_N 2) with 2%Z. lia.
Qed.
Lemma pos_bytes_signed x : N.size x mod 8 <> 0 \/ x = 0 -> from_signed_bytes_be (rev (to_bytes_le x)) = Z.of_N x.
Proof.
  intros H. destruct (to_bytes_facts x) as (H1 & H2 & H3 & H4). rewrite signed_of_be.
  2:{ intros E. apply (f_equal (@length N)) in E. rewrite rev_length in E. cbn in E. lia. }
  2:{ apply bytes_rev, H1. }
  change (from_be (rev (to_bytes_le x))) with (from_le (to_bytes_le x)). rewrite H3, rev_length, H2.
  destruct (N.ltb_spec x (2 ^ (N.of_nat (8 * nbytes x) - 1))) as [|G]; [reflexivity|]. exfalso.
  enough (x < 2 ^ (N.of_nat (8 * nbytes x) - 1)) by lia. apply size_lt. unfold nbytes. destruct H as [H| ->]; [|cbn; lia].
  pose proof (N.div_mod (N.size x) 8 ltac:(lia)). pose proof (N.mod_lt (N.size x) 8 ltac:(lia)). lia.
Qed.
Definition var_value (neg : bool) (x : N) : Z := if neg then (- Z.of_N x)%Z else Z.of_N x.
Lemma var_bytes_facts neg x : (neg = true -> 0 < x) -> let bytes := var_bytes neg x in
  Forall byte_ok bytes /\ (nbytes x <= length bytes)%nat /\ (neg = false -> from_be bytes = x) /\
  (neg = true \/ N.size x mod 8 <> 0 \/ x = 0 -> from_signed_bytes_be bytes = var_value neg x).
Proof.
  intros H. unfold var_bytes. destruct neg; cbv zeta.
  - destruct (neg_bytes_facts x (H eq_refl)) as (A & B & C). repeat (split; [assumption|]). split; [discriminate|]. intros _. exact C.
  - destruct (to_bytes_facts x) as (A & B & C & D). split; [apply bytes_rev, A|]. rewrite rev_length, B. split; [lia|]. split; [intros _; exact C|].
    intros [E|E]; [discriminate|]. apply pos_bytes_signed, E.
Qed.

(** ** Byte strings *)
Section Bytes.
Context (fin : list bool -> list cell -> res unit) (v : version).
Definition chunk_cell (b : chunk) : cell := Cell false (fst b) (snd b).
Lemma build_ok b c : build fin b = Ok c -> c = chunk_cell b.
Proof. unfold build. destruct (fin (fst b) (snd b)); cbn [rbind]; [intros [= <-]; reflexivity|discriminate]. Qed.
Lemma store_ref_ok c b b' : store_ref c b = Ok b' -> b' = capp b ([], [c]) /\ (length (snd b) + 1 <= 4)%nat.
Proof.
  unfold store_ref, putr, MAX_REFS. cbn [length]. destruct (Nat.ltb_spec 4 (length (snd b) + 1)); cbn [rbind]; [discriminate|].
  intros [= <-]. unfold capp. cbn [fst snd]. rewrite app_nil_r. split; [reflexivity|lia].
Qed.
Lemma store_bs_ok bs b b' : store_bs bs b = Ok b' -> b' = (fst b ++ bytes_bits bs, snd b).
Proof. unfold store_bs, on_bits. destruct (put (bytes_bits bs) (fst b)) as [x|] eqn:E; cbn [rbind]; [|discriminate]. intros [= <-]. apply put_ok in E. destruct E as [-> _]. reflexivity. Qed.
Lemma bytes_loop_ok fuel : forall data per b b' done, Forall byte_ok data -> (data <> [] -> 1 <= per)%nat ->
  (b = empty_b /\ done = [] \/ fst b <> [] /\ cell_bytes (chunk_cell b) = Ok done) ->
  bytes_loop fin fuel data per b = Ok b' -> cell_bytes (chunk_cell b') = Ok (data ++ done).
Proof.
  induction fuel as [|fuel IH]; intros data per b b' done Hd Hper Hb; cbn [bytes_loop]; [discriminate|].
  destruct data as [|d0 data0]; [intros [= <-]; destruct Hb as [[-> ->]|[_ Hb]]; [reflexivity|exact Hb]|].
  set (data := d0 :: data0) in *. assert (Dn : data <> []) by discriminate. clearbody data. specialize (Hper Dn). cbv zeta.
  set (len := (length data - per)%nat).
  set (tl := drop len data). assert (Tn : tl <> []).
  { intros E. apply (f_equal length) in E. subst tl len. rewrite drop_length in E. destruct data; [congruence|]. cbn [length] in *. lia. }
  assert (Ht : Forall byte_ok tl) by (apply Forall_drop, Hd).
  assert (Bn : bytes_bits tl <> []).
  { intros E. apply (f_equal length) in E. rewrite length_bytes_bits in E. destruct tl; [congruence|]. cbn in E. lia. }
  assert (G : forall b1 b2 dn, b1 = ([], dn) -> store_bs tl b1 = Ok b2 -> (dn = [] /\ done = [] \/ exists c, dn = [c] /\ cell_bytes c = Ok done) ->
    bytes_loop fin fuel (take len data) (Nat.min 127 len) b2 = Ok b' -> cell_bytes (chunk_cell b') = Ok (data ++ done)).
  { intros b1 b2 dn -> E2 D L. apply store_bs_ok in E2. cbn [fst snd app] in E2. subst b2.
    rewrite <- (take_drop len data), <- app_assoc. fold tl. eapply IH; [apply Forall_take, Hd| | |exact L].
    - intros Tk. destruct len; [rewrite take_0 in Tk; congruence|lia].
    - right. split; [exact Bn|]. unfold chunk_cell. cbn [fst snd cell_bytes]. rewrite length_bytes_bits.
      replace (8 * length tl)%nat with (length tl * 8)%nat by lia. rewrite Nat.mod_mul by lia. cbn [negb Nat.eqb]. rewrite pack_bytes_bits by exact Ht.
      destruct D as [[-> ->]|(c & -> & ->)]; [rewrite app_nil_r; reflexivity|reflexivity]. }
  destruct b as [bb br]. cbn [fst]. destruct bb as [|b0 bb].
  - destruct Hb as [[[= ->] ->]|[Hb _]]; [|cbn in Hb; congruence]. cbn [rbind]. destruct (store_bs tl ([], [])) as [b2|] eqn:E2; cbn [rbind]; [|discriminate].
    intros L. eapply G; [reflexivity|exact E2|auto|exact L].
  - destruct Hb as [[[=]]|[_ Hb]]. destruct (build fin (b0 :: bb, br)) as [c|] eqn:Eb; cbn [rbind]; [|discriminate]. apply build_ok in Eb. rewrite <- Eb in Hb.
    destruct (store_ref c empty_b) as [b1|] eqn:E1; cbn [rbind]; [|discriminate]. apply store_ref_ok in E1. destruct E1 as [E1 _]. cbn in E1.
    destruct (store_bs tl b1) as [b2|] eqn:E2; cbn [rbind]; [|discriminate]. intros L. eapply G; [exact E1|exact E2|eauto|exact L].
Qed.
Lemma bytes_cell_ok data c : Forall byte_ok data -> bytes_cell fin v data = Ok c -> cell_bytes c = Ok data.
Proof.
  intros Hd. unfold bytes_cell. cbv zeta. set (per := if 1 <? v_major v then _ else _).
  destruct (bytes_loop fin (S (length data)) data per empty_b) as [b|] eqn:E; cbn [rbind]; [|discriminate].
  intros Eb. apply build_ok in Eb. subst c. rewrite <- (app_nil_r data). eapply bytes_loop_ok; [exact Hd| |left; split; reflexivity|exact E].
  intros Dn. subst per. destruct (1 <? v_major v).
  - destruct ((length data mod 127)%nat) eqn:M; lia.
  - destruct data; [congruence|cbn [length]; lia].
Qed.
End Bytes.

(** ** Positions in a chain of cells *)
(** Pieces of a value that are never split: some bits (and references), or one reference. *)
Definition atom_ok (a : chunk) : Prop := fst a <> [] \/ exists c, a = ([], [c]).
Definition cats (l : list chunk) : chunk := fold_right capp ([], []) l.
Lemma cats_app a b : cats (a ++ b) = capp (cats a) (cats b).
Proof. induction a as [|x a IH]; [symmetry; apply nil_capp|]. cbn [cats fold_right app]. change (capp x (cats (a ++ b)) = capp (capp x (cats a)) (cats b)). rewrite IH. apply capp_assoc. Qed.
Lemma cats_fst a g : fst (cats (a :: g)) = fst a ++ fst (cats g).
Proof. reflexivity. Qed.
Lemma cats_snd a g : snd (cats (a :: g)) = snd a ++ snd (cats g).
Proof. reflexivity. Qed.
(** The pieces of the current cell, and those of the cells behind its last reference. *)
Fixpoint holds (gs : list (list chunk)) (bits : list bool) (refs : list cell) : Prop :=
  match gs with
  | [] => False
  | g :: gs =>
    bits = fst (cats g) /\
    exists tl, refs = snd (cats g) ++ tl /\
      match gs with [] => tl = [] | _ => exists c, tl = [c] /\ c_exotic c = false /\ holds gs (c_bits c) (c_refs c) end
  end.
Fixpoint later (gs : list (list chunk)) : Prop :=
  match gs with
  | [] => True
  | g :: gs => match g with [] => False | a :: g => fst a = [] -> g <> [] \/ gs <> [] end /\ later gs
  end.
Definition pos (s : sl) (l : list chunk) : Prop :=
  exists g gs, holds (g :: gs) (s_bits s) (s_refs s) /\ later gs /\ g ++ concat gs = l.
Lemma pos_cell s s' l : s_bits s' = s_bits s -> s_refs s' = s_refs s -> pos s l -> pos s' l.
Proof. intros E1 E2 (g & gs & H & R). exists g, gs. rewrite E1, E2. auto. Qed.

Lemma pos_nil s : pos s [] -> s_bits s = [] /\ s_refs s = [].
Proof.
  intros (g & gs & H & L & E). apply app_eq_nil in E. destruct E as [-> E].
  destruct gs as [|g' gs]; [|cbn [later concat] in *; apply app_eq_nil in E; destruct E as [-> _]; destruct L as [[] _]].
  cbn [holds] in H. destruct H as (-> & tl & -> & ->). split; reflexivity.
Qed.
Lemma as_slice_ordinary c : c_exotic c = false -> as_slice c = Ok (Sl c (c_bits c) (c_refs c)).
Proof. intros E. unfold as_slice. rewrite E. reflexivity. Qed.
Lemma later_first g gs : later (g :: gs) -> exists a g', g = a :: g'.
Proof. cbn [later]. destruct g as [|a g']; intros [H _]; [destruct H|eauto]. Qed.

Lemma pos_bits s a l n : pos s (a :: l) -> fst a <> [] -> 1 <= n <= N.of_nat (length (fst a)) ->
  exists s1 B R, preload n s = Ok s1 /\ s_bits s1 = fst a ++ B /\ s_refs s1 = snd a ++ R /\ forall c, pos (Sl c B R) l.
Proof.
  intros (g & gs & H & L & E) Ha Hn. unfold preload. destruct (N.eqb_spec n 0); [lia|].
  destruct g as [|a' g].
  - destruct gs as [|g1 gs]; [cbn in E; discriminate|]. pose proof L as L0. cbn [later] in L. destruct L as [_ L].
    destruct (later_first _ _ L0) as (a1 & g1' & ->). cbn [app concat] in E. injection E as -> E.
    cbn [holds] in H. destruct H as (Hb & tl & Hr & c & -> & Hx & H). change (cats []) with (([], []) : chunk) in Hb, Hr; cbn [fst snd app] in Hb, Hr.
    rewrite Hb. unfold sl_ref_slice, sl_ref. rewrite Hr. cbn [rbind]. rewrite (as_slice_ordinary c Hx). cbn [rbind s_refs].
    destruct H as (Hb1 & tl & Hr1 & H). exists (Sl c (c_bits c) (c_refs c)), (fst (cats g1')), (snd (cats g1') ++ tl). cbn [s_bits s_refs].
    split; [reflexivity|]. rewrite cats_fst in Hb1. rewrite cats_snd in Hr1. rewrite Hb1, Hr1.
    split; [reflexivity|]. split; [rewrite <- app_assoc; reflexivity|]. intros c'. exists g1', gs. cbn [s_bits s_refs]. split; [|auto].
    cbn [holds]. split; [reflexivity|]. exists tl. split; [reflexivity|exact H].
  - cbn [app] in E. injection E as -> E. cbn [holds] in H. destruct H as (Hb & tl & Hr & H). rewrite cats_fst in Hb. rewrite cats_snd in Hr.
    assert (Ne : s_bits s <> []) by (rewrite Hb; destruct (fst a); [congruence|discriminate]).
    assert (Le : N.of_nat (length (s_bits s)) <? n = false) by (rewrite Hb, app_length; destruct (N.ltb_spec (N.of_nat (length (fst a) + length (fst (cats g)))) n); [lia|reflexivity]).
    exists s, (fst (cats g)), (snd (cats g) ++ tl). split; [rewrite Le; destruct (s_bits s); [congruence|reflexivity]|]. split; [exact Hb|]. split; [rewrite Hr, <- app_assoc; reflexivity|].
    intros c. exists g, gs. cbn [s_bits s_refs]. split; [|auto]. cbn [holds]. split; [reflexivity|]. exists tl. split; [reflexivity|exact H].
Qed.
Definition is_nil {A} (l : list A) : bool := match l with [] => true | _ => false end.
Lemma atom_size a : atom_ok a -> fst a <> [] \/ snd a <> [].
Proof. intros [H|(c & ->)]; [auto|right; discriminate]. Qed.
Lemma pos_ref v c s l : 2 <= v_major v -> pos s (([], [c]) :: l) -> Forall atom_ok l ->
  exists s', load_cell v (is_nil l) s = Ok (c, s') /\ pos s' l.
Proof.
  intros Hv (g & gs & H & L & E) Hl. unfold load_cell.
  destruct (N.eqb_spec (v_major v) 1) as [|_]; [lia|]. destruct (N.ltb_spec 1 (v_major v)) as [_|]; [|lia]. cbn [andb orb].
  destruct g as [|a g].
  - destruct gs as [|g1 gs]; [cbn in E; discriminate|]. pose proof L as L0. cbn [later] in L. destruct L as [F L].
    destruct (later_first _ _ L0) as (a1 & g1' & ->). cbn [app concat] in E. injection E as -> E. specialize (F eq_refl).
    cbn [holds] in H. destruct H as (Hb & tl & Hr & c1 & -> & Hx & H). change (cats []) with (([], []) : chunk) in Hb, Hr; cbn [fst snd app] in Hb, Hr.
    assert (Hnil : is_nil l = false).
    { destruct l; [|reflexivity]. apply app_eq_nil in E. destruct E as [-> E]. destruct F as [F|F]; [exfalso; apply F; reflexivity|]. destruct gs as [|g2 gs]; [exfalso; apply F; reflexivity|].
      destruct (later_first _ _ L) as (? & ? & ->). discriminate. }
    rewrite Hnil, Hb, Hr. cbn [length Nat.eqb andb negb]. unfold sl_ref_slice, sl_ref. rewrite Hr. cbn [rbind]. rewrite (as_slice_ordinary c1 Hx). cbn [rbind s_refs].
    destruct H as (Hb1 & tl & Hr1 & H). rewrite cats_fst in Hb1. rewrite cats_snd in Hr1. cbn [fst snd app] in Hb1, Hr1. rewrite Hr1. cbn [app s_cell s_bits].
    eexists. split; [reflexivity|]. exists g1', gs. cbn [s_bits s_refs]. split; [|auto]. cbn [holds]. split; [exact Hb1|]. exists tl. split; [reflexivity|exact H].
  - cbn [app] in E. injection E as -> E. cbn [holds] in H. destruct H as (Hb & tl & Hr & H). rewrite cats_fst in Hb. rewrite cats_snd in Hr. cbn [fst snd app] in Hb, Hr.
    assert (Hop : (length (s_refs s) =? 1)%nat && (negb (is_nil l) && match s_bits s with [] => true | _ => false end) = false).
    { destruct l as [|a l]; [rewrite andb_false_r; reflexivity|]. rewrite Hb, Hr. cbn [is_nil negb andb length].
      destruct (fst (cats g)) eqn:Eb; [|rewrite andb_false_r; reflexivity]. rewrite andb_true_r.
      destruct (snd (cats g) ++ tl) eqn:Er; [|reflexivity]. exfalso. apply app_eq_nil in Er. destruct Er as [Er ->].
      destruct g as [|a' g].
      - destruct gs as [|g2 gs]; [discriminate|]. destruct H as (? & ? & _). discriminate.
      - rewrite cats_fst in Eb. rewrite cats_snd in Er. apply app_eq_nil in Eb, Er. destruct Eb as [Eb _], Er as [Er _].
        cbn [app] in E. injection E as -> _. inversion_clear Hl as [|? ? Ha _]. apply atom_size in Ha. destruct Ha; congruence. }
    rewrite Hop. cbn [rbind]. unfold sl_ref. rewrite Hr. eexists. split; [reflexivity|]. exists g, gs. cbn [s_bits s_refs]. split; [|auto].
    cbn [holds]. split; [exact Hb|]. exists tl. split; [reflexivity|exact H].
Qed.
