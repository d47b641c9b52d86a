(** * Proofs about addresses in cells. *)
From Verif Require Import Err BitsProofs IntModel IntProofs CellModel TextModel NumModel AddrModel AddrSpec CodecProofs.
Local Open Scope N_scope.

Lemma length_int_bits w z : length (int_bits w z) = w.
Proof. apply length_nbits. Qed.

(** ** Anycast *)
Lemma anycast_len a x : anycast_tlb a x -> N.of_nat (length x) = ac_bit_len a.
Proof. intros [p Hp]. unfold ac_bit_len. cbn [ac_depth]. rewrite app_length, length_nbits. unfold count. lia. Qed.
Lemma store_anycast_put a x b : anycast_tlb a x -> store_anycast a b = put x b.
Proof.
  intros H. unfold store_anycast. apply cap_put; [symmetry; apply anycast_len, H|]. destruct H as [p Hp]. cbn [ac_depth ac_prefix].
  apply (bind_put (nbits 5 (count p))). intros b2. apply store_raw_put.
Qed.
Lemma load_anycast_iff b a r : load_anycast b = Ok (a, r) <-> exists x, anycast_tlb a x /\ b = x ++ r.
Proof.
  unfold load_anycast. split.
  - destruct (load_sd b) as [[d b1]|e] eqn:E; [|discriminate]. cbn [rbind]. apply load_sd_iff in E. destruct E as [Hd ->].
    destruct (negb _) eqn:Hr; [discriminate|]. destruct (load_raw_bits d b1) as [[p b2]|e] eqn:E; [|discriminate]. cbn [rbind]. intros [= <- <-].
    apply load_raw_iff in E. destruct E as (x & Hc & -> & ->). exists (nbits 5 d ++ x). split; [|apply app_assoc]. rewrite <- Hc in *. constructor. exact Hd.
  - intros (x & [p Hp] & ->). rewrite <- app_assoc. rewrite (proj2 (load_sd_iff _ (count p) (p ++ r))) by auto. cbn [rbind].
    rewrite has_remaining_count. cbn [negb]. rewrite (proj2 (load_raw_iff (count p) (p ++ r) (pack p) r)) by (exists p; auto). reflexivity.
Qed.
Lemma maybe_len o x : maybe anycast_tlb o x -> N.of_nat (length x) = 1 + opt_len o.
Proof. intros [|a y H]; [reflexivity|]. cbn [opt_len length]. apply anycast_len in H. lia. Qed.
Lemma store_maybe o x b : maybe anycast_tlb o x -> store_opt store_anycast o b = put x b.
Proof. apply store_opt_put. intros a y b'. apply store_anycast_put. Qed.
Lemma load_maybe b o r : load_opt load_anycast b = Ok (o, r) <-> exists x, maybe anycast_tlb o x /\ b = x ++ r.
Proof. apply load_opt_iff. intros. apply load_anycast_iff. Qed.

(** ** Standard addresses *)
Lemma std_len a x : std_tlb a x -> N.of_nat (length x) = std_bit_len a.
Proof.
  intros [ac y wc id Hm Hw F L]. unfold std_bit_len, BITS_WITHOUT_ANYCAST. cbn [sa_anycast]. apply maybe_len in Hm.
  rewrite !app_length, length_int_bits, length_bytes_bits, L. cbn [length]. lia.
Qed.
Lemma store_std_put a x b : std_tlb a x -> store_std a b = put x b.
Proof.
  intros H. unfold store_std. apply cap_put; [symmetry; apply std_len, H|]. destruct H as [ac y wc id Hm Hw F L]. cbn [sa_anycast sa_wc sa_addr].
  apply (bind_put [true; false]). intros b2. apply bind_put'; [intros b3; apply store_maybe, Hm|]. intros b3.
  unfold put_uint. change (N.to_nat 8) with 8%nat. rewrite <- (as_unsigned_bits 8). apply bind_put. reflexivity.
Qed.
Lemma load_std_body_iff b a r : load_std_body b = Ok (a, r) <-> exists x, std_tlb a ([true; false] ++ x) /\ b = x ++ r.
Proof.
  unfold load_std_body. split.
  - destruct (load_opt load_anycast b) as [[ac b1]|e] eqn:E1; [|discriminate]. cbn [rbind]. apply load_maybe in E1. destruct E1 as (y & Hm & ->).
    destruct (load_uint 8 b1) as [[wc b2]|e] eqn:E2; [|discriminate]. cbn [rbind]. destruct (load_int_inv 8 _ _ _ ltac:(lia) E2) as [Hz ->].
    destruct (load_uint 256 b2) as [[ad b3]|e] eqn:E3; [|discriminate]. cbn [rbind]. intros [= <- <-]. apply (load_bytes_inv 32) in E3. subst b2.
    eexists. split; [apply (addr_std ac y); [exact Hm|exact Hz|apply to_be_ok|apply to_be_length]|]. rewrite <- !app_assoc. reflexivity.
  - intros (x & H & ->). remember ([true; false] ++ x) as z eqn:Ez. destruct H as [ac y wc id Hm Hw F L].
    apply app_inv_head in Ez. subst x. rewrite <- !app_assoc. rewrite (proj2 (load_maybe _ ac _)) by (exists y; split; [exact Hm|reflexivity]). cbn [rbind].
    destruct (load_int_ok 8 wc (bytes_bits id ++ r) ltac:(lia) Hw) as [E1 E2]. rewrite E1. cbn [rbind].
    destruct (load_bytes_ok 32 id r F L) as (v & E3 & E4). change (8 * 32)%nat with 256%nat in E3. rewrite E3. cbn [rbind]. rewrite E4. change (N.of_nat 8) with 8 in *. rewrite E2. reflexivity.
Qed.
Lemma load_std_iff b a r : load_std b = Ok (a, r) <-> exists x, std_tlb a x /\ b = x ++ r.
Proof.
  unfold load_std. split.
  - destruct b as [|t b]; [discriminate|]. cbn [load_bit rbind]. destruct t; [|discriminate]. cbn [negb].
    destruct b as [|t b]; [discriminate|]. cbn [load_bit rbind]. destruct t; [discriminate|]. intros H. apply load_std_body_iff in H. destruct H as (x & H & ->).
    exists ([true; false] ++ x). split; [exact H|reflexivity].
  - intros (x & H & ->). pose proof H as H'. destruct H' as [ac y wc id _ _ _ _]. cbn [app load_bit rbind negb]. apply load_std_body_iff.
    eexists. split; [exact H|reflexivity].
Qed.

(** ** Addresses of any length *)
Lemma var_len a x : var_tlb a x -> N.of_nat (length x) = var_bit_len a.
Proof.
  intros [ac y wc ad Hm Hw L]. unfold var_bit_len. cbn [va_anycast va_len]. apply maybe_len in Hm.
  rewrite !app_length, length_int_bits, length_nbits. cbn [length]. unfold count. lia.
Qed.
Lemma store_var_put a x b : var_tlb a x -> store_var a b = put x b.
Proof.
  intros H. unfold store_var. apply cap_put; [symmetry; apply var_len, H|]. destruct H as [ac y wc ad Hm Hw L]. cbn [va_anycast va_len va_wc va_addr].
  apply (bind_put [true; true]). intros b2. apply bind_put'; [intros b3; apply store_maybe, Hm|]. intros b3.
  rewrite store_sk_put by exact L. apply bind_put. intros b4.
  unfold put_uint. change (N.to_nat 32) with 32%nat. rewrite <- (as_unsigned_bits 32). apply bind_put. intros b5. apply store_raw_put.
Qed.
Lemma load_var_body_iff b a r : load_var_body b = Ok (a, r) <-> exists x, var_tlb a ([true; true] ++ x) /\ b = x ++ r.
Proof.
  unfold load_var_body. split.
  - destruct (load_opt load_anycast b) as [[ac b1]|e] eqn:E1; [|discriminate]. cbn [rbind]. apply load_maybe in E1. destruct E1 as (y & Hm & ->).
    destruct (load_sk Uint9 b1) as [[len b2]|e] eqn:E2; [|discriminate]. cbn [rbind]. apply load_sk_iff in E2. destruct E2 as [Hl ->].
    destruct (load_uint 32 b2) as [[wc b3]|e] eqn:E3; [|discriminate]. cbn [rbind]. destruct (load_int_inv 32 _ _ _ ltac:(lia) E3) as [Hz ->].
    destruct (negb _) eqn:Hr; [discriminate|]. destruct (load_raw_bits len b3) as [[ad b4]|e] eqn:E4; [|discriminate]. cbn [rbind]. intros [= <- <-].
    apply load_raw_iff in E4. destruct E4 as (x & Hc & -> & ->). rewrite <- Hc in *.
    eexists. split; [apply (addr_var ac y); [exact Hm|exact Hz|exact Hl]|]. rewrite <- !app_assoc. reflexivity.
  - intros (x & H & ->). remember ([true; true] ++ x) as z eqn:Ez. destruct H as [ac y wc ad Hm Hw L].
    apply app_inv_head in Ez. subst x. rewrite <- !app_assoc. rewrite (proj2 (load_maybe _ ac _)) by (exists y; split; [exact Hm|reflexivity]). cbn [rbind].
    rewrite (proj2 (load_sk_iff Uint9 _ (count ad) _) (conj L eq_refl)). cbn [rbind].
    destruct (load_int_ok 32 wc (ad ++ r) ltac:(lia) Hw) as [E1 E2]. rewrite E1. cbn [rbind]. rewrite has_remaining_count. cbn [negb].
    rewrite (proj2 (load_raw_iff (count ad) (ad ++ r) (pack ad) r)) by (exists ad; auto). cbn [rbind]. change (N.of_nat 32) with 32 in *. rewrite E2. reflexivity.
Qed.
Lemma int_len a x : int_tlb a x -> N.of_nat (length x) = int_bit_len a.
Proof. intros [b y H|b y H]; [apply std_len, H|apply var_len, H]. Qed.
Lemma store_int_put a x b : int_tlb a x -> store_int a b = put x b.
Proof. intros [c y H|c y H]; [apply store_std_put, H|apply store_var_put, H]. Qed.
Lemma load_int_addr_iff b a r : load_int b = Ok (a, r) <-> exists x, int_tlb a x /\ b = x ++ r.
Proof.
  unfold load_int. split.
  - destruct b as [|t b]; [discriminate|]. cbn [load_bit rbind]. destruct t; [|discriminate]. cbn [negb].
    destruct b as [|t b]; [discriminate|]. cbn [load_bit rbind]. destruct t.
    + destruct (load_var_body b) as [[v b1]|e] eqn:E; [|discriminate]. cbn [rbind]. intros [= <- <-]. apply load_var_body_iff in E. destruct E as (x & H & ->).
      exists ([true; true] ++ x). split; [constructor; exact H|reflexivity].
    + destruct (load_std_body b) as [[v b1]|e] eqn:E; [|discriminate]. cbn [rbind]. intros [= <- <-]. apply load_std_body_iff in E. destruct E as (x & H & ->).
      exists ([true; false] ++ x). split; [constructor; exact H|reflexivity].
  - intros (x & H & ->). destruct H as [a x H|a x H].
    + pose proof H as H'. destruct H' as [ac y wc id _ _ _ _]. cbn [app load_bit rbind negb].
      rewrite (proj2 (load_std_body_iff _ (StdAddr ac wc id) r)); [reflexivity|]. eexists. split; [exact H|reflexivity].
    + pose proof H as H'. destruct H' as [ac y wc id _ _ _]. cbn [app load_bit rbind negb].
      rewrite (proj2 (load_var_body_iff _ (VarAddr ac (count id) wc (pack id)) r)); [reflexivity|]. eexists. split; [exact H|reflexivity].
Qed.
Lemma int_first a x : int_tlb a x -> exists y, x = true :: y.
Proof. intros [b y [? ? ? ? ? ? ? ?]|b y [? ? ? ? ? ? ?]]; eexists; reflexivity. Qed.
Lemma opt_int_len a x : opt_int_tlb a x -> N.of_nat (length x) = opt_int_bit_len a.
Proof. intros [|b y H]; [reflexivity|apply int_len, H]. Qed.
Lemma store_opt_int_put a x b : opt_int_tlb a x -> store_opt_int a b = put x b.
Proof. intros [|c y H]; [reflexivity|apply store_int_put, H]. Qed.
Lemma load_opt_int_iff b a r : load_opt_int b = Ok (a, r) <-> exists x, opt_int_tlb a x /\ b = x ++ r.
Proof.
  unfold load_opt_int. split.
  - destruct b as [|t b]; [discriminate|]. cbn [load_bit rbind]. destruct t.
    + destruct (load_int (true :: b)) as [[i b1]|e] eqn:E; [|discriminate]. cbn [rbind]. intros [= <- <-]. apply load_int_addr_iff in E. destruct E as (x & H & ->).
      exists x. split; [constructor; exact H|reflexivity].
    + destruct (load_uint 2 (false :: b)) as [[v b1]|e] eqn:E; [|discriminate]. cbn [rbind]. destruct (N.eqb_spec v 0) as [->|]; [|discriminate]. intros [= <- <-].
      apply load_uint_iff' in E. destruct E as [_ E]. exists [false; false]. split; [constructor|]. exact E.
  - intros (x & H & ->). destruct H as [|a x H]; [reflexivity|]. destruct (int_first a x H) as (y & ->). cbn [app load_bit rbind].
    rewrite (proj2 (load_int_addr_iff (true :: y ++ r) a r)); [reflexivity|]. exists (true :: y). auto.
Qed.

(** ** External addresses *)
Lemma ext_len a x : ext_tlb a x -> N.of_nat (length x) = opt_ext_bit_len a.
Proof. intros [|ad H]; [reflexivity|]. cbn [opt_ext_bit_len ea_len]. rewrite !app_length, length_nbits. cbn [length]. unfold count. lia. Qed.
Lemma store_ext_put a x b : ext_tlb a x -> store_ext a b = put x b.
Proof.
  intros H. pose proof (ext_len a x H) as L. destruct H as [|ad Hc]; [reflexivity|]. cbn [store_ext ea_len ea_data]. apply cap_put.
  { rewrite L. cbn [opt_ext_bit_len ea_len]. lia. }
  apply (bind_put [false]). intros b2. apply (bind_put [true]). intros b3. rewrite store_sk_put by exact Hc. apply bind_put. intros b4. apply store_raw_put.
Qed.
Lemma load_ext_iff b a r : load_ext b = Ok (a, r) <-> exists x, ext_tlb a x /\ b = x ++ r.
Proof.
  unfold load_ext. split.
  - destruct b as [|t b]; [discriminate|]. cbn [load_bit rbind]. destruct t; [discriminate|].
    destruct b as [|t b]; [discriminate|]. cbn [load_bit rbind]. destruct t; cbn [negb].
    + destruct (load_sk Uint9 b) as [[len b2]|e] eqn:E2; [|discriminate]. cbn [rbind]. apply load_sk_iff in E2. destruct E2 as [Hl ->].
      destruct (negb _) eqn:Hr; [discriminate|]. destruct (load_raw_bits len b2) as [[ad b4]|e] eqn:E4; [|discriminate]. cbn [rbind]. intros [= <- <-].
      apply load_raw_iff in E4. destruct E4 as (x & Hc & -> & ->). rewrite <- Hc in *. eexists. split; [constructor; exact Hl|]. cbn [app]. rewrite <- app_assoc. reflexivity.
    + intros [= <- <-]. exists [false; false]. split; [constructor|reflexivity].
  - intros (x & H & ->). destruct H as [|ad Hc]; [reflexivity|]. cbn [app load_bit rbind negb]. rewrite <- app_assoc.
    rewrite (proj2 (load_sk_iff Uint9 _ (count ad) _) (conj Hc eq_refl)). cbn [rbind]. rewrite has_remaining_count. cbn [negb].
    rewrite (proj2 (load_raw_iff (count ad) (ad ++ r) (pack ad) r)) by (exists ad; auto). reflexivity.
Qed.
