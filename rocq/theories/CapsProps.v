(** * Capabilities (C68) *)
From Coq Require Import String.
From Verif Require Import Err IterModel CapsModel CapsSpec.
Local Open Scope N_scope.

Lemma table_known o : existsb (fun p => snd p =? o) cap_table = known o.
Proof.
  destruct (N.le_gt_cases o 32) as [H|H].
  - assert (A : forallb (fun i => Bool.eqb (existsb (fun p => snd p =? N.of_nat i) cap_table) (known (N.of_nat i))) (seq 0 33) = true) by (vm_compute; reflexivity).
    rewrite forallb_forall in A. specialize (A (N.to_nat o)). rewrite N2Nat.id in A. apply Bool.eqb_prop, A, in_seq. lia.
  - unfold known. rewrite (proj2 (N.leb_gt _ _)) by lia. cbn [andb]. apply Bool.not_true_iff_false. intros E. apply existsb_exists in E. destruct E as (p & I & E).
    apply N.eqb_eq in E. assert (A : forallb (fun p => snd p <=? 32) cap_table = true) by (vm_compute; reflexivity). rewrite forallb_forall in A. specialize (A p I). apply N.leb_le in A. lia.
Qed.
Lemma not64_bits x i : x < 2 ^ 64 -> i < 64 -> N.testbit (not64 x) i = negb (N.testbit x i).
Proof.
  intros X I. unfold not64. change (2 ^ 64 - 1) with (N.ones 64). rewrite N.sub_nocarry_ldiff.
  - rewrite N.ldiff_spec, N.ones_spec_low by exact I. reflexivity.
  - apply N.bits_inj. intros j. rewrite N.ldiff_spec, N.bits_0. destruct (N.lt_ge_cases j 64) as [L|L].
    + rewrite N.ones_spec_low by exact L. apply Bool.andb_false_r.
    + replace (N.testbit x j) with false; [reflexivity|]. symmetry. destruct (N.eq_dec x 0) as [->|Z]; [apply N.bits_0|]. apply N.bits_above_log2. apply N.log2_lt_pow2; [lia|].
      apply N.lt_le_trans with (2 ^ 64); [exact X|]. apply N.pow_le_mono_r; [discriminate|exact L].
Qed.
Lemma above x i : x < 2 ^ 64 -> 64 <= i -> N.testbit x i = false.
Proof.
  intros X L. destruct (N.eq_dec x 0) as [->|Z]; [apply N.bits_0|]. apply N.bits_above_log2. apply N.log2_lt_pow2; [lia|].
  apply N.lt_le_trans with (2 ^ 64); [exact X|]. apply N.pow_le_mono_r; [discriminate|exact L].
Qed.
(** A number with the bits below [j] cleared. *)
Definition hi (j x : N) : N := N.shiftl (N.shiftr x j) j.
Lemma hi_bits j x i : N.testbit (hi j x) i = (j <=? i) && N.testbit x i.
Proof.
  unfold hi. destruct (N.leb_spec j i).
  - rewrite N.shiftl_spec_high', N.shiftr_spec' by assumption. replace (i - j + j) with i by lia. reflexivity.
  - rewrite N.shiftl_spec_low by assumption. reflexivity.
Qed.
Lemma hi_lt j x : x < 2 ^ 64 -> hi j x < 2 ^ 64.
Proof.
  intros X. unfold hi. rewrite N.shiftl_mul_pow2, N.shiftr_div_pow2. eapply N.le_lt_trans; [|exact X]. rewrite N.mul_comm. apply N.mul_div_le, N.pow_nonzero. discriminate.
Qed.
(** The lowest bit. *)
Lemma zeros_pow k : trailing_zeros (2 ^ k) = k.
Proof.
  induction k as [|k IH] using N.peano_ind; [reflexivity|]. rewrite N.pow_succ_r'. destruct (2 ^ k) as [|p] eqn:E; [apply N.pow_nonzero in E; [destruct E|discriminate]|].
  cbn [trailing_zeros] in IH. change (2 * Npos p) with (Npos (xO p)). cbn [trailing_zeros zeros_pos]. rewrite IH. reflexivity.
Qed.
Lemma pred_bits x j i : x = hi j x -> N.testbit x j = true -> N.testbit (x - 1) i = if i <? j then true else if i =? j then false else N.testbit x i.
Proof.
  intros H T. assert (E : x = 2 ^ j * (2 * N.shiftr x (N.succ j) + 1)).
  { rewrite H at 1. unfold hi. rewrite N.shiftl_mul_pow2, N.mul_comm. f_equal. rewrite <- N.add_1_r, <- N.shiftr_shiftr, <- N.div2_spec.
    rewrite (N.div2_odd (N.shiftr x j)) at 1. f_equal. rewrite <- N.bit0_odd, N.shiftr_spec', N.add_0_l, T. reflexivity. }
  set (m := N.shiftr x (N.succ j)) in *. assert (P : 2 ^ j <> 0) by (apply N.pow_nonzero; discriminate).
  assert (E2 : x - 1 = N.ones j + 2 ^ N.succ j * m). { rewrite N.ones_equiv, N.pow_succ_r', <- N.sub_1_r. rewrite E. nia. }
  destruct (N.ltb_spec i j) as [L|L]; [|destruct (N.eqb_spec i j) as [->|N]].
  - rewrite E2. rewrite <- (N.mod_pow2_bits_low _ j) by exact L. rewrite N.pow_succ_r'. replace (N.ones j + 2 * 2 ^ j * m) with (N.ones j + (2 * m) * 2 ^ j) by ring. rewrite N.mod_add by exact P. rewrite N.mod_pow2_bits_low by exact L. apply N.ones_spec_low. exact L.
  - rewrite E2. rewrite N.testbit_odd, N.shiftr_div_pow2. rewrite N.pow_succ_r'. replace (N.ones j + 2 * 2 ^ j * m) with (N.ones j + (2 * m) * 2 ^ j) by ring.
    rewrite N.div_add by exact P. rewrite N.div_small by (rewrite N.ones_equiv; lia). rewrite N.add_0_l. rewrite N.odd_mul. reflexivity.
  - assert (G : N.succ j <= i) by lia. rewrite E2. replace i with ((i - N.succ j) + N.succ j) at 1 by lia. rewrite <- N.shiftr_spec', N.shiftr_div_pow2.
    rewrite N.mul_comm, N.div_add by (apply N.pow_nonzero; discriminate). rewrite N.div_small by (rewrite N.ones_equiv, N.pow_succ_r'; lia). rewrite N.add_0_l.
    unfold m. rewrite N.shiftr_spec'. f_equal. lia.
Qed.

Lemma lowest x j : x < 2 ^ 64 -> j < 64 -> x = hi j x -> N.testbit x j = true -> N.land x (not64 (x - 1)) = 2 ^ j.
Proof.
  intros X J H T. apply N.bits_inj. intros i. rewrite N.land_spec, N.pow2_bits_eqb. destruct (N.lt_ge_cases i 64) as [L|L].
  - rewrite not64_bits by (exact L || lia). rewrite (pred_bits _ _ _ H T). rewrite (N.eqb_sym j i). destruct (N.ltb_spec i j) as [A|A].
    + rewrite Bool.andb_false_r. symmetry. apply N.eqb_neq. lia.
    + destruct (N.eqb_spec i j) as [->|_]; [rewrite T; reflexivity|apply Bool.andb_negb_r].
  - rewrite (above x i X L). symmetry. apply N.eqb_neq. lia.
Qed.
Lemma clear x j : x < 2 ^ 64 -> j < 64 -> x = hi j x -> N.land x (not64 (2 ^ j)) = hi (N.succ j) x.
Proof.
  intros X J H. apply N.bits_inj. intros i. rewrite N.land_spec, hi_bits. destruct (N.lt_ge_cases i 64) as [L|L].
  - rewrite not64_bits by (exact L || (apply N.pow_lt_mono_r; [reflexivity|exact J])). rewrite N.pow2_bits_eqb. rewrite H at 1. rewrite hi_bits.
    destruct (N.leb_spec j i), (N.leb_spec (N.succ j) i), (N.eqb_spec j i); try lia; cbn [andb negb]; rewrite ?Bool.andb_true_r, ?Bool.andb_false_r; reflexivity.
  - rewrite (above x i X L). rewrite Bool.andb_false_r. reflexivity.
Qed.
Lemma hi_hi j k x : j <= k -> hi k (hi j x) = hi k x.
Proof. intros H. apply N.bits_inj. intros i. rewrite !hi_bits. destruct (N.leb_spec k i); [|reflexivity]. rewrite (proj2 (N.leb_le j i)) by lia. reflexivity. Qed.
Lemma hi_same j x : x = hi j x -> forall i, j <= i -> hi i x = hi i (hi j x).
Proof. intros H i _. rewrite <- H. reflexivity. Qed.
Lemma hi_skip j x : x = hi j x -> N.testbit x j = false -> x = hi (N.succ j) x.
Proof.
  intros H T. apply N.bits_inj. intros i. rewrite hi_bits. destruct (N.leb_spec (N.succ j) i); [reflexivity|]. cbn [andb]. destruct (N.eq_dec i j) as [->|N]; [exact T|].
  rewrite H, hi_bits. rewrite (proj2 (N.leb_gt _ _)) by lia. reflexivity.
Qed.
Lemma hi_top x : x < 2 ^ 64 -> x = hi 64 x -> x = 0.
Proof. intros X H. apply N.bits_inj_0. intros i. rewrite H, hi_bits. destruct (N.leb_spec 64 i) as [L|L]; [|reflexivity]. rewrite (above x i X L). reflexivity. Qed.

Definition mem (x o : N) : bool := known o && N.testbit x o.
Definition from (j n : nat) : list N := map N.of_nat (seq j n).
Lemma loop_ok n : forall j x f, (j + n = 64)%nat -> x < 2 ^ 64 -> x = hi (N.of_nat j) x -> (n <= f)%nat ->
  caps_loop f x = match find (mem x) (from j n) with Some k => (Some k, hi (N.succ k) x) | None => (None, 0) end.
Proof.
  induction n as [|n IH]; intros j x f J X H F.
  - assert (Z : x = 0) by (apply hi_top; [exact X|]; replace 64 with (N.of_nat j) by lia; exact H). subst x. destruct f; reflexivity.
  - destruct f as [|f]; [lia|]. unfold from. cbn [seq map find]. unfold mem at 1. destruct (N.testbit x (N.of_nat j)) eqn:T.
    + cbn [caps_loop]. assert (Z : x =? 0 = false) by (apply N.eqb_neq; intros ->; rewrite N.bits_0 in T; discriminate). rewrite Z. cbn zeta.
      rewrite (lowest x (N.of_nat j)) by (exact X || exact H || exact T || lia). rewrite zeros_pow. rewrite (clear x (N.of_nat j)) by (exact X || exact H || lia).
      unfold from_bit_offset. rewrite table_known. destruct (known (N.of_nat j)); [reflexivity|]. cbn [andb].
      rewrite (IH (S j) _ f); [|lia|apply hi_lt, X|rewrite Nat2N.inj_succ, hi_hi by lia; reflexivity|lia]. unfold from.
      assert (E : find (mem (hi (N.succ (N.of_nat j)) x)) (map N.of_nat (seq (S j) n)) = find (mem x) (map N.of_nat (seq (S j) n))).
      { assert (A : forall o, In o (map N.of_nat (seq (S j) n)) -> mem (hi (N.succ (N.of_nat j)) x) o = mem x o).
        { intros o I. apply in_map_iff in I. destruct I as (i & <- & I). apply in_seq in I. unfold mem. rewrite hi_bits. rewrite (proj2 (N.leb_le _ _)) by lia. reflexivity. }
        revert A. generalize (map N.of_nat (seq (S j) n)). intros l A. induction l as [|o l IHl]; [reflexivity|]. cbn [find]. rewrite (A o (or_introl eq_refl)). destruct (mem x o); [reflexivity|].
        apply IHl. intros q Q. apply A. right. exact Q. }
      rewrite E. destruct (find (mem x) _) as [k|] eqn:K; [|reflexivity]. apply find_some in K. destruct K as [K _]. apply in_map_iff in K. destruct K as (i & <- & I). apply in_seq in I.
      rewrite hi_hi by lia. reflexivity.
    + rewrite Bool.andb_false_r. apply IH; [lia|exact X| |lia]. rewrite Nat2N.inj_succ. apply hi_skip; assumption.
Qed.
Lemma find_filter n : forall j x, match find (mem x) (from j n) with
  | Some k => exists i m, k = N.of_nat i /\ (S i + m = j + n)%nat /\ List.filter (mem x) (from j n) = k :: List.filter (mem x) (from (S i) m)
  | None => List.filter (mem x) (from j n) = [] end.
Proof.
  induction n as [|n IH]; intros j x; [reflexivity|]. unfold from. cbn [seq map find List.filter]. destruct (mem x (N.of_nat j)).
  - exists j, n. split; [reflexivity|]. split; [lia|reflexivity].
  - specialize (IH (S j) x). unfold from in IH. destruct (find (mem x) _); [|exact IH]. destruct IH as (i & m & -> & E & G). exists i, m. split; [reflexivity|]. split; [lia|exact G].
Qed.
Lemma firstn_repeat {A} (a : A) k i : (k <= i)%nat -> firstn k (repeat a i) = repeat a k.
Proof. revert i. induction k as [|k IH]; intros [|i] H; [reflexivity..|lia|]. cbn. f_equal. apply IH. lia. Qed.
Lemma calls_ok i : forall j n x, (j + n = 64)%nat -> x < 2 ^ 64 -> x = hi (N.of_nat j) x ->
  calls caps_next i x = firstn i (map Some (List.filter (mem x) (from j n)) ++ repeat None i).
Proof.
  induction i as [|i IH]; intros j n x J X H; [reflexivity|]. cbn [calls]. unfold caps_next at 1. rewrite (loop_ok n j x 64 J X H) by lia.
  pose proof (find_filter n j x) as F. destruct (find (mem x) (from j n)) as [k|].
  - destruct F as (o & m & -> & E & ->). cbn [map app firstn]. f_equal. rewrite <- Nat2N.inj_succ. rewrite (IH (S o) m); [|lia|apply hi_lt, X|rewrite hi_hi by lia; reflexivity].
    rewrite (filter_ext_in (mem (hi (N.of_nat (S o)) x)) (mem x)).
    + rewrite !firstn_app, !firstn_repeat by lia. reflexivity.
    + intros q Q. apply in_map_iff in Q. destruct Q as (u & <- & Q). apply in_seq in Q. unfold mem. rewrite hi_bits. rewrite (proj2 (N.leb_le _ _)) by lia. reflexivity.
  - rewrite F. cbn [map app]. rewrite firstn_repeat by lia. cbn [repeat]. f_equal. rewrite (IH 64%nat 0%nat); [|reflexivity|reflexivity|reflexivity]. cbn [from seq map List.filter app]. apply firstn_repeat. lia.
Qed.

(** The iterator returns the capabilities of the set in increasing order, each once, and nothing
    at every further call. *)
Theorem C68_iterator x i : x < 2 ^ 64 -> calls caps_next i x = firstn i (map Some (members x) ++ repeat None i).
Proof.
  intros X. apply (calls_ok i 0 64); [reflexivity|exact X|]. unfold hi. rewrite N.shiftr_0_r, N.shiftl_0_r. reflexivity.
Qed.
Print Assumptions C68_iterator.

(** A set made of capabilities contains these and no others; capabilities are found by name. *)
Lemma contains_bit x c : caps_contains x c = N.testbit x c.
Proof.
  unfold caps_contains, cap_mask. rewrite N.shiftl_1_l. destruct (N.testbit x c) eqn:T.
  - apply Bool.negb_true_iff, N.eqb_neq. intros E. assert (B : N.testbit (N.land x (2 ^ c)) c = false) by (rewrite E; apply N.bits_0). rewrite N.land_spec, T, N.pow2_bits_true in B. discriminate.
  - apply Bool.negb_false_iff, N.eqb_eq. apply N.bits_inj_0. intros i. rewrite N.land_spec, N.pow2_bits_eqb. destruct (N.eqb_spec c i) as [<-|_]; [rewrite T; reflexivity|apply Bool.andb_false_r].
Qed.
Theorem C68_contains l x c d : (caps_contains (caps_from_iter l) c = true <-> In c l) /\
  (caps_contains (caps_insert x c) d = true <-> d = c \/ caps_contains x d = true).
Proof.
  assert (I : forall x c d, caps_contains (caps_insert x c) d = true <-> d = c \/ caps_contains x d = true).
  { clear. intros x c d. rewrite !contains_bit. unfold caps_insert, cap_mask. rewrite N.shiftl_1_l, N.lor_spec, N.pow2_bits_eqb, Bool.orb_true_iff, N.eqb_eq. intuition. }
  split; [|apply I]. unfold caps_from_iter. assert (G : forall l x, caps_contains (fold_left caps_insert l x) c = true <-> In c l \/ caps_contains x c = true).
  { clear l x. induction l as [|a l IH]; intros x; cbn [fold_left In]; [intuition|]. rewrite IH, I. intuition. }
  rewrite G. split; [intros [H|H]; [exact H|rewrite contains_bit, N.bits_0 in H; discriminate]|auto].
Qed.
Print Assumptions C68_contains.
Theorem C68_names s c : cap_from_str s = Some c <-> cap_name c = Some s.
Proof.
  assert (T : forall p q, In p cap_table -> In q cap_table -> fst p = fst q \/ snd p = snd q -> p = q).
  { intros p q P Q E. assert (A : forallb (fun p => forallb (fun q => implb (String.eqb (fst p) (fst q) || (snd p =? snd q)) (String.eqb (fst p) (fst q) && (snd p =? snd q))) cap_table) cap_table = true) by (vm_compute; reflexivity).
    rewrite forallb_forall in A. specialize (A p P). rewrite forallb_forall in A. specialize (A q Q).
    assert (B : (String.eqb (fst p) (fst q) || (snd p =? snd q))%bool = true) by (apply Bool.orb_true_iff; destruct E as [E|E]; [left; apply String.eqb_eq|right; apply N.eqb_eq]; exact E).
    rewrite B in A. apply Bool.andb_true_iff in A. destruct A as [A1 A2]. apply String.eqb_eq in A1. apply N.eqb_eq in A2. destruct p, q. cbn [fst snd] in *. subst. reflexivity. }
  unfold cap_from_str, cap_name. split.
  - destruct (find _ _) as [p|] eqn:F; [|discriminate]. intros [= <-]. apply find_some in F. destruct F as [P E]. apply String.eqb_eq in E.
    destruct (find (fun q => snd q =? snd p) cap_table) as [q|] eqn:G; [|apply (find_none _ _ G) in P; rewrite N.eqb_refl in P; discriminate].
    apply find_some in G. destruct G as [Q E2]. apply N.eqb_eq in E2. rewrite (T q p Q P (or_intror E2)). cbn [option_map]. rewrite E. reflexivity.
  - destruct (find _ _) as [p|] eqn:F; [|discriminate]. intros [= <-]. apply find_some in F. destruct F as [P E]. apply N.eqb_eq in E.
    destruct (find (fun q => String.eqb (fst q) (fst p)) cap_table) as [q|] eqn:G; [|apply (find_none _ _ G) in P; rewrite String.eqb_refl in P; discriminate].
    apply find_some in G. destruct G as [Q E2]. apply String.eqb_eq in E2. rewrite (T q p Q P (or_introl E2)). cbn [option_map]. rewrite E. reflexivity.
Qed.
Print Assumptions C68_names.
Theorem C68_named c : (exists s, cap_name c = Some s) <-> known c = true.
Proof.
  rewrite <- table_known. unfold cap_name. split.
  - intros (s & E). destruct (find _ _) as [p|] eqn:F; [|discriminate]. apply find_some in F. apply existsb_exists. exists p. exact F.
  - intros E. apply existsb_exists in E. destruct E as (p & P & E). destruct (find (fun q => snd q =? c) cap_table) as [q|] eqn:G; [eexists; reflexivity|]. apply (find_none _ _ G) in P. rewrite E in P. discriminate.
Qed.
Print Assumptions C68_named.

(** What is collected from the iterator is the set without the bits that stand for no capability,
    so that sets of capabilities come back from their lists. *)
Theorem C68_collect x : x < 2 ^ 64 -> forall c, caps_contains (caps_from_iter (members x)) c = known c && caps_contains x c.
Proof.
  intros X c. apply Bool.eq_iff_eq_true. rewrite (proj1 (C68_contains (members x) 0 c 0)). unfold members. rewrite filter_In, contains_bit.
  split; [intros [_ H]; exact H|]. intros H. split; [|exact H]. apply Bool.andb_true_iff in H. destruct H as [K T].
  apply in_map_iff. exists (N.to_nat c). split; [apply N2Nat.id|]. apply in_seq. destruct (N.lt_ge_cases c 64) as [L|L]; [lia|]. rewrite (above x c X L) in T. discriminate.
Qed.
Print Assumptions C68_collect.
Theorem C68_round_trip l : Forall (fun c => known c = true) l -> caps_from_iter (members (caps_from_iter l)) = caps_from_iter l.
Proof.
  intros K. assert (W : forall c, In c l -> c <= 32).
  { intros c I. rewrite List.Forall_forall in K. specialize (K c I). unfold known in K. apply Bool.andb_true_iff in K. apply N.leb_le, (proj1 K). }
  assert (X : caps_from_iter l < 2 ^ 64).
  { unfold caps_from_iter. assert (G : forall l x, (forall c, In c l -> c <= 32) -> x < 2 ^ 64 -> fold_left caps_insert l x < 2 ^ 64).
    { clear. induction l as [|c l IH]; intros x W X; [exact X|]. cbn [fold_left]. apply IH; [intros d D; apply W; right; exact D|]. specialize (W c (or_introl eq_refl)).
      unfold caps_insert, cap_mask. rewrite N.shiftl_1_l. destruct (N.eq_dec (N.lor x (2 ^ c)) 0) as [->|Z]; [reflexivity|]. apply N.log2_lt_pow2; [lia|]. rewrite N.log2_lor. apply N.max_lub_lt.
      - destruct (N.eq_dec x 0) as [->|Y]; [reflexivity|]. apply N.log2_lt_pow2; [lia|exact X].
      - rewrite N.log2_pow2 by lia. lia. }
    apply G; [exact W|reflexivity]. }
  apply N.bits_inj. intros c. rewrite <- !contains_bit. rewrite (C68_collect _ X). destruct (caps_contains (caps_from_iter l) c) eqn:E; [|apply Bool.andb_false_r].
  apply (proj1 (C68_contains l 0 c 0)) in E. rewrite List.Forall_forall in K. rewrite (K c E). reflexivity.
Qed.
Print Assumptions C68_round_trip.

(** Finding: [len] and [size_hint] count bits that stand for no capability, [size_hint] promises
    more items than the iterator returns, and [is_empty] is false of a set without items. *)
Theorem C68_hint_refuted : exists x, x < 2 ^ 64 /\ caps_hint x = (2, 2) /\ caps_len x = 2 /\ caps_is_empty x = false /\ forall i, calls caps_next i x = repeat None i.
Proof.
  exists (2 ^ 15 + 2 ^ 40). split; [reflexivity|]. split; [reflexivity|]. split; [reflexivity|]. split; [reflexivity|]. intros i. rewrite C68_iterator by reflexivity.
  replace (members (2 ^ 15 + 2 ^ 40)) with (@nil N) by (vm_compute; reflexivity). cbn [map app]. apply firstn_repeat. lia.
Qed.
Print Assumptions C68_hint_refuted.

(** A concrete case: three capabilities and a bit that stands for none. *)
Example C68_case : caps_from_iter [32; 0; 16] + 2 ^ 15 < 2 ^ 64 /\ members (caps_from_iter [32; 0; 16] + 2 ^ 15) = [0; 16; 32] /\
  calls caps_next 5 (caps_from_iter [32; 0; 16] + 2 ^ 15) = [Some 0; Some 16; Some 32; None; None] /\ cap_name 16 = Some "CapFullBodyInBounced"%string.
Proof. vm_compute. repeat split. Qed.
