(** * The hashing model computes the hashes of the tree (C10-C14). *)
From Verif Require Import Err BitsProofs BuilderModel BuilderSpec CellModel HashSpec HashModel FcellSpec.
Local Open Scope nat_scope.

Definition seqN (n : nat) : list N := map N.of_nat (seq 0 n).
Lemma seqN_all (n : nat) (P : N -> bool) : forallb P (seqN n) = true -> forall x, (x < N.of_nat n)%N -> P x = true.
Proof.
  intros H x Hx. apply (proj1 (forallb_forall P (seqN n)) H).
  unfold seqN. apply in_map_iff. exists (N.to_nat x). split; [lia|]. apply in_seq. lia.
Qed.

(** ** Descriptors *)
Lemma d1_fields m e n : (m < 8)%N -> (n < 8)%N ->
  d_mask (compute_d1 m e n) = m /\ d_exotic (compute_d1 m e n) = e /\ d_refs (compute_d1 m e n) = n /\
  d_store_hashes (compute_d1 m e n) = false /\ (compute_d1 m e n < 256)%N.
Proof.
  intros Hm Hn.
  pose proof (seqN_all 8 (fun m => forallb (fun n => forallb (fun e =>
    (d_mask (compute_d1 m e n) =? m)%N && Bool.eqb (d_exotic (compute_d1 m e n)) e && (d_refs (compute_d1 m e n) =? n)%N &&
    negb (d_store_hashes (compute_d1 m e n)) && (compute_d1 m e n <? 256)%N) [true; false]) (seqN 8)) ltac:(vm_compute; reflexivity) m Hm) as H.
  cbn beta in H. pose proof (seqN_all 8 _ H n Hn) as H1. cbn beta in H1.
  assert (H2 := proj1 (forallb_forall _ _) H1 e ltac:(destruct e; cbn; tauto)). cbn beta in H2.
  rewrite !andb_true_iff in H2. destruct H2 as ((((A&B)&C)&D)&E).
  apply N.eqb_eq in A, C. apply Bool.eqb_prop in B. apply N.ltb_lt in E. destruct (d_store_hashes _); [discriminate|]. auto.
Qed.

Definition b2n (b : bool) : N := if b then 1%N else 0%N.
(** The fields of a descriptor byte. *)
Lemma d1_split d1 : (d1 < 256)%N ->
  d1 = (32 * d_mask d1 + 16 * N.b2n (d_store_hashes d1) + 8 * N.b2n (d_exotic d1) + d_refs d1)%N /\ (d_mask d1 < 8)%N /\ (d_refs d1 < 8)%N.
Proof.
  intros H.
  pose proof (seqN_all 256 (fun d1 => (d1 =? 32 * d_mask d1 + 16 * N.b2n (d_store_hashes d1) + 8 * N.b2n (d_exotic d1) + d_refs d1)%N
    && (d_mask d1 <? 8)%N && (d_refs d1 <? 8)%N) ltac:(vm_compute; reflexivity) d1 H) as H1.
  cbn beta in H1. rewrite !andb_true_iff in H1. destruct H1 as ((A&B)&C).
  apply N.eqb_eq in A. apply N.ltb_lt in B, C. auto.
Qed.
Lemma level_d1_val d1 m : (d1 < 256)%N -> (m < 8)%N -> level_d1 d1 m = (32 * m + 8 * N.b2n (d_exotic d1) + d_refs d1)%N.
Proof.
  intros H Hm.
  pose proof (seqN_all 256 (fun d1 => forallb (fun m => (level_d1 d1 m =? 32 * m + 8 * N.b2n (d_exotic d1) + d_refs d1)%N) (seqN 8)) ltac:(vm_compute; reflexivity) d1 H) as H1.
  cbn beta in H1. pose proof (seqN_all 8 _ H1 m Hm) as H2. apply N.eqb_eq in H2. exact H2.
Qed.
Lemma compute_d2_val (n : nat) : n <= 1023 -> compute_d2 (N.of_nat n) = N.of_nat (n / 8 + (n + 7) / 8).
Proof.
  intros H.
  pose proof (seqN_all 1024 (fun n => (compute_d2 n =? n / 8 + (n + 7) / 8)%N) ltac:(vm_compute; reflexivity) (N.of_nat n) ltac:(lia)) as H1.
  apply N.eqb_eq in H1. rewrite H1, Nat2N.inj_add, !Nat2N.inj_div, Nat2N.inj_add. reflexivity.
Qed.
Lemma d2_fields (n : nat) : n <= 1023 ->
  d_aligned (compute_d2 (N.of_nat n)) = (n mod 8 =? 0) /\ d_byte_len (compute_d2 (N.of_nat n)) = N.of_nat ((n + 7) / 8) /\ (compute_d2 (N.of_nat n) < 256)%N.
Proof.
  intros H.
  pose proof (seqN_all 1024 (fun n => Bool.eqb (d_aligned (compute_d2 n)) (n mod 8 =? 0)%N && (d_byte_len (compute_d2 n) =? (n + 7) / 8)%N && (compute_d2 n <? 256)%N) ltac:(vm_compute; reflexivity) (N.of_nat n) ltac:(lia)) as H1.
  cbn beta in H1. rewrite !andb_true_iff in H1. destruct H1 as ((A&B)&C).
  apply Bool.eqb_prop in A. apply N.eqb_eq in B. apply N.ltb_lt in C.
  split; [|split; [|exact C]].
  - rewrite A. change 8%N with (N.of_nat 8). rewrite <- Nat2N.inj_mod.
    destruct (n mod 8) eqn:E; [reflexivity|]. cbn [Nat.eqb]. apply N.eqb_neq. lia.
  - rewrite B. rewrite Nat2N.inj_div, Nat2N.inj_add. reflexivity.
Qed.

(** ** The data of a cell *)
Lemma length_pad bits : length (pad bits) = length bits + (if length bits mod 8 =? 0 then 0 else 1).
Proof. unfold pad. destruct (_ =? 0); [lia|]. rewrite app_length. cbn [length]. lia. Qed.
Lemma length_data bits : length (data_bytes bits) = (length bits + 7) / 8.
Proof.
  unfold data_bytes. rewrite length_pack, length_pad.
  pose proof (Nat.div_mod (length bits) 8 ltac:(lia)). pose proof (Nat.mod_upper_bound (length bits) 8 ltac:(lia)).
  destruct (Nat.eqb_spec (length bits mod 8) 0).
  - f_equal. lia.
  - replace ((length bits + 1 + 7) / 8) with (length bits / 8 + 1).
    + replace (length bits + 7) with (8 * (length bits / 8 + 1) + (length bits mod 8 - 1)) by lia.
      rewrite (Nat.mul_comm 8), Nat.div_add_l by lia. rewrite (Nat.div_small (_ - 1)) by lia. lia.
    + replace (length bits + 1 + 7) with (8 * (length bits / 8 + 1) + length bits mod 8) by lia.
      rewrite (Nat.mul_comm 8), Nat.div_add_l by lia. rewrite (Nat.div_small (_ mod 8)) by lia. lia.
Qed.
Lemma data_bytes_ok bits : Forall byte_ok (data_bytes bits).
Proof. apply pack_ok. Qed.
(** The bits are a prefix of the bits of the bytes. *)
Lemma data_bits_take bits : take (length bits) (bytes_bits (data_bytes bits)) = bits.
Proof.
  unfold data_bytes. rewrite bytes_bits_pack. unfold pad. destruct (_ =? 0).
  - apply take_app.
  - rewrite <- app_assoc. apply take_app.
Qed.
Lemma data_bytes_inj a b : length a = length b -> data_bytes a = data_bytes b -> a = b.
Proof. intros L E. rewrite <- (data_bits_take a), <- (data_bits_take b), L, E. reflexivity. Qed.
Lemma pad_app_zeros_inj a b x y :
  length a mod 8 <> 0 -> length b mod 8 <> 0 -> (a ++ [true]) ++ zeros x = (b ++ [true]) ++ zeros y -> a = b.
Proof.
  intros _ _ H. apply (f_equal (@rev bool)) in H. rewrite !rev_app_distr in H. cbn [rev app] in H.
  assert (G : forall n l, rev (zeros n) ++ l = zeros n ++ l) by (intros n l; f_equal; induction n as [|n IHn]; [reflexivity|]; change (zeros (S n)) with (false :: zeros n); cbn [rev]; rewrite IHn; unfold zeros; rewrite <- replicate_cons_app; reflexivity).
  rewrite !G in H. clear G.
  revert y H. induction x as [|x IH]; intros [|y] H; cbn in H; try discriminate.
  - injection H as H. apply (f_equal (@rev bool)) in H. rewrite !rev_involutive in H. exact H.
  - injection H as H. apply (IH y H).
Qed.
(** Bytes and the flag of the second descriptor byte determine the bits. *)
Lemma data_bytes_inj2 a b :
  length a / 8 + (length a + 7) / 8 = length b / 8 + (length b + 7) / 8 -> data_bytes a = data_bytes b -> a = b.
Proof.
  intros L E.
  pose proof (Nat.div_mod (length a) 8 ltac:(lia)) as Da. pose proof (Nat.mod_upper_bound (length a) 8 ltac:(lia)) as Ma.
  pose proof (Nat.div_mod (length b) 8 ltac:(lia)) as Db. pose proof (Nat.mod_upper_bound (length b) 8 ltac:(lia)) as Mb.
  assert (Q : forall x, (x + 7) / 8 = x / 8 + (if x mod 8 =? 0 then 0 else 1)).
  { intros x. pose proof (Nat.div_mod x 8 ltac:(lia)). pose proof (Nat.mod_upper_bound x 8 ltac:(lia)).
    destruct (Nat.eqb_spec (x mod 8) 0).
    - replace (x + 7) with ((x / 8) * 8 + 7) by lia. rewrite Nat.div_add_l by lia. reflexivity.
    - replace (x + 7) with ((x / 8 + 1) * 8 + (x mod 8 - 1)) by lia. rewrite Nat.div_add_l by lia.
      rewrite (Nat.div_small (_ - 1)) by lia. lia. }
  rewrite !Q in L. 
  destruct (Nat.eqb_spec (length a mod 8) 0) as [Za|Za], (Nat.eqb_spec (length b mod 8) 0) as [Zb|Zb]; try lia.
  - apply data_bytes_inj; [lia|exact E].
  - apply (f_equal bytes_bits) in E. unfold data_bytes in E. rewrite !bytes_bits_pack in E. unfold pad in E.
    rewrite (proj2 (Nat.eqb_neq _ _) Za), (proj2 (Nat.eqb_neq _ _) Zb) in E.
    apply (pad_app_zeros_inj a b _ _ Za Zb E).
Qed.
Lemma byte_at_data i bits : 8 * i + 8 <= length bits -> data_bytes bits !! i = Some (byte_at i bits).
Proof.
  intros H. unfold byte_at.
  assert (Hi : i < length (data_bytes bits)).
  { rewrite length_data. apply Nat.div_le_lower_bound; lia. }
  destruct (lookup_lt_is_Some_2 _ _ Hi) as (x & Hx). rewrite Hx. f_equal.
  pose proof (take_drop_middle _ _ _ Hx) as M.
  assert (B : drop (8 * i) bits = drop (8 * i) (take (length bits) (bytes_bits (data_bytes bits)))) by (rewrite data_bits_take; reflexivity).
  rewrite B. rewrite skipn_firstn_comm. rewrite take_take, Nat.min_l by lia.
  rewrite <- M. rewrite bytes_bits_app, bytes_bits_cons.
  rewrite drop_app_alt by (rewrite length_bytes_bits, take_length; lia).
  rewrite take_app_alt by (rewrite length_byte_bits; reflexivity).
  symmetry. apply bval_nbits_small.
  exact (Forall_lookup_1 _ _ _ _ (data_bytes_ok bits) Hx).
Qed.

(** ** Level masks *)
Lemma mask8 (P : N -> Prop) m : (m < 8)%N -> P 0%N -> P 1%N -> P 2%N -> P 3%N -> P 4%N -> P 5%N -> P 6%N -> P 7%N -> P m.
Proof.
  intros H. assert (C : (m = 0 \/ m = 1 \/ m = 2 \/ m = 3 \/ m = 4 \/ m = 5 \/ m = 6 \/ m = 7)%N) by lia.
  destruct C as [C|[C|[C|[C|[C|[C|[C|C]]]]]]]; rewrite C; auto.
Qed.
Ltac masks m Hm := revert m Hm; intros m Hm; pattern m; apply (mask8 _ m Hm).
Lemma mask_high m l : (m < 8)%N -> 3 <= l -> N.testbit m (N.of_nat l) = false.
Proof.
  intros Hm Hl. destruct (N.eq_dec m 0) as [->|Z]; [apply N.bits_0|].
  apply N.bits_above_log2. assert (N.log2 m < 3)%N; [|lia]. apply N.log2_lt_pow2; [lia|exact Hm].
Qed.
Lemma from_level_of (l : nat) : lm_from_level (N.of_nat l) = mask_upto l.
Proof.
  unfold mask_upto. destruct l as [|[|[|l]]]; [reflexivity..|].
  replace (Nat.min (S (S (S l))) 3) with 3 by lia. unfold lm_from_level.
  rewrite !(proj2 (N.eqb_neq _ _)) by lia. reflexivity.
Qed.
Lemma mask_upto_lt l : (mask_upto l < 8)%N.
Proof. unfold mask_upto. destruct l as [|[|[|l]]]; try reflexivity. replace (Nat.min (S (S (S l))) 3) with 3 by lia. reflexivity. Qed.
Lemma bits_in_S m l : bits_in m (S l) = bits_in m l + (if N.testbit m (N.of_nat l) then 1 else 0).
Proof.
  unfold bits_in. rewrite seq_S, list.filter_app, app_length. f_equal. cbn [plus].
  rewrite list.filter_cons, list.filter_nil. destruct (N.testbit m (N.of_nat l)) eqn:E; destruct (decide _); cbn [length]; congruence || reflexivity.
Qed.
Lemma bits_in_above m l : (m < 8)%N -> 3 <= l -> bits_in m l = bits_in m 3.
Proof.
  intros Hm Hl. induction l as [|l IH]; [lia|]. destruct (Nat.eq_dec l 2) as [->|]; [reflexivity|].
  rewrite bits_in_S, mask_high by (assumption || lia). rewrite IH by lia. lia.
Qed.
Lemma hash_index_of m (l : nat) : (m < 8)%N -> lm_hash_index m (N.of_nat l) = N.of_nat (bits_in m l).
Proof.
  intros Hm. unfold lm_hash_index. rewrite from_level_of.
  destruct (le_lt_dec 3 l) as [Hl|Hl].
  - rewrite bits_in_above by assumption. replace (mask_upto l) with 7%N by (unfold mask_upto; rewrite Nat.min_r by lia; reflexivity).
    masks m Hm; reflexivity.
  - destruct l as [|[|[|]]]; try lia; masks m Hm; reflexivity.
Qed.
Lemma level_of m : (m < 8)%N -> lm_level m = N.of_nat (bits_in m 3).
Proof. intros Hm. masks m Hm; reflexivity. Qed.
Lemma contains_of m (l : nat) : (m < 8)%N -> lm_contains m (N.of_nat (S l)) = N.testbit m (N.of_nat l).
Proof.
  intros Hm. unfold lm_contains. rewrite (proj2 (N.eqb_neq _ _)) by lia. cbn [orb].
  replace (N.of_nat (S l) - 1)%N with (N.of_nat l) by lia.
  destruct (le_lt_dec 3 l) as [Hl|Hl].
  - rewrite mask_high by assumption. unfold shl.
    replace (N.land m (N.shiftl 1 (N.of_nat l) mod 2 ^ 8)) with 0%N; [reflexivity|].
    symmetry. apply N.bits_inj_0. intros i. rewrite N.land_spec.
    destruct (N.ltb_spec i 3); [|replace i with (N.of_nat (N.to_nat i)) by lia; rewrite mask_high by (assumption || lia); reflexivity].
    rewrite N.mod_pow2_bits_low by lia. rewrite N.shiftl_spec_low by lia. apply andb_false_r.
  - destruct l as [|[|[|]]]; try lia; masks m Hm; reflexivity.
Qed.
Lemma or_all_fold (l : list N) acc : fold_left N.lor l acc = N.lor acc (or_all l).
Proof.
  revert acc. induction l as [|x l IH]; intros acc; cbn [fold_left or_all fold_right]; [rewrite N.lor_0_r; reflexivity|].
  rewrite IH. symmetry. apply N.lor_assoc.
Qed.
Lemma children_mask_of refs : children_mask refs = or_all (map f_mask refs).
Proof.
  unfold children_mask. rewrite <- (N.lor_0_l (or_all _)), <- or_all_fold.
  generalize 0%N as acc. induction refs as [|c refs IH]; intros acc; cbn [fold_left map]; [reflexivity|]. apply IH.
Qed.
Lemma or_all_lt (l : list N) : Forall (fun m => (m < 8)%N) l -> (or_all l < 8)%N.
Proof.
  induction 1 as [|x l Hx H IH]; cbn [or_all fold_right]; [lia|].
  change (fold_right N.lor 0%N l) with (or_all l). revert IH. generalize (or_all l). intros y Hy.
  masks x Hx; masks y Hy; reflexivity.
Qed.
Lemma or_all_bits (l : list N) i : N.testbit (or_all l) i = existsb (fun m => N.testbit m i) l.
Proof. induction l as [|x l IH]; cbn [or_all fold_right existsb]; [apply N.bits_0|]. rewrite N.lor_spec, <- IH. reflexivity. Qed.

Lemma Forall2_map_r {A B} (P : A -> B -> Prop) (f : A -> B) l : Forall (fun x => P x (f x)) l -> Forall2 P l (map f l).
Proof. induction 1; cbn [map]; constructor; assumption. Qed.

(** ** A cell agrees with an info *)
Record agrees (c : fcell) (i : info) : Prop := Agrees {
  ag_mask : f_mask c = i_mask i;
  ag_hash : forall l : nat, f_hash c (N.of_nat l) = Ok (i_hash i l);
  ag_depth : forall l : nat, f_depth c (N.of_nat l) = Ok (i_depth i l);
}.
(** Properties of the info of every valid tree. *)
Record regular (i : info) : Prop := Regular {
  rg_mask : (i_mask i < 8)%N;
  rg_len : forall l, length (i_hash i l) = 32;
  rg_bytes : forall l, Forall byte_ok (i_hash i l);
  rg_hash : forall l, N.testbit (i_mask i) (N.of_nat l) = false -> i_hash i (S l) = i_hash i l;
  rg_depth : forall l, N.testbit (i_mask i) (N.of_nat l) = false -> i_depth i (S l) = i_depth i l;
}.

Lemma cell_tree_ind (P : cell -> Prop) : (forall e b r, Forall P r -> P (Cell e b r)) -> forall c, P c.
Proof.
  intros H. fix IH 1. intros [e b r]. apply H. induction r as [|x r IHr]; constructor; [apply IH|exact IHr].
Qed.
Lemma fcell_tree_ind (P : fcell -> Prop) :
  (forall d1 d2 n data refs h, Forall P refs -> P (FCell d1 d2 n data refs h)) -> forall c, P c.
Proof.
  intros H. fix IH 1. intros [d1 d2 n data refs h]. apply H. induction refs as [|x r IHr]; constructor; [apply IH|exact IHr].
Qed.

Lemma max_all_map_ext {A} (f g : A -> N) l : Forall (fun x => f x = g x) l -> max_all (map f l) = max_all (map g l).
Proof. induction 1 as [|x l E H IH]; cbn [map max_all fold_right]; [reflexivity|]. unfold max_all in IH. rewrite E, IH. reflexivity. Qed.

Section Sha.
Context (sha : list N -> list N) (Hsha : forall x, length (sha x) = 32 /\ Forall byte_ok (sha x)).

Lemma level_hash_sha e bits k ch m l : exists x, level_hash sha e bits k ch m l = sha x.
Proof. induction l as [|l IH]; cbn [level_hash]; [eauto|]. destruct (N.testbit _ _); eauto. Qed.

Lemma length_take_drop {A} (a b : nat) (d : list A) : b + a <= length d -> length (take a (drop b d)) = a.
Proof. intros H. rewrite take_length, drop_length. lia. Qed.
Lemma bits_in_mono m l : bits_in m l <= bits_in m (S l).
Proof. rewrite bits_in_S. lia. Qed.
Lemma bits_in_le m a b : a <= b -> bits_in m a <= bits_in m b.
Proof. induction 1 as [|b H IH]; [lia|]. pose proof (bits_in_mono m b). lia. Qed.
Lemma pruned_len bits m : length bits = 16 + 272 * bits_in m 3 -> length (data_bytes bits) = 2 + 34 * bits_in m 3.
Proof.
  intros H. rewrite length_data, H. replace (16 + 272 * bits_in m 3 + 7) with ((2 + 34 * bits_in m 3) * 8 + 7) by lia.
  rewrite Nat.div_add_l by lia. change (7 / 8) with 0. lia.
Qed.

Definition child_mask (k : kind) (ch : list info) (l : nat) : Prop :=
  N.testbit (cell_mask k ch) (N.of_nat l) = false -> Forall (fun i => N.testbit (i_mask i) (N.of_nat (l + k_merkle k)) = false) ch.
Lemma child_mask_ok e bits k ch l : layout e bits (length ch) k -> (forall m, k <> KPruned m) -> child_mask k ch l.
Proof.
  intros L Hp. unfold child_mask.
  assert (G : forall i, N.testbit (or_all (map i_mask ch)) i = false -> Forall (fun x => N.testbit (i_mask x) i = false) ch).
  { intros i. rewrite or_all_bits. induction ch as [|x ch IH]; cbn [map existsb]; [constructor|].
    intros E. apply orb_false_iff in E. destruct E as (E1 & E2). constructor; [exact E1|].
    clear -E2. induction ch as [|y ch IH]; [constructor|]. cbn [map existsb] in E2. apply orb_false_iff in E2. destruct E2. constructor; auto. }
  destruct k as [|m| | |]; cbn [cell_mask k_merkle].
  - rewrite Nat.add_0_r. apply G.
  - destruct (Hp m eq_refl).
  - destruct L as (_ & L & _). destruct ch; [constructor|discriminate].
  - rewrite N.shiftr_spec by lia. intros E. apply G. replace (N.of_nat (l + 1)) with (N.of_nat l + 1)%N by lia. exact E.
  - rewrite N.shiftr_spec by lia. intros E. apply G. replace (N.of_nat (l + 1)) with (N.of_nat l + 1)%N by lia. exact E.
Qed.
Lemma shiftr1_lt m : (m < 8)%N -> (N.shiftr m 1 < 8)%N.
Proof. intros Hm. masks m Hm; reflexivity. Qed.
Lemma cell_mask_lt e bits k ch : layout e bits (length ch) k -> Forall regular ch -> (cell_mask k ch < 8)%N.
Proof.
  intros L R.
  assert (G : (or_all (map i_mask ch) < 8)%N).
  { apply or_all_lt. rewrite List.Forall_map. eapply List.Forall_impl; [|exact R]. intros i Hi. apply (rg_mask i Hi). }
  destruct k as [|m| | |]; cbn [cell_mask]; try exact G; try (apply shiftr1_lt; exact G); [|lia].
  destruct L as (_ & L & _). lia.
Qed.

Lemma plain_regular e bits k ch :
  layout e bits (length ch) k -> (forall m, k <> KPruned m) -> Forall regular ch ->
  regular (Info (cell_mask k ch) (level_hash sha e bits k ch (cell_mask k ch))
      (fun l => max_all (map (fun d => d + 1)%N (sub_depths ch (l + k_merkle k))))).
Proof.
  intros L NP R. split; cbn [i_mask i_hash i_depth].
  - apply (cell_mask_lt e bits k ch L R).
  - intros l; destruct (level_hash_sha e bits k ch (cell_mask k ch) l) as (x & ->); apply Hsha.
  - intros l; destruct (level_hash_sha e bits k ch (cell_mask k ch) l) as (x & ->); apply Hsha.
  - intros l E; cbn [level_hash]; rewrite E; reflexivity.
  - intros l E; pose proof (child_mask_ok e bits k ch l L NP E) as C.
    unfold sub_depths; rewrite !map_map; apply max_all_map_ext.
    eapply List.Forall_impl; [|apply (List.Forall_and R C)].
    intros i (Ri & Ci). cbn beta. f_equal. apply (rg_depth i Ri). exact Ci.
Qed.
Lemma cell_info_regular e bits ch :
  layout e bits (length ch) (kind_of e bits) -> Forall regular ch -> regular (cell_info sha e bits ch).
Proof.
  intros L R. pose proof (cell_mask_lt e bits _ ch L R) as Hm.
  unfold cell_info. destruct (kind_of e bits) as [|m| | |] eqn:K.
  2:{ destruct L as (_ & L1 & _ & L2 & _ & _). pose proof (pruned_len bits m L2) as LD.
    split; cbn [i_mask i_hash i_depth]; [lia| | | |].
    - intros l. destruct (Nat.ltb_spec (bits_in m l) (bits_in m 3)); [|apply Hsha]. apply length_take_drop. lia.
    - intros l. destruct (Nat.ltb_spec (bits_in m l) (bits_in m 3)); [|apply Hsha].
      apply Forall_take, Forall_drop, data_bytes_ok.
    - intros l E. rewrite bits_in_S, E, Nat.add_0_r. reflexivity.
    - intros l E. rewrite bits_in_S, E, Nat.add_0_r. reflexivity. }
  all: apply plain_regular; [assumption|discriminate|assumption].
Qed.

Lemma info_regular t : valid_tree t -> regular (info_of sha t).
Proof.
  induction t as [e bits refs IH] using cell_tree_ind. intros V. inversion V as [? ? ? H1 H2 H3 H4]; subst. cbn [info_of].
  apply cell_info_regular; [rewrite map_length; exact H3|].
  rewrite List.Forall_map. clear -IH H4. induction IH as [|x r Hx IH' IHr]; [constructor|]. inversion H4; subst. constructor; auto.
Qed.

(** ** The checks of [compute_hashes] *)
Definition ty_of (k : kind) : cell_type :=
  match k with KOrdinary => Ordinary | KPruned _ => PrunedBranch | KLibrary => LibraryReference | KProof => MerkleProof | KUpdate => MerkleUpdate end.

Lemma kind_of_exotic bits :
  let b := byte_at 0 bits in
  kind_of true bits = if (b =? 1)%N then KPruned (byte_at 1 bits) else if (b =? 2)%N then KLibrary
                      else if (b =? 3)%N then KProof else if (b =? 4)%N then KUpdate else KOrdinary.
Proof. cbn zeta. unfold kind_of. destruct (byte_at 0 bits) as [|[[p|p|]|[p|[p|p|]|]|]]; reflexivity. Qed.
Lemma layout_long bits n k : layout true bits n k -> 16 <= length bits.
Proof. destruct k as [|m| | |]; cbn [layout]; intros L; destruct_and?; try discriminate; lia. Qed.

Lemma check_spec d1 bits refs ch :
  (d1 < 256)%N -> d_refs d1 = N.of_nat (length refs) -> length refs <= 4 -> length bits <= 1023 -> length ch = length refs ->
  children_mask refs = or_all (map i_mask ch) ->
  let k := kind_of (d_exotic d1) bits in
  let ok := layout (d_exotic d1) bits (length refs) k /\ d_mask d1 = cell_mask k ch in
  let r := check_type d1 (N.of_nat (length bits)) (children_mask refs) refs (data_bytes bits) in
  (ok /\ r = Ok (ty_of k, d_mask d1)) \/ (~ ok /\ (r = Err InvalidCell \/ exists ty m, r = Ok (ty, m) /\ m <> d_mask d1)).
Proof.
  intros Hd Hr Hr4 Hb Hch Hcm. cbn zeta. rewrite Hcm. unfold check_type.
  pose proof (proj1 (proj2 (d1_split d1 Hd))) as Hm8.
  destruct (d_exotic d1) eqn:E.
  2:{ cbn [kind_of layout ty_of cell_mask].
    destruct (N.eq_dec (d_mask d1) (or_all (map i_mask ch))) as [D|D].
    - left. rewrite D. auto.
    - right. split; [tauto|]. right. eauto. }
  destruct (data_bytes bits) as [|first rest] eqn:ED.
  { right. split; [|left; reflexivity]. intros (L & _). apply (f_equal length) in ED. rewrite length_data in ED. cbn [length] in ED.
    assert (length bits = 0).
    { destruct (length bits) eqn:EE; [reflexivity|]. exfalso. assert (1 <= (S n + 7) / 8); [apply Nat.div_le_lower_bound; lia|lia]. }
    pose proof (layout_long _ _ _ L). lia. }
  assert (first_ok : 8 <= length bits -> first = byte_at 0 bits).
  { intros H8. pose proof (byte_at_data 0 bits ltac:(lia)) as F. rewrite ED in F. injection F as F. exact F. }
  assert (second_ok : 16 <= length bits -> nth 1 (first :: rest) 0%N = byte_at 1 bits).
  { intros H8. pose proof (byte_at_data 1 bits ltac:(lia)) as F. rewrite ED in F.
    destruct rest as [|y rest]; [discriminate|]. injection F as F. exact F. }
  assert (KO : kind_of true bits = KOrdinary -> ~ layout true bits (length refs) (kind_of true bits)).
  { intros ->. cbn [layout]. discriminate. }
  (* too short *)
  destruct (le_lt_dec 8 (length bits)) as [H8|H8].
  2:{ right. split.
    - intros (L & _). pose proof (layout_long _ _ _ L). lia.
    - left. unfold from_byte_exotic.
      destruct (first =? 1)%N; [|destruct (first =? 2)%N; [|destruct (first =? 3)%N; [|destruct (first =? 4)%N; [|reflexivity]]]].
      + destruct (lm_level (d_mask d1) =? 0)%N; [reflexivity|]. rewrite (proj2 (N.eqb_neq _ _)) by lia. reflexivity.
      + rewrite (proj2 (N.eqb_neq _ _)) by lia. reflexivity.
      + rewrite (proj2 (N.eqb_neq _ _)) by lia. reflexivity.
      + rewrite (proj2 (N.eqb_neq _ _)) by lia. reflexivity. }
  specialize (first_ok H8). rewrite kind_of_exotic in *. cbn zeta in *. rewrite <- first_ok in *.
  unfold from_byte_exotic.
  destruct (N.eqb_spec first 1) as [->|N1].
  { cbn [layout ty_of cell_mask].
    destruct (N.eqb_spec (lm_level (d_mask d1)) 0) as [LZ|LZ].
    { right. split; [|left; reflexivity]. intros ((_ & B & _) & D). rewrite <- D in B.
      revert B LZ. pattern (d_mask d1). apply (mask8 _ _ Hm8); intros B LZ; try discriminate LZ; lia. }
    rewrite level_of in * by exact Hm8.
    destruct (N.eqb_spec (N.of_nat (length bits)) (16 + N.of_nat (bits_in (d_mask d1) 3) * 272)) as [LB|LB]; cbn [negb orb].
    2:{ right. split; [|left; reflexivity]. intros ((_ & _ & _ & B & _) & D). rewrite <- D in B. lia. }
    destruct (N.eqb_spec (N.of_nat (length refs)) 0) as [LR|LR]; cbn [negb].
    2:{ right. split; [|left; reflexivity]. intros ((_ & _ & B & _) & D). lia. }
    rewrite second_ok by lia.
    destruct (N.eqb_spec (d_mask d1) (byte_at 1 bits)) as [LM|LM]; cbn [negb].
    2:{ right. split; [|left; reflexivity]. intros (_ & D). congruence. }
    left. split; [|reflexivity]. rewrite <- LM.
    assert ((0 < d_mask d1)%N) by (destruct (N.eq_dec (d_mask d1) 0) as [Z|Z]; [rewrite Z in LZ; exfalso; apply LZ; reflexivity|lia]).
    repeat split; lia. }
  destruct (N.eqb_spec first 2) as [->|N2].
  { cbn [layout ty_of cell_mask].
    destruct (N.eqb_spec (N.of_nat (length bits)) 264) as [LB|LB]; cbn [negb orb].
    2:{ right. split; [|left; reflexivity]. intros ((_ & _ & B & _) & D). lia. }
    destruct (N.eqb_spec (N.of_nat (length refs)) 0) as [LR|LR]; cbn [negb].
    2:{ right. split; [|left; reflexivity]. intros ((_ & B & _) & D). lia. }
    destruct (N.eq_dec (d_mask d1) 0) as [D|D].
    - left. rewrite D. repeat split; auto; lia.
    - right. split; [tauto|]. right. exists LibraryReference, 0%N. split; [reflexivity|congruence]. }
  destruct (N.eqb_spec first 3) as [->|N3].
  { cbn [layout ty_of cell_mask]. unfold lm_virtualize.
    destruct (N.eqb_spec (N.of_nat (length bits)) 280) as [LB|LB]; cbn [negb orb].
    2:{ right. split; [|left; reflexivity]. intros ((_ & _ & B & _) & D). lia. }
    destruct (N.eqb_spec (N.of_nat (length refs)) 1) as [LR|LR]; cbn [negb].
    2:{ right. split; [|left; reflexivity]. intros ((_ & B & _) & D). lia. }
    destruct (N.eq_dec (d_mask d1) (N.shiftr (or_all (map i_mask ch)) 1)) as [D|D].
    - left. rewrite D. repeat split; auto; lia.
    - right. split; [tauto|]. right. eexists _, _. split; [reflexivity|congruence]. }
  destruct (N.eqb_spec first 4) as [->|N4].
  { cbn [layout ty_of cell_mask]. unfold lm_virtualize.
    destruct (N.eqb_spec (N.of_nat (length bits)) 552) as [LB|LB]; cbn [negb orb].
    2:{ right. split; [|left; reflexivity]. intros ((_ & _ & B & _) & D). lia. }
    destruct (N.eqb_spec (N.of_nat (length refs)) 2) as [LR|LR]; cbn [negb].
    2:{ right. split; [|left; reflexivity]. intros ((_ & B & _) & D). lia. }
    destruct (N.eq_dec (d_mask d1) (N.shiftr (or_all (map i_mask ch)) 1)) as [D|D].
    - left. rewrite D. repeat split; auto; lia.
    - right. split; [tauto|]. right. eexists _, _. split; [reflexivity|congruence]. }
  right. split; [|left; reflexivity]. intros (L & _). discriminate L.
Qed.

(** ** The loop over the levels *)
Lemma over_iff ds : existsb (fun d => 65535 <=? d)%N ds = (65535 <? max_all (map (fun d => d + 1)%N ds))%N.
Proof.
  induction ds as [|d ds IH]; cbn [existsb map max_all fold_right]; [reflexivity|].
  rewrite IH. change (fold_right N.max 0%N ?x) with (max_all x). lia.
Qed.
Lemma hash_depths_spec refs ch (l : nat) acc :
  Forall2 agrees refs ch ->
  hash_depths refs (N.of_nat l) acc =
    let ds := sub_depths ch l in
    if (65535 <? max_all (map (fun d => d + 1)%N ds))%N then Err DepthOverflow
    else Ok (N.max acc (max_all (map (fun d => d + 1)%N ds)), concat (map (to_be 2) ds)).
Proof.
  cbn zeta. rewrite <- over_iff. intros H. revert acc. induction H as [|c i refs ch A H IH]; intros acc.
  - cbn [hash_depths sub_depths map existsb max_all fold_right concat]. rewrite N.max_0_r. reflexivity.
  - cbn [hash_depths sub_depths map existsb]. rewrite (ag_depth c i A l). cbn [rbind].
    destruct (65535 <=? i_depth i l)%N; cbn [orb]; [reflexivity|].
    rewrite IH. unfold sub_depths. destruct (existsb _ _); cbn [rbind]; [reflexivity|].
    cbn [map max_all fold_right concat]. rewrite N.max_assoc. reflexivity.
Qed.
Lemma hash_hashes_spec refs ch (l : nat) :
  Forall2 agrees refs ch -> hash_hashes refs (N.of_nat l) = Ok (concat (sub_hashes ch l)).
Proof.
  induction 1 as [|c i refs ch A H IH]; [reflexivity|].
  cbn [hash_hashes]. rewrite (ag_hash c i A l), IH. reflexivity.
Qed.

(** The levels of a mask: zero and the levels of its bits. *)
Definition sig_from (m : N) (j n : nat) : list nat := concat (map (fun l => if N.testbit m (N.of_nat l) then [S l] else []) (seq j n)).
Definition sig (m : N) : list nat := 0 :: sig_from m 0 3.

Section Loop.
Context (d1 : N) (bits : list bool) (refs : list fcell) (ch : list info) (k : kind).
Context (Hd : (d1 < 256)%N) (Hr : d_refs d1 = N.of_nat (length refs)) (Hb : length bits <= 1023)
  (Hag : Forall2 agrees refs ch) (NP : forall m, k <> KPruned m) (Hm : (cell_mask k ch < 8)%N).
Notation m := (cell_mask k ch).
Notation H := (level_hash sha (d_exotic d1) bits k ch m).
Notation D l := (max_all (map (fun d => d + 1)%N (sub_depths ch (l + k_merkle k)))).
Notation d2 := (compute_d2 (N.of_nat (length bits))).

Lemma not_pruned : is_pruned (ty_of k) = false.
Proof. destruct k; try reflexivity. destruct (NP mask eq_refl). Qed.
Lemma merkle_off : (if is_merkle (ty_of k) then 1 else 0)%N = N.of_nat (k_merkle k).
Proof. destruct k; reflexivity. Qed.
Lemma level_repr_eq l body depths hashes : 
  length depths = length refs ->
  repr (mask_upto l) (d_exotic d1) bits body depths hashes =
  [level_d1 d1 (lm_from_level (N.of_nat l)); d2] ++ body ++ concat (map (to_be 2) depths) ++ concat hashes.
Proof.
  intros L. unfold repr. rewrite L, from_level_of, level_d1_val, Hr, compute_d2_val by (assumption || apply mask_upto_lt). reflexivity.
Qed.
Lemma length_ch : length ch = length refs.
Proof. symmetry. exact (Forall2_length _ _ _ Hag). Qed.

Lemma hash_step (l : nat) levels hs (prev : list N) :
  (l <> 0 -> lm_contains m (N.of_nat l) = true /\ exists x, list.last hs = Some (prev, x)) ->
  hash_levels sha (N.of_nat l :: levels) (ty_of k) d1 d2 m refs (data_bytes bits) hs =
  if (65535 <? D l)%N then Err DepthOverflow
  else hash_levels sha levels (ty_of k) d1 d2 m refs (data_bytes bits)
         (hs ++ [(sha (level_repr (d_exotic d1) bits k ch l prev), D l)]).
Proof.
  intros P. cbn [hash_levels]. rewrite not_pruned, merkle_off. cbn [orb].
  replace (negb (N.of_nat l =? 0)%N && negb (lm_contains m (N.of_nat l))) with false.
  2:{ destruct (Nat.eq_dec l 0) as [->|Z]; [reflexivity|]. destruct (P Z) as (-> & _). rewrite andb_false_r. reflexivity. }
  rewrite <- Nat2N.inj_add, (hash_depths_spec refs ch (l + k_merkle k) 0 Hag), (hash_hashes_spec refs ch (l + k_merkle k) Hag).
  cbn zeta. unfold level_repr.
  rewrite level_repr_eq by (unfold sub_depths; rewrite map_length; apply length_ch).
  destruct (Nat.eq_dec l 0) as [->|Z].
  - cbn [N.of_nat N.eqb rbind Nat.eqb]. destruct (65535 <? _)%N; cbn [rbind]; [reflexivity|]. rewrite N.max_0_l. reflexivity.
  - destruct (P Z) as (_ & x & ->). rewrite (proj2 (N.eqb_neq _ _)) by lia. rewrite (proj2 (Nat.eqb_neq _ _) Z). cbn [of_opt rbind fst].
    destruct (65535 <? _)%N; cbn [rbind]; [reflexivity|]. rewrite N.max_0_l. reflexivity.
Qed.

Lemma hash_rest n j hs x :
  list.last hs = Some (H j, x) ->
  hash_levels sha (map (fun l => N.of_nat (S l)) (seq j n)) (ty_of k) d1 d2 m refs (data_bytes bits) hs =
  if existsb (fun l => 65535 <? D l)%N (sig_from m j n) then Err DepthOverflow
  else Ok (hs ++ map (fun l => (H l, D l)) (sig_from m j n)).
Proof.
  revert j hs x. induction n as [|n IH]; intros j hs x L.
  - cbn. rewrite app_nil_r. reflexivity.
  - unfold sig_from. cbn [seq map concat]. destruct (N.testbit m (N.of_nat j)) eqn:B.
    + rewrite (hash_step (S j) _ hs (H j)) by (intros _; split; [rewrite contains_of; assumption|eauto]).
      cbn [app existsb]. destruct (65535 <? D (S j))%N; cbn [orb]; [reflexivity|].
      rewrite (IH (S j) _ (D (S j))).
      2:{ rewrite last_snoc. cbn [level_hash]. rewrite B. reflexivity. }
      fold (sig_from m (S j) n). destruct (existsb _ _); [reflexivity|]. cbn [map]. rewrite <- app_assoc. cbn [app level_hash]. rewrite B. reflexivity.
    + cbn [hash_levels]. rewrite not_pruned, contains_of, B by assumption.
      rewrite (proj2 (N.eqb_neq _ _)) by lia. cbn [negb andb orb app].
      apply (IH (S j) hs x). rewrite L. cbn [level_hash]. rewrite B. reflexivity.
Qed.
Lemma hash_loop :
  hash_levels sha [0; 1; 2; 3]%N (ty_of k) d1 d2 m refs (data_bytes bits) [] =
  if existsb (fun l => 65535 <? D l)%N (sig m) then Err DepthOverflow
  else Ok (map (fun l => (H l, D l)) (sig m)).
Proof.
  change [0; 1; 2; 3]%N with (N.of_nat 0 :: map (fun l => N.of_nat (S l)) (seq 0 3)).
  rewrite (hash_step 0 _ [] []) by congruence. unfold sig. cbn [existsb map].
  destruct (65535 <? D 0)%N; cbn [orb]; [reflexivity|]. cbn [app].
  rewrite (hash_rest 3 0 _ (D 0)) by reflexivity. destruct (existsb _ _); reflexivity.
Qed.
End Loop.

(** For a pruned branch only level 0 is hashed. *)
Lemma hash_pruned d1 bits m :
  (d1 < 256)%N -> d_refs d1 = 0%N -> d_exotic d1 = true -> length bits <= 1023 -> (m < 8)%N ->
  hash_levels sha [0; 1; 2; 3]%N PrunedBranch d1 (compute_d2 (N.of_nat (length bits))) m [] (data_bytes bits) [] =
  Ok [(sha (pruned_repr bits m), 0%N)].
Proof.
  intros Hd Hr He Hb Hm. cbn [hash_levels is_pruned negb andb orb N.eqb rbind hash_depths hash_hashes is_merkle].
  unfold pruned_repr, repr. rewrite level_d1_val, Hr, He, compute_d2_val by assumption. cbn [length map concat app]. reflexivity.
Qed.

(** ** The cell that results *)
Lemma sig_from_app m j a b : sig_from m j (a + b) = sig_from m j a ++ sig_from m (j + a) b.
Proof. unfold sig_from. rewrite seq_app, map_app, concat_app. reflexivity. Qed.
Lemma length_sig_from m n : length (sig_from m 0 n) = bits_in m n.
Proof.
  induction n as [|n IH]; [reflexivity|]. rewrite bits_in_S, <- IH. replace (S n) with (n + 1) by lia.
  rewrite sig_from_app, app_length. f_equal. unfold sig_from. cbn [plus seq map concat]. rewrite app_nil_r. destruct (N.testbit _ _); reflexivity.
Qed.
Lemma sig_lookup {A} (f : nat -> A) m l : (m < 8)%N ->
  (forall l, N.testbit m (N.of_nat l) = false -> f (S l) = f l) ->
  map f (sig m) !! bits_in m l = Some (f l).
Proof.
  intros Hm Hf.
  assert (G : forall l, l <= 3 -> map f (sig m) !! bits_in m l = Some (f l)).
  { clear l. induction l as [|l IH]; intros Hl; [reflexivity|].
    destruct (N.testbit m (N.of_nat l)) eqn:B.
    - unfold sig. replace 3 with (l + (1 + (2 - l))) by lia. rewrite !sig_from_app. rewrite bits_in_S, B, Nat.add_1_r. cbn [map].
      change ((f 0 :: ?x) !! S ?n) with (x !! n). rewrite !map_app.
      rewrite lookup_app_r by (rewrite map_length, length_sig_from; lia). rewrite map_length, length_sig_from, Nat.sub_diag.
      unfold sig_from at 1. cbn [plus seq map concat]. rewrite B. reflexivity.
    - rewrite bits_in_S, B, Nat.add_0_r, (Hf l B). apply IH. lia. }
  destruct (le_lt_dec 3 l) as [Hl|Hl]; [|apply G; lia].
  rewrite bits_in_above by assumption. rewrite (G 3) by lia. f_equal.
  clear G. induction l as [|l IH]; [lia|]. destruct (Nat.eq_dec l 2) as [->|Z]; [reflexivity|].
  rewrite (Hf l) by (apply mask_high; lia). apply IH. lia.
Qed.
Lemma sig_bound m : Forall (fun l => l <= 3) (sig m).
Proof.
  unfold sig, sig_from. constructor; [lia|]. cbn [seq map concat].
  repeat (apply Forall_app; split); try destruct (N.testbit _ _); repeat constructor; lia.
Qed.
Lemma sig_exists (f : nat -> N) m : (m < 8)%N ->
  (forall l, N.testbit m (N.of_nat l) = false -> f (S l) = f l) ->
  existsb (fun l => 65535 <? f l)%N (sig m) = existsb (fun l => 65535 <? f l)%N [0; 1; 2; 3].
Proof.
  intros Hm Hf. apply eq_iff_eq_true. rewrite !existsb_exists. split.
  - intros (l & I & E). exists l. split; [|exact E].
    pose proof (proj1 (List.Forall_forall _ _) (sig_bound m) l I) as B. cbn beta in B.
    destruct l as [|[|[|[|]]]]; cbn; try tauto; lia.
  - intros (l & I & E).
    pose proof (sig_lookup f m l Hm Hf) as L. apply elem_of_list_lookup_2, elem_of_list_In, in_map_iff in L.
    destruct L as (l' & F & I'). exists l'. split; [exact I'|]. rewrite F. exact E.
Qed.
Lemma hash_all (f : nat -> list N) : (forall l, f (S l) = f l) -> forall l, f l = f 0.
Proof. intros H l. induction l as [|l IH]; [reflexivity|]. rewrite H. exact IH. Qed.

Lemma d_type_of d1 bits n k ch :
  (d1 < 256)%N -> d_refs d1 = N.of_nat n -> layout (d_exotic d1) bits n k -> d_mask d1 = cell_mask k ch -> d_type d1 = ty_of k.
Proof.
  intros Hd Hr L Hm.
  assert (Z : (N.land d1 224 =? 0)%N = (d_mask d1 =? 0)%N).
  { pose proof (seqN_all 256 (fun d1 => Bool.eqb (N.land d1 224 =? 0)%N (d_mask d1 =? 0)%N) ltac:(vm_compute; reflexivity) d1 Hd) as Q.
    apply Bool.eqb_prop in Q. exact Q. }
  unfold d_type. rewrite Hr, Z, Hm.
  destruct k as [|m| | |]; cbn [layout cell_mask ty_of] in *; destruct_and?.
  - rewrite L. reflexivity.
  - replace (d_exotic d1) with true by congruence. subst n. change (N.of_nat 0 =? 0)%N with true. cbn [negb]. rewrite (proj2 (N.eqb_neq m 0)) by lia. reflexivity.
  - replace (d_exotic d1) with true by congruence. subst n. reflexivity.
  - replace (d_exotic d1) with true by congruence. subst n. reflexivity.
  - replace (d_exotic d1) with true by congruence. subst n. reflexivity.
Qed.

Lemma rdn_some (d : list N) q n : q + n <= length d -> rdn d q n = Some (take n (drop q d)).
Proof. intros H. unfold rdn. rewrite (proj2 (Nat.leb_le _ _) H). reflexivity. Qed.

Lemma compute_spec d1 bits refs ch :
  (d1 < 256)%N -> d_refs d1 = N.of_nat (length refs) -> length refs <= 4 -> length bits <= 1023 ->
  Forall2 agrees refs ch -> Forall regular ch ->
  let e := d_exotic d1 in
  let n := N.of_nat (length bits) in
  let i := cell_info sha e bits ch in
  let ok := layout e bits (length refs) (kind_of e bits) /\ d_mask d1 = i_mask i in
  let r := compute_hashes sha d1 (compute_d2 n) n (children_mask refs) refs (data_bytes bits) in
  (ok /\ regular i /\
   exists hs, r = (if existsb (fun l => 65535 <? i_depth i l)%N [0; 1; 2; 3] then Err DepthOverflow else Ok hs) /\
              agrees (FCell d1 (compute_d2 n) n (data_bytes bits) refs hs) i)
  \/ (~ ok /\ r = Err InvalidCell).
Proof.
  intros Hd Hr Hr4 Hb Hag Hrg. cbn zeta.
  pose proof (eq_sym (Forall2_length _ _ _ Hag)) as Hlen.
  assert (Hcm : children_mask refs = or_all (map i_mask ch)).
  { rewrite children_mask_of. f_equal. clear -Hag. induction Hag as [|c i refs ch A H IH]; [reflexivity|]. cbn [map]. rewrite IH, (ag_mask c i A). reflexivity. }
  assert (Hmask : i_mask (cell_info sha (d_exotic d1) bits ch) = cell_mask (kind_of (d_exotic d1) bits) ch).
  { unfold cell_info. destruct (kind_of (d_exotic d1) bits); reflexivity. }
  unfold compute_hashes.
  destruct (check_spec d1 bits refs ch Hd Hr Hr4 Hb Hlen Hcm) as [((L & M) & ->)|(NO & C)].
  2:{ right. rewrite Hmask. split; [exact NO|]. destruct C as [->|(ty & m & -> & Hm)]; [reflexivity|]. cbn [rbind].
    rewrite (proj2 (N.eqb_neq _ _) Hm). reflexivity. }
  left. rewrite Hmask. split; [auto|].
  rewrite <- Hlen in L.
  pose proof (cell_info_regular (d_exotic d1) bits ch L Hrg) as RG. split; [exact RG|].
  cbn [rbind]. rewrite N.eqb_refl. cbn [negb].
  pose proof (d_type_of d1 bits (length refs) (kind_of (d_exotic d1) bits) ch Hd Hr ltac:(rewrite <- Hlen; exact L) M) as DT.
  pose proof (rg_mask _ RG) as M8. rewrite Hmask in M8.
  remember (kind_of (d_exotic d1) bits) as k eqn:K. symmetry in K.
  assert (PC : (exists m, k = KPruned m) \/ forall m, k <> KPruned m) by (destruct k; eauto; right; discriminate).
  destruct PC as [(m & ->)|NP].
  - (* a pruned branch *)
    cbn [ty_of layout cell_mask] in *. destruct L as (L1 & L2 & L3 & L4 & L5 & L6).
    assert (refs = []) by (destruct refs; [reflexivity|]; rewrite L3 in Hlen; discriminate). subst refs.
    exists [(sha (pruned_repr bits m), 0%N)].
    pose proof (pruned_len bits m L4) as LD.
    assert (IH : forall l, i_hash (cell_info sha (d_exotic d1) bits ch) l = if bits_in m l <? bits_in m 3 then take 32 (drop (2 + 32 * bits_in m l) (data_bytes bits)) else sha (pruned_repr bits m)).
    { intros l. unfold cell_info. rewrite K. reflexivity. }
    assert (ID : forall l, i_depth (cell_info sha (d_exotic d1) bits ch) l = if bits_in m l <? bits_in m 3 then from_be (take 2 (drop (2 + 32 * bits_in m 3 + 2 * bits_in m l) (data_bytes bits))) else 0%N).
    { intros l. unfold cell_info. rewrite K. reflexivity. }
    split.
    + rewrite M. rewrite hash_pruned by (try assumption; try reflexivity; rewrite Hr; reflexivity).
      replace (existsb _ _) with false; [reflexivity|]. symmetry. apply not_true_iff_false. rewrite existsb_exists. intros (l & _ & E).
      apply N.ltb_lt in E. rewrite ID in E. destruct (bits_in m l <? bits_in m 3) eqn:B; [|lia]. apply Nat.ltb_lt in B.
      pose proof (from_be_lt (take 2 (drop (2 + 32 * bits_in m 3 + 2 * bits_in m l) (data_bytes bits))) ltac:(apply Forall_take, Forall_drop, data_bytes_ok)) as F.
      rewrite length_take_drop in F by lia. change (2 ^ N.of_nat (8 * 2))%N with 65536%N in F. lia.
    + assert (FM : f_mask (FCell d1 (compute_d2 (N.of_nat (length bits))) (N.of_nat (length bits)) (data_bytes bits) [] [(sha (pruned_repr bits m), 0%N)]) = m) by exact M.
      split; [rewrite FM; symmetry; exact Hmask| |]; intros l.
      * unfold f_hash. cbn [f_d1]. rewrite DT, FM. rewrite hash_index_of, level_of by assumption. rewrite IH.
        destruct (Nat.ltb_spec (bits_in m l) (bits_in m 3)).
        -- rewrite (proj2 (N.eqb_neq _ _)) by lia. cbn [f_data].
           replace (N.to_nat (2 + N.of_nat (bits_in m l) * 32)) with (2 + 32 * bits_in m l) by lia.
           rewrite rdn_some by lia. reflexivity.
        -- assert (bits_in m l = bits_in m 3).
           { destruct (le_lt_dec 3 l) as [Hl|Hl]; [apply bits_in_above; assumption|].
             pose proof (bits_in_le m l 3 ltac:(lia)). lia. }
           replace (N.of_nat (bits_in m l) =? N.of_nat (bits_in m 3))%N with true by (symmetry; apply N.eqb_eq; congruence). reflexivity.
      * unfold f_depth. cbn [f_d1]. rewrite DT, FM. rewrite hash_index_of, level_of by assumption. rewrite ID.
        destruct (Nat.ltb_spec (bits_in m l) (bits_in m 3)).
        -- rewrite (proj2 (N.eqb_neq _ _)) by lia. cbn [f_data].
           replace (N.to_nat (2 + N.of_nat (bits_in m 3) * 32 + N.of_nat (bits_in m l) * 2)) with (2 + 32 * bits_in m 3 + 2 * bits_in m l) by lia.
           rewrite rdn_some by lia. reflexivity.
        -- assert (bits_in m l = bits_in m 3).
           { destruct (le_lt_dec 3 l) as [Hl|Hl]; [apply bits_in_above; assumption|].
             pose proof (bits_in_le m l 3 ltac:(lia)). lia. }
           replace (N.of_nat (bits_in m l) =? N.of_nat (bits_in m 3))%N with true by (symmetry; apply N.eqb_eq; congruence). reflexivity.
  - (* other cells *)
    rewrite M. rewrite (hash_loop d1 bits refs ch k Hd Hr Hb Hag NP M8).
    set (H := level_hash sha (d_exotic d1) bits k ch (cell_mask k ch)).
    set (D := fun l => max_all (map (fun d => (d + 1)%N) (sub_depths ch (l + k_merkle k)))).
    assert (CI : cell_info sha (d_exotic d1) bits ch = Info (cell_mask k ch) H D).
    { unfold cell_info. rewrite K. destruct k; try reflexivity. destruct (NP mask eq_refl). }
    rewrite CI in *. cbn [i_mask i_hash i_depth] in *.
    exists (map (fun l => (H l, D l)) (sig (cell_mask k ch))).
    pose proof (rg_hash _ RG) as RH. pose proof (rg_depth _ RG) as RD. cbn [i_mask i_hash i_depth] in RH, RD.
    split.
    + rewrite <- (sig_exists D (cell_mask k ch) M8 RD). reflexivity.
    + assert (LK : forall l, map (fun l => (H l, D l)) (sig (cell_mask k ch)) !! bits_in (cell_mask k ch) l = Some (H l, D l)).
      { intros l. apply (sig_lookup (fun l => (H l, D l))); [assumption|]. intros l' B. rewrite RH, RD by assumption. reflexivity. }
      assert (LD : forall l, level_descr (FCell d1 (compute_d2 (N.of_nat (length bits))) (N.of_nat (length bits)) (data_bytes bits) refs (map (fun l => (H l, D l)) (sig (cell_mask k ch)))) (N.of_nat l) = Ok (H l, D l)).
      { intros l. unfold level_descr, f_mask. cbn [f_d1 f_hashes]. rewrite M, hash_index_of, Nat2N.id, LK by assumption. reflexivity. }
      split; cbn [i_mask i_hash i_depth]; [exact M| |]; intros l; unfold f_hash, f_depth; cbn [f_d1]; rewrite DT.
      * destruct k as [|m| | |]; cbn [ty_of]; try (rewrite LD; reflexivity); [destruct (NP m eq_refl)|].
        cbn [f_hashes sig map of_opt]. change ((?x :: ?y) !! 0) with (Some x). cbn [of_opt rbind fst].
        rewrite (hash_all H (fun l' => RH l' (N.bits_0 (N.of_nat l'))) l). reflexivity.
      * destruct k as [|m| | |]; cbn [ty_of]; try (rewrite LD; reflexivity); [destruct (NP m eq_refl)|].
        destruct L as (_ & L & _). destruct ch; [reflexivity|discriminate].
Qed.
End Sha.
