(** * C79: typed dictionaries built and changed in bulk are those of single updates *)
From Coq Require Import Sorting.Sorted.
From Verif Require Import Err BitsProofs IntModel NumModel AddrModel AddrSpec CellModel DictModel DictSpec DictTree DictProofs DictProps BuildModel BuildProps ModifyModel ModifyProps ChunkModel
  TypedModel TypedSpec TypedProofs TypedProofs2 TypedProps TypedBulkModel TypedBulkSpec TypedBulkProofs.
Local Open Scope nat_scope.

(** ** Which keys are compared as their bits are *)
Lemma pair_compare_num a b c d w : (b < w)%N -> (d < w)%N -> (match a ?= c with Eq => b ?= d | x => x end = (a * w + b ?= c * w + d))%N.
Proof.
  intros Hb Hd. destruct (N.compare_spec a c) as [->|L|L]; symmetry.
  - destruct (N.compare_spec b d); [apply N.compare_eq_iff|apply N.compare_lt_iff|apply N.compare_gt_iff]; lia.
  - apply N.compare_lt_iff. assert (a + 1 <= c)%N by lia. nia.
  - apply N.compare_gt_iff. assert (c + 1 <= a)%N by lia. nia.
Qed.
Lemma lex_num : forall a b, length a = length b -> Forall byte_ok a -> Forall byte_ok b -> lex_compare a b = (bval (bytes_bits a) ?= bval (bytes_bits b))%N.
Proof.
  induction a as [|x a IH]; intros [|y b] L Fa Fb; try discriminate; [reflexivity|]. inversion Fa; inversion Fb; subst. injection L as L. cbn [lex_compare].
  rewrite (IH b L) by assumption.
  assert (X : forall z l, byte_ok z -> Forall byte_ok l -> bval (bytes_bits (z :: l)) = (z * 2 ^ N.of_nat (8 * length l) + bval (bytes_bits l))%N).
  { intros z l Hz Hl. change (bytes_bits (z :: l)) with (nbits 8 z ++ bytes_bits l). rewrite bval_app, length_bytes_bits, bval_nbits_small by exact Hz. reflexivity. }
  rewrite !X by assumption. rewrite L. apply pair_compare_num; [rewrite <- L|]; rewrite <- length_bytes_bits; apply bval_lt.
Qed.
Lemma number_bit_order {K} (kd : key_kind K) ok num : number_key kd ok false num -> bit_order kd ok (fun a b => (num a ?= num b)%Z).
Proof. intros H k k' b b' Hk Hk' S S'. rewrite (H k b Hk S), (H k' b' Hk' S'). reflexivity. Qed.
(** Booleans, unsigned numbers, arrays of bytes and pairs of unsigned numbers. *)
Theorem C79_orders :
  bit_order bool_key (fun _ => True) bool_compare /\
  (forall n, n <= 127 -> bit_order (uint_key n) (fun x => (x < 2 ^ N.of_nat (8 * n))%N) N.compare) /\
  (forall n, 1 <= n <= 16 -> bit_order (small_key n) (fun x => (x < 2 ^ N.of_nat n)%N) N.compare) /\
  (forall n, n <= 127 -> bit_order (bytes_key n) (fun x => length x = n /\ Forall byte_ok x) lex_compare) /\
  bit_order pair_key (fun x => (fst x < 2 ^ 64)%N /\ (snd x < 2 ^ 32)%N) pair_compare.
Proof.
  split; [intros [] [] b b' _ _ [= <-] [= <-]; reflexivity|].
  split; [intros n Hn k k' b b' Hk Hk' S S'; rewrite <- N2Z.inj_compare; exact (number_bit_order _ _ _ (uint_number n Hn) k k' b b' Hk Hk' S S')|].
  split; [intros n Hn k k' b b' Hk Hk' S S'; rewrite <- N2Z.inj_compare; exact (number_bit_order _ _ _ (small_number n Hn) k k' b b' Hk Hk' S S')|].
  split.
  - intros n Hn k k' b b' [L F] [L' F'] S S'. cbn [k_store bytes_key] in S, S'. rewrite put_nil in S by (rewrite length_bytes_bits; lia). rewrite put_nil in S' by (rewrite length_bytes_bits; lia).
    apply ok_inj in S, S'. subst b b'. rewrite !key_num_unsigned, N2Z.inj_compare. apply lex_num; [congruence|exact F|exact F'].
  - intros [a b] [c d] x y [Ha Hb] [Hc Hd] S S'. cbn [fst snd] in *. rewrite (proj1 (proj2 (proj2 C78_bits))) in S, S'. apply ok_inj in S, S'. subst x y.
    rewrite !key_num_unsigned, N2Z.inj_compare, !bval_app, !length_nbits, !bval_nbits_small by assumption. unfold pair_compare. cbn [fst snd]. apply pair_compare_num; assumption.
Qed.
Lemma mod_sign w z : (0 < w)%Z -> AddrSpec.in_int w z -> (z mod 2 ^ w = if z <? 0 then z + 2 ^ w else z)%Z.
Proof.
  unfold AddrSpec.in_int. intros Hw H. assert (P : (2 ^ w = 2 * 2 ^ (w - 1))%Z) by (rewrite <- Z.pow_succ_r by lia; f_equal; lia).
  destruct (Z.ltb_spec z 0); [symmetry; apply (Z.mod_unique_pos _ _ (-1)); lia|apply Z.mod_small; lia].
Qed.
Lemma mod_compare w z z' : (0 < w)%Z -> AddrSpec.in_int w z -> AddrSpec.in_int w z' -> (z <? 0)%Z = (z' <? 0)%Z -> (z ?= z' = (z mod 2 ^ w ?= z' mod 2 ^ w))%Z.
Proof.
  intros Hw H H' S. rewrite (mod_sign w z Hw H), (mod_sign w z' Hw H'), S. destruct (z' <? 0)%Z; [|reflexivity]. symmetry. rewrite (Z.add_comm z), (Z.add_comm z'). apply Zcompare_plus_compat.
Qed.
Lemma int_bval w z : Z.of_N (bval (int_bits w z)) = (z mod 2 ^ Z.of_nat w)%Z.
Proof.
  pose proof (Z.mod_pos_bound z (2 ^ Z.of_nat w) ltac:(apply Z.pow_pos_nonneg; lia)) as B. unfold int_bits. rewrite bval_nbits_small; [apply Z2N.id; lia|].
  apply N2Z.inj_lt. rewrite Z2N.id, N2Z.inj_pow, nat_N_Z by lia. exact (proj2 B).
Qed.
(** Signed numbers that have the same sign, and addresses whose workchains have. *)
Theorem C79_same_sign :
  (forall n negative, 1 <= n <= 127 -> bit_order (int_key n) (fun z => AddrSpec.in_int (Z.of_nat (8 * n)) z /\ (z <? 0)%Z = negative) Z.compare) /\
  (forall negative, bit_order addr_key (fun a => (sa_anycast a = None /\ exists x, std_tlb a x) /\ (sa_wc a <? 0)%Z = negative) addr_compare).
Proof.
  split.
  - intros n neg Hn k k' b b' [Hk N] [Hk' N'] S S'. cbn [k_store int_key] in S, S'. rewrite put_nbits in S by (cbn [length]; lia). rewrite put_nbits in S' by (cbn [length]; lia).
    rewrite CodecProofs.as_unsigned_bits in S, S'. apply ok_inj in S, S'. subst b b'. cbn [app]. rewrite !key_num_unsigned, !int_bval. apply mod_compare; [lia|assumption|assumption|congruence].
  - intros neg a a' b b' [[N [x H]] Q] [[N' [x' H']] Q'] S S'. cbn [k_store addr_key] in S, S'. rewrite (AddrProps.C38_key_store a x [] H), N in S. rewrite (AddrProps.C38_key_store a' x' [] H'), N' in S'.
    apply ok_inj in S, S'. subst b b'. destruct H as [ac y wc id Hm Hw F L]. destruct H' as [ac' y' wc' id' Hm' Hw' F' L']. cbn [sa_anycast sa_wc] in *. subst ac ac'. inversion Hm; inversion Hm'; subst.
    unfold addr_compare. cbn [sa_wc sa_addr app]. rewrite (lex_num id id') by (assumption || congruence). rewrite (mod_compare 8 wc wc') by (assumption || lia || congruence).
    change 8%Z with (Z.of_nat 8). rewrite <- !int_bval, !key_num_unsigned, !N2Z.inj_compare.
    change (true :: false :: false :: int_bits 8 wc ++ bytes_bits id) with ([true; false; false] ++ int_bits 8 wc ++ bytes_bits id).
    change (true :: false :: false :: int_bits 8 wc' ++ bytes_bits id') with ([true; false; false] ++ int_bits 8 wc' ++ bytes_bits id').
    rewrite (bval_app [true; false; false]), (bval_app [true; false; false] (int_bits 8 wc' ++ _)), !app_length, !length_bytes_bits, L, L'. change (length (int_bits 8 wc)) with 8. change (length (int_bits 8 wc')) with 8.
    rewrite !bval_app, !length_bytes_bits, L, L'.
    rewrite (pair_compare_num (bval (int_bits 8 wc)) (bval (bytes_bits id)) (bval (int_bits 8 wc')) (bval (bytes_bits id')) (2 ^ N.of_nat (8 * 32))).
    + generalize (bval [true; false; false] * 2 ^ N.of_nat (8 + 8 * 32))%N. intros c. match goal with |- (?x ?= ?y)%N = _ => generalize x, y end. intros x y. rewrite <- !N2Z.inj_compare, !(N2Z.inj_add c). symmetry. apply Zcompare_plus_compat.
    + rewrite <- L, <- length_bytes_bits. apply bval_lt.
    + rewrite <- L', <- length_bytes_bits. apply bval_lt.
Qed.
Print Assumptions C79_orders.
Print Assumptions C79_same_sign.

Section Map.
Context {K V : Type} (E : EqDecision K) (kd : key_kind K) (ok : K -> Prop) (G : good_key kd ok).
(** [p] are the keys that are built or changed, compared as their bits are. *)
Context (p : K -> Prop) (PO : forall k, p k -> ok k) (cmp : K -> K -> comparison) (O : bit_order kd p cmp).
Context (enc : V -> chunk) (load : chunk -> res (V * chunk)) (fin : list bool -> list cell -> res unit).
Notation typed_history := (typed_history E kd ok enc load fin).

(** ** Building *)
(** What is built from entries in order has these entries; of several with the same key it has the
    first. *)
Theorem C79_build l d : Forall (fun x => p (fst x) /\ value_ok enc load (snd x)) l -> Sorted (fun x y => cmp (fst x) (fst y) <> Gt) l ->
  typed_build kd cmp enc fin l = Ok d -> forall k, ok k -> typed_get kd load d k = Ok (listed E l k).
Proof.
  intros W S B k Hk. apply Forall_and in W as [W1 W2]. destruct (store_all_ok kd ok G p PO enc l W1) as (es & Es & F). rewrite (typed_build_eq kd ok G p PO cmp O enc fin l es F Es) in B.
  assert (N : nondecreasing false es).
  { revert S. apply (sorted_image (stored_as kd p enc)); [|exact F]. intros x y x' y' (A1 & A2 & _) (B1 & B2 & _) L. rewrite (O _ _ _ _ A1 B1 A2 B2) in L. apply Z.compare_le_iff, L. }
  destruct (C26_build fin _ es d (proj1 G) (stored_width kd ok G p PO enc l es F) N B) as (es' & D & M).
  apply (get_rep kd ok G enc load fin d es' (listed E l) k D); [|exact Hk]. rewrite M. apply (rep_listed E kd ok G p PO enc load l es F W2).
Qed.
(** It is the very dictionary that any updates which lead to the same entries give. *)
Theorem C79_root l d f : Forall (fun x => p (fst x) /\ value_ok enc load (snd x)) l -> Sorted (fun x y => cmp (fst x) (fst y) <> Gt) l ->
  typed_history d f -> (forall k, f k = listed E l k) -> typed_build kd cmp enc fin l = Ok d.
Proof.
  intros W S H X. apply Forall_and in W as [W1 W2]. destruct (store_all_ok kd ok G p PO enc l W1) as (es & Es & F). rewrite (typed_build_eq kd ok G p PO cmp O enc fin l es F Es).
  assert (N : nondecreasing false es).
  { revert S. apply (sorted_image (stored_as kd p enc)); [|exact F]. intros x y x' y' (A1 & A2 & _) (B1 & B2 & _) L. rewrite (O _ _ _ _ A1 B1 A2 B2) in L. apply Z.compare_le_iff, L. }
  apply (C26_same_root fin _ es d (proj1 G) (stored_width kd ok G p PO enc l es F) N). destruct (typed_rep E kd ok G enc load fin d f H) as (m & Hm & R).
  rewrite <- (rep_same kd ok enc load (listed E l) m (dmap es)); [exact Hm| |apply (rep_listed E kd ok G p PO enc load l es F W2)].
  exact (rep_ext kd ok enc load f (listed E l) m R X).
Qed.
(** Entries that fit can be built. *)
Theorem C79_build_succeeds l : (forall b r, length b <= 1023 -> length r <= 4 -> fin b r = Ok tt) ->
  Forall (fun x => p (fst x)) l -> Sorted (fun x y => cmp (fst x) (fst y) <> Gt) l -> Forall (fun x => fits (k_bits kd) (enc (snd x))) l ->
  exists d, typed_build kd cmp enc fin l = Ok d.
Proof.
  intros HF W S FT. destruct (store_all_ok kd ok G p PO enc l W) as (es & Es & F). rewrite (typed_build_eq kd ok G p PO cmp O enc fin l es F Es).
  apply (C26_build_succeeds fin _ es HF (proj1 G) (stored_width kd ok G p PO enc l es F)).
  - revert S. apply (sorted_image (stored_as kd p enc)); [|exact F]. intros x y x' y' (A1 & A2 & _) (B1 & B2 & _) L. rewrite (O _ _ _ _ A1 B1 A2 B2) in L. apply Z.compare_le_iff, L.
  - clear Es S W. induction F as [|x y l es (_ & _ & X) F IH]; [constructor|]. inversion FT; subst. constructor; [destruct y as [b c]; cbn [fst snd] in X |- *; subst c; assumption|apply IH; assumption].
Qed.
(** Entries out of order, or a key that has no bits, are errors. *)
Theorem C79_build_errors l :
  (Forall (fun x => p (fst x)) l -> ~ Sorted (fun x y => cmp (fst x) (fst y) <> Gt) l -> exists e, typed_build kd cmp enc fin l = Err e) /\
  (forall k v e, In (k, v) l -> k_store kd k = Err e -> exists e', typed_build kd cmp enc fin l = Err e').
Proof.
  split.
  - intros W S. destruct (store_all_ok kd ok G p PO enc l W) as (es & Es & F). rewrite (typed_build_eq kd ok G p PO cmp O enc fin l es F Es).
    apply (C26_unsorted_rejected fin _ es (stored_width kd ok G p PO enc l es F)). intros N. apply S. revert N.
    apply (sorted_image (fun y x => stored_as kd p enc x y)); [|exact (sorted_flip _ _ _ F)]. intros y x y' x' (A1 & A2 & _) (B1 & B2 & _) L. rewrite (O _ _ _ _ A1 B1 A2 B2). apply Z.compare_le_iff, L.
  - intros k v e I Hk. unfold typed_build. assert (X : exists e', store_all kd enc l = Err e').
    { clear O. induction l as [|[k' v'] l IH]; [destruct I|]. cbn [store_all]. destruct I as [[= -> ->]|I]; [rewrite Hk; eauto|].
      destruct (k_store kd k'); cbn [rbind]; [|eauto]. destruct (IH I) as (e' & ->). eauto. }
    destruct X as (e' & ->). eauto.
Qed.

(** ** Changing *)
(** Changes in order lead to the entries to which the same changes of a partial function lead, *)
Theorem C79_modify d f l flag d' : typed_history d f ->
  Forall (fun x => p (fst x) /\ match snd x with Some v => value_ok enc load v | None => True end) l -> Sorted (fun x y => cmp (fst x) (fst y) = Lt) l ->
  typed_modify kd cmp enc fin d l = Ok (flag, d') -> forall k, ok k -> typed_get kd load d' k = Ok (changed E f l k).
Proof.
  intros H W S B k Hk. apply Forall_and in W as [W1 W2]. destruct (typed_modify_eq kd ok G p PO cmp O enc fin l W1) as (b & F & Q). rewrite Q in B.
  destruct (typed_rep E kd ok G enc load fin d f H) as (m & Hm & R). destruct (history_dict fin _ d m (proj1 G) Hm) as (es & D & M).
  destruct (C27_modify fin _ d es b flag d' (proj1 G) D (stored_width kd ok G p PO _ l b F) (stored_sorted kd p cmp O enc l b F S) B) as (es' & D' & M').
  apply (get_rep kd ok G enc load fin d' es' _ k D'); [|exact Hk]. rewrite M', M. apply (rep_changed E kd ok G p PO enc load l b F W2 f m R).
Qed.
(** and to the very dictionary of any updates that lead to these entries, for instance of the
    changes one by one. *)
Theorem C79_modify_root d f l d' f' : typed_history d f ->
  Forall (fun x => p (fst x) /\ match snd x with Some v => value_ok enc load v | None => True end) l -> Sorted (fun x y => cmp (fst x) (fst y) = Lt) l ->
  typed_history d' f' -> (forall k, f' k = changed E f l k) -> exists flag, typed_modify kd cmp enc fin d l = Ok (flag, d').
Proof.
  intros H W S H' X. apply Forall_and in W as [W1 W2]. destruct (typed_modify_eq kd ok G p PO cmp O enc fin l W1) as (b & F & Q). rewrite Q.
  destruct (typed_rep E kd ok G enc load fin d f H) as (m & Hm & R). destruct (typed_rep E kd ok G enc load fin d' f' H') as (m' & Hm' & R').
  apply (C27_same_root fin _ d m b d' (proj1 G) Hm (stored_width kd ok G p PO _ l b F) (stored_sorted kd p cmp O enc l b F S)).
  rewrite <- (rep_same kd ok enc load (changed E f l) m' (fold_left apply_map b m)); [exact Hm'| |apply (rep_changed E kd ok G p PO enc load l b F W2 f m R)].
  exact (rep_ext kd ok enc load f' _ m' R' X).
Qed.
Theorem C79_one_by_one d f l d' : typed_history d f ->
  Forall (fun x => p (fst x) /\ match snd x with Some v => value_ok enc load v | None => True end) l -> Sorted (fun x y => cmp (fst x) (fst y) = Lt) l ->
  one_by_one kd enc load fin d l = Ok d' -> exists flag, typed_modify kd cmp enc fin d l = Ok (flag, d').
Proof.
  intros H W S C. pose proof (one_by_one_history E kd ok p PO enc load fin l W d f d' H C) as H'. exact (C79_modify_root d f l d' _ H W S H' (fun _ => eq_refl)).
Qed.
(** The flag: without it nothing has changed; a dictionary with entries has it if there are changes. *)
Theorem C79_modify_flag d l flag d' : Forall (fun x => p (fst x)) l -> typed_modify kd cmp enc fin d l = Ok (flag, d') ->
  (flag = false -> d' = d) /\ (d <> None -> (flag = true <-> l <> [])) /\ (d = None -> (flag = true <-> d' <> None)).
Proof.
  intros W B. destruct (typed_modify_eq kd ok G p PO cmp O enc fin l W) as (b & F & Q). rewrite Q in B. destruct (C27_flag fin _ d b flag d' B) as (X1 & X2 & X3).
  split; [exact X1|]. split; [|exact X3]. intros N. destruct d as [root|]; [|contradiction]. rewrite (X2 root eq_refl). destruct F; split; congruence.
Qed.
Theorem C79_modify_errors root l :
  (Forall (fun x => p (fst x)) l -> ~ Sorted (fun x y => cmp (fst x) (fst y) <> Gt) l -> exists e, typed_modify kd cmp enc fin (Some root) l = Err e) /\
  (forall d k v e, In (k, v) l -> k_store kd k = Err e -> exists e', typed_modify kd cmp enc fin d l = Err e').
Proof.
  split.
  - intros W S. destruct (typed_modify_eq kd ok G p PO cmp O enc fin l W) as (b & F & Q). rewrite Q. apply C27_unsorted_rejected. intros N. apply S.
    assert (N' : sorted b). { revert N. unfold sorted, given. clear. induction b as [|x b IH]; intros N; [constructor|]. inversion N as [|? ? N1 N2]; subst. constructor; [apply IH, N1|]. destruct b; constructor. inversion N2; subst; assumption. }
    revert N'. apply (sorted_image (fun y x => stored_as kd p (option_map enc) x y)); [|exact (sorted_flip _ _ _ F)]. intros y x y' x' (A1 & A2 & _) (B1 & B2 & _) L. rewrite (O _ _ _ _ A1 B1 A2 B2). apply Z.compare_le_iff, L.
  - intros d k v e I Hk. unfold typed_modify. assert (X : exists e', store_all kd (fun o => Ok (option_map enc o)) l = Err e').
    { clear O. induction l as [|[k' v'] l IH]; [destruct I|]. cbn [store_all]. destruct I as [[= -> ->]|I]; [rewrite Hk; eauto|].
      destruct (k_store kd k'); cbn [rbind]; [|eauto]. destruct (IH I) as (e' & ->). eauto. }
    destruct X as (e' & ->). eauto.
Qed.
End Map.
Print Assumptions C79_build.
Print Assumptions C79_root.
Print Assumptions C79_build_succeeds.
Print Assumptions C79_build_errors.
Print Assumptions C79_modify.
Print Assumptions C79_modify_root.
Print Assumptions C79_one_by_one.
Print Assumptions C79_modify_flag.
Print Assumptions C79_modify_errors.

(** ** Keys that are not compared as their bits *)
(** Two i32 keys in their order: the dictionary is built without an error, has neither key, and has
    the values under two keys that were not given. *)
Theorem C79_signed_refuted : exists l d, Forall (fun x => AddrSpec.in_int 32 (fst x) /\ value_ok byte_chunk (load_un 8) (snd x)) l /\
  Sorted (fun x y => (fst x ?= fst y)%Z = Lt) l /\ typed_build (int_key 4) Z.compare byte_chunk no_error l = Ok d /\ l = [((-1)%Z, 1%N); (1%Z, 2%N)] /\
  typed_get (int_key 4) (load_un 8) d (-1)%Z = Ok None /\ typed_get (int_key 4) (load_un 8) d 1%Z = Ok None /\
  typed_get (int_key 4) (load_un 8) d (2 ^ 31 - 1)%Z = Ok (Some 1%N) /\ typed_get (int_key 4) (load_un 8) d (1 - 2 ^ 31)%Z = Ok (Some 2%N).
Proof.
  exists [((-1)%Z, 1%N); (1%Z, 2%N)]. eexists. split; [repeat constructor; cbn; try lia; eexists; vm_compute; reflexivity|]. split; [repeat constructor|].
  split; [vm_compute; reflexivity|]. split; [reflexivity|]. repeat split; vm_compute; reflexivity.
Qed.
Print Assumptions C79_signed_refuted.
(** The same for an address of the masterchain and one of the workchain 0. *)
Definition ex_addr (wc : Z) : std_addr := StdAddr None wc (repeat 7%N 32).
Theorem C79_addresses_refuted : exists l d, Forall (fun x => (sa_anycast (fst x) = None /\ exists b, std_tlb (fst x) b) /\ value_ok byte_chunk (load_un 8) (snd x)) l /\
  Sorted (fun x y => addr_compare (fst x) (fst y) = Lt) l /\ typed_build addr_key addr_compare byte_chunk no_error l = Ok d /\ l = [(ex_addr (-1), 1%N); (ex_addr 0, 2%N)] /\
  typed_get addr_key (load_un 8) d (ex_addr (-1)) = Ok None /\ typed_get addr_key (load_un 8) d (ex_addr 0) = Ok None /\
  typed_get addr_key (load_un 8) d (ex_addr 127) = Ok (Some 1%N) /\ typed_get addr_key (load_un 8) d (ex_addr (-128)) = Ok (Some 2%N).
Proof.
  exists [(ex_addr (-1), 1%N); (ex_addr 0, 2%N)]. eexists. split.
  { assert (T : forall wc, (-128 <= wc < 128)%Z -> exists b, std_tlb (ex_addr wc) b).
    { intros wc H. eexists. apply addr_std; [constructor|unfold AddrSpec.in_int; lia|repeat constructor|reflexivity]. }
    repeat constructor; cbn [fst snd sa_anycast ex_addr]; try reflexivity; try (apply T; lia); eexists; vm_compute; reflexivity. }
  split; [repeat constructor|].
  split; [vm_compute; reflexivity|]. split; [reflexivity|]. repeat split; vm_compute; reflexivity.
Qed.
Print Assumptions C79_addresses_refuted.

(** ** The hypotheses can be met *)
(** Three entries of a dictionary from u16 to u8, built at once; then one is removed, one replaced and
    one added. *)
Definition ex_changes : list (N * option N) := [(5%N, None); (7%N, Some 9%N); (40000%N, Some 4%N)].
Example C79_case : exists d d', let l := [(5%N, 1%N); (7%N, 2%N); (1000%N, 3%N)] in
  Forall (fun x => (fst x < 2 ^ 16)%N /\ value_ok byte_chunk (load_un 8) (snd x)) l /\ Sorted (fun x y => (fst x ?= fst y)%N = Lt) l /\
  typed_build (uint_key 2) N.compare byte_chunk no_error l = Ok d /\ typed_collect (uint_key 2) byte_chunk no_error None l = Ok d /\
  Forall (fun x => (fst x < 2 ^ 16)%N /\ match snd x with Some v => value_ok byte_chunk (load_un 8) v | None => True end) ex_changes /\
  typed_modify (uint_key 2) N.compare byte_chunk no_error d ex_changes = Ok (true, d') /\
  one_by_one (uint_key 2) byte_chunk (load_un 8) no_error d ex_changes = Ok d' /\ typed_get (uint_key 2) (load_un 8) d' 7%N = Ok (Some 9%N) /\
  (exists e, typed_build (uint_key 2) N.compare byte_chunk no_error [(7%N, 2%N); (5%N, 1%N)] = Err e).
Proof.
  eexists _, _. cbn zeta. split; [repeat constructor; eexists; vm_compute; reflexivity|]. split; [repeat constructor|]. split; [vm_compute; reflexivity|]. split; [vm_compute; reflexivity|].
  split; [repeat constructor; eexists; vm_compute; reflexivity|]. split; [vm_compute; reflexivity|]. split; [vm_compute; reflexivity|]. split; [vm_compute; reflexivity|]. eexists. vm_compute. reflexivity.
Qed.
