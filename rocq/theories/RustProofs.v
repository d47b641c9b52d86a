(** * Proofs about Rust values as ABI values *)
From Coq Require Import Sorting.Sorted.
From Verif Require Import Err BitsProofs IntModel NumModel AddrModel AddrSpec BigIntModel BigIntSpec CellModel DictSpec AbiModel AbiSpec AbiProofs EncSpec RustModel RustSpec.
Local Open Scope N_scope.

Lemma rty_ind' (P : rty -> Prop) :
  (forall k, P (RKey k)) -> P RVarUint24 -> P RVarUint56 -> P RTokens -> P RCell -> P RBytes -> P RString ->
  (forall t, P t -> P (RBox t)) -> (forall t, P t -> P (ROpt t)) -> (forall t, P t -> P (RVec t)) -> (forall t n, P t -> P (RFixed t n)) ->
  (forall k t, P t -> P (RMap k t)) -> (forall ts, Forall P ts -> P (RTuple ts)) -> forall t, P t.
Proof.
  intros Hk H1 H2 H3 H4 H5 H6 Hb Ho Hv Hf Hm Ht. fix IH 1. intros [].
  - apply Hk.
  - exact H1.
  - exact H2.
  - exact H3.
  - exact H4.
  - exact H5.
  - exact H6.
  - apply Hb, IH.
  - apply Ho, IH.
  - apply Hv, IH.
  - apply Hf, IH.
  - apply Hm, IH.
  - apply Ht. induction ts; constructor; [apply IH|assumption].
Qed.
Lemma into_tuple ts r : into_abi (RTuple ts) r = VTuple (into_abis ts r).
Proof. reflexivity. Qed.
Lemma from_tuple ts l : from_abi (RTuple ts) (VTuple l) = if (length l =? length ts)%nat then from_abis ts l else Err InvalidData.
Proof. reflexivity. Qed.
Section Lists.
Context (utf8 : list N -> bool) (v : version).
Fixpoint rusts_ok (ts : list rty) : rusts ts -> Prop :=
  match ts return rusts ts -> Prop with [] => fun _ => True | t :: ts => fun r => rust_ok utf8 t (fst r) /\ rusts_ok ts (snd r) end.
Fixpoint sendables (ts : list rty) : rusts ts -> Prop :=
  match ts return rusts ts -> Prop with [] => fun _ => True | t :: ts => fun r => sendable v t (fst r) /\ sendables ts (snd r) end.
End Lists.
Lemma rust_ok_tuple utf8 ts r : rust_ok utf8 (RTuple ts) r = rusts_ok utf8 ts r.
Proof. reflexivity. Qed.
Lemma sendable_tuple v ts r : sendable v (RTuple ts) r = sendables v ts r.
Proof. reflexivity. Qed.
Lemma is_u8_true t : is_u8 t = true -> t = RKey (KTUint W8).
Proof. destruct t as [[[]| | | | | | | |]| | | | | | | | | | | |]; intros [=]; reflexivity. Qed.

(** ** Types *)
Lemma key_type_of k r : type_of (into_key k r) = key_type k.
Proof. destruct k; reflexivity. Qed.
Lemma into_type utf8 t : forall r, rust_ok utf8 t r -> type_of (into_abi t r) = abi_type t.
Proof.
  induction t as [k| | | | | | |t IH|t IH|t IH|t n IH|k t IH|ts IH] using rty_ind'; intros r Hr; try reflexivity.
  - apply key_type_of.
  - apply IH, Hr.
  - cbn [into_abi abi_type]. destruct (is_u8 t); reflexivity.
  - destruct Hr as [L _]. cbn [into_abi abi_type]. destruct (is_u8 t) eqn:E.
    + apply is_u8_true in E. subst t. cbn [as_bytes type_of]. f_equal. exact L.
    + cbn [type_of]. f_equal. rewrite map_length. exact L.
  - rewrite into_tuple. cbn [type_of abi_type]. f_equal. rewrite rust_ok_tuple in Hr. clear -IH Hr. induction IH as [|t ts It _ IH]; [reflexivity|].
    destruct Hr as [A B]. cbn [into_abis map]. rewrite It by exact A. f_equal. apply IH, B.
Qed.

(** ** Hashes *)
Lemma from_be_zeros n l : from_be (replicate n 0 ++ l) = from_be l.
Proof. induction n as [|n IH]; [reflexivity|]. cbn [replicate app]. rewrite from_be_cons, IH. lia. Qed.
Lemma from_be_inj a b : Forall byte_ok a -> Forall byte_ok b -> length a = length b -> from_be a = from_be b -> a = b.
Proof.
  revert b. induction a as [|x a IH]; intros [|y b] Ha Hb L E; try discriminate; [reflexivity|].
  inversion_clear Ha as [|? ? Hx Ha']. inversion_clear Hb as [|? ? Hy Hb']. rewrite !from_be_cons in E. injection L as L.
  pose proof (from_be_lt a Ha') as A. pose proof (from_be_lt b Hb') as B. rewrite L in *. set (P := 2 ^ N.of_nat (8 * length b)) in *.
  assert (x = y) by nia. subst y. f_equal. apply IH; auto. lia.
Qed.
Lemma to_hash_facts x : x < 2 ^ 256 -> length (to_hash x) = 32%nat /\ Forall byte_ok (to_hash x) /\ from_be (to_hash x) = x.
Proof.
  intros Hx. destruct (to_bytes_facts x) as (H1 & H2 & H3 & H4). unfold to_hash.
  assert (L : (length (rev (to_bytes_le x)) <= 32)%nat).
  { rewrite rev_length, H2. unfold nbytes. assert (N.size x <= 256); [|lia]. destruct (N.eq_dec x 0) as [->|N0]; [cbn; lia|].
    rewrite N.size_log2 by exact N0. apply N.log2_lt_pow2 in Hx; lia. }
  cbv zeta. destruct (Nat.ltb_spec 32 (length (rev (to_bytes_le x)))) as [C|_]; [lia|]. split; [rewrite app_length, replicate_length; lia|].
  split.
  - apply Forall_app. split; [|apply bytes_rev, H1]. apply Forall_replicate. unfold byte_ok. lia.
  - rewrite from_be_zeros. exact H3.
Qed.
Lemma hash_back bs : length bs = 32%nat -> Forall byte_ok bs -> from_be bs < 2 ^ 256 /\ to_hash (from_be bs) = bs.
Proof.
  intros L B. pose proof (from_be_lt bs B) as U. rewrite L in U. change (N.of_nat (8 * 32)) with 256 in U. split; [exact U|].
  destruct (to_hash_facts (from_be bs) U) as (A & C & D). apply from_be_inj; auto. lia.
Qed.

(** ** Numbers *)
Lemma to_unsigned_ok w x : x < 2 ^ wbits w -> to_unsigned w x = Ok x.
Proof. intros H. unfold to_unsigned. apply N.ltb_lt in H. rewrite H. reflexivity. Qed.
Lemma to_unsigned_inv w x y : to_unsigned w x = Ok y -> y = x /\ x < 2 ^ wbits w.
Proof. unfold to_unsigned. destruct (N.ltb_spec x (2 ^ wbits w)); intros [=]; subst; auto. Qed.
Lemma to_signed_ok w x : AddrSpec.in_int (Z.of_N (wbits w)) x -> to_signed w x = Ok x.
Proof. intros [A B]. unfold to_signed. apply Z.leb_le in A. apply Z.ltb_lt in B. rewrite A, B. reflexivity. Qed.
Lemma to_signed_inv w x y : to_signed w x = Ok y -> y = x /\ AddrSpec.in_int (Z.of_N (wbits w)) x.
Proof.
  unfold to_signed, AddrSpec.in_int. destruct (Z.leb_spec (- 2 ^ (Z.of_N (wbits w) - 1)) x); [|intros [=]].
  destruct (Z.ltb_spec x (2 ^ (Z.of_N (wbits w) - 1))); intros [=]; subst; auto.
Qed.

(** ** Round trip *)
Lemma key_back k r : readable_key k = true -> key_ok k r -> from_key k (into_key k r) = Ok r /\ from_plain k (into_plain k r) = Ok r.
Proof.
  destruct k; intros R O; try discriminate R; cbn [from_key into_key from_plain into_plain]; try (split; reflexivity).
  - rewrite N.eqb_refl, to_unsigned_ok by exact O. auto.
  - rewrite N.eqb_refl, to_signed_ok by exact O. auto.
  - destruct O as [L B]. rewrite N.eqb_refl. destruct (hash_back r L B) as [_ ->]. auto.
Qed.
Lemma collect_back {A B} (f : A -> res B) (g : B -> A) (P : B -> Prop) l :
  (forall y, P y -> f (g y) = Ok y) -> all P l -> collect f (map g l) = Ok l.
Proof.
  intros H. induction l as [|y l IH]; intros O; [reflexivity|]. destruct O as [Oy Ol]. cbn [map collect].
  rewrite (H y Oy). cbn [rbind]. change (fold_right (fun x r => P x /\ r) True l) with (all P l) in Ol. rewrite (IH Ol). reflexivity.
Qed.
Lemma insert_new {K V} `{EqDecision K} (k : K) (y : V) m : k ∉ map fst m -> insert_entry k y m = m ++ [(k, y)].
Proof.
  induction m as [|[k' y'] m IH]; intros N; [reflexivity|]. cbn [insert_entry map fst] in *. apply not_elem_of_cons in N as [N1 N2].
  destruct (decide (k = k')) as [->|_]; [congruence|]. rewrite (IH N2). reflexivity.
Qed.
Lemma collect_map_back {A B K V} `{EqDecision K} (f : A -> res K) (g : B -> res V) (f' : K -> A) (g' : V -> B) (P : K -> Prop) (Q : V -> Prop) l :
  (forall k, P k -> f (f' k) = Ok k) -> (forall y, Q y -> g (g' y) = Ok y) -> forall m,
  all (fun e => P (fst e) /\ Q (snd e)) l -> NoDup (map fst m ++ map fst l) ->
  collect_map f g (map (fun e => (f' (fst e), g' (snd e))) l) m = Ok (m ++ l).
Proof.
  intros F G. induction l as [|[k y] l IH]; intros m O D; [cbn; rewrite app_nil_r; reflexivity|].
  destruct O as [[Ok1 Oy] Ol]. cbn [map collect_map fst snd] in *. rewrite (F k Ok1), (G y Oy). cbn [rbind].
  rewrite insert_new.
  - rewrite IH; [rewrite <- app_assoc; reflexivity|exact Ol|]. rewrite map_app. cbn [map fst]. rewrite <- app_assoc. exact D.
  - apply NoDup_app in D as (_ & D & _). intros C. apply (D k C). left.
Qed.
Lemma round_trip utf8 t : readable t = true -> forall r, rust_ok utf8 t r -> from_abi t (into_abi t r) = Ok r.
Proof.
  induction t as [k| | | | | | |t IH|t IH|t IH|t n IH|k t IH|ts IH] using rty_ind'; intros R r Hr; try reflexivity.
  - apply key_back; assumption.
  - cbn [into_abi from_abi]. change (4 =? 4) with true. apply to_unsigned_ok. cbn [rust_ok] in Hr. change (wbits W32) with 32. eapply N.lt_trans; [exact Hr|]. vm_compute. reflexivity.
  - cbn [into_abi from_abi]. change (8 =? 8) with true. apply to_unsigned_ok. cbn [rust_ok] in Hr. change (wbits W64) with 64. eapply N.lt_trans; [exact Hr|]. vm_compute. reflexivity.
  - exact (IH R r Hr).
  - cbn [readable] in R. destruct r as [r|]; [|reflexivity]. cbn [into_abi from_abi option_map]. rewrite (IH R r Hr). reflexivity.
  - cbn [readable into_abi from_abi] in *. destruct (is_u8 t) eqn:E; [apply is_u8_true in E; subst t; reflexivity|].
    apply (collect_back _ _ (rust_ok utf8 t)); [intros y; apply IH, R|exact Hr].
  - discriminate R.
  - cbn [readable] in R. apply andb_prop in R as [Rk Rt]. destruct Hr as [O D]. cbn [into_abi from_abi].
    apply (collect_map_back (from_plain k) (from_abi t) (into_plain k) (into_abi t) (key_ok k) (rust_ok utf8 t)); [intros a; apply key_back; assumption|intros y; apply IH, Rt|exact O|exact D].
  - rewrite into_tuple, from_tuple. rewrite rust_ok_tuple in Hr. cbn [readable] in R.
    assert (L : length (into_abis ts r) = length ts) by (clear; induction ts as [|t ts IH]; [reflexivity|cbn [into_abis length]; f_equal; apply IH]).
    rewrite L, Nat.eqb_refl. clear L. induction IH as [|t ts It _ IH]; [destruct r; reflexivity|].
    destruct r as [r rs], Hr as [A B]. cbn [forallb fst snd] in *. apply andb_prop in R as [R1 R2]. cbn [into_abis from_abis fst snd]. rewrite (It R1 r A). cbn [rbind]. rewrite (IH R2 rs B). reflexivity.
Qed.
