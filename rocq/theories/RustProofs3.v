(** * Proofs about Rust values as ABI values: what can be sent *)
From Coq Require Import Sorting.Sorted.
From Verif Require Import Err BitsProofs IntModel NumModel AddrModel AddrSpec BigIntModel BigIntSpec CellModel DictSpec AbiModel AbiSpec AbiProofs EncSpec RustModel RustSpec RustProofs RustProofs2.
Local Open Scope N_scope.

Lemma pow_trans x n m : n <= m -> x < 2 ^ n -> x < 2 ^ m.
Proof. intros L H. eapply N.lt_le_trans; [exact H|]. apply N.pow_le_mono_r; [discriminate|exact L]. Qed.
Lemma zpow_trans x n m : (0 <= n <= m)%Z -> (x < 2 ^ n)%Z -> (x < 2 ^ m)%Z.
Proof. intros L H. eapply Z.lt_le_trans; [exact H|]. apply Z.pow_le_mono_r; lia. Qed.
Lemma uint_ok utf8 v n x : 0 < n <= 1023 -> x < 2 ^ n -> value_ok utf8 (VUint n x) /\ encodable v (VUint n x) /\ supported v (VUint n x).
Proof.
  intros B H. cbn [value_ok encodable supported]. split; [eapply pow_trans; [|exact H]; lia|]. split; [split; [lia|exact H]|lia].
Qed.
Lemma wbits_le w : 0 < wbits w <= 1011.
Proof. destruct w; cbn; lia. Qed.
Lemma sbits_le s : 0 < sbits s <= 1011.
Proof. destruct s; cbn; lia. Qed.
Lemma key_sendable utf8 v k r : key_ok k r -> sendable_key k r -> value_ok utf8 (into_key k r) /\ encodable v (into_key k r) /\ supported v (into_key k r).
Proof.
  destruct k; cbn [key_ok sendable_key into_key rust_key] in *; intros O S.
  - apply uint_ok; [pose proof (wbits_le w); lia|exact O].
  - pose proof (wbits_le w) as L. cbn [value_ok encodable supported]. split; [|split; [split; [lia|apply fits_in_int; exact O]|lia]].
    destruct O as [O1 O2]. assert (X : (Z.abs r < 2 ^ (Z.of_N (wbits w)))%Z); [|eapply zpow_trans; [|exact X]; lia].
    replace (Z.of_N (wbits w)) with (Z.of_N (wbits w) - 1 + 1)%Z by lia. rewrite Z.pow_add_r by lia. change (2 ^ 1)%Z with 2%Z. lia.
  - destruct O as [L B]. apply uint_ok; [lia|]. apply hash_back; assumption.
  - apply uint_ok; [lia|exact S].
  - apply uint_ok; [pose proof (sbits_le s); lia|exact O].
  - repeat split.
  - split; [exact O|split; [exact O|exact Logic.I]].
  - assert (X : exists bits, int_tlb (IStd r) bits) by (destruct O as [b Hb]; exists b; constructor; exact Hb). split; [exact X|split; [exact X|exact Logic.I]].
  - assert (X : exists bits, int_tlb (IVar r) bits) by (destruct O as [b Hb]; exists b; constructor; exact Hb). split; [exact X|split; [exact X|exact Logic.I]].
Qed.
Lemma no_fixed_arrays t : sendable_type t = true -> fixed_arrays (abi_type t) = 0.
Proof.
  induction t as [k| | | | | | |t IH|t IH|t IH|t n IH|k t IH|ts IH] using rty_ind'; intros S; try reflexivity.
  - destruct k; reflexivity.
  - exact (IH S).
  - cbn [abi_type]. destruct (is_u8 t); reflexivity.
  - cbn [sendable_type] in S. cbn [abi_type]. rewrite S. reflexivity.
  - assert (S' : forallb sendable_type ts = true) by (destruct ts; [discriminate|exact S]). clear S. cbn [abi_type fixed_arrays]. induction IH as [|t ts It _ IH]; [reflexivity|].
    cbn [forallb] in S'. apply andb_prop in S' as [S1 S2]. cbn [map fold_right]. rewrite (It S1), (IH S2). reflexivity.
Qed.
Lemma all_map {A B} (f : A -> B) (P : B -> Prop) l : all (fun x => P (f x)) l -> all P (map f l).
Proof. induction l as [|x l IH]; [intros; exact Logic.I|]. intros [H1 H2]. split; [exact H1|apply IH, H2]. Qed.
Lemma key_width_ok k : key_width (plain_type k) <= 1011.
Proof. destruct k; cbn [plain_type key_width]; try (vm_compute; discriminate); [apply wbits_le|apply wbits_le|apply sbits_le]. Qed.
Lemma can_send utf8 v t : sendable_type t = true -> forall r, rust_ok utf8 t r -> sendable v t r ->
  value_ok utf8 (into_abi t r) /\ encodable v (into_abi t r) /\ supported v (into_abi t r).
Proof.
  induction t as [k| | | | | | |t IH|t IH|t IH|t n IH|k t IH|ts IH] using rty_ind'; intros St r O S.
  - apply key_sendable; assumption.
  - cbn [into_abi value_ok encodable supported rust_ok] in *. change (8 * (4 - 1)) with 24. repeat split; first [exact O|lia].
  - cbn [into_abi value_ok encodable supported rust_ok] in *. change (8 * (8 - 1)) with 56. repeat split; first [exact O|lia].
  - cbn [into_abi value_ok encodable supported rust_ok] in *. split; [eapply pow_trans; [|exact O]; lia|]. split; [exact O|exact Logic.I].
  - repeat split.
  - split; [exact O|split; exact Logic.I].
  - split; [exact O|split; exact Logic.I].
  - exact (IH St r O S).
  - cbn [sendable_type into_abi value_ok encodable supported rust_ok sendable] in *. rewrite (no_fixed_arrays t St).
    assert (Z : z_bits (max_size (abi_type t)) + 0 <= 1023 \/ small (max_size (abi_type t)) = false).
    { destruct (N.le_gt_cases (z_bits (max_size (abi_type t))) 1023) as [L|L]; [left; lia|right]. unfold small. destruct (N.ltb_spec (z_bits (max_size (abi_type t))) 1023); [lia|reflexivity]. }
    destruct r as [r|]; cbn [option_map]; [|auto]. destruct (IH St r O S) as (A & B & C). pose proof (into_type utf8 t r O). auto.
  - cbn [sendable_type into_abi rust_ok sendable] in *. destruct S as [L S]. destruct (is_u8 t) eqn:U.
    + apply is_u8_true in U. subst t. cbn [as_bytes value_ok encodable supported rust_ok key_ok] in *. split; [|split; exact Logic.I]. clear -O. induction r as [|x r IHr]; [constructor|]. destruct O as [Ox Or]. constructor; [exact Ox|apply IHr, Or].
    + cbn [value_ok encodable supported]. rewrite map_length. pose proof (all_and _ _ _ O S) as X. split; [split; [exact L|]|split]; apply all_map; (eapply all_mono; [|exact X]); intros y [Oy Sy]; destruct (IH St y Oy Sy) as (A & B & C); pose proof (into_type utf8 t y Oy); auto.
  - cbn [sendable_type into_abi rust_ok] in *. rewrite St. apply is_u8_true in St. subst t. destruct O as [_ O]. cbn [as_bytes value_ok encodable supported rust_ok key_ok] in *. split; [|split; exact Logic.I].
    clear -O. induction r as [|x r IHr]; [constructor|]. destruct O as [Ox Or]. constructor; [exact Ox|apply IHr, Or].
  - cbn [sendable_type into_abi rust_ok sendable] in *. destruct O as [O D], S as (M & S & keys & F & K). pose proof (all_in2 _ _ _ _ (all_and _ _ _ O S) F) as X.
    assert (M' : use_max v = true \/ map (fun e => (into_plain k (fst e), into_abi t (snd e))) r <> []) by (destruct M as [M|M]; [left; exact M|right; intros C; apply map_eq_nil in C; auto]).
    cbn [value_ok encodable supported]. split; [split|split].
    + apply all_map. eapply all_mono; [|exact X]. intros e [[[_ Oe] Se] _]. destruct (IH St _ Oe Se) as (A & B & C). pose proof (into_type utf8 t _ Oe). auto.
    + exists keys. split; [|exact K]. clear -F. induction F; constructor; assumption.
    + split; [apply key_width_ok|]. split; [exact M'|]. apply all_map. eapply all_mono; [|exact X]. intros e [[[_ Oe] Se] [b Hb]]. destruct (IH St _ Oe Se) as (A & B & C). pose proof (into_type utf8 t _ Oe). eauto.
    + split; [apply key_width_ok|]. split; [exact M'|]. apply all_map. eapply all_mono; [|exact X]. intros e [[[_ Oe] Se] _]. destruct (IH St _ Oe Se) as (A & B & C). exact C.
  - assert (N0 : ts <> []) by (intros ->; discriminate). assert (S' : forallb sendable_type ts = true) by (destruct ts; [discriminate|exact St]). clear St.
    rewrite into_tuple. rewrite rust_ok_tuple in O. rewrite sendable_tuple in S. cbn [value_ok encodable supported].
    assert (X : all (value_ok utf8) (into_abis ts r) /\ all (encodable v) (into_abis ts r) /\ all (supported v) (into_abis ts r)).
    { clear N0. induction IH as [|t ts It _ IH]; [repeat split|]. destruct r as [r rs], O as [O1 O2], S as [T1 T2]. cbn [forallb fst snd] in *. apply andb_prop in S' as [S1 S2].
      destruct (It S1 r O1 T1) as (A & B & C). destruct (IH rs O2 T2 S2) as (A' & B' & C'). cbn [into_abis fst snd]. split; [|split]; split; assumption. }
    destruct X as (X1 & X2 & X3). split; [exact X1|]. split; [exact X2|]. split; [|exact X3]. destruct ts; [congruence|discriminate].
Qed.
Lemma can_send_list utf8 v ts : forallb sendable_type ts = true -> forall r, rusts_ok utf8 ts r -> sendables v ts r ->
  forall x, x ∈ into_abis ts r -> value_ok utf8 x /\ encodable v x /\ supported v x.
Proof.
  induction ts as [|t ts IH]; intros S r O D x Hx; [apply elem_of_nil in Hx; destruct Hx|]. cbn [forallb] in S. apply andb_prop in S as [S1 S2]. destruct O as [O1 O2], D as [D1 D2].
  cbn [into_abis] in Hx. apply elem_of_cons in Hx as [->|Hx]; [apply can_send; assumption|]. eapply IH; eassumption.
Qed.
