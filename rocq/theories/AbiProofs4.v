(** * Proofs for C57: values *)
From Coq Require Import Sorting.Sorted.
From Verif Require Import Err BitsProofs IntModel NumModel NumSpec NumProofs AddrModel AddrSpec AddrProofs BigIntModel BigIntSpec BigIntProofs CellModel CodecProofs ChunkModel ChunkSpec ChunkProofs LayoutProofs
  DictModel DictSpec IterModel IterProofs DictProps BuildProps AbiModel AbiSpec AbiProofs AbiProofs2 AbiProofs3.
Local Open Scope N_scope.

Section Ind.
Context (P : aval -> Prop).
Context (H1 : forall n x, P (VUint n x)) (H2 : forall n x, P (VInt n x)) (H3 : forall n x, P (VVarUint n x)) (H4 : forall n x, P (VVarInt n x)).
Context (H5 : forall b, P (VBool b)) (H6 : forall c, P (VCell c)) (H7 : forall a, P (VAddr a)) (H8 : forall bs, P (VBytes bs)) (H9 : forall bs, P (VFixedBytes bs)) (H10 : forall bs, P (VString bs)) (H11 : forall x, P (VToken x)).
Context (H12 : forall l, Forall P l -> P (VTuple l)) (H13 : forall t l, Forall P l -> P (VArray t l)) (H14 : forall t l, Forall P l -> P (VFixedArray t l)).
Context (H15 : forall k t l, Forall (fun e => P (snd e)) l -> P (VMap k t l)) (H16 : forall t, P (VOpt t None)) (H17 : forall t y, P y -> P (VOpt t (Some y))) (H18 : forall y, P y -> P (VRef y)).
Fixpoint aval_nest (x : aval) : P x :=
  let list_nest := fix go (l : list aval) : Forall P l := match l with [] => @List.Forall_nil _ P | y :: l => @List.Forall_cons _ P y l (aval_nest y) (go l) end in
  match x with
  | VUint n x => H1 n x | VInt n x => H2 n x | VVarUint n x => H3 n x | VVarInt n x => H4 n x
  | VBool b => H5 b | VCell c => H6 c | VAddr a => H7 a | VBytes bs => H8 bs | VFixedBytes bs => H9 bs | VString bs => H10 bs | VToken x => H11 x
  | VTuple l => H12 l (list_nest l) | VArray t l => H13 t l (list_nest l) | VFixedArray t l => H14 t l (list_nest l)
  | VMap k t l => H15 k t l ((fix go (l : list (pval * aval)) : Forall (fun e => P (snd e)) l :=
      match l with [] => @List.Forall_nil _ _ | (k, y) :: l => @List.Forall_cons _ (fun e => P (snd e)) (k, y) l (aval_nest y) (go l) end) l)
  | VOpt t None => H16 t | VOpt t (Some y) => H17 t y (aval_nest y) | VRef y => H18 y (aval_nest y)
  end.
End Ind.

Section Main.
Context (fin : list bool -> list cell -> res unit) (utf8 : list N -> bool) (sorted : forall A : Type, list (pval * A) -> list (pval * A)).
Context (Hsorted : forall A l, Permutation (sorted A l) l).
Context (v : version) (Hv : 2 <= v_major v).
Notation load := (load utf8 v).
Notation write := (write fin sorted v).

Definition decodes (x : aval) (l : list chunk) : Prop :=
  forall last partial s l2, pos s (l ++ l2) -> Forall atom_ok l2 -> last = is_nil l2 -> exists s', load (type_of x) last partial s = Ok (x, s') /\ pos s' l2.
Definition nbits_of (l : list chunk) : N := N.of_nat (length (fst (cats l))).
Definition nrefs_of (l : list chunk) : N := N.of_nat (length (snd (cats l))).
Record enc (x : aval) (us : list unit_c) : Prop := {
  e_ok : Forall unit_ok us; e_ne : us <> [];
  e_refs : z_refs (usum us) = z_refs (size_full v x);
  e_bits : z_bits (size_full v x) <= z_bits (usum us);
  e_max_bits : z_bits (usum us) <= z_bits (max_size (type_of x)) + fixed_arrays (type_of x);
  e_max_refs : z_refs (usum us) <= z_refs (max_size (type_of x));
  e_len : nbits_of (atoms us) <= z_bits (max_size (type_of x));
  e_nrefs : nrefs_of (atoms us) <= z_refs (max_size (type_of x));
  e_exact : use_max v = false -> z_refs (max_size (type_of x)) <= 255 ->
    z_refs (exact_short x) = nrefs_of (atoms us) /\ z_bits (exact_short x) <= nbits_of (atoms us);
  e_some : 0 < z_bits (max_size (type_of x)) -> Exists (fun a => fst a <> []) (atoms us);
  e_dec : decodes x (atoms us) }.

Lemma atoms_one z l : atoms [(z, l)] = l.
Proof. unfold atoms. cbn [map snd concat]. apply app_nil_r. Qed.
Lemma usum_one z l : usum [(z, l)] = z.
Proof. unfold usum, ssum, sadd, zero_size. cbn [map fst fold_right z_bits z_refs]. destruct z as [p q]. cbn [z_bits z_refs]. rewrite !N.add_0_r. reflexivity. Qed.
Lemma nbits_app a b : nbits_of (a ++ b) = nbits_of a + nbits_of b.
Proof. unfold nbits_of. rewrite cats_app. unfold capp. cbn [fst]. rewrite app_length. lia. Qed.
Lemma nrefs_app a b : nrefs_of (a ++ b) = nrefs_of a + nrefs_of b.
Proof. unfold nrefs_of. rewrite cats_app. unfold capp. cbn [snd]. rewrite app_length. lia. Qed.
Lemma atoms_ok us : Forall unit_ok us -> Forall atom_ok (atoms us).
Proof. induction 1 as [|u us U _ IH]; [constructor|]. rewrite atoms_cons. apply Forall_app. split; [apply (u_atoms _ U)|exact IH]. Qed.
Lemma atoms_ne us : Forall unit_ok us -> us <> [] -> atoms us <> [].
Proof. intros H N. destruct H as [|u us U _]; [congruence|]. rewrite atoms_cons. pose proof (u_ne _ U). destruct (snd u); [congruence|discriminate]. Qed.

(** A value that starts with bits, in one unit. *)
Lemma enc_one x z (a : chunk) l n :
  z_bits z <= 1023 -> z_refs z <= 3 -> Forall atom_ok l -> 1 <= n <= N.of_nat (length (fst a)) ->
  z_refs z = z_refs (size_full v x) -> z_bits (size_full v x) <= z_bits z -> z_bits z <= z_bits (max_size (type_of x)) + fixed_arrays (type_of x) -> z_refs z <= z_refs (max_size (type_of x)) ->
  nbits_of (a :: l) <= z_bits (max_size (type_of x)) -> nrefs_of (a :: l) <= z_refs (max_size (type_of x)) ->
  (use_max v = false -> z_refs (max_size (type_of x)) <= 255 -> z_refs (exact_short x) = nrefs_of (a :: l) /\ z_bits (exact_short x) <= nbits_of (a :: l)) ->
  (forall last partial s s1 B R l2, preload n s = Ok s1 -> s_bits s1 = fst a ++ B -> s_refs s1 = snd a ++ R -> (forall c, pos (Sl c B R) (l ++ l2)) -> Forall atom_ok l2 -> last = is_nil l2 ->
    exists s', load (type_of x) last partial s = Ok (x, s') /\ pos s' l2) ->
  enc x [(z, a :: l)].
Proof.
  intros A1 A2 A3 A4 A5 A6 A7 A8 A9 A10 A11 A12. assert (Na : fst a <> []) by (destruct (fst a); [cbn in A4; lia|discriminate]).
  constructor; rewrite ?atoms_one, ?usum_one; auto.
  - constructor; [|constructor]. constructor; cbn [fst snd]; [exact A1|exact A2|discriminate|constructor; [left; exact Na|exact A3]|]. intros a' [= -> _] E. congruence.
  - intros last partial s l2 P F E. cbn [app] in P. destruct (pos_bits s a (l ++ l2) n P Na A4) as (s1 & B & R & E1 & E2 & E3 & P'). eapply A12; eauto.
Qed.
Lemma enc_bits x mb eb bits n :
  max_size (type_of x) = Size mb 0 -> fixed_arrays (type_of x) = 0 -> exact_short x = Size eb 0 -> size_full v x = Size (max_or v mb eb) 0 ->
  eb <= N.of_nat (length bits) <= mb -> mb <= 1023 -> 1 <= n <= N.of_nat (length bits) ->
  (forall last partial s s1 B, preload n s = Ok s1 -> s_bits s1 = bits ++ B -> load (type_of x) last partial s = Ok (x, Sl (s_cell s1) B (s_refs s1))) ->
  enc x [(Size (max_or v mb (N.of_nat (length bits))) 0, [(bits, [])])].
Proof.
  intros A1 A2 A3 A4 A5 A6 A7 A8.
  assert (Nb : nbits_of [(bits, []) : chunk] = N.of_nat (length bits)) by (unfold nbits_of; rewrite cats_fst; cbn [fst]; change (fst (cats [])) with (@nil bool); rewrite app_nil_r; reflexivity).
  assert (Nr : nrefs_of [(bits, []) : chunk] = 0) by reflexivity.
  eapply (enc_one x _ (bits, []) [] n); rewrite ?A1, ?A2, ?A3, ?A4, ?Nb, ?Nr; cbn [z_bits z_refs fst snd]; try lia; try (unfold max_or; destruct (use_max v); lia); [apply List.Forall_nil|].
  intros last partial s s1 B R l2 E1 E2 E3 P F L. eexists. split; [apply A8; eassumption|]. cbn [app] in *. rewrite E3. apply P.
Qed.
Lemma enc_fixed x n bits :
  max_size (type_of x) = Size n 0 -> fixed_arrays (type_of x) = 0 -> exact_short x = Size n 0 -> size_full v x = Size n 0 ->
  N.of_nat (length bits) = n -> 1 <= n <= 1023 ->
  (forall last partial s s1 B, preload n s = Ok s1 -> s_bits s1 = bits ++ B -> load (type_of x) last partial s = Ok (x, Sl (s_cell s1) B (s_refs s1))) ->
  enc x [(Size n 0, [(bits, [])])].
Proof.
  intros A1 A2 A3 A4 A5 A6 A7. assert (M : max_or v n n = n) by (unfold max_or; destruct (use_max v); reflexivity). pose proof (enc_bits x n n bits n A1 A2 A3) as E. rewrite A5, M in E. apply E; auto; lia.
Qed.
Lemma enc_ref x c :
  max_size (type_of x) = Size 0 1 -> exact_short x = Size 0 1 -> size_full v x = Size 0 1 -> 
  (forall last partial s s', load_cell v last s = Ok (c, s') -> load (type_of x) last partial s = Ok (x, s')) ->
  enc x [(Size 0 1, [([], [c])])].
Proof.
  intros A1 A2 A3 A4. constructor; rewrite ?atoms_one, ?usum_one, ?A1, ?A2, ?A3; cbn [z_bits z_refs]; try lia; try discriminate.
  - constructor; [|constructor]. constructor; cbn [fst snd z_bits z_refs]; try lia; [discriminate|constructor; [right; eauto|constructor]|reflexivity].
  - intros _ _. split; [reflexivity|apply N.le_refl].
  - intros last partial s l2 P F ->. cbn [app] in P. destruct (pos_ref v c s l2 Hv P F) as (s' & E & P'). exists s'. split; [apply A4, E|exact P'].
Qed.

Definition correct (x : aval) : Prop :=
  value_ok utf8 x -> supported v x -> forall s s', Forall builder_ok (r_stack s) -> write x s = Ok s' ->
  exists us, emits v us s s' /\ enc x us /\ Forall builder_ok (r_stack s').

Lemma emit_inv z f s s' : emit v z f s = Ok s' -> exists b b', f b = Ok b'.
Proof.
  unfold emit. destruct (require v z s) as [s1|]; cbn [rbind]; [|discriminate]. destruct (r_stack s1) as [|b r]; [discriminate|].
  destruct (f b) as [b'|] eqn:E; cbn [rbind]; [|discriminate]. eauto.
Qed.
Lemma on_bits_inv f b b' : on_bits f b = Ok b' -> exists c, f (fst b) = Ok c.
Proof. unfold on_bits. destruct (f (fst b)) as [c|] eqn:E; cbn [rbind]; [eauto|discriminate]. Qed.
Lemma cats_one a : cats [a] = a.
Proof. unfold cats. cbn [fold_right]. apply capp_nil. Qed.
(** One unit of bits: what has to be shown. *)
Lemma unit_bits x z f bits s s' :
  (forall b, f b = put bits b) -> Forall builder_ok (r_stack s) -> emit v z (on_bits f) s = Ok s' -> (N.of_nat (length bits) <= 1023 -> enc x [(z, [(bits, [])])]) ->
  exists us, emits v us s s' /\ enc x us /\ Forall builder_ok (r_stack s').
Proof.
  intros A B E H. exists [(z, [(bits, [])])]. assert (L : N.of_nat (length bits) <= 1023).
  { destruct (emit_inv _ _ _ _ E) as (b & b' & X). apply on_bits_inv in X. destruct X as (c & X). rewrite A in X. apply put_ok in X. lia. }
  destruct (emit_emits v z (on_bits f) [(bits, [])] s s') as [E1 E2]; [rewrite cats_one; apply appends_bits, A|exact B|exact E|]. auto.
Qed.
Lemma unit_ref x c s s' : Forall builder_ok (r_stack s) -> emit v (Size 0 1) (store_ref c) s = Ok s' -> enc x [(Size 0 1, [([], [c])])] ->
  exists us, emits v us s s' /\ enc x us /\ Forall builder_ok (r_stack s').
Proof.
  intros B E H. exists [(Size 0 1, [([], [c])])].
  destruct (emit_emits v (Size 0 1) (store_ref c) [([], [c])] s s') as [E1 E2]; [rewrite cats_one; apply appends_ref|exact B|exact E|]. auto.
Qed.

Lemma max_or_same n : max_or v n n = n.
Proof. unfold max_or. destruct (use_max v); reflexivity. Qed.

(** ** Leaves *)
Lemma correct_uint n x : correct (VUint n x).
Proof.
  intros V U s s' B W. cbn [AbiModel.write value_ok supported] in *.
  destruct (emit_inv _ _ _ _ W) as (b & b' & X). apply on_bits_inv in X. destruct X as (c & X). destruct (store_ubig_ok _ _ _ _ V X) as [L _].
  eapply unit_bits; [|exact B|exact W|].
  - intros b0. unfold store_ubig in *. destruct (n <? ubitsize x false); [discriminate|reflexivity].
  - rewrite length_nbits, N2Nat.id. intros Hn. clear V X. apply enc_fixed; rewrite ?length_nbits, ?N2Nat.id; try reflexivity; try lia.
    + cbn [size_full max_short exact_short]. destruct (use_max v); reflexivity.
    + intros last partial s0 s1 B0 E1 E2. cbn [type_of AbiModel.load]. rewrite E1. cbn [rbind]. unfold sl_bits. rewrite E2, (load_ubig_ok _ _ _ L). reflexivity.
Qed.
Lemma correct_int n x : correct (VInt n x).
Proof.
  intros V U s s' B W. cbn [AbiModel.write value_ok supported] in *.
  destruct (emit_inv _ _ _ _ W) as (b & b' & X). apply on_bits_inv in X. destruct X as (c & X). destruct (store_big_ok _ _ _ _ V X) as [L _].
  assert (Ln : length (zbits (N.to_nat n) x) = N.to_nat n) by apply length_zbits.
  eapply unit_bits; [|exact B|exact W|].
  - intros b0. unfold store_big in *. destruct (n <? bitsize x true); [discriminate|reflexivity].
  - rewrite Ln, N2Nat.id. intros Hn. clear V X. apply enc_fixed; rewrite ?Ln, ?N2Nat.id; try reflexivity; try lia.
    + cbn [size_full max_short exact_short]. destruct (use_max v); reflexivity.
    + intros last partial s0 s1 B0 E1 E2. cbn [type_of AbiModel.load]. rewrite E1. cbn [rbind]. unfold sl_bits. rewrite E2, (load_big_ok _ _ _ L). reflexivity.
Qed.
Lemma correct_bool b : correct (VBool b).
Proof.
  intros _ _ s s' B W. cbn [AbiModel.write] in W. eapply (unit_bits _ _ (put [b])); [reflexivity|exact B|exact W|]. intros _.
  apply enc_fixed; cbn [length]; try reflexivity; try lia.
  - cbn [size_full max_short exact_short]. unfold max_or. destruct (use_max v); reflexivity.
  - intros last partial s0 s1 B0 E1 E2. cbn [type_of AbiModel.load]. rewrite E1. cbn [rbind]. unfold sl_bits. rewrite E2. reflexivity.
Qed.
Lemma maybe_any_len a x : AddrSpec.maybe anycast_tlb a x -> N.of_nat (length x) <= 37.
Proof. intros [|ac y H]; cbn [length]; [lia|]. destruct H as [p Hp]. rewrite app_length, length_nbits. unfold count in Hp. lia. Qed.
Lemma addr_len a x : int_tlb a x -> 2 <= N.of_nat (length x) <= INT_BITS_MAX.
Proof.
  unfold INT_BITS_MAX. intros [b y H|b y H]; destruct H as [ac z wc ad Hm]; apply maybe_any_len in Hm.
  - rewrite !app_length, length_int_bits, length_bytes_bits. cbn [length]. lia.
  - rewrite !app_length, length_int_bits, length_nbits. cbn [length]. unfold count in *. lia.
Qed.
Lemma correct_addr a : correct (VAddr a).
Proof.
  intros (x & Hx) _ s s' B W. cbn [AbiModel.write] in W. pose proof (addr_len a x Hx) as La. pose proof (int_len a x Hx) as Li.
  eapply (unit_bits _ _ _ x); [intros b; apply store_int_put, Hx|exact B|exact W|]. intros _. rewrite <- Li.
  apply (enc_bits (VAddr a) INT_BITS_MAX (int_bit_len a) x 1); try reflexivity; try (change INT_BITS_MAX with 591 in *; lia).
  - cbn [size_full max_short exact_short]. unfold max_or. destruct (use_max v); reflexivity.
  - intros last partial s0 s1 B0 E1 E2. cbn [type_of AbiModel.load]. rewrite E1. cbn [rbind]. unfold sl_bits. rewrite E2.
    rewrite (proj2 (load_int_addr_iff (x ++ B0) a B0) ltac:(eauto)). reflexivity.
Qed.
Lemma correct_token x : correct (VToken x).
Proof.
  intros V _ s s' B W. cbn [AbiModel.write value_ok] in *.
  destruct (emit_inv _ _ _ _ W) as (b & b' & X). apply on_bits_inv in X. destruct X as (c & X).
  rewrite (store_vk_ok Tokens x _ V) in X. destruct (N.ltb_spec (vk_max Tokens) x) as [|L]; [discriminate|]. clear X.
  pose proof (proj2 (vk_len_le Tokens x V) L) as Lb.
  assert (Hb : var_uint_bits 4 x (nbits 4 (vk_len Tokens x) ++ nbits (N.to_nat (8 * vk_len Tokens x)) x)).
  { exists (vk_len Tokens x). split; [apply vk_len_shortest, V|]. split; [|reflexivity]. change (vk_bytes Tokens) with 15 in Lb. change (2 ^ N.of_nat 4) with 16. lia. }
  remember (nbits 4 (vk_len Tokens x) ++ nbits (N.to_nat (8 * vk_len Tokens x)) x) as bits eqn:Eb.
  assert (Hc : vk_c var_uint_bits Tokens x (bits, [])) by (constructor; exact Hb). pose proof (vk_size _ _ _ Hc) as (Sz & _). cbn [fst] in Sz.
  assert (Lk : N.of_nat (length bits) = 4 + 8 * vk_len Tokens x) by (subst bits; rewrite app_length, !length_nbits; lia).
  change (vk_bytes Tokens) with 15 in Lb.
  exists [(Size (max_or v (vk_max_bits Tokens) (vk_unwrap_bit_len Tokens x)) 0, [(bits, [])])].
  destruct (emit_emits v _ _ [(bits, [])] s s' ltac:(rewrite cats_one; apply appends_vk; exact Hc) B W) as [E1 E2]. split; [exact E1|]. split; [|exact E2].
  rewrite Sz. apply (enc_bits (VToken x) (vk_max_bits Tokens) (vk_unwrap_bit_len Tokens x) bits 1); try reflexivity.
  - cbn [size_full max_short exact_short]. unfold max_or. destruct (use_max v); reflexivity.
  - change (vk_max_bits Tokens) with 124. lia.
  - change (vk_max_bits Tokens) with 124. lia.
  - lia.
  - intros last partial s0 s1 B0 F1 F2. cbn [type_of AbiModel.load]. rewrite F1. cbn [rbind]. unfold sl_bits. rewrite F2.
    pose proof (proj2 (reads_tokens (capp (bits, []) (B0, [])) x (B0, []))) as R. unfold from_bits, capp in R. cbn [fst snd app] in R.
    destruct (load_vk Tokens (bits ++ B0)) as [[y r]|] eqn:El; cbn [rbind] in R |- *; (assert (R' := R ltac:(exists (bits, []); split; [constructor; apply var_loose, Hb|reflexivity]))); [|discriminate]. injection R' as -> ->. reflexivity.
Qed.
Lemma len_bits_ok n : 1 <= n <= 255 -> len_bits n = N.size (n - 1).
Proof.
  intros H. unfold len_bits, lz. assert (N.size (n - 1) <= 8); [|lia]. destruct (N.eq_dec (n - 1) 0) as [->|E]; [cbn; lia|].
  rewrite N.size_log2 by exact E. pose proof (N.log2_lt_pow2 (n - 1) 8 ltac:(lia)). assert (N.log2 (n - 1) < 8) by (apply H0; lia). lia.
Qed.
Lemma unit_var x n neg y s s' (Hn : 1 <= n <= 128) (H0 : neg = true -> 0 < y) :
  max_size (type_of x) = Size (var_max n) 0 -> fixed_arrays (type_of x) = 0 -> exact_short x = Size (var_exact n (N.size y)) 0 -> max_short x = Size (var_max n) 0 -> (forall w, size_full w x = if use_max w then max_short x else exact_short x) ->
  (forall last partial s s1, load_var_raw n s = Ok (var_bytes neg y, s1) -> load (type_of x) last partial s = Ok (x, s1)) ->
  Forall builder_ok (r_stack s) -> write_var v n neg y s = Ok s' ->
  exists us, emits v us s s' /\ enc x us /\ Forall builder_ok (r_stack s').
Proof.
  intros A1 A2 A3 A4 A5 A6 B W. destruct (var_bytes_facts neg y H0) as (F1 & F2 & _). unfold write_var in W. set (bytes := var_bytes neg y) in *. cbv zeta in W.
  destruct (N.ltb_spec (n - 1) (N.of_nat (length bytes))) as [|L]; [discriminate|].
  assert (Nb : (1 <= nbytes y)%nat) by (unfold nbytes; lia). pose proof (len_bits_ok n ltac:(lia)) as Lb. pose proof (N.size_gt (n - 1)) as Sg. rewrite <- Lb in Sg.
  assert (Lb1 : 1 <= len_bits n) by (destruct (N.eq_dec (len_bits n) 0) as [E|]; [rewrite E in Sg; cbn in Sg; lia|lia]).
  assert (Lb7 : len_bits n <= 7). { rewrite Lb. rewrite N.size_log2 by lia. pose proof (proj1 (N.log2_lt_pow2 (n - 1) 7 ltac:(lia))). assert (N.log2 (n - 1) < 7) by (apply H; lia). lia. }
  set (bits := nbits (N.to_nat (len_bits n)) (N.of_nat (length bytes)) ++ bytes_bits bytes).
  assert (Lbits : N.of_nat (length bits) = len_bits n + 8 * N.of_nat (length bytes)) by (unfold bits; rewrite app_length, length_nbits, length_bytes_bits; lia).
  assert (Rd : raw_data bytes (8 * N.of_nat (length bytes)) = bytes_bits bytes).
  { unfold raw_data. rewrite (take_ge (bytes_bits bytes)) by (rewrite length_bytes_bits; lia). replace (N.to_nat (8 * N.of_nat (length bytes)) - 8 * length bytes)%nat with 0%nat by lia. reflexivity. }
  rewrite <- Lbits in W.
  eapply (unit_bits _ _ _ bits); [|exact B|exact W|].
  - intros b. unfold put_uint, store_raw_bits. rewrite Rd. unfold put, bits. rewrite !app_length, length_nbits. change MAX_BITS with 1023%nat.
    destruct (Nat.ltb_spec 1023 (length b + N.to_nat (len_bits n))) as [G|G]; cbn [rbind].
    + destruct (Nat.ltb_spec 1023 (length b + (N.to_nat (len_bits n) + length (bytes_bits bytes)))); [reflexivity|lia].
    + rewrite app_length, length_nbits, Nat.add_assoc, app_assoc. reflexivity.
  - intros _. eapply (enc_bits x (var_max n) (var_exact n (N.size y)) bits (len_bits n)); auto.
    + rewrite A5, A4, A3. unfold max_or. destruct (use_max v); reflexivity.
    + rewrite Lbits. unfold var_exact, var_max. unfold nbytes in F2. lia.
    + unfold var_max. lia.
    + rewrite Lbits. lia.
    + intros last partial s0 s1 B0 E1 E2. apply A6. unfold load_var_raw. rewrite E1. cbn [rbind]. unfold sl_bits. rewrite E2. unfold bits. rewrite <- app_assoc.
      change (load_uint (N.to_nat (len_bits n))) with (load_ubig (len_bits n)). rewrite load_ubig_ok by lia. cbn [rbind]. unfold preload. cbn [s_bits s_refs s_cell].
      destruct (N.eqb_spec (N.of_nat (length bytes) * 8) 0) as [|_]; [lia|].
      assert (Lx : length (bytes_bits bytes ++ B0) = (8 * length bytes + length B0)%nat) by (rewrite app_length, length_bytes_bits; reflexivity).
      destruct (bytes_bits bytes ++ B0) as [|q0 q] eqn:Eq; [cbn in Lx; lia|]. rewrite <- Eq in *.
      destruct (N.ltb_spec (N.of_nat (length (bytes_bits bytes ++ B0))) (N.of_nat (length bytes) * 8)) as [|_]; [lia|]. cbn [rbind s_bits s_cell s_refs].
      unfold load_raw_bits. destruct (Nat.ltb_spec (length (bytes_bits bytes ++ B0)) (N.to_nat (N.of_nat (length bytes) * 8))) as [|_]; [lia|]. cbn [rbind].
      rewrite take_app_alt, drop_app_alt by (rewrite length_bytes_bits; lia). rewrite pack_bytes_bits by exact F1. reflexivity.
Qed.
Lemma correct_varuint n x : correct (VVarUint n x).
Proof.
  intros V U s s' B W. cbn [AbiModel.write value_ok supported] in *. apply (unit_var (VVarUint n x) n false x s s'); try reflexivity; try lia; try assumption; try discriminate.
  intros last partial s0 s1 E. cbn [type_of AbiModel.load]. rewrite E. cbn [rbind]. destruct (var_bytes_facts false x ltac:(discriminate)) as (_ & _ & F & _). rewrite (F eq_refl). reflexivity.
Qed.
Lemma correct_varint n x : correct (VVarInt n x).
Proof.
  intros V U s s' B W. cbn [AbiModel.write value_ok supported] in *. destruct U as [U1 U2].
  assert (H0 : (x <? 0)%Z = true -> 0 < Z.abs_N x) by (destruct (Z.ltb_spec x 0); [lia|discriminate]).
  apply (unit_var (VVarInt n x) n (x <? 0)%Z (Z.abs_N x) s s'); try reflexivity; try lia; try assumption.
  intros last partial s0 s1 E. cbn [type_of AbiModel.load]. rewrite E. cbn [rbind]. destruct (var_bytes_facts (x <? 0)%Z (Z.abs_N x) H0) as (_ & _ & _ & F). rewrite F.
  - unfold var_value. destruct (Z.ltb_spec x 0); do 3 f_equal; lia.
  - destruct (Z.ltb_spec x 0); [auto|right]. destruct U2 as [U2|U2]; [right; lia|auto].
Qed.
Lemma correct_cell c : correct (VCell c).
Proof.
  intros _ _ s s' B W. cbn [AbiModel.write] in W. eapply unit_ref; [exact B|exact W|]. apply enc_ref; try reflexivity; [cbn; destruct (use_max v); reflexivity|].
  intros last partial s0 s1 E. cbn [type_of AbiModel.load]. rewrite E. reflexivity.
Qed.
Lemma unit_bytes x bs s s' : Forall byte_ok bs -> max_size (type_of x) = Size 0 1 -> exact_short x = Size 0 1 -> size_full v x = Size 0 1 ->
  (forall last partial s s', load_bytes v last s = Ok (bs, s') -> load (type_of x) last partial s = Ok (x, s')) ->
  Forall builder_ok (r_stack s) -> (let? c := bytes_cell fin v bs in emit v (Size 0 1) (store_ref c) s) = Ok s' ->
  exists us, emits v us s s' /\ enc x us /\ Forall builder_ok (r_stack s').
Proof.
  intros Hb A1 A2 A3 A4 B. destruct (bytes_cell fin v bs) as [c|] eqn:E; cbn [rbind]; [|discriminate]. intros W. apply bytes_cell_ok in E; [|exact Hb].
  eapply unit_ref; [exact B|exact W|]. apply enc_ref; auto. intros last partial s0 s1 F. apply A4. unfold load_bytes. rewrite F. cbn [rbind]. rewrite E. reflexivity.
Qed.
Lemma correct_bytes bs : correct (VBytes bs).
Proof.
  intros V _ s s' B W. cbn [AbiModel.write value_ok] in *. eapply unit_bytes; [exact V| | | | |exact B|exact W]; try reflexivity; [cbn; destruct (use_max v); reflexivity|].
  intros last partial s0 s1 E. cbn [type_of AbiModel.load]. rewrite E. reflexivity.
Qed.
Lemma correct_fixed bs : correct (VFixedBytes bs).
Proof.
  intros V _ s s' B W. cbn [AbiModel.write value_ok] in *. eapply unit_bytes; [exact V| | | | |exact B|exact W]; try reflexivity; [cbn; destruct (use_max v); reflexivity|].
  intros last partial s0 s1 E. cbn [type_of AbiModel.load]. rewrite E. cbn [rbind]. rewrite Nat.eqb_refl. reflexivity.
Qed.
Lemma correct_string bs : correct (VString bs).
Proof.
  intros [V Hu] _ s s' B W. cbn [AbiModel.write] in *. eapply unit_bytes; [exact V| | | | |exact B|exact W]; try reflexivity; [cbn; destruct (use_max v); reflexivity|].
  intros last partial s0 s1 E. cbn [type_of AbiModel.load]. rewrite E. cbn [rbind]. rewrite Hu. reflexivity.
Qed.

(** ** Values in serializers of their own *)
Lemma child_ok y b : correct y -> value_ok utf8 y -> supported v y -> child fin v write y = Ok b ->
  exists us, enc y us /\ pos_chunk b (atoms us) /\ (z_bits (usum us) <= 1023 -> z_refs (usum us) <= 3 -> b = cats (atoms us)).
Proof.
  intros C V U. unfold child. destruct (write y (reserve v y ser_new)) as [s'|] eqn:W; cbn [rbind]; [|discriminate]. intros F.
  destruct (C V U (reserve v y ser_new) s') as (us & E & Y & _); [constructor|exact W|]. exists us. split; [exact Y|]. pose proof (e_refs _ _ Y) as Er. pose proof (e_bits _ _ Y) as Eb.
  split.
  - assert (P0 : placed (reserve v y ser_new) [] us).
    { constructor; cbn [reserve ser_new r_stack r_cur r_left sadd zero_size z_bits z_refs map]; try lia; try reflexivity; try (constructor); [intros; discriminate|exact (e_ok _ _ Y)]. }
    destruct (place_all v Hv us _ _ _ P0 E) as (st & P1 & C1). cbn [rev concat app] in C1. rewrite <- C1. eapply finalize_pos; [|exact F]. exact P1.
  - intros L1 L2. destruct (no_split v Hv us (reserve v y ser_new) s' empty_b ltac:(right; split; reflexivity) E ltac:(cbn; lia) ltac:(cbn; lia)) as [T|[T Ee]].
    + unfold finalize in F. rewrite T in F. destruct (negb _); [discriminate|]. cbn [join] in F. injection F as <-. unfold empty_b. rewrite nil_capp. reflexivity.
    + unfold empty_b in Ee. rewrite nil_capp in Ee. unfold finalize in F. rewrite T in F. destruct (negb _); [discriminate|]. injection F as <-. symmetry. exact Ee.
Qed.
Lemma child_load y b c partial : correct y -> value_ok utf8 y -> supported v y -> child fin v write y = Ok b ->
  exists s', load (type_of y) true partial (Sl c (fst b) (snd b)) = Ok (y, s') /\ s_bits s' = [] /\ s_refs s' = [].
Proof.
  intros C V U E. destruct (child_ok y b C V U E) as (us & Y & P & _). apply (pos_chunk_pos _ _ c) in P.
  destruct (e_dec _ _ Y true partial (Sl c (fst b) (snd b)) []) as (s' & L & P'); [rewrite app_nil_r; exact P|constructor|reflexivity|].
  exists s'. split; [exact L|]. apply pos_nil, P'.
Qed.
Lemma leaf_load y b e c partial inline : correct y -> value_ok utf8 y -> supported v y -> child fin v write y = Ok b -> leaf_value fin inline b = Ok e ->
  (inline = false -> 0 < z_bits (max_size (type_of y))) ->
  exists s', load (type_of y) true partial (Sl c (fst e) (snd e)) = Ok (y, s') /\ s_bits s' = [] /\ s_refs s' = [].
Proof.
  intros C V U E L Hb. unfold leaf_value in L. destruct inline; [injection L as <-; eapply child_load; eassumption|].
  destruct (build fin b) as [cb|] eqn:Eb; cbn [rbind] in L; [|discriminate]. injection L as <-. apply build_ok in Eb. subst cb. cbn [fst snd].
  destruct (child_ok y b C V U E) as (us & Y & (g & gs & H & La & Eg & Ng) & _).
  pose proof (e_some _ _ Y (Hb eq_refl)) as Some_bits. pose proof (atoms_ne us (e_ok _ _ Y) (e_ne _ _ Y)) as Ne. specialize (Ng Ne).
  assert (P : pos (Sl c [] [chunk_cell b]) (atoms us)).
  { exists [], (g :: gs). cbn [s_bits s_refs concat app]. split; [|split; [|exact Eg]].
    - cbn [holds]. split; [reflexivity|]. exists [chunk_cell b]. split; [reflexivity|]. exists (chunk_cell b). split; [reflexivity|]. split; [reflexivity|]. exact H.
    - cbn [later]. split; [|exact La]. destruct g as [|a g]; [congruence|]. intros Ha. destruct g as [|a2 g]; [|left; discriminate]. destruct gs as [|g2 gs]; [|right; discriminate].
      exfalso. rewrite <- Eg in Some_bits. cbn [app concat] in Some_bits. inversion Some_bits as [? ? X|? ? X]; subst; [exact (X Ha)|inversion X]. }
  destruct (e_dec _ _ Y true partial (Sl c [] [chunk_cell b]) []) as (s' & L & P'); [rewrite app_nil_r; exact P|constructor|reflexivity|].
  exists s'. split; [exact L|]. apply pos_nil, P'.
Qed.
Lemma whole_ok partial f s x s' : f s = Ok (x, s') -> s_bits s' = [] -> s_refs s' = [] -> whole partial f s = Ok x.
Proof. intros E B R. unfold whole. rewrite E. cbn [rbind]. unfold check_remaining. rewrite B, R. destruct partial; reflexivity. Qed.
Lemma child_whole y b c partial : correct y -> value_ok utf8 y -> supported v y -> child fin v write y = Ok b ->
  whole partial (load (type_of y) true partial) (Sl c (fst b) (snd b)) = Ok y.
Proof. intros C V U E. destruct (child_load y b c partial C V U E) as (s' & L & B & R). eapply whole_ok; eassumption. Qed.

(** ** Tuples *)
Definition enc_all (l : list aval) (us : list unit_c) : Prop := exists uss, us = concat uss /\ Forall2 enc l uss.
Lemma all_cons {A} (P : A -> Prop) x l : all P (x :: l) -> P x /\ all P l.
Proof. intros H. exact H. Qed.
Lemma seq_write l : Forall correct l -> all (value_ok utf8) l -> all (supported v) l -> forall s s', Forall builder_ok (r_stack s) -> foldm write l s = Ok s' ->
  exists us, emits v us s s' /\ enc_all l us /\ Forall builder_ok (r_stack s').
Proof.
  induction 1 as [|x l C _ IH]; intros V U s s' B; cbn [foldm].
  - intros [= <-]. exists []. split; [constructor|]. split; [exists []; split; [reflexivity|constructor]|exact B].
  - apply all_cons in V, U. destruct V as [Vx V], U as [Ux U]. destruct (write x s) as [s1|] eqn:E; cbn [rbind]; [|discriminate]. intros W.
    destruct (C Vx Ux s s1 B E) as (us & E1 & Y & B1). destruct (IH V U s1 s' B1 W) as (us2 & E2 & (uss & -> & Y2) & B2).
    exists (us ++ concat uss). split; [eapply emits_app; eassumption|]. split; [exists (us :: uss); split; [reflexivity|constructor; assumption]|exact B2].
Qed.
Lemma seq_ok l uss : Forall2 enc l uss -> Forall unit_ok (concat uss).
Proof. induction 1 as [|x us l uss Y _ IH]; cbn [concat]; [constructor|]. apply Forall_app. split; [apply (e_ok _ _ Y)|exact IH]. Qed.
Lemma seq_ne l uss : Forall2 enc l uss -> l <> [] -> concat uss <> [].
Proof. intros [|x us l' uss' Y _] N; [congruence|]. cbn [concat]. pose proof (e_ne _ _ Y). destruct us; [congruence|discriminate]. Qed.
Lemma seq_dec l uss : Forall2 enc l uss -> forall last partial s l2, pos s (atoms (concat uss) ++ l2) -> Forall atom_ok l2 -> last = is_nil l2 ->
  exists s', load_seq (fun t last => load t last partial) last (map type_of l) s = Ok (l, s') /\ pos s' l2.
Proof.
  induction 1 as [|x us l uss Y F2 IH]; intros last partial s l2 P F L.
  - exists s. split; [reflexivity|exact P].
  - cbn [map load_seq concat] in *. rewrite atoms_app, <- app_assoc in P.
    destruct (e_dec _ _ Y (last && match map type_of l with [] => true | _ => false end) partial s (atoms (concat uss) ++ l2) P) as (s1 & E1 & P1).
    { apply Forall_app. split; [apply atoms_ok; eapply seq_ok; exact F2|exact F]. }
    { destruct l as [|x2 l]; [inversion F2; subst; cbn [map]; rewrite andb_true_r; reflexivity|]. cbn [map]. rewrite andb_false_r.
      pose proof (atoms_ne _ (seq_ok _ _ F2) (seq_ne _ _ F2 ltac:(discriminate))) as N. destruct (atoms (concat uss)); [congruence|reflexivity]. }
    rewrite E1. cbn [rbind]. destruct (IH last partial s1 l2 P1 F L) as (s2 & E2 & P2). exists s2. fold (load_seq (fun t last => load t last partial) last). rewrite E2. split; [reflexivity|exact P2].
Qed.
Lemma sat_refs l : forall acc, z_refs acc <= 255 -> z_refs (fold_left sat_add l acc) = N.min 255 (z_refs acc + z_refs (ssum l)).
Proof.
  induction l as [|x l IH]; intros acc H; cbn [fold_left]; [change (z_refs (ssum [])) with 0; lia|].
  change (ssum (x :: l)) with (sadd x (ssum l)). cbn [sadd z_refs]. rewrite IH; cbn [sat_add z_refs]; lia.
Qed.
Lemma sat_bits l : forall acc, z_bits (fold_left sat_add l acc) <= z_bits acc + z_bits (ssum l).
Proof.
  induction l as [|x l IH]; intros acc; cbn [fold_left]; [change (z_bits (ssum [])) with 0; lia|].
  change (ssum (x :: l)) with (sadd x (ssum l)). cbn [sadd z_bits]. etransitivity; [apply IH|]. cbn [sat_add z_bits]. lia.
Qed.
Lemma enc_tuple l uss : l <> [] -> Forall2 enc l uss -> enc (VTuple l) (concat uss).
Proof.
  intros N F. assert (T : max_size (type_of (VTuple l)) = ssum (map (fun x => max_size (type_of x)) l)) by (cbn [type_of max_size]; rewrite map_map; reflexivity).
  assert (Fx : fixed_arrays (type_of (VTuple l)) = fold_right (fun x n => fixed_arrays (type_of x) + n) 0 l).
  { cbn [type_of fixed_arrays]. clear. induction l as [|x l IH]; cbn [map fold_right]; [reflexivity|]. rewrite IH. reflexivity. }
  assert (Sums : z_refs (usum (concat uss)) = z_refs (ssum (map (size_full v) l)) /\ z_bits (ssum (map (size_full v) l)) <= z_bits (usum (concat uss)) /\
    z_bits (usum (concat uss)) <= z_bits (ssum (map (fun x => max_size (type_of x)) l)) + fold_right (fun x n => fixed_arrays (type_of x) + n) 0 l /\
    z_refs (usum (concat uss)) <= z_refs (ssum (map (fun x => max_size (type_of x)) l)) /\
    nbits_of (atoms (concat uss)) <= z_bits (ssum (map (fun x => max_size (type_of x)) l)) /\ nrefs_of (atoms (concat uss)) <= z_refs (ssum (map (fun x => max_size (type_of x)) l)) /\
    (use_max v = false -> z_refs (ssum (map (fun x => max_size (type_of x)) l)) <= 255 -> z_refs (ssum (map exact_short l)) = nrefs_of (atoms (concat uss)) /\ z_bits (ssum (map exact_short l)) <= nbits_of (atoms (concat uss))) /\
    (0 < z_bits (ssum (map (fun x => max_size (type_of x)) l)) -> Exists (fun a => fst a <> []) (atoms (concat uss)))).
  { clear N T Fx. induction F as [|x us l uss Y F IH]; cbn [concat map fold_right].
    - repeat split; try (vm_compute; discriminate); try reflexivity; intros; cbn in *; lia.
    - destruct IH as (I1 & I2 & I3 & I4 & I5 & I6 & I7 & I8). destruct Y as [_ _ Y1 Y2 Y3 Y4 Y5 Y6 Y7 Y8 _].
      repeat match goal with |- context [ssum (?a :: ?b)] => change (ssum (a :: b)) with (sadd a (ssum b)) end.
      rewrite usum_app, atoms_app, nbits_app, nrefs_app. cbn [sadd z_bits z_refs]. do 6 (split; [lia|]). split.
      + intros M L. destruct (Y7 M ltac:(lia)), (I7 M ltac:(lia)). lia.
      + intros L. apply Exists_app. destruct (N.eq_dec (z_bits (max_size (type_of x))) 0) as [E0|E0]; [right; apply I8; lia|left; apply Y8; lia]. }
  destruct Sums as (I1 & I2 & I3 & I4 & I5 & I6 & I7 & I8).
  constructor; rewrite ?T, ?Fx; auto.
  - eapply seq_ok; exact F.
  - eapply seq_ne; eassumption.
  - intros M L. destruct (I7 M L) as [J1 J2]. cbn [exact_short]. unfold sat_sum. rewrite sat_refs by (cbn; lia). pose proof (sat_bits (map exact_short l) zero_size) as J3. change (z_refs zero_size) with 0. change (z_bits zero_size) with 0 in J3. lia.
  - intros last partial s l2 P Fo L. cbn [type_of AbiModel.load]. destruct (seq_dec l uss F last partial s l2 P Fo L) as (s' & E & P'). exists s'. rewrite E. split; [reflexivity|exact P'].
Qed.
Lemma correct_tuple l : Forall correct l -> correct (VTuple l).
Proof.
  intros C V [N U] s s' B W. cbn [AbiModel.write value_ok] in *. destruct (seq_write l C V U s s' B W) as (us & E & (uss & -> & F) & B'). exists (concat uss).
  split; [exact E|]. split; [apply enc_tuple; assumption|exact B'].
Qed.
Lemma correct_ref y : correct y -> correct (VRef y).
Proof.
  intros C V U s s' B W. cbn [AbiModel.write value_ok supported] in *. destruct (child fin v write y) as [b|] eqn:E; cbn [rbind] in W; [|discriminate].
  destruct (build fin b) as [c|] eqn:Eb; cbn [rbind] in W; [|discriminate]. apply build_ok in Eb. subst c. eapply unit_ref; [exact B|exact W|].
  apply enc_ref; try reflexivity; [cbn [size_full max_short exact_short]; destruct (use_max v); reflexivity|].
  intros last partial s0 s1 L. cbn [type_of AbiModel.load]. rewrite L. cbn [rbind]. unfold as_slice, chunk_cell. cbn [c_exotic rbind c_bits c_refs].
  rewrite (child_whole y b _ partial C V U E). reflexivity.
Qed.

(** ** Arrays and maps *)
Lemma emit1 z f l s s' : emit v z f s = Ok s' -> Forall builder_ok (r_stack s) -> appends f (cats l) -> emits v [(z, l)] s s' /\ Forall builder_ok (r_stack s').
Proof. intros W B A. exact (emit_emits v z f l s s' A B W). Qed.
Definition dchunk (d : option cell) : chunk := match d with Some c => ([true], [c]) | None => ([false], []) end.
Lemma dchunk_ok d : dict_c d (dchunk d).
Proof. destruct d as [c|]; [exact (maybe_some cell_c c ([], [c]) (cell_intro c))|constructor]. Qed.
Lemma dchunk_bits d : exists f, fst (dchunk d) = [f].
Proof. destruct d; eexists; reflexivity. Qed.
Lemma sl_dict_ok d s B R : s_bits s = fst (dchunk d) ++ B -> s_refs s = snd (dchunk d) ++ R -> sl_dict s = Ok (d, Sl (s_cell s) B R).
Proof.
  intros Eb Er. unfold sl_dict, sl_bits. rewrite Eb. destruct d as [c|]; cbn [dchunk fst snd app load_bit rbind] in *; [unfold sl_ref; cbn [s_refs s_cell s_bits]|]; rewrite Er; reflexivity.
Qed.
Lemma preload_one s f B : s_bits s = f :: B -> preload 1 s = Ok s.
Proof. intros E. unfold preload. rewrite E. cbn [N.eqb length]. destruct (N.ltb_spec (N.of_nat (S (length B))) 1); [lia|reflexivity]. Qed.
Lemma fits_no n t : n <= 1011 -> fits_leaf n (z_bits (max_size t)) = false -> 0 < z_bits (max_size t).
Proof. unfold fits_leaf. intros H. destruct (N.leb_spec (12 + n + z_bits (max_size t)) 1023); [discriminate|lia]. Qed.

Lemma array_elems t l d : Forall correct l -> all (fun y => value_ok utf8 y /\ type_of y = t) l -> all (supported v) l -> N.of_nat (length l) < 2 ^ 32 ->
  array_dict fin (fits_leaf 32 (z_bits (max_size t))) (map (child fin v write) l) 0 None = Ok d ->
  (d = None <-> l = []) /\
  forall partial, each_value (whole partial (load t true partial)) (dict_fuel d) (N.of_nat (length l)) (values_new d 32 false false) = Ok l.
Proof.
  intros C V U Ll E. destruct (array_dict_ok _ _ _ _ _ _ E) as (es & E1 & E2 & E3). rewrite map_length in E3.
  assert (S : StronglySorted by_key es) by (apply sorted_by_key; rewrite E3; apply idx_sorted; lia).
  assert (Le : length es = length l) by (pose proof (f_equal (@length _) E3) as X; rewrite map_length in X; etransitivity; [exact X|]; clear; generalize 0; induction l as [|x l IH]; intros i; cbn [length idx]; [reflexivity|rewrite IH; reflexivity]).
  pose proof (filled_some fin 32 es es d ltac:(lia) E1 (Permutation_refl _) S) as D. destruct (filled fin 32 es es d ltac:(lia) E1 (Permutation_refl _) S) as (Hf & _ & I).
  split; [rewrite D; destruct l, es; cbn in Le; try lia; split; intros; (reflexivity || discriminate)|].
  intros partial. apply (each_value_ok _ 32 d ltac:(lia) es l); [exact Hf|rewrite Le; reflexivity|exact I|].
  clear - C V U E2 Hv Hsorted. revert es E2. induction l as [|y l IH]; intros es E2; cbn [map] in E2; inversion E2 as [|? e ? es' (b & Hb & Hl) E2']; subst; [constructor|].
  inversion_clear C as [|? ? Cy C']. apply all_cons in V, U. destruct V as [[Vy Ty] V], U as [Uy U]. constructor; [|apply IH; assumption].
  intros c. subst t. destruct (leaf_load y b (snd e) c partial _ Cy Vy Uy Hb Hl (fits_no 32 (type_of y) ltac:(lia))) as (s' & L & B & R). eapply whole_ok; eassumption.
Qed.
Lemma w32_len (l : list aval) : N.of_nat (length l) < 2 ^ 32 -> w32 (N.of_nat (length l)) = N.of_nat (length l).
Proof. intros H. unfold w32. apply N.mod_small, H. Qed.
Lemma one_if_refs (l : list aval) d : (d = None <-> l = []) -> N.of_nat (length (snd (dchunk d))) = one_if l.
Proof. intros H. destruct d as [c|], l as [|y l]; cbn; try reflexivity; exfalso; destruct H as [H1 H2]; [discriminate (H2 eq_refl)|discriminate (H1 eq_refl)]. Qed.
Lemma array_raw_ok t l d partial s B R : (forall partial, each_value (whole partial (load t true partial)) (dict_fuel d) (N.of_nat (length l)) (values_new d 32 false false) = Ok l) ->
  s_bits s = fst (dchunk d) ++ B -> s_refs s = snd (dchunk d) ++ R -> array_raw (whole partial (load t true partial)) (N.of_nat (length l)) s = Ok (l, Sl (s_cell s) B R).
Proof.
  intros E Eb Er. unfold array_raw. destruct (dchunk_bits d) as (f & Ef). rewrite (preload_one s f B) by (rewrite Eb, Ef; reflexivity). cbn [rbind].
  rewrite (sl_dict_ok d s B R Eb Er). cbn [rbind]. rewrite E. reflexivity.
Qed.
Lemma nbits_one (a : chunk) : nbits_of [a] = N.of_nat (length (fst a)).
Proof. unfold nbits_of. rewrite cats_one. reflexivity. Qed.
Lemma nrefs_one (a : chunk) : nrefs_of [a] = N.of_nat (length (snd a)).
Proof. unfold nrefs_of. rewrite cats_one. reflexivity. Qed.
Lemma max_or_le m e k : m <= k -> e <= k -> max_or v m e <= k.
Proof. unfold max_or. destruct (use_max v); auto. Qed.
Lemma one_if_le {A} (l : list A) : one_if l <= 1.
Proof. destruct l; cbn; lia. Qed.

Lemma correct_array t l : Forall correct l -> correct (VArray t l).
Proof.
  intros C [Ll V] U s s' B W. cbn [AbiModel.write supported] in *.
  destruct (array_dict _ _ _ _ _) as [d|] eqn:E; cbn [rbind] in W; [|discriminate]. destruct (array_elems t l d C V U Ll E) as [D Ev].
  set (a := capp (nbits 32 (N.of_nat (length l)), []) (dchunk d)). pose proof (one_if_refs l d D) as Nr. destruct (dchunk_bits d) as (f & Ef). pose proof (one_if_le l) as O1.
  assert (La : N.of_nat (length (fst a)) = 33) by (unfold a, capp; cbn [fst]; rewrite Ef, app_length, length_nbits; reflexivity).
  assert (Ra : N.of_nat (length (snd a)) = one_if l) by (unfold a, capp; cbn [snd app]; exact Nr).
  rewrite (w32_len l Ll) in W.
  exists [(Size 33 (max_or v 1 (one_if l)), [a])]. destruct (emit1 _ _ [a] s s' W B) as [E1 E2].
  { rewrite cats_one. apply appends_bind; [apply appends_un; constructor; exact Ll|apply appends_dict, dchunk_ok]. }
  split; [exact E1|]. split; [|exact E2].
  assert (Sf : size_full v (VArray t l) = Size 33 (max_or v 1 (one_if l))) by (cbn [size_full max_short exact_short]; unfold max_or; destruct (use_max v); reflexivity).
  pose proof (max_or_le 1 (one_if l) 1 ltac:(lia) O1) as M1.
  apply (enc_one _ _ a [] 32); rewrite ?Sf, ?nbits_one, ?nrefs_one, ?La, ?Ra; cbn [type_of max_size fixed_arrays exact_short z_bits z_refs]; try lia; [apply List.Forall_nil|].
  intros last partial s0 s1 B0 R0 l2 F1 F2 F3 P F L. cbn [type_of AbiModel.load]. rewrite F1. cbn [rbind]. unfold sl_bits. rewrite F2. unfold a, capp. cbn [fst]. rewrite <- app_assoc.
  change (load_uint 32) with (load_ubig 32). change (nbits 32) with (nbits (N.to_nat 32)). rewrite load_ubig_ok by exact Ll. cbn [rbind].
  rewrite (array_raw_ok t l d partial _ B0 R0 Ev); [|reflexivity|exact F3]. cbn [rbind]. eexists. split; [reflexivity|]. apply P.
Qed.
Lemma correct_fixed_array t l : Forall correct l -> correct (VFixedArray t l).
Proof.
  intros C [Ll V] U s s' B W. cbn [AbiModel.write supported] in *.
  destruct (array_dict _ _ _ _ _) as [d|] eqn:E; cbn [rbind] in W; [|discriminate]. destruct (array_elems t l d C V U Ll E) as [D Ev].
  pose proof (one_if_refs l d D) as Nr. destruct (dchunk_bits d) as (f & Ef). pose proof (one_if_le l) as O1.
  assert (La : N.of_nat (length (fst (dchunk d))) = 1) by (rewrite Ef; reflexivity).
  exists [(Size 2 (max_or v 1 (one_if l)), [dchunk d])]. destruct (emit1 _ _ [dchunk d] s s' W B) as [E1 E2].
  { rewrite cats_one. apply appends_dict, dchunk_ok. }
  split; [exact E1|]. split; [|exact E2].
  assert (Sf : size_full v (VFixedArray t l) = Size 1 (max_or v 1 (one_if l))) by (cbn [size_full max_short exact_short]; unfold max_or; destruct (use_max v); reflexivity).
  pose proof (max_or_le 1 (one_if l) 1 ltac:(lia) O1) as M1.
  apply (enc_one _ _ (dchunk d) [] 1); rewrite ?Sf, ?nbits_one, ?nrefs_one, ?La, ?Nr; cbn [type_of max_size fixed_arrays exact_short z_bits z_refs]; try lia; [apply List.Forall_nil|].
  intros last partial s0 s1 B0 R0 l2 F1 F2 F3 P F L. cbn [type_of AbiModel.load].
  assert (X : array_raw (whole partial (load t true partial)) (N.of_nat (length l)) s0 = Ok (l, Sl (s_cell s1) B0 R0)).
  { unfold array_raw. rewrite F1. cbn [rbind]. rewrite (sl_dict_ok d s1 B0 R0 F2 F3). cbn [rbind]. rewrite Ev. reflexivity. }
  rewrite X. cbn [rbind]. rewrite Nat.eqb_refl. cbn [negb]. eexists. split; [reflexivity|]. apply P.
Qed.

Lemma key_chunk_ok k t b : key_layout k t b -> forall b', key_chunk k = Ok b' -> b' = b.
Proof.
  intros [n x H|n x H|x|a bits H _] b'; cbn [key_chunk].
  - unfold store_ubig. destruct (n <? _); [discriminate|]. intros E. apply put_ok in E. apply E.
  - unfold store_big. destruct (n <? _); [discriminate|]. intros E. apply put_ok in E. apply E.
  - intros E. apply put_ok in E. apply E.
  - rewrite (store_int_put a bits [] H). intros E. apply put_ok in E. apply E.
Qed.
Lemma load_key_ok k t b : key_layout k t b -> load_key t b = Ok k.
Proof.
  intros [n x H|n x H|x|a bits H _]; cbn [load_key].
  - rewrite <- (app_nil_r (nbits _ _)), (load_ubig_ok _ _ _ H). reflexivity.
  - rewrite <- (app_nil_r (zbits _ _)), (load_big_ok _ _ _ H). reflexivity.
  - reflexivity.
  - rewrite (proj2 (load_int_addr_iff bits a []) ltac:(exists bits; rewrite app_nil_r; auto)). reflexivity.
Qed.
Lemma map_elems k t l d : Forall (fun e => correct (snd e)) l -> value_ok utf8 (VMap k t l) -> supported v (VMap k t l) ->
  map_dict fin (fits_leaf (key_width k) (z_bits (max_size t))) (N.to_nat (key_width k)) (sorted (res chunk) (map (fun e => let '(k, y) := e in (k, child fin v write y)) l)) None = Ok d ->
  (d = None <-> l = []) /\
  forall partial, each_entry (fun kb e => let? key := load_key k kb in let? (x, _) := load t true partial e in Ok (key, x)) (dict_fuel d) (iter_new d (N.to_nat (key_width k)) false false) = Ok l.
Proof.
  intros C (V & keys & Fk & Sk) (Uk & _ & U) E. destruct (map_dict_ok _ _ _ _ _ _ E) as (es & E1 & E2).
  destruct (Permutation_Forall2 (Hsorted _ _) E2) as (order & Po & Fo). clear E2.
  assert (Ko : map fst order = keys).
  { clear - Fk Fo. revert order Fo. induction Fk as [|[k0 y] kb l keys Hk _ IH]; intros order Fo; cbn [map] in Fo; inversion Fo as [|? e ? order' (H1 & _) Fo']; subst; [reflexivity|].
    cbn [map]. rewrite (IH _ Fo'). cbn [fst] in *. rewrite (key_chunk_ok _ _ _ Hk _ H1). reflexivity. }
  assert (S : StronglySorted by_key order) by (apply sorted_by_key; rewrite Ko; exact Sk).
  assert (Hn : (N.to_nat (key_width k) <= 1023)%nat) by lia.
  pose proof (filled_some fin _ es order d Hn E1 Po S) as D. destruct (filled fin _ es order d Hn E1 Po S) as (Hf & I & _).
  split; [rewrite D; destruct l as [|[k0 y] l]; inversion Fo; subst; split; intros; (reflexivity || discriminate)|].
  intros partial. apply (each_entry_ok _ _ d Hn order l); [exact Hf|exact I|].
  clear - C V U Uk Fk Fo Hv Hsorted. revert order Fo. induction Fk as [|[k0 y] kb l keys Hk _ IH]; intros order Fo; cbn [map] in Fo; inversion Fo as [|? e ? order' (H1 & b & Hb & Hl) Fo']; subst; [constructor|].
  inversion_clear C as [|? ? Cy C']. apply all_cons in V, U. destruct V as [[Vy Ty] V], U as [Uy U]. cbn [fst snd] in *. constructor; [|apply IH; assumption].
  intros c. destruct e as [ek ev]. cbn [fst snd] in *. apply (key_chunk_ok _ _ _ Hk) in H1. subst ek t. rewrite (load_key_ok _ _ _ Hk). cbn [rbind].
  destruct (leaf_load y b ev c partial _ Cy Vy Uy Hb Hl (fits_no _ (type_of y) Uk)) as (s' & L & _). rewrite L. reflexivity.
Qed.
Lemma correct_map k t l : Forall (fun e => correct (snd e)) l -> correct (VMap k t l).
Proof.
  intros C V U s s' B W. cbn [AbiModel.write] in W.
  destruct (map_dict _ _ _ _ _) as [d|] eqn:E; cbn [rbind] in W; [|discriminate]. destruct (map_elems k t l d C V U E) as [D Ev].
  assert (Nr : N.of_nat (length (snd (dchunk d))) = one_if l).
  { destruct d as [c|], l as [|y l]; cbn; try reflexivity; exfalso; destruct D as [H1 H2]; [discriminate (H2 eq_refl)|discriminate (H1 eq_refl)]. }
  destruct (dchunk_bits d) as (f & Ef). pose proof (one_if_le l) as O1.
  assert (La : N.of_nat (length (fst (dchunk d))) = 1) by (rewrite Ef; reflexivity).
  exists [(Size 1 1, [dchunk d])]. destruct (emit1 _ _ [dchunk d] s s' W B) as [E1 E2].
  { rewrite cats_one. apply appends_dict, dchunk_ok. }
  split; [exact E1|]. split; [|exact E2].
  assert (Sf : size_full v (VMap k t l) = Size 1 1).
  { cbn [size_full max_short exact_short]. destruct U as (_ & U & _). destruct (use_max v); [reflexivity|]. destruct U as [U|U]; [discriminate|]. destruct l; [congruence|reflexivity]. }
  apply (enc_one _ _ (dchunk d) [] 1); rewrite ?Sf, ?nbits_one, ?nrefs_one, ?La, ?Nr; cbn [type_of max_size fixed_arrays exact_short z_bits z_refs]; try lia; [apply List.Forall_nil|].
  intros last partial s0 s1 B0 R0 l2 F1 F2 F3 P F L. cbn [type_of AbiModel.load]. rewrite F1. cbn [rbind]. rewrite (sl_dict_ok d s1 B0 R0 F2 F3). cbn [rbind].
  rewrite Ev. cbn [rbind]. eexists. split; [reflexivity|]. apply P.
Qed.

(** ** Optional values *)
Lemma small_ok z : small z = true -> z_bits z < 1023 /\ z_refs z < 4.
Proof. unfold small. rewrite andb_true_iff, !N.ltb_lt. auto. Qed.
Definition opt_max (t : aty) : size := if small (max_size t) then sadd (Size 1 0) (max_size t) else Size 1 1.
Lemma opt_max_ok t : z_bits (opt_max t) <= 1023 /\ z_refs (opt_max t) <= 3 /\ 1 <= z_bits (opt_max t).
Proof. unfold opt_max. destruct (small (max_size t)) eqn:S; [apply small_ok in S; cbn [sadd z_bits z_refs]; lia|cbn [z_bits z_refs]; lia]. Qed.
Lemma max_size_opt t : max_size (TOpt t) = opt_max t.
Proof. reflexivity. Qed.
Lemma max_short_opt t o : max_short (VOpt t o) = opt_max t.
Proof. cbn [max_short]. unfold opt_max. destruct (small (max_size t)); reflexivity. Qed.
Lemma size_full_opt t o : size_full v (VOpt t o) = if use_max v then opt_max t else exact_short (VOpt t o).
Proof. rewrite <- (max_short_opt t o). reflexivity. Qed.
Lemma correct_none t : correct (VOpt t None).
Proof.
  intros _ _ s s' B W. cbn [AbiModel.write] in W. fold (opt_max t) in W. pose proof (opt_max_ok t) as (O1 & O2 & O3).
  exists [(if use_max v then opt_max t else Size 1 0, [([false], [])])]. destruct (emit1 _ _ [([false], []) : chunk] s s' W B) as [E1 E2].
  { rewrite cats_one. apply appends_bool. constructor. }
  split; [exact E1|]. split; [|exact E2].
  apply (enc_one _ _ (([false], []) : chunk) [] 1); rewrite ?size_full_opt, ?nbits_one, ?nrefs_one; cbn [type_of]; rewrite ?max_size_opt; cbn [fixed_arrays exact_short z_bits z_refs fst snd length]; try (destruct (use_max v); cbn [z_bits z_refs]; lia); [apply List.Forall_nil|].
  intros last partial s0 s1 B0 R0 l2 F1 F2 F3 P F L. cbn [type_of AbiModel.load]. rewrite F1. cbn [rbind]. unfold sl_bits. rewrite F2. cbn [fst app load_bit rbind negb].
  eexists. split; [reflexivity|]. rewrite F3. cbn [snd app]. apply P.
Qed.
Lemma appends_putc c : appends (putc c) c.
Proof.
  intros b [B1 B2]. unfold putc, put, putr, capp. change MAX_BITS with 1023%nat. change MAX_REFS with 4%nat.
  destruct (1023 <? length (fst b) + length (fst c))%nat; cbn [rbind orb]; [reflexivity|]. destruct (4 <? length (snd b) + length (snd c))%nat; reflexivity.
Qed.
Lemma store_opt_appends l : appends (fun t => let? t := store_bool true t in putc (cats l) t) (cats (([true], []) :: l)).
Proof. apply (appends_bind (store_bool true) ([true], [])); [apply appends_bool; constructor|apply appends_putc]. Qed.
Lemma correct_some t y : correct y -> correct (VOpt t (Some y)).
Proof.
  intros C [V Ty] [Us U] s s' B W. cbn [AbiModel.write] in W. fold (opt_max t) in W. pose proof (opt_max_ok t) as (O1 & O2 & O3).
  destruct (child fin v write y) as [b|] eqn:E; cbn [rbind] in W; [|discriminate]. subst t.
  destruct (small (max_size (type_of y))) eqn:Sm; cbn [rbind] in W.
  - destruct Us as [Us|Us]; [|congruence]. destruct (small_ok _ Sm) as [S1 S2]. destruct (child_ok y b C V U E) as (us & Y & _ & Hb).
    assert (Eb : b = cats (atoms us)) by (apply Hb; [pose proof (e_max_bits _ _ Y); lia|pose proof (e_max_refs _ _ Y); lia]). clear Hb.
    set (z := if use_max v then opt_max (type_of y) else Size (1 + N.of_nat (length (fst b))) (N.of_nat (length (snd b)))) in W.
    exists [(z, ([true], []) :: atoms us)]. destruct (emit_emits v z _ (([true], []) :: atoms us) s s' ltac:(rewrite Eb in W |- *; apply store_opt_appends) B) as [E1 E2]; [rewrite Eb in W; exact W|].
    split; [exact E1|]. split; [|exact E2].
    pose proof (e_len _ _ Y) as Y1. pose proof (e_nrefs _ _ Y) as Y2. pose proof (e_exact _ _ Y) as Y3.
    assert (N1 : N.of_nat (length (fst b)) = nbits_of (atoms us)) by (subst b; reflexivity). assert (N2 : N.of_nat (length (snd b)) = nrefs_of (atoms us)) by (subst b; reflexivity).
    assert (M1 : nbits_of ((([true], []) : chunk) :: atoms us) = 1 + nbits_of (atoms us)) by (change ((([true], []) : chunk) :: atoms us) with ([([true], []) : chunk] ++ atoms us); rewrite nbits_app; reflexivity).
    assert (M2 : nrefs_of ((([true], []) : chunk) :: atoms us) = nrefs_of (atoms us)) by (change ((([true], []) : chunk) :: atoms us) with ([([true], []) : chunk] ++ atoms us); rewrite nrefs_app; reflexivity).
    assert (Om : opt_max (type_of y) = Size (1 + z_bits (max_size (type_of y))) (z_refs (max_size (type_of y)))) by (unfold opt_max; rewrite Sm; reflexivity).
    assert (Ex : exact_short (VOpt (type_of y) (Some y)) = Size (1 + z_bits (exact_short y)) (z_refs (exact_short y))) by (cbn [exact_short]; rewrite Sm; reflexivity).
    apply (enc_one _ z (([true], []) : chunk) (atoms us) 1); rewrite ?size_full_opt; cbn [type_of]; rewrite ?max_size_opt, ?M1, ?M2, ?Ex, ?Om; unfold z; rewrite ?N1, ?N2, ?Om; cbn [fixed_arrays z_bits z_refs fst snd length];
      try (destruct (use_max v) eqn:Um; cbn [z_bits z_refs]; try (destruct (Y3 eq_refl ltac:(lia))); lia).
    + apply atoms_ok, (e_ok _ _ Y).
    + intros last partial s0 s1 B0 R0 l2 F1 F2 F3 P F L. cbn [type_of AbiModel.load]. rewrite F1. cbn [rbind]. unfold sl_bits. rewrite F2. cbn [fst app load_bit rbind negb]. rewrite Sm, F3. cbn [snd app].
      destruct (e_dec _ _ Y last partial (Sl (s_cell s1) B0 R0) l2 (P _) F L) as (s2 & E3 & P2). rewrite E3. eexists. split; [reflexivity|exact P2].
  - destruct (build fin b) as [c|] eqn:Eb; cbn [rbind] in W; [|discriminate]. apply build_ok in Eb. subst c.
    assert (Om : opt_max (type_of y) = Size 1 1) by (unfold opt_max; rewrite Sm; reflexivity). rewrite Om in W.
    assert (Z : (if use_max v then Size 1 1 else Size 1 1) = Size 1 1) by (destruct (use_max v); reflexivity). rewrite Z in W.
    exists [(Size 1 1, [([true], []); ([], [chunk_cell b])])].
    destruct (emit_emits v (Size 1 1) _ [([true], []); ([], [chunk_cell b])] s s' (store_opt_appends [([], [chunk_cell b])]) B) as [E1 E2]; [rewrite cats_one; exact W|].
    split; [exact E1|]. split; [|exact E2].
    assert (Ex : exact_short (VOpt (type_of y) (Some y)) = Size 1 1) by (cbn [exact_short]; rewrite Sm; reflexivity).
    assert (M1 : nbits_of [([true], []) : chunk; ([], [chunk_cell b])] = 1) by reflexivity. assert (M2 : nrefs_of [([true], []) : chunk; ([], [chunk_cell b])] = 1) by reflexivity.
    apply (enc_one _ _ (([true], []) : chunk) [([], [chunk_cell b]) : chunk] 1); rewrite ?size_full_opt; cbn [type_of]; rewrite ?max_size_opt, ?M1, ?M2, ?Ex, ?Om, ?Z; cbn [fixed_arrays z_bits z_refs fst snd length]; try lia.
    + constructor; [right; eexists; reflexivity|apply List.Forall_nil].
    + apply N.le_refl.
    + apply N.le_refl.
    + intros _ _. split; [reflexivity|apply N.le_refl].
    + intros last partial s0 s1 B0 R0 l2 F1 F2 F3 P F L. cbn [type_of AbiModel.load]. rewrite F1. cbn [rbind]. unfold sl_bits. rewrite F2. cbn [fst app load_bit rbind negb]. rewrite Sm, F3. cbn [snd app].
      specialize (P (s_cell s1)). cbn [app] in P. destruct (pos_ref v _ _ l2 Hv P F) as (s2 & E3 & P2). rewrite L.
      match type of E3 with ?a = _ => match goal with |- context [load_cell v ?q ?w] => change (load_cell v q w) with a end end. rewrite E3. cbn [rbind]. unfold as_slice, chunk_cell. cbn [c_exotic rbind c_bits c_refs].
      rewrite (child_whole y b _ partial C V U E). eexists. split; [reflexivity|exact P2].
Qed.

Lemma all_correct x : correct x.
Proof.
  induction x using aval_nest; auto using correct_uint, correct_int, correct_varuint, correct_varint, correct_bool, correct_cell, correct_addr, correct_bytes, correct_fixed, correct_string, correct_token,
    correct_tuple, correct_array, correct_fixed_array, correct_map, correct_none, correct_some, correct_ref.
Qed.

Lemma value_round_trip x c : value_ok utf8 x -> supported v x -> make_cell fin sorted v x = Ok c -> load_value utf8 v (type_of x) c = Ok x.
Proof.
  intros V U. unfold make_cell, make_builder. destruct (child fin v write x) as [b|] eqn:E; cbn [rbind]; [|discriminate]. intros Eb. apply build_ok in Eb. subst c.
  unfold load_value, as_slice, chunk_cell. cbn [c_exotic rbind c_bits c_refs]. apply child_whole; [apply all_correct|exact V|exact U|exact E].
Qed.
Lemma tuple_round_trip l c : all (value_ok utf8) l -> all (supported v) l -> tuple_to_cell fin sorted v l = Ok c -> load_tuple utf8 v (map type_of l) c = Ok l.
Proof.
  intros V U. unfold tuple_to_cell, tuple_to_builder.
  set (s0 := fold_left _ l ser_new). destruct (foldm write l s0) as [s'|] eqn:W; cbn [rbind]; [|discriminate]. destruct (finalize fin s') as [b|] eqn:F; cbn [rbind]; [|discriminate].
  intros Eb. apply build_ok in Eb. subst c.
  assert (S0 : forall s l, fold_left (fun s x => reserve v x s) l s = Ser (r_cur s) (sadd (r_left s) (ssum (map (size_full v) l))) (r_stack s)).
  { clear. intros s l. revert s. induction l as [|x l IH]; intros s; cbn [fold_left map].
    - change (ssum []) with zero_size. destruct s as [c [p q] st]. unfold sadd, zero_size. cbn [r_cur r_left r_stack z_bits z_refs]. rewrite !N.add_0_r. reflexivity.
    - rewrite IH. change (ssum (size_full v x :: map (size_full v) l)) with (sadd (size_full v x) (ssum (map (size_full v) l))). unfold reserve, sadd. cbn [r_cur r_left r_stack z_bits z_refs]. rewrite !N.add_assoc. reflexivity. }
  unfold s0 in W. rewrite S0 in W. set (s1 := Ser _ _ _) in W.
  assert (Cl : Forall correct l) by (apply Forall_forall; intros x _; apply all_correct).
  destruct (seq_write l Cl V U s1 s' ltac:(constructor) W) as (us & E & (uss & -> & Fe) & _).
  assert (Sums : z_refs (usum (concat uss)) = z_refs (ssum (map (size_full v) l)) /\ z_bits (ssum (map (size_full v) l)) <= z_bits (usum (concat uss))).
  { destruct l as [|x l]; [inversion Fe; subst; split; [reflexivity|apply N.le_refl]|]. pose proof (enc_tuple (x :: l) uss ltac:(discriminate) Fe) as Y. split; [exact (e_refs _ _ Y)|exact (e_bits _ _ Y)]. }
  assert (P0 : placed s1 [] (concat uss)).
  { subst s1. constructor; cbn [ser_new r_stack r_cur r_left sadd zero_size z_bits z_refs map]; try lia; try reflexivity; try (constructor); [intros; discriminate|exact (seq_ok _ _ Fe)]. }
  destruct (place_all v Hv _ _ _ _ P0 E) as (st & P1 & C1). cbn [rev concat app] in C1.
  pose proof (finalize_pos _ s' st b P1 F) as Pb. rewrite C1 in Pb. apply (pos_chunk_pos _ _ (chunk_cell b)) in Pb.
  destruct (seq_dec l uss Fe true false (Sl (chunk_cell b) (fst b) (snd b)) []) as (s2 & L & P2); [rewrite app_nil_r; exact Pb|constructor|reflexivity|].
  unfold load_tuple, as_slice, load_all. cbn [chunk_cell c_exotic rbind c_bits c_refs]. fold (chunk_cell b). rewrite L. cbn [rbind]. apply pos_nil in P2. destruct P2 as [B R]. unfold check_remaining. rewrite B, R. reflexivity.
Qed.
End Main.
