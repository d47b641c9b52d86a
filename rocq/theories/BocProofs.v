(** * Decoding a well-formed bag of cells (C15). *)
From Verif Require Import Err BitsProofs BuilderModel BuilderSpec CellModel HashSpec HashModel FcellSpec HashProofs HashProofs2 BocSpec BocModel.
Local Open Scope nat_scope.

(** ** Bytes *)
Lemma rdn_app (a b c : list N) q n : q = length a -> n = length b -> rdn (a ++ b ++ c) q n = Some b.
Proof.
  intros -> ->. unfold rdn. rewrite !app_length, (proj2 (Nat.leb_le _ _)) by lia.
  rewrite drop_app, take_app. reflexivity.
Qed.
Lemma pow256 (n : nat) : (256 ^ N.of_nat n = 2 ^ N.of_nat (8 * n))%N.
Proof. change 256%N with (2 ^ 8)%N. rewrite <- N.pow_mul_r. f_equal. lia. Qed.
Lemma read_uint_app a n v c q : q = length a -> (v < 256 ^ N.of_nat n)%N -> read_uint (a ++ to_be n v ++ c) q n = BOk v.
Proof.
  intros -> H. unfold read_uint. rewrite rdn_app by (rewrite ?to_be_length; reflexivity). cbn [b_opt bbind].
  rewrite from_be_to_be; [reflexivity|]. rewrite <- pow256. exact H.
Qed.
Lemma bytes_eqb_eq a : forall b, bytes_eqb a b = true <-> a = b.
Proof.
  induction a as [|x a IH]; intros [|y b]; cbn [bytes_eqb]; try (split; [discriminate|discriminate]); [split; reflexivity|].
  rewrite andb_true_iff, N.eqb_eq, IH. split; [intros (-> & ->); reflexivity|intros E; injection E as -> ->; auto].
Qed.

(** ** Descriptor bytes *)
Definition d1_val (m : N) (s e : bool) (n : nat) : N := (32 * m + 16 * N.b2n s + 8 * N.b2n e + N.of_nat n)%N.
Lemma d1_val_fields m s e n : (m < 8)%N -> n <= 4 ->
  d_mask (d1_val m s e n) = m /\ d_store_hashes (d1_val m s e n) = s /\ d_exotic (d1_val m s e n) = e /\
  d_refs (d1_val m s e n) = N.of_nat n /\ (d1_val m s e n < 256)%N /\ d_absent (d1_val m s e n) = false.
Proof.
  intros Hm Hn. assert (L : (d1_val m s e n < 256)%N) by (unfold d1_val; destruct s, e; cbn [N.b2n]; lia).
  destruct (d1_split _ L) as (E & M8 & R8). remember (d1_val m s e n) as d eqn:Ed.
  assert (E2 : d = (32 * m + 16 * N.b2n s + 8 * N.b2n e + N.of_nat n)%N) by (rewrite Ed; reflexivity). clear Ed.
  unfold d_absent.
  destruct (d_store_hashes d), s, (d_exotic d), e; cbn [N.b2n] in *; try lia;
  (split; [lia|]; split; [reflexivity|]; split; [reflexivity|]; split; [lia|]; split; [exact L|]; apply N.eqb_neq; lia).
Qed.

(** ** The completion tag *)
Fixpoint lists (n : nat) : list (list bool) :=
  match n with O => [[]] | S n' => map (cons true) (lists n') ++ map (cons false) (lists n') end.
Lemma lists_in n : forall l, length l = n -> In l (lists n).
Proof.
  induction n as [|n IH]; intros [|b l] H; try discriminate; [left; reflexivity|].
  cbn [lists]. apply in_app_iff. destruct b; [left|right]; apply in_map; apply IH; cbn in H; lia.
Qed.
Definition tag_ok (l : list bool) : bool :=
  match pack (l ++ [true]) with
  | [x] => (8 - trailing_zeros8 x - 1 =? N.of_nat (length l))%N && (negb (N.land x 127 =? 0)%N) && (trailing_zeros8 x <=? 6)%N
  | _ => false
  end.
Lemma tag_last bits : length bits mod 8 <> 0 ->
  exists x, list.last (data_bytes bits) = Some x /\ (N.land x 127 =? 0)%N = false /\
    (8 * N.of_nat (length (data_bytes bits)) - trailing_zeros8 x - 1 = N.of_nat (length bits))%N.
Proof.
  intros H. unfold data_bytes, pad. rewrite (proj2 (Nat.eqb_neq _ _) H).
  set (r := length bits mod 8) in *. set (k := length bits / 8).
  pose proof (Nat.div_mod (length bits) 8 ltac:(lia)) as D. fold r k in D. pose proof (Nat.mod_upper_bound (length bits) 8 ltac:(lia)) as U. fold r in U.
  rewrite <- (take_drop (8 * k) bits). rewrite <- app_assoc, pack_app_bytes.
  2:{ rewrite take_length, Nat.min_l by lia. rewrite Nat.mul_comm. apply Nat.mod_mul. lia. }
  assert (Ld : length (drop (8 * k) bits) = r) by (rewrite drop_length; lia).
  assert (T : tag_ok (drop (8 * k) bits) = true).
  { assert (A : forallb tag_ok (lists 1 ++ lists 2 ++ lists 3 ++ lists 4 ++ lists 5 ++ lists 6 ++ lists 7) = true) by (vm_compute; reflexivity).
    apply (proj1 (forallb_forall _ _) A).
    assert (C : r = 1 \/ r = 2 \/ r = 3 \/ r = 4 \/ r = 5 \/ r = 6 \/ r = 7) by lia.
    rewrite !in_app_iff. pose proof (lists_in r _ Ld) as I. destruct C as [C|[C|[C|[C|[C|[C|C]]]]]]; rewrite C in I; tauto. }
  unfold tag_ok in T. destruct (pack (drop (8 * k) bits ++ [true])) as [|x [|? ?]]; try discriminate.
  rewrite !andb_true_iff in T. destruct T as ((T1 & T2) & T3). apply N.eqb_eq in T1. apply N.leb_le in T3.
  exists x. split; [apply last_snoc|]. split; [destruct (N.land x 127 =? 0)%N; [discriminate|reflexivity]|].
  rewrite take_drop, app_length, length_pack, take_length, Nat.min_l by lia. cbn [length].
  replace ((8 * k + 7) / 8) with k by (symmetry; rewrite Nat.mul_comm, Nat.div_add_l by lia; rewrite (Nat.div_small 7) by lia; lia). lia.
Qed.
(** Conversely, bytes with a tag are the data of the bits before it. *)
Lemma last_tag data x : Forall byte_ok data -> list.last data = Some x -> (N.land x 127 =? 0)%N = false ->
  let n := (8 * N.of_nat (length data) - trailing_zeros8 x - 1)%N in
  exists bits, length bits = N.to_nat n /\ data_bytes bits = data /\ length bits mod 8 <> 0.
Proof.
  intros Hd Hl Hx. cbn zeta. apply last_Some in Hl as (a & ->).
  apply List.Forall_app in Hd as (Ha & Hx8). inversion Hx8 as [|? ? X8 _]; subst.
  set (w := N.to_nat (7 - trailing_zeros8 x)).
  assert (T : (trailing_zeros8 x <=? 6)%N && bytes_eqb (pack (take w (byte_bits x) ++ [true])) [x] = true).
  { pose proof (seqN_all 256 (fun x => (N.land x 127 =? 0)%N || ((trailing_zeros8 x <=? 6)%N && bytes_eqb (pack (take (N.to_nat (7 - trailing_zeros8 x)) (byte_bits x) ++ [true])) [x])) ltac:(vm_compute; reflexivity) x X8) as A.
    cbn beta in A. rewrite Hx in A. exact A. }
  apply andb_true_iff in T as (T1 & T2). apply N.leb_le in T1. apply bytes_eqb_eq in T2.
  exists (bytes_bits a ++ take w (byte_bits x)).
  assert (Lw : length (take w (byte_bits x)) = w) by (rewrite take_length, length_byte_bits; lia).
  assert (Ln : length (bytes_bits a ++ take w (byte_bits x)) = 8 * length a + w) by (rewrite app_length, length_bytes_bits, Lw; reflexivity).
  assert (Lm : length (bytes_bits a ++ take w (byte_bits x)) mod 8 = w).
  { rewrite Ln, Nat.mul_comm, Nat.add_comm, Nat.mod_add by lia. apply Nat.mod_small. lia. }
  split; [rewrite Ln, app_length; cbn [length]; lia|]. split; [|rewrite Lm; lia].
  unfold data_bytes, pad. rewrite Lm, (proj2 (Nat.eqb_neq _ _)) by lia.
  rewrite <- app_assoc, pack_app_bytes by (rewrite length_bytes_bits, Nat.mul_comm; apply Nat.mod_mul; lia).
  rewrite pack_bytes_bits by exact Ha. rewrite T2. reflexivity.
Qed.
Lemma aligned_data data : Forall byte_ok data -> exists bits, length bits = 8 * length data /\ data_bytes bits = data /\ length bits mod 8 = 0.
Proof.
  intros H. exists (bytes_bits data). assert (M : length (bytes_bits data) mod 8 = 0) by (rewrite length_bytes_bits, Nat.mul_comm; apply Nat.mod_mul; lia).
  split; [apply length_bytes_bits|]. split; [|exact M].
  unfold data_bytes, pad. rewrite (proj2 (Nat.eqb_eq _ _) M). apply pack_bytes_bits. exact H.
Qed.

(** ** One cell *)
Lemma fail_false e : fail_if false e = BOk tt.
Proof. reflexivity. Qed.
Lemma own_levels_sig m : own_levels m = sig m.
Proof. reflexivity. Qed.
Lemma length_own m : length (own_levels m) = bits_in m 3 + 1.
Proof. rewrite own_levels_sig. unfold sig. cbn [length]. rewrite length_sig_from. lia. Qed.
Lemma length_concat_const {A B} (f : A -> list B) n l : Forall (fun x => length (f x) = n) l -> length (concat (map f l)) = n * length l.
Proof.
  induction 1 as [|x l H _ IH]; [cbn; lia|]. cbn [map concat length]. rewrite app_length, H, IH. lia.
Qed.
Lemma length_indices rs (l : list nat) : length (concat (map (fun j => to_be rs (N.of_nat j)) l)) = rs * length l.
Proof. apply length_concat_const. apply List.Forall_forall. intros. apply to_be_length. Qed.

Lemma reverse_rev_lookup {A} (l : list A) i : i < length l -> rev l !! i = l !! (length l - 1 - i).
Proof. intros H. rewrite rev_alt. change (rev_append l []) with (reverse l). rewrite reverse_lookup by exact H. f_equal. lia. Qed.

Section Sha.
Context (sha : list N -> list N) (Hsha : sha_like sha).

Definition stored_part (e : entry) : list N :=
  let i := info_of sha (e_tree e) in
  if e_stored e then concat (map (i_hash i) (own_levels (i_mask i))) ++ concat (map (fun l => to_be 2 (i_depth i l)) (own_levels (i_mask i))) else [].
Definition stored_len (m : N) (s : bool) : nat := if s then 34 * (N.to_nat (lm_level m) + 1) else 0.
Lemma length_stored e : valid_tree (e_tree e) -> length (stored_part e) = stored_len (i_mask (info_of sha (e_tree e))) (e_stored e).
Proof.
  intros V. pose proof (info_regular sha (proj1 Hsha) _ V) as RG. unfold stored_part, stored_len. cbn zeta.
  destruct (e_stored e); [|reflexivity].
  rewrite app_length, (length_concat_const _ 32), (length_concat_const _ 2), length_own, (level_of _ (rg_mask _ RG)).
  - lia.
  - apply List.Forall_forall. intros. apply to_be_length.
  - apply List.Forall_forall. intros. apply (rg_len _ RG).
Qed.
Definition ref_bytes (rs : nat) (l : list nat) : list N := concat (map (fun j => to_be rs (N.of_nat j)) l).
Lemma cell_bytes_eq rs e exotic bits refs : e_tree e = Cell exotic bits refs -> length bits <= 1023 ->
  cell_bytes sha rs e =
    [d1_val (i_mask (info_of sha (e_tree e))) (e_stored e) exotic (length refs); compute_d2 (N.of_nat (length bits))]
    ++ stored_part e ++ data_bytes bits ++ ref_bytes rs (e_next e).
Proof. intros E H. unfold cell_bytes, stored_part, ref_bytes, d1_val. rewrite E, compute_d2_val by exact H. reflexivity. Qed.

Lemma read_raw_cell rs e rest : storable sha e -> length (e_next e) = length (c_refs (e_tree e)) ->
  read_raw (cell_bytes sha rs e ++ rest) rs = BOk (length (cell_bytes sha rs e)).
Proof.
  intros (V & D & P) L. destruct (e_tree e) as [exotic bits refs] eqn:ET. cbn [c_refs c_exotic c_bits] in *.
  pose proof (info_regular sha (proj1 Hsha) _ V) as RG. rewrite <- ET in RG.
  inversion V as [? ? ? V1 V2 V3 V4]; subst.
  rewrite (cell_bytes_eq rs e exotic bits refs ET V1).
  pose proof (length_stored e ltac:(rewrite ET; exact V)) as LS.
  set (m := i_mask (info_of sha (e_tree e))) in *.
  destruct (d1_val_fields m (e_stored e) exotic (length refs) (rg_mask _ RG) V2) as (F1 & F2 & F3 & F4 & F5 & F6).
  destruct (d2_fields (length bits) V1) as (G1 & G2 & G3).
  set (d1 := d1_val _ _ _ _) in *. set (d2 := compute_d2 _) in *.
  assert (LR : length (ref_bytes rs (e_next e)) = length refs * rs) by (unfold ref_bytes; rewrite length_indices, L; lia).
  assert (LD : length (data_bytes bits) = N.to_nat (d_byte_len d2)) by (rewrite length_data, G2; lia).
  assert (ST : (if d_store_hashes d1 then
     if d_exotic d1 && (N.to_nat (d_refs d1) =? 0)%nat && (0 <? lm_level (d_mask d1))%N then BErr UnnormalizedCell
     else BOk (34 * (N.to_nat (lm_level (d_mask d1)) + 1))
   else BOk 0) = BOk (stored_len m (e_stored e))).
  { rewrite F1, F2. unfold stored_len. destruct (e_stored e); [|reflexivity].
    destruct (d_exotic d1 && (N.to_nat (d_refs d1) =? 0)%nat && (0 <? lm_level m)%N) eqn:X; [|reflexivity]. exfalso.
    rewrite !andb_true_iff in X. destruct X as ((X1 & X2) & X3). rewrite F3 in X1. apply Nat.eqb_eq in X2. apply N.ltb_lt in X3.
    rewrite F4, Nat2N.id in X2.
    specialize (P eq_refl). unfold m in X3. rewrite ET in X3. cbn [info_of] in X3. unfold cell_info in X3.
    destruct (kind_of exotic bits) as [|mm| | |] eqn:K; cbn [layout] in V3; destruct_and?; try congruence.
    cbn [i_mask cell_mask] in X3. change (lm_level 0) with 0%N in X3. lia. }
  unfold read_raw. rewrite (proj2 (Nat.ltb_ge _ _)) by (rewrite !app_length; cbn [length]; lia).
  rewrite fail_false. cbn [bbind]. cbn [rd lookup list_lookup app b_opt bbind]. rewrite F6. cbn [fail_if bbind].
  rewrite (proj2 (Nat.ltb_ge 4 _)) by lia. cbn [fail_if bbind]. rewrite ST. cbn [bbind].
  set (total := 2 + stored_len m (e_stored e) + N.to_nat (d_byte_len d2) + N.to_nat (d_refs d1) * rs).
  assert (LT : length (d1 :: d2 :: stored_part e ++ data_bytes bits ++ ref_bytes rs (e_next e)) = total).
  { cbn [length]. rewrite !app_length, LS, LR, LD. unfold total. rewrite F4, Nat2N.id. lia. }
  rewrite LT. rewrite (proj2 (Nat.ltb_ge _ _)).
  2:{ change (d1 :: d2 :: (stored_part e ++ data_bytes bits ++ ref_bytes rs (e_next e)) ++ rest) with ((d1 :: d2 :: stored_part e ++ data_bytes bits ++ ref_bytes rs (e_next e)) ++ rest). rewrite app_length, LT. lia. }
  cbn [fail_if bbind]. rewrite G1. destruct (Nat.eqb_spec (length bits mod 8) 0) as [Z|Z]; cbn [negb]; [rewrite andb_false_r; reflexivity|].
  destruct (tag_last bits Z) as (x & X1 & X2 & X3).
  apply last_Some in X1 as (a & Ea).
  rewrite (proj2 (Nat.ltb_lt _ _)) by (rewrite <- LD, Ea, app_length; cbn [length]; lia). cbn [andb].
  assert (R : rd (d1 :: d2 :: (stored_part e ++ data_bytes bits ++ ref_bytes rs (e_next e)) ++ rest) (2 + stored_len m (e_stored e) + N.to_nat (d_byte_len d2) - 1) = Some x).
  { replace (d1 :: d2 :: (stored_part e ++ data_bytes bits ++ ref_bytes rs (e_next e)) ++ rest) with (([d1; d2] ++ stored_part e ++ a) ++ x :: ref_bytes rs (e_next e) ++ rest).
    2:{ rewrite Ea. rewrite <- !app_assoc. reflexivity. }
    unfold rd. apply list_lookup_middle. rewrite !app_length, LS, <- LD, Ea, app_length. cbn [length]. lia. }
  rewrite R. cbn [b_opt bbind]. rewrite X2. reflexivity.
Qed.

Lemma build_raw_cell rs e cells cc refs : storable sha e ->
  Forall (finalized sha) refs -> map tree_of refs = c_refs (e_tree e) -> length (e_next e) = length refs ->
  read_refs (length refs) (cell_bytes sha rs e) (length (cell_bytes sha rs e) - rs * length refs) rs cc cells = BOk refs ->
  exists c, build_raw sha (cell_bytes sha rs e) cells cc rs = BOk c /\ finalized sha c /\ tree_of c = e_tree e.
Proof.
  intros (V & D & P) FR MR L RR. destruct (e_tree e) as [exotic bits trefs] eqn:ET. cbn [c_refs c_exotic c_bits] in *.
  assert (Lr : length trefs = length refs) by (rewrite <- MR, map_length; reflexivity).
  pose proof (info_regular sha (proj1 Hsha) _ V) as RG. rewrite <- ET in RG.
  inversion V as [? ? ? V1 V2 V3 V4]; subst.
  revert RR. rewrite (cell_bytes_eq rs e exotic bits _ ET V1). intros RR.
  pose proof (length_stored e ltac:(rewrite ET; exact V)) as LS.
  set (m := i_mask (info_of sha (e_tree e))) in *. rewrite map_length in *.
  destruct (d1_val_fields m (e_stored e) exotic (length refs) (rg_mask _ RG) V2) as (F1 & F2 & F3 & F4 & F5 & F6).
  destruct (d2_fields (length bits) V1) as (G1 & G2 & G3).
  set (d1 := d1_val _ _ _ _) in *. set (d2 := compute_d2 _) in *.
  assert (LR : length (ref_bytes rs (e_next e)) = length refs * rs) by (unfold ref_bytes; rewrite length_indices, L; lia).
  assert (LD : length (data_bytes bits) = N.to_nat (d_byte_len d2)) by (rewrite length_data, G2; lia).
  unfold build_raw. cbn [rd lookup list_lookup app b_opt bbind]. 
  assert (OF : (2 + if d_store_hashes d1 then 34 * (N.to_nat (lm_level (d_mask d1)) + 1) else 0) = length ([d1; d2] ++ stored_part e)).
  { rewrite app_length, LS, F1, F2. unfold stored_len. destruct (e_stored e); reflexivity. }
  rewrite OF.
  change (d1 :: d2 :: stored_part e ++ data_bytes bits ++ ref_bytes rs (e_next e)) with (([d1; d2] ++ stored_part e) ++ data_bytes bits ++ ref_bytes rs (e_next e)) in *.
  change ([d1; d2] ++ stored_part e ++ data_bytes bits ++ ref_bytes rs (e_next e)) with (([d1; d2] ++ stored_part e) ++ data_bytes bits ++ ref_bytes rs (e_next e)) in *.
  rewrite (rdn_app _ (data_bytes bits)) by (reflexivity || symmetry; exact LD). cbn [b_opt bbind].
  rewrite F4, Nat2N.id.
  replace (length ([d1; d2] ++ stored_part e) + N.to_nat (d_byte_len d2)) with (length (([d1; d2] ++ stored_part e) ++ data_bytes bits ++ ref_bytes rs (e_next e)) - rs * length refs).
  2:{ rewrite !app_length, LR, LD. lia. }
  rewrite RR. cbn [bbind].
  assert (BL : (if d_aligned d2 then 8 * N.of_nat (N.to_nat (d_byte_len d2))
     else match list.last (data_bytes bits) with Some x => 8 * N.of_nat (N.to_nat (d_byte_len d2)) - trailing_zeros8 x - 1 | None => 0 end)%N = N.of_nat (length bits)).
  { rewrite G1. destruct (Nat.eqb_spec (length bits mod 8) 0) as [Z|Z].
    - rewrite <- LD, length_data. pose proof (Nat.div_mod (length bits) 8 ltac:(lia)).
      replace (length bits + 7) with (length bits / 8 * 8 + 7) by lia. rewrite Nat.div_add_l, (Nat.div_small 7) by lia. lia.
    - destruct (tag_last bits Z) as (x & X1 & X2 & X3). rewrite X1, <- LD. exact X3. }
  rewrite BL.
  assert (ST : d_store_hashes d1 = true -> d_type d1 <> PrunedBranch).
  { rewrite F2. intros S. specialize (P S). intros T. 
    rewrite (d_type_of d1 bits (length refs) (kind_of exotic bits) (map (info_of sha) (map tree_of refs)) F5 F4) in T.
    - destruct (kind_of exotic bits) as [|mm| | |] eqn:K; try discriminate. apply (P mm). reflexivity.
    - rewrite F3. exact V3.
    - rewrite F1. unfold m. rewrite ET. cbn [info_of]. unfold cell_info. destruct (kind_of exotic bits); reflexivity. }
  destruct (finalize_cell_spec sha Hsha d1 bits refs FR V2 V1 F5 F4 ST) as [(OK & VT & ND & c & E & FC & TC & _)|[(OK & VT & TD & E)|(NO & E)]]; rewrite F3 in *; fold d2 in E; rewrite E.
  - exists c. auto.
  - exfalso. destruct TD as (l & H). specialize (D l). lia.
  - exfalso. apply NO. split; [exact V3|]. rewrite F1. unfold m. rewrite ET. reflexivity.
Qed.

(** ** All the cells *)
Definition shaped (e : entry) : Prop := storable sha e /\ length (e_next e) = length (c_refs (e_tree e)).
Lemma length_cell rs e : shaped e ->
  2 + rs * length (e_next e) <= length (cell_bytes sha rs e) <= 2 + 4 * 34 + 128 + rs * length (e_next e).
Proof.
  intros ((V & _) & L). destruct (e_tree e) as [exotic bits refs] eqn:ET. cbn [c_refs] in *.
  pose proof (info_regular sha (proj1 Hsha) _ V) as RG. rewrite <- ET in RG.
  inversion V as [? ? ? V1 V2 V3 V4]; subst.
  rewrite (cell_bytes_eq rs e exotic bits _ ET V1), !app_length, (length_stored e) by (rewrite ET; exact V).
  unfold ref_bytes. rewrite length_indices, length_data. cbn [length].
  assert (S : stored_len (i_mask (info_of sha (e_tree e))) (e_stored e) <= 4 * 34).
  { unfold stored_len. destruct (e_stored e); [|lia]. pattern (i_mask (info_of sha (e_tree e))). apply (mask8 _ _ (rg_mask _ RG)); vm_compute; lia. }
  assert (B : (length bits + 7) / 8 < 129) by (apply Nat.div_lt_upper_bound; lia). lia.
Qed.
Lemma read_cells_table rs table : Forall shaped table -> forall a rest,
  read_cells (length table) (a ++ cells_bytes sha rs table ++ rest) (length a) rs =
  BOk (map (cell_bytes sha rs) table, length a + length (cells_bytes sha rs table)).
Proof.
  induction 1 as [|e table (S & L) _ IH]; intros a rest.
  - cbn [length read_cells cells_bytes map concat]. rewrite Nat.add_0_r. reflexivity.
  - cbn [length read_cells]. rewrite (proj2 (Nat.ltb_ge _ _)) by (rewrite app_length; lia). cbn [fail_if bbind].
    rewrite drop_app. unfold cells_bytes. cbn [map concat]. fold (cells_bytes sha rs table). rewrite <- app_assoc.
    rewrite read_raw_cell by assumption. cbn [bbind].
    specialize (IH (a ++ cell_bytes sha rs e) rest). rewrite app_length, <- app_assoc in IH. rewrite IH. cbn [bbind].
    rewrite take_app, app_length, Nat.add_assoc. reflexivity.
Qed.
Lemma read_refs_ok rs (cc : nat) cells l refs a rest : (N.of_nat cc <= 256 ^ N.of_nat rs)%N ->
  Forall2 (fun j c => j < cc /\ cells !! (cc - 1 - j) = Some c) l refs ->
  read_refs (length l) (a ++ ref_bytes rs l ++ rest) (length a) rs (N.of_nat cc) cells = BOk refs.
Proof.
  intros Hc F. revert a. induction F as [|j c l refs (Hj & Hl) F IH]; intros a; [reflexivity|].
  cbn [length read_refs]. unfold ref_bytes. cbn [map concat]. fold (ref_bytes rs l). rewrite <- app_assoc.
  rewrite read_uint_app by (reflexivity || (apply N.lt_le_trans with (N.of_nat cc); [lia|exact Hc])). cbn [bbind]. rewrite (proj2 (N.leb_gt _ _)) by lia. cbn [fail_if bbind].
  replace (N.to_nat (N.of_nat cc - N.of_nat j - 1)) with (cc - 1 - j) by lia. rewrite Hl. cbn [b_opt bbind].
  specialize (IH (a ++ to_be rs (N.of_nat j))). rewrite app_length, to_be_length, <- app_assoc in IH. rewrite IH. reflexivity.
Qed.
Definition made (e : entry) (c : fcell) : Prop := finalized sha c /\ tree_of c = e_tree e.
Lemma build_table rs table : Forall shaped table -> linked table -> (N.of_nat (length table) <= 256 ^ N.of_nat rs)%N ->
  forall todo don cells, table = todo ++ don -> Forall2 made (rev don) cells ->
  exists cells', build_cells sha (rev (map (cell_bytes sha rs) todo)) cells (N.of_nat (length table)) rs = BOk cells' /\ Forall2 made (rev table) cells'.
Proof.
  intros SH LK Hc. induction todo as [|e todo IH] using rev_ind; intros don cells E F.
  - exists cells. rewrite E. split; [reflexivity|exact F].
  - assert (Ei : table !! length todo = Some e) by (rewrite E, <- app_assoc; apply list_lookup_middle; reflexivity).
    pose proof (Forall_lookup_1 _ _ _ _ SH Ei) as (S & L).
    pose proof (LK _ _ Ei) as LN.
    assert (Ldon : length table = length todo + 1 + length don) by (rewrite E, !app_length; cbn [length]; lia).
    pose proof (Forall2_length _ _ _ F) as Lc. rewrite rev_length in Lc.
    assert (X : exists refs, Forall2 (fun j c => j < length table /\ cells !! (length table - 1 - j) = Some c) (e_next e) refs /\
                Forall (finalized sha) refs /\ map tree_of refs = c_refs (e_tree e)).
    { clear - LN F E Ldon Lc.
      induction LN as [|j t js ts (Hj & e' & Ee' & Et) LN IHl]; [exists []; split; [constructor|]; split; [constructor|reflexivity]|].
      destruct IHl as (refs & R1 & R2 & R3).
      assert (Hjl : j < length table) by (apply lookup_lt_Some in Ee'; exact Ee').
      assert (Hd : rev don !! (length table - 1 - j) = Some e').
      { rewrite E in Ee'. rewrite lookup_app_r in Ee' by (rewrite app_length; cbn [length]; lia). rewrite app_length in Ee'. cbn [length] in Ee'.
        rewrite reverse_rev_lookup. 2:{ lia. } rewrite <- Ee'. f_equal. lia. }
      destruct (Forall2_lookup_l _ _ _ _ _ F Hd) as (c & Hcc & Fc & Tc).
      exists (c :: refs). split; [constructor; [split; [exact Hjl|exact Hcc]|exact R1]|]. split; [constructor; assumption|].
      cbn [map]. rewrite R3, Tc, Et. reflexivity. }
    destruct X as (refs & R1 & R2 & R3).
    assert (Ln : length (e_next e) = length refs) by (apply (Forall2_length _ _ _ R1)).
    rewrite map_app, rev_app_distr. cbn [map rev app build_cells].
    destruct (build_raw_cell rs e cells (N.of_nat (length table)) refs S R2 R3 Ln) as (c & -> & Fc & Tc).
    { destruct S as (V & _). destruct (e_tree e) as [exotic bits trefs] eqn:ET. inversion V as [? ? ? V1 V2 V3 V4]; subst.
      rewrite (cell_bytes_eq rs e exotic bits _ ET V1). set (pre := [_; _]).
      replace (length (pre ++ stored_part e ++ data_bytes bits ++ ref_bytes rs (e_next e)) - rs * length refs) with (length (pre ++ stored_part e ++ data_bytes bits)).
      2:{ rewrite !app_length. unfold ref_bytes. rewrite length_indices. lia. }
      rewrite !app_assoc. rewrite <- (app_nil_r (ref_bytes rs (e_next e))). rewrite <- Ln. apply read_refs_ok; assumption. }
    cbn [bbind]. apply (IH (e :: don)).
    + rewrite E, <- app_assoc. reflexivity.
    + cbn [rev]. apply Forall2_app; [exact F|]. constructor; [split; assumption|constructor].
Qed.
End Sha.
