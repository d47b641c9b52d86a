(** * Decoding a well-formed bag of cells (C15): the header. *)
From Verif Require Import Err BitsProofs BuilderModel BuilderSpec CellModel HashSpec HashModel FcellSpec HashProofs HashProofs2 BocSpec BocModel BocProofs.
Local Open Scope nat_scope.

Definition flags_val (i c h : bool) (rs : nat) : N := (128 * N.b2n i + 64 * N.b2n c + 32 * N.b2n h + N.of_nat rs)%N.
Lemma flags_fields i c h rs : 1 <= rs <= 4 ->
  negb (N.land (flags_val i c h rs) 128 =? 0)%N = i /\ negb (N.land (flags_val i c h rs) 64 =? 0)%N = c /\
  negb (N.land (flags_val i c h rs) 32 =? 0)%N = h /\ N.land (flags_val i c h rs) 7 = N.of_nat rs.
Proof.
  intros H. assert (C : rs = 1 \/ rs = 2 \/ rs = 3 \/ rs = 4) by lia.
  destruct C as [ -> |[ -> |[ -> | -> ]]]; destruct i, c, h; vm_compute; auto.
Qed.
Lemma le_bytes_app a v c q : q = length a -> (v < 2 ^ 32)%N -> rdn (a ++ le_bytes 4 v ++ c) q 4 = Some (le_bytes 4 v) /\ from_le (le_bytes 4 v) = v.
Proof.
  intros -> H. split; [apply rdn_app; [reflexivity|unfold le_bytes; rewrite rev_length, to_be_length; reflexivity]|].
  unfold from_le, le_bytes. rewrite rev_involutive. apply from_be_to_be. exact H.
Qed.
Lemma read_roots_ok rs (cc : nat) l a rest : (N.of_nat cc <= 256 ^ N.of_nat rs)%N -> Forall (fun j => j < cc) l ->
  read_roots (length l) (a ++ ref_bytes rs l ++ rest) (length a) rs (N.of_nat cc) = BOk (map N.of_nat l).
Proof.
  intros Hc F. revert a. induction F as [|j l Hj F IH]; intros a; [reflexivity|].
  cbn [length read_roots]. unfold ref_bytes. cbn [map concat]. fold (ref_bytes rs l). rewrite <- app_assoc.
  rewrite read_uint_app by (reflexivity || (apply N.lt_le_trans with (N.of_nat cc); [lia|exact Hc])). cbn [bbind]. rewrite (proj2 (N.leb_gt _ _)) by lia. cbn [fail_if bbind].
  specialize (IH (a ++ to_be rs (N.of_nat j))). rewrite app_length, to_be_length, <- app_assoc in IH. rewrite IH. reflexivity.
Qed.
Lemma length_concat_sum {A} (l : list (list A)) : length (concat l) = list_sum (map length l).
Proof. induction l as [|x l IH]; [reflexivity|]. cbn [concat map list_sum fold_right]. rewrite app_length, IH. reflexivity. Qed.
Lemma used_count table roots : all_used table roots -> length table <= length roots + list_sum (map (fun e => length (e_next e)) table).
Proof.
  intros U. rewrite <- (map_map e_next length), <- length_concat_sum, <- app_length. rewrite <- (seq_length (length table) 0).
  apply NoDup_incl_length; [apply seq_NoDup|]. intros i Hi. apply in_seq in Hi. apply in_app_iff.
  destruct (U i ltac:(lia)) as [H|(e & He & H)]; [left; exact H|right]. apply in_concat. exists (e_next e). split; [apply in_map; exact He|exact H].
Qed.

Section Sha.
Context (sha : list N -> list N) (Hsha : sha_like sha).

Lemma cells_size rs table : Forall (shaped sha) table ->
  2 * length table + rs * list_sum (map (fun e => length (e_next e)) table) <= length (cells_bytes sha rs table) <= length table * (2 + 4 * 34 + 128 + 4 * rs).
Proof.
  induction 1 as [|e table S _ IH]; [cbn; lia|]. unfold cells_bytes in *. cbn [map concat length list_sum fold_right]. rewrite app_length.
  pose proof (length_cell sha Hsha rs e S) as L.
  assert (H4 : length (e_next e) <= 4). { destruct S as ((V & _) & ->). inversion V; subst. cbn [c_refs]. assumption. }
  assert (rs * length (e_next e) <= 4 * rs) by nia. fold (list_sum (map (fun e => length (e_next e)) table)) in *. nia.
Qed.

Lemma get_all_ok table cells roots trees : Forall2 (made sha) (rev table) cells -> Forall2 (points table) roots trees ->
  exists cs, get_all cells (map N.of_nat roots) = BOk cs /\ map tree_of cs = trees /\ Forall (finalized sha) cs.
Proof.
  intros F P. pose proof (Forall2_length _ _ _ F) as L. rewrite rev_length in L.
  induction P as [|j t roots trees (e & He & Et) P (cs & E & T & Fc)].
  - exists []. auto.
  - pose proof (lookup_lt_Some _ _ _ He) as Hj.
    assert (R : rev table !! (length table - 1 - j) = Some e) by (rewrite reverse_rev_lookup by lia; rewrite <- He; f_equal; lia).
    destruct (Forall2_lookup_l _ _ _ _ _ F R) as (c & Hc & Fin & Tc).
    exists (c :: cs). cbn [map get_all]. unfold processed_get. rewrite (proj2 (N.ltb_ge _ _)) by lia.
    replace (N.to_nat (N.of_nat (length cells) - N.of_nat j - 1)) with (length table - 1 - j) by lia.
    rewrite Hc. cbn [b_opt bbind]. rewrite E. cbn [bbind]. split; [reflexivity|]. split; [congruence|constructor; assumption].
Qed.

Lemma decode_table crc o fm table roots trees index rest :
  fits sha fm table roots index -> Forall (storable sha) table -> linked table -> all_used table roots ->
  Forall2 (points table) roots trees -> roots <> [] -> length roots <= length table ->
  (forall m, o_min o = Some m -> (m <= N.of_nat (length roots))%N) ->
  (N.of_nat (length roots) <= match o_max o with Some m => m | None => 32 end)%N ->
  (fm_crc fm = true -> (crc 0 (boc_body sha fm table roots index) < 2 ^ 32)%N) ->
  exists p cells, decode_header crc o (boc_bytes sha (crc 0%N) fm table roots index ++ rest) = BOk p /\
    p_roots p = map N.of_nat roots /\ finalize sha p = BOk cells /\ Forall2 (made sha) (rev table) cells.
Proof.
  intros (Rs & Os & Fc & Ft & Fi & Li) ST LK U P NE Lr Hmin Hmax Hcrc.
  assert (SH : Forall (shaped sha) table).
  { apply Forall_lookup_2. intros i e He. split; [apply (Forall_lookup_1 _ _ _ _ ST He)|].
    apply (Forall2_length _ _ _ (LK _ _ He)). }
  assert (RL : Forall (fun j => j < length table) roots).
  { clear - P. induction P as [|j t roots trees (e & He & _) P IH]; constructor; [apply lookup_lt_Some in He; exact He|exact IH]. }
  pose proof (cells_size (fm_ref fm) table SH) as CS. pose proof (used_count table roots U) as UC.
  destruct (build_table sha Hsha (fm_ref fm) table SH LK ltac:(apply N.lt_le_incl; exact Fc) table [] []) as (cells & BE & BF); [rewrite app_nil_r; reflexivity|constructor|].
  exists (Parsed (fm_ref fm) (map (cell_bytes sha (fm_ref fm)) table) (map N.of_nat roots)), cells.
  split; [|split; [reflexivity|split; [unfold finalize; cbn [p_cells p_ref_size]; rewrite map_length; exact BE|exact BF]]].
  set (rs := fm_ref fm) in *. set (os := fm_off fm) in *. set (B := cells_bytes sha rs table) in *.
  set (tail := (if fm_crc fm then le_bytes 4 (crc 0%N (boc_body sha fm table roots index)) else []) ++ rest).
  set (A0 := [0xb5; 0xee; 0x9c; 0x72; flags_val (fm_index fm) (fm_crc fm) (fm_cache fm) rs; N.of_nat os]%N).
  set (C := to_be rs (N.of_nat (length table))). set (R := to_be rs (N.of_nat (length roots))). set (Z := to_be rs 0).
  set (T := to_be os (N.of_nat (length B))). set (X := ref_bytes rs roots).
  assert (BD : boc_body sha fm table roots index = A0 ++ C ++ R ++ Z ++ T ++ X ++ index ++ B) by reflexivity.
  assert (ED : boc_bytes sha (crc 0%N) fm table roots index ++ rest = A0 ++ C ++ R ++ Z ++ T ++ X ++ index ++ B ++ tail).
  { unfold boc_bytes. cbn zeta. unfold tail. rewrite BD, <- !app_assoc. reflexivity. }
  set (data := boc_bytes sha (crc 0%N) fm table roots index ++ rest) in *.
  assert (LC : length C = rs) by apply to_be_length. assert (LRt : length R = rs) by apply to_be_length.
  assert (LZ : length Z = rs) by apply to_be_length. assert (LT : length T = os) by apply to_be_length.
  assert (LX : length X = rs * length roots) by apply length_indices.
  assert (LA : length A0 = 6) by reflexivity.
  assert (Ldata : length data = 6 + 3 * rs + os + rs * length roots + length index + length B + length tail).
  { rewrite ED, !app_length, LC, LRt, LZ, LT, LX, LA. lia. }
  unfold decode_header.
  assert (RQ : forall off n, (N.of_nat off + n <= N.of_nat (length data))%N -> require data off n = true) by (intros off n H; apply N.leb_le; exact H).
  rewrite (RQ 0 6%N) by lia. cbn [negb fail_if bbind].
  assert (E4 : rd data 4 = Some (flags_val (fm_index fm) (fm_crc fm) (fm_cache fm) rs)) by (rewrite ED; reflexivity).
  assert (E5 : rd data 5 = Some (N.of_nat os)) by (rewrite ED; reflexivity).
  assert (E0 : rdn data 0 4 = Some [0xb5; 0xee; 0x9c; 0x72]%N).
  { unfold rdn. rewrite (proj2 (Nat.leb_le _ _)) by lia. rewrite ED. reflexivity. }
  rewrite E4, E5, E0. cbn [b_opt bbind].
  change (tag_from_bytes [0xb5; 0xee; 0x9c; 0x72]%N) with (Some TGeneric). cbv iota.
  destruct (flags_fields (fm_index fm) (fm_crc fm) (fm_cache fm) rs Rs) as (-> & -> & -> & ->). cbn [bbind].
  assert (IH : fm_cache fm && negb (fm_index fm) = false).
  { destruct (fm_cache fm) eqn:K; [|reflexivity]. rewrite (Fi eq_refl). reflexivity. }
  rewrite IH. cbn [fail_if bbind].
  rewrite (proj2 (N.eqb_neq (N.of_nat rs) 0)), (proj2 (N.ltb_ge 4 _)), (proj2 (N.eqb_neq (N.of_nat os) 0)), (proj2 (N.ltb_ge 8 _)) by lia.
  cbn [orb fail_if bbind]. rewrite (RQ 6) by lia. cbn [negb fail_if bbind]. rewrite !Nat2N.id.
  assert (P0 : (0 < 256 ^ N.of_nat rs)%N) by (apply N.neq_0_lt_0, N.pow_nonzero; discriminate).
  assert (R1 : read_uint data 6 rs = BOk (N.of_nat (length table))) by (rewrite ED; apply read_uint_app; [reflexivity|exact Fc]).
  assert (R2 : read_uint data (6 + rs) rs = BOk (N.of_nat (length roots))).
  { rewrite ED, (app_assoc A0). apply read_uint_app; [rewrite app_length, LC; reflexivity|]. apply N.le_lt_trans with (N.of_nat (length table)); [lia|exact Fc]. }
  assert (R3 : read_uint data (6 + 2 * rs) rs = BOk 0%N).
  { rewrite ED, (app_assoc A0), (app_assoc (A0 ++ C)). apply read_uint_app; [rewrite !app_length, LC, LRt, LA; lia|exact P0]. }
  rewrite R1, R2, R3. cbn [bbind].
  assert (Rne : length roots <> 0) by (destruct roots; [congruence|cbn; lia]).
  rewrite (proj2 (N.eqb_neq (N.of_nat (length roots)) 0)) by lia. cbn [fail_if bbind negb andb].
  rewrite (proj2 (N.ltb_ge (N.of_nat (length table)) _)) by lia. cbn [fail_if bbind].
  change (0 <? 0)%N with false. cbn [fail_if bbind].
  assert (Mn : match o_min o with Some m => (N.of_nat (length roots) <? m)%N | None => false end = false).
  { destruct (o_min o) as [m|] eqn:K; [|reflexivity]. apply N.ltb_ge. apply Hmin. reflexivity. }
  rewrite Mn. cbn [fail_if bbind].
  assert (Mx : (match o_max o with Some m => m | None => MAX_ROOTS end <? N.of_nat (length roots))%N = false) by (apply N.ltb_ge; exact Hmax).
  rewrite Mx. cbn [fail_if bbind].
  assert (R4 : read_uint data (6 + 3 * rs) os = BOk (N.of_nat (length B))).
  { rewrite ED, (app_assoc A0), (app_assoc (A0 ++ C)), (app_assoc ((A0 ++ C) ++ R)). apply read_uint_app; [rewrite !app_length, LC, LRt, LZ, LA; lia|exact Ft]. }
  rewrite R4. cbn [bbind].
  rewrite (proj2 (N.ltb_ge (N.of_nat (length B)) _)) by nia. cbn [fail_if bbind].
  rewrite (proj2 (N.ltb_ge _ (N.of_nat (length B)))) by lia. cbn [fail_if bbind].
  rewrite (RQ (6 + 3 * rs + os)) by lia. cbn [negb fail_if bbind].
  assert (R5 : read_roots (length roots) data (6 + 3 * rs + os) rs (N.of_nat (length table)) = BOk (map N.of_nat roots)).
  { rewrite ED, (app_assoc A0), (app_assoc (A0 ++ C)), (app_assoc ((A0 ++ C) ++ R)), (app_assoc (((A0 ++ C) ++ R) ++ Z)).
    replace (6 + 3 * rs + os) with (length ((((A0 ++ C) ++ R) ++ Z) ++ T)) by (rewrite !app_length, LC, LRt, LZ, LT, LA; lia).
    apply read_roots_ok; [apply N.lt_le_incl; exact Fc|exact RL]. }
  rewrite (Nat2N.id (length roots)), R5. cbn [bbind].
  set (off := 6 + 3 * rs + os + length roots * rs).
  assert (Lidx : (if fm_index fm then N.of_nat (length table) * N.of_nat os else 0)%N = N.of_nat (length index)).
  { rewrite Li. destruct (fm_index fm); lia. }
  rewrite Lidx.
  assert (Lt4 : fm_crc fm = true -> 4 <= length tail).
  { intros K. unfold tail. rewrite K, app_length. unfold le_bytes. rewrite rev_length, to_be_length. lia. }
  rewrite RQ.
  2:{ unfold off. destruct (fm_crc fm); [specialize (Lt4 eq_refl)|]; lia. }
  cbn [negb fail_if bbind]. rewrite (Nat2N.id (length table)), (Nat2N.id (length index)).
  assert (R6 : read_cells (length table) data (off + length index) rs = BOk (map (cell_bytes sha rs) table, off + length index + length B)).
  { rewrite ED. 
    replace (A0 ++ C ++ R ++ Z ++ T ++ X ++ index ++ B ++ tail) with ((A0 ++ C ++ R ++ Z ++ T ++ X ++ index) ++ B ++ tail) by (rewrite <- !app_assoc; reflexivity).
    replace (off + length index) with (length (A0 ++ C ++ R ++ Z ++ T ++ X ++ index)) by (rewrite !app_length, LC, LRt, LZ, LT, LX, LA; unfold off; lia).
    apply read_cells_table; [exact Hsha|exact SH]. }
  rewrite R6. cbn [bbind].
  rewrite (proj2 (N.eqb_eq _ _)) by lia. cbn [negb fail_if bbind].
  destruct (fm_crc fm) eqn:K; [|reflexivity].
  rewrite RQ by (specialize (Lt4 eq_refl); unfold off; lia). cbn [negb fail_if bbind].
  assert (Lb : length (boc_body sha fm table roots index) = off + length index + length B).
  { rewrite BD, !app_length, LC, LRt, LZ, LT, LX, LA. unfold off. lia. }
  assert (ED2 : data = boc_body sha fm table roots index ++ le_bytes 4 (crc 0%N (boc_body sha fm table roots index)) ++ rest).
  { rewrite ED. unfold tail. rewrite BD, <- !app_assoc. reflexivity. }
  destruct (le_bytes_app (boc_body sha fm table roots index) (crc 0%N (boc_body sha fm table roots index)) rest _ eq_refl (Hcrc eq_refl)) as (Q1 & Q2).
  unfold check_crc. rewrite <- Lb, ED2, Q1. cbn [b_opt bbind]. rewrite Q2, take_app, N.eqb_refl. reflexivity.
Qed.
End Sha.
