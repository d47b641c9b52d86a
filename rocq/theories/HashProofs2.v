(** * Cells that are built, and cells that have the same hash. *)
From Verif Require Import Err BitsProofs BuilderModel BuilderSpec CellModel HashSpec HashModel FcellSpec HashProofs.
Local Open Scope nat_scope.

Section Sha.
Context (sha : list N -> list N) (Hsha : sha_like sha).
Let Hlen : forall x, length (sha x) = 32 /\ Forall byte_ok (sha x) := proj1 Hsha.

Lemma finalized_ind' (P : fcell -> Prop) :
  (forall d1 bits refs hashes,
    Forall (finalized sha) refs -> Forall P refs -> length refs <= 4 -> length bits <= 1023 ->
    (d1 < 256)%N -> d_refs d1 = N.of_nat (length refs) ->
    (d_store_hashes d1 = true -> d_type d1 <> PrunedBranch) ->
    compute_hashes sha d1 (compute_d2 (N.of_nat (length bits))) (N.of_nat (length bits)) (children_mask refs) refs (data_bytes bits) = Ok hashes ->
    P (FCell d1 (compute_d2 (N.of_nat (length bits))) (N.of_nat (length bits)) (data_bytes bits) refs hashes)) ->
  forall c, finalized sha c -> P c.
Proof.
  intros H c. induction c as [d1 d2 n data refs h IH] using fcell_tree_ind. intros F. inversion F; subst.
  apply H; try assumption. match goal with HF : Forall (finalized sha) refs |- _ => revert IH HF end. clear. induction refs as [|x r IHr]; intros I F; [constructor|].
  inversion I; inversion F; subst. constructor; auto.
Qed.

(** A finalized cell has the mask, the hashes and the depths of its tree. *)
Lemma finalized_agrees c : finalized sha c ->
  valid_tree (tree_of c) /\ agrees c (info_of sha (tree_of c)) /\ (forall l, (i_depth (info_of sha (tree_of c)) l <= 65535)%N).
Proof.
  revert c. apply finalized_ind'. intros d1 bits refs hashes F IH H4 Hb Hd Hr Hst HC.
  cbn [tree_of info_of]. rewrite Nat2N.id, data_bits_take, map_map.
  assert (A : Forall2 agrees refs (map (fun x => info_of sha (tree_of x)) refs)).
  { apply Forall2_map_r. eapply List.Forall_impl; [|exact IH]. cbn beta. tauto. }
  assert (R : Forall regular (map (fun x => info_of sha (tree_of x)) refs)).
  { rewrite List.Forall_map. eapply List.Forall_impl; [|exact IH]. cbn beta. intros c (V & _). apply info_regular; assumption. }
  destruct (compute_spec sha Hlen d1 bits refs _ Hd Hr H4 Hb A R) as [((L & M) & RG & hs & E & AG)|(_ & E)]; rewrite HC in E.
  2:{ discriminate. }
  destruct (existsb _ _) eqn:X; [discriminate|]. injection E as ->.
  split; [|split].
  - constructor; rewrite ?map_length; try assumption. rewrite List.Forall_map. eapply List.Forall_impl; [|exact IH]. cbn beta. tauto.
  - exact AG.
  - assert (G : forall l, l <= 3 -> (i_depth (cell_info sha (d_exotic d1) bits (map (fun x => info_of sha (tree_of x)) refs)) l <= 65535)%N).
    { intros l Hl. apply N.nlt_ge. intros Z. apply not_true_iff_false in X. apply X. apply existsb_exists. exists l. split; [destruct l as [|[|[|[|]]]]; cbn; try tauto; lia|]. apply N.ltb_lt. exact Z. }
    intros l. destruct (le_lt_dec l 3) as [Hl|Hl]; [apply G; exact Hl|].
    assert (EQ : i_depth (cell_info sha (d_exotic d1) bits (map (fun x => info_of sha (tree_of x)) refs)) l = i_depth (cell_info sha (d_exotic d1) bits (map (fun x => info_of sha (tree_of x)) refs)) 3).
    { induction l as [|l IHl]; [lia|]. rewrite (rg_depth _ RG l) by (apply mask_high; [apply (rg_mask _ RG)|lia]).
      destruct (Nat.eq_dec l 3) as [->|]; [reflexivity|]. apply IHl. lia. }
    rewrite EQ. apply G. lia.
Qed.

(** ** Building *)
Lemma tag_data_ok b bits : holds_bits b bits -> tag_data b = Ok (data_bytes bits).
Proof.
  intros (L128 & Hok & Hbl & <-). unfold data_bits.
  destruct b as [d n]. cbn [bd bl] in *. unfold tag_data. cbn [bd bl].
  set (q := N.to_nat (n / 8)). set (r := N.to_nat (n mod 8)).
  pose proof (N.div_mod n 8 ltac:(lia)) as DM. pose proof (N.mod_lt n 8 ltac:(lia)) as ML.
  assert (En : N.to_nat n = 8 * q + r) by lia.
  assert (Hq : q <= 127) by lia.
  assert (Lb : length (take (N.to_nat n) (bytes_bits d)) = 8 * q + r) by (rewrite take_length, length_bytes_bits; lia).
  assert (Lm : (8 * q + r) mod 8 = r).
  { rewrite Nat.add_comm, (Nat.mul_comm 8), Nat.mod_add by lia. apply Nat.mod_small. lia. }
  unfold data_bytes, pad. rewrite Lb, Lm.
  assert (SP : take (N.to_nat n) (bytes_bits d) = bytes_bits (take q d) ++ take r (bytes_bits (drop q d))).
  { rewrite En. rewrite <- (take_drop q d) at 1. rewrite bytes_bits_app.
    rewrite take_add_app by (rewrite length_bytes_bits, take_length; lia). reflexivity. }
  destruct (N.ltb_spec 0 (n mod 8)) as [Z|Z].
  - rewrite (proj2 (Nat.eqb_neq r 0)) by lia.
    destruct (lookup_lt_is_Some_2 d q ltac:(lia)) as (x & Hx).
    unfold rd, wr. rewrite Hx. cbn [of_opt rbind].
    assert (E7 : ((n + 7) / 8 = n / 8 + 1)%N) by (replace (n + 7)%N with ((n / 8 + 1) * 8 + (n mod 8 - 1))%N by lia; rewrite N.div_add_l by lia; rewrite (N.div_small (_ - 1)) by lia; lia).
    rewrite E7. rewrite N.min_l by lia. rewrite insert_length, L128.
    replace (N.to_nat (n / 8 + 1)) with (S q) by lia. rewrite (proj2 (Nat.ltb_ge 128 (S q))) by lia. f_equal.
    assert (Ex : drop q d = x :: drop (S q) d) by (apply drop_S; exact Hx).
    rewrite SP, Ex, bytes_bits_cons. rewrite take_app_le by (rewrite length_byte_bits; lia).
    rewrite <- app_assoc, pack_app_bytes by (rewrite length_bytes_bits, Nat.mul_comm, Nat.mod_mul; lia).
    rewrite pack_bytes_bits by (apply Forall_take; exact Hok).
    set (y := N.lor _ _).
    assert (Y : pack (take r (byte_bits x) ++ [true]) = [y]).
    { pose proof (Forall_lookup_1 _ _ _ _ Hok Hx) as Xok. unfold byte_ok in Xok. subst y r.
      pose proof (seqN_all 256 (fun x => forallb (fun rr => (rr =? 0)%N || match pack (take (N.to_nat rr) (byte_bits x) ++ [true]) with [z] => (z =? N.lor (N.land x (not8 (shl 8 1 (7 - rr) - 1))) (shl 8 1 (7 - rr)))%N | _ => false end) (seqN 8)) ltac:(vm_compute; reflexivity) x Xok) as Q.
      cbn beta in Q. pose proof (seqN_all 8 _ Q (n mod 8)%N ML) as Q1. cbn beta in Q1. apply orb_true_iff in Q1. destruct Q1 as [Q1|Q1]; [apply N.eqb_eq in Q1; lia|].
      destruct (pack _) as [|z [|]]; try discriminate. apply N.eqb_eq in Q1. rewrite Q1. reflexivity. }
    rewrite Y. rewrite (take_S_r _ q y) by (apply list_lookup_insert; lia).
    rewrite take_insert by lia. reflexivity.
  - assert (r = 0) by lia. rewrite (proj2 (Nat.eqb_eq r 0)) by assumption. cbn [rbind].
    assert (E7 : ((n + 7) / 8 = n / 8)%N) by (replace (n + 7)%N with ((n / 8) * 8 + 7)%N by lia; rewrite N.div_add_l by lia; change (7 / 8)%N with 0%N; lia).
    rewrite E7. rewrite N.min_l by lia. fold q. rewrite L128. rewrite (proj2 (Nat.ltb_ge 128 q)) by lia. f_equal.
    rewrite SP. replace r with 0 by lia. rewrite take_0, app_nil_r. rewrite pack_bytes_bits by (apply Forall_take; exact Hok). reflexivity.
Qed.

Lemma holds_byte b bits i : holds_bits b bits -> 8 * i + 8 <= length bits -> nth i (bd b) 0%N = byte_at i bits.
Proof.
  intros H Hi. pose proof H as (L128 & Hok & Hbl & E).
  assert (Ln : length bits = N.to_nat (bl b)).
  { rewrite <- E. unfold data_bits. rewrite take_length, length_bytes_bits. lia. }
  destruct (lookup_lt_is_Some_2 (bd b) i ltac:(lia)) as (x & Hx).
  rewrite (nth_lookup_Some _ _ _ _ Hx). unfold byte_at. rewrite <- E. unfold data_bits.
  rewrite skipn_firstn_comm, take_take, Nat.min_l by lia.
  rewrite <- (take_drop_middle _ _ _ Hx). rewrite bytes_bits_app, bytes_bits_cons.
  rewrite drop_app_alt by (rewrite length_bytes_bits, take_length; lia).
  rewrite take_app_alt by (rewrite length_byte_bits; reflexivity).
  symmetry. apply bval_nbits_small. exact (Forall_lookup_1 _ _ _ _ Hok Hx).
Qed.

Lemma lm_new_lt m : (lm_new m < 8)%N.
Proof. unfold lm_new. change 7%N with (N.ones 3). rewrite N.land_ones. apply N.mod_lt. discriminate. Qed.
Lemma lm_new_id m : (m < 8)%N -> lm_new m = m.
Proof. intros H. unfold lm_new. change 7%N with (N.ones 3). rewrite N.land_ones. apply N.mod_small. exact H. Qed.

Lemma builder_mask_ok exotic b bits refs ch :
  holds_bits b bits -> children_mask refs = or_all (map i_mask ch) -> Forall regular ch -> length ch = length refs ->
  (builder_mask exotic b (children_mask refs) < 8)%N /\
  (layout exotic bits (length refs) (kind_of exotic bits) -> builder_mask exotic b (children_mask refs) = cell_mask (kind_of exotic bits) ch).
Proof.
  intros Hb Hcm R Hlen'. pose proof Hb as (L128 & Hok & Hbl & E).
  assert (Ln : length bits = N.to_nat (bl b)) by (rewrite <- E; unfold data_bits; rewrite take_length, length_bytes_bits; lia).
  assert (G : (or_all (map i_mask ch) < 8)%N).
  { apply or_all_lt. rewrite List.Forall_map. eapply List.Forall_impl; [|exact R]. intros i Hi. apply (rg_mask i Hi). }
  rewrite Hcm. unfold builder_mask. destruct exotic; cbn [andb].
  2:{ split; [exact G|]. reflexivity. }
  destruct (N.leb_spec 8 (bl b)) as [H8|H8].
  2:{ split; [exact G|]. intros L. pose proof (layout_long _ _ _ L). lia. }
  rewrite (holds_byte b bits 0 Hb) by lia. rewrite kind_of_exotic. cbn zeta.
  unfold from_byte_exotic, lm_virtualize.
  destruct (byte_at 0 bits =? 1)%N.
  { split; [apply lm_new_lt|]. intros L. pose proof (layout_long _ _ _ L). rewrite (holds_byte b bits 1 Hb) by lia.
    cbn [cell_mask layout] in *. apply lm_new_id. destruct_and?. lia. }
  destruct (byte_at 0 bits =? 2)%N; [split; [lia|reflexivity]|].
  destruct (byte_at 0 bits =? 3)%N; [split; [apply shiftr1_lt; exact G|reflexivity]|].
  destruct (byte_at 0 bits =? 4)%N; [split; [apply shiftr1_lt; exact G|reflexivity]|].
  split; [exact G|]. reflexivity.
Qed.

Definition too_deep (t : cell) : Prop := exists l, (65535 < i_depth (info_of sha t) l)%N.
Lemma regular_const i l : regular i -> 3 <= l -> i_depth i l = i_depth i 3 /\ i_hash i l = i_hash i 3.
Proof.
  intros RG Hl. induction l as [|l IH]; [lia|]. destruct (Nat.eq_dec l 2) as [->|Z]; [auto|].
  rewrite (rg_depth _ RG l), (rg_hash _ RG l) by (apply mask_high; [apply (rg_mask _ RG)|lia]). apply IH. lia.
Qed.
Lemma deep_iff i : regular i -> (existsb (fun l => 65535 <? i_depth i l)%N [0; 1; 2; 3] = true <-> exists l, (65535 < i_depth i l)%N).
Proof.
  intros RG. rewrite existsb_exists. split.
  - intros (l & _ & H). exists l. apply N.ltb_lt. exact H.
  - intros (l & H). destruct (le_lt_dec 3 l) as [Hl|Hl].
    + rewrite (proj1 (regular_const i l RG Hl)) in H. exists 3. split; [cbn; tauto|]. apply N.ltb_lt. exact H.
    + exists l. split; [destruct l as [|[|[|]]]; cbn; try tauto; lia|]. apply N.ltb_lt. exact H.
Qed.

Lemma refs_agree refs : Forall (finalized sha) refs ->
  Forall2 agrees refs (map (info_of sha) (map tree_of refs)) /\ Forall regular (map (info_of sha) (map tree_of refs)) /\
  Forall valid_tree (map tree_of refs).
Proof.
  intros F. rewrite map_map. split; [|split].
  - apply Forall2_map_r. eapply List.Forall_impl; [|exact F]. intros c H. apply finalized_agrees. exact H.
  - rewrite List.Forall_map. eapply List.Forall_impl; [|exact F]. intros c H. apply info_regular; [exact Hlen|]. apply finalized_agrees. exact H.
  - rewrite List.Forall_map. eapply List.Forall_impl; [|exact F]. intros c H. apply finalized_agrees. exact H.
Qed.
Lemma children_mask_agree refs ch : Forall2 agrees refs ch -> children_mask refs = or_all (map i_mask ch).
Proof.
  intros A. rewrite children_mask_of. f_equal. induction A as [|c i refs ch A H IH]; [reflexivity|]. cbn [map]. rewrite IH, (ag_mask c i A). reflexivity.
Qed.

(** [finalize_cell] on matching parts. *)
Lemma finalize_cell_spec d1 bits refs :
  Forall (finalized sha) refs -> length refs <= 4 -> length bits <= 1023 -> (d1 < 256)%N -> d_refs d1 = N.of_nat (length refs) ->
  (d_store_hashes d1 = true -> d_type d1 <> PrunedBranch) ->
  let t := Cell (d_exotic d1) bits (map tree_of refs) in
  let r := finalize_cell sha d1 (compute_d2 (N.of_nat (length bits))) (N.of_nat (length bits)) (children_mask refs) refs (data_bytes bits) in
  let ok := layout (d_exotic d1) bits (length refs) (kind_of (d_exotic d1) bits) /\ d_mask d1 = i_mask (info_of sha t) in
  (ok /\ valid_tree t /\ ~ too_deep t /\ exists c, r = Ok c /\ finalized sha c /\ tree_of c = t /\ f_d1 c = d1 /\ f_refs c = refs) \/
  (ok /\ valid_tree t /\ too_deep t /\ r = Err DepthOverflow) \/
  (~ ok /\ r = Err InvalidCell).
Proof.
  intros F H4 Hb Hd Hr Hst. cbn zeta.
  destruct (refs_agree refs F) as (A & R & V).
  destruct (compute_spec sha Hlen d1 bits refs _ Hd Hr H4 Hb A R) as [(OK & RG & hs & E & AG)|(NO & E)]; unfold finalize_cell; rewrite E.
  2:{ right; right. split; [exact NO|reflexivity]. }
  assert (VT : valid_tree (Cell (d_exotic d1) bits (map tree_of refs))).
  { constructor; rewrite ?map_length; try assumption. apply OK. }
  cbn [info_of]. destruct (existsb _ _) eqn:X.
  - right; left. split; [exact OK|]. split; [exact VT|]. split; [|reflexivity]. apply (deep_iff _ RG). exact X.
  - left. split; [exact OK|]. split; [exact VT|]. split.
    { intros D. apply (deep_iff _ RG) in D. cbn [info_of] in *. congruence. }
    cbn [rbind].
    destruct ((d1 =? 0)%N && (compute_d2 (N.of_nat (length bits)) =? 0)%N) eqn:Z.
    + apply andb_true_iff in Z. destruct Z as (Z1 & Z2). apply N.eqb_eq in Z1, Z2. subst d1.
      rewrite compute_d2_val in Z2 by assumption.
      assert (bits = []) as ->.
      { destruct bits as [|x bits]; [reflexivity|]. exfalso. cbn [length] in Z2.
        assert (1 <= (S (length bits) + 7) / 8) by (apply Nat.div_le_lower_bound; lia). lia. }
      assert (refs = []) as -> by (destruct refs; [reflexivity|]; cbn [length] in Hr; change (d_refs 0) with 0%N in Hr; lia).
      eexists. split; [reflexivity|]. split; [|split; [reflexivity|split; reflexivity]].
      change (FCell 0 0 0 [] [] [(EMPTY_CELL_HASH, 0%N)]) with (FCell 0 (compute_d2 (N.of_nat (length (@nil bool)))) (N.of_nat (length (@nil bool))) (data_bytes []) [] [(EMPTY_CELL_HASH, 0%N)]).
      constructor; try assumption; try reflexivity. rewrite <- (proj2 Hsha). reflexivity.
    + eexists. split; [reflexivity|]. split; [constructor; assumption|]. split; [|split; reflexivity].
      cbn [tree_of]. rewrite Nat2N.id, data_bits_take. reflexivity.
Qed.

Lemma build_spec exotic b bits refs :
  holds_bits b bits -> Forall (finalized sha) refs -> length refs <= 4 ->
  let t := Cell exotic bits (map tree_of refs) in
  let r := build_ext sha exotic b refs in
  (valid_tree t /\ ~ too_deep t /\ exists c, r = Ok c /\ finalized sha c /\ tree_of c = t /\ d_store_hashes (f_d1 c) = false) \/
  (valid_tree t /\ too_deep t /\ r = Err DepthOverflow) \/
  (~ valid_tree t /\ r = Err InvalidCell).
Proof.
  intros Hb F H4. cbn zeta. unfold build_ext. rewrite (tag_data_ok b bits Hb). cbn [rbind].
  destruct (refs_agree refs F) as (A & R & V).
  pose proof (children_mask_agree _ _ A) as CM.
  assert (Hl : length (map (info_of sha) (map tree_of refs)) = length refs) by (rewrite !map_length; reflexivity).
  destruct (builder_mask_ok exotic b bits refs _ Hb CM R Hl) as (M8 & MK).
  pose proof Hb as (L128 & Hok & Hbl & E).
  assert (Ln : bl b = N.of_nat (length bits)) by (rewrite <- E; unfold data_bits; rewrite take_length, length_bytes_bits; lia).
  rewrite Ln in *.
  destruct (d1_fields (builder_mask exotic b (children_mask refs)) exotic (N.of_nat (length refs)) M8 ltac:(lia)) as (F1 & F2 & F3 & F4 & F5).
  destruct (finalize_cell_spec _ bits refs F H4 ltac:(lia) F5 F3 ltac:(rewrite F4; discriminate)) as [(OK & VT & ND & c & -> & FC & TC & D1 & _)|[(OK & VT & TD & ->)|(NO & ->)]]; rewrite F2 in *.
  - left. split; [exact VT|]. split; [exact ND|]. exists c. rewrite D1. auto.
  - right; left. auto.
  - right; right. split; [|reflexivity]. intros VT. apply NO. inversion VT as [? ? ? V1 V2 V3 V4]; subst. rewrite map_length in V3.
    split; [exact V3|]. rewrite F1, (MK V3). cbn [info_of]. unfold cell_info. destruct (kind_of exotic _); reflexivity.
Qed.
End Sha.
