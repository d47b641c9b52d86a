(** * The encoder (C15, C17, C18): the bytes. *)
From Verif Require Import Err BitsProofs BuilderModel BuilderSpec CellModel HashSpec HashModel FcellSpec HashProofs HashProofs2 BocSpec BocModel BocProofs BocProofs2 BocProofs3.
Local Open Scope nat_scope.

(** ** Widths *)
Lemma drop_to_be n k v : n <= k -> drop (k - n) (to_be k v) = to_be n v.
Proof.
  revert n. induction k as [|k IH]; intros n H.
  - replace n with 0 by lia. reflexivity.
  - destruct (Nat.eq_dec n (S k)) as [->|Z]; [rewrite Nat.sub_diag; reflexivity|].
    rewrite to_be_S. replace (S k - n) with (S (k - n)) by lia. cbn [drop]. apply IH. lia.
Qed.
Lemma be_tail_ok w n v : n <= w -> be_tail w n v = Ok (to_be n v).
Proof. intros H. unfold be_tail. rewrite (proj2 (Nat.ltb_ge _ _)) by exact H. rewrite drop_to_be by exact H. reflexivity. Qed.
Lemma size_lt l : (l < 2 ^ N.size l)%N.
Proof. destruct l as [|p]; [reflexivity|]. apply N.size_gt. Qed.
Lemma size_le l k : (l < 2 ^ k)%N -> (N.size l <= k)%N.
Proof.
  intros H. destruct (N.eq_dec l 0) as [->|Z]; [cbn; lia|]. rewrite (N.size_log2 l Z).
  apply N.log2_lt_pow2 in H; lia.
Qed.
Lemma bytes_to_fit_ok l (k : nat) : k <= 8 -> (l < 256 ^ N.of_nat k)%N -> bytes_to_fit l <= k /\ (l < 256 ^ N.of_nat (bytes_to_fit l))%N /\ (l <> 0%N -> 1 <= bytes_to_fit l).
Proof.
  intros Hk H. unfold bytes_to_fit. rewrite pow256 in H. apply size_le in H.
  set (q := ((64 - N.size l) / 8)%N).
  pose proof (N.div_mod (64 - N.size l) 8 ltac:(discriminate)) as D. fold q in D.
  pose proof (N.mod_lt (64 - N.size l) 8 ltac:(discriminate)) as U.
  split; [lia|]. split.
  - rewrite pow256. eapply N.lt_le_trans; [apply size_lt|]. apply N.pow_le_mono_r; [discriminate|]. lia.
  - intros Z. assert (1 <= N.size l)%N by (rewrite (N.size_log2 l Z); lia). lia.
Qed.
Lemma flags_lor rs (c : bool) : 1 <= rs <= 4 -> N.lor (w8 (N.of_nat rs)) (if c then 64 else 0) = flags_val false c false rs.
Proof.
  intros H. assert (C : rs = 1 \/ rs = 2 \/ rs = 3 \/ rs = 4) by lia.
  destruct C as [ -> |[ -> |[ -> | -> ]]]; destruct c; reflexivity.
Qed.
Lemma d1_masked d1 (w : bool) : (d1 < 256)%N ->
  N.land d1 (not8 (if w then 16 else 0)) = d1_val (d_mask d1) (d_store_hashes d1 && negb w) (d_exotic d1) (N.to_nat (d_refs d1)).
Proof.
  intros H. unfold d1_val. rewrite N2Nat.id. apply N.eqb_eq.
  pose proof (seqN_all 256 (fun d1 => forallb (fun w : bool => (N.land d1 (not8 (if w then 16 else 0)) =? 32 * d_mask d1 + 16 * N.b2n (d_store_hashes d1 && negb w) + 8 * N.b2n (d_exotic d1) + d_refs d1)%N) [true; false]) ltac:(vm_compute; reflexivity) d1 H) as A.
  apply (proj1 (forallb_forall _ _) A w). destruct w; cbn; auto.
Qed.
Lemma levels_own m : (m < 8)%N -> lm_levels m = map N.of_nat (own_levels m).
Proof. intros H. pattern m. apply (mask8 _ m H); reflexivity. Qed.

Section Sha.
Context (sha : list N -> list N) (Hsha : sha_like sha).

(** ** One cell *)
Lemma encode_hashes_ok c i ls : agrees c i -> encode_hashes c (map N.of_nat ls) = Ok (concat (map (i_hash i) ls)).
Proof. intros A. induction ls as [|l ls IH]; [reflexivity|]. cbn [map encode_hashes concat]. rewrite (ag_hash _ _ A l). cbn [rbind]. rewrite IH. reflexivity. Qed.
Lemma encode_depths_ok c i ls : agrees c i -> encode_depths c (map N.of_nat ls) = Ok (concat (map (fun l => to_be 2 (i_depth i l)) ls)).
Proof. intros A. induction ls as [|l ls IH]; [reflexivity|]. cbn [map encode_depths concat]. rewrite (ag_depth _ _ A l). cbn [rbind]. rewrite IH. reflexivity. Qed.

Definition slot (s : boc_ser) (x : fcell) : nat :=
  match map_get (sr_map s) (hash_of sha x) with Some i => length (sr_cells s) - N.to_nat i - 1 | None => 0 end.
Definition entry_of (s : boc_ser) (c : fcell) : entry :=
  Entry (tree_of c) (d_store_hashes (f_d1 c) && negb (sr_without_hashes s)) (map (slot s) (f_refs c)).

Context (R : list cell) (HD : distinct_hashes sha R) (HC : countable_cells R).
Context (s : boc_ser) (I : inv sha R s).

Lemma ref_known i c x : sr_cells s !! i = Some c -> In x (f_refs c) ->
  exists j c', map_get (sr_map s) (hash_of sha x) = Some (N.of_nat j) /\ j < i /\ sr_cells s !! j = Some c' /\ tree_of c' = tree_of x.
Proof.
  intros Hc Hx. pose proof (proj1 (List.Forall_forall _ _) (iv_link _ _ _ I i c Hc) x Hx) as (j & c' & Hj & Hc' & Ht).
  exists j, c'. split; [|auto]. apply (iv_map _ _ _ I). exists c'. rewrite Nat2N.id. split; [exact Hc'|]. unfold hash_of. rewrite Ht. reflexivity.
Qed.
Lemma encode_refs_ok rs i c : rs <= 4 -> sr_cells s !! i = Some c -> encode_refs s rs (f_refs c) = Ok (ref_bytes rs (map (slot s) (f_refs c))).
Proof.
  intros Hrs Hc. pose proof (Forall_lookup_1 _ _ _ _ (iv_fin _ _ _ I) Hc) as F.
  assert (G : Forall (fun x => In x (f_refs c)) (f_refs c)) by (apply List.Forall_forall; auto).
  enough (Q : forall l, Forall (fun x => In x (f_refs c)) l -> encode_refs s rs l = Ok (ref_bytes rs (map (slot s) l))) by (apply Q; exact G).
  clear G. intros l G. unfold ref_bytes.
  induction G as [|x l Hx _ IH]; [reflexivity|]. cbn [encode_refs map concat].
  rewrite (repr_hash_of sha Hsha x) by (apply (finalized_child sha c); assumption). cbn [rbind].
  destruct (ref_known i c x Hc Hx) as (j & c' & Em & Hj & Hc' & Ht). unfold slot at 1. rewrite Em.
  pose proof (lookup_lt_Some _ _ _ Hc') as Lj. rewrite (iv_count _ _ _ I). rewrite (proj2 (N.ltb_ge _ _)) by lia.
  rewrite be_tail_ok by exact Hrs. cbn [rbind]. rewrite IH. cbn [rbind].
  replace (N.of_nat (length (sr_cells s)) - N.of_nat j - 1)%N with (N.of_nat (length (sr_cells s) - N.to_nat (N.of_nat j) - 1)) by lia. reflexivity.
Qed.
Lemma encode_cell_ok rs i c : rs <= 4 -> sr_cells s !! i = Some c -> encode_cell s rs c = Ok (cell_bytes sha rs (entry_of s c)).
Proof.
  intros Hrs Hc. pose proof (Forall_lookup_1 _ _ _ _ (iv_fin _ _ _ I) Hc) as F.
  pose proof (finalized_agrees sha Hsha c F) as (V & A & D).
  pose proof (info_regular sha (proj1 Hsha) _ V) as RG.
  unfold encode_cell. rewrite (encode_refs_ok rs i c Hrs Hc). cbn zeta.
  pose proof (ag_mask _ _ A) as AM. unfold f_mask in AM.
  destruct F as [d1 bits refs hashes F H4 Hb Hd Hr Hst HCH]. cbn [f_d1 f_d2 f_refs f_data] in *.
  rewrite d1_masked by exact Hd. rewrite Hr, Nat2N.id.
  set (st := d_store_hashes d1 && negb (sr_without_hashes s)) in *.
  destruct (d1_val_fields (d_mask d1) st (d_exotic d1) (length refs) ltac:(rewrite AM; apply (rg_mask _ RG)) H4) as (F1 & F2 & F3 & F4 & F5 & F6).
  rewrite F1, F2.
  match goal with |- context [entry_of s ?c0] => set (c := c0) in * end.
  assert (ET : tree_of c = Cell (d_exotic d1) bits (map tree_of refs)) by (unfold c; cbn [tree_of]; rewrite Nat2N.id, data_bits_take; reflexivity).
  rewrite (cell_bytes_eq sha rs (entry_of s c) (d_exotic d1) bits (map tree_of refs) ET Hb).
  cbn [entry_of e_tree e_stored e_next]. change (f_refs c) with refs. change (f_d1 c) with d1. rewrite map_length, <- AM.
  assert (STE : (if st then let? hs := encode_hashes c (lm_levels (d_mask d1)) in let? ds := encode_depths c (lm_levels (d_mask d1)) in Ok (hs ++ ds) else Ok []) = Ok (stored_part sha (entry_of s c))).
  { unfold stored_part. cbn [entry_of e_tree e_stored]. change (f_d1 c) with d1. fold st. destruct st; [|reflexivity].
    rewrite levels_own by (rewrite AM; apply (rg_mask _ RG)). rewrite (encode_hashes_ok c _ _ A), (encode_depths_ok c _ _ A). cbn [rbind]. rewrite <- AM. reflexivity. }
  rewrite STE. reflexivity.
Qed.
Lemma entry_storable i c : sr_cells s !! i = Some c -> storable sha (entry_of s c).
Proof.
  intros Hc. pose proof (Forall_lookup_1 _ _ _ _ (iv_fin _ _ _ I) Hc) as F.
  pose proof (finalized_agrees sha Hsha c F) as (V & A & D). split; [exact V|]. split; [exact D|].
  cbn [entry_of e_stored e_tree]. intros ST m K.
  pose proof (ag_mask _ _ A) as AM. unfold f_mask in AM.
  destruct F as [d1 bits refs hashes F H4 Hb Hd Hr Hst HCH]. cbn [f_d1 f_d2 f_refs f_data tree_of c_exotic c_bits] in *.
  rewrite Nat2N.id, data_bits_take in *. inversion V as [? ? ? V1 V2 V3 V4]; subst. rewrite map_length in V3.
  apply andb_true_iff in ST as (S1 & _). apply (Hst S1).
  rewrite (d_type_of d1 bits (length refs) _ (map (info_of sha) (map tree_of refs)) Hd Hr V3).
  - rewrite K. reflexivity.
  - rewrite AM. cbn [info_of]. unfold cell_info. destruct (kind_of (d_exotic d1) bits); reflexivity.
Qed.
(** ** The table *)
Definition table : list entry := rev (map (entry_of s) (sr_cells s)).
Lemma length_table : length table = length (sr_cells s).
Proof. unfold table. rewrite rev_length, map_length. reflexivity. Qed.
Lemma table_lookup i c : sr_cells s !! i = Some c -> table !! (length (sr_cells s) - i - 1) = Some (entry_of s c).
Proof.
  intros H. pose proof (lookup_lt_Some _ _ _ H) as L. unfold table. rewrite reverse_rev_lookup by (rewrite map_length; lia).
  rewrite map_length. replace (length (sr_cells s) - 1 - (length (sr_cells s) - i - 1)) with i by lia.
  change (map (entry_of s) (sr_cells s)) with (entry_of s <$> sr_cells s). rewrite list_lookup_fmap, H. reflexivity.
Qed.
Lemma table_lookup_inv k e : table !! k = Some e -> exists i c, sr_cells s !! i = Some c /\ e = entry_of s c /\ k = length (sr_cells s) - i - 1.
Proof.
  intros H. pose proof (lookup_lt_Some _ _ _ H) as L. rewrite length_table in L.
  destruct (lookup_lt_is_Some_2 (sr_cells s) (length (sr_cells s) - k - 1)) as (c & Hc); [lia|].
  pose proof (table_lookup _ _ Hc) as T. replace (length (sr_cells s) - (length (sr_cells s) - k - 1) - 1) with k in T by lia.
  exists (length (sr_cells s) - k - 1), c. split; [exact Hc|]. split; [congruence|lia].
Qed.
Lemma table_linked : linked table.
Proof.
  intros k e He. destruct (table_lookup_inv k e He) as (i & c & Hc & -> & Ek). cbn [entry_of e_next e_tree].
  pose proof (Forall_lookup_1 _ _ _ _ (iv_fin _ _ _ I) Hc) as F. destruct (refs_of sha c F) as (-> & _ & _).
  assert (G : Forall (fun x => In x (f_refs c)) (f_refs c)) by (apply List.Forall_forall; auto).
  revert G. generalize (f_refs c) at 2 3 4. intros l G.
  induction G as [|x l Hx _ IH]; cbn [map]; constructor; [|exact IH].
  destruct (ref_known i c x Hc Hx) as (j & c' & Em & Hj & Hc' & Ht). unfold slot. rewrite Em, Nat2N.id.
  pose proof (lookup_lt_Some _ _ _ Hc). split; [lia|]. exists (entry_of s c'). split; [apply table_lookup; exact Hc'|exact Ht].
Qed.
Lemma table_trees : map e_tree table = rev (map tree_of (sr_cells s)).
Proof. unfold table. rewrite map_rev, map_map. reflexivity. Qed.
Lemma table_nodup : NoDup (map e_tree table).
Proof. rewrite table_trees. apply NoDup_ListNoDup, NoDup_rev, NoDup_ListNoDup, (iv_nd _ _ _ I). Qed.
Lemma in_table t : In t (map e_tree table) <-> present s t.
Proof.
  rewrite table_trees, <- in_rev, in_map_iff. unfold present. split.
  - intros (c & Ht & Hc). apply elem_of_list_In, elem_of_list_lookup in Hc as (i & Hi). exists i, c. auto.
  - intros (i & c & Hc & Ht). exists c. split; [exact Ht|]. apply elem_of_list_In, elem_of_list_lookup. exists i. exact Hc.
Qed.
Lemma present_child e b ks k : present s (Cell e b ks) -> In k ks -> present s k.
Proof.
  intros (i & c & Hc & Ht) Hk. pose proof (Forall_lookup_1 _ _ _ _ (iv_fin _ _ _ I) Hc) as F. destruct (refs_of sha c F) as (ER & _ & _).
  rewrite Ht in ER. cbn [c_refs] in ER. rewrite ER in Hk. apply in_map_iff in Hk as (x & Ex & Hx).
  destruct (ref_known i c x Hc Hx) as (j & c' & _ & _ & Hc' & Ht'). exists j, c'. split; [exact Hc'|congruence].
Qed.
Definition root_slots : list nat := map (fun i => length (sr_cells s) - N.to_nat i - 1) (sr_roots s).
Context (HR : Forall2 (root_at s) (sr_roots s) R).
Lemma roots_point : Forall2 (points table) root_slots R.
Proof.
  unfold root_slots. apply Forall2_fmap_l. eapply Forall2_impl; [exact HR|]. intros i t (c & Hc & Ht).
  exists (entry_of s c). split; [apply table_lookup; exact Hc|exact Ht].
Qed.
Lemma sub_present t : subtree R t -> present s t.
Proof.
  induction 1 as [t Ht|e b ks k _ IH Hk]; [|exact (present_child e b ks k IH Hk)].
  apply elem_of_list_In, elem_of_list_lookup in Ht as (i & Hi). destruct (Forall2_lookup_r _ _ _ _ _ HR Hi) as (j & _ & c & Hc & E).
  exists (N.to_nat j), c. auto.
Qed.
Lemma is_table : table_of R table root_slots.
Proof.
  split; [apply table_nodup|]. split; [apply table_linked|]. split; [apply roots_point|].
  intros t. rewrite in_table. split; [|apply sub_present].
  intros (i & c & Hc & <-). apply (Forall_lookup_1 _ _ _ _ (iv_sub _ _ _ I) Hc).
Qed.

(** ** The whole bag *)
Lemma encode_chunk_ok rs : rs <= 4 -> encode_chunk s rs (sr_cells s) = Ok (cells_bytes sha rs table).
Proof.
  intros Hrs. unfold encode_chunk, cells_bytes, table. rewrite <- map_rev, map_map.
  assert (G : Forall (fun c => exists i, sr_cells s !! i = Some c) (rev (sr_cells s))).
  { apply List.Forall_forall. intros c H. apply in_rev in H. apply elem_of_list_In, elem_of_list_lookup in H. exact H. }
  induction G as [|c l (i & Hc) _ IH]; [reflexivity|]. cbn [encode_list map concat]. rewrite (encode_cell_ok rs i c Hrs Hc). cbn [rbind]. rewrite IH. reflexivity.
Qed.
Lemma length_cell_eq rs i c : sr_cells s !! i = Some c ->
  N.of_nat (length (cell_bytes sha rs (entry_of s c))) = (byte_len_full (sr_without_hashes s) (f_d1 c) (f_d2 c) + 2 + N.of_nat rs * d_refs (f_d1 c))%N.
Proof.
  intros Hc. pose proof (Forall_lookup_1 _ _ _ _ (iv_fin _ _ _ I) Hc) as F.
  pose proof (finalized_agrees sha Hsha c F) as (V & A & D).
  pose proof (ag_mask _ _ A) as AM. unfold f_mask in AM.
  destruct F as [d1 bits refs hashes F H4 Hb Hd Hr Hst HCH]. cbn [f_d1 f_d2 f_refs f_data] in *.
  match goal with |- context [entry_of s ?c0] => set (c := c0) in * end.
  assert (ET : tree_of c = Cell (d_exotic d1) bits (map tree_of refs)) by (unfold c; cbn [tree_of]; rewrite Nat2N.id, data_bits_take; reflexivity).
  rewrite (cell_bytes_eq sha rs (entry_of s c) (d_exotic d1) bits (map tree_of refs) ET Hb).
  rewrite !app_length, (length_stored sha Hsha (entry_of s c)) by exact V. unfold ref_bytes. rewrite length_indices, length_data.
  cbn [entry_of e_tree e_stored e_next]. change (f_refs c) with refs. change (f_d1 c) with d1. rewrite map_length, Hr, <- AM. cbn [length].
  unfold byte_len_full. destruct (d2_fields (length bits) Hb) as (_ & G2 & _). rewrite G2. unfold stored_len. rewrite (andb_comm (d_store_hashes d1)).
  rewrite map_length; clear; generalize ((length bits + 7) / 8); intros q; destruct (negb (sr_without_hashes s) && d_store_hashes d1); lia.
Qed.
Lemma cells_length rs : N.of_nat (length (cells_bytes sha rs table)) = (sr_data s + sr_count s * 2 + N.of_nat rs * sr_refs s)%N.
Proof.
  rewrite (iv_data _ _ _ I), (iv_refs _ _ _ I), (iv_count _ _ _ I). unfold cells_bytes, table. rewrite <- map_rev, map_map, length_concat_sum.
  assert (Q : forall l, list_sum (rev l) = list_sum l).
  { induction l as [|x l IHl]; [reflexivity|]. cbn [rev]. rewrite list_sum_app, IHl. unfold list_sum; cbn [fold_right]. lia. }
  rewrite !map_rev, Q. 
  assert (G : Forall (fun c => exists i, sr_cells s !! i = Some c) (sr_cells s)).
  { apply List.Forall_forall. intros c H. apply elem_of_list_In, elem_of_list_lookup in H. exact H. }
  unfold sum_data, sum_refs. induction G as [|c l (i & Hc) _ IH]; [cbn; lia|].
  cbn [map list_sum fold_right length]. unfold list_sum in IH. pose proof (length_cell_eq rs i c Hc). lia.
Qed.
Definition the_format : format := Format false false (sr_crc s) (bytes_to_fit (sr_count s)) (bytes_to_fit (N.of_nat (length (cells_bytes sha (bytes_to_fit (sr_count s)) table)))).
Lemma nonempty_cells : R <> [] -> sr_cells s <> [].
Proof. intros NE E. generalize HR NE. generalize R. intros tl H. destruct H as [|i t l ts (c & Hc & Ht) _]; [congruence|]. rewrite E in Hc. discriminate. Qed.
Lemma widths : R <> [] ->
  let st := compute_stats s in
  st_ref_size st = fm_ref the_format /\ st_offset_size st = fm_off the_format /\
  st_cells_size st = N.of_nat (length (cells_bytes sha (fm_ref the_format) table)) /\
  fits sha the_format table root_slots [].
Proof.
  intros NE. cbn zeta. unfold compute_stats. cbn [st_ref_size st_offset_size st_cells_size]. rewrite <- cells_length.
  split; [reflexivity|]. split; [reflexivity|]. split; [reflexivity|].
  pose proof (cells_bound sha R HC s I) as B.
  assert (C0 : sr_count s <> 0%N) by (rewrite (iv_count _ _ _ I); pose proof (nonempty_cells NE); destruct (sr_cells s); [congruence|cbn [length]; lia]).
  destruct (bytes_to_fit_ok (sr_count s) 4 ltac:(lia) ltac:(rewrite (iv_count _ _ _ I); exact B)) as (W1 & W2 & W3).
  specialize (W3 C0).
  assert (SH : Forall (shaped sha) table).
  { apply Forall_lookup_2. intros k e He. split; [|apply (Forall2_length _ _ _ (table_linked k e He))].
    destruct (table_lookup_inv k e He) as (i & c & Hc & -> & _). apply (entry_storable i c Hc). }
  pose proof (cells_size sha Hsha (bytes_to_fit (sr_count s)) table SH) as CS. rewrite length_table in CS.
  assert (LB : (N.of_nat (length (cells_bytes sha (bytes_to_fit (sr_count s)) table)) < 256 ^ N.of_nat 8)%N).
  { apply N.le_lt_trans with (2 ^ 32 * 282)%N; [|reflexivity]. nia. }
  destruct (bytes_to_fit_ok _ 8 ltac:(lia) LB) as (O1 & O2 & O3).
  unfold fits. cbn [the_format fm_ref fm_off fm_index fm_cache fm_crc]. rewrite length_table, <- (iv_count _ _ _ I).
  split; [lia|]. split; [split; [apply O3|exact O1]|]; [|split; [exact W2|split; [exact O2|split; [discriminate|reflexivity]]]].
  rewrite (iv_count _ _ _ I) in C0. lia.
Qed.
Lemma encode_roots_ok rs : rs <= 4 -> encode_roots (sr_roots s) (sr_count s) rs = Ok (ref_bytes rs root_slots).
Proof.
  intros Hrs. unfold root_slots. rewrite (iv_count _ _ _ I). generalize HR. generalize R. generalize (sr_roots s). clear - Hrs. intros rl tl H.
  induction H as [|i t l ts (c & Hc & Ht) _ IH]; [reflexivity|].
  cbn [encode_roots map]. pose proof (lookup_lt_Some _ _ _ Hc). rewrite (proj2 (N.ltb_ge _ _)) by lia. rewrite be_tail_ok by exact Hrs. cbn [rbind].
  rewrite IH. cbn [rbind]. unfold ref_bytes. cbn [map concat].
  replace (N.of_nat (length (sr_cells s)) - i - 1)%N with (N.of_nat (length (sr_cells s) - N.to_nat i - 1)) by lia. reflexivity.
Qed.
Definition head_bytes : list N :=
  [0xb5; 0xee; 0x9c; 0x72]%N
  ++ [flags_val false (sr_crc s) false (fm_ref the_format); N.of_nat (fm_off the_format)]
  ++ to_be (fm_ref the_format) (N.of_nat (length table))
  ++ to_be (fm_ref the_format) (N.of_nat (length root_slots))
  ++ to_be (fm_ref the_format) 0
  ++ to_be (fm_off the_format) (N.of_nat (length (cells_bytes sha (fm_ref the_format) table)))
  ++ ref_bytes (fm_ref the_format) root_slots.
Lemma body_eq : boc_body sha the_format table root_slots [] = head_bytes ++ cells_bytes sha (fm_ref the_format) table.
Proof. unfold boc_body, head_bytes. rewrite <- !app_assoc. reflexivity. Qed.
Lemma encode_header_ok : R <> [] -> (N.of_nat (length R) < 2 ^ 32)%N -> encode_header s = Ok head_bytes.
Proof.
  intros NE LR. destruct (widths NE) as (W1 & W2 & W3 & (W4 & W5 & _)). cbn zeta in *.
  unfold encode_header. cbn zeta. rewrite W1, W2, W3. rewrite !be_tail_ok by lia. cbn [rbind].
  rewrite encode_roots_ok by lia. cbn [rbind]. rewrite flags_lor by exact W4.
  assert (W8 : w8 (N.of_nat (fm_off the_format)) = N.of_nat (fm_off the_format)) by (unfold w8; apply N.mod_small; lia).
  rewrite W8. unfold head_bytes. rewrite length_table, <- (iv_count _ _ _ I).
  pose proof (Forall2_length _ _ _ HR) as LL. assert (LS : length root_slots = length (sr_roots s)) by (unfold root_slots; apply map_length). rewrite LS.
  assert (W32 : w32 (N.of_nat (length (sr_roots s))) = N.of_nat (length (sr_roots s))) by (unfold w32; apply N.mod_small; rewrite LL; exact LR).
  rewrite W32. reflexivity.
Qed.
Lemma encode_ok crc : R <> [] -> (N.of_nat (length R) < 2 ^ 32)%N -> encode crc s = Ok (boc_bytes sha (crc 0%N) the_format table root_slots []).
Proof.
  intros NE LR. destruct (widths NE) as (W1 & W2 & W3 & (W4 & W5 & _)). cbn zeta in *.
  unfold encode. rewrite (encode_header_ok NE LR). cbn [rbind]. rewrite W1, encode_chunk_ok by lia. cbn [rbind].
  unfold boc_bytes, append_crc. cbn zeta. rewrite body_eq. change (fm_crc the_format) with (sr_crc s).
  destruct (sr_crc s); [reflexivity|]. rewrite app_nil_r. reflexivity.
Qed.
Lemma encode_total crc : R <> [] -> N.of_nat (length (boc_bytes sha crc the_format table root_slots [])) = st_total (compute_stats s).
Proof.
  intros NE. destruct (widths NE) as (W1 & W2 & W3 & _). cbn zeta in *.
  unfold boc_bytes. cbn zeta. rewrite app_length, body_eq, app_length.
  unfold head_bytes. rewrite !app_length, !to_be_length. unfold ref_bytes. rewrite length_indices. cbn [length].
  unfold compute_stats. cbn [st_total]. rewrite <- cells_length.
  change (fm_crc the_format) with (sr_crc s). change (fm_ref the_format) with (bytes_to_fit (sr_count s)).
  change (fm_off the_format) with (bytes_to_fit (N.of_nat (length (cells_bytes sha (bytes_to_fit (sr_count s)) table)))).
  unfold root_slots. rewrite map_length.
  destruct (sr_crc s); [unfold le_bytes; rewrite rev_length, to_be_length|cbn [length]]; lia.
Qed.
Lemma table_used : all_used table root_slots.
Proof.
  intros k Hk. destruct (lookup_lt_is_Some_2 table k Hk) as (e & He).
  destruct is_table as (ND & LK & RP & AL).
  assert (S : subtree R (e_tree e)). { apply AL. apply in_map. apply elem_of_list_In, elem_of_list_lookup. exists k. exact He. }
  assert (UQ : forall j, points table j (e_tree e) -> j = k).
  { intros j (e' & He' & Et). apply (NoDup_lookup (map e_tree table) j k (e_tree e) ND).
    - change (map e_tree table) with (e_tree <$> table). rewrite list_lookup_fmap, He'. cbn. congruence.
    - change (map e_tree table) with (e_tree <$> table). rewrite list_lookup_fmap, He. reflexivity. }
  remember (e_tree e) as t eqn:Et. destruct S as [t Ht|ex b ks t Sp Ht].
  - left. apply elem_of_list_In, elem_of_list_lookup in Ht as (i & Hi).
    destruct (Forall2_lookup_r _ _ _ _ _ RP Hi) as (j & Hj & P). rewrite (UQ j P) in Hj. apply elem_of_list_In, elem_of_list_lookup. exists i. exact Hj.
  - right. apply AL in Sp. apply in_map_iff in Sp as (p & Ep & Hp). exists p. split; [exact Hp|].
    apply elem_of_list_In, elem_of_list_lookup in Hp as (q & Hq). pose proof (LK q p Hq) as L. rewrite Ep in L. cbn [c_refs] in L.
    apply elem_of_list_In, elem_of_list_lookup in Ht as (i & Hi).
    destruct (Forall2_lookup_r _ _ _ _ _ L Hi) as (j & Hj & _ & P). rewrite (UQ j P) in Hj. apply elem_of_list_In, elem_of_list_lookup. exists i. exact Hj.
Qed.
End Sha.
