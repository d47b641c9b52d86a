(** * Bags of cells: C15-C19.

    The format is specified in BocSpec.v.  SHA-256 and CRC-32C are parameters: any functions with
    results of the right size; Sha256.v and Crc32c.v define the ones of the crate. *)
From Verif Require Import Err BitsProofs BuilderModel BuilderSpec CellModel HashSpec HashModel FcellSpec HashProofs HashProofs2 HashProofs3 Sha256 HashProps
  BocSpec BocModel BocProofs BocProofs2 BocProofs3 BocProofs4 BocProofs5 BocProofs6 Crc32c.
Local Open Scope nat_scope.

(** The functions of the crate are allowed. *)
Theorem C15_crc32c : (forall c x, (crc32c_append c x < 2 ^ 32)%N) /\ (forall a b, crc32c_append (crc32c_append 0 a) b = crc32c_append 0 (a ++ b)) /\
  crc32c_append 0 (map N.of_nat (seq 49 9)) = 0xe3069283%N.
Proof. split; [apply crc32c_lt|]. split; [intros; apply crc32c_app|apply crc32c_check]. Qed.
Print Assumptions C15_crc32c.

Section Sha.
Context (sha : list N -> list N) (Hsha : sha_like sha) (crc : N -> list N -> N).

(** An encoder without cells, with any options. *)
Definition fresh (s : boc_ser) : Prop := exists old, s = ser_clear old.
(** At least [n] different cells below the roots. *)
Definition enough_cells (roots : list cell) (n : nat) : Prop := exists l, NoDup l /\ Forall (subtree roots) l /\ n <= length l.

(** Without collisions among the strings hashed for the cells, their hashes are distinct. *)
Theorem C15_distinct roots : Forall valid_tree roots ->
  (forall a b x y, subtree roots a -> subtree roots b -> In x (hashed sha a) -> In y (hashed sha b) -> sha x = sha y -> x = y) -> distinct_hashes sha roots.
Proof.
  intros V NC a b Sa Sb E.
  assert (VS : forall t, subtree roots t -> valid_tree t).
  { induction 1 as [t H|e bits ks k _ IH Hk]; [apply (proj1 (List.Forall_forall _ _) V t H)|].
    inversion IH as [? ? ? ? ? ? VK]; subst. apply (proj1 (List.Forall_forall _ _) VK k Hk). }
  destruct (hash_inj sha (proj1 Hsha) a b (VS a Sa) (VS b Sb) E) as [H|(x & y & Hx & Hy & NE & EQ)]; [exact H|].
  exfalso. apply NE. apply (NC a b x y); assumption.
Qed.

Section Roots.
Context (roots : list fcell) (s0 : boc_ser).
Context (Hfin : Forall (finalized sha) roots) (Hdist : distinct_hashes sha (map tree_of roots)) (Hcount : countable_cells (map tree_of roots)).
Context (Hfresh : fresh s0) (Hne : roots <> []) (Hnum : (N.of_nat (length roots) < 2 ^ 32)%N).

Lemma added : exists s, add_roots roots s0 = Ok s /\ inv sha (map tree_of roots) s /\ Forall2 (root_at s) (sr_roots s) (map tree_of roots) /\
  sr_without_hashes s = sr_without_hashes s0 /\ sr_crc s = sr_crc s0.
Proof.
  destruct Hfresh as (old & E0).
  assert (SR : Forall (fun c => subtree (map tree_of roots) (tree_of c)) roots) by (apply List.Forall_forall; intros c Hc; apply sub_root, in_map, Hc).
  destruct (add_roots_inv sha Hsha (map tree_of roots) Hdist Hcount roots Hfin SR s0 []) as (s & new & E & I & _ & Q & W1 & W2).
  - rewrite E0. apply inv_new.
  - rewrite E0. constructor.
  - cbn [app] in Q. exists s. auto.
Qed.
Lemma R_ne : map tree_of roots <> []. Proof. destruct roots; [congruence|discriminate]. Qed.
Lemma R_num : (N.of_nat (length (map tree_of roots)) < 2 ^ 32)%N. Proof. rewrite map_length. exact Hnum. Qed.

(** ** C17: the table of cells *)
(** Encoding writes a table of all the cells below the roots, each once, with references to
    later positions, and the positions of the roots in order; hashes are stored where the
    descriptors say so unless that is switched off. *)
Theorem C17_table : exists s bytes fm table indices, add_roots roots s0 = Ok s /\ encode crc s = Ok bytes /\
  table_of (map tree_of roots) table indices /\ bytes = boc_bytes sha (crc 0%N) fm table indices [] /\
  fm_index fm = false /\ fm_crc fm = sr_crc s0 /\ fits sha fm table indices [] /\ Forall (storable sha) table /\
  (sr_without_hashes s0 = true -> Forall (fun e => e_stored e = false) table).
Proof.
  destruct added as (s & E & I & Q & W1 & W2). exists s, (boc_bytes sha (crc 0%N) (the_format sha s) (table sha s) (root_slots s) []), (the_format sha s), (table sha s), (root_slots s).
  split; [exact E|]. split; [apply (encode_ok sha Hsha _ Hcount s I Q crc R_ne R_num)|]. split; [apply (is_table sha _ s I Q)|].
  split; [reflexivity|]. split; [reflexivity|]. split; [exact W2|]. split; [apply (widths sha Hsha _ Hcount s I Q R_ne)|].
  split.
  - apply Forall_lookup_2. intros k e He. destruct (table_lookup_inv sha s k e He) as (i & c & Hc & -> & _). apply (entry_storable sha Hsha _ s I i c Hc).
  - intros W. apply Forall_lookup_2. intros k e He. destruct (table_lookup_inv sha s k e He) as (i & c & Hc & -> & _). cbn [entry_of e_stored]. rewrite W1, W. apply andb_false_r.
Qed.

(** ** C18: sizes *)
(** The statistics are the sizes of what is written: the total, the cells, and widths that hold
    every index and offset and are no wider than the counts need. *)
Theorem C18_sizes : exists s bytes fm table indices, add_roots roots s0 = Ok s /\ encode crc s = Ok bytes /\
  bytes = boc_bytes sha (crc 0%N) fm table indices [] /\ fits sha fm table indices [] /\
  let st := compute_stats s in
  st_total st = N.of_nat (length bytes) /\ st_cells_size st = N.of_nat (length (cells_bytes sha (fm_ref fm) table)) /\
  st_ref_size st = fm_ref fm /\ st_offset_size st = fm_off fm /\
  sr_count s = N.of_nat (length table) /\
  (forall k, 1 <= k -> (N.of_nat (length table) < 256 ^ N.of_nat k)%N -> st_ref_size st <= k) /\
  (forall k, 1 <= k -> (st_cells_size st < 256 ^ N.of_nat k)%N -> st_offset_size st <= k).
Proof.
  destruct added as (s & E & I & Q & W1 & W2). exists s, (boc_bytes sha (crc 0%N) (the_format sha s) (table sha s) (root_slots s) []), (the_format sha s), (table sha s), (root_slots s).
  destruct (widths sha Hsha _ Hcount s I Q R_ne) as (A1 & A2 & A3 & A4). cbn zeta in *.
  assert (BF : forall l k, 1 <= k -> (l < 256 ^ N.of_nat k)%N -> bytes_to_fit l <= k).
  { intros l k Hk H. destruct (le_lt_dec k 8) as [L|L]; [apply (bytes_to_fit_ok l k L H)|]. unfold bytes_to_fit. lia. }
  split; [exact E|]. split; [apply (encode_ok sha Hsha _ Hcount s I Q crc R_ne R_num)|]. split; [reflexivity|]. split; [exact A4|].
  split; [symmetry; apply (encode_total sha Hsha _ Hcount s I Q _ R_ne)|]. split; [exact A3|]. split; [exact A1|]. split; [exact A2|].
  split; [rewrite length_table; apply (iv_count _ _ _ I)|]. split; [|intros k; apply BF].
  intros k. rewrite length_table, <- (iv_count _ _ _ I). apply BF.
Qed.

(** ** C15: round trip *)
(** Decoding what was encoded gives the same trees in the same order, whatever follows it. *)
Theorem C15_roundtrip o rest : (sr_crc s0 = true -> forall x, (crc 0 x < 2 ^ 32)%N) ->
  enough_cells (map tree_of roots) (length roots) ->
  (forall m, o_min o = Some m -> (m <= N.of_nat (length roots))%N) ->
  (N.of_nat (length roots) <= match o_max o with Some m => m | None => 32 end)%N ->
  exists s bytes cs, add_roots roots s0 = Ok s /\ encode crc s = Ok bytes /\ decode_all crc sha o (bytes ++ rest) = BOk cs /\
    map tree_of cs = map tree_of roots /\ Forall (finalized sha) cs.
Proof.
  intros HC (l & ND & SL & LL) Hmin Hmax. destruct added as (s & E & I & Q & W1 & W2).
  pose proof (is_table sha _ s I Q) as (T1 & T2 & T3 & T4).
  assert (LT : length (root_slots s) = length roots) by (apply Forall2_length in T3; rewrite map_length in T3; exact T3).
  assert (ST : Forall (storable sha) (table sha s)).
  { apply Forall_lookup_2. intros k e He. destruct (table_lookup_inv sha s k e He) as (i & c & Hc & -> & _). apply (entry_storable sha Hsha _ s I i c Hc). }
  destruct (decode_table sha Hsha crc o (the_format sha s) (table sha s) (root_slots s) (map tree_of roots) [] rest) as (p & cells & D1 & D2 & D3 & D4); try assumption.
  - apply (widths sha Hsha _ Hcount s I Q R_ne).
  - apply (table_used sha _ s I Q).
  - destruct (root_slots s); [cbn [length] in LT; destruct roots; [congruence|discriminate]|discriminate].
  - rewrite LT. eapply Nat.le_trans; [exact LL|]. rewrite <- (map_length e_tree (table sha s)). apply NoDup_incl_length; [apply NoDup_ListNoDup, ND|].
    intros t Ht. apply T4. apply (proj1 (List.Forall_forall _ _) SL t Ht).
  - rewrite LT. exact Hmin.
  - rewrite LT. exact Hmax.
  - cbn [the_format fm_crc]. rewrite W2. intros C. apply HC, C.
  - destruct (get_all_ok sha (table sha s) cells (root_slots s) (map tree_of roots) D4 T3) as (cs & G1 & G2 & G3).
    exists s, (boc_bytes sha (crc 0%N) (the_format sha s) (table sha s) (root_slots s) []), cs.
    split; [exact E|]. split; [apply (encode_ok sha Hsha _ Hcount s I Q crc R_ne R_num)|]. split; [|auto].
    unfold decode_all. rewrite D1. cbn [bbind]. rewrite D3. cbn [bbind]. rewrite D2. exact G1.
Qed.
End Roots.

(** Different roots are enough different cells. *)
Theorem C15_enough roots : NoDup (map tree_of roots) -> enough_cells (map tree_of roots) (length roots).
Proof.
  intros ND. exists (map tree_of roots). split; [exact ND|]. split; [|rewrite map_length; lia].
  apply List.Forall_forall. intros t Ht. apply sub_root, Ht.
Qed.
Lemma get_all_length cells roots : forall cs, get_all cells roots = BOk cs -> Forall2 (fun r c => processed_get cells r = BOk c) roots cs.
Proof.
  induction roots as [|r rs IH]; cbn [get_all]; intros cs E; [injection E as <-; constructor|].
  destruct (processed_get cells r) as [c|] eqn:Ec; [|discriminate]. cbn [bbind] in E. destruct (get_all cells rs) as [cs'|]; [|discriminate]. injection E as <-.
  constructor; [exact Ec|apply IH; reflexivity].
Qed.
Lemma decode_one data c : decode_all crc sha (Options (Some 1%N) (Some 1%N)) data = BOk [c] -> decode crc sha data = BOk c.
Proof.
  unfold decode_all, decode. destruct (decode_header crc (Options (Some 1%N) (Some 1%N)) data) as [p|]; [|discriminate]. cbn [bbind].
  destruct (finalize sha p) as [cells|]; [|discriminate]. cbn [bbind]. intros E. apply get_all_length in E.
  inversion E as [|r ? rs ? Er Ers]; subst. inversion Ers; subst. exact Er.
Qed.
Lemma decode_two data a b : decode_all crc sha (Options (Some 2%N) (Some 2%N)) data = BOk [a; b] -> decode_pair crc sha data = BOk (a, b).
Proof.
  unfold decode_all, decode_pair. destruct (decode_header crc (Options (Some 2%N) (Some 2%N)) data) as [p|]; [|discriminate]. cbn [bbind].
  destruct (finalize sha p) as [cells|]; [|discriminate]. cbn [bbind]. intros E. apply get_all_length in E.
  inversion E as [|r ? rs ? Er Ers]; subst. inversion Ers as [|r2 ? ? ? Er2 Ers2]; subst. inversion Ers2; subst. rewrite Er. cbn [bbind]. rewrite Er2. reflexivity.
Qed.
(** One root: [Boc::encode] and [Boc::decode]. *)
Theorem C15_single c : finalized sha c -> distinct_hashes sha [tree_of c] -> countable_cells [tree_of c] ->
  exists bytes c', boc_encode crc c = Ok bytes /\ decode crc sha bytes = BOk c' /\ tree_of c' = tree_of c /\ finalized sha c'.
Proof.
  intros F D C.
  destruct (C15_roundtrip [c] ser_new ltac:(constructor; [exact F|constructor]) D C ltac:(exists ser_new; reflexivity) ltac:(discriminate) ltac:(reflexivity)
    (Options (Some 1%N) (Some 1%N)) []) as (s & bytes & cs & E1 & E2 & E3 & E4 & E5).
  - discriminate.
  - apply (C15_enough [c]). apply NoDup_singleton.
  - intros m Hm. injection Hm as <-. cbn. lia.
  - cbn. lia.
  - destruct cs as [|c' [|]]; try discriminate. injection E4 as E4. inversion E5 as [|? ? E5' _]; subst.
    exists bytes, c'. split; [|split; [|auto]].
    + unfold boc_encode. cbn [add_roots] in E1. destruct (add_root c ser_new); [|discriminate]. cbn [rbind] in *. congruence.
    + rewrite app_nil_r in E3. apply decode_one, E3.
Qed.
(** Two different roots: [Boc::encode_pair] and [Boc::decode_pair]. *)
Theorem C15_pair a b : finalized sha a -> finalized sha b -> distinct_hashes sha [tree_of a; tree_of b] -> countable_cells [tree_of a; tree_of b] ->
  enough_cells [tree_of a; tree_of b] 2 ->
  exists bytes a' b', boc_encode_pair crc a b = Ok bytes /\ decode_pair crc sha bytes = BOk (a', b') /\ tree_of a' = tree_of a /\ tree_of b' = tree_of b /\ finalized sha a' /\ finalized sha b'.
Proof.
  intros Fa Fb D C EC.
  destruct (C15_roundtrip [a; b] ser_new ltac:(constructor; [exact Fa|constructor; [exact Fb|constructor]]) D C ltac:(exists ser_new; reflexivity) ltac:(discriminate) ltac:(reflexivity)
    (Options (Some 2%N) (Some 2%N)) []) as (s & bytes & cs & E1 & E2 & E3 & E4 & E5).
  - discriminate.
  - exact EC.
  - intros m Hm. injection Hm as <-. cbn. lia.
  - cbn. lia.
  - destruct cs as [|a' [|b' [|]]]; try discriminate. injection E4 as E4 E4'. inversion E5 as [|? ? F1 E5']; subst. inversion E5' as [|? ? F2 _]; subst.
    exists bytes, a', b'. split; [|split; [|auto 10]].
    + unfold boc_encode_pair. cbn [add_roots] in E1. destruct (add_root a ser_new) as [s1|]; [|discriminate]. cbn [rbind] in *. destruct (add_root b s1); [|discriminate]. cbn [rbind] in *. congruence.
    + rewrite app_nil_r in E3. apply decode_two, E3.
Qed.

(** Any well-formed bag can be decoded, also one this library would not write: with an index,
    with cells listed several times, with any widths. *)
Theorem C15_any_bag o fm table indices trees index rest :
  fits sha fm table indices index -> Forall (storable sha) table -> linked table -> all_used table indices ->
  Forall2 (points table) indices trees -> indices <> [] -> length indices <= length table ->
  (forall m, o_min o = Some m -> (m <= N.of_nat (length indices))%N) ->
  (N.of_nat (length indices) <= match o_max o with Some m => m | None => 32 end)%N ->
  (fm_crc fm = true -> (crc 0 (boc_body sha fm table indices index) < 2 ^ 32)%N) ->
  exists cs, decode_all crc sha o (boc_bytes sha (crc 0%N) fm table indices index ++ rest) = BOk cs /\ map tree_of cs = trees /\ Forall (finalized sha) cs.
Proof.
  intros A1 A2 A3 A4 A5 A6 A7 A8 A9 A10.
  destruct (decode_table sha Hsha crc o fm table indices trees index rest A1 A2 A3 A4 A5 A6 A7 A8 A9 A10) as (p & cells & D1 & D2 & D3 & D4).
  destruct (get_all_ok sha table cells indices trees D4 A5) as (cs & G1 & G2 & G3). exists cs. split; [|auto].
  unfold decode_all. rewrite D1. cbn [bbind]. rewrite D3. cbn [bbind]. rewrite D2. exact G1.
Qed.

(** ** C16: any input *)
(** On every byte string the decoder stops with an error other than a read outside of the
    input or a failed index, or accepts: then the string is a bag with references to later
    cells only, all of them within the limits of cells, and the cells returned are its roots. *)
Theorem C16_decode_any o data : Forall byte_ok data ->
  match decode_all crc sha o data with
  | BErr e => e <> OutOfBounds /\ e <> BPanic
  | BOk cs =>
    Forall (finalized sha) cs /\ cs <> [] /\ (forall m, o_min o = Some m -> (m <= N.of_nat (length cs))%N) /\
    (N.of_nat (length cs) <= match o_max o with Some m => m | None => 32 end)%N /\
    exists table indices, bag sha (crc 0%N) data table indices /\ linked table /\ Forall (fun e => valid_tree (e_tree e)) table /\
      Forall2 (points table) indices (map tree_of cs) /\ 2 * length table <= length data
  end.
Proof. intros OK. apply (decode_all_safe sha Hsha crc o data OK). Qed.
(** Nothing that was read for a root is more than 1023 bits or 4 references. *)
Theorem C16_limits o data cs t e b ks : Forall byte_ok data -> decode_all crc sha o data = BOk cs ->
  subtree (map tree_of cs) t -> t = Cell e b ks -> length b <= 1023 /\ length ks <= 4 /\ layout e b (length ks) (kind_of e b).
Proof.
  intros OK E S Et. pose proof (C16_decode_any o data OK) as H. rewrite E in H. destruct H as (F & _).
  assert (V : valid_tree t).
  { clear Et. induction S as [t Ht|e' b' ks' k _ IH Hk].
    - apply in_map_iff in Ht as (c & <- & Hc). apply (finalized_agrees sha Hsha c). apply (proj1 (List.Forall_forall _ _) F c Hc).
    - inversion IH as [? ? ? ? ? ? VK]; subst. apply (proj1 (List.Forall_forall _ _) VK k Hk). }
  rewrite Et in V. inversion V; subst. auto.
Qed.
(** [Boc::decode] and [Boc::decode_pair] accept exactly the bags with one and two roots. *)
Theorem C16_entry_points data : Forall byte_ok data ->
  match decode_all crc sha (Options (Some 1%N) (Some 1%N)) data with
  | BOk cs => exists c, cs = [c] /\ decode crc sha data = BOk c | BErr e => decode crc sha data = BErr e end /\
  match decode_all crc sha (Options (Some 2%N) (Some 2%N)) data with
  | BOk cs => exists a b, cs = [a; b] /\ decode_pair crc sha data = BOk (a, b) | BErr e => decode_pair crc sha data = BErr e end.
Proof. intros OK. split; [apply (decode_eq sha Hsha crc data OK)|apply (decode_pair_eq sha crc data OK)]. Qed.

(** ** C19: chunks *)
(** The thread pool: any chunk size, any order of completion in which every chunk is done. *)
Theorem C19_rayon n order s : 1 <= n -> (forall i, i < length (rchunks n (sr_cells s)) -> In i order) -> encode_rayon crc n order s = encode crc s.
Proof. apply encode_rayon_eq. Qed.
(** Writing chunk by chunk with a running checksum. *)
Theorem C19_writer n s : 1 <= n -> (forall a b, crc (crc 0%N a) b = crc 0%N (a ++ b)) -> encode_to_writer crc n s = encode crc s.
Proof. apply encode_to_writer_eq. Qed.
End Sha.
Print Assumptions C15_distinct.
Print Assumptions C17_table.
Print Assumptions C18_sizes.
Print Assumptions C15_roundtrip.
Print Assumptions C15_enough.
Print Assumptions C15_single.
Print Assumptions C15_pair.
Print Assumptions C15_any_bag.
Print Assumptions C16_decode_any.
Print Assumptions C16_limits.
Print Assumptions C16_entry_points.
Print Assumptions C19_rayon.
Print Assumptions C19_writer.

(** ** Concrete bags *)
Lemma subtree_in R l : incl R l -> (forall t, In t l -> incl (c_refs t) l) -> forall t, subtree R t -> In t l.
Proof. intros H K t. induction 1 as [t Ht|e b ks k _ IH Hk]; [apply H, Ht|]. apply (K _ IH). exact Hk. Qed.
Fixpoint nodup_hashes (l : list (list N)) : bool := match l with [] => true | x :: l' => negb (existsb (bytes_eqb x) l') && nodup_hashes l' end.
Lemma nodup_hashes_ok l : nodup_hashes l = true -> NoDup l.
Proof.
  induction l as [|x l IH]; [constructor|]. cbn [nodup_hashes]. intros H. apply andb_true_iff in H as (H1 & H2). constructor; [|apply IH, H2].
  intros I. apply negb_true_iff in H1. rewrite <- not_true_iff_false in H1. apply H1, existsb_exists. exists x. split; [apply elem_of_list_In, I|apply bytes_eqb_eq; reflexivity].
Qed.
Lemma distinct_by R l : incl R l -> (forall t, In t l -> incl (c_refs t) l) -> nodup_hashes (map (t_hash sha256) l) = true -> length l < 1000 ->
  distinct_hashes sha256 R /\ countable_cells R.
Proof.
  intros H K ND L. apply nodup_hashes_ok in ND. split.
  - intros a b Sa Sb E. apply (subtree_in R l H K) in Sa, Sb.
    apply elem_of_list_In, elem_of_list_lookup in Sa as (i & Hi). apply elem_of_list_In, elem_of_list_lookup in Sb as (j & Hj).
    assert (i = j). { apply (NoDup_lookup _ i j (t_hash sha256 a) ND); change (map (t_hash sha256) l) with (t_hash sha256 <$> l); rewrite list_lookup_fmap; [rewrite Hi|rewrite Hj, E]; reflexivity. }
    congruence.
  - intros l' ND' F. apply N.lt_trans with 1000%N; [|reflexivity].
    assert (length l' <= length l); [|lia]. apply NoDup_incl_length; [apply NoDup_ListNoDup, ND'|]. intros t Ht. apply (subtree_in R l H K). apply (proj1 (List.Forall_forall _ _) F t Ht).
Qed.

(** Two roots: a cell with two references to one leaf, and a Merkle proof over a pruned branch that shares the leaf.
    All premises hold, and the bag is what one expects. *)
Definition ex_roots : list fcell := [ex_node; ex_proof].
Definition enc_all (s0 : boc_ser) (cs : list fcell) : list N := match add_roots cs s0 with Ok s => match encode crc32c_append s with Ok b => b | Err _ => [] end | Err _ => [] end.
Lemma cover (a b c d e : cell) : c_refs a = [e; e] -> c_refs b = [c] -> c_refs c = [d; e] -> c_refs d = [] -> c_refs e = [] ->
  incl [a; b] [a; b; c; d; e] /\ forall t, In t [a; b; c; d; e] -> incl (c_refs t) [a; b; c; d; e].
Proof.
  intros E1 E2 E3 E4 E5. split.
  - intros x [<-|[<-|[]]]; cbn [In]; tauto.
  - intros t [<-|[<-|[<-|[<-|[<-|[]]]]]]; rewrite ?E1, ?E2, ?E3, ?E4, ?E5; intros x Hx; cbn [In] in Hx |- *; tauto.
Qed.
Lemma ex_distinct : distinct_hashes sha256 (map tree_of ex_roots) /\ countable_cells (map tree_of ex_roots).
Proof.
  destruct (cover (tree_of ex_node) (tree_of ex_proof) (tree_of ex_parent) (tree_of ex_pruned) (tree_of ex_leaf)) as (C1 & C2); [vm_compute; reflexivity..|].
  apply (distinct_by _ _ C1 C2); [vm_compute; reflexivity|]. cbn [length]. lia.
Qed.
Example C15_case :
  Forall is_fin ex_roots /\ distinct_hashes sha256 (map tree_of ex_roots) /\ countable_cells (map tree_of ex_roots) /\ enough_cells (map tree_of ex_roots) 2 /\
  match decode_pair crc32c_append sha256 (enc_all (with_crc true ser_new) ex_roots) with
  | BOk (x, y) => f_repr_hash x = f_repr_hash ex_node /\ f_repr_hash y = f_repr_hash ex_proof | BErr _ => False end.
Proof.
  split; [constructor; [exact ex_node_fin|constructor; [exact ex_proof_fin|constructor]]|]. split; [apply ex_distinct|]. split; [apply ex_distinct|].
  split; [|vm_compute; split; reflexivity]. apply C15_enough. constructor; [|apply NoDup_singleton]. intros H. apply elem_of_list_singleton in H.
  assert (E : c_exotic (tree_of ex_node) = c_exotic (tree_of ex_proof)) by (rewrite H; reflexivity). vm_compute in E. discriminate.
Qed.
(** The same bag in all the ways of writing it, chunks of one cell finished in some order. *)
Example C19_case :
  match add_roots ex_roots (with_crc true ser_new) with
  | Ok s => length (sr_cells s) = 5 /\ encode_rayon crc32c_append 1 [3; 0; 4; 1; 2] s = encode crc32c_append s /\
            encode_to_writer crc32c_append 2 s = encode crc32c_append s /\ encode_rayon crc32c_append 1 [3; 0; 4; 1] s = Err Panic
  | Err _ => False end.
Proof. vm_compute. repeat split. Qed.
(** A cell that carries its hashes, as read from a bag: the leaf of the example. *)
Definition ex_stored : fcell := unwrap (finalize_cell sha256 16 3 11 0 [] [0xab; 0xd0]%N).
Example C16_case :
  (* wrong stored hashes, wrong index, more bytes at the end: accepted *)
  let good := enc_all ser_new [ex_stored] in
  let bad := take 13 good ++ repeat 0xff%N 34 ++ drop 47 good ++ [1; 2; 3]%N in
  length good = 49 /\ good <> take 49 bad /\
  match decode crc32c_append sha256 bad with BOk c => f_repr_hash c = f_repr_hash ex_leaf /\ f_d1 c = 16%N | BErr _ => False end /\
  (* truncated, empty, forward reference *)
  decode crc32c_append sha256 (take 48 good) = BErr UnexpectedEof /\ decode crc32c_append sha256 [] = BErr UnexpectedEof /\
  decode crc32c_append sha256 [0xb5; 0xee; 0x9c; 0x72; 1; 1; 1; 1; 0; 3; 0; 1; 0; 0]%N = BErr InvalidRefOrder.
Proof. vm_compute. repeat split; discriminate. Qed.
Example C17_case :
  enc_all ser_new [ex_node] = [0xb5; 0xee; 0x9c; 0x72; 1; 1; 2; 1; 0; 9; 0;  2; 2; 0x12; 1; 1;  0; 3; 0xab; 0xd0]%N.
Proof. vm_compute. reflexivity. Qed.
Example C18_case :
  match add_roots [ex_stored; ex_node] (with_crc true ser_new) with
  | Ok s => st_total (compute_stats s) = N.of_nat (length (enc_all (with_crc true ser_new) [ex_stored; ex_node])) | Err _ => False end.
Proof. vm_compute. reflexivity. Qed.

(** ** Where the properties fail *)
(** One cell added twice as a root: what is encoded cannot be decoded, because the decoder wants at
    least as many cells as roots.  ([enough_cells] excludes this in C15_roundtrip.) *)
Theorem C15_duplicate_root_refuted : exists c bytes, finalized sha256 c /\
  boc_encode_pair crc32c_append c c = Ok bytes /\ decode_pair crc32c_append sha256 bytes = BErr TooManyRootCells.
Proof.
  exists ex_leaf. eexists. split; [exact ex_leaf_fin|]. split; [vm_compute; reflexivity|]. vm_compute. reflexivity.
Qed.
(** [without_hashes(true)] after a root was added: the declared sizes are wrong and the bag cannot be
    decoded.  (C18_sizes fixes the options first.) *)
Theorem C18_late_option_refuted : exists c s bytes, finalized sha256 c /\ add_root c ser_new = Ok s /\
  encode crc32c_append (without_hashes true s) = Ok bytes /\ st_total (compute_stats (without_hashes true s)) <> N.of_nat (length bytes) /\
  decode crc32c_append sha256 bytes = BErr UnexpectedEof.
Proof.
  exists ex_stored. eexists. eexists. split.
  - destruct (finalize_cell_spec sha256 C12_sha256 16 [true; false; true; false; true; false; true; true; true; true; false] [] ltac:(constructor) ltac:(cbn; lia) ltac:(cbn; lia) ltac:(reflexivity) ltac:(reflexivity) ltac:(discriminate)) as [(_ & _ & _ & c & E & Fc & _)|[(_ & _ & _ & E)|(_ & E)]].
    + replace ex_stored with c; [exact Fc|]. unfold ex_stored. assert (EE : finalize_cell sha256 16 3 11 0 [] [0xab; 0xd0]%N = Ok c) by exact E. rewrite EE. reflexivity.
    + vm_compute in E. discriminate.
    + vm_compute in E. discriminate.
  - split; [vm_compute; reflexivity|]. split; [vm_compute; reflexivity|]. split; [vm_compute; discriminate|vm_compute; reflexivity].
Qed.
Print Assumptions C15_duplicate_root_refuted.
Print Assumptions C18_late_option_refuted.
