(** * Building an update and applying it; cells of updates. *)
From Verif Require Import Err BuilderModel CellBuilderModel SliceModel SliceSpec BuilderSpec CellModel HashSpec HashModel FcellSpec MerkleModel MerkleSpec StatSpec UpdateModel UpdateSpec
  BitsProofs BufProofs BuilderProofs CellBuilderProofs BocProofs5 HashProofs HashProofs2 HashProofs3 MerkleProofs MerkleProofs2 MerkleProofs3 MerkleProofs4 MerkleProofs5 StatProofs HashProps UpdateProofs UpdateProofs2 UpdateProofs3.
Local Open Scope nat_scope.

Section Sha.
Context (sha : list N -> list N) (Hsha : sha_like sha).
Notation H x := (t_hash sha x).
Notation plain := (plain sha).
Notation differ := (differ sha).

Lemma fin_depth c : finalized sha c -> f_repr_depth c = Ok (t_depth sha (tree_of c)).
Proof. intros F. destruct (finalized_agrees sha Hsha c F) as (_ & A & _). apply (ag_depth _ _ A 3). Qed.

(** What the builder makes *)
Record made (check : list N -> action) (old new : fcell) (u : merkle_update) (ch : gset (list N)) : Prop := {
  md_old_hash : mu_old_hash u = H (tree_of old);
  md_new_hash : mu_new_hash u = H (tree_of new);
  md_old_depth : mu_old_depth u = t_depth sha (tree_of old);
  md_new_depth : mu_new_depth u = t_depth sha (tree_of new);
  md_old_fin : finalized sha (mu_old u);
  md_new_fin : finalized sha (mu_new u);
  md_old : tree_of (mu_old u) = keep sha (set_filter ch) false 0 (tree_of old);
  md_new : tree_of (mu_new u) = keep sha (inverted check) false 0 (tree_of new);
  md_seen : forall d x, visible sha (inverted check) false d x (tree_of new) -> treat sha (inverted check) false x = Cut ->
    x = tree_of old \/ exists e, visible sha (set_filter ch) false e x (tree_of old) }.
Lemma create_made check old new : finalized sha old -> finalized sha new -> plain (tree_of old) -> plain (tree_of new) -> differ (tree_of old) -> differ (tree_of new) ->
  H (tree_of old) <> H (tree_of new) -> remembers sha check (tree_of old) (tree_of new) ->
  exists u ch, create sha check old new = Ok u /\ made check old new u ch.
Proof.
  intros Fo Fn Po Pn Do Dn NE (NS & RM). unfold create.
  rewrite (fin_hash sha Hsha old Fo), (fin_hash sha Hsha new Fn), (fin_depth old Fo), (fin_depth new Fn). cbn [rbind].
  rewrite bool_decide_false by exact NE.
  destruct (build_raw_plain sha Hsha (inverted check) new Fn Pn Dn) as (pn & pruned & -> & Fpn & Tpn & PR). cbn [rbind].
  destruct (fill_spec sha Hsha check NS pruned (tree_of old) Do old (∅, ∅) Fo (reach_self _)) as ([m ch] & -> & _ & _ & CV).
  { intros h r E. cbn [fst] in E. rewrite lookup_empty in E. discriminate. }
  cbn [rbind snd] in *. set (ch' := if hit sha check pruned (tree_of old) then {[H (tree_of old)]} ∪ ch else ch).
  assert (SUB : ch ⊆ ch') by (unfold ch'; destruct (hit _ _ _ _); set_solver).
  pose proof (covered_mono sha check pruned _ _ _ CV SUB) as CV'.
  destruct (build_raw_plain sha Hsha (set_filter ch') old Fo Po Do) as (po & pr' & -> & Fpo & Tpo & _). cbn [rbind].
  eexists _, ch'. split; [reflexivity|]. split; cbn [mu_old_hash mu_new_hash mu_old_depth mu_new_depth mu_old mu_new]; try assumption; try reflexivity.
  intros d x V TX. pose proof (visible_occurs _ _ _ _ _ _ V) as O.
  assert (Q : check (H x) <> Skip /\ c_refs x <> []).
  { unfold treat in TX. unfold inverted in TX. destruct (check (H x)); try discriminate; (split; [discriminate|]); destruct (c_refs x); discriminate. }
  destruct Q as (Q1 & Q2). destruct (RM d x O Q2 Q1) as [->|TCH]; [left; reflexivity|right].
  apply (touched_visible sha check pruned x (tree_of old) ch' TCH); [|exact CV'].
  rewrite hit_eq. rewrite bool_decide_true; [reflexivity|]. apply PR. apply (cuts_visible sha). eauto.
Qed.
Lemma apply_made check old new u ch : finalized sha old -> plain (tree_of old) -> plain (tree_of new) -> differ (tree_of old) -> differ (tree_of new) -> differ (tree_of (mu_old u)) ->
  H (tree_of old) <> H (tree_of new) -> made check old new u ch ->
  exists c, apply_update sha u old = Ok c /\ finalized sha c /\ tree_of c = tree_of new.
Proof.
  intros Fo Po Pn Do Dn Dp NE M. unfold apply_update, collect_old, find_old_cells.
  rewrite (fin_hash sha Hsha old Fo). cbn [rbind]. rewrite bool_decide_true by (symmetry; apply (md_old_hash _ _ _ _ _ M)). cbn [negb].
  rewrite bool_decide_false by (rewrite (md_old_hash _ _ _ _ _ M), (md_new_hash _ _ _ _ _ M); exact NE).
  pose proof (md_old_fin _ _ _ _ _ M) as Fpo. pose proof (md_new_fin _ _ _ _ _ M) as Fpn.
  rewrite (fin_hash sha Hsha _ Fpo), (fin_hash0 sha Hsha _ Fpo), (fin_hash sha Hsha _ Fpn). cbn [rbind].
  destruct (old_hashes sha Hsha (set_filter ch) (tree_of old) (mu_old u) (set_filter_two ch) Po Fpo (md_old _ _ _ _ _ M) Dp) as (V & s & -> & HS & VS). cbn [rbind].
  destruct (new_checked sha Hsha (inverted check) (tree_of new) (mu_new u) s (inverted_two check) Pn Fpn (md_new _ _ _ _ _ M)) as (r & ->).
  { intros d x VX TX. destruct (md_seen _ _ _ _ _ M d x VX TX) as [->|(e & W)]; [exact HS|apply (VS e x W)]. }
  cbn [rbind]. rewrite (fin_hash0 sha Hsha old Fo), (plain_hash sha Hsha _ 0 Po). cbn [rbind].
  destruct (collected sha Hsha (tree_of old) old s Fo eq_refl Po Do HS) as (V' & m & R & M0 & MM).
  rewrite R. cbn [rbind].
  destruct (run_spec sha Hsha m (inverted check) (inverted_two check) (tree_of new) Pn Dn) with (c := mu_new u) (x := tree_of new) (nc := (∅ : gmap (list N) fcell)) as (p & nc & -> & Fp & Tp & _).
  - intros d x VX TX. destruct (md_seen _ _ _ _ _ M d x VX TX) as [->|(e & W)].
    + exact M0.
    + apply (MM (set_filter ch) e x); [intros e' y Y; apply (VS e' y Y)|exact W].
  - exact Fpn.
  - apply (md_new _ _ _ _ _ M).
  - left; reflexivity.
  - intros h p E. rewrite lookup_empty in E. discriminate.
  - cbn [rbind]. rewrite (fin_hash sha Hsha p Fp), Tp. cbn [rbind]. rewrite bool_decide_true by (symmetry; apply (md_new_hash _ _ _ _ _ M)). eauto.
Qed.

(** ** Soundness of application *)
Lemma apply_sound u old c : apply_update sha u old = Ok c -> f_repr_hash old = Ok (mu_old_hash u) /\ f_repr_hash c = Ok (mu_new_hash u).
Proof.
  unfold apply_update. destruct (f_repr_hash old) as [h|] eqn:E; cbn [rbind]; [|discriminate].
  destruct (bool_decide_reflect (h = mu_old_hash u)) as [->|]; cbn [negb]; [|discriminate].
  destruct (bool_decide_reflect (mu_old_hash u = mu_new_hash u)) as [EQ|NE].
  - intros X. injection X as <-. split; [reflexivity|]. congruence.
  - destruct (collect_old u old); cbn [rbind]; [|discriminate]. destruct (run sha _ _ _ _) as [[n nc]|]; cbn [rbind]; [|discriminate].
    destruct (f_repr_hash n) as [h'|] eqn:E'; cbn [rbind]; [|discriminate]. destruct (bool_decide_reflect (h' = mu_new_hash u)) as [->|]; [|discriminate].
    intros X. injection X as <-. auto.
Qed.

(** ** Cells of updates *)
Definition update_bytes (ho hn : list N) (d e : N) : list N := [4%N] ++ ho ++ hn ++ to_be 2 d ++ to_be 2 e.
Definition update_tree (ho hn : list N) (d e : N) (x y : cell) : cell := Cell true (bytes_bits (update_bytes ho hn d e)) [x; y].
Lemma update_bytes_ok ho hn d e : Forall byte_ok ho -> Forall byte_ok hn -> Forall byte_ok (update_bytes ho hn d e).
Proof. intros A B. unfold update_bytes. constructor; [unfold byte_ok; lia|]. rewrite !List.Forall_app. repeat split; try assumption; apply to_be_ok. Qed.
Lemma update_bytes_length ho hn d e : length ho = 32 -> length hn = 32 -> length (update_bytes ho hn d e) = 69.
Proof. intros A B. unfold update_bytes. rewrite !app_length, !to_be_length, A, B. reflexivity. Qed.
Lemma update_tree_valid ho hn d e x y : Forall byte_ok ho -> Forall byte_ok hn -> length ho = 32 -> length hn = 32 -> valid_tree x -> valid_tree y ->
  valid_tree (update_tree ho hn d e x y) /\ kind_of true (bytes_bits (update_bytes ho hn d e)) = KUpdate.
Proof.
  intros A B L1 L2 V W. pose proof (update_bytes_ok ho hn d e A B) as BB. pose proof (update_bytes_length ho hn d e L1 L2) as LB.
  assert (B0 : byte_at 0 (bytes_bits (update_bytes ho hn d e)) = 4%N) by (apply byte_at_bytes; [exact BB|reflexivity]).
  assert (K : kind_of true (bytes_bits (update_bytes ho hn d e)) = KUpdate) by (unfold kind_of; rewrite B0; reflexivity).
  split; [|exact K]. constructor.
  - rewrite length_bytes_bits, LB. lia.
  - cbn. lia.
  - rewrite K. cbn [layout length]. rewrite length_bytes_bits, LB. auto.
  - constructor; [exact V|constructor; [exact W|constructor]].
Qed.
Lemma two_depths d e : (d < 65536)%N -> (e < 65536)%N -> nbits 32 (N.lor (shl 32 d 16) e) = nbits 16 d ++ nbits 16 e.
Proof.
  intros D E. unfold shl. rewrite N.shiftl_mul_pow2. rewrite N.mod_small by (change (2 ^ 32)%N with 4294967296%N; change (2 ^ 16)%N with 65536%N; lia).
  rewrite <- N.shiftl_mul_pow2. change 32 with (16 + 16). rewrite nbits_app. change (N.of_nat 16) with 16%N. f_equal.
  - f_equal. rewrite N.shiftr_lor, N.shiftr_shiftl_l by lia. rewrite N.sub_diag, N.shiftl_0_r.
    rewrite (N.shiftr_div_pow2 e). rewrite N.div_small by (change (2 ^ 16)%N with 65536%N; exact E). apply N.lor_0_r.
  - apply nbits_ext. intros k K. rewrite N.lor_spec, N.shiftl_spec_low by lia. reflexivity.
Qed.
Lemma two_depths_lt d e : (e < 65536)%N -> (N.lor (shl 32 d 16) e < 2 ^ 32)%N.
Proof.
  intros E. destruct (N.eq_dec (N.lor (shl 32 d 16) e) 0) as [->|NZ]; [reflexivity|]. apply N.log2_lt_pow2; [lia|].
  rewrite N.log2_lor. apply N.max_lub_lt.
  - destruct (N.eq_dec (shl 32 d 16) 0) as [->|Z]; [reflexivity|]. apply N.log2_lt_pow2; [lia|]. apply N.mod_lt. discriminate.
  - destruct (N.eq_dec e 0) as [->|Z]; [reflexivity|]. apply N.log2_lt_pow2; [lia|]. change (2 ^ 32)%N with 4294967296%N. lia.
Qed.
Definition update_ok (u : merkle_update) : Prop :=
  finalized sha (mu_old u) /\ finalized sha (mu_new u) /\ Forall byte_ok (mu_old_hash u) /\ length (mu_old_hash u) = 32 /\ Forall byte_ok (mu_new_hash u) /\ length (mu_new_hash u) = 32 /\
  (mu_old_depth u < 65536)%N /\ (mu_new_depth u < 65536)%N.
Lemma update_cell_spec u : update_ok u ->
  let t := update_tree (mu_old_hash u) (mu_new_hash u) (mu_old_depth u) (mu_new_depth u) (tree_of (mu_old u)) (tree_of (mu_new u)) in
  (~ too_deep sha t /\ exists c, update_cell sha u = Ok c /\ finalized sha c /\ tree_of c = t /\ f_refs c = [mu_old u; mu_new u]) \/
  (too_deep sha t /\ update_cell sha u = Err DepthOverflow).
Proof.
  intros (Fo & Fn & B1 & L1 & B2 & L2 & D1 & D2). cbn zeta.
  destruct (update_tree_valid (mu_old_hash u) (mu_new_hash u) (mu_old_depth u) (mu_new_depth u) _ _ B1 B2 L1 L2 (fin_valid sha Hsha _ Fo) (fin_valid sha Hsha _ Fn)) as (V & K).
  destruct (built_ops sha true [B_u8 (type_byte MerkleUpdate); B_u256 (mu_old_hash u); B_u256 (mu_new_hash u);
    B_u32 (N.lor (shl 32 (mu_old_depth u) 16) (mu_new_depth u)); B_ref (mu_old u); B_ref (mu_new u)]
    [(nbits 8 4, []); (bytes_bits (mu_old_hash u), []); (bytes_bits (mu_new_hash u), []); (nbits 32 (N.lor (shl 32 (mu_old_depth u) 16) (mu_new_depth u)), []); ([], [mu_old u]); ([], [mu_new u])]) as (b & HB & E).
  - pose proof (two_depths_lt (mu_old_depth u) (mu_new_depth u) D2) as LT. clear - B1 L1 B2 L2 LT.
    constructor; [constructor; vm_compute; reflexivity|]. constructor; [constructor; assumption|]. constructor; [constructor; assumption|]. constructor; [constructor; exact LT|]. repeat constructor.
  - repeat constructor.
  - cbn [map concat fst]. rewrite !app_length, !length_nbits, !length_bytes_bits, L1, L2. cbn. lia.
  - cbn. lia.
  - cbn [map concat fst snd app] in HB, E. unfold update_cell. rewrite E.
    rewrite two_depths in HB by assumption.
    assert (EB : nbits 8 4 ++ bytes_bits (mu_old_hash u) ++ bytes_bits (mu_new_hash u) ++ (nbits 16 (mu_old_depth u) ++ nbits 16 (mu_new_depth u)) ++ [] = bytes_bits (update_bytes (mu_old_hash u) (mu_new_hash u) (mu_old_depth u) (mu_new_depth u))).
    { unfold update_bytes. rewrite !bytes_bits_app, app_nil_r. rewrite !bytes_bits_to_be. reflexivity. }
    cbn [app] in HB. rewrite EB in HB.
    destruct (build_spec sha Hsha true b _ [mu_old u; mu_new u] HB ltac:(repeat constructor; assumption) ltac:(cbn; lia)) as [(_ & ND & c & Ec & Fc & Tc & _)|[(_ & TD & Ec)|(NV & _)]]; cbn [map] in *.
    + left. split; [exact ND|]. exists c. split; [exact Ec|]. split; [exact Fc|]. split; [exact Tc|].
      destruct (build_ext_refs sha _ _ _ _ Ec) as [R|R]; [exact R|]. exfalso.
      destruct (fin_facts sha c Fc) as (bits' & T' & _). rewrite T' in Tc. injection Tc as X _ _. rewrite R in X. discriminate X.
    + right. auto.
    + exfalso. apply NV. exact V.
Qed.
Lemma load_update_ok c u : finalized sha c -> update_ok u ->
  tree_of c = update_tree (mu_old_hash u) (mu_new_hash u) (mu_old_depth u) (mu_new_depth u) (tree_of (mu_old u)) (tree_of (mu_new u)) -> f_refs c = [mu_old u; mu_new u] ->
  f_hash (mu_old u) 0 = Ok (mu_old_hash u) -> f_depth (mu_old u) 0 = Ok (mu_old_depth u) -> f_hash (mu_new u) 0 = Ok (mu_new_hash u) -> f_depth (mu_new u) 0 = Ok (mu_new_depth u) ->
  load_update c = Ok u.
Proof.
  intros F (_ & _ & B1 & L1 & B2 & L2 & D1 & D2) T R E1 E2 E3 E4. destruct u as [ho hn d e x y]. cbn [mu_old_hash mu_new_hash mu_old_depth mu_new_depth mu_old mu_new] in *.
  destruct (fin_facts sha c F) as (bits & T' & ED & EL & _). rewrite T' in T. injection T as EX EB _.
  pose proof (update_bytes_ok ho hn d e B1 B2) as B. pose proof (update_bytes_length ho hn d e L1 L2) as LB.
  rewrite EB in ED, EL. rewrite data_bytes_aligned in ED by exact B. rewrite length_bytes_bits, LB in EL.
  unfold load_update. rewrite EX, EL, R, ED. cbn [negb length]. change (N.of_nat (8 * 69) =? 552)%N with true. change (N.of_nat 2 =? 2)%N with true. cbn [negb orb].
  change (rd (update_bytes ho hn d e) 0) with (Some 4%N). cbn [of_opt rbind]. change (4 =? type_byte MerkleUpdate)%N with true. cbn [negb].
  rewrite !rdn_some by lia. cbn [of_opt rbind].
  assert (A1 : take 32 (drop 1 (update_bytes ho hn d e)) = ho) by (unfold update_bytes; cbn [app]; rewrite skipn_cons, drop_0, <- L1; apply take_app).
  assert (A2 : take 32 (drop 33 (update_bytes ho hn d e)) = hn) by (unfold update_bytes; cbn [app]; rewrite skipn_cons, drop_app_alt by (symmetry; exact L1); rewrite <- L2; apply take_app).
  assert (A3 : take 2 (drop 65 (update_bytes ho hn d e)) = to_be 2 d).
  { unfold update_bytes. cbn [app]. rewrite skipn_cons. rewrite app_assoc, drop_app_alt by (rewrite app_length; lia). rewrite take_app_alt by (rewrite to_be_length; reflexivity). reflexivity. }
  assert (A4 : take 2 (drop 67 (update_bytes ho hn d e)) = to_be 2 e).
  { unfold update_bytes. cbn [app]. rewrite skipn_cons. rewrite !app_assoc, drop_app_alt by (rewrite !app_length, to_be_length; lia). apply take_ge. rewrite to_be_length. lia. }
  rewrite A1, A2, A3, A4. change ([x; y] !! 0) with (Some x). change ([x; y] !! 1) with (Some y). cbn [of_opt rbind]. rewrite E1, E2, E3, E4. cbn [rbind].
  rewrite !from_be_to_be by (change (2 ^ N.of_nat (8 * 2))%N with 65536%N; assumption).
  rewrite !bool_decide_true by reflexivity. rewrite !N.eqb_refl. reflexivity.
Qed.
End Sha.
