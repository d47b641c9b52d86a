(** * The builders of pruned branches and Merkle proofs make the specified trees. *)
From Verif Require Import Err BuilderModel CellBuilderModel SliceModel SliceSpec BuilderSpec CellModel HashSpec HashModel FcellSpec MerkleModel MerkleSpec
  BitsProofs BufProofs BuilderProofs CellBuilderProofs HashProofs HashProofs2 HashProofs3 MerkleProofs.
Local Open Scope nat_scope.

(** ** Builders *)
Lemma run_op_exotic {R} (o : bop R) b : cb_exotic (snd (run_op o b)) = cb_exotic b.
Proof.
  assert (D : forall op, cb_exotic (snd (on_data op b)) = cb_exotic b) by (intros op; unfold on_data; destruct (op (cbd b)); reflexivity).
  assert (RF : forall l (c : cb R), cb_exotic (snd (store_references l c)) = cb_exotic c).
  { induction l as [|r l IH]; intros c; [reflexivity|]. cbn [store_references]. unfold store_reference.
    destruct (_ <? _); [rewrite IH; reflexivity|reflexivity]. }
  destruct o; cbn [run_op]; try apply D.
  - unfold store_reference. destruct (_ <? _); reflexivity.
  - unfold store_builder. destruct (_ && _); [|reflexivity]. specialize (D (store_raw (bd (cbd o)) (bl (cbd o)))).
    destruct (on_data _ b) as [[u|e] c']; cbn [snd] in *; [rewrite RF|]; exact D.
  - unfold store_slice. destruct (_ && _); [|reflexivity]. specialize (D (store_slice_data s)).
    destruct (on_data _ b) as [[u|e] c']; cbn [snd] in *; [rewrite RF|]; exact D.
Qed.
Lemma run_ops_exotic {R} (l : list (bop R)) : forall b, cb_exotic (snd (run_ops l b)) = cb_exotic b.
Proof.
  induction l as [|o l IH]; intros b; [reflexivity|]. cbn [run_ops]. pose proof (run_op_exotic o b) as E.
  destruct (run_op o b) as [r c1]. specialize (IH c1). destruct (run_ops l c1). cbn [snd] in *. congruence.
Qed.
Lemma spec_ops_append {R} (l : list (bop R)) : forall (xs : list (content (R := R))) x,
  Forall2 (fun o y => appended o = Some y) l xs ->
  length (fst x) + length (concat (map fst xs)) <= 1023 -> length (snd x) + length (concat (map snd xs)) <= 4 ->
  snd (spec_ops l x) = (fst x ++ concat (map fst xs), snd x ++ concat (map snd xs)).
Proof.
  induction l as [|o l IH]; intros xs x F H1 H2; inversion F as [|? y ? ys A F']; subst.
  - cbn. rewrite !app_nil_r. destruct x; reflexivity.
  - cbn [spec_ops map concat] in *. unfold spec_op. rewrite A. destruct y as [yb yr]. cbn [fst snd] in *. rewrite !app_length in *.
    unfold fits. cbn [fst snd]. rewrite !app_length.
    destruct (Nat.leb_spec (length (fst x) + length yb) 1023); [|lia]. destruct (Nat.leb_spec (length (snd x) + length yr) 4); [|lia]. cbn [andb].
    specialize (IH ys (fst x ++ yb, snd x ++ yr) F'). cbn [fst snd] in IH. rewrite !app_length in IH.
    specialize (IH ltac:(lia) ltac:(lia)). destruct (spec_ops l _). cbn [snd] in *. rewrite IH, <- !app_assoc. reflexivity.
Qed.
Lemma brep_holds s B : brep s B -> holds_bits s B.
Proof.
  intros H. pose proof (brep_data_bits _ _ H) as E. destruct H as ((L & O & _) & BL & HB).
  split; [exact L|]. split; [exact O|]. split; [rewrite BL; lia|exact E].
Qed.

Section Sha.
Context (sha : list N -> list N) (Hsha : sha_like sha).
Let Hlen : forall x, length (sha x) = 32 /\ Forall byte_ok (sha x) := proj1 Hsha.

Lemma built_ops exotic (l : list (bop fcell)) xs : Forall op_ok l -> Forall2 (fun o y => appended o = Some y) l xs ->
  length (concat (map fst xs)) <= 1023 -> length (concat (map snd xs)) <= 4 ->
  exists b, holds_bits b (concat (map fst xs)) /\
    build_cb sha (snd (run_ops l (set_exotic exotic cb_new))) = build_ext sha exotic b (concat (map snd xs)).
Proof.
  intros OK F H1 H2. assert (R0 : cbrep (set_exotic exotic (@cb_new fcell)) ([], [])) by exact cbrep_new.
  destruct (ops_refine l OK _ _ R0) as (c' & E & (B & RF & _)).
  rewrite (spec_ops_append l xs ([], []) F) in B, RF by (cbn [fst snd length]; lia). cbn [fst snd app] in B, RF.
  exists (cbd c'). split; [apply brep_holds; exact B|].
  unfold build_cb. pose proof (run_ops_exotic l (set_exotic exotic (@cb_new fcell))) as X. rewrite E in *. cbn [snd] in *. rewrite X, RF. reflexivity.
Qed.

(** ** Pruned branches *)
Lemma prune_tables m d : (m < 8)%N -> d < 8 ->
  lm_levels (lm_new (N.land m (shl 8 1 (N.of_nat d) - 1))) = map N.of_nat (own_levels m d) /\
  lm_new (N.lor m (shl 8 1 (N.of_nat d))) = (if d <=? 2 then N.lor m (2 ^ N.of_nat d) else m) /\
  length (own_levels m d) <= 4 /\
  ((d <=? 2) && (m <? 2 ^ N.of_nat (S d))%N = false ->
   length (own_levels m d) <> bits_in (if d <=? 2 then N.lor m (2 ^ N.of_nat d) else m) 3).
Proof.
  intros M D. pattern m. apply (mask8 _ m M); clear m M;
  (destruct d as [|[|[|[|[|[|[|[|]]]]]]]]; [..|lia]; repeat split; vm_compute; try reflexivity; try lia; discriminate).
Qed.
Lemma mapR_ok {A B} (f : A -> res B) (g : A -> B) l : (forall x, In x l -> f x = Ok (g x)) -> mapR f l = Ok (map g l).
Proof.
  induction l as [|x l IH]; intros H; [reflexivity|]. cbn [mapR map]. rewrite (H x) by (left; reflexivity). cbn [rbind].
  rewrite IH by (intros y Hy; apply H; right; exact Hy). reflexivity.
Qed.
Lemma mapR_map {A B C} (f : B -> res C) (h : A -> B) (g : A -> C) l : (forall x, In x l -> f (h x) = Ok (g x)) -> mapR f (map h l) = Ok (map g l).
Proof.
  induction l as [|x l IH]; intros H; [reflexivity|]. cbn [mapR map]. rewrite (H x) by (left; reflexivity). cbn [rbind].
  rewrite IH by (intros y Hy; apply H; right; exact Hy). reflexivity.
Qed.
Lemma concat_bytes {A} (f : A -> list N) xs : concat (map (fun x => bytes_bits (f x)) xs) = bytes_bits (concat (map f xs)).
Proof. induction xs as [|x xs IH]; [reflexivity|]. cbn [map concat]. rewrite bytes_bits_app, IH. reflexivity. Qed.

(** The general statement is about any handle whose hashes and depths are those of an info. *)
Lemma make_pruned_bytes h i d : regular i -> d_mask (h_d1 h) = i_mask i ->
  (forall l : nat, h_hash h (N.of_nat l) = Ok (i_hash i l) /\ h_depth h (N.of_nat l) = Ok (i_depth i l)) ->
  (forall l, (i_depth i l <= 65535)%N) -> d < 8 -> length (own_levels (i_mask i) d) <= 3 ->
  let M := if d <=? 2 then N.lor (i_mask i) (2 ^ N.of_nat d) else i_mask i in
  let ls := own_levels (i_mask i) d in
  let bytes := ([1%N; M] ++ concat (map (i_hash i) ls) ++ concat (map (fun l => to_be 2 (i_depth i l)) ls)) in
  exists b, holds_bits b (bytes_bits bytes) /\ make_pruned sha h (N.of_nat d) = build_ext sha true b [] /\
    length bytes = 2 + 34 * length ls /\ Forall byte_ok bytes /\ (M < 8)%N.
Proof.
  intros RG Hm HH HD Hd T4. cbn zeta.
  destruct (prune_tables (i_mask i) d (rg_mask _ RG) Hd) as (T1 & T2 & T3 & _).
  set (ls := own_levels (i_mask i) d) in *.
  set (M := if d <=? 2 then N.lor (i_mask i) (2 ^ N.of_nat d) else i_mask i) in *.
  assert (M8 : (M < 8)%N) by (rewrite <- T2; apply lm_new_lt).
  assert (H32 : Forall (fun y : list N => length y = 32) (map (i_hash i) ls)) by (apply Forall_map, Forall_forall; intros; apply (rg_len _ RG)).
  assert (H2 : Forall (fun y : list N => length y = 2) (map (fun l => to_be 2 (i_depth i l)) ls)) by (apply Forall_map, Forall_forall; intros; apply to_be_length).
  assert (Hb : Forall byte_ok (concat (map (i_hash i) ls))) by (apply Forall_concat, Forall_map, Forall_forall; intros; apply (rg_bytes _ RG)).
  assert (LB : length ([1%N; M] ++ concat (map (i_hash i) ls) ++ concat (map (fun l => to_be 2 (i_depth i l)) ls)) = 2 + 34 * length ls).
  { rewrite !app_length, (length_concat_const 32 _ H32), (length_concat_const 2 _ H2), !map_length. cbn [length]. lia. }
  destruct (built_ops true (B_u16 (from_be [type_byte PrunedBranch; M]) :: map B_u256 (map (i_hash i) ls) ++ map B_u16 (map (i_depth i) ls))
    ((bytes_bits [1%N; M], []) :: map (fun l => (bytes_bits (i_hash i l), [])) ls ++ map (fun l => (bytes_bits (to_be 2 (i_depth i l)), [])) ls)) as (b & HB & E).
  - constructor.
    + constructor. rewrite from_be_bval by (repeat constructor; unfold byte_ok; lia).
      pose proof (bval_lt (bytes_bits [type_byte PrunedBranch; M])) as B. exact B.
    + apply Forall_app. split; apply Forall_map, Forall_map, Forall_forall; intros l _.
      * constructor; [apply (rg_bytes _ RG)|apply (rg_len _ RG)].
      * constructor. specialize (HD l). lia.
  - constructor.
    + cbn [appended]. do 2 f_equal. rewrite from_be_bval by (repeat constructor; unfold byte_ok; lia).
      apply nbits_bval'. reflexivity.
    + rewrite !map_map. apply Forall2_app.
      * clear. induction ls; constructor; [reflexivity|assumption].
      * clear. induction ls; constructor; [|assumption]. cbn [appended]. rewrite bytes_bits_to_be. reflexivity.
  - cbn [map concat fst]. rewrite map_app, !map_map, concat_app. cbn [fst].
    rewrite !concat_bytes, <- !bytes_bits_app, length_bytes_bits, LB. lia.
  - cbn [map concat snd]. rewrite map_app, !map_map, concat_app. cbn [snd].
    assert (Z : length (concat (map (fun _ : nat => @nil fcell) ls)) = 0) by (clear; induction ls; cbn; auto).
    rewrite !app_length, Z. cbn. lia.
  - exists b. cbn [map concat fst snd] in *. rewrite !map_app, !map_map, !concat_app in *. cbn [fst snd] in *.
    rewrite !concat_bytes, <- !bytes_bits_app in HB.
    assert (Z : concat (map (fun _ : nat => @nil fcell) ls) = []) by (clear; induction ls; cbn; auto).
    rewrite Z in E. split; [exact HB|]. split; [|split; [exact LB|split; [|exact M8]]].
    + unfold make_pruned. rewrite Hm. destruct (N.leb_spec 8 (N.of_nat d)); [lia|]. rewrite T1, T2.
      rewrite (mapR_map _ _ (i_hash i)) by (intros; apply HH). rewrite (mapR_map _ _ (i_depth i)) by (intros; apply HH). cbn [rbind].
      rewrite !map_map. exact E.
    + cbn [app]. constructor; [unfold byte_ok; lia|]. constructor; [unfold byte_ok; lia|]. apply Forall_app. split; [exact Hb|].
      apply Forall_concat, Forall_map, Forall_forall; intros; apply byte_ok_to_be.
Qed.

Lemma spec_ops_app {R} (a b : list (bop R)) : forall x, snd (spec_ops (a ++ b) x) = snd (spec_ops b (snd (spec_ops a x))).
Proof.
  induction a as [|o a IH]; intros x; [reflexivity|]. cbn [app spec_ops]. destruct (spec_op o x) as [r c1]. specialize (IH c1).
  destruct (spec_ops (a ++ b) c1), (spec_ops a c1). exact IH.
Qed.
(** Above level 3 with a full mask the fourth hash does not fit; the call that stores it is
    ignored and the cell is rejected. *)
Lemma make_pruned_full h i d : regular i -> d_mask (h_d1 h) = i_mask i ->
  (forall l : nat, h_hash h (N.of_nat l) = Ok (i_hash i l) /\ h_depth h (N.of_nat l) = Ok (i_depth i l)) ->
  (forall l, (i_depth i l <= 65535)%N) -> i_mask i = 7%N -> 3 <= d < 8 ->
  make_pruned sha h (N.of_nat d) = Err InvalidCell.
Proof.
  intros RG Hm HH HD M7 Hd.
  assert (OL : own_levels 7 d = [0; 1; 2; 3]) by (destruct d as [|[|[|[|[|[|[|[|]]]]]]]]; try lia; vm_compute; reflexivity).
  destruct (prune_tables 7%N d ltac:(lia) ltac:(lia)) as (T1 & T2 & _). rewrite OL in T1.
  destruct (Nat.leb_spec d 2); [lia|].
  unfold make_pruned. rewrite Hm, M7. destruct (N.leb_spec 8 (N.of_nat d)); [lia|]. rewrite T1, T2.
  rewrite (mapR_map _ _ (i_hash i)) by (intros; apply HH). rewrite (mapR_map _ _ (i_depth i)) by (intros; apply HH). cbn [rbind].
  set (ops := _ :: _).
  assert (OK : Forall op_ok ops).
  { constructor.
    - constructor. vm_compute. reflexivity.
    - apply Forall_app. split; apply Forall_map, Forall_map, Forall_forall; intros l _.
      + constructor; [apply (rg_bytes _ RG)|apply (rg_len _ RG)].
      + constructor. specialize (HD l). lia. }
  assert (R0 : cbrep (set_exotic true (@cb_new fcell)) ([], [])) by exact cbrep_new.
  destruct (ops_refine ops OK _ _ R0) as (c' & E & (B & RF & _)).
  assert (S : snd (spec_ops ops ([], [])) =
    (bytes_bits ([1; 7]%N ++ i_hash i 0 ++ i_hash i 1 ++ i_hash i 2 ++ concat (map (fun l => to_be 2 (i_depth i l)) [0; 1; 2; 3])), [])).
  { change ops with ((B_u16 (from_be [type_byte PrunedBranch; 7%N]) :: map B_u256 [i_hash i 0; i_hash i 1; i_hash i 2]) ++
                     ([@B_u256 fcell (i_hash i 3)] ++ map B_u16 (map (i_depth i) [0; 1; 2; 3]))).
    rewrite !spec_ops_app.
    pose proof (rg_len _ RG 0) as L0. pose proof (rg_len _ RG 1) as L1. pose proof (rg_len _ RG 2) as L2. pose proof (rg_len _ RG 3) as L3.
    rewrite (spec_ops_append (B_u16 (from_be [type_byte PrunedBranch; 7%N]) :: map B_u256 [i_hash i 0; i_hash i 1; i_hash i 2]) ((bytes_bits [1; 7]%N, []) :: map (fun l => (bytes_bits (i_hash i l), [])) [0; 1; 2])).
    2:{ repeat constructor. }
    2:{ cbn [map concat fst app length]. rewrite !app_length, !length_bytes_bits, L0, L1, L2. cbn. lia. }
    2:{ cbn. lia. }
    cbn [map concat fst snd app].
    assert (F3 : forall x : list bool * list fcell, length (fst x) = 784 -> snd (spec_ops [B_u256 (i_hash i 3)] x) = x).
    { intros x Lx. cbn [spec_ops]. unfold spec_op. cbn [appended]. unfold fits. cbn [fst snd]. rewrite app_length, length_bytes_bits, L3, Lx. reflexivity. }
    rewrite F3 by (cbn [fst]; rewrite !app_length, !length_bytes_bits, L0, L1, L2; reflexivity).
    rewrite (spec_ops_append _ (map (fun l => (bytes_bits (to_be 2 (i_depth i l)), [])) [0; 1; 2; 3])).
    - cbn [map concat fst snd app]. rewrite !bytes_bits_cons, !bytes_bits_app. cbn [app]. rewrite !app_nil_r, <- !app_assoc. reflexivity.
    - cbn [map]. repeat constructor; cbn [appended]; rewrite bytes_bits_to_be; reflexivity.
    - cbn [map concat fst app length]. rewrite !app_length, !length_bytes_bits, !to_be_length, L0, L1, L2. cbn. lia.
    - cbn. lia. }
  rewrite S in B, RF. cbn [fst snd] in B, RF. pose proof (brep_holds _ _ B) as HB.
  unfold build_cb. pose proof (run_ops_exotic ops (set_exotic true (@cb_new fcell))) as X. fold ops in E. rewrite E in *. cbn [snd] in *. rewrite X, RF. cbn [set_exotic cb_exotic].
  set (bytes := [1; 7]%N ++ _) in *.
  assert (BO : Forall byte_ok bytes).
  { unfold bytes. cbn [app]. constructor; [unfold byte_ok; lia|]. constructor; [unfold byte_ok; lia|].
    apply Forall_app. split; [apply (rg_bytes _ RG)|]. apply Forall_app. split; [apply (rg_bytes _ RG)|]. apply Forall_app. split; [apply (rg_bytes _ RG)|].
    apply Forall_concat, Forall_map, Forall_forall; intros; apply byte_ok_to_be. }
  destruct (build_spec sha Hsha true _ _ [] HB ltac:(constructor) ltac:(cbn; lia)) as [(V & _)|[(V & _)|(_ & G)]]; [| |exact G]; exfalso;
  inversion V as [? ? ? V1 V2 V3 V4]; subst; clear V4;
  unfold kind_of in V3; rewrite (byte_at_bytes 0 bytes 1%N BO eq_refl), (byte_at_bytes 1 bytes 7%N BO eq_refl) in V3; cbn [layout] in V3;
  destruct V3 as (_ & _ & _ & LL & _); rewrite length_bytes_bits in LL; unfold bytes in LL;
  rewrite !app_length, !(rg_len _ RG), (length_concat_const 2) in LL by (apply Forall_map, Forall_forall; intros; apply to_be_length);
  vm_compute in LL; discriminate.
Qed.

(** A pruned branch can be made exactly for cells that have no level above the new one. *)
Lemma make_pruned_spec h c d : valid_tree c -> (forall l, (i_depth (info_of sha c) l <= 65535)%N) ->
  d_mask (h_d1 h) = i_mask (info_of sha c) ->
  (forall l : nat, h_hash h (N.of_nat l) = Ok (i_hash (info_of sha c) l) /\ h_depth h (N.of_nat l) = Ok (i_depth (info_of sha c) l)) ->
  (prunable sha d c /\ exists p, make_pruned sha h (N.of_nat d) = Ok p /\ finalized sha p /\ tree_of p = pruned_tree sha d c) \/
  (~ prunable sha d c /\ make_pruned sha h (N.of_nat d) = Err (if d <? 8 then InvalidCell else Panic)).
Proof.
  intros V HD Hm HH. pose proof (info_regular sha Hlen c V) as RG. set (i := info_of sha c) in *.
  destruct (Nat.ltb_spec d 8) as [D8|D8].
  2:{ right. split; [intros (P & _); lia|]. unfold make_pruned. destruct (N.leb_spec 8 (N.of_nat d)); [reflexivity|lia]. }
  destruct (prune_tables (i_mask i) d (rg_mask _ RG) D8) as (_ & _ & T3 & T4).
  destruct (le_lt_dec (length (own_levels (i_mask i) d)) 3) as [L3|L3].
  2:{ assert (M7 : i_mask i = 7%N /\ 3 <= d).
      { clear - L3 D8 RG. pose proof (rg_mask _ RG) as M. revert L3. pattern (i_mask i). apply (mask8 _ _ M); intros L;
        (destruct d as [|[|[|[|[|[|[|[|]]]]]]]]; [..|lia]; vm_compute in L; lia). }
      right. split; [intros (P & _); lia|]. apply (make_pruned_full h i d); try assumption; [apply M7|lia]. }
  destruct (make_pruned_bytes h i d RG Hm HH HD D8 L3) as (b & HB & E & LB & BO & M8).
  set (M := if d <=? 2 then _ else _) in *.
  destruct ((d <=? 2) && (i_mask i <? 2 ^ N.of_nat (S d))%N) eqn:Q.
  - apply andb_true_iff in Q. destruct Q as (Q1 & Q2). assert (EM : M = N.lor (i_mask i) (2 ^ N.of_nat d)) by (unfold M; rewrite Q1; reflexivity). apply Nat.leb_le in Q1. apply N.ltb_lt in Q2.
    assert (P : prunable sha d c) by (split; assumption).
    left. split; [exact P|]. rewrite E.
    pose proof (pruned_valid sha Hsha c d V P HD) as PV. destruct (pruned_info sha Hsha c d V P HD) as (_ & (_ & PS) & PA).
    unfold pruned_tree in PV, PS, PA |- *. cbn zeta in *. fold i in PV, PS, PA |- *. rewrite <- EM in PV, PS, PA |- *.
    destruct (build_spec sha Hsha true b _ [] HB ltac:(constructor) ltac:(cbn; lia)) as [(_ & _ & p & Ep & F & T & _)|[(_ & (l & TD) & _)|(NV & _)]].
    + exists p. auto.
    + exfalso. destruct (le_lt_dec l d) as [Hl|Hl].
      * destruct (PS l Hl) as (_ & X). specialize (HD l). cbn [map] in TD. lia.
      * destruct (PA l Hl) as (_ & X). cbn [map] in TD. lia.
    + exfalso. apply NV. exact PV.
  - right. split.
    { intros (P1 & P2). apply andb_false_iff in Q. destruct Q as [Q|Q]; [apply Nat.leb_gt in Q; lia|apply N.ltb_ge in Q; fold i in P2; lia]. }
    specialize (T4 eq_refl). rewrite E. fold M in T4.
    assert (X0 : byte_at 0 (bytes_bits ([1%N; M] ++ concat (map (i_hash i) (own_levels (i_mask i) d)) ++ concat (map (fun l => to_be 2 (i_depth i l)) (own_levels (i_mask i) d)))) = 1%N)
      by (apply byte_at_bytes; [exact BO|reflexivity]).
    assert (X1 : byte_at 1 (bytes_bits ([1%N; M] ++ concat (map (i_hash i) (own_levels (i_mask i) d)) ++ concat (map (fun l => to_be 2 (i_depth i l)) (own_levels (i_mask i) d)))) = M)
      by (apply byte_at_bytes; [exact BO|reflexivity]).
    set (bytes := [1%N; M] ++ _) in *.
    destruct (build_spec sha Hsha true b _ [] HB ltac:(constructor) ltac:(cbn; lia)) as [(VV & _)|[(VV & _)|(_ & G)]]; [| |exact G]; exfalso;
    inversion VV as [? ? ? V1 V2 V3 V4]; subst; clear V4;
    unfold kind_of in V3; rewrite X0, X1 in V3; cbn [layout] in V3;
    destruct V3 as (_ & _ & _ & LL & _); rewrite length_bytes_bits, LB in LL; lia.
Qed.
End Sha.
