(** * Pruned branches and proof trees on plain trees. *)
From Verif Require Import Err CellModel HashSpec HashModel FcellSpec MerkleModel MerkleSpec BitsProofs HashProofs HashProofs2 HashProofs3.
Local Open Scope nat_scope.

Lemma same_upto_refl d i : same_upto d i i.
Proof. split; auto. Qed.

Lemma byte_ok_to_be n v : Forall byte_ok (to_be n v).
Proof. apply to_be_ok. Qed.
Lemma data_bytes_aligned bytes : Forall byte_ok bytes -> data_bytes (bytes_bits bytes) = bytes.
Proof.
  intros H. unfold data_bytes, pad. rewrite length_bytes_bits.
  replace (8 * length bytes) with (length bytes * 8) by lia. rewrite Nat.mod_mul by lia. cbn [Nat.eqb]. apply pack_bytes_bits. exact H.
Qed.
Lemma byte_at_bytes i bytes b : Forall byte_ok bytes -> bytes !! i = Some b -> byte_at i (bytes_bits bytes) = b.
Proof.
  intros H L. apply lookup_lt_Some in L as Hi.
  pose proof (byte_at_data i (bytes_bits bytes)) as E. rewrite length_bytes_bits in E. specialize (E ltac:(lia)).
  rewrite data_bytes_aligned in E by exact H. congruence.
Qed.
Lemma take_drop_concat {A} (n i : nat) (xs : list (list A)) x rest :
  Forall (fun y => length y = n) xs -> xs !! i = Some x -> take n (drop (n * i) (concat xs ++ rest)) = x.
Proof.
  intros F. revert i. induction F as [|y xs Hy F IH]; intros i L; [discriminate|].
  destruct i as [|i]; cbn [lookup list_lookup] in L.
  - injection L as ->. rewrite Nat.mul_0_r, drop_0. cbn [concat]. rewrite <- app_assoc. apply take_app_alt. congruence.
  - cbn [concat]. rewrite <- app_assoc. replace (n * S i) with (length y + n * i) by lia. rewrite <- drop_drop, drop_app. apply IH. exact L.
Qed.
Lemma length_concat_const {A} n (xs : list (list A)) : Forall (fun y => length y = n) xs -> length (concat xs) = n * length xs.
Proof. induction 1 as [|y xs H _ IH]; [cbn; lia|]. cbn [concat length]. rewrite app_length, IH, H. lia. Qed.

Section Sha.
Context (sha : list N -> list N) (Hsha : sha_like sha).
Let Hlen : forall x, length (sha x) = 32 /\ Forall byte_ok (sha x) := proj1 Hsha.

(** ** Hashes of a cell depend on the children up to one level *)
Lemma sub_eq d ch ch' l : Forall2 (same_upto d) ch ch' -> l <= d ->
  sub_depths ch l = sub_depths ch' l /\ sub_hashes ch l = sub_hashes ch' l.
Proof.
  intros F Hl. unfold sub_depths, sub_hashes. induction F as [|i j ch ch' (_ & H) F (IH1 & IH2)]; [auto|].
  cbn [map]. destruct (H l Hl) as (-> & ->). rewrite IH1, IH2. auto.
Qed.
Lemma or_all_same d ch ch' n : Forall2 (same_upto d) ch ch' -> n < d ->
  N.testbit (or_all (map i_mask ch)) (N.of_nat n) = N.testbit (or_all (map i_mask ch')) (N.of_nat n).
Proof.
  intros F Hn. rewrite !or_all_bits. induction F as [|i j ch ch' (H & _) F IH]; [reflexivity|].
  cbn [map existsb]. rewrite IH, (H n Hn). reflexivity.
Qed.
Lemma cell_mask_same d k ch ch' n : Forall2 (same_upto (d + k_merkle k)) ch ch' -> n < d ->
  N.testbit (cell_mask k ch) (N.of_nat n) = N.testbit (cell_mask k ch') (N.of_nat n).
Proof.
  intros F Hn. destruct k; cbn [cell_mask k_merkle] in *; try reflexivity.
  - rewrite Nat.add_0_r in F. eapply or_all_same; eassumption.
  - rewrite !N.shiftr_spec by lia. replace (N.of_nat n + 1)%N with (N.of_nat (n + 1)) by lia. eapply or_all_same; [eassumption|lia].
  - rewrite !N.shiftr_spec by lia. replace (N.of_nat n + 1)%N with (N.of_nat (n + 1)) by lia. eapply or_all_same; [eassumption|lia].
Qed.
Lemma cell_info_same d e bits ch ch' : Forall2 (same_upto (d + k_merkle (kind_of e bits))) ch ch' ->
  same_upto d (cell_info sha e bits ch) (cell_info sha e bits ch').
Proof.
  intros F. unfold cell_info. destruct (kind_of e bits) as [|m| | |] eqn:K; try apply same_upto_refl;
  rewrite <- K in F |- *; set (k := kind_of e bits) in *; clearbody k; clear K;
  (split; cbn [i_mask i_hash i_depth]; [intros n Hn; apply (cell_mask_same d); assumption|]);
  intros l Hl; (split; [|destruct (sub_eq _ _ _ (l + k_merkle k) F) as (-> & _); [lia|reflexivity]]);
  induction l as [|l IH]; cbn [level_hash].
  all: try (unfold level_repr; destruct (sub_eq _ _ _ (0 + k_merkle k) F) as (-> & ->); [lia|reflexivity]).
  all: rewrite (cell_mask_same d k ch ch' l F) by lia.
  all: rewrite IH by lia; destruct (N.testbit _ _); [|reflexivity].
  all: unfold level_repr; destruct (sub_eq _ _ _ (S l + k_merkle k) F) as (-> & ->); [lia|reflexivity].
Qed.

(** ** Pruned branches *)
Lemma own_levels_spec m d : d <= 2 -> (m < 2 ^ N.of_nat (S d))%N ->
  (forall l, l <= d -> let M := N.lor m (2 ^ N.of_nat d) in
    bits_in M l < bits_in M 3 /\
    exists l', own_levels m d !! bits_in M l = Some l' /\ l' <= l /\ (forall j, l' <= j < l -> N.testbit m (N.of_nat j) = false)) /\
  (forall l, d < l -> bits_in (N.lor m (2 ^ N.of_nat d)) l = bits_in (N.lor m (2 ^ N.of_nat d)) 3) /\
  length (own_levels m d) = bits_in (N.lor m (2 ^ N.of_nat d)) 3 /\ (0 < N.lor m (2 ^ N.of_nat d) < 8)%N /\
  (forall n, n < d -> N.testbit (N.lor m (2 ^ N.of_nat d)) (N.of_nat n) = N.testbit m (N.of_nat n)).
Proof.
  intros Hd Hm.
  assert (D : d = 0 /\ (m < 2)%N \/ d = 1 /\ (m < 4)%N \/ d = 2 /\ (m < 8)%N).
  { destruct d as [|[|[|]]]; [left|right; left|right; right|lia]; (split; [reflexivity|exact Hm]). }
  assert (M8 : (m < 8)%N) by lia.
  split; [|split; [|split; [|split]]].
  - intros l Hl. cbn zeta.
    assert (G : forall l' : nat, own_levels m d !! bits_in (N.lor m (2 ^ N.of_nat d)) l = Some l' -> l' <= l ->
              (forall j, In j (seq 0 3) -> l' <= j < l -> N.testbit m (N.of_nat j) = false) ->
              exists l', own_levels m d !! bits_in (N.lor m (2 ^ N.of_nat d)) l = Some l' /\ l' <= l /\ (forall j, l' <= j < l -> N.testbit m (N.of_nat j) = false)).
    { intros l' H1 H2 H3. exists l'. split; [exact H1|]. split; [exact H2|]. intros j Hj. apply H3; [|exact Hj]. apply in_seq. lia. }
    revert Hm D G. pattern m. apply (mask8 _ m M8); intros Hm D G;
    (destruct D as [(-> & H)|[(-> & H)|(-> & H)]]; try (vm_compute in H; discriminate);
     destruct l as [|[|[|]]]; try lia;
     (split; [vm_compute; lia|]; eapply G; [vm_compute; reflexivity|lia|];
      intros j Hj; vm_compute in Hj; destruct Hj as [<-|[<-|[<-|[]]]]; intros; try lia; vm_compute; reflexivity)).
  - intros l Hl. assert (M : (N.lor m (2 ^ N.of_nat d) < 8)%N).
    { clear Hl Hm. revert D. pattern m. apply (mask8 _ m M8); intros D;
      (destruct D as [(-> & H)|[(-> & H)|(-> & H)]]; try (vm_compute in H; discriminate); vm_compute; reflexivity). }
    destruct (le_lt_dec 3 l) as [H3|H3]; [apply bits_in_above; assumption|].
    revert D. clear Hm M. pattern m. apply (mask8 _ m M8); intros D;
    (destruct D as [(-> & H)|[(-> & H)|(-> & H)]]; try (vm_compute in H; discriminate);
     destruct l as [|[|[|]]]; try lia; vm_compute; reflexivity).
  - revert D. clear Hm. pattern m. apply (mask8 _ m M8); intros D;
    (destruct D as [(-> & H)|[(-> & H)|(-> & H)]]; try (vm_compute in H; discriminate); vm_compute; reflexivity).
  - revert D. clear Hm. pattern m. apply (mask8 _ m M8); intros D;
    (destruct D as [(-> & H)|[(-> & H)|(-> & H)]]; try (vm_compute in H; discriminate); vm_compute; split; reflexivity).
  - intros n Hn. rewrite N.lor_spec, N.pow2_bits_eqb. replace (N.of_nat d =? N.of_nat n)%N with false by lia. apply orb_false_r.
Qed.

Lemma regular_skip i a b : regular i -> a <= b -> (forall j, a <= j < b -> N.testbit (i_mask i) (N.of_nat j) = false) ->
  i_hash i b = i_hash i a /\ i_depth i b = i_depth i a.
Proof.
  intros R H. induction H as [|b H IH]; intros T; [auto|].
  rewrite (rg_hash _ R b), (rg_depth _ R b) by (apply T; lia). apply IH. intros j Hj. apply T. lia.
Qed.

Section Prune.
Context (c : cell) (d : nat) (V : valid_tree c) (P : prunable sha d c) (HD : forall l, (i_depth (info_of sha c) l <= 65535)%N).
Let i := info_of sha c.
Let m := i_mask i.
Let M := N.lor m (2 ^ N.of_nat d).
Let ls := own_levels m d.
Let bytes := [1%N; M] ++ concat (map (i_hash i) ls) ++ concat (map (fun l => to_be 2 (i_depth i l)) ls).
Let RG : regular i := info_regular sha Hlen c V.

Lemma pruned_bytes_ok : Forall byte_ok bytes.
Proof.
  destruct (own_levels_spec m d (proj1 P) (proj2 P)) as (_ & _ & _ & HM & _). fold M in HM.
  unfold bytes. cbn [app]. constructor; [unfold byte_ok; lia|]. constructor; [unfold byte_ok; lia|]. apply Forall_app. split.
  - apply Forall_concat, Forall_map, Forall_forall. intros l _. apply (rg_bytes _ RG).
  - apply Forall_concat, Forall_map, Forall_forall. intros l _. apply byte_ok_to_be.
Qed.
Lemma pruned_kind : kind_of true (bytes_bits bytes) = KPruned M.
Proof.
  unfold kind_of. rewrite (byte_at_bytes 0 bytes 1%N pruned_bytes_ok eq_refl), (byte_at_bytes 1 bytes M pruned_bytes_ok eq_refl). reflexivity.
Qed.
Lemma hashes_32 : Forall (fun y : list N => length y = 32) (map (i_hash i) ls).
Proof. apply Forall_map, Forall_forall. intros l _. apply (rg_len _ RG). Qed.
Lemma depths_2 : Forall (fun y : list N => length y = 2) (map (fun l => to_be 2 (i_depth i l)) ls).
Proof. apply Forall_map, Forall_forall. intros l _. apply to_be_length. Qed.
Lemma pruned_bytes_len : length bytes = 2 + 34 * bits_in M 3.
Proof.
  destruct (own_levels_spec m d (proj1 P) (proj2 P)) as (_ & _ & HL & _). fold M ls in HL.
  unfold bytes. rewrite !app_length, (length_concat_const 32 _ hashes_32), (length_concat_const 2 _ depths_2), !map_length, HL. cbn [length]. lia.
Qed.
Lemma pruned_valid : valid_tree (pruned_tree sha d c).
Proof.
  unfold pruned_tree. cbn zeta. fold i m ls M. fold bytes.
  destruct (own_levels_spec m d (proj1 P) (proj2 P)) as (_ & _ & _ & HM & _). fold M in HM.
  assert (B3 : bits_in M 3 <= 3) by (unfold bits_in; etransitivity; [apply filter_length|]; rewrite seq_length; lia).
  constructor.
  - rewrite length_bytes_bits, pruned_bytes_len. lia.
  - cbn; lia.
  - rewrite pruned_kind. cbn [layout length]. split; [reflexivity|]. split; [exact HM|]. split; [reflexivity|].
    split; [rewrite length_bytes_bits, pruned_bytes_len; lia|].
    rewrite (byte_at_bytes 0 bytes 1%N pruned_bytes_ok eq_refl), (byte_at_bytes 1 bytes M pruned_bytes_ok eq_refl). auto.
  - constructor.
Qed.
(** Up to the pruning level a pruned branch shows the hashes and depths of the cell; above,
    its own. *)
Lemma pruned_info :
  i_mask (info_of sha (pruned_tree sha d c)) = M /\
  same_upto d i (info_of sha (pruned_tree sha d c)) /\
  forall l, d < l -> i_hash (info_of sha (pruned_tree sha d c)) l = t_hash sha (pruned_tree sha d c) /\
                     i_depth (info_of sha (pruned_tree sha d c)) l = 0%N.
Proof.
  unfold t_hash, pruned_tree. cbn zeta. fold i m ls M. fold bytes. cbn [info_of map]. unfold cell_info. rewrite pruned_kind. cbv zeta. cbn [i_mask i_hash i_depth].
  rewrite data_bytes_aligned by apply pruned_bytes_ok.
  destruct (own_levels_spec m d (proj1 P) (proj2 P)) as (HS & HA & HL & HM & HB). fold M ls in HS, HA, HL, HM, HB.
  split; [reflexivity|]. split; [split|].
  - intros n Hn. symmetry. apply HB. exact Hn.
  - intros l Hl. cbn [i_hash i_depth]. destruct (HS l Hl) as (LT & l' & LK & Hl' & T). apply Nat.ltb_lt in LT. rewrite LT.
    assert (TT : forall j, l' <= j < l -> N.testbit (i_mask i) (N.of_nat j) = false) by exact T.
    destruct (regular_skip i l' l RG Hl' TT) as (E1 & E2). rewrite E1, E2.
    unfold bytes. split.
    + rewrite <- drop_drop. cbn [app drop]. symmetry. apply take_drop_concat; [apply hashes_32|]. rewrite list_lookup_fmap, LK. reflexivity.
    + rewrite <- HL.
      replace (2 + 32 * length ls + 2 * bits_in M l) with (length ([1%N; M] ++ concat (map (i_hash i) ls)) + 2 * bits_in M l)
        by (rewrite app_length, (length_concat_const 32 _ hashes_32), map_length; cbn [length]; lia).
      rewrite app_assoc, <- drop_drop, drop_app.
      rewrite <- (app_nil_r (concat (map (fun l0 => to_be 2 (i_depth i l0)) ls))).
      rewrite (take_drop_concat 2 _ _ (to_be 2 (i_depth i l'))); [|apply depths_2|rewrite list_lookup_fmap, LK; reflexivity].
      rewrite from_be_to_be; [reflexivity|]. specialize (HD l'). fold i in HD. change (2 ^ N.of_nat (8 * 2))%N with 65536%N. lia.
  - intros l Hl. rewrite (HA l Hl). rewrite Nat.ltb_irrefl. auto.
Qed.
End Prune.

(** ** Proof trees *)
Definition depths_fit (c : cell) : Prop :=
  (forall l, (i_depth (info_of sha c) l <= 65535)%N) /\ forall d x, occurs d x c -> forall l, (i_depth (info_of sha x) l <= 65535)%N.
Lemma depths_fit_child c x : depths_fit c -> In x (c_refs c) -> depths_fit x.
Proof.
  intros (H1 & H2) I. split; [eapply H2; constructor; exact I|]. intros d y O. eapply H2. eapply occurs_deep; eassumption.
Qed.
Lemma valid_child c x : valid_tree c -> In x (c_refs c) -> valid_tree x.
Proof. intros V I. destruct V as [e bits refs _ _ _ F]. cbn [c_refs] in I. rewrite List.Forall_forall in F. apply F. exact I. Qed.
Lemma max_all_le (l l' : list N) : Forall2 N.le l l' -> (max_all l <= max_all l')%N.
Proof. induction 1; cbn [max_all fold_right] in *; unfold max_all in *; lia. Qed.

Section Filter.
Context (check : list N -> action) (big : bool).
Notation treat := (treat sha check big).
Notation keep := (keep sha check big).

Definition treated (d : nat) (x : cell) : cell :=
  match treat x with Whole => x | Cut => pruned_tree sha d x | Keep => keep (d + c_merkle x) x end.
Lemma keep_eq d c : keep d c = Cell (c_exotic c) (c_bits c) (map (treated d) (c_refs c)).
Proof. destruct c. reflexivity. Qed.

Notation cuts_ok := (cuts_ok sha check big).
Notation visible := (visible sha check big).
Lemma cuts_ok_child b c x : cuts_ok b c -> In x (c_refs c) -> treat x = Keep -> cuts_ok (b + c_merkle c) x.
Proof. intros H I K d y O T. rewrite <- Nat.add_assoc. apply H; [|exact T]. eapply visible_deep; eassumption. Qed.
Lemma visible_occurs d x c : visible d x c -> occurs d x c.
Proof. induction 1; [constructor; assumption|eapply occurs_deep; eassumption]. Qed.

Definition faithful (b : nat) (c p : cell) : Prop :=
  valid_tree p /\ same_upto b (info_of sha c) (info_of sha p) /\ (forall l, (i_depth (info_of sha p) l <= i_depth (info_of sha c) l)%N).
Lemma keep_faithful c : forall b, valid_tree c -> depths_fit c -> cuts_ok b c -> faithful b c (keep (b + c_merkle c) c).
Proof.
  induction c as [e bits refs IH] using cell_tree_ind. intros b V DF CO.
  assert (F : Forall (fun x => faithful (b + c_merkle (Cell e bits refs)) x (treated (b + c_merkle (Cell e bits refs)) x)) refs).
  { apply List.Forall_forall. intros x I. set (b' := b + c_merkle (Cell e bits refs)).
    pose proof (valid_child _ x V I) as Vx. pose proof (depths_fit_child _ x DF I) as Dx.
    pose proof (cuts_ok_child b _ x CO I) as Cx. fold b' in Cx. rewrite List.Forall_forall in IH.
    unfold treated. destruct (treat x) eqn:T.
    - assert (P : prunable sha b' x) by (apply (CO (c_merkle (Cell e bits refs)) x); [constructor; exact I|exact T]).
      split; [apply pruned_valid; try assumption; apply Dx|].
      destruct (pruned_info x b' Vx P (proj1 Dx)) as (_ & S & A). split; [exact S|].
      intros l. destruct (le_lt_dec l b') as [L|L]; [destruct (proj2 S l L) as (_ & ->); lia|]. destruct (A l L) as (_ & ->). lia.
    - apply IH; auto.
    - split; [exact Vx|]. split; [apply same_upto_refl|]. intros; lia. }
  rewrite keep_eq. cbn [c_exotic c_bits c_refs]. set (b' := b + c_merkle (Cell e bits refs)) in *.
  inversion V as [? ? ? V1 V2 V3 V4]; subst. split; [|split].
  - constructor; rewrite ?map_length; try assumption. apply List.Forall_map. eapply List.Forall_impl; [|exact F]. intros x (A & _). exact A.
  - cbn [info_of]. apply cell_info_same. change (k_merkle (kind_of e bits)) with (c_merkle (Cell e bits refs)). fold b'.
    rewrite map_map. clearbody b'. clear - F. induction F as [|x refs (_ & A & _) F IH]; constructor; assumption.
  - intros l. cbn [info_of]. unfold cell_info. rewrite map_map.
    assert (G : forall l', Forall2 N.le (map (fun d => d + 1)%N (sub_depths (map (fun x => info_of sha (treated b' x)) refs) l'))
                               (map (fun d => d + 1)%N (sub_depths (map (info_of sha) refs) l'))).
    { intros l'. unfold sub_depths. rewrite !map_map. clearbody b'. clear - F. induction F as [|x refs (_ & _ & A) F IH]; cbn [map]; constructor; [|exact IH]. specialize (A l'). lia. }
    destruct (kind_of e bits); cbn [i_depth]; try lia; apply max_all_le, G.
Qed.
End Filter.
End Sha.
