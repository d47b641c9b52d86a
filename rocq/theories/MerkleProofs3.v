(** * The builder of Merkle proofs makes the specified trees. *)
From Verif Require Import Err BuilderModel CellBuilderModel SliceModel SliceSpec BuilderSpec CellModel HashSpec HashModel FcellSpec MerkleModel MerkleSpec
  BitsProofs BufProofs BuilderProofs CellBuilderProofs HashProofs HashProofs2 HashProofs3 MerkleProofs MerkleProofs2.
Local Open Scope nat_scope.

Section Sha.
Context (sha : list N -> list N) (Hsha : sha_like sha).

(** ** What a finalized cell shows *)
Lemma fin_facts c : finalized sha c -> exists bits,
  tree_of c = Cell (d_exotic (f_d1 c)) bits (map tree_of (f_refs c)) /\ f_data c = data_bytes bits /\ f_bit_len c = N.of_nat (length bits) /\
  length bits <= 1023 /\ Forall (finalized sha) (f_refs c) /\ length (f_refs c) <= 4 /\ d_refs (f_d1 c) = N.of_nat (length (f_refs c)).
Proof.
  intros F. inversion F as [d1 bits refs hashes FR H4 Hb Hd Hr Hst HC]; subst. exists bits. cbn [tree_of f_d1 f_refs f_data f_bit_len].
  rewrite Nat2N.id, data_bits_take. auto 10.
Qed.
Lemma fin_valid c : finalized sha c -> valid_tree (tree_of c).
Proof. intros F. apply (finalized_agrees sha Hsha c F). Qed.
Lemma fin_hash c : finalized sha c -> f_repr_hash c = Ok (t_hash sha (tree_of c)).
Proof. intros F. destruct (finalized_agrees sha Hsha c F) as (_ & A & _). apply (ag_hash _ _ A 3). Qed.
Lemma fin_merkle c : finalized sha c -> (if d_is_merkle (f_d1 c) then 1 else 0)%N = N.of_nat (c_merkle (tree_of c)).
Proof.
  intros F. destruct (fin_facts c F) as (bits & T & _ & _ & _ & _ & _ & R). pose proof (fin_valid c F) as V.
  rewrite T in *. unfold d_is_merkle, c_merkle. cbn [c_exotic c_bits]. rewrite R. inversion V as [? ? ? V1 V2 V3 V4]; subst. rewrite map_length in V3.
  destruct (kind_of _ bits); cbn [layout k_merkle] in *.
  - rewrite V3. reflexivity.
  - destruct V3 as (-> & _ & -> & _). reflexivity.
  - destruct V3 as (-> & -> & _). reflexivity.
  - destruct V3 as (-> & -> & _). reflexivity.
  - destruct V3 as (-> & -> & _). reflexivity.
Qed.
Lemma fin_occurs c : finalized sha c -> forall d x, occurs d x (tree_of c) -> exists y, finalized sha y /\ tree_of y = x.
Proof.
  induction c as [d1 d2 n data refs h IH] using fcell_tree_ind. intros F d x O. rewrite List.Forall_forall in IH.
  destruct (fin_facts _ F) as (bits & T & _ & _ & _ & FR & _). cbn [f_refs] in *. rewrite T in O. rewrite List.Forall_forall in FR.
  inversion O as [? ? I|? ? y ? I O']; subst; cbn [c_refs] in I; apply in_map_iff in I; destruct I as (z & <- & I).
  - eauto.
  - eapply IH; eauto.
Qed.
Lemma fin_depths c : finalized sha c -> depths_fit sha (tree_of c).
Proof.
  intros F. split; [apply finalized_agrees; assumption|]. intros d x O. destruct (fin_occurs c F d x O) as (y & Fy & <-). apply finalized_agrees; assumption.
Qed.

(** A cell with the data of another one. *)
Lemma rebuild_spec c ch : finalized sha c -> Forall (finalized sha) ch -> length ch <= 4 ->
  let t := Cell (c_exotic (tree_of c)) (c_bits (tree_of c)) (map tree_of ch) in
  valid_tree t -> (forall l, (i_depth (info_of sha t) l <= 65535)%N) ->
  exists p, rebuild sha c ch = Ok p /\ finalized sha p /\ tree_of p = t.
Proof.
  intros F FC L. cbn zeta. destruct (fin_facts c F) as (bits & T & ED & EL & B & FR & LR & _). rewrite T. cbn [c_exotic c_bits]. intros V D.
  unfold rebuild. rewrite ED, EL. set (cv := mkCV (data_bytes bits) (N.of_nat (length bits)) (f_refs c) (d_exotic (f_d1 c))).
  assert (LD : 8 * length (data_bytes bits) >= length bits).
  { pose proof (f_equal (@length bool) (data_bits_take bits)) as X. rewrite take_length, length_bytes_bits in X. lia. }
  assert (OK : op_ok (B_cell_data cv)).
  { constructor.
    - unfold cv_ok, cv. cbn [cv_data cv_bits cv_refs]. repeat split; [apply data_bytes_ok|lia|lia|exact LR].
    - unfold cv. cbn [cv_data]. rewrite length_data. apply Nat.lt_succ_r, Nat.div_lt_upper_bound; lia. }
  assert (R0 : cbrep (set_exotic (d_exotic (f_d1 c)) (@cb_new fcell)) ([], [])) by exact cbrep_new.
  destruct (ops_refine [B_cell_data cv] ltac:(constructor; [exact OK|constructor]) _ _ R0) as (c' & E & (HB & _)).
  rewrite (spec_ops_append [B_cell_data cv] [(bits, [])] ([], [])) in HB.
  2:{ constructor; [|constructor]. cbn [appended]. unfold cv. cbn [cv_bits cv_data]. rewrite Nat2N.id, data_bits_take. reflexivity. }
  2:{ cbn [fst map concat length]. rewrite app_nil_r. lia. }
  2:{ cbn. lia. }
  cbn [fst snd map concat app] in HB. rewrite app_nil_r in HB. apply brep_holds in HB.
  pose proof (run_op_exotic (B_cell_data cv) (set_exotic (d_exotic (f_d1 c)) (@cb_new fcell))) as X.
  cbn [run_ops] in E. destruct (run_op (B_cell_data cv) _) as [r c1]. cbn [snd] in *. injection E as _ E. subst c'.
  unfold build_cb, set_references. cbn [cb_exotic cbd cb_refs]. rewrite X. cbn [set_exotic cb_exotic].
  destruct (build_spec sha Hsha (d_exotic (f_d1 c)) (cbd c1) bits ch HB FC L) as [(_ & _ & p & -> & Fp & Tp & _)|[(_ & (l & TD) & _)|(NV & _)]].
  - eauto.
  - exfalso. specialize (D l). cbn zeta in *. lia.
  - contradiction.
Qed.

(** ** The recursion *)
Section Filter.
Context (check : list N -> action) (big : bool).
Notation treat := (treat sha check big).
Notation keep := (keep sha check big).
Notation treated := (treated sha check big).
Notation cuts := (cuts sha check big).
Notation cuts_ok := (cuts_ok sha check big).
Notation visible := (visible sha check big).
Notation build_node := (build_node sha check big).

Definition loop (c : fcell) (md : N) :=
  fix go (rs : list fcell) (children : list fcell) (st : pstate) {struct rs} : res (fcell * pstate) :=
     match rs with
     | [] =>
       let? p := rebuild sha c children in
       let? h := f_repr_hash c in
       Ok (p, (<[h := p]> (fst st), snd st))
     | child :: rs' =>
       let? h := f_repr_hash child in
       match fst st !! h with
       | Some p => go rs' (push_ref children p) st
       | None =>
         let prune := ((0 <? d_refs (f_d1 child)) || (big && (PRUNED_BITS_THRESHOLD <? f_bit_len child)))%N in
         let descend :=
           let md' := (md + (if d_is_merkle (f_d1 child) then 1 else 0))%N in
           if (256 <=? md')%N then Err Panic
           else let? (p, st') := build_node child md' st in go rs' (push_ref children p) st' in
         match check h with
         | IncludeSubtree => go rs' (push_ref children child) st
         | Skip =>
           if prune then
             let? p := make_pruned sha (Plain child) md in
             go rs' (push_ref children p) (fst st, {[h]} ∪ snd st)
           else descend
         | Include => descend
         end
       end
     end.
Lemma build_node_eq c md st : build_node c md st = loop c md (f_refs c) [] st.
Proof. destruct c. reflexivity. Qed.

(** The root tree and what is assumed of it. *)
Context (T : cell).
Definition one_place : Prop := forall d x d' x', occurs d x T -> occurs d' x' T -> t_hash sha x = t_hash sha x' -> x = x' /\ (d = d' \/ c_refs x = []).
Context (one : one_place).

Definition cache_ok (st : pstate) : Prop :=
  forall h p, fst st !! h = Some p -> finalized sha p /\
    exists d x, occurs d x T /\ t_hash sha x = h /\ treat x = Keep /\ tree_of p = keep (d + c_merkle x) x /\ cuts_ok d x /\
                (forall g, In g (cuts x) -> g ∈ snd st).
(** A cell that cannot be cut, or too many Merkle cells above a cell. *)
Definition bad (b : nat) (c : cell) : Prop :=
  exists d x, visible d x c /\ ((treat x = Cut /\ ~ prunable sha (b + d) x) \/ (treat x = Keep /\ 256 <= b + d + c_merkle x)).
Definition good (b : nat) (c : fcell) (st : pstate) (r : res (fcell * pstate)) : Prop :=
  match r with
  | Ok (p, st') =>
    cuts_ok b (tree_of c) /\ finalized sha p /\ tree_of p = keep (b + c_merkle (tree_of c)) (tree_of c) /\
    exists st1, st' = (<[t_hash sha (tree_of c) := p]> (fst st1), snd st1) /\ cache_ok st1 /\
      snd st1 = snd st ∪ list_to_set (cuts (tree_of c))
  | Err e => bad b (tree_of c) /\ (e = InvalidCell \/ e = Panic)
  end.
Definition cut_here (x : cell) : list (list N) := match treat x with Whole => [] | Cut => [t_hash sha x] | Keep => cuts x end.
Lemma cuts_eq c : cuts c = concat (map cut_here (c_refs c)).
Proof. destruct c. reflexivity. Qed.
Lemma cache_grow m s s' : cache_ok (m, s) -> s ⊆ s' -> cache_ok (m, s').
Proof.
  intros H S h p L. destruct (H h p L) as (F & d & x & A1 & A2 & A3 & A4 & A5 & A6). split; [exact F|].
  exists d, x. repeat (split; [assumption|]). intros g G. apply S. apply A6. exact G.
Qed.

(** One child: what is known of it, and how it is processed. *)
Lemma treat_code c : finalized sha c ->
  treat (tree_of c) = match check (t_hash sha (tree_of c)) with
                      | IncludeSubtree => Whole
                      | Include => Keep
                      | Skip => if ((0 <? d_refs (f_d1 c)) || (big && (PRUNED_BITS_THRESHOLD <? f_bit_len c)))%N then Cut else Keep
                      end.
Proof.
  intros F. destruct (fin_facts c F) as (bits & E & _ & EL & _ & _ & _ & R). unfold MerkleSpec.treat. destruct (check _); try reflexivity.
  rewrite E. cbn [c_refs c_bits]. rewrite R, EL. destruct (f_refs c); [|reflexivity]. cbn [length map].
  change (0 <? N.of_nat 0)%N with false. cbn [orb]. unfold PRUNED_BITS_THRESHOLD.
  replace (288 <? N.of_nat (length bits))%N with (288 <? length bits); [reflexivity|].
  destruct (Nat.ltb_spec 288 (length bits)), (N.ltb_spec 288 (N.of_nat (length bits))); try reflexivity; lia.
Qed.

Lemma Forall2_tree b dn ch : Forall2 (fun x p => finalized sha p /\ tree_of p = treated b (tree_of x)) dn ch ->
  map (treated b) (map tree_of dn) = map tree_of ch.
Proof. induction 1 as [|x p dn ch (_ & E) FD IH]; [reflexivity|]. cbn [map]. rewrite E, IH. reflexivity. Qed.
Lemma node_good c : forall b st, finalized sha c -> b + c_merkle (tree_of c) < 256 ->
  (forall d x, occurs d x (tree_of c) -> occurs (b + d) x T) -> cache_ok st ->
  good b c st (build_node c (N.of_nat (b + c_merkle (tree_of c))) st).
Proof.
  induction c as [d1 d2 n data refs h0 IH] using fcell_tree_ind. intros b st F B SUB C0.
  set (c := FCell d1 d2 n data refs h0) in *.
  destruct (fin_facts c F) as (bits & ET & _ & _ & _ & FR & LR & _).
  rewrite build_node_eq. set (b' := b + c_merkle (tree_of c)) in *.
  change (f_refs c) with refs in *.
  (* the loop *)
  assert (L : forall rs dn ch st1, refs = dn ++ rs -> Forall2 (fun x p => finalized sha p /\ tree_of p = treated b' (tree_of x)) dn ch ->
    (forall x, In x dn -> (treat (tree_of x) = Cut -> prunable sha b' (tree_of x)) /\ (treat (tree_of x) = Keep -> cuts_ok b' (tree_of x))) ->
    cache_ok st1 -> snd st1 = snd st ∪ list_to_set (concat (map cut_here (map tree_of dn))) ->
    good b c st (loop c (N.of_nat b') rs ch st1)).
  2:{ apply (L refs [] [] st); [reflexivity|constructor|intros ? []|exact C0|cbn; set_solver]. }
  induction rs as [|child rs IHrs]; intros dn ch st1 ER FD OKD C1 S1.
  - rewrite app_nil_r in ER. subst dn.
    assert (CO : cuts_ok b (tree_of c)).
    { intros d x V TX. rewrite ET in V. inversion V as [? ? I|? ? y ? I K V']; subst; cbn [c_refs] in I; apply in_map_iff in I; destruct I as (z & <- & I).
      - rewrite <- ET. apply OKD; assumption.
      - rewrite <- ET. rewrite Nat.add_assoc. apply (proj2 (OKD z I) K); assumption. }
    pose proof (keep_faithful sha Hsha check big (tree_of c) b (fin_valid c F) (fin_depths c F) CO) as (KV & _ & KD).
    fold b' in KV, KD. cbn [loop].
    assert (EK : keep b' (tree_of c) = Cell (c_exotic (tree_of c)) (c_bits (tree_of c)) (map tree_of ch)).
    { rewrite keep_eq. f_equal. rewrite ET. cbn [c_refs]. apply (Forall2_tree b'). exact FD. }
    destruct (rebuild_spec c ch F) as (p & -> & Fp & Tp).
    { apply (Forall2_Forall_r _ _ _ _ FD), List.Forall_forall. intros x _ p (E & _). exact E. }
    { rewrite <- (Forall2_length _ _ _ FD). exact LR. }
    { rewrite <- EK. exact KV. }
    { intros l. rewrite <- EK. specialize (KD l). destruct (fin_depths c F) as (D & _). specialize (D l). lia. }
    cbn [rbind]. rewrite (fin_hash c F). cbn [rbind good]. split; [exact CO|]. split; [exact Fp|]. split; [rewrite Tp, <- EK; reflexivity|].
    exists st1. split; [reflexivity|]. split; [exact C1|]. rewrite cuts_eq. rewrite ET. cbn [c_refs]. exact S1.
  - (* one child *)
    assert (I : In child refs) by (rewrite ER; apply in_or_app; right; left; reflexivity).
    assert (Fc : finalized sha child) by (rewrite List.Forall_forall in FR; apply FR; exact I).
    assert (Ic : In (tree_of child) (c_refs (tree_of c))) by (rewrite ET; cbn [c_refs]; apply in_map; exact I).
    assert (OC : occurs b' (tree_of child) T) by (unfold b'; apply SUB; constructor; exact Ic).
    assert (VC : visible (c_merkle (tree_of c)) (tree_of child) (tree_of c)) by (constructor; exact Ic).
    assert (LC : length ch < 4).
    { rewrite <- (Forall2_length _ _ _ FD). rewrite ER, app_length in LR. cbn [length] in LR. lia. }
    assert (PU : forall p, push_ref ch p = ch ++ [p]) by (intros p; unfold push_ref; destruct (Nat.ltb_spec (length ch) 4); [reflexivity|lia]).
    assert (NEXT : forall p st2, finalized sha p -> tree_of p = treated b' (tree_of child) ->
      (treat (tree_of child) = Cut -> prunable sha b' (tree_of child)) -> (treat (tree_of child) = Keep -> cuts_ok b' (tree_of child)) ->
      cache_ok st2 -> snd st2 = snd st1 ∪ list_to_set (cut_here (tree_of child)) ->
      good b c st (loop c (N.of_nat b') rs (push_ref ch p) st2)).
    { intros p st2 Fp Tp A1 A2 C2 S2. rewrite PU. apply (IHrs (dn ++ [child])).
      - rewrite <- app_assoc. exact ER.
      - apply Forall2_app; [exact FD|]. constructor; [auto|constructor].
      - intros x J. apply in_app_or in J. destruct J as [J|[<- |[]]]; [apply OKD; exact J|auto].
      - exact C2.
      - rewrite S2, S1, !map_app, concat_app, list_to_set_app_L. cbn [map concat]. rewrite app_nil_r. set_solver. }
    cbn [loop]. rewrite (fin_hash child Fc). cbn [rbind].
    set (hc := t_hash sha (tree_of child)) in *.
    destruct (fst st1 !! hc) as [p|] eqn:LK.
    + (* already processed *)
      destruct (C1 hc p LK) as (Fp & d & x & O & Hx & TK & Tp & CO & CU).
      destruct (one _ _ _ _ O OC Hx) as (-> & DD).
      apply NEXT; try assumption.
      * unfold MerkleProofs.treated. rewrite TK, Tp. destruct DD as [-> |LF]; [reflexivity|]. rewrite !keep_eq, LF. reflexivity.
      * rewrite TK. discriminate.
      * intros _. destruct DD as [-> |LF]; [exact CO|]. intros d0 y V. exfalso.
        clear - V LF. inversion V as [? ? J|? ? z ? J]; subst; rewrite LF in J; destruct J.
      * unfold cut_here. rewrite TK. apply set_eq. intros g. rewrite elem_of_union, elem_of_list_to_set. split; [tauto|].
        intros [J|J]; [exact J|]. apply CU. apply elem_of_list_In. exact J.
    + pose proof (treat_code child Fc) as TC. fold hc in TC.
      set (prune := ((0 <? d_refs (f_d1 child)) || (big && (PRUNED_BITS_THRESHOLD <? f_bit_len child)))%N) in *.
      (* the two ways to go on *)
      assert (DESC : treat (tree_of child) = Keep -> good b c st
        (if (256 <=? N.of_nat b' + (if d_is_merkle (f_d1 child) then 1 else 0))%N then Err Panic
         else let? (p, st') := build_node child (N.of_nat b' + (if d_is_merkle (f_d1 child) then 1 else 0)) st1 in
              loop c (N.of_nat b') rs (push_ref ch p) st')).
      { intros K. rewrite (fin_merkle child Fc), <- Nat2N.inj_add.
        destruct (N.leb_spec 256 (N.of_nat (b' + c_merkle (tree_of child)))) as [G|G].
        - split; [|right; reflexivity]. exists (c_merkle (tree_of c)), (tree_of child). split; [exact VC|]. right. split; [exact K|]. fold b'. lia.
        - rewrite List.Forall_forall in IH. specialize (IH child I b' st1 Fc ltac:(lia)).
          assert (SUB' : forall d x, occurs d x (tree_of child) -> occurs (b' + d) x T).
          { intros d x O. unfold b'. rewrite <- Nat.add_assoc. apply SUB. eapply occurs_deep; eassumption. }
          specialize (IH SUB' C1). destruct (build_node child _ st1) as [[p st']|e]; cbn [rbind good] in IH |- *.
          + destruct IH as (CO & Fp & Tp & st2 & -> & C2 & S2). apply NEXT.
            * exact Fp.
            * unfold MerkleProofs.treated. rewrite K. exact Tp.
            * rewrite K. discriminate.
            * intros _. exact CO.
            * intros h p0 L. cbn [fst snd] in *. rewrite lookup_insert_Some in L. destruct L as [(<- & <-)|(_ & L)].
              -- split; [exact Fp|]. exists b', (tree_of child). repeat (split; [assumption || reflexivity|]).
                 intros g J. rewrite S2. apply elem_of_union_r, elem_of_list_to_set, elem_of_list_In. exact J.
              -- apply C2. exact L.
            * cbn [snd]. unfold cut_here. rewrite K. exact S2.
          + destruct IH as ((d & x & V & X) & E). split; [|exact E].
            exists (c_merkle (tree_of c) + d), x. split; [eapply visible_deep; eassumption|]. rewrite Nat.add_assoc. exact X. }
      destruct (check hc) eqn:CK.
      * destruct prune eqn:PR.
        -- destruct (finalized_agrees sha Hsha child Fc) as (V & A & D).
           destruct (make_pruned_spec sha Hsha (Plain child) (tree_of child) b' V D (ag_mask _ _ A)) as [(P & p & -> & Fp & Tp)|(NP & ->)].
           { intros l. split; [apply (ag_hash _ _ A)|apply (ag_depth _ _ A)]. }
           ++ cbn [rbind]. apply NEXT; try assumption.
              ** unfold MerkleProofs.treated. rewrite TC. exact Tp.
              ** intros _. exact P.
              ** rewrite TC. discriminate.
              ** destruct st1 as [m1 s1]. cbn [fst snd]. eapply cache_grow; [exact C1|]. set_solver.
              ** cbn [snd]. unfold cut_here. rewrite TC. cbn [list_to_set]. fold hc. set_solver.
           ++ cbn [rbind good]. split; [|destruct (b' <? 8); tauto]. exists (c_merkle (tree_of c)), (tree_of child). split; [exact VC|]. left. split; [exact TC|exact NP].
        -- apply DESC. exact TC.
      * apply DESC. exact TC.
      * apply NEXT; try assumption.
        -- unfold MerkleProofs.treated. rewrite TC. reflexivity.
        -- rewrite TC. discriminate.
        -- rewrite TC. discriminate.
        -- unfold cut_here. rewrite TC. cbn [list_to_set]. set_solver.
Qed.
End Filter.

Lemma hashed_child c x : In x (c_refs c) -> forall y, In y (hashed sha x) -> In y (hashed sha c).
Proof. destruct c. intros I y. apply in_hashed_child. exact I. Qed.
Lemma hashed_occurs d x c : occurs d x c -> forall y, In y (hashed sha x) -> In y (hashed sha c).
Proof. induction 1; intros z Z; eapply hashed_child; eauto. Qed.
Lemma occurs_valid d x c : occurs d x c -> valid_tree c -> valid_tree x.
Proof. induction 1; intros V; [|apply IHoccurs]; eapply valid_child; eauto. Qed.
Lemma one_place_of T : valid_tree T -> no_collision sha T -> one_depth T -> one_place T.
Proof.
  intros V NC OD d x d' x' O O' E.
  destruct (hash_inj sha (proj1 Hsha) x x' (occurs_valid _ _ _ O V) (occurs_valid _ _ _ O' V) E) as [-> |(y & z & Iy & Iz & NE & EQ)].
  - split; [reflexivity|]. destruct (c_refs x') eqn:R; [right; reflexivity|]. left. apply (OD d d' x'); try assumption. congruence.
  - exfalso. apply NE. apply NC; [exact (hashed_occurs _ _ _ O y Iy)|exact (hashed_occurs _ _ _ O' z Iz)|exact EQ].
Qed.
End Sha.
