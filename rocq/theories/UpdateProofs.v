(** * Traversals with a set of visited cells; the trees of an update. *)
From Verif Require Import Err BuilderModel CellBuilderModel SliceModel SliceSpec BuilderSpec CellModel HashSpec HashModel FcellSpec MerkleModel MerkleSpec StatSpec UpdateModel UpdateSpec
  BitsProofs HashProofs HashProofs2 HashProofs3 MerkleProofs MerkleProofs2 MerkleProofs3 MerkleProofs4 StatProofs HashProps.
Local Open Scope nat_scope.

Section Sha.
Context (sha : list N -> list N) (Hsha : sha_like sha).
Notation H x := (t_hash sha x).

Lemma in_refs c x : finalized sha c -> In x (c_refs (tree_of c)) -> exists y, In y (f_refs c) /\ finalized sha y /\ tree_of y = x.
Proof.
  intros F I. destruct (fin_facts sha c F) as (bits & T & _ & _ & _ & FR & _). rewrite T in I. cbn [c_refs] in I. apply in_map_iff in I.
  destruct I as (y & <- & I). rewrite List.Forall_forall in FR. exists y. auto.
Qed.
Lemma refs_tree c : finalized sha c -> c_refs (tree_of c) = map tree_of (f_refs c).
Proof. intros F. destruct (fin_facts sha c F) as (bits & -> & _). reflexivity. Qed.
Lemma fin_hash0 c : finalized sha c -> f_hash c 0 = Ok (i_hash (info_of sha (tree_of c)) 0).
Proof. intros F. destruct (finalized_agrees sha Hsha c F) as (_ & A & _). apply (ag_hash _ _ A 0). Qed.
Lemma fin_mask c : finalized sha c -> f_mask c = i_mask (info_of sha (tree_of c)).
Proof. intros F. destruct (finalized_agrees sha Hsha c F) as (_ & A & _). apply (ag_mask _ _ A). Qed.

Definition is_cut (c : cell) : bool := match kind_of (c_exotic c) (c_bits c) with KPruned _ => true | _ => false end.
Lemma fin_pruned c : finalized sha c -> d_is_pruned (f_d1 c) = is_cut (tree_of c).
Proof.
  intros F. pose proof (fin_mask c F) as M. destruct (fin_facts sha c F) as (bits & T & _ & _ & _ & _ & _ & R). pose proof (fin_valid sha Hsha c F) as V.
  unfold f_mask in M. rewrite T in *. unfold d_is_pruned, is_cut. cbn [c_exotic c_bits]. rewrite R, M. inversion V as [? ? ? V1 V2 V3 V4]; subst. rewrite map_length in V3.
  cbn [info_of]. unfold cell_info. destruct (kind_of _ bits) as [|m| | |]; cbn [layout] in *.
  - rewrite V3. reflexivity.
  - destruct V3 as (-> & Hm & -> & _). cbn [i_mask andb]. destruct m; [lia|reflexivity].
  - destruct V3 as (-> & -> & _). reflexivity.
  - destruct V3 as (-> & -> & _). reflexivity.
  - destruct V3 as (-> & -> & _). reflexivity.
Qed.

(** ** Trees without Merkle cells, of level 0 *)
Definition plain (c : cell) : Prop := valid_tree c /\ merkle_free c /\ i_mask (info_of sha c) = 0%N /\ depths_fit sha c.
Lemma plain_merkle c : plain c -> c_merkle c = 0.
Proof. intros (_ & MF & _). inversion MF. assumption. Qed.
Lemma plain_child c x : plain c -> In x (c_refs c) -> plain x.
Proof.
  intros (V & MF & M & D) I. split; [eapply valid_child; eassumption|]. inversion MF as [? Z FA]; subst. rewrite List.Forall_forall in FA. split; [apply FA, I|].
  split; [|exact (depths_fit_child sha c x D I)]. pose proof (child_mask sha c x 0 V I) as B. rewrite M, Z in B. specialize (B ltac:(reflexivity)). change (2 ^ N.of_nat (0 + 0))%N with 1%N in B. lia.
Qed.
Lemma plain_occurs d x c : occurs d x c -> plain c -> plain x.
Proof. induction 1 as [x c I|d x y c I O IH]; intros P; [eapply plain_child; eassumption|apply IH; eapply plain_child; eassumption]. Qed.
Lemma plain_uncut c : plain c -> is_cut c = false.
Proof.
  intros (V & _ & M & _). destruct c as [e bits refs]. inversion V as [? ? ? V1 V2 V3 V4]; subst. cbn [info_of] in M. unfold cell_info in M. unfold is_cut. cbn [c_exotic c_bits].
  destruct (kind_of e bits) as [|m| | |]; try reflexivity. cbn [layout i_mask] in *. lia.
Qed.
Lemma plain_hash c l : plain c -> i_hash (info_of sha c) l = H c.
Proof. intros (V & _ & M & _). destruct (level0 sha Hsha c V M l) as (-> & _). destruct (level0 sha Hsha c V M 3) as (E & _). symmetry. exact E. Qed.
Lemma fin_plain c : finalized sha c -> merkle_free (tree_of c) -> f_mask c = 0%N -> plain (tree_of c).
Proof. intros F MF M. split; [exact (fin_valid sha Hsha c F)|]. split; [exact MF|]. rewrite <- fin_mask by exact F. split; [exact M|]. apply fin_depths; assumption. Qed.
Lemma plain_inc c : finalized sha c -> plain (tree_of c) -> merkle_inc c = 0%N.
Proof. intros F P. unfold merkle_inc. rewrite (fin_merkle sha Hsha c F), (plain_merkle _ P). reflexivity. Qed.

(** ** Traversals *)
Inductive dreach (deep : cell -> bool) : cell -> cell -> Prop :=
| dr_child x c : In x (c_refs c) -> dreach deep x c
| dr_step x y c : dreach deep y c -> deep y = true -> In x (c_refs y) -> dreach deep x c.
Lemma dreach_cons deep x y c : In y (c_refs c) -> deep y = true -> dreach deep x y -> dreach deep x c.
Proof. intros I D R. induction R as [x y I'|x z y R IH D' I']; [eapply dr_step; [apply dr_child; exact I|exact D|exact I']|eapply dr_step; [apply IH; assumption|exact D'|exact I']]. Qed.
Lemma dreach_reach deep x c : dreach deep x c -> reach x c.
Proof. induction 1 as [x c I|x y c R IH D I]; [eapply reach_child; [exact I|constructor]|]. eapply reach_trans; [|exact IH]. eapply reach_child; [exact I|constructor]. Qed.

Section Walk.
Context {St : Type} (enter : fcell -> N -> St -> res (St * bool)).
Definition walk_loop (md : N) :=
  fix go (rs : list fcell) (st : gset (list N) * St) {struct rs} : res (gset (list N) * St) :=
     match rs with
     | [] => Ok st
     | child :: rs' =>
       let? h := f_repr_hash child in
       if bool_decide (h ∈ fst st) then go rs' st
       else
         let? (s, deep) := enter child md (snd st) in
         let st' := ({[h]} ∪ fst st, s) in
         if deep then
           let md' := (md + (if d_is_merkle (f_d1 child) then 1 else 0))%N in
           if (256 <=? md')%N then Err Panic
           else let? st'' := walk enter child md' st' in go rs' st''
         else go rs' st'
     end.
Lemma walk_eq c md st : walk enter c md st = walk_loop md (f_refs c) st.
Proof. destruct c. reflexivity. Qed.

(** Cells that can be entered, what entering does. *)
Context (P : fcell -> Prop) (Inv : St -> Prop) (Done : cell -> St -> Prop) (deep : cell -> bool).
Context (P_fin : forall c, P c -> finalized sha c /\ c_merkle (tree_of c) = 0).
Context (P_child : forall c x, P c -> In x (f_refs c) -> P x).
Context (E : forall c s, P c -> Inv s -> exists s', enter c 0 s = Ok (s', deep (tree_of c)) /\ Inv s' /\ Done (tree_of c) s' /\ (forall x, Done x s -> Done x s')).

Definition walked (c : cell) (V V' : gset (list N)) (s' : St) : Prop :=
  forall h, h ∈ V' -> h ∈ V \/ exists x, dreach deep x c /\ H x = h /\ Done x s' /\ (deep x = true -> forall y, In y (c_refs x) -> H y ∈ V').
Lemma walk_spec c : forall V s, P c -> Inv s ->
  exists V' s', walk enter c 0 (V, s) = Ok (V', s') /\ Inv s' /\ (forall x, Done x s -> Done x s') /\ V ⊆ V' /\
    (forall y, In y (c_refs (tree_of c)) -> H y ∈ V') /\ walked (tree_of c) V V' s'.
Proof.
  induction c as [d1 d2 n data refs hs IH] using fcell_tree_ind. intros V s PC I. rewrite walk_eq.
  set (c := FCell d1 d2 n data refs hs) in *. destruct (P_fin c PC) as (F & _). rewrite (refs_tree c F). change (f_refs c) with refs in *.
  assert (SUB : forall x, In x refs -> In x (f_refs c)) by (intros x X; exact X).
  assert (G : forall rs V s, (forall x, In x rs -> In x refs) -> Inv s ->
    exists V' s', walk_loop 0 rs (V, s) = Ok (V', s') /\ Inv s' /\ (forall x, Done x s -> Done x s') /\ V ⊆ V' /\
      (forall y, In y (map tree_of rs) -> H y ∈ V') /\ walked (tree_of c) V V' s').
  { induction rs as [|child rs IHr]; intros V1 s1 SB I1.
    - exists V1, s1. split; [reflexivity|]. split; [exact I1|]. split; [auto|]. split; [reflexivity|]. split; [intros y []|]. intros h X. left. exact X.
    - assert (IC : In child refs) by (apply SB; left; reflexivity).
      assert (Pc : P child) by (apply (P_child c); [exact PC|exact IC]). destruct (P_fin child Pc) as (Fc & Mc).
      assert (IT : In (tree_of child) (c_refs (tree_of c))) by (rewrite (refs_tree c F); apply in_map; exact IC).
      cbn [walk_loop]. rewrite (fin_hash sha Hsha child Fc). cbn [rbind fst snd].
      assert (SB' : forall x, In x rs -> In x refs) by (intros x X; apply SB; right; exact X).
      case_bool_decide as Q.
      + destruct (IHr V1 s1 SB' I1) as (V' & s' & R & I' & MD & SV & CH & WK). exists V', s'. split; [exact R|]. split; [exact I'|]. split; [exact MD|]. split; [exact SV|]. split; [|exact WK].
        cbn [map]. intros y [<-|Y]; [apply SV, Q|apply CH, Y].
      + destruct (E child s1 Pc I1) as (s2 & -> & I2 & D2 & MD2). cbn [rbind]. destruct (deep (tree_of child)) eqn:DP.
        * rewrite (fin_merkle sha Hsha child Fc), Mc. change (0 + N.of_nat 0)%N with 0%N. change (256 <=? 0)%N with false. cbn iota.
          rewrite List.Forall_forall in IH. destruct (IH child IC ({[H (tree_of child)]} ∪ V1) s2 Pc I2) as (V3 & s3 & -> & I3 & MD3 & SV3 & CH3 & WK3). cbn [rbind].
          destruct (IHr V3 s3 SB' I3) as (V' & s' & R & I' & MD & SV & CH & WK). exists V', s'. split; [exact R|]. split; [exact I'|]. split; [auto|]. split; [set_solver|]. split.
          { cbn [map]. intros y [<-|Y]; [apply SV, SV3; set_solver|apply CH, Y]. }
          intros h X. destruct (WK h X) as [Y|Y]; [|right; exact Y]. destruct (WK3 h Y) as [Z|Z].
          { apply elem_of_union in Z. destruct Z as [Z|Z]; [|left; exact Z]. apply elem_of_singleton in Z. right. exists (tree_of child). split; [apply dr_child; exact IT|].
            split; [symmetry; exact Z|]. split; [auto|]. intros _ y Yc. apply SV, CH3, Yc. }
          destruct Z as (x & R1 & R2 & R3 & R4). right. exists x. split; [eapply dreach_cons; eassumption|]. split; [exact R2|]. split; [auto|]. intros DX y Yc. apply SV, R4; assumption.
        * destruct (IHr ({[H (tree_of child)]} ∪ V1) s2 SB' I2) as (V' & s' & R & I' & MD & SV & CH & WK). exists V', s'. split; [exact R|]. split; [exact I'|]. split; [auto|]. split; [set_solver|]. split.
          { cbn [map]. intros y [<-|Y]; [apply SV; set_solver|apply CH, Y]. }
          intros h X. destruct (WK h X) as [Z|Z]; [|right; exact Z].
          apply elem_of_union in Z. destruct Z as [Z|Z]; [|left; exact Z]. apply elem_of_singleton in Z. right. exists (tree_of child). split; [apply dr_child; exact IT|].
          split; [symmetry; exact Z|]. split; [auto|]. intros DX. congruence. }
  apply G; auto.
Qed.
(** From the root: everything that can be reached is done. *)
Lemma walk_root c s : P c -> Inv s -> Done (tree_of c) s -> (forall x y, reach x (tree_of c) -> reach y (tree_of c) -> H x = H y -> x = y) ->
  exists V' s', walk enter c 0 ({[H (tree_of c)]}, s) = Ok (V', s') /\ Inv s' /\ Done (tree_of c) s' /\ (forall x, dreach deep x (tree_of c) -> Done x s').
Proof.
  intros PC I D0 HD. destruct (walk_spec c {[H (tree_of c)]} s PC I) as (V' & s' & R & I' & MD & SV & CH & WK).
  exists V', s'. split; [exact R|]. split; [exact I'|]. split; [auto|].
  assert (ALL : forall x, dreach deep x (tree_of c) -> H x ∈ V').
  { intros x RX. remember (tree_of c) as t eqn:ET. induction RX as [x t I1|x y t R1 IH D1 I1]; [apply CH, I1|].
    specialize (IH ET D0 HD R SV CH WK). destruct (WK _ IH) as [Z|(x' & Z1 & Z2 & Z3 & Z4)].
    - apply elem_of_singleton in Z. apply HD in Z; [|eapply dreach_reach; exact R1|constructor]. subst y. apply CH, I1.
    - apply HD in Z2; [|eapply dreach_reach; eassumption|eapply dreach_reach; eassumption]. subst x'. apply Z4; assumption. }
  intros x RX. destruct (WK _ (ALL x RX)) as [Z|(x' & Z1 & Z2 & Z3 & Z4)].
  - apply elem_of_singleton in Z. apply HD in Z; [|eapply dreach_reach; exact RX|constructor]. subst x. auto.
  - apply HD in Z2; [|eapply dreach_reach; eassumption|eapply dreach_reach; eassumption]. subst x'. exact Z3.
Qed.
End Walk.
End Sha.
