(** * The count of removed references. *)
From Verif Require Import Err BuilderModel CellBuilderModel SliceModel SliceSpec BuilderSpec CellModel HashSpec HashModel FcellSpec MerkleModel MerkleSpec StatSpec UpdateModel UpdateSpec RemovedSpec
  BitsProofs HashProofs HashProofs2 HashProofs3 MerkleProofs MerkleProofs2 MerkleProofs3 MerkleProofs4 StatProofs BocProofs3 HashProps UpdateProofs UpdateProofs2 UpdateProofs3 UpdateProofs4.
Local Open Scope nat_scope.

Definition total (L : list cell) (x : cell) : nat := list_sum (map (fun y => links y x) L).
Lemma total_cons y L x : total (y :: L) x = links y x + total L x. Proof. reflexivity. Qed.
Lemma total_app A B x : total (A ++ B) x = total A x + total B x.
Proof. induction A as [|y A IH]; [reflexivity|]. rewrite <- app_comm_cons, !total_cons, IH. lia. Qed.
Lemma total_perm A B x : A ≡ₚ B -> total A x = total B x.
Proof. induction 1; rewrite ?total_cons in *; try lia. Qed.
Lemma links_pos y x : In x (c_refs y) <-> 0 < links y x. Proof. unfold links. rewrite (count_occ_In cell_dec). lia. Qed.
Lemma total_pos L x : 0 < total L x <-> exists y, In y L /\ In x (c_refs y).
Proof.
  induction L as [|y L IH]; [cbn; split; [lia|intros (? & [] & _)]|]. rewrite total_cons. split.
  - intros P. destruct (decide (0 < links y x)) as [Q|Q]; [exists y; split; [left; reflexivity|apply links_pos; exact Q]|].
    destruct (proj1 IH ltac:(lia)) as (z & I & R). exists z. split; [right; exact I|exact R].
  - intros (z & [<-|I] & R); [apply links_pos in R; lia|]. enough (0 < total L x) by lia. apply IH. eauto.
Qed.
Definition has_refs (y : cell) : bool := match c_refs y with [] => false | _ => true end.
Lemma total_filter L x : total (List.filter has_refs L) x = total L x.
Proof.
  induction L as [|y L IH]; [reflexivity|]. cbn [List.filter]. destruct (has_refs y) eqn:E; rewrite ?total_cons, IH; [reflexivity|].
  unfold links. unfold has_refs in E. destruct (c_refs y); [reflexivity|discriminate].
Qed.
Lemma total_same A B x : List.NoDup A -> List.NoDup B -> (forall y, c_refs y <> [] -> In y A <-> In y B) -> total A x = total B x.
Proof.
  intros NA NB S. rewrite <- (total_filter A), <- (total_filter B). apply total_perm. apply NoDup_Permutation.
  - apply NoDup_ListNoDup, List.NoDup_filter, NA.
  - apply NoDup_ListNoDup, List.NoDup_filter, NB.
  - intros y. rewrite !elem_of_list_In, !filter_In. unfold has_refs. pose proof (S y) as Q. destruct (c_refs y); [split; intros (_ & X); discriminate|]. rewrite Q by discriminate. reflexivity.
Qed.

Section Sha.
Context (sha : list N -> list N) (Hsha : sha_like sha).
Notation H x := (t_hash sha x).
Notation plain := (plain sha).
Notation differ := (differ sha).

Section Count.
Context (new_cells : gset (list N)) (T : cell) (HD : differ T).
Definition gone (x : cell) : bool := negb (bool_decide (H x ∈ new_cells)).
Definition count_loop :=
  fix go (rs : list fcell) (result : gmap (list N) N) {struct rs} : res (gmap (list N) N) :=
     match rs with
     | [] => Ok result
     | child :: rs' =>
       let? h := f_repr_hash child in
       match result !! h with
       | Some n => go rs' (<[h := (n + 1)%N]> result)
       | None =>
         let result' := <[h := 1%N]> result in
         if (d_refs (f_d1 child) =? 0)%N || bool_decide (h ∈ new_cells) then go rs' result'
         else let? result'' := count_removed new_cells child result' in go rs' result''
       end
     end.
Lemma count_eq c r : count_removed new_cells c r = count_loop (f_refs c) r.
Proof. destruct c. reflexivity. Qed.

Definition cnt (r : gmap (list N) N) (x : cell) : nat := N.to_nat (default 0%N (r !! H x)).
Definition good (r : gmap (list N) N) : Prop := forall h n, r !! h = Some n -> (0 < n)%N /\ exists x, reach x T /\ h = H x.
Lemma cnt_pos r x : good r -> 0 < cnt r x <-> is_Some (r !! H x).
Proof.
  intros G. unfold cnt. destruct (r !! H x) as [n|] eqn:E; cbn [default].
  - destruct (G _ _ E) as (P & _). split; [eauto|]. cbn. lia.
  - split; [cbn; lia|intros (? & X); discriminate].
Qed.
Lemma refs_none child : finalized sha child -> ((d_refs (f_d1 child) =? 0)%N = true <-> c_refs (tree_of child) = []).
Proof.
  intros F. destruct (fin_facts sha child F) as (bits & TT & _ & _ & _ & _ & _ & D). rewrite TT. cbn [c_refs].
  rewrite D. destruct (f_refs child); cbn; split; intros X; try reflexivity; discriminate.
Qed.

(** The cells whose references were counted. *)
Record counted (c : cell) (rs : list cell) (r r' : gmap (list N) N) (L : list cell) : Prop := {
  ct_good : good r';
  ct_nodup : List.NoDup L;
  ct_new : forall y, In y L -> dreach gone y c /\ gone y = true /\ r !! H y = None /\ is_Some (r' !! H y);
  ct_cnt : forall x, reach x T -> cnt r' x = cnt r x + count_occ cell_dec rs x + total L x;
  ct_all : forall x, reach x T -> r !! H x = None -> is_Some (r' !! H x) -> gone x = true -> c_refs x <> [] -> In x L }.
Lemma bump r h n x y : reach x T -> reach y T -> h = H y -> cnt (<[h := n]> r) x = if cell_dec x y then N.to_nat n else cnt r x.
Proof.
  intros X Y ->. unfold cnt. destruct (cell_dec x y) as [->|NE]; [rewrite lookup_insert; reflexivity|].
  rewrite lookup_insert_ne; [reflexivity|]. intros E. apply NE. symmetry. apply HD; assumption.
Qed.
Lemma count_spec c : forall r, finalized sha c -> reach (tree_of c) T -> good r ->
  exists r' L, count_removed new_cells c r = Ok r' /\ counted (tree_of c) (c_refs (tree_of c)) r r' L.
Proof.
  induction c as [d1 d2 n data refs hs IH] using fcell_tree_ind. intros r F RT GR. rewrite count_eq.
  set (c := FCell d1 d2 n data refs hs) in *. rewrite (refs_tree sha c F). change (f_refs c) with refs in *.
  assert (G : forall rs r, (forall x, In x rs -> In x refs) -> good r -> exists r' L, count_loop rs r = Ok r' /\ counted (tree_of c) (map tree_of rs) r r' L).
  { induction rs as [|child rs IHr]; intros r1 SB G1.
    - exists r1, []. split; [reflexivity|]. split; [exact G1|constructor|intros y []| |].
      + intros x _. cbn. lia.
      + intros x _ N (? & S). congruence.
    - assert (IC : In child refs) by (apply SB; left; reflexivity). pose proof (fin_child sha c child F IC) as Fc.
      assert (IT : In (tree_of child) (c_refs (tree_of c))) by (rewrite (refs_tree sha c F); apply in_map; exact IC).
      assert (Rc : reach (tree_of child) T) by (eapply reach_trans; [eapply reach_child; [exact IT|constructor]|exact RT]).
      cbn [count_loop]. rewrite (fin_hash sha Hsha child Fc). cbn [rbind].
      assert (SB' : forall x, In x rs -> In x refs) by (intros x X; apply SB; right; exact X).
      destruct (r1 !! H (tree_of child)) as [m|] eqn:LK.
      + set (r2 := <[H (tree_of child) := (m + 1)%N]> r1).
        assert (G2 : good r2). { intros h k E. apply lookup_insert_Some in E. destruct E as [(<- & <-)|(_ & E)]; [split; [lia|eauto]|apply G1, E]. }
        destruct (IHr r2 SB' G2) as (r' & L & R & [A1 A2 A3 A4 A5]). exists r', L. split; [exact R|]. split; [exact A1|exact A2| | |].
        * intros y Y. destruct (A3 y Y) as (B1 & B2 & B3 & B4). repeat (split; [assumption|]). split; [|exact B4]. unfold r2 in B3. apply lookup_insert_None in B3. apply B3.
        * intros x X. rewrite (A4 x X). unfold r2. rewrite (bump _ _ _ x (tree_of child) X Rc eq_refl). cbn [map]. destruct (cell_dec x (tree_of child)) as [E|NE].
          -- rewrite (count_occ_cons_eq cell_dec) by (symmetry; exact E). rewrite E. unfold cnt. rewrite LK. cbn [default]. unfold default, id. lia.
          -- rewrite (count_occ_cons_neq cell_dec) by (intros E; apply NE; symmetry; exact E). reflexivity.
        * intros x X N S GX NE. apply A5; try assumption. unfold r2. apply lookup_insert_None. split; [exact N|]. intros E. rewrite E in LK. congruence.
      + set (r2 := <[H (tree_of child) := 1%N]> r1).
        assert (G2 : good r2). { intros h k E. apply lookup_insert_Some in E. destruct E as [(<- & <-)|(_ & E)]; [split; [lia|eauto]|apply G1, E]. }
        assert (C2 : forall x, reach x T -> cnt r2 x = cnt r1 x + if cell_dec (tree_of child) x then 1 else 0).
        { intros x X. unfold r2. rewrite (bump _ _ _ x (tree_of child) X Rc eq_refl). destruct (cell_dec x (tree_of child)) as [E|NE], (cell_dec (tree_of child) x) as [E'|NE']; try congruence; [|lia].
          rewrite E. unfold cnt. rewrite LK. reflexivity. }
        destruct ((d_refs (f_d1 child) =? 0)%N || bool_decide (H (tree_of child) ∈ new_cells)) eqn:Q.
        * destruct (IHr r2 SB' G2) as (r' & L & R & [A1 A2 A3 A4 A5]). exists r', L. split; [exact R|]. split; [exact A1|exact A2| | |].
          -- intros y Y. destruct (A3 y Y) as (B1 & B2 & B3 & B4). repeat (split; [assumption|]). split; [|exact B4]. unfold r2 in B3. apply lookup_insert_None in B3. apply B3.
          -- intros x X. rewrite (A4 x X), (C2 x X). cbn [map count_occ]. destruct (cell_dec (tree_of child) x); lia.
          -- intros x X N S GX NE. destruct (cell_dec x (tree_of child)) as [->|NX].
             ++ exfalso. apply orb_true_iff in Q. destruct Q as [Q|Q]; [apply (refs_none child Fc) in Q; contradiction|]. unfold gone in GX. rewrite Q in GX. discriminate.
             ++ apply A5; try assumption. unfold r2. apply lookup_insert_None. split; [exact N|]. intros E. apply NX. symmetry. apply HD; assumption.
        * apply orb_false_iff in Q. destruct Q as (Q1 & Q2).
          assert (GC : gone (tree_of child) = true) by (unfold gone; rewrite Q2; reflexivity).
          rewrite List.Forall_forall in IH. destruct (IH child IC r2 Fc Rc G2) as (r3 & L3 & -> & [B1 B2 B3 B4 B5]). cbn [rbind].
          destruct (IHr r3 SB' B1) as (r' & L & R & [A1 A2 A3 A4 A5]). exists r', (tree_of child :: L3 ++ L). split; [exact R|].
          assert (KEEP : forall x, reach x T -> is_Some (r3 !! H x) -> is_Some (r' !! H x)).
          { intros x X S. apply (cnt_pos r' x A1). apply (cnt_pos r3 x B1) in S. rewrite (A4 x X). lia. }
          assert (KEEP3 : forall x, reach x T -> is_Some (r2 !! H x) -> is_Some (r3 !! H x)).
          { intros x X S. apply (cnt_pos r3 x B1). apply (cnt_pos r2 x G2) in S. rewrite (B4 x X). lia. }
          assert (RL : forall y d, reach d T -> dreach gone y d -> reach y T) by (intros y d D1 D2; eapply reach_trans; [eapply dreach_reach; exact D2|exact D1]).
          assert (IN2 : is_Some (r2 !! H (tree_of child))) by (unfold r2; rewrite lookup_insert; eauto).
          split; [exact A1| | | |].
          -- constructor.
             ++ rewrite in_app_iff. intros [Y|Y].
                ** destruct (B3 _ Y) as (_ & _ & N & _). destruct IN2 as (? & S). congruence.
                ** destruct (A3 _ Y) as (_ & _ & N & _). destruct (KEEP3 _ Rc IN2) as (? & S). congruence.
             ++ apply NoDup_ListNoDup, NoDup_app. split; [apply NoDup_ListNoDup, B2|]. split; [|apply NoDup_ListNoDup, A2].
                intros y Y1 Y2. apply elem_of_list_In in Y1, Y2. destruct (B3 _ Y1) as (_ & _ & _ & (? & S)). destruct (A3 _ Y2) as (_ & _ & N & _). congruence.
          -- intros y [<-|Y]; [|apply in_app_iff in Y; destruct Y as [Y|Y]].
             ++ split; [apply dr_child; exact IT|]. split; [exact GC|]. split; [exact LK|]. apply KEEP; [exact Rc|]. apply KEEP3; assumption.
             ++ destruct (B3 _ Y) as (D1 & D2 & D3 & D4). split; [eapply dreach_cons; eassumption|]. split; [exact D2|]. split; [unfold r2 in D3; apply lookup_insert_None in D3; apply D3|].
                apply KEEP; [eapply RL; eassumption|exact D4].
             ++ destruct (A3 _ Y) as (D1 & D2 & D3 & D4). repeat (split; [assumption|]). split; [|exact D4].
                destruct (r1 !! H y) eqn:E; [|reflexivity]. exfalso. assert (RY : reach y T) by (eapply RL; [exact RT|exact D1]).
                assert (S2 : is_Some (r2 !! H y)) by (unfold r2; destruct (decide (H (tree_of child) = H y)) as [E'|NE']; [rewrite E', lookup_insert; eauto|rewrite lookup_insert_ne by exact NE'; eauto]).
                destruct (KEEP3 y RY S2) as (? & S). congruence.
          -- intros x X. rewrite (A4 x X), (B4 x X), (C2 x X). rewrite total_cons, total_app. cbn [map count_occ]. unfold links. destruct (cell_dec (tree_of child) x); lia.
          -- intros x X N S GX NE. destruct (cell_dec x (tree_of child)) as [->|NX]; [left; reflexivity|right; apply in_app_iff].
             assert (N2 : r2 !! H x = None) by (unfold r2; apply lookup_insert_None; split; [exact N|]; intros E; apply NX; symmetry; apply HD; assumption).
             destruct (r3 !! H x) eqn:E3; [left; apply B5; try assumption; rewrite E3; eauto|right; apply A5; assumption]. }
  apply G; auto.
Qed.
End Count.

(** The hashes of the cells that the new tree of the update shows. *)
Lemma shown_hashes check TN pn : (forall h, check h <> IncludeSubtree) -> plain TN -> finalized sha pn -> tree_of pn = keep sha check false 0 TN -> differ (tree_of pn) ->
  exists V s, walk enter_hash pn (merkle_inc pn) ({[H (tree_of pn)]}, {[i_hash (info_of sha (tree_of pn)) 0]}) = Ok (V, s) /\
    H TN ∈ s /\ (forall d x, visible sha check false d x TN -> H x ∈ s) /\ forall h, h ∈ s -> exists x, reach x TN /\ H x = h.
Proof.
  intros NS P F ET HD.
  assert (PP : in_proof sha check TN pn) by (split; [exact F|left; exact ET]).
  destruct (in_proof_fin sha Hsha check NS TN P pn PP) as (_ & Z). unfold merkle_inc. rewrite (fin_merkle sha Hsha pn F), Z. change (N.of_nat 0) with 0%N.
  assert (HP : forall c, in_proof sha check TN c -> exists x, reach x TN /\ H x = i_hash (info_of sha (tree_of c)) 0).
  { intros c (_ & [E|(d & x & V & E)]); rewrite E.
    - exists TN. split; [constructor|]. symmetry. apply (keep_hash sha Hsha check TN P).
    - exists x. split; [eapply visible_reach; exact V|]. symmetry. apply (treated_hash sha Hsha check NS). eapply visible_plain; eassumption. }
  destruct (walk_root sha Hsha enter_hash (in_proof sha check TN) (fun s => forall h, h ∈ s -> exists x, reach x TN /\ H x = h) (fun q s => i_hash (info_of sha q) 0 ∈ s) uncut
    (in_proof_fin sha Hsha check NS TN P) (in_proof_child sha check NS TN P)) with (c := pn) (s := ({[i_hash (info_of sha (tree_of pn)) 0]} : gset (list N))) as (V & s & R & I & D0 & D).
  - intros c s PC I. destruct (in_proof_fin sha Hsha check NS TN P c PC) as (Fc & _). unfold enter_hash. rewrite (fin_hash0 sha Hsha c Fc). cbn [rbind].
    rewrite (fin_pruned sha Hsha c Fc). eexists. split; [reflexivity|]. split; [|split; [set_solver|intros x X; set_solver]].
    intros h X. apply elem_of_union in X. destruct X as [X|X]; [|apply I, X]. apply elem_of_singleton in X. subst h. apply HP, PC.
  - exact PP.
  - intros h X. apply elem_of_singleton in X. subst h. apply HP, PP.
  - set_solver.
  - exact HD.
  - exists V, s. split; [exact R|]. rewrite ET in D0, D. split; [rewrite (proj1 (keep_hash sha Hsha check TN P)) in D0; exact D0|]. split; [|exact I].
    intros d x VX. specialize (D _ (visible_dreach sha Hsha check NS d x TN VX P)). rewrite (treated_hash sha Hsha check NS) in D by (eapply visible_plain; eassumption). exact D.
Qed.

Lemma reach_down x c : reach x c -> x = c \/ dreach (fun _ => true) x c.
Proof.
  induction 1 as [|x y c I R IH]; [auto|right]. destruct IH as [->|IH]; [apply dr_child; exact I|]. eapply dreach_cons; [exact I|reflexivity|exact IH].
Qed.
Lemma dreach_last deep x c : dreach deep x c -> exists z, reach z c /\ In x (c_refs z).
Proof. destruct 1 as [x c I|x y c R D I]; [exists c; split; [constructor|exact I]|]. exists y. split; [eapply dreach_reach; exact R|exact I]. Qed.
Lemma reach_size x c : reach x c -> t_size x <= t_size c.
Proof. induction 1 as [|x y c I R IH]; [lia|]. destruct c as [e b refs]. cbn [c_refs] in I. pose proof (t_size_child e b refs y I). lia. Qed.

Section Removed.
Context (check : list N -> action) (old new : fcell) (u : merkle_update) (ch : gset (list N)).
Notation TO := (tree_of old).
Notation TN := (tree_of new).
Definition shown (x : cell) : Prop := x = TN \/ exists d, visible sha (inverted check) false d x TN.
Context (Fo : finalized sha old) (Po : plain TO) (Pn : plain TN) (HD : hashes_differ sha [TO; TN]) (HP : differ (tree_of (mu_new u))) (NE : H TO <> H TN) (M : made sha check old new u ch).
Context (S0 : reach TO TN -> c_refs TO <> [] -> shown TO).
Context (S1 : forall y x, reach y TO -> ~ reach y TN -> In x (c_refs y) -> reach x TN -> c_refs x <> [] -> shown x).

Lemma same_new x z : reach x TO -> reach z TN -> H z = H x -> reach x TN.
Proof. intros X Z E. assert (Q : z = x) by (apply (HD z x TN TO); [right; left; reflexivity|left; reflexivity|exact Z|exact X|exact E]). subst. exact Z. Qed.
Lemma removed_spec R : List.NoDup R -> (forall y, In y R <-> reach y TO /\ ~ reach y TN) ->
  exists r, compute_removed u old = Ok r /\ good TO r /\ forall x, reach x TO -> cnt r x = count_occ cell_dec [TO] x + total R x.
Proof.
  intros ND RR. unfold compute_removed. rewrite (fin_hash sha Hsha old Fo). cbn [rbind].
  pose proof (md_old_fin _ _ _ _ _ _ M) as Fpo. pose proof (md_new_fin _ _ _ _ _ _ M) as Fpn.
  rewrite (fin_hash0 sha Hsha _ Fpo), (md_old _ _ _ _ _ _ M), (proj1 (keep_hash sha Hsha (set_filter ch) TO Po)). cbn [rbind].
  rewrite (md_old_hash _ _ _ _ _ _ M), (md_new_hash _ _ _ _ _ _ M). rewrite !bool_decide_true by reflexivity. cbn [negb orb]. rewrite bool_decide_false by exact NE.
  rewrite (fin_hash sha Hsha _ Fpn), (fin_hash0 sha Hsha _ Fpn). cbn [rbind].
  destruct (shown_hashes (inverted check) TN (mu_new u) (inverted_two check) Pn Fpn (md_new _ _ _ _ _ _ M) HP) as (V & s & -> & I0 & IV & IS). cbn [rbind].
  assert (SH : forall x, shown x -> H x ∈ s) by (intros x [->|(d & X)]; [exact I0|apply (IV d x X)]).
  assert (DO : differ TO) by (intros x y X Y E; apply (HD x y TO TO); try assumption; left; reflexivity).
  assert (G0 : good TO {[H TO := 1%N]}). { intros h n E. apply lookup_singleton_Some in E. destruct E as (<- & <-). split; [lia|]. exists TO. split; [constructor|reflexivity]. }
  assert (C0 : forall x, reach x TO -> cnt {[H TO := 1%N]} x = count_occ cell_dec [TO] x).
  { intros x X. unfold cnt. cbn [count_occ]. destruct (cell_dec TO x) as [<- |NX]; [rewrite lookup_singleton; reflexivity|].
    rewrite lookup_singleton_ne; [reflexivity|]. intros E. apply NX. apply DO; [constructor|exact X|exact E]. }
  case_bool_decide as Q.
  - exists {[H TO := 1%N]}. split; [reflexivity|]. split; [exact G0|]. intros x X. rewrite (C0 x X).
    destruct (IS _ Q) as (z & Z & EZ). pose proof (same_new TO z (reach_self _) Z EZ) as RO.
    assert (RE : R = []) by (destruct R as [|y R]; [reflexivity|]; exfalso; destruct (proj1 (RR y) (or_introl eq_refl)) as (A & B); apply B; eapply reach_trans; eassumption).
    rewrite RE. change (total [] x) with 0. lia.
  - destruct (count_spec s TO DO old {[H TO := 1%N]} Fo (reach_self _) G0) as (r & L & E & [A1 A2 A3 A4 A5]). exists r. split; [exact E|]. split; [exact A1|]. intros x X. rewrite (A4 x X), (C0 x X).
    change (count_occ cell_dec (c_refs TO) x) with (links TO x). rewrite <- Nat.add_assoc, <- total_cons. f_equal. apply total_same.
    + constructor; [|exact A2]. intros Y. destruct (A3 _ Y) as (_ & _ & N & _). rewrite lookup_singleton in N. discriminate.
    + exact ND.
    + intros y NR. rewrite RR.
      assert (ROOT : c_refs TO <> [] -> ~ reach TO TN) by (intros X0 X1; apply Q, SH, S0; assumption).
      split.
      * intros [<- |Y]; [split; [constructor|exact (ROOT NR)]|]. destruct (A3 y Y) as (DR & GY & _).
        assert (G : forall z, dreach (gone s) z TO -> gone s z = true -> c_refs z <> [] -> ~ reach z TN).
        { clear - Hsha S1 SH ROOT. intros z D. remember TO as t eqn:ET. induction D as [z t I|z w t D IH DW I]; intros GZ NZ RZ; subst t.
          - unfold gone in GZ. rewrite bool_decide_true in GZ; [discriminate|]. apply SH. apply (S1 TO z); [constructor|apply ROOT; intros X; rewrite X in I; destruct I|exact I|exact RZ|exact NZ].
          - unfold gone in GZ. rewrite bool_decide_true in GZ; [discriminate|]. apply SH. apply (S1 w z); [eapply dreach_reach; exact D|apply IH; auto; intros X; rewrite X in I; destruct I|exact I|exact RZ|exact NZ]. }
        split; [eapply dreach_reach; exact DR|]. apply G; assumption.
      * intros (RY & NY). destruct (reach_down y TO RY) as [->|DY]; [left; reflexivity|].
        assert (G : forall z, dreach (fun _ => true) z TO -> ~ reach z TN -> c_refs z <> [] -> In z (TO :: L)).
        { intros z D. assert (RZ : reach z TO) by (eapply dreach_reach; exact D). intros NZ NRZ.
          destruct (cell_dec TO z) as [|NT]; [left; assumption|right].
          assert (GZ : gone s z = true).
          { unfold gone. rewrite bool_decide_false; [reflexivity|]. intros B. destruct (IS _ B) as (w & W & EW). apply NZ. exact (same_new z w RZ W EW). }
          assert (N0 : ({[H TO := 1%N]} : gmap (list N) N) !! H z = None) by (apply lookup_singleton_ne; intros E'; apply NT; apply DO; [constructor|exact RZ|exact E']).
          apply A5; try assumption. apply (cnt_pos TO); [exact A1|]. rewrite (A4 z RZ), (C0 z RZ).
          change (count_occ cell_dec (c_refs TO) z) with (links TO z). rewrite <- Nat.add_assoc, <- total_cons. enough (0 < total (TO :: L) z) by lia. apply total_pos.
          clear N0 GZ NT NRZ. revert NZ RZ. remember TO as t eqn:ET. induction D as [z t I|z w t D IH _ I]; intros NZ RZ; subst t.
          - exists TO. split; [left; reflexivity|exact I].
          - exists w. split; [|exact I]. assert (RW : reach w TO) by (eapply dreach_reach; exact D).
            assert (NW : ~ reach w TN) by (intros X1; apply NZ; eapply reach_trans; [|exact X1]; eapply reach_child; [exact I|constructor]).
            destruct (cell_dec TO w) as [EQ|NT]; [left; exact EQ|right].
            assert (NRW : c_refs w <> []) by (intros X1; rewrite X1 in I; destruct I).
            assert (GW : gone s w = true).
            { unfold gone. rewrite bool_decide_false; [reflexivity|]. intros B. destruct (IS _ B) as (v & W & EW). apply NW. exact (same_new w v RW W EW). }
            assert (N0 : ({[H TO := 1%N]} : gmap (list N) N) !! H w = None) by (apply lookup_singleton_ne; intros E'; apply NT; apply DO; [constructor|exact RW|exact E']).
            apply A5; try assumption. apply (cnt_pos TO); [exact A1|]. rewrite (A4 w RW), (C0 w RW).
            change (count_occ cell_dec (c_refs TO) w) with (links TO w). rewrite <- Nat.add_assoc, <- total_cons. enough (0 < total (TO :: L) w) by lia. apply total_pos.
            apply IH; auto. }
        apply G; assumption.
Qed.
(** A store that counts references. *)
Lemma store_spec all kept : distinct [TO; TN] all -> distinct [TN] kept ->
  exists r, compute_removed u old = Ok r /\ (forall h n, r !! h = Some n -> (0 < n)%N /\ exists x, reach x TO /\ h = H x) /\
    forall x, In x all -> counter [TO; TN] all x = counter [TN] kept x + N.to_nat (default 0%N (r !! H x)).
Proof.
  intros (NA & IA) (NK & IK). set (R := List.filter (fun y => if in_dec cell_dec y kept then false else true) all).
  assert (RR : forall y, In y R <-> reach y TO /\ ~ reach y TN).
  { intros y. unfold R. rewrite filter_In, IA. destruct (in_dec cell_dec y kept) as [K|K]; rewrite IK in K; split.
    - intros (_ & X); discriminate.
    - intros (_ & X). exfalso. apply X. destruct K as (t & [<- |[]] & Z). exact Z.
    - intros ((t & I & Z) & _). destruct I as [<- |[<- |[]]]; [|exfalso; apply K; exists TN; split; [left; reflexivity|exact Z]]. split; [exact Z|]. intros X. apply K. exists TN. split; [left; reflexivity|exact X].
    - intros (X & _). split; [|reflexivity]. exists TO. split; [left; reflexivity|exact X]. }
  assert (PM : all ≡ₚ kept ++ R).
  { apply NoDup_Permutation; [exact NA| |].
    - apply NoDup_app. split; [exact NK|]. split; [|apply NoDup_ListNoDup, List.NoDup_filter, NoDup_ListNoDup, NA].
      intros y Y1 Y2. apply elem_of_list_In in Y1, Y2. apply RR in Y2. apply IK in Y1. destruct Y1 as (t & [<- |[]] & Z). apply Y2, Z.
    - intros y. rewrite elem_of_app, !elem_of_list_In. rewrite IA. unfold R. rewrite filter_In, IA. destruct (in_dec cell_dec y kept) as [K|K].
      + split; [auto|]. intros _. apply IK in K. destruct K as (t & [<- |[]] & Z). exists TN. split; [right; left; reflexivity|exact Z].
      + split; [auto|]. intros [X|(X & _)]; [contradiction|exact X]. }
  destruct (removed_spec R) as (r & E & G & C); [apply List.NoDup_filter, NoDup_ListNoDup, NA|exact RR|]. exists r. split; [exact E|]. split; [exact G|].
  intros x IX. unfold counter. fold (total all x) (total kept x). rewrite (total_perm _ _ x PM), total_app. fold (cnt r x).
  assert (CO : count_occ cell_dec [TO; TN] x = count_occ cell_dec [TO] x + count_occ cell_dec [TN] x) by (cbn [count_occ]; destruct (cell_dec TO x), (cell_dec TN x); lia).
  rewrite CO. enough (cnt r x = count_occ cell_dec [TO] x + total R x) by lia.
  apply IA in IX. destruct IX as (t & [<- |[<- |[]]] & X); [apply C, X|].
  destruct (r !! H x) as [n|] eqn:L.
  - destruct (G _ _ L) as (_ & z & Z & EZ). assert (Q : x = z) by (apply (HD x z TN TO); [right; left; reflexivity|left; reflexivity|exact X|exact Z|exact EZ]). subst z. apply C, Z.
  - unfold cnt. rewrite L. cbn [default]. change (N.to_nat (default 0%N None)) with 0. symmetry. apply Nat.le_0_r. apply Nat.nlt_ge. intros P.
    assert (X0 : reach x TO).
    { destruct (decide (0 < total R x)) as [T1|T1].
      - apply total_pos in T1. destruct T1 as (y & Y & I). apply RR in Y. eapply reach_trans; [|apply Y]. eapply reach_child; [exact I|constructor].
      - cbn [count_occ] in P. destruct (cell_dec TO x) as [<- |]; [constructor|lia]. }
    pose proof (C x X0) as CX. unfold cnt in CX. rewrite L in CX. change (N.to_nat (default 0%N None)) with 0 in CX. lia.
Qed.
End Removed.

(** Where a cell of the new tree is. *)
Lemma locate check x c : (forall h, check h <> IncludeSubtree) -> reach x c ->
  x = c \/ (exists d, visible sha check false d x c) \/ exists d p z, visible sha check false d p c /\ treat sha check false p = Cut /\ reach z p /\ In x (c_refs z).
Proof.
  intros NS. induction 1 as [|x y c I R IH]; [auto|right]. pose proof (treat_not_whole sha check NS y) as NW.
  destruct (reach_down x y R) as [->|D]; [left; eexists; constructor; exact I|]. destruct (treat sha check false y) eqn:TY; [| |congruence].
  - right. destruct (dreach_last _ _ _ D) as (z & Z1 & Z2). exists (c_merkle c), y, z. split; [constructor; exact I|]. auto.
  - destruct IH as [->|[(d & V)|(d & p & z & V & TP & Z1 & Z2)]].
    + left. eexists. constructor. exact I.
    + left. eexists. eapply visible_deep; eassumption.
    + right. eexists _, p, z. split; [eapply visible_deep; eassumption|]. auto.
Qed.
Lemma unmixed_shown check old new : remembers sha check old new ->
  (forall y z x, reach y old -> reach z old -> In x (c_refs y) -> In x (c_refs z) -> c_refs x <> [] -> reach z new -> reach y new) ->
  (reach old new -> c_refs old <> [] -> old = new \/ exists d, visible sha (inverted check) false d old new) /\
  (forall y x, reach y old -> ~ reach y new -> In x (c_refs y) -> reach x new -> c_refs x <> [] -> x = new \/ exists d, visible sha (inverted check) false d x new).
Proof.
  intros (NS & RM) UM.
  assert (CUT : forall d p, visible sha (inverted check) false d p new -> treat sha (inverted check) false p = Cut -> reach p old /\ reach p new).
  { intros d p V TP. split; [|eapply visible_reach; exact V]. pose proof (visible_occurs _ _ _ _ _ _ V) as O.
    assert (Q : check (H p) <> Skip /\ c_refs p <> []).
    { unfold treat in TP. unfold inverted in TP. destruct (check (H p)); try discriminate; (split; [discriminate|]); destruct (c_refs p); discriminate. }
    destruct (RM d p O (proj2 Q) (proj1 Q)) as [->|TC]; [constructor|]. clear - TC. induction TC as [x c K I|x y c K I T1 IH]; eapply reach_child; eauto; constructor. }
  split.
  - intros R _. destruct (locate (inverted check) old new (inverted_two check) R) as [E|[V|(d & p & z & V & TP & Z1 & Z2)]]; [auto|auto|exfalso].
    destruct (CUT d p V TP) as (PO & _). apply reach_size in PO, Z1. destruct z as [e b refs]. cbn [c_refs] in Z2. pose proof (t_size_child e b refs old Z2). lia.
  - intros y x RY NY I R NX. destruct (locate (inverted check) x new (inverted_two check) R) as [E|[V|(d & p & z & V & TP & Z1 & Z2)]]; [auto|auto|exfalso].
    destruct (CUT d p V TP) as (PO & PN). apply NY. apply (UM y z x RY); [eapply reach_trans; eassumption|exact I|exact Z2|exact NX|eapply reach_trans; eassumption].
Qed.
End Sha.
