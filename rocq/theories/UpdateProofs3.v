(** * Creation and application of updates. *)
From Verif Require Import Err BuilderModel CellBuilderModel SliceModel SliceSpec BuilderSpec CellModel HashSpec HashModel FcellSpec MerkleModel MerkleSpec StatSpec UpdateModel UpdateSpec
  BitsProofs HashProofs HashProofs2 HashProofs3 MerkleProofs MerkleProofs2 MerkleProofs3 MerkleProofs4 StatProofs HashProps UpdateProofs UpdateProofs2.
Local Open Scope nat_scope.

Section Sha.
Context (sha : list N -> list N) (Hsha : sha_like sha).
Notation H x := (t_hash sha x).
Notation plain := (plain sha).
Notation differ := (differ sha).

Lemma reach_plain x c : reach x c -> plain c -> plain x.
Proof. induction 1 as [|x y c I R IH]; intros P; [exact P|]. apply IH. eapply plain_child; eassumption. Qed.
Lemma visible_reach check d x c : visible sha check false d x c -> reach x c.
Proof. intros V. eapply occurs_reach, visible_occurs, V. Qed.
Lemma set_filter_two s h : set_filter s h <> IncludeSubtree.
Proof. unfold set_filter. case_bool_decide; discriminate. Qed.
Lemma inverted_two check h : inverted check h <> IncludeSubtree.
Proof. unfold inverted. destruct (check h); discriminate. Qed.
Lemma fin_child c x : finalized sha c -> In x (f_refs c) -> finalized sha x.
Proof. intros F I. destruct (fin_facts sha c F) as (bits & _ & _ & _ & _ & FR & _). rewrite List.Forall_forall in FR. apply FR, I. Qed.

(** ** The hashes of the old tree *)
Lemma old_hashes check T po : (forall h, check h <> IncludeSubtree) -> plain T -> finalized sha po -> tree_of po = keep sha check false 0 T -> differ (tree_of po) ->
  exists V s, walk enter_old po (merkle_inc po) ({[H (tree_of po)]}, {[i_hash (info_of sha (tree_of po)) 0]}) = Ok (V, s) /\
    H T ∈ s /\ forall d x, visible sha check false d x T -> H x ∈ s.
Proof.
  intros NS P F ET HD.
  assert (PP : in_proof sha check T po) by (split; [exact F|left; exact ET]).
  destruct (in_proof_fin sha Hsha check NS T P po PP) as (_ & Z). unfold merkle_inc. rewrite (fin_merkle sha Hsha po F), Z. change (N.of_nat 0) with 0%N.
  destruct (walk_root sha Hsha enter_old (in_proof sha check T) (fun _ => True) (fun q s => i_hash (info_of sha q) 0 ∈ s) uncut
    (in_proof_fin sha Hsha check NS T P) (in_proof_child sha check NS T P)) with (c := po) (s := ({[i_hash (info_of sha (tree_of po)) 0]} : gset (list N))) as (V & s & R & _ & D0 & D).
  - intros c s PC _. destruct (in_proof_fin sha Hsha check NS T P c PC) as (Fc & _). unfold enter_old. rewrite (fin_hash0 sha Hsha c Fc). cbn [rbind].
    rewrite (fin_pruned sha Hsha c Fc). eexists. split; [reflexivity|]. split; [exact I|]. split; [set_solver|]. intros x X. set_solver.
  - exact PP.
  - exact I.
  - set_solver.
  - exact HD.
  - exists V, s. split; [exact R|]. rewrite ET in D0, D. split; [rewrite (proj1 (keep_hash sha Hsha check T P)) in D0; exact D0|].
    intros d x VX. specialize (D _ (visible_dreach sha Hsha check NS d x T VX P)). rewrite (treated_hash sha Hsha check NS) in D by (eapply visible_plain; eassumption). exact D.
Qed.
(** ** The pruned branches of the new tree *)
Lemma cut_facts check T c x d : (forall h, check h <> IncludeSubtree) -> plain T -> finalized sha c -> visible sha check false d x T -> tree_of c = treated sha check false 0 x -> treat sha check false x = Cut ->
  d_mask (f_d1 c) = 1%N /\ f_hash c 0 = Ok (H x).
Proof.
  intros NS P F V E TX. pose proof (visible_plain _ _ _ _ _ V P) as Px. split.
  - change (d_mask (f_d1 c)) with (f_mask c). rewrite (fin_mask sha Hsha c F), E. unfold treated. rewrite TX.
    destruct (pruned_info sha Hsha x 0 (proj1 Px) (prunable0 sha x Px) (proj1 (proj2 (proj2 (proj2 Px))))) as (-> & _). destruct Px as (_ & _ & M & _). rewrite M. reflexivity.
  - rewrite (fin_hash0 sha Hsha c F), E. rewrite (treated_hash sha Hsha check NS x Px). reflexivity.
Qed.
Lemma new_checked check T pn s : (forall h, check h <> IncludeSubtree) -> plain T -> finalized sha pn -> tree_of pn = keep sha check false 0 T ->
  (forall d x, visible sha check false d x T -> treat sha check false x = Cut -> H x ∈ s) ->
  exists r, walk (enter_new s) pn (merkle_inc pn) ({[H (tree_of pn)]}, tt) = Ok r.
Proof.
  intros NS P F ET ALL.
  assert (PP : in_proof sha check T pn) by (split; [exact F|left; exact ET]).
  destruct (in_proof_fin sha Hsha check NS T P pn PP) as (_ & Z). unfold merkle_inc. rewrite (fin_merkle sha Hsha pn F), Z. change (N.of_nat 0) with 0%N.
  destruct (walk_spec sha Hsha (enter_new s) (in_proof sha check T) (fun _ => True) (fun _ _ => True) uncut
    (in_proof_fin sha Hsha check NS T P) (in_proof_child sha check NS T P)) with (c := pn) (V := ({[H (tree_of pn)]} : gset (list N))) (s := tt) as (V & s' & R & _).
  - intros c [] PC _. exists tt. split; [|auto]. destruct (in_proof_fin sha Hsha check NS T P c PC) as (Fc & _). unfold enter_new. rewrite (fin_pruned sha Hsha c Fc). unfold uncut.
    destruct PC as (_ & [E|(d & x & V & E)]).
    + rewrite E. rewrite (keep_uncut sha check T P). reflexivity.
    + pose proof (visible_plain _ _ _ _ _ V P) as Px. rewrite E, (treated_cut sha Hsha check NS x Px). pose proof (treat_not_whole sha check NS x) as NW. destruct (treat sha check false x) eqn:TX; [|reflexivity|congruence].
      destruct (cut_facts check T c x d NS P Fc V E TX) as (-> & ->). change (lm_level 1 =? 0 + 1)%N with true. cbn [rbind]. rewrite bool_decide_true by (eapply ALL; eassumption). reflexivity.
  - exact PP.
  - exact I.
  - exists (V, s'). exact R.
Qed.
(** ** The cells of the original tree *)
Lemma collected T old s : finalized sha old -> tree_of old = T -> plain T -> differ T -> H T ∈ s ->
  exists V m, walk (enter_original s) old (merkle_inc old) ({[H T]}, {[H T := old]}) = Ok (V, m) /\ (exists y, m !! H T = Some y /\ finalized sha y /\ tree_of y = T) /\
    forall check d x, (forall e y, visible sha check false e y T -> H y ∈ s) -> visible sha check false d x T -> exists y, m !! H x = Some y /\ finalized sha y /\ tree_of y = x.
Proof.
  intros F <- P HD HS. rewrite (plain_inc sha Hsha old F P).
  set (PC := fun c => finalized sha c /\ reach (tree_of c) (tree_of old)).
  set (deep := fun x => bool_decide (H x ∈ s)).
  destruct (walk_root sha Hsha (enter_original s) PC (fun m => forall h y, m !! h = Some y -> finalized sha y /\ reach (tree_of y) (tree_of old) /\ H (tree_of y) = h)
    (fun x m => H x ∈ s -> is_Some (m !! H x)) deep) with (c := old) (s := ({[H (tree_of old) := old]} : gmap (list N) fcell)) as (V & m & R & IM & D0 & D).
  - intros c (Fc & Rc). split; [exact Fc|]. apply (plain_merkle sha). eapply reach_plain; eassumption.
  - intros c x (Fc & Rc) IX. split; [eapply fin_child; eassumption|]. eapply reach_trans; [|exact Rc]. eapply reach_child; [|constructor]. rewrite (refs_tree sha c Fc). apply in_map. exact IX.
  - intros c m (Fc & Rc) IM. unfold enter_original. rewrite (fin_hash0 sha Hsha c Fc). rewrite (plain_hash sha Hsha _ 0 (reach_plain _ _ Rc P)). cbn [rbind]. unfold deep.
    case_bool_decide as Q.
    + eexists. split; [reflexivity|]. split; [|split].
      * intros h y E. apply lookup_insert_Some in E. destruct E as [(<- & <-)|(_ & E)]; [auto|apply IM, E].
      * intros _. rewrite lookup_insert. eauto.
      * intros x X XS. destruct (decide (H (tree_of c) = H x)) as [->|N]; [rewrite lookup_insert; eauto|]. rewrite lookup_insert_ne by exact N. apply X, XS.
    + exists m. split; [reflexivity|]. split; [exact IM|]. split; [intros X; contradiction|auto].
  - split; [exact F|constructor].
  - intros h y E. apply lookup_singleton_Some in E. destruct E as (<- & <-). split; [exact F|]. split; [constructor|reflexivity].
  - intros _. rewrite lookup_singleton. eauto.
  - exact HD.
  - exists V, m. split; [exact R|]. split.
    { destruct (D0 HS) as (y & E). exists y. split; [exact E|]. destruct (IM _ _ E) as (Fy & Ry & HY). split; [exact Fy|]. apply HD; [exact Ry|constructor|exact HY]. }
    intros check d x ALL VX.
    assert (DR : dreach deep x (tree_of old)).
    { clear - VX ALL. assert (G : forall t e z, visible sha check false e z t -> (forall e y, visible sha check false e y t -> H y ∈ s) -> dreach deep z t).
      { induction 1 as [z t I|e z y t I K V IH]; intros A; [apply dr_child; exact I|]. eapply dreach_cons; [exact I| |apply IH].
        - unfold deep. apply bool_decide_eq_true. eapply A. constructor. exact I.
        - intros e' w W. eapply A. eapply visible_deep; eassumption. }
      eapply G; eassumption. }
    destruct (D x DR (ALL _ _ VX)) as (y & E). exists y. split; [exact E|]. destruct (IM _ _ E) as (Fy & Ry & HY). split; [exact Fy|].
    apply HD; [exact Ry|eapply visible_reach; exact VX|exact HY].
Qed.

(** ** Rebuilding the new tree *)
Section Run.
Context (old_cells : gmap (list N) fcell) (check : list N -> action) (NS : forall h, check h <> IncludeSubtree) (T : cell) (P : plain T) (HD : differ T).
Context (OC : forall d x, visible sha check false d x T -> treat sha check false x = Cut -> exists y, old_cells !! H x = Some y /\ finalized sha y /\ tree_of y = x).

Definition run_loop (c : fcell) (child_md : N) :=
  fix go (rs : list fcell) (children : list fcell) (new_cells : gmap (list N) fcell) {struct rs} : res (fcell * gmap (list N) fcell) :=
     match rs with
     | [] => let? p := rebuild sha c children in Ok (p, new_cells)
     | child :: rs' =>
       if d_is_pruned (f_d1 child) then
         let mask := d_mask (f_d1 child) in
         if negb (N.land mask (shl 8 1 child_md) =? 0)%N then
           let? h := f_hash child (lm_level mask - 1) in
           match old_cells !! h with
           | Some cell => go rs' (push_ref children cell) new_cells
           | None => Err InvalidData
           end
         else go rs' (push_ref children child) new_cells
       else
         let? h := f_hash child child_md in
         match new_cells !! h with
         | Some cell => go rs' (push_ref children cell) new_cells
         | None => let? (p, new_cells') := run sha old_cells child child_md new_cells in go rs' (push_ref children p) (<[h := p]> new_cells')
         end
     end.
Lemma run_eq c md nc : run sha old_cells c md nc =
  let child_md := (md + (if d_is_merkle (f_d1 c) then 1 else 0))%N in
  if (8 <=? child_md)%N then Err Panic else run_loop c child_md (f_refs c) [] nc.
Proof. destruct c. reflexivity. Qed.

Definition nc_ok (nc : gmap (list N) fcell) : Prop := forall h p, nc !! h = Some p -> finalized sha p /\ reach (tree_of p) T /\ H (tree_of p) = h.
Lemma run_spec c : forall x nc, finalized sha c -> tree_of c = keep sha check false 0 x -> (x = T \/ exists d, visible sha check false d x T /\ treat sha check false x = Keep) -> nc_ok nc ->
  exists p nc', run sha old_cells c 0 nc = Ok (p, nc') /\ finalized sha p /\ tree_of p = x /\ nc_ok nc'.
Proof.
  induction c as [d1 d2 n data refs hs IH] using fcell_tree_ind. intros x nc F ET VX NC. rewrite run_eq.
  set (c := FCell d1 d2 n data refs hs) in *. change (f_refs c) with refs in *.
  assert (Px : plain x) by (destruct VX as [->|(d & V & _)]; [exact P|eapply visible_plain; eassumption]).
  assert (Rx : reach x T) by (destruct VX as [->|(d & V & _)]; [constructor|eapply visible_reach; exact V]).
  assert (VC : forall y, In y (c_refs x) -> exists d, visible sha check false d y T).
  { intros y I. destruct VX as [->|(d & V & K)]; [exists (c_merkle T); constructor; exact I|]. exists (d + c_merkle x). eapply visible_snoc; eassumption. }
  rewrite (fin_merkle sha Hsha c F), ET, keep_eq. replace (c_merkle _) with 0 by (symmetry; apply (plain_merkle sha x Px)). cbn zeta. change (0 + N.of_nat 0)%N with 0%N. change (8 <=? 0)%N with false. cbn iota.
  assert (F2 : Forall2 (fun r y => In r refs /\ finalized sha r /\ tree_of r = treated sha check false 0 y /\ In y (c_refs x)) refs (c_refs x)).
  { pose proof (refs_tree sha c F) as RR. change (f_refs c) with refs in RR. rewrite ET, keep_eq in RR. cbn [c_refs] in RR.
    assert (G : forall rs xs, (forall r, In r rs -> In r refs) -> (forall y, In y xs -> In y (c_refs x)) -> map (treated sha check false 0) xs = map tree_of rs ->
      Forall2 (fun r y => In r refs /\ finalized sha r /\ tree_of r = treated sha check false 0 y /\ In y (c_refs x)) rs xs).
    { induction rs as [|r rs IHr]; intros [|y xs] A B E; try discriminate; [constructor|]. cbn [map] in E. injection E as E1 E2.
      constructor; [|apply IHr; auto; [intros z Z; apply A; right; exact Z|intros z Z; apply B; right; exact Z]].
      split; [apply A; left; reflexivity|]. split; [apply (fin_child c); [exact F|apply A; left; reflexivity]|]. split; [symmetry; exact E1|apply B; left; reflexivity]. }
    apply G; auto. }
  assert (LR : length refs <= 4) by (destruct (fin_facts sha c F) as (? & _ & _ & _ & _ & _ & L & _); exact L).
  assert (G : forall rs xs ch nc, Forall2 (fun r y => In r refs /\ finalized sha r /\ tree_of r = treated sha check false 0 y /\ In y (c_refs x)) rs xs ->
    Forall (finalized sha) ch -> length ch + length rs <= 4 -> nc_ok nc ->
    exists ys nc', run_loop c 0 rs ch nc = (let? p := rebuild sha c (ch ++ ys) in Ok (p, nc')) /\ Forall (finalized sha) ys /\ map tree_of ys = xs /\ nc_ok nc').
  { induction rs as [|r rs IHr]; intros xs ch nc1 FA FC LC NC1; inversion FA as [|? y ? ys' (I1 & Fr & Er & I2) FA']; subst.
    - exists [], nc1. rewrite app_nil_r. split; [reflexivity|]. split; [constructor|]. split; [reflexivity|exact NC1].
    - destruct (VC y I2) as (d & Vy). pose proof (visible_plain _ _ _ _ _ Vy P) as Py. cbn [run_loop]. rewrite (fin_pruned sha Hsha r Fr), Er, (treated_cut sha Hsha check NS y Py).
      assert (PUSH : forall w, push_ref ch w = ch ++ [w]) by (intros w; unfold push_ref; destruct (Nat.ltb_spec (length ch) 4); [reflexivity|cbn [length] in LC; lia]).
      assert (STEP : forall w nc2, finalized sha w -> tree_of w = y -> nc_ok nc2 ->
        exists ys nc', run_loop c 0 rs (push_ref ch w) nc2 = (let? p := rebuild sha c (ch ++ ys) in Ok (p, nc')) /\ Forall (finalized sha) ys /\ map tree_of ys = y :: ys' /\ nc_ok nc').
      { intros w nc2 Fw Ew NC2. rewrite PUSH. destruct (IHr ys' (ch ++ [w]) nc2 FA') as (ys & nc' & E & A & B & C); [apply List.Forall_app; split; [exact FC|constructor; [exact Fw|constructor]]|rewrite app_length; cbn [length] in *; lia|exact NC2|].
        exists (w :: ys), nc'. rewrite <- app_assoc in E. split; [exact E|]. split; [constructor; assumption|]. split; [cbn [map]; rewrite Ew, B; reflexivity|exact C]. }
      pose proof (treat_not_whole sha check NS y) as NW. destruct (treat sha check false y) eqn:TY; [| |congruence].
      + destruct (cut_facts check T r y d NS P Fr Vy Er TY) as (-> & HR). change (negb (N.land 1 (shl 8 1 0) =? 0)%N) with true. change (lm_level 1 - 1)%N with 0%N. cbn iota. rewrite HR. cbn [rbind].
        destruct (OC d y Vy TY) as (w & -> & Fw & Ew). apply STEP; assumption.
      + rewrite (fin_hash0 sha Hsha r Fr), Er, (treated_hash sha Hsha check NS y Py). cbn [rbind].
        destruct (nc1 !! H y) as [w|] eqn:L.
        * destruct (NC1 _ _ L) as (Fw & Rw & Hw). apply STEP; [exact Fw| |exact NC1]. apply HD; [exact Rw|eapply visible_reach; exact Vy|exact Hw].
        * rewrite List.Forall_forall in IH. destruct (IH r I1 y nc1 Fr) as (w & nc2 & -> & Fw & Ew & NC2); [|right; exists d; auto|exact NC1|].
          { rewrite Er. unfold treated. rewrite TY, (plain_merkle sha y Py). reflexivity. }
          cbn [rbind]. apply STEP; [exact Fw|exact Ew|]. intros h p E. apply lookup_insert_Some in E. destruct E as [(<- & <-)|(_ & E)]; [|apply NC2, E].
          rewrite Ew. split; [exact Fw|]. split; [eapply visible_reach; exact Vy|reflexivity]. }
  destruct (G refs (c_refs x) [] nc F2) as (ys & nc' & -> & FY & EY & NC'); [constructor|exact LR|exact NC|].
  cbn [app]. destruct (rebuild_spec sha Hsha c ys F FY) as (p & -> & Fp & Tp).
  - rewrite <- (map_length tree_of), EY. inversion Px as (V & _). inversion V. assumption.
  - rewrite ET, keep_eq, EY. cbn [c_exotic c_bits]. destruct x. apply Px.
  - rewrite ET, keep_eq, EY. cbn [c_exotic c_bits]. destruct x. apply Px.
  - exists p, nc'. cbn [rbind]. split; [reflexivity|]. split; [exact Fp|]. split; [|exact NC']. rewrite Tp, ET, keep_eq, EY. destruct x. reflexivity.
Qed.
End Run.
End Sha.
