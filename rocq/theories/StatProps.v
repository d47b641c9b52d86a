(** * C43: storage statistics count every distinct cell once. *)
From Verif Require Import Err BuilderModel CellModel HashSpec HashModel FcellSpec Sha256 StatModel StatSpec
  BitsProofs HashProofs HashProofs2 HashProps MerkleProofs3 StatProofs.
Local Open Scope nat_scope.

(** The trees and the bits that a sequence of calls adds. *)
Definition op_cells (o : stat_op) : list fcell := match o with AddCell c => [c] | AddSlice _ refs => refs end.
Definition op_bits (o : stat_op) : N := match o with AddCell _ => 0 | AddSlice n _ => n end.
Definition op_root (o : stat_op) : nat := match o with AddCell _ => 1 | AddSlice _ _ => 0 end.
Definition added (ops : list stat_op) : list cell := map tree_of (concat (map op_cells ops)).
Definition slice_bits (ops : list stat_op) : N := fold_right (fun o n => op_bits o + n)%N 0%N ops.
Definition cell_calls (ops : list stat_op) : nat := list_sum (map op_root ops).

(** Every collection of trees has such a list. *)
Fixpoint cell_dec (a b : cell) {struct a} : {a = b} + {a <> b}.
Proof.
  destruct a as [e bits refs], b as [e' bits' refs'].
  destruct (Bool.bool_dec e e') as [->|D]; [|right; congruence].
  destruct (List.list_eq_dec Bool.bool_dec bits bits') as [->|D]; [|right; congruence].
  assert (D : {refs = refs'} + {refs <> refs'}).
  { revert refs'. induction refs as [|x refs IH]; intros [|y refs']; [left; reflexivity|right; discriminate|right; discriminate|].
    destruct (cell_dec x y) as [->|N]; [|right; congruence]. destruct (IH refs') as [->|N]; [left; reflexivity|right; congruence]. }
  destruct D as [->|D]; [left; reflexivity|right; congruence].
Defined.
Fixpoint cells_of (c : cell) : list cell := let '(Cell _ _ refs) := c in c :: concat (map cells_of refs).
Lemma cells_of_reach c : forall x, In x (cells_of c) <-> reach x c.
Proof.
  induction c as [e bits refs IH] using cell_tree_ind. rewrite List.Forall_forall in IH. intros x. cbn [cells_of]. split.
  - intros [<-|I]; [constructor|]. apply in_concat in I. destruct I as (l & L & I). apply in_map_iff in L. destruct L as (y & <- & Y).
    eapply reach_child; [exact Y|]. apply (IH y Y). exact I.
  - intros R. inversion R as [|? y ? I R']; subst; [left; reflexivity|]. right. cbn [c_refs] in I. apply in_concat. exists (cells_of y).
    split; [apply in_map; exact I|]. apply (IH y I). exact R'.
Qed.
Theorem C43_list roots : exists l, distinct roots l.
Proof.
  exists (nodup cell_dec (concat (map cells_of roots))). split; [apply NoDup_ListNoDup, List.NoDup_nodup|]. intros x. rewrite nodup_In, in_concat. split.
  - intros (l & L & I). apply in_map_iff in L. destruct L as (r & <- & Ir). exists r. split; [exact Ir|]. apply cells_of_reach. exact I.
  - intros (r & Ir & R). exists (cells_of r). split; [apply in_map; exact Ir|]. apply cells_of_reach. exact R.
Qed.

Section Sha.
Context (sha : list N -> list N) (Hsha : sha_like sha).

Lemma step_spec R l (HD : hashes_differ sha R) (DL : distinct R l) P base s vis o :
  inv sha R P base s vis -> stack s = [] -> Forall (finalized sha) (op_cells o) -> (forall c, In c (op_cells o) -> In (tree_of c) R) ->
  (base + op_bits o + total_bits l < 2 ^ 64)%N -> (N.of_nat (length l) < 2 ^ 64)%N ->
  exists n0, length vis <= n0 <= length vis + op_root o /\
    outcome sha R (P ++ map tree_of (op_cells o)) (base + op_bits o) n0 (limit s) (stat_step o s).
Proof.
  intros I E0 FO IO HB HC. change (2 ^ 64)%N with 18446744073709551616%N in *. pose proof I as I'. destruct I as [I1 I2 I3 I4 I5 I6 I7 I8 I9]. rewrite E0 in *.
  assert (NS : forall x, ~ on_stack [] x) by (intros x (it & c & [] & _)).
  destruct o as [c|n refs]; cbn [stat_step op_cells op_bits op_root map] in *.
  - inversion FO as [|? ? Fc _]; subst. pose proof (IO c (or_introl eq_refl)) as Rc. unfold add_cell. rewrite (fin_hash sha Hsha c Fc). cbn [rbind].
    assert (Kc : known R (tree_of c)) by (exists (tree_of c); split; [exact Rc|constructor]).
    assert (V : t_hash sha (tree_of c) ∈ visited s <-> In (tree_of c) vis).
    { rewrite I2. apply (in_visited sha R HD); [exact Kc|]. intros y Y. apply (known_P R P _ I6), I5, Y. }
    assert (KP : forall r, In r (P ++ [tree_of c]) -> known R r).
    { intros r X. apply in_app_or in X. destruct X as [X|[<-|[]]]; auto. }
    destruct (decide _) as [D|D].
    + apply V in D. exists (length vis). split; [lia|]. exists true, s, vis. split; [reflexivity|]. split; [reflexivity|]. split; [|auto].
      split; auto.
      * rewrite I3. lia.
      * intros x X. destruct (I5 x X) as (r & A & B). exists r. split; [apply in_or_app; left; exact A|exact B].
      * rewrite E0. intros it c0 [].
      * rewrite E0. exact I8.
      * rewrite E0. intros r X. apply in_app_or in X. destruct X as [X|[<-|[]]]; auto.
    + assert (NV : ~ In (tree_of c) vis) by (intros X; apply D, V, X).
      assert (ND : NoDup (tree_of c :: vis)) by (constructor; [rewrite elem_of_list_In|]; assumption).
      assert (KV : forall y, In y (tree_of c :: vis) -> exists r, In r (P ++ [tree_of c]) /\ reach y r).
      { intros y [<-|Y]; [exists (tree_of c); split; [apply in_or_app; right; left; reflexivity|constructor]|].
        destruct (I5 y Y) as (r & A & B). exists r. split; [apply in_or_app; left; exact A|exact B]. }
      assert (SUB : (total_bits (tree_of c :: vis) <= total_bits l)%N /\ length (tree_of c :: vis) <= length l).
      { apply incl_total; [exact ND|]. intros y Y. apply DL. apply (known_P R _ _ KP), KV, Y. }
      destruct SUB as (SB & SL). cbn [length] in SL. unfold total_bits in SB. cbn [fold_right] in SB. fold (total_bits vis) (total_bits l) in SB.
      destruct (fin_facts sha c Fc) as (bits & ET & _ & EL & _ & FRc & _). rewrite ET in SB. cbn [c_bits] in SB.
      unfold add64. change (2 ^ 64)%N with 18446744073709551616%N. rewrite EL, I3, I4.
      destruct (N.ltb_spec (base + total_bits vis + N.of_nat (length bits)) 18446744073709551616) as [_|X]; [|lia]. cbn [rbind].
      destruct (N.ltb_spec (N.of_nat (length vis) + 1) 18446744073709551616) as [_|X]; [|lia]. cbn [rbind].
      exists (S (length vis)). split; [lia|]. unfold reduce.
      set (s1 := mkStat _ _ _ _ _). change (limit s) with (limit s1).
      apply (reduce_spec sha Hsha R HD l DL) with (vis := tree_of c :: vis); cbn [length]; change (2 ^ 64)%N with 18446744073709551616%N; try lia.
      split; cbn [s1 visited stack bit_count cell_count]; auto.
      * rewrite I2. reflexivity.
      * unfold total_bits. cbn [fold_right]. fold (total_bits vis). rewrite ET. cbn [c_bits]. lia.
      * cbn [length]. lia.
      * intros it c' [<-|[]] Y. rewrite List.Forall_forall in FRc. split; [auto|]. exists (tree_of c). split; [apply in_or_app; right; left; reflexivity|].
        eapply reach_child; [|constructor]. rewrite ET. cbn [c_refs]. apply in_map. exact Y.
      * intros x y [<-|X] Y.
        -- right. rewrite ET in Y. cbn [c_refs] in Y. apply in_map_iff in Y. destruct Y as (z & <- & Z). exists (f_refs c), z. cbn. auto.
        -- destruct (I8 x y X Y) as [|O]; [left; right; auto|]. destruct (NS _ O).
      * intros r X. apply in_app_or in X. destruct X as [X|[<-|[]]]; [|left; left; reflexivity]. destruct (I9 r X) as [|O]; [left; right; auto|]. destruct (NS _ O).
  - assert (SUB : (total_bits vis <= total_bits l)%N /\ length vis <= length l).
    { apply incl_total; [exact I1|]. intros y Y. apply DL. apply (known_P R _ _ I6), I5, Y. }
    unfold add_slice, add64. change (2 ^ 64)%N with 18446744073709551616%N. rewrite I3.
    destruct (N.ltb_spec (base + total_bits vis + n) 18446744073709551616) as [_|X]; [|lia]. cbn [rbind].
    exists (length vis). split; [lia|]. unfold reduce.
    set (s1 := mkStat _ _ _ _ _). change (limit s) with (limit s1).
    apply (reduce_spec sha Hsha R HD l DL) with (vis := vis); cbn [length]; change (2 ^ 64)%N with 18446744073709551616%N; try lia.
    rewrite List.Forall_forall in FO.
    split; cbn [s1 visited stack bit_count cell_count]; auto.
    + lia.
    + intros x X. destruct (I5 x X) as (r & A & B). exists r. split; [apply in_or_app; left; exact A|exact B].
    + intros r X. apply in_app_or in X. destruct X as [X|X]; [auto|]. apply in_map_iff in X. destruct X as (c & <- & X). exists (tree_of c). split; [auto|constructor].
    + intros it c' [<-|[]] Y. split; [auto|]. exists (tree_of c'). split; [apply in_or_app; right; apply in_map; exact Y|constructor].
    + intros x y X Y. destruct (I8 x y X Y) as [|O]; [auto|]. destruct (NS _ O).
    + intros r X. apply in_app_or in X. destruct X as [X|X]; [destruct (I9 r X) as [|O]; [auto|destruct (NS _ O)]|].
      apply in_map_iff in X. destruct X as (c & <- & X). right. exists refs, c. cbn. auto.
Qed.

Lemma run_spec R l (HD : hashes_differ sha R) (DL : distinct R l) ops : forall P base s vis k,
  inv sha R P base s vis -> stack s = [] -> (N.of_nat (length vis) <= limit s + N.of_nat k)%N ->
  (forall o c, In o ops -> In c (op_cells o) -> finalized sha c /\ In (tree_of c) R) ->
  (base + slice_bits ops + total_bits l < 2 ^ 64)%N -> (N.of_nat (length l) < 2 ^ 64)%N ->
  exists ok s', stat_run ops s = Ok (ok, s') /\
    if ok then exists vis', inv sha R (P ++ added ops) (base + slice_bits ops) s' vis' /\ stack s' = [] /\ limit s' = limit s /\
                 (N.of_nat (length vis') <= limit s + N.of_nat (k + cell_calls ops))%N
    else (limit s < N.of_nat (length l))%N.
Proof.
  induction ops as [|o ops IH]; intros P base s vis k I E0 HK FO HB HC.
  - exists true, s. split; [reflexivity|]. exists vis. unfold added, slice_bits, cell_calls. cbn. rewrite app_nil_r, N.add_0_r, Nat.add_0_r. auto.
  - cbn [stat_run]. unfold slice_bits in HB. cbn [fold_right] in HB. fold (slice_bits ops) in HB.
    destruct (step_spec R l HD DL P base s vis o I E0) as (n0 & N0 & ok & s1 & vis1 & -> & EL & X).
    { apply List.Forall_forall. intros c C. apply (FO o c (or_introl eq_refl) C). }
    { intros c C. apply (FO o c (or_introl eq_refl) C). }
    { lia. } { exact HC. }
    cbn [rbind]. destruct ok.
    + destruct X as (I1 & E1 & L0 & L1).
      destruct (IH _ _ s1 vis1 (k + op_root o) I1 E1) as (ok & s' & -> & Y).
      { rewrite EL. destruct L1; lia. }
      { intros o' c O. apply FO. right. exact O. }
      { lia. } { exact HC. }
      exists ok, s'. split; [reflexivity|]. rewrite EL in Y. destruct ok; [|exact Y].
      destruct Y as (vis' & I' & E' & EL' & L'). exists vis'. unfold added, slice_bits, cell_calls. cbn [map concat fold_right].
      rewrite map_app, app_assoc, N.add_assoc. split; [exact I'|]. split; [exact E'|]. split; [exact EL'|]. change (list_sum (op_root o :: map op_root ops)) with (op_root o + cell_calls ops). lia.
    + exists false, s1. split; [reflexivity|]. destruct X as (x & ND & KV & LE). destruct (incl_total (x :: vis1) l ND) as (_ & SL).
      { intros y Y. apply DL. destruct (KV y Y) as (r & Ir & Rr). apply in_app_or in Ir. destruct Ir as [Ir|Ir].
        - destruct (iv_roots _ _ _ _ _ _ I r Ir) as (r' & A & B). exists r'. split; [exact A|eapply reach_trans; eassumption].
        - apply in_map_iff in Ir. destruct Ir as (c & <- & C). exists (tree_of c). split; [apply (FO o c (or_introl eq_refl) C)|exact Rr]. }
      cbn [length] in SL. lia.
Qed.

(** For every history of [add_cell] and [add_slice]: nothing panics; if every call answers
    [true], the counters are the totals over the different cells of the added trees (and the
    bits of the slices); a call answers [false] only if there are more different cells than
    the limit; and the limit is exceeded at most by the cells given to [add_cell]. *)
Theorem C43_history ops lim l :
  Forall (finalized sha) (concat (map op_cells ops)) -> hashes_differ sha (added ops) -> distinct (added ops) l ->
  (slice_bits ops + total_bits l < 2 ^ 64)%N -> (N.of_nat (length l) < 2 ^ 64)%N ->
  exists ok s, stat_run ops (with_limit lim) = Ok (ok, s) /\
    if ok then cell_count s = N.of_nat (length l) /\ bit_count s = (slice_bits ops + total_bits l)%N /\ (N.of_nat (length l) <= lim + N.of_nat (cell_calls ops))%N
    else (lim < N.of_nat (length l))%N.
Proof.
  intros FO HD DL HB HC. rewrite List.Forall_forall in FO.
  assert (I0 : inv sha (added ops) [] 0 (with_limit lim) []).
  { split; cbn; try (intros; contradiction); try reflexivity. constructor. }
  destruct (run_spec (added ops) l HD DL ops [] 0 (with_limit lim) [] 0 I0 eq_refl) as (ok & s' & E & X).
  { cbn. lia. }
  { intros o c O C. assert (In c (concat (map op_cells ops))) as Y by (apply in_concat; exists (op_cells o); split; [apply in_map; exact O|exact C]).
    split; [apply FO; exact Y|]. apply in_map. exact Y. }
  { exact HB. } { exact HC. }
  exists ok, s'. split; [exact E|]. destruct ok; [|exact X]. destruct X as (vis & [I1 I2 I3 I4 I5 I6 I7 I8 I9] & E' & _ & L). cbn [app] in *.
  destruct (same_elems vis l I1 (proj1 DL)) as (EB & EN).
  { intros x. rewrite (proj2 DL x). split; [apply I5|]. intros (r & Ir & Rr).
    assert (NS : forall x, ~ on_stack (stack s') x) by (rewrite E'; intros y (it & c & [] & _)).
    induction Rr as [r|x y r Y Rr IH]; [destruct (I9 r Ir) as [|O]; [assumption|destruct (NS _ O)]|].
    assert (In r vis) as V by (destruct (I9 r Ir) as [|O]; [assumption|destruct (NS _ O)]). clear IH Ir.
    assert (In y vis) as V' by (destruct (I8 r y V Y) as [|O]; [assumption|destruct (NS _ O)]). clear V Y r.
    induction Rr as [z|x z y Z Rr IH]; [exact V'|]. apply IH. destruct (I8 y z V' Z) as [|O]; [assumption|destruct (NS _ O)]. }
  rewrite I4, I3, EB, EN. rewrite EN in L. cbn [plus with_limit limit] in L. auto.
Qed.

(** The two one-call functions: the limit is exact for slices, and for cells when it is not 0. *)
Theorem C43_slice n refs lim l :
  Forall (finalized sha) refs -> hashes_differ sha (map tree_of refs) -> distinct (map tree_of refs) l ->
  (n + total_bits l < 2 ^ 64)%N -> (N.of_nat (length l) < 2 ^ 64)%N ->
  compute_for_slice n refs lim = Ok (if (N.of_nat (length l) <=? lim)%N then Some ((n + total_bits l)%N, N.of_nat (length l)) else None).
Proof.
  intros F HD DL HB HC. destruct (C43_history [AddSlice n refs] lim l) as (ok & s & E & X).
  { cbn. rewrite app_nil_r. exact F. } { unfold added. cbn. rewrite app_nil_r. exact HD. } { unfold added. cbn. rewrite app_nil_r. exact DL. }
  { unfold slice_bits. cbn [fold_right op_bits]. lia. } { exact HC. }
  cbn [stat_run stat_step] in E. unfold compute_for_slice. destruct (add_slice _ _ _) as [(ok', s1)|e]; [|discriminate E]. cbn [rbind] in *.
  unfold slice_bits, cell_calls in X. cbn in X. rewrite N.add_0_r in X.
  destruct ok'; injection E as <- <-; f_equal.
  - destruct X as (-> & -> & L). destruct (N.leb_spec (N.of_nat (length l)) lim); [reflexivity|lia].
  - destruct (N.leb_spec (N.of_nat (length l)) lim); [lia|reflexivity].
Qed.
Theorem C43_cell c lim l : (0 < lim)%N ->
  finalized sha c -> hashes_differ sha [tree_of c] -> distinct [tree_of c] l ->
  (total_bits l < 2 ^ 64)%N -> (N.of_nat (length l) < 2 ^ 64)%N ->
  compute_for_cell c lim = Ok (if (N.of_nat (length l) <=? lim)%N then Some (total_bits l, N.of_nat (length l)) else None).
Proof.
  intros Z F HD DL HB HC. destruct (C43_history [AddCell c] lim l) as (ok & s & E & X).
  { repeat constructor. exact F. } { exact HD. } { exact DL. }
  { unfold slice_bits. cbn [fold_right op_bits]. lia. } { exact HC. }
  cbn [stat_run stat_step] in E. unfold compute_for_cell. destruct (add_cell _ _) as [(ok', s1)|e] eqn:EA; [|discriminate E]. cbn [rbind] in *.
  unfold slice_bits in X. cbn in X.
  assert (I0 : inv sha [tree_of c] [] 0 (with_limit lim) []).
  { split; cbn; try (intros; contradiction); try reflexivity. constructor. }
  destruct (step_spec [tree_of c] l HD DL [] 0 (with_limit lim) [] (AddCell c) I0 eq_refl) as (n0 & N0 & okx & sx & visx & EX & _ & Y).
  { repeat constructor. exact F. } { intros c' [<-|[]]. left. reflexivity. } { exact HB. } { exact HC. }
  cbn [stat_step] in EX. rewrite EA in EX. injection EX as <- <-.
  destruct ok'; injection E as <- <-; f_equal.
  - destruct X as (EC & -> & L). destruct Y as ([J1 J2 J3 J4 _ _ _ _ _] & _ & _ & [L1|L1]); rewrite EC in *; cbn [length op_root limit with_limit] in *;
      destruct (N.leb_spec (N.of_nat (length l)) lim); try reflexivity; lia.
  - destruct (N.leb_spec (N.of_nat (length l)) lim); [lia|reflexivity].
Qed.
End Sha.
Print Assumptions C43_list.
Print Assumptions C43_history.
Print Assumptions C43_slice.
Print Assumptions C43_cell.

(** With the limit 0, a cell without references is still counted. *)
Theorem C43_zero_limit_refuted : exists c, finalized sha256 c /\ distinct [tree_of c] [tree_of c] /\
  compute_for_cell c 0 = Ok (Some (f_bit_len c, 1%N)).
Proof.
  exists ex_leaf. split; [exact ex_leaf_fin|]. split.
  - split; [repeat constructor; intros X; inversion X|]. intros x. split.
    + intros [<-|[]]. eexists. split; [left; reflexivity|constructor].
    + intros (r & [<-|[]] & R). inversion R as [|? y ? I]; subst; [left; reflexivity|]. destruct I.
  - vm_compute. reflexivity.
Qed.
Print Assumptions C43_zero_limit_refuted.

(** The hypotheses are met by a tree that shares a leaf: three different cells, six occurrences. *)
Definition ex_shared : fcell := unwrap (build_ext sha256 false (bld_of [0xAA]%N 8) [ex_node; ex_leaf; ex_leaf]).
Lemma ex_shared_fin : is_fin ex_shared. Proof. pose proof ex_leaf_fin. pose proof ex_node_fin. ex_tac. Qed.
Definition differ_ok (c : cell) : bool :=
  let l := map (fun x => (t_hash sha256 x, x)) (nodup cell_dec (cells_of c)) in
  forallb (fun p => forallb (fun q => if cell_dec (snd p) (snd q) then true else if decide (fst p = fst q) then false else true) l) l.
Lemma differ_spec c : differ_ok c = true -> hashes_differ sha256 [c].
Proof.
  intros D x y r r' [<-|[]] [<-|[]] X Y E. apply cells_of_reach in X. apply cells_of_reach in Y. unfold differ_ok in D. cbn zeta in D.
  assert (I : forall z, In z (cells_of c) -> In (t_hash sha256 z, z) (map (fun x => (t_hash sha256 x, x)) (nodup cell_dec (cells_of c)))).
  { intros z Z. apply in_map_iff. exists z. split; [reflexivity|]. apply nodup_In. exact Z. }
  rewrite forallb_forall in D. specialize (D _ (I x X)). rewrite forallb_forall in D. specialize (D _ (I y Y)). cbn [fst snd] in D.
  destruct (cell_dec x y); [assumption|]. destruct (decide _) as [_|N]; [discriminate|contradiction].
Qed.
Example C43_case : exists l, distinct [tree_of ex_shared] l /\ length l = 3 /\ hashes_differ sha256 [tree_of ex_shared] /\
  compute_for_cell ex_shared 3 = Ok (Some (total_bits l, 3%N)) /\ compute_for_cell ex_shared 2 = Ok None.
Proof.
  exists (nodup cell_dec (cells_of (tree_of ex_shared))). split; [|split; [vm_compute; reflexivity|split; [apply differ_spec; vm_compute; reflexivity|split; vm_compute; reflexivity]]].
  split; [apply NoDup_ListNoDup, List.NoDup_nodup|]. intros x. rewrite nodup_In, cells_of_reach. split.
  - intros R. eexists. split; [left; reflexivity|exact R].
  - intros (r & [<-|[]] & R). exact R.
Qed.
