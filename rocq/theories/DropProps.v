(** * C42: releasing the last handle frees exactly the cells nobody can reach, with a bounded stack. *)
From Verif Require Import Err DropModel DropSpec DropProofs.
Local Open Scope nat_scope.

Lemma refs_hsum h x : refs_to h x = hsum (fun nd => cnt (slots nd) x) h.
Proof. reflexivity. Qed.
Lemma hsum_eq f g h : (forall x nd, h !! x = Some nd -> f nd = g nd) -> hsum f h = hsum g h.
Proof.
  intros E. unfold hsum. f_equal. apply map_ext_in. intros (x, nd) I. apply elem_of_list_In, elem_of_map_to_list in I. exact (E x nd I).
Qed.
Lemma pts_refs h x : (forall y nd, h !! y = Some nd -> without_first nd = false) -> pts h x = refs_to h x.
Proof. intros P. rewrite refs_hsum. apply hsum_eq. intros y nd E. unfold owned. rewrite (P y nd E). reflexivity. Qed.
Lemma rank_bound (h : heap) (rank : nat -> nat) : exists b, forall x nd, h !! x = Some nd -> rank x <= b.
Proof.
  induction h as [|y nd h F IH] using map_ind; [exists 0; intros x nd E; rewrite lookup_empty in E; discriminate|].
  destruct IH as (b & B). exists (b + rank y). intros x nd' E. apply lookup_insert_Some in E. destruct E as [(<- & _)|(_ & E)]; [lia|]. specialize (B x nd' E). lia.
Qed.

Section Done.
Context (h0 : heap) (ext : nat -> nat) (h : heap) (freed : list nat).
Context (H : inv h0 ext h freed [] []).
Context (A0 : exists rank : nat -> nat, forall x nd y, h0 !! x = Some nd -> In y (slots nd) -> rank y < rank x).

Lemma done_same x nd : h !! x = Some nd -> without_first nd = false /\ exists nd0, h0 !! x = Some nd0 /\ slots nd = slots nd0.
Proof. intros E. apply (i_same _ _ _ _ _ _ H x nd E). intros []. Qed.
Lemma done_pts x : pts h x = refs_to h x.
Proof. apply pts_refs. intros y nd E. apply (done_same y nd E). Qed.
Lemma done_good : good_heap h ext.
Proof.
  split.
  - intros x nd E. destruct (i_count _ _ _ _ _ _ H x nd E) as (A & B & _). rewrite done_pts in A. cbn in A. split; [lia|exact B].
  - intros x nd y E I. apply (i_tgt _ _ _ _ _ _ H). pose proof (pts_in h x nd y E) as X. unfold owned in X. rewrite (proj1 (done_same x nd E)) in X. specialize (X I). lia.
  - intros x X. apply (i_tgt _ _ _ _ _ _ H). lia.
  - intros x nd E. apply (done_same x nd E).
  - destruct A0 as (rank & R). exists rank. intros x nd y E I. destruct (done_same x nd E) as (_ & nd0 & E0 & S). rewrite S in I. apply (R x nd0 y E0 I).
Qed.
Lemma done_reach x : is_Some (h !! x) <-> reachable h0 ext x.
Proof.
  split.
  - destruct A0 as (rank & R). destruct (rank_bound h rank) as (b & B).
    remember (b - rank x) as k eqn:K. revert x K. induction k as [k IH] using lt_wf_ind. intros x K (nd & E).
    destruct (i_count _ _ _ _ _ _ H x nd E) as (A & B1 & _). cbn in A. destruct (ext x) eqn:EX; [|apply reachable_handle; lia].
    assert (PP : 0 < pts h x) by lia. apply hsum_pos in PP. destruct PP as (y & nd' & E' & C). apply cnt_in in C.
    destruct (done_same y nd' E') as (WF & nd0 & E0 & S). unfold owned in C. rewrite WF, S in C.
    apply (reachable_ref h0 ext y nd0 x); [|exact E0|exact C]. apply (IH (b - rank y)); [|reflexivity|eauto].
    pose proof (R y nd0 x E0 C). pose proof (B y nd' E'). pose proof (B x nd E). lia.
  - induction 1 as [x X|x nd y _ IH E I]; [apply (i_tgt _ _ _ _ _ _ H); lia|].
    destruct IH as (nd' & E'). destruct (done_same x nd' E') as (WF & nd0 & E0 & S). rewrite E in E0. injection E0 as <-.
    apply (gh_refs _ _ done_good x nd' y E'). rewrite S. exact I.
Qed.
Lemma done_freed x : In x freed <-> is_Some (h0 !! x) /\ ~ reachable h0 ext x.
Proof.
  rewrite <- done_reach. split.
  - intros X. split; [apply (i_dom _ _ _ _ _ _ H); right; exact X|]. rewrite (i_gone _ _ _ _ _ _ H x X). intros (nd & E). discriminate.
  - intros (A & B). apply (i_dom _ _ _ _ _ _ H) in A. tauto.
Qed.
End Done.

(** In a heap with exact counts and no weak handles, dropping a handle that somebody holds
    succeeds with two nested destructors, whatever the shape of the cells.  Afterwards
    - the counts are exact for the remaining handles;
    - exactly the cells that the remaining handles can reach are left, with their references;
    - each of the other cells has been released, once. *)
Theorem C42_release : forall h ext x, good_heap h ext -> no_weak h -> 0 < ext x ->
  exists h' released, drop_handle 2 (S (S (slot_count h))) x (h, []) = Fine (h', released) /\
    good_heap h' (without x ext) /\ no_weak h' /\
    (forall y, is_Some (h' !! y) <-> reachable h (without x ext) y) /\
    (forall y nd, h' !! y = Some nd -> exists nd0, h !! y = Some nd0 /\ slots nd = slots nd0) /\
    NoDup released /\ (forall y, In y released <-> is_Some (h !! y) /\ ~ reachable h (without x ext) y).
Proof.
  intros h ext x G W X.
  set (e := without x ext).
  assert (EE : forall y, ext y = e y + cnt [x] y).
  { intros y. unfold e, without. destruct (Nat.eqb_spec y x) as [->|D]; [rewrite cnt_self; lia|]. rewrite count_occ_cons_neq by congruence. cbn. lia. }
  assert (PP : forall y, pts h y = refs_to h y) by (intros y; apply pts_refs; apply (gh_plain _ _ G)).
  assert (I : inv h e h [] [x] []).
  { split.
    - intros y nd E. destruct (gh_count _ _ G y nd E) as (A & B). rewrite EE in A. rewrite PP. split; [exact A|]. split; [exact B|apply (W y nd E)].
    - intros y Y. rewrite PP in Y. rewrite <- EE in Y. destruct (ext y) eqn:EY; [|apply (gh_ext _ _ G); lia].
      assert (Q : 0 < refs_to h y) by lia. rewrite refs_hsum in Q. apply hsum_pos in Q. destruct Q as (z & nd & E & C). apply cnt_in in C. apply (gh_refs _ _ G z nd y E C).
    - intros y nd E _. split; [apply (gh_plain _ _ G y nd E)|]. exists nd. auto.
    - intros y. cbn. tauto.
    - apply NoDup_nil_2.
    - intros y []. }
  assert (R : exists h' freed, drop_handle 2 (S (S (slot_count h))) x (h, []) = Fine (h', freed) /\ inv h e h' freed [] []).
  { destruct (gh_ext _ _ G x X) as (nd & Ex).
    change (drop_handle 2 (S (S (slot_count h))) x (h, [])) with
      (do nd := get (h, []) x in if strong nd =? 1 then drop_fields (drop_handle 1 (S (S (slot_count h)))) (S (S (slot_count h))) (owned nd) (delete x h, [x])
         else Fine (put (h, []) x (mkNode (strong nd - 1) (weak nd) (slots nd) (without_first nd)))).
    unfold get. cbn [fst]. rewrite Ex. cbn [dbind]. destruct (Nat.eqb_spec (strong nd) 1) as [S1|S1].
    - pose proof (inv_free h e h [] [x] [] [] x nd I Ex S1) as F.
      apply (fields_spec h e (S (S (slot_count h))) (owned nd) (delete x h) [x] []).
      + apply F. intros y. cbn. destruct (Nat.eq_dec x y); lia.
      + pose proof (nslots_delete h x nd Ex) as NS. change (slot_count h) with (nslots h). lia.
    - unfold put. cbn [fst snd]. eexists _, []. split; [reflexivity|]. destruct (i_count _ _ _ _ _ _ I x nd Ex) as (_ & B & _).
      apply (inv_decr h e h [] [x] [] [] x nd I Ex); [lia|]. intros y. cbn. destruct (Nat.eq_dec x y); lia. }
  destruct R as (h' & freed & RE & J). exists h', freed. split; [exact RE|].
  split; [apply (done_good h e h' freed J (gh_acyclic _ _ G))|].
  split; [intros y nd E; apply (i_count _ _ _ _ _ _ J y nd E)|].
  split; [apply (done_reach h e h' freed J (gh_acyclic _ _ G))|].
  split; [intros y nd E; apply (done_same h e h' freed J y nd E)|].
  split; [apply (i_once _ _ _ _ _ _ J)|].
  apply (done_freed h e h' freed J (gh_acyclic _ _ G)).
Qed.
Print Assumptions C42_release.

(** Every handle dropped, one after the other in any order: each cell of the heap is released
    exactly once. *)
Fixpoint release_all (xs : list nat) (h : heap) : dres st :=
  match xs with
  | [] => Fine (h, [])
  | x :: xs' =>
    do s := drop_handle 2 (S (S (slot_count h))) x (h, []) in
    do s' := release_all xs' (fst s) in Fine (fst s', snd s ++ snd s')
  end.
Theorem C42_everything : forall xs h, good_heap h (count_occ Nat.eq_dec xs) -> no_weak h ->
  exists released, release_all xs h = Fine (∅, released) /\ NoDup released /\ (forall y, In y released <-> is_Some (h !! y)).
Proof.
  induction xs as [|x xs IH]; intros h G W.
  - assert (E : h = ∅).
    { apply map_eq. intros y. rewrite lookup_empty. destruct (h !! y) as [nd|] eqn:E; [|reflexivity]. exfalso.
      destruct (gh_acyclic _ _ G) as (rank & R). destruct (rank_bound h rank) as (b & B).
      remember (b - rank y) as k eqn:K. revert y nd E K. induction k as [k IH] using lt_wf_ind. intros y nd E K.
      destruct (gh_count _ _ G y nd E) as (A & P). cbn in A. assert (PP : 0 < refs_to h y) by lia. rewrite refs_hsum in PP. apply hsum_pos in PP.
      destruct PP as (z & nd' & E' & C). apply cnt_in in C. apply (IH (b - rank z)) with (y := z) (nd := nd'); [|exact E'|reflexivity].
      pose proof (R z nd' y E' C). pose proof (B z nd' E'). pose proof (B y nd E). lia. }
    subst h. exists []. split; [reflexivity|]. split; [apply NoDup_nil_2|]. intros y. rewrite lookup_empty. split; [intros []|intros (? & ?); discriminate].
  - destruct (C42_release h _ x G W) as (h' & rel & RE & G' & W' & HR & HS & ND & HF). { cbn. destruct (Nat.eq_dec x x); [lia|congruence]. }
    assert (G2 : good_heap h' (count_occ Nat.eq_dec xs)).
    { assert (E : forall y, without x (count_occ Nat.eq_dec (x :: xs)) y = count_occ Nat.eq_dec xs y).
      { intros y. unfold without. cbn [count_occ]. destruct (Nat.eqb_spec y x) as [->|D]; [destruct (Nat.eq_dec x x); [lia|congruence]|]. destruct (Nat.eq_dec x y); [congruence|reflexivity]. }
      destruct G' as [G1 G2 G3 G4 G5]. split; auto; [intros y nd E1; rewrite <- E; apply (G1 y nd E1)|intros y; rewrite <- E; apply G3]. }
    destruct (IH h' G2 W') as (rel' & RE' & ND' & HF').
    exists (rel ++ rel'). cbn [release_all]. rewrite RE. cbn [dbind fst snd]. rewrite RE'. cbn [dbind fst snd]. split; [reflexivity|].
    assert (OR : forall y, is_Some (h !! y) <-> In y rel \/ is_Some (h' !! y)).
    { intros y. rewrite HF, HR. split.
      - intros Y. destruct (h' !! y) as [nd|] eqn:E; [right; apply HR; eauto|left]. split; [exact Y|]. intros Q. apply HR in Q. rewrite E in Q. destruct Q as (? & Q). discriminate.
      - intros [(Y & _)|Y]; [exact Y|]. apply HR in Y. destruct Y as (nd & Y). destruct (HS y nd Y) as (nd0 & E & _). eauto. }
    split.
    + apply NoDup_app. split; [exact ND|]. split; [|exact ND']. intros y Y Y'. rewrite elem_of_list_In in Y, Y'. apply HF in Y. apply HF', HR in Y'. tauto.
    + intros y. rewrite in_app_iff, OR, HF'. reflexivity.
Qed.
Print Assumptions C42_everything.

(** With weak handles to the cells ([Arc::get_mut] refuses a cell with a weak handle) the
    release falls back to nested destructors: no bound on the nesting is enough. *)
Fixpoint weak_path (n : nat) : heap :=
  match n with
  | O => {[0 := mkNode 1 true [] false]}
  | S n' => <[n := mkNode 1 true [n'] false]> (weak_path n')
  end.
Lemma weak_path_above n x : n < x -> weak_path n !! x = None.
Proof.
  revert x. induction n as [|n IH]; intros x L; cbn [weak_path]; [apply lookup_singleton_ne; lia|]. rewrite lookup_insert_ne by lia. apply IH. lia.
Qed.
Lemma weak_path_at n x : x <= n -> weak_path n !! x = Some (mkNode 1 true (match x with O => [] | S y => [y] end) false).
Proof.
  induction n as [|n IH]; intros L; cbn [weak_path].
  - destruct x; [apply lookup_singleton|lia].
  - destruct (Nat.eq_dec x (S n)) as [->|D]; [apply lookup_insert|]. rewrite lookup_insert_ne by lia. apply IH. lia.
Qed.
Lemma weak_path_refs n x : refs_to (weak_path n) x = if x <? n then 1 else 0.
Proof.
  induction n as [|n IH]; cbn [weak_path].
  - unfold refs_to. rewrite map_to_list_singleton. reflexivity.
  - rewrite refs_hsum, hsum_new by (apply weak_path_above; lia). rewrite <- refs_hsum, IH. cbn [slots count_occ].
    destruct (Nat.eq_dec n x), (Nat.ltb_spec x n), (Nat.ltb_spec x (S n)); lia.
Qed.
Theorem C42_weak_handles_refuted : forall depth, exists h ext x, good_heap h ext /\ 0 < ext x /\ forall fuel, drop_handle depth fuel x (h, []) = Fail TooDeep.
Proof.
  intros d. exists (weak_path d), (fun y => if y =? d then 1 else 0), d.
  assert (KEY : forall x nd, weak_path d !! x = Some nd -> x <= d /\ nd = mkNode 1 true (match x with O => [] | S y => [y] end) false).
  { intros x nd E. destruct (Nat.le_gt_cases x d) as [L|L]; [|rewrite weak_path_above in E by exact L; discriminate]. rewrite weak_path_at in E by exact L. injection E as <-. auto. }
  split; [|split; [rewrite Nat.eqb_refl; lia|]].
  - split.
    + intros x nd E. destruct (KEY x nd E) as (L & EN). rewrite EN. cbn [strong]. rewrite weak_path_refs. split; [|lia].
      destruct (Nat.eqb_spec x d), (Nat.ltb_spec x d); lia.
    + intros x nd y E I. destruct (KEY x nd E) as (L & ->). destruct x as [|x]; cbn in I; [destruct I|]. destruct I as [<-|[]]. rewrite weak_path_at by lia. eauto.
    + intros x X. destruct (Nat.eqb_spec x d) as [EN|]; [|lia]. rewrite weak_path_at by lia. eauto.
    + intros x nd E. destruct (KEY x nd E) as (L & ->). reflexivity.
    + exists (fun x => x). intros x nd y E I. destruct (KEY x nd E) as (L & ->). destruct x as [|x]; cbn in I; [destruct I|]. destruct I as [<-|[]]. lia.
  - intros fuel.
    assert (G : forall n h fr, (forall x, x <= n -> h !! x = Some (mkNode 1 true (match x with O => [] | S y => [y] end) false)) -> drop_handle n fuel n (h, fr) = Fail TooDeep).
    { induction n as [|n IH]; intros h fr A; cbn [drop_handle]; unfold get; cbn [fst snd]; rewrite (A _ (le_n _)); cbn [dbind strong Nat.eqb]; [reflexivity|].
      unfold owned. cbn [slots without_first drop_fields]. unfold deep_drop_impl, get. cbn [fst snd].
      assert (A2 : forall x, x <= n -> delete (S n) h !! x = Some (mkNode 1 true (match x with O => [] | S y => [y] end) false)) by (intros x L; rewrite lookup_delete_ne by lia; apply A; lia).
      rewrite (A2 n) by lia. cbn [dbind]. unfold unique. cbn [strong weak Nat.eqb negb andb]. cbn [dbind]. rewrite IH by exact A2. reflexivity. }
    apply G. intros x L. apply weak_path_at, L.
Qed.
Print Assumptions C42_weak_handles_refuted.

(** Four cells, one of them shared: 3 -> (2, 1), 2 -> (0, 0), 1 -> (0), with a handle to 3 and
    a handle to 1. *)
Definition ex_heap : heap := {[ 0 := mkNode 3 false [] false; 1 := mkNode 2 false [0] false; 2 := mkNode 1 false [0; 0] false; 3 := mkNode 1 false [2; 1] false ]}.
Definition ex_ext (x : nat) : nat := if x =? 3 then 1 else if x =? 1 then 1 else 0.
Lemma ex_heap_cases x nd : ex_heap !! x = Some nd ->
  (x = 0 /\ nd = mkNode 3 false [] false) \/ (x = 1 /\ nd = mkNode 2 false [0] false) \/ (x = 2 /\ nd = mkNode 1 false [0; 0] false) \/ (x = 3 /\ nd = mkNode 1 false [2; 1] false).
Proof.
  intros E. destruct x as [|[|[|[|x]]]]; cbn in E; try (injection E as <-; tauto).
  exfalso. unfold ex_heap in E. rewrite !lookup_insert_ne in E by lia. rewrite lookup_singleton_ne in E by lia. discriminate.
Qed.
Example C42_case : good_heap ex_heap ex_ext /\ no_weak ex_heap /\ 0 < ex_ext 3 /\
  match drop_handle 2 (S (S (slot_count ex_heap))) 3 (ex_heap, []) with
  | Fine (h', released) => h' !! 0 = Some (mkNode 1 false [] false) /\ h' !! 1 = Some (mkNode 1 false [0] false) /\ h' !! 2 = None /\ h' !! 3 = None /\ released = [3; 2]
  | Fail _ => False
  end.
Proof.
  split; [|split; [|split]].
  - split.
    + intros x nd E. destruct (ex_heap_cases x nd E) as [(-> & ->)|[(-> & ->)|[(-> & ->)|(-> & ->)]]]; vm_compute; split; lia.
    + intros x nd y E I. destruct (ex_heap_cases x nd E) as [(-> & ->)|[(-> & ->)|[(-> & ->)|(-> & ->)]]]; cbn in I;
        repeat (destruct I as [<-|I]); try (destruct I); eexists; reflexivity.
    + intros x X. unfold ex_ext in X. destruct (Nat.eqb_spec x 3) as [Q|]; [rewrite Q; eexists; reflexivity|]. destruct (Nat.eqb_spec x 1) as [Q|]; [rewrite Q; eexists; reflexivity|lia].
    + intros x nd E. destruct (ex_heap_cases x nd E) as [(-> & ->)|[(-> & ->)|[(-> & ->)|(-> & ->)]]]; reflexivity.
    + exists (fun x => x). intros x nd y E I. destruct (ex_heap_cases x nd E) as [(-> & ->)|[(-> & ->)|[(-> & ->)|(-> & ->)]]]; cbn in I;
        repeat (destruct I as [<-|I]); try (destruct I); lia.
  - intros x nd E. destruct (ex_heap_cases x nd E) as [(-> & ->)|[(-> & ->)|[(-> & ->)|(-> & ->)]]]; reflexivity.
  - vm_compute. lia.
  - vm_compute. auto 10.
Qed.
