(** * The release of cells keeps counts exact and never nests deeply. *)
From Verif Require Import Err DropModel DropSpec.
Local Open Scope nat_scope.

(** ** Sums over a heap *)
Definition hsum (f : node -> nat) (h : heap) : nat := list_sum (map (fun p => f (snd p)) (map_to_list h)).
Lemma list_sum_perm l l' : l ≡ₚ l' -> list_sum l = list_sum l'.
Proof. induction 1; unfold list_sum in *; cbn; lia. Qed.
Lemma hsum_new f h x nd : h !! x = None -> hsum f (<[x := nd]> h) = f nd + hsum f h.
Proof.
  intros E. unfold hsum. rewrite (list_sum_perm _ (map (fun p => f (snd p)) ((x, nd) :: map_to_list h))); [reflexivity|].
  apply (Permutation_map (fun p => f (snd p))), map_to_list_insert. exact E.
Qed.
Lemma hsum_delete f h x nd : h !! x = Some nd -> hsum f h = f nd + hsum f (delete x h).
Proof. intros E. rewrite <- (insert_delete h x nd E) at 1. apply hsum_new. apply lookup_delete. Qed.
Lemma hsum_update f h x nd nd' : h !! x = Some nd -> hsum f (<[x := nd']> h) + f nd = hsum f h + f nd'.
Proof.
  intros E. rewrite (hsum_delete f h x nd E). rewrite <- (insert_delete_insert h x nd'). rewrite hsum_new by apply lookup_delete. lia.
Qed.
Lemma hsum_in f h x nd : h !! x = Some nd -> f nd <= hsum f h.
Proof. intros E. rewrite (hsum_delete f h x nd E). lia. Qed.
Lemma hsum_pos f h : 0 < hsum f h -> exists x nd, h !! x = Some nd /\ 0 < f nd.
Proof.
  unfold hsum. intros P. assert (X : exists p, In p (map_to_list h) /\ 0 < f (snd p)).
  { induction (map_to_list h) as [|p l IH]; cbn in P; [lia|]. destruct (f (snd p)) eqn:E; [|exists p; split; [left; reflexivity|lia]].
    destruct IH as (q & I & Q); [exact P|]. exists q. split; [right; exact I|exact Q]. }
  destruct X as ((x, nd) & I & Q). exists x, nd. split; [|exact Q]. apply elem_of_map_to_list, elem_of_list_In. exact I.
Qed.
Lemma hsum_many f h K : NoDup K -> (forall x, In x K -> exists nd, h !! x = Some nd /\ 0 < f nd) -> length K <= hsum f h.
Proof.
  revert h. induction K as [|x K IH]; intros h ND H; [cbn; lia|]. apply NoDup_cons in ND. destruct ND as (NI & ND). rewrite elem_of_list_In in NI.
  destruct (H x (or_introl eq_refl)) as (nd & E & P). rewrite (hsum_delete f h x nd E). cbn [length].
  enough (length K <= hsum f (delete x h)) by lia. apply IH; [exact ND|]. intros y Y. destruct (H y (or_intror Y)) as (nd' & E' & P').
  exists nd'. split; [|exact P']. rewrite lookup_delete_ne; [exact E'|]. intros ->. contradiction.
Qed.

Notation cnt l x := (count_occ Nat.eq_dec l x).
Definition pts (h : heap) (x : nat) : nat := hsum (fun nd => cnt (owned nd) x) h.
Lemma cnt_in l x : 0 < cnt l x <-> In x l.
Proof. symmetry. apply count_occ_In. Qed.
Lemma pts_in h y nd x : h !! y = Some nd -> In x (owned nd) -> 0 < pts h x.
Proof. intros E I. apply cnt_in in I. pose proof (hsum_in (fun nd => cnt (owned nd) x) h y nd E) as X. cbn in X. unfold pts. lia. Qed.

Record inv (h0 : heap) (ext : nat -> nat) (h : heap) (freed L T : list nat) : Prop := {
  i_count : forall x nd, h !! x = Some nd -> strong nd = ext x + cnt L x + pts h x /\ 0 < strong nd /\ weak nd = false;
  i_tgt : forall x, 0 < ext x + cnt L x + pts h x -> is_Some (h !! x);
  i_same : forall x nd, h !! x = Some nd -> ~ In x T -> without_first nd = false /\ exists nd0, h0 !! x = Some nd0 /\ slots nd = slots nd0;
  i_dom : forall x, is_Some (h0 !! x) <-> is_Some (h !! x) \/ In x freed;
  i_once : NoDup freed;
  i_gone : forall x, In x freed -> h !! x = None
}.

Section Heap.
Context (h0 : heap) (ext : nat -> nat).
Notation inv := (inv h0 ext).

Lemma inv_perm h freed L L' T : (forall x, cnt L x = cnt L' x) -> inv h freed L T -> inv h freed L' T.
Proof. intros E [I1 I2 I3 I4 I5 I6]. split; auto; intros x; rewrite <- E; auto. Qed.
Lemma inv_less h freed L T T' : (forall x, In x T -> is_Some (h !! x) -> In x T') -> inv h freed L T -> inv h freed L T'.
Proof.
  intros E [I1 I2 I3 I4 I5 I6]. split; eauto.
Qed.
(** Pointers that move between a node and the locals. *)
Lemma inv_move h freed L L' T T' x nd nd' : inv h freed L T -> h !! x = Some nd -> strong nd' = strong nd -> weak nd' = weak nd ->
  (forall y, cnt L y + cnt (owned nd) y = cnt L' y + cnt (owned nd') y) -> In x T' -> (forall y, In y T -> In y T') ->
  inv (<[x := nd']> h) freed L' T'.
Proof.
  intros [I1 I2 I3 I4 I5 I6] E ES EW EC IT TT.
  assert (P : forall y, cnt L y + pts h y = cnt L' y + pts (<[x := nd']> h) y).
  { intros y. pose proof (hsum_update (fun nd => cnt (owned nd) y) h x nd nd' E) as U. cbn in U. fold (pts h y) (pts (<[x:=nd']> h) y) in U. specialize (EC y). lia. }
  split; auto.
  - intros y nd1 Y. rewrite lookup_insert_Some in Y. destruct Y as [(<- & <-)|(D & Y)].
    + rewrite ES, EW. destruct (I1 x nd E) as (A & B & C). specialize (P x). split; [lia|auto].
    + destruct (I1 y nd1 Y) as (A & B & C). specialize (P y). split; [lia|auto].
  - intros y Y. destruct (decide (x = y)) as [->|D]; [rewrite lookup_insert; eauto|]. rewrite lookup_insert_ne by exact D. apply I2. specialize (P y). lia.
  - intros y nd1 Y NT. rewrite lookup_insert_Some in Y. destruct Y as [(<- & <-)|(D & Y)]; [contradiction|]. apply (I3 y nd1 Y). auto.
  - intros y. rewrite I4. destruct (decide (x = y)) as [->|D]; [|rewrite lookup_insert_ne by exact D; reflexivity]. rewrite lookup_insert, E. split; intros [Z|Z]; eauto.
  - intros y Y. pose proof (I6 y Y) as Z. rewrite lookup_insert_ne; [exact Z|]. intros ->. congruence.
Qed.
(** A handle that is not the last one. *)
Lemma inv_decr h freed L L' T x nd : inv h freed L T -> h !! x = Some nd -> 2 <= strong nd -> (forall y, cnt L y = cnt [x] y + cnt L' y) ->
  inv (<[x := mkNode (strong nd - 1) (weak nd) (slots nd) (without_first nd)]> h) freed L' T.
Proof.
  intros [I1 I2 I3 I4 I5 I6] E S2 EC. set (nd' := mkNode _ _ _ _).
  assert (P : forall y, pts (<[x := nd']> h) y = pts h y).
  { intros y. pose proof (hsum_update (fun nd => cnt (owned nd) y) h x nd nd' E) as U. cbn in U. fold (pts h y) (pts (<[x:=nd']> h) y) in U.
    change (owned nd') with (owned nd) in U. lia. }
  split; auto.
  - intros y nd1 Y. rewrite P. rewrite lookup_insert_Some in Y. specialize (EC y). destruct Y as [(<- & <-)|(D & Y)].
    + destruct (I1 x nd E) as (A & B & C). cbn [strong weak nd']. rewrite count_occ_cons_eq in EC by reflexivity. cbn in EC. split; [lia|]. split; [lia|exact C].
    + destruct (I1 y nd1 Y) as (A & B & C). rewrite count_occ_cons_neq in EC by exact D. cbn in EC. split; [lia|auto].
  - intros y Y. rewrite P in Y. destruct (decide (x = y)) as [->|D]; [rewrite lookup_insert; eauto|]. rewrite lookup_insert_ne by exact D. apply I2. specialize (EC y). lia.
  - intros y nd1 Y NT. rewrite lookup_insert_Some in Y. destruct Y as [(<- & <-)|(D & Y)]; [|apply (I3 y nd1 Y NT)]. apply (I3 x nd E NT).
  - intros y. rewrite I4. destruct (decide (x = y)) as [->|D]; [|rewrite lookup_insert_ne by exact D; reflexivity]. rewrite lookup_insert, E. split; intros [Z|Z]; eauto.
  - intros y Y. pose proof (I6 y Y) as Z. rewrite lookup_insert_ne; [exact Z|]. intros ->. congruence.
Qed.
(** The last handle: what the cell owned becomes local. *)
Lemma inv_free h freed L L' T x nd : inv h freed L T -> h !! x = Some nd -> strong nd = 1 -> (forall y, cnt L y = cnt [x] y + cnt L' y) ->
  inv (delete x h) (freed ++ [x]) (owned nd ++ L') T.
Proof.
  intros [I1 I2 I3 I4 I5 I6] E S1 EC.
  assert (P : forall y, pts h y = cnt (owned nd) y + pts (delete x h) y) by (intros y; apply (hsum_delete (fun nd => cnt (owned nd) y) h x nd E)).
  assert (NX : ext x + cnt L' x + pts h x = 0).
  { destruct (I1 x nd E) as (A & _). specialize (EC x). rewrite count_occ_cons_eq in EC by reflexivity. cbn in EC. lia. }
  split.
  - intros y nd1 Y. apply lookup_delete_Some in Y. destruct Y as (D & Y). destruct (I1 y nd1 Y) as (A & B & C). specialize (EC y). rewrite count_occ_cons_neq in EC by exact D. cbn in EC.
    rewrite count_occ_app. specialize (P y). split; [lia|auto].
  - intros y Y. rewrite count_occ_app in Y. specialize (P y). destruct (decide (x = y)) as [->|D]; [lia|]. rewrite lookup_delete_ne by exact D. apply I2.
    specialize (EC y). rewrite count_occ_cons_neq in EC by exact D. cbn in EC. lia.
  - intros y nd1 Y NT. apply lookup_delete_Some in Y. destruct Y as (D & Y). apply (I3 y nd1 Y NT).
  - intros y. rewrite I4, in_app_iff. destruct (decide (x = y)) as [->|D]; [|rewrite lookup_delete_ne by exact D; split; [intros [Z|Z]; auto|intros [Z|[Z|[Z|[]]]]; auto; contradiction]].
    rewrite lookup_delete, E. split; [intros _; right; right; left; reflexivity|intros _; left; eauto].
  - apply NoDup_app. split; [exact I5|]. split; [|apply NoDup_singleton]. intros y Y Z. apply elem_of_list_In in Y. apply elem_of_list_singleton in Z. subst y. pose proof (I6 x Y). congruence.
  - intros y Y. apply in_app_or in Y. destruct Y as [Y|[<-|[]]]; [|apply lookup_delete]. apply lookup_delete_None. right. apply I6, Y.
Qed.

Context (N : nat).
Notation D := (drop_handle 1 N).
Definition nslots (h : heap) : nat := hsum (fun nd => length (slots nd)) h.

Lemma drop_leaf x h freed L L' T nd : inv h freed L T -> h !! x = Some nd -> strong nd = 1 -> owned nd = [] -> (forall y, cnt L y = cnt [x] y + cnt L' y) ->
  D x (h, freed) = Fine (delete x h, freed ++ [x]) /\ inv (delete x h) (freed ++ [x]) L' T.
Proof.
  intros I E S1 O EC. split.
  - cbn [drop_handle]. unfold get. cbn [fst snd]. rewrite E. cbn [dbind]. rewrite S1. cbn [Nat.eqb]. rewrite O. reflexivity.
  - pose proof (inv_free h freed L L' T x nd I E S1 EC) as F. rewrite O in F. exact F.
Qed.
Lemma drop_shared x h freed L L' T nd : inv h freed L T -> h !! x = Some nd -> 2 <= strong nd -> (forall y, cnt L y = cnt [x] y + cnt L' y) ->
  let h' := <[x := mkNode (strong nd - 1) (weak nd) (slots nd) (without_first nd)]> h in
  D x (h, freed) = Fine (h', freed) /\ inv h' freed L' T /\ nslots h' = nslots h.
Proof.
  intros I E S2 EC. cbn zeta. split; [|split].
  - cbn [drop_handle]. unfold get. cbn [fst snd]. rewrite E. cbn [dbind]. destruct (Nat.eqb_spec (strong nd) 1); [lia|]. reflexivity.
  - eapply inv_decr; eassumption.
  - unfold nslots. pose proof (hsum_update (fun nd => length (slots nd)) h x nd (mkNode (strong nd - 1) (weak nd) (slots nd) (without_first nd)) E) as U. cbn in U. lia.
Qed.
Lemma nslots_delete h x nd : h !! x = Some nd -> nslots h = length (slots nd) + nslots (delete x h).
Proof. intros E. apply (hsum_delete (fun nd => length (slots nd)) h x nd E). Qed.
Lemma nslots_update h x nd nd' : h !! x = Some nd -> nslots (<[x := nd']> h) + length (slots nd) = nslots h + length (slots nd').
Proof. intros E. apply (hsum_update (fun nd => length (slots nd)) h x nd nd' E). Qed.

(** The path of ancestors: the first slot of each points to the next one, up to the top. *)
Fixpoint chain (h : heap) (K : list nat) : Prop :=
  match K with
  | [] => False
  | p :: K' => exists nd, h !! p = Some nd /\ strong nd = 1 /\ weak nd = false /\
      match K' with
      | [] => without_first nd = true /\ slots nd <> []
      | q :: _ => without_first nd = false /\ (exists cs, slots nd = q :: cs) /\ chain h K'
      end
  end.
Lemma chain_off h h' K : (forall x, In x K -> h' !! x = h !! x) -> chain h K -> chain h' K.
Proof.
  induction K as [|p K IH]; intros E C; [exact C|]. destruct C as (nd & Ep & S1 & W & C). exists nd. split; [rewrite (E p (or_introl eq_refl)); exact Ep|].
  split; [exact S1|]. split; [exact W|]. destruct K as [|q K]; [exact C|]. destruct C as (A & B & C). split; [exact A|]. split; [exact B|]. apply IH; [|exact C]. intros x X. apply E. right. exact X.
Qed.
Lemma chain_facts h K x : chain h K -> In x K -> exists nd, h !! x = Some nd /\ strong nd = 1 /\ 0 < length (slots nd).
Proof.
  revert x. induction K as [|p K IH]; intros x C I; [destruct I|]. destruct C as (nd & Ep & S1 & W & C).
  destruct I as [<-|I].
  - exists nd. split; [exact Ep|]. split; [exact S1|]. destruct K as [|q K]; [destruct C as (_ & C); destruct (slots nd); [congruence|cbn; lia]|]. destruct C as (_ & (cs & ->) & _). cbn. lia.
  - destruct K as [|q K]; [destruct I|]. apply IH; [apply C|exact I].
Qed.
(** Every cell of the path below its end is pointed to by the path. *)
Lemma chain_pointed h p K x : chain h (p :: K) -> In x K -> 0 < pts h x.
Proof.
  revert p. induction K as [|q K IH]; intros p C I; [destruct I|]. destruct C as (nd & Ep & S1 & W & A & (cs & B) & C).
  destruct I as [<-|I].
  - apply (pts_in h p nd); [exact Ep|]. unfold owned. rewrite A, B. left. reflexivity.
  - apply (IH q C I).
Qed.

Definition kept (h : heap) (L T0 : list nat) : Prop := forall t, In t T0 -> In t L /\ exists nd, h !! t = Some nd /\ strong nd = 1.

Lemma last_cnt c cs x : cnt (c :: cs) x = cnt (removelast (c :: cs)) x + cnt [List.last (c :: cs) 0] x.
Proof. rewrite <- count_occ_app, <- app_removelast_last by discriminate. reflexivity. Qed.
Lemma length_removelast c (cs : list nat) : length (removelast (c :: cs)) = length cs.
Proof. pose proof (f_equal (@length nat) (app_removelast_last 0 (l := c :: cs) ltac:(discriminate))) as E. rewrite app_length in E. cbn [length] in E. lia. Qed.

Lemma ancestor_spec K : forall f a K' h freed L L1 T0, K = a :: K' -> inv h freed L (K ++ T0) -> (forall y, cnt L y = cnt (a :: L1) y) -> chain h K -> NoDup K ->
  (forall x, In x K -> ~ In x T0) -> kept h L1 T0 -> length K < f ->
  exists r h' freed', take_ancestor_next_child D f a (h, freed) = Fine (r, (h', freed')) /\ (forall x, ~ In x K -> h' !! x = h !! x) /\
    match r with
    | Some (a', child) => exists K2, chain h' (a' :: K2) /\ NoDup (a' :: K2) /\ (forall x, In x (a' :: K2) -> In x K) /\
        inv h' freed' (a' :: child :: L1) ((a' :: K2) ++ T0) /\ nslots h' + length K < nslots h + length (a' :: K2)
    | None => inv h' freed' L1 T0 /\ nslots h' <= nslots h
    end.
Proof.
  induction K as [|p K IH]; intros f a K' h freed L L1 T0 EK I EL C ND NT KE F; [discriminate|]. injection EK as -> <-.
  destruct f as [|f]; [lia|]. cbn [take_ancestor_next_child].
  pose proof C as C0. destruct C as (nd & Ea & S1 & W & C). unfold get. cbn [fst snd]. rewrite Ea. cbn [dbind]. unfold unique. rewrite S1, W. cbn [Nat.eqb negb andb].
  assert (OFF : forall x nd', ~ In x (a :: K) -> <[a := nd']> h !! x = h !! x) by (intros x nd' X; apply lookup_insert_ne; intros ->; apply X; left; reflexivity).
  assert (NA : ~ In a K) by (apply NoDup_cons in ND; destruct ND as (X & _); rewrite elem_of_list_In in X; exact X).
  unfold take_next_child. destruct (slots nd) as [|c [|c' cs]] eqn:ES.
  - exfalso. destruct (chain_facts h (a :: K) a C0 (or_introl eq_refl)) as (nd1 & E1 & _ & P). rewrite Ea in E1. injection E1 as <-. rewrite ES in P. cbn in P. lia.
  - unfold take_first_child. rewrite ES. destruct K as [|q K].
    + destruct C as (WF & _). rewrite WF.
      destruct (drop_leaf a h freed L L1 ([a] ++ T0) nd I Ea S1) as (-> & I').
      { unfold owned. rewrite WF, ES. reflexivity. } { intros y. rewrite EL. apply (count_occ_app Nat.eq_dec [a] L1). }
      cbn [dbind]. exists None, (delete a h), (freed ++ [a]). split; [reflexivity|]. split; [intros x X; apply lookup_delete_ne; intros ->; apply X; left; reflexivity|].
      split; [|rewrite (nslots_delete h a nd Ea); lia]. eapply inv_less; [|exact I']. intros x [<-|X] [nd1 Y]; [rewrite lookup_delete in Y; discriminate|exact X].
    + destruct C as (WF & (cs & EC) & C). rewrite WF. injection EC as -> <-.
      set (nd' := mkNode (strong nd) (weak nd) [q] true). unfold put; cbn [fst snd].
      assert (I1 : inv (<[a := nd']> h) freed (q :: L) ((a :: q :: K) ++ T0)).
      { eapply inv_move; [exact I|exact Ea|reflexivity|reflexivity| |left; reflexivity|auto]. intros y. unfold owned. rewrite WF, ES. cbn [nd' without_first slots tail].
        change (q :: L) with ([q] ++ L). rewrite count_occ_app. cbn [count_occ]. lia. }
      destruct (drop_leaf a (<[a := nd']> h) freed (q :: L) (q :: L1) ((a :: q :: K) ++ T0) nd' I1) as (-> & I2).
      { apply lookup_insert. } { exact S1. } { reflexivity. }
      { intros y. change (q :: L) with ([q] ++ L). change (q :: L1) with ([q] ++ L1). rewrite !count_occ_app, EL. change (a :: L1) with ([a] ++ L1). rewrite count_occ_app. lia. }
      cbn [dbind]. rewrite delete_insert_delete in *.
      assert (OFF2 : forall x, x <> a -> delete a h !! x = h !! x) by (intros x X; apply lookup_delete_ne; congruence).
      assert (C2 : chain (delete a h) (q :: K)) by (eapply chain_off; [|exact C]; intros x X; apply OFF2; intros ->; contradiction).
      assert (I3 : inv (delete a h) (freed ++ [a]) (q :: L1) ((q :: K) ++ T0)).
      { eapply inv_less; [|exact I2]. intros x [<-|X] [nd1 Y]; [rewrite lookup_delete in Y; discriminate|exact X]. }
      destruct (IH f q K (delete a h) (freed ++ [a]) (q :: L1) L1 T0 eq_refl I3) as (r & h' & freed' & -> & OFF3 & R); [reflexivity|exact C2| | | |cbn [length] in *; lia|].
      { apply NoDup_cons in ND. apply ND. } { intros x X. apply NT. right. exact X. }
      { intros t X. destruct (KE t X) as (A & nd1 & E1 & S). split; [exact A|]. exists nd1. split; [|exact S]. rewrite OFF2; [exact E1|]. intros ->. apply (NT a); [left; reflexivity|exact X]. }
      exists r, h', freed'. split; [reflexivity|]. split.
      { intros x X. rewrite OFF3 by (intros Y; apply X; right; exact Y). apply OFF2. intros ->. apply X. left. reflexivity. }
      pose proof (nslots_delete h a nd Ea) as NS. rewrite ES in NS. cbn [length] in NS. destruct r as [(a', child)|].
      * destruct R as (K2 & R1 & R2 & R3 & R4 & R5). exists K2. split; [exact R1|]. split; [exact R2|]. split; [intros x X; right; apply R3, X|]. split; [exact R4|].
        cbn [length] in R5 |- *. lia.
      * destruct R as (R1 & R2). split; [exact R1|lia].
  - set (child := List.last (c' :: cs) 0). set (nd' := mkNode (strong nd) (weak nd) (c :: removelast (c' :: cs)) (without_first nd)).
    exists (Some (a, child)), (<[a := nd']> h), freed. split; [reflexivity|]. split; [intros x X; apply OFF, X|].
    exists K. split; [|split; [exact ND|split; [auto|split]]].
    + exists nd'. split; [apply lookup_insert|]. split; [exact S1|]. split; [exact W|]. destruct K as [|q K]; [split; [apply C|discriminate]|].
      destruct C as (A & (cs' & B) & C). split; [exact A|]. injection B as -> _. split; [eexists; reflexivity|].
      eapply chain_off; [|exact C]. intros x X. apply lookup_insert_ne. intros ->. contradiction.
    + eapply inv_move; [exact I|exact Ea|reflexivity|reflexivity| |left; reflexivity|auto]. intros y. rewrite EL. unfold owned. cbn [nd' without_first slots]. rewrite ES.
      pose proof (last_cnt c' cs y) as LC. fold child in LC. change (a :: child :: L1) with ([a] ++ [child] ++ L1). change (a :: L1) with ([a] ++ L1). rewrite !count_occ_app.
      destruct (without_first nd); cbn [tail]; [lia|]. change (c :: c' :: cs) with ([c] ++ c' :: cs). change (c :: removelast (c' :: cs)) with ([c] ++ removelast (c' :: cs)). rewrite !count_occ_app. lia.
    + pose proof (nslots_update h a nd nd' Ea) as U. rewrite ES in U. cbn [nd' slots length] in U. rewrite length_removelast in U. cbn [length] in *. lia.
Qed.

Lemma cnt2 a b L y : cnt (a :: b :: L) y = cnt [a] y + cnt [b] y + cnt L y.
Proof. change (a :: b :: L) with ([a] ++ [b] ++ L). rewrite !count_occ_app. lia. Qed.
Lemma cnt1 a L y : cnt (a :: L) y = cnt [a] y + cnt L y.
Proof. change (a :: L) with ([a] ++ L). rewrite count_occ_app. lia. Qed.
Lemma cnt_self a : cnt [a] a = 1.
Proof. rewrite count_occ_cons_eq by reflexivity. reflexivity. Qed.

Lemma chain_length h K : chain h K -> NoDup K -> length K <= nslots h.
Proof. intros C ND. apply hsum_many; [exact ND|]. intros x X. destruct (chain_facts h K x C X) as (nd & E & _ & P). eauto. Qed.

Lemma loop_spec f : forall parent current K' h freed L0 T0, let K := parent :: K' in
  inv h freed (parent :: current :: L0) (K ++ T0) -> chain h K -> NoDup K -> (forall x, In x K -> ~ In x T0) -> kept h L0 T0 ->
  nslots h < f + length K -> nslots h < N ->
  exists h' freed', main_loop D N f parent current (h, freed) = Fine (h', freed') /\ inv h' freed' L0 T0 /\ nslots h' <= nslots h /\ (forall t, In t T0 -> h' !! t = h !! t).
Proof.
  induction f as [|f IH]; intros parent current K' h freed L0 T0 K I C ND NT KE F FN.
  { pose proof (chain_length h K C ND). lia. }
  cbn [main_loop]. unfold get. cbn [fst snd].
  assert (IC : is_Some (h !! current)) by (apply (i_tgt _ _ _ _ _ _ I); rewrite cnt2, cnt_self; lia). destruct IC as (nd & Ec). rewrite Ec. cbn [dbind].
  destruct (i_count _ _ _ _ _ _ I current nd Ec) as (SC & SP & W). rewrite cnt2, cnt_self in SC.
  assert (KL : length K <= nslots h) by (apply chain_length; assumption).
  assert (KT : forall t, In t T0 -> exists nd, h !! t = Some nd /\ strong nd = 1) by (intros t X; apply (KE t X)).
  unfold unique. rewrite W. cbn [negb]. rewrite andb_true_r. destruct (Nat.eqb_spec (strong nd) 1) as [S1|S1].
  - (* the last handle *)
    assert (NK : ~ In current K).
    { intros [<-|X]; [rewrite cnt_self in SC; lia|]. pose proof (chain_pointed h parent K' current C X). lia. }
    assert (NT0 : ~ In current T0) by (intros X; destruct (KE _ X) as (Y & _); apply cnt_in in Y; lia).
    destruct (i_same _ _ _ _ _ _ I current nd Ec) as (WF & _). { intros X. apply in_app_or in X. destruct X; contradiction. }
    unfold replace_first_child. rewrite WF. destruct (slots nd) as [|first cs] eqn:ES.
    + destruct (drop_leaf current h freed (parent :: current :: L0) (parent :: L0) (K ++ T0) nd I Ec S1) as (-> & I1).
      { unfold owned. rewrite WF. exact ES. } { intros y. rewrite cnt2, (cnt1 parent L0). lia. }
      cbn [dbind]. set (h1 := delete current h) in *.
      assert (O1 : forall x, x <> current -> h1 !! x = h !! x) by (intros x X; apply lookup_delete_ne; congruence).
      assert (OK : forall x, In x K -> h1 !! x = h !! x) by (intros x X; apply O1; intros ->; contradiction).
      assert (OT : forall x, In x T0 -> h1 !! x = h !! x) by (intros x X; apply O1; intros ->; contradiction).
      pose proof (nslots_delete h current nd Ec) as NS. fold h1 in NS. rewrite ES in NS. cbn [length] in NS.
      destruct (ancestor_spec K N parent K' h1 (freed ++ [current]) (parent :: L0) L0 T0 eq_refl I1) as (r & h2 & freed2 & -> & OFF & R); auto.
      { eapply chain_off; [exact OK|exact C]. }
      { intros t X. destruct (KE t X) as (A & nd1 & E1 & S). split; [exact A|]. exists nd1. split; [rewrite OT; assumption|exact S]. }
      { lia. }
      cbn [dbind]. destruct r as [(a', child)|].
      * destruct R as (K2 & R1 & R2 & R3 & R4 & R5).
        assert (OT2 : forall t, In t T0 -> h2 !! t = h !! t) by (intros t X; rewrite OFF by (intros Y; apply (NT t Y X)); apply OT, X).
        assert (C1 : nslots h2 < f + length (a' :: K2)) by lia.
        assert (KN2 : length (a' :: K2) <= length K).
        { apply NoDup_incl_length; [apply NoDup_ListNoDup; exact R2|exact R3]. }
        destruct (IH a' child K2 h2 freed2 L0 T0 R4 R1 R2) as (h3 & freed3 & -> & I3 & N3 & T3); auto; try lia.
        { intros t X. destruct (KE t X) as (A & nd1 & E1 & S). split; [exact A|]. exists nd1. split; [rewrite OT2; assumption|exact S]. }
        exists h3, freed3. split; [reflexivity|]. split; [exact I3|]. split; [lia|]. intros t X. rewrite T3, OT2 by exact X. reflexivity.
      * destruct R as (R1 & R2). exists h2, freed2. split; [reflexivity|]. split; [exact R1|]. split; [lia|].
        intros t X. rewrite OFF by (intros Y; apply (NT t Y X)). apply OT, X.
    + set (nd' := mkNode (strong nd) (weak nd) (parent :: cs) false). unfold put; cbn [fst snd]. set (h1 := <[current := nd']> h).
      assert (O1 : forall x, x <> current -> h1 !! x = h !! x) by (intros x X; apply lookup_insert_ne; congruence).
      pose proof (nslots_update h current nd nd' Ec) as U. rewrite ES in U. cbn [nd' slots length] in U. fold h1 in U.
      destruct (IH current first K h1 freed L0 T0) as (h3 & freed3 & -> & I3 & N3 & T3).
      * eapply inv_move; [exact I|exact Ec|reflexivity|reflexivity| |left; reflexivity|right; assumption]. intros y. unfold owned. rewrite WF, ES. cbn [nd' without_first slots].
        rewrite !cnt2, (cnt1 first cs), (cnt1 parent cs). lia.
      * exists nd'. split; [apply lookup_insert|]. split; [exact S1|]. split; [exact W|]. split; [reflexivity|]. split; [eexists; reflexivity|].
        eapply chain_off; [|exact C]. intros x X. apply O1. intros ->. contradiction.
      * apply NoDup_cons. split; [rewrite elem_of_list_In; exact NK|exact ND].
      * intros x [<-|X]; [exact NT0|apply NT, X].
      * intros t X. destruct (KE t X) as (A & nd1 & E1 & S). split; [exact A|]. exists nd1. split; [rewrite O1; [exact E1|intros ->; contradiction]|exact S].
      * cbn [length] in *. lia.
      * lia.
      * exists h3, freed3. split; [reflexivity|]. split; [exact I3|]. split; [lia|]. intros t X. rewrite T3 by exact X. apply O1. intros ->. contradiction.
  - (* shared *)
    assert (NK : ~ In current K) by (intros X; destruct (chain_facts h K current C X) as (nd1 & E1 & S & _); rewrite Ec in E1; injection E1 as <-; lia).
    assert (NT0 : ~ In current T0) by (intros X; destruct (KT _ X) as (nd1 & E1 & S); rewrite Ec in E1; injection E1 as <-; lia).
    destruct (ancestor_spec K N parent K' h freed (parent :: current :: L0) (current :: L0) T0 eq_refl I) as (r & h2 & freed2 & -> & OFF & R); auto.
    { intros t X. destruct (KE t X) as (A & B). split; [right; exact A|exact B]. }
    { lia. }
    cbn [dbind]. assert (Ec2 : h2 !! current = Some nd) by (rewrite OFF; assumption).
    assert (OT2 : forall t, In t T0 -> h2 !! t = h !! t) by (intros t X; apply OFF; intros Y; apply (NT t Y X)).
    destruct r as [(a', child)|].
    + destruct R as (K2 & R1 & R2 & R3 & R4 & R5).
      destruct (drop_shared current h2 freed2 _ (a' :: child :: L0) _ nd R4 Ec2) as (-> & I3 & N3).
      { lia. } { intros y. rewrite !cnt2. rewrite (cnt1 current L0). lia. }
      cbn [dbind]. set (h3 := <[current := _]> h2) in *.
      assert (O3 : forall x, x <> current -> h3 !! x = h2 !! x) by (intros x X; apply lookup_insert_ne; congruence).
      assert (KN2 : length (a' :: K2) <= length K).
      { apply NoDup_incl_length; [apply NoDup_ListNoDup; exact R2|exact R3]. }
      destruct (IH a' child K2 h3 freed2 L0 T0 I3) as (h4 & freed4 & -> & I4 & N4 & T4); auto; try lia.
      { eapply chain_off; [|exact R1]. intros x X. apply O3. intros ->. apply NK, R3, X. }
      { intros t X. destruct (KE t X) as (A & nd1 & E1 & S). split; [exact A|]. exists nd1. split; [rewrite O3, OT2; [exact E1|exact X|intros ->; contradiction]|exact S]. }
      exists h4, freed4. split; [reflexivity|]. split; [exact I4|]. split; [lia|]. intros t X. rewrite T4 by exact X. rewrite O3 by (intros ->; contradiction). apply OT2, X.
    + destruct R as (R1 & R2).
      destruct (drop_shared current h2 freed2 _ L0 _ nd R1 Ec2) as (-> & I3 & N3).
      { lia. } { intros y. apply cnt1. }
      eexists _, freed2. split; [reflexivity|]. split; [exact I3|]. split; [lia|]. intros t X. rewrite lookup_insert_ne by (intros ->; contradiction). apply OT2, X.
Qed.

Lemma main_spec p h freed L0 T0 : inv h freed (p :: L0) T0 -> kept h L0 T0 -> nslots h < N ->
  exists h' freed', main_deep_safe_drop D N p (h, freed) = Fine (h', freed') /\ inv h' freed' L0 T0 /\ nslots h' <= nslots h /\ (forall t, In t T0 -> h' !! t = h !! t).
Proof.
  intros I KE FN. unfold main_deep_safe_drop, get. cbn [fst snd].
  assert (IC : is_Some (h !! p)) by (apply (i_tgt _ _ _ _ _ _ I); rewrite cnt1, cnt_self; lia). destruct IC as (nd & Ep). rewrite Ep. cbn [dbind].
  destruct (i_count _ _ _ _ _ _ I p nd Ep) as (SC & SP & W). rewrite cnt1, cnt_self in SC.
  unfold unique. rewrite W. cbn [negb]. rewrite andb_true_r. destruct (Nat.eqb_spec (strong nd) 1) as [S1|S1].
  - assert (NT0 : ~ In p T0) by (intros X; destruct (KE _ X) as (Y & _); apply cnt_in in Y; lia).
    destruct (i_same _ _ _ _ _ _ I p nd Ep NT0) as (WF & _). unfold take_first_child. rewrite WF. destruct (slots nd) as [|first cs] eqn:ES.
    + destruct (drop_leaf p h freed (p :: L0) L0 T0 nd I Ep S1) as (-> & I1).
      { unfold owned. rewrite WF. exact ES. } { intros y. apply cnt1. }
      exists (delete p h), (freed ++ [p]). split; [reflexivity|]. split; [exact I1|]. split; [rewrite (nslots_delete h p nd Ep); lia|].
      intros t X. apply lookup_delete_ne. intros ->. contradiction.
    + set (nd' := mkNode (strong nd) (weak nd) (first :: cs) true). unfold put; cbn [fst snd].
      pose proof (nslots_update h p nd nd' Ep) as U. rewrite ES in U. cbn [nd' slots length] in U.
      assert (O1 : forall x, x <> p -> <[p := nd']> h !! x = h !! x) by (intros x X; apply lookup_insert_ne; congruence).
      destruct (loop_spec N p first [] (<[p := nd']> h) freed L0 T0) as (h3 & freed3 & -> & I3 & N3 & T3).
      * eapply inv_move; [exact I|exact Ep|reflexivity|reflexivity| |left; reflexivity|right; assumption]. intros y. unfold owned. rewrite WF, ES. cbn [nd' without_first slots tail].
        rewrite !cnt2, (cnt1 p L0), (cnt1 first cs). lia.
      * exists nd'. split; [apply lookup_insert|]. split; [exact S1|]. split; [exact W|]. split; [reflexivity|discriminate].
      * apply NoDup_singleton.
      * intros x [<-|[]]. exact NT0.
      * intros t X. destruct (KE t X) as (A & nd1 & E1 & S). split; [exact A|]. exists nd1. split; [rewrite O1; [exact E1|intros ->; contradiction]|exact S].
      * cbn [length]. lia.
      * lia.
      * exists h3, freed3. split; [reflexivity|]. split; [exact I3|]. split; [lia|]. intros t X. rewrite T3 by exact X. apply O1. intros ->. contradiction.
  - destruct (drop_shared p h freed _ L0 _ nd I Ep) as (-> & I3 & N3). { lia. } { intros y. apply cnt1. }
    eexists _, freed. split; [reflexivity|]. split; [exact I3|]. split; [lia|]. intros t X. apply lookup_insert_ne. intros ->.
    destruct (KE t X) as (_ & nd1 & E1 & S). rewrite Ep in E1. injection E1 as <-. lia.
Qed.

(** A reference of a cell that is being destroyed. *)
Lemma next_spec x L0 k : forall h freed nd, In x L0 -> inv h freed L0 [x] -> h !! x = Some nd -> strong nd = 1 -> without_first nd = true -> length (slots nd) <= S k -> nslots h < N ->
  exists h' freed' nd', drop_next D N k x (h, freed) = Fine (h', freed') /\ inv h' freed' L0 [x] /\ nslots h' <= nslots h /\
    h' !! x = Some nd' /\ strong nd' = 1 /\ owned nd' = [].
Proof.
  induction k as [|k IH]; intros h freed nd IX I Ex S1 WF LE FN.
  - exists h, freed, nd. split; [reflexivity|]. split; [exact I|]. split; [lia|]. split; [exact Ex|]. split; [exact S1|].
    unfold owned. rewrite WF. destruct (slots nd) as [|c [|c' cs]]; cbn in *; try reflexivity. lia.
  - cbn [drop_next]. unfold get. cbn [fst snd]. rewrite Ex. cbn [dbind]. unfold take_next_child. destruct (slots nd) as [|c [|c' cs]] eqn:ES.
    + exists h, freed, nd. repeat (split; [solve [eauto]|]). unfold owned. rewrite WF, ES. reflexivity.
    + exists h, freed, nd. repeat (split; [solve [eauto]|]). unfold owned. rewrite WF, ES. reflexivity.
    + set (child := List.last (c' :: cs) 0). set (nd' := mkNode (strong nd) (weak nd) (c :: removelast (c' :: cs)) (without_first nd)). unfold put; cbn [fst snd].
      pose proof (nslots_update h x nd nd' Ex) as U. rewrite ES in U. cbn [nd' slots length] in U. rewrite length_removelast in U.
      destruct (main_spec child (<[x := nd']> h) freed L0 [x]) as (h1 & freed1 & -> & I1 & N1 & T1).
      { eapply inv_move; [exact I|exact Ex|reflexivity|reflexivity| |left; reflexivity|auto]. intros y. unfold owned. rewrite ES. cbn [nd' without_first slots]. rewrite WF. cbn [tail].
        pose proof (last_cnt c' cs y) as LC. fold child in LC. rewrite (cnt1 child L0). lia. }
      { intros t [<-|[]]. split; [exact IX|]. exists nd'. split; [apply lookup_insert|exact S1]. }
      { lia. }
      cbn [dbind]. specialize (T1 x (or_introl eq_refl)). rewrite lookup_insert in T1.
      destruct (IH h1 freed1 nd' IX I1 T1 S1 WF) as (h2 & freed2 & nd2 & -> & I2 & N2 & E2 & S2 & O2).
      { cbn [nd' slots length]. rewrite length_removelast. cbn [length] in LE. lia. } { lia. }
      exists h2, freed2, nd2. split; [reflexivity|]. split; [exact I2|]. split; [lia|]. auto.
Qed.
Lemma field_spec x h freed L0 : inv h freed (x :: L0) [] -> nslots h < N ->
  exists h1 freed1 h' freed', deep_drop_impl D N x (h, freed) = Fine (h1, freed1) /\ D x (h1, freed1) = Fine (h', freed') /\ inv h' freed' L0 [] /\ nslots h' <= nslots h.
Proof.
  intros I FN. unfold deep_drop_impl, get. cbn [fst snd].
  assert (IC : is_Some (h !! x)) by (apply (i_tgt _ _ _ _ _ _ I); rewrite cnt1, cnt_self; lia). destruct IC as (nd & Ex). rewrite Ex. cbn [dbind].
  destruct (i_count _ _ _ _ _ _ I x nd Ex) as (SC & SP & W). rewrite cnt1, cnt_self in SC.
  destruct (i_same _ _ _ _ _ _ I x nd Ex) as (WF & _); [intros []|].
  unfold unique. rewrite W. cbn [negb]. rewrite andb_true_r. destruct (Nat.eqb_spec (strong nd) 1) as [S1|S1].
  - unfold take_first_child. rewrite WF. destruct (slots nd) as [|first cs] eqn:ES.
    + destruct (drop_leaf x h freed (x :: L0) L0 [] nd I Ex S1) as (E & I1).
      { unfold owned. rewrite WF. exact ES. } { intros y. apply cnt1. }
      exists h, freed, (delete x h), (freed ++ [x]). split; [reflexivity|]. split; [exact E|]. split; [exact I1|]. rewrite (nslots_delete h x nd Ex). lia.
    + set (nd' := mkNode (strong nd) (weak nd) (first :: cs) true). unfold put; cbn [fst snd].
      pose proof (nslots_update h x nd nd' Ex) as U. rewrite ES in U. cbn [nd' slots length] in U.
      destruct (main_spec first (<[x := nd']> h) freed (x :: L0) [x]) as (h1 & freed1 & -> & I1 & N1 & T1).
      { eapply inv_move; [exact I|exact Ex|reflexivity|reflexivity| |left; reflexivity|intros ? []]. intros y. unfold owned. rewrite WF, ES. cbn [nd' without_first slots tail].
        rewrite !cnt2, (cnt1 x L0), (cnt1 first cs). lia. }
      { intros t [<-|[]]. split; [left; reflexivity|]. exists nd'. split; [apply lookup_insert|exact S1]. }
      { lia. }
      cbn [dbind]. specialize (T1 x (or_introl eq_refl)). rewrite lookup_insert in T1.
      destruct (next_spec x (x :: L0) (length (first :: cs)) h1 freed1 nd' (or_introl eq_refl) I1 T1 S1 eq_refl) as (h2 & freed2 & nd2 & -> & I2 & N2 & E2 & S2 & O2).
      { cbn. lia. } { lia. }
      destruct (drop_leaf x h2 freed2 (x :: L0) L0 [x] nd2 I2 E2 S2 O2) as (E & I3). { intros y. apply cnt1. }
      exists h2, freed2, (delete x h2), (freed2 ++ [x]). split; [reflexivity|]. split; [exact E|]. split.
      * eapply inv_less; [|exact I3]. intros y [<-|[]] [n Y]. rewrite lookup_delete in Y. discriminate.
      * rewrite (nslots_delete h2 x nd2 E2) in N2. lia.
  - destruct (drop_shared x h freed _ L0 _ nd I Ex) as (E & I3 & N3). { lia. } { intros y. apply cnt1. }
    eexists h, freed, _, freed. split; [reflexivity|]. split; [exact E|]. split; [exact I3|lia].
Qed.
Lemma fields_spec l : forall h freed L0, inv h freed (l ++ L0) [] -> nslots h < N ->
  exists h' freed', drop_fields D N l (h, freed) = Fine (h', freed') /\ inv h' freed' L0 [].
Proof.
  induction l as [|x l IH]; intros h freed L0 I FN; [exists h, freed; auto|]. cbn [app] in I. cbn [drop_fields].
  destruct (field_spec x h freed (l ++ L0) I FN) as (h1 & freed1 & h2 & freed2 & -> & E & I2 & N2). cbn [dbind]. rewrite E. cbn [dbind].
  apply IH; [exact I2|lia].
Qed.
End Heap.
