(** * Counting visits every cell once. *)
From Verif Require Import Err BuilderModel CellModel HashSpec HashModel FcellSpec StatModel StatSpec
  BitsProofs HashProofs HashProofs2 MerkleProofs3.
Local Open Scope nat_scope.

Lemma reach_trans x y z : reach x y -> reach y z -> reach x z.
Proof. intros A B. induction B as [|? ? ? I B IH]; [exact A|]. eapply reach_child; [exact I|auto]. Qed.
Lemma total_bits_app a b : total_bits (a ++ b) = (total_bits a + total_bits b)%N.
Proof. induction a as [|x a IH]; cbn; [reflexivity|]. fold (total_bits (a ++ b)). fold (total_bits a). lia. Qed.
Lemma total_bits_perm a b : a ≡ₚ b -> total_bits a = total_bits b.
Proof. induction 1; cbn in *; unfold total_bits in *; cbn; try lia. Qed.
Lemma incl_total vis l : NoDup vis -> (forall x, In x vis -> In x l) -> (total_bits vis <= total_bits l)%N /\ length vis <= length l.
Proof.
  intros ND I. assert (S : vis ⊆+ l).
  { apply NoDup_submseteq; [exact ND|]. intros x. rewrite !elem_of_list_In. apply I. }
  split; [|apply submseteq_length; exact S].
  apply submseteq_Permutation in S. destruct S as (k & ->%total_bits_perm). rewrite total_bits_app. lia.
Qed.
Lemma same_elems vis l : NoDup vis -> NoDup l -> (forall x, In x vis <-> In x l) -> (total_bits vis = total_bits l)%N /\ length vis = length l.
Proof.
  intros A B I. destruct (incl_total vis l A) as (? & ?); [intros x X; apply I; exact X|].
  destruct (incl_total l vis B) as (? & ?); [intros x X; apply I; exact X|]. lia.
Qed.

Section Sha.
Context (sha : list N -> list N) (Hsha : sha_like sha).
(** All the roots of a history, the list of their cells, and the bits of the slices. *)
Context (R : list cell) (HD : hashes_differ sha R) (l : list cell) (DL : distinct R l).

Definition known (x : cell) : Prop := exists r, In r R /\ reach x r.
Definition on_stack (st : list (list fcell)) (x : cell) : Prop := exists it c, In it st /\ In c it /\ tree_of c = x.
Record inv (P : list cell) (base : N) (s : stat) (vis : list cell) : Prop := {
  iv_nodup : NoDup vis;
  iv_set : visited s = list_to_set (map (t_hash sha) vis);
  iv_bits : bit_count s = (base + total_bits vis)%N;
  iv_cells : cell_count s = N.of_nat (length vis);
  iv_known : forall x, In x vis -> exists r, In r P /\ reach x r;
  iv_roots : forall r, In r P -> known r;
  iv_fin : forall it c, In it (stack s) -> In c it -> finalized sha c /\ (exists r, In r P /\ reach (tree_of c) r);
  iv_closed : forall x y, In x vis -> In y (c_refs x) -> In y vis \/ on_stack (stack s) y;
  iv_start : forall r, In r P -> In r vis \/ on_stack (stack s) r
}.

Lemma in_visited vis x : known x -> (forall y, In y vis -> known y) ->
  (t_hash sha x ∈ (list_to_set (map (t_hash sha) vis) : gset (list N)) <-> In x vis).
Proof.
  intros K V. rewrite elem_of_list_to_set, elem_of_list_In, in_map_iff. split.
  - intros (y & E & I). replace x with y; [exact I|]. destruct K as (r & Ir & Rr), (V y I) as (r' & Ir' & Rr'). apply (HD y x r' r); assumption.
  - intros I. eauto.
Qed.
Lemma known_P P x : (forall r, In r P -> known r) -> (exists r, In r P /\ reach x r) -> known x.
Proof. intros H (r & I & X). destruct (H r I) as (r' & I' & X'). exists r'. split; [exact I'|eapply reach_trans; eassumption]. Qed.

(** What a run of the loop gives. *)
Definition outcome (P : list cell) (base : N) (n0 : nat) (lim : N) (r : res (bool * stat)) : Prop :=
  exists ok s' vis', r = Ok (ok, s') /\ limit s' = lim /\
    if ok then inv P base s' vis' /\ stack s' = [] /\ n0 <= length vis' /\ (length vis' = n0 \/ (N.of_nat (length vis') <= lim)%N)
    else exists x, NoDup (x :: vis') /\ (forall y, In y (x :: vis') -> exists r, In r P /\ reach y r) /\ (lim <= N.of_nat (length vis'))%N.

Lemma tree_size_pos c : 2 <= tree_size c.
Proof. destruct c. cbn. lia. Qed.
Lemma tree_size_eq c : tree_size c = S (S (list_sum (map tree_size (f_refs c)))).
Proof. destruct c. reflexivity. Qed.

Lemma stack_size_cons it st : stack_size (it :: st) = S (list_sum (map tree_size it)) + stack_size st.
Proof. reflexivity. Qed.
Lemma sizes_cons c it : list_sum (map tree_size (c :: it)) = tree_size c + list_sum (map tree_size it).
Proof. reflexivity. Qed.

Lemma reduce_spec P base fuel : forall s vis n0, inv P base s vis -> n0 <= length vis -> (length vis = n0 \/ (N.of_nat (length vis) <= limit s)%N) ->
  (base + total_bits l < 2 ^ 64)%N -> (N.of_nat (length l) < 2 ^ 64)%N ->
  stack_size (stack s) < fuel -> outcome P base n0 (limit s) (reduce_stack fuel s).
Proof.
  induction fuel as [|fuel IH]; intros s vis n0 I N0 NL HB HC F; [lia|]. cbn [reduce_stack]. change (2 ^ 64)%N with 18446744073709551616%N in *.
  destruct (stack s) as [|[|c it] st] eqn:ES.
  - exists true, s, vis. split; [reflexivity|]. auto.
  - change (limit s) with (limit (mkStat (visited s) st (bit_count s) (cell_count s) (limit s))). apply (IH _ vis); cbn [limit stack]; auto.
    2:{ rewrite stack_size_cons in F. lia. }
    destruct I as [I1 I2 I3 I4 I5 I6 I7 I8 I9]; split; cbn [visited stack bit_count cell_count]; auto.
    + rewrite ES in I7. intros it c X Y. apply (I7 it c); [right; exact X|exact Y].
    + intros x y X Y. destruct (I8 x y X Y) as [|(it & c & A & B & C)]; [auto|]. right. rewrite ES in A. destruct A as [<-|A]; [destruct B|]. exists it, c. auto.
    + intros r X. destruct (I9 r X) as [|(it & c & A & B & C)]; [auto|]. right. rewrite ES in A. destruct A as [<-|A]; [destruct B|]. exists it, c. auto.
  - pose proof I as I'. destruct I as [I1 I2 I3 I4 I5 I6 I7 I8 I9]. rewrite ES in *.
    destruct (I7 (c :: it) c (or_introl eq_refl) (or_introl eq_refl)) as (Fc & Kc).
    rewrite (fin_hash sha Hsha c Fc). cbn [rbind].
    assert (FI : forall c', In c' it -> finalized sha c' /\ (exists r, In r P /\ reach (tree_of c') r)).
    { intros c' X. apply (I7 (c :: it) c' (or_introl eq_refl) (or_intror X)). }
    assert (FS : forall it' c', In it' st -> In c' it' -> finalized sha c' /\ (exists r, In r P /\ reach (tree_of c') r)).
    { intros it' c' X. apply (I7 it' c'). right. exact X. }
    assert (FR : forall it' c', In it' (it :: st) -> In c' it' -> finalized sha c' /\ (exists r, In r P /\ reach (tree_of c') r)).
    { intros it' c' [<-|X] Y; eauto. }
    assert (V : t_hash sha (tree_of c) ∈ visited s <-> In (tree_of c) vis).
    { rewrite I2. apply in_visited; [exact (known_P P _ I6 Kc)|]. intros y Y. apply (known_P P _ I6), I5, Y. }
    assert (OS : forall x, on_stack ((c :: it) :: st) x -> x = tree_of c \/ on_stack (it :: st) x).
    { intros x (it' & c' & [<-|A] & B & C).
      - destruct B as [<-|B]; [left; congruence|]. right. exists it, c'. split; [left; reflexivity|]. auto.
      - right. exists it', c'. split; [right; exact A|]. auto. }
    pose proof (tree_size_pos c) as TP. rewrite stack_size_cons, sizes_cons in F.
    destruct (decide _) as [D|D].
    + apply V in D. change (limit s) with (limit (mkStat (visited s) (it :: st) (bit_count s) (cell_count s) (limit s))). apply (IH _ vis); cbn [limit stack]; auto.
      2:{ rewrite stack_size_cons. lia. }
      split; cbn [visited stack bit_count cell_count]; auto.
      * intros x y X Y. destruct (I8 x y X Y) as [|O]; [auto|]. destruct (OS y O) as [->|O']; auto.
      * intros r X. destruct (I9 r X) as [|O]; [auto|]. destruct (OS r O) as [->|O']; auto.
    + assert (NV : ~ In (tree_of c) vis) by (intros X; apply D, V, X).
      assert (ND : NoDup (tree_of c :: vis)) by (constructor; [rewrite elem_of_list_In|]; assumption).
      assert (KV : forall y, In y (tree_of c :: vis) -> exists r, In r P /\ reach y r) by (intros y [<-|Y]; auto).
      assert (SUB : (total_bits (tree_of c :: vis) <= total_bits l)%N /\ length (tree_of c :: vis) <= length l).
      { apply incl_total; [exact ND|]. intros y Y. apply DL. apply (known_P P _ I6), KV, Y. }
      destruct SUB as (SB & SL). cbn [length] in SL. unfold total_bits in SB. cbn [fold_right] in SB. fold (total_bits vis) (total_bits l) in SB.
      destruct (N.leb_spec (limit s) (cell_count s)) as [LE|LE].
      { exists false, (mkStat ({[t_hash sha (tree_of c)]} ∪ visited s) (it :: st) (bit_count s) (cell_count s) (limit s)), vis. split; [reflexivity|]. split; [reflexivity|].
        exists (tree_of c). rewrite I4 in LE. auto. }
      destruct (fin_facts sha c Fc) as (bits & ET & _ & EL & _ & FRc & _). rewrite ET in SB. cbn [c_bits] in SB.
      unfold add64. change (2 ^ 64)%N with 18446744073709551616%N. rewrite EL, I3, I4.
      destruct (N.ltb_spec (base + total_bits vis + N.of_nat (length bits)) 18446744073709551616) as [_|X]; [|lia]. cbn [rbind].
      destruct (N.ltb_spec (N.of_nat (length vis) + 1) 18446744073709551616) as [_|X]; [|lia]. cbn [rbind].
      set (st' := if 0 <? length (f_refs c) then f_refs c :: it :: st else it :: st).
      change (limit s) with (limit (mkStat ({[t_hash sha (tree_of c)]} ∪ visited s) st' (base + total_bits vis + N.of_nat (length bits)) (N.of_nat (length vis) + 1) (limit s))).
      assert (OS' : forall x, on_stack (it :: st) x -> on_stack st' x).
      { intros x (it' & c' & A & B). exists it', c'. split; [|exact B]. unfold st'. destruct (_ <? _); [right; exact A|exact A]. }
      assert (CH : forall y, In y (c_refs (tree_of c)) -> on_stack st' y).
      { intros y Y. rewrite ET in Y. cbn [c_refs] in Y. apply in_map_iff in Y. destruct Y as (z & <- & Z). exists (f_refs c), z.
        split; [|auto]. unfold st'. destruct (f_refs c); [destruct Z|]. left. reflexivity. }
      apply (IH _ (tree_of c :: vis)); cbn [limit stack length]; auto; try lia.
      2:{ unfold st'. rewrite tree_size_eq in F. destruct (0 <? length (f_refs c)); rewrite !stack_size_cons; lia. }
      split; cbn [visited stack bit_count cell_count]; auto.
      * rewrite I2. cbn [map list_to_set]. reflexivity.
      * unfold total_bits. cbn [fold_right]. fold (total_bits vis). rewrite ET. cbn [c_bits]. lia.
      * cbn [length]. lia.
      * intros it' c' X Y. unfold st' in X. destruct (0 <? length (f_refs c)); [destruct X as [<-|X]|]; [|apply (FR it' c' X Y)|apply (FR it' c' X Y)].
        rewrite List.Forall_forall in FRc. split; [auto|]. destruct Kc as (r & Ir & Rr). exists r. split; [exact Ir|]. eapply reach_trans; [|exact Rr].
        eapply reach_child; [|constructor]. rewrite ET. cbn [c_refs]. apply in_map. exact Y.
      * intros x y [<-|X] Y; [right; apply CH; exact Y|]. destruct (I8 x y X Y) as [|O]; [left; right; auto|]. destruct (OS y O) as [->|O']; [left; left; reflexivity|auto].
      * intros r X. destruct (I9 r X) as [|O]; [left; right; auto|]. destruct (OS r O) as [->|O']; [left; left; reflexivity|auto].
Qed.
End Sha.
