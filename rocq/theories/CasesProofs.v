(** * Enumerations and values in cells of their own *)
From Verif Require Import Err BitsProofs IntModel NumModel CellModel DictModel ChunkModel LazyModel ChunkSpec ChunkProofs LayoutProofs
  DeriveModel DeriveSpec StructsModel StructsSpec StructsProofs CasesSpec TxModel.
Local Open Scope N_scope.

Lemma lawful_intro {A} (c : codec A) (l : layout A) :
  (forall a, w_ok l a -> exists x, w_write l a x) ->
  (forall a x, w_write l a x -> appends (c_store c a) x) ->
  reads_layout (c_load c) (w_read l) ->
  (forall a x, w_write l a x -> w_read l a x) ->
  (forall a x, w_write l a x -> (length (fst x) <= w_bits l)%nat /\ (length (snd x) <= w_refs l)%nat) -> lawful c l.
Proof. intros H1 H2 H3 H4 H5. constructor; try assumption; intros a x H; apply (H5 a x H). Qed.
(** What a layout has to satisfy apart from the codec. *)
Record proper {A} (l : layout A) : Prop := Proper' {
  pr_ok : forall a, w_ok l a -> exists x, w_write l a x;
  pr_same : forall a x, w_write l a x -> w_read l a x;
  pr_bits : forall a x, w_write l a x -> (length (fst x) <= w_bits l)%nat;
  pr_refs : forall a x, w_write l a x -> (length (snd x) <= w_refs l)%nat
}.
Lemma lawful_proper {A} (c : codec A) l : lawful c l -> proper l.
Proof. intros L. constructor; apply L. Qed.
Lemma proper_lawful {A} (c : codec A) l : proper l -> (forall a x, w_write l a x -> appends (c_store c a) x) -> reads_layout (c_load c) (w_read l) -> lawful c l.
Proof. intros P S R. constructor; try assumption; apply P. Qed.
Lemma proper_end : proper end_w.
Proof. constructor; cbn; [intros; eexists; reflexivity|auto|intros a x ->; apply le_n|intros a x ->; apply le_n]. Qed.
Lemma proper_seq {A B} (a : layout A) (b : layout B) : proper a -> proper b -> proper (seq_w a b).
Proof.
  intros P Q. constructor; cbn [seq_w w_ok w_write w_read w_bits w_refs].
  - intros v [H1 H2]. destruct (pr_ok _ P _ H1) as (x & X), (pr_ok _ Q _ H2) as (y & Y). exists (capp x y), x, y. auto.
  - intros v x (y & z & -> & Y & Z). exists y, z. split; [reflexivity|]. split; [exact (pr_same _ P _ _ Y)|exact (pr_same _ Q _ _ Z)].
  - intros v x (y & z & -> & Y & Z). unfold capp. cbn [fst]. rewrite app_length. pose proof (pr_bits _ P _ _ Y). pose proof (pr_bits _ Q _ _ Z). lia.
  - intros v x (y & z & -> & Y & Z). unfold capp. cbn [snd]. rewrite app_length. pose proof (pr_refs _ P _ _ Y). pose proof (pr_refs _ Q _ _ Z). lia.
Qed.
Lemma proper_tag {A} n t (l : layout A) : proper l -> proper (tag_w n t l).
Proof.
  intros P. constructor; cbn [tag_w w_ok w_write w_read w_bits w_refs].
  - intros v H. destruct (pr_ok _ P _ H) as (x & X). exists (capp (nbits n t, []) x), x. auto.
  - intros v x (y & -> & Y). exists y. split; [reflexivity|exact (pr_same _ P _ _ Y)].
  - intros v x (y & -> & Y). unfold capp. cbn [fst]. rewrite app_length, length_nbits. pose proof (pr_bits _ P _ _ Y). lia.
  - intros v x (y & -> & Y). exact (pr_refs _ P _ _ Y).
Qed.
Lemma proper_maybe {A} (l : layout A) : proper l -> proper (maybe_w l).
Proof.
  intros L. constructor; cbn [maybe_w w_ok w_write w_read w_bits w_refs].
  - intros [a|] H; [destruct (pr_ok _ L a H) as (x & Hx)|]; eexists; constructor; exact Hx.
  - intros a x [|b y H]; constructor. exact (pr_same _ L _ _ H).
  - intros a x [|b y H]; unfold capp; cbn [fst app length]; [lia|]. pose proof (pr_bits _ L _ _ H). lia.
  - intros a x [|b y H]; unfold capp; cbn [snd app length]; [lia|]. exact (pr_refs _ L _ _ H).
Qed.
Lemma proper_as {A B} (f : A -> B) l : proper l -> proper (as_w f l).
Proof.
  intros P. constructor; cbn [as_w w_ok w_write w_read w_bits w_refs]; intros a.
  - apply (pr_ok _ P).
  - apply (pr_same _ P).
  - apply (pr_bits _ P).
  - apply (pr_refs _ P).
Qed.
Lemma proper_such {A} (Q : A -> Prop) l : proper l -> proper (such_w Q l).
Proof.
  intros P. constructor; cbn [such_w w_ok w_write w_read w_bits w_refs].
  - intros a [H1 H2]. destruct (pr_ok _ P _ H1) as (x & X). exists x. auto.
  - intros a x [H1 H2]. split; [exact H1|exact (pr_same _ P _ _ H2)].
  - intros a x [H1 H2]. exact (pr_bits _ P _ _ H2).
  - intros a x [H1 H2]. exact (pr_refs _ P _ _ H2).
Qed.
Lemma proper_cases {A} (f : A -> branch) bits refs :
  (forall a, proper (br_layout (f a)) /\ (length (br_prefix (f a)) + w_bits (br_layout (f a)) <= bits)%nat /\ (w_refs (br_layout (f a)) <= refs)%nat) -> proper (cases_w f bits refs).
Proof.
  intros P. constructor; cbn [cases_w w_ok w_write w_read w_bits w_refs]; intros a; destruct (P a) as (Q & B & R).
  - intros H. destruct (pr_ok _ Q _ H) as (x & X). eexists _, x. split; [reflexivity|exact X].
  - intros x (y & -> & Y). exists y. split; [reflexivity|exact (pr_same _ Q _ _ Y)].
  - intros x (y & -> & Y). unfold capp. cbn [fst]. rewrite app_length. pose proof (pr_bits _ Q _ _ Y). lia.
  - intros x (y & -> & Y). pose proof (pr_refs _ Q _ _ Y). unfold capp. cbn [snd app]. lia.
Qed.

(** ** Cells of their own *)
Section Fin.
Context (fin : list bool -> list cell -> res unit).
Lemma proper_in_cell {A} (l : layout A) : proper l -> proper (in_cell_w fin l).
Proof.
  intros P. constructor; cbn [in_cell_w w_ok w_write w_read w_bits w_refs].
  - intros a [H F]. destruct (pr_ok _ P _ H) as (y & Y). eexists _, y. split; [reflexivity|]. auto.
  - intros a x (y & -> & Y & F). exists y, ([], []). rewrite capp_nil. split; [reflexivity|exact (pr_same _ P _ _ Y)].
  - intros a x (y & -> & _). cbn. lia.
  - intros a x (y & -> & _). cbn. lia.
Qed.
Lemma in_cell_ok s y : appends s y -> (length (fst y) <= 1023)%nat -> (length (snd y) <= 4)%nat -> fin (fst y) (snd y) = Ok tt -> in_cell fin s = Ok (Cell false (fst y) (snd y)).
Proof.
  intros S B R F. unfold in_cell. rewrite (S ([], [])) by (split; cbn; lia). cbn [fst snd length Nat.add].
  destruct (Nat.ltb_spec 1023 (length (fst y))); [lia|]. destruct (Nat.ltb_spec 4 (length (snd y))); [lia|]. cbn [orb rbind]. rewrite nil_capp.
  unfold build. rewrite F. reflexivity.
Qed.
(** Reading a referenced cell. *)
Definition cell_with {A} (L : A -> chunk -> Prop) (a : A) (x : chunk) : Prop := exists y rest, x = ([], [Cell false (fst (capp y rest)) (snd (capp y rest))]) /\ L a y.
Lemma reads_in_cell {A} (l : chunk -> res (A * chunk)) L : reads_layout l L ->
  reads_layout (fun b => let? (c, b) := load_ref b in let? a := from_cell l c in Ok (a, b)) (cell_with L).
Proof.
  intros H b a r. destruct b as [bits refs]. unfold load_ref. cbn [snd fst]. split.
  - destruct refs as [|c refs]; [discriminate|]. cbn [rbind]. unfold from_cell, as_slice. destruct c as [ex cb cr].
    cbn [c_exotic]. destruct ex; [discriminate|]. cbn [rbind]. unfold s_chunk. cbn [c_bits c_refs s_bits s_refs].
    match goal with |- context [l ?y] => destruct (l y) as [[a' r']|e] eqn:E end; [|discriminate]. cbn [rbind]. intros [= <- <-].
    apply H in E. destruct E as (y & Y & E). exists ([], [Cell false cb cr]). split; [|reflexivity]. exists y, r'. rewrite <- E. split; [reflexivity|exact Y].
  - intros (x & (y & rest & -> & Y) & E). destruct r as [rb rr]. unfold capp in E. cbn [fst snd app] in E. injection E as -> ->. cbn [rbind].
    unfold from_cell, as_slice. cbn [c_exotic rbind]. unfold s_chunk. cbn [s_bits s_refs c_bits c_refs].
    change (fst y ++ fst rest, snd y ++ snd rest) with (capp y rest). rewrite (reads_back _ _ _ _ rest H Y). reflexivity.
Qed.
End Fin.

(** ** Loading *)
Lemma reads_map {A B} (l : chunk -> res (A * chunk)) (g : A -> B) L : reads_layout l L -> reads_layout (fun b => let? (a, b) := l b in Ok (g a, b)) (fun c x => exists a, c = g a /\ L a x).
Proof.
  intros H b c r. split.
  - destruct (l b) as [[a r']|] eqn:E; [|discriminate]. cbn [rbind]. intros [= <- <-]. apply H in E. destruct E as (x & X & E). exists x. split; [exists a; auto|exact E].
  - intros (x & (a & -> & X) & ->). rewrite (reads_back _ _ _ _ r H X). reflexivity.
Qed.
(** One bit decides. *)
Lemma reads_bit {A} (l0 l1 : chunk -> res (A * chunk)) L0 L1 : reads_layout l0 L0 -> reads_layout l1 L1 ->
  reads_layout (fun b => let? (f, b) := load_bool b in if f : bool then l1 b else l0 b) (fun a x => exists f y, x = capp ([f], []) y /\ if f : bool then L1 a y else L0 a y).
Proof.
  intros H0 H1. eapply reads_equiv; [|eapply (reads_bind _ (fun f : bool => fun b => if f then l1 b else l0 b)); [apply reads_bool|intros f; apply (reads_if f); [exact H1|exact H0]]].
  intros a x. unfold then_c. split.
  - intros (f & y & z & B & C & ->). inversion B; subst. exists f, z. split; [reflexivity|exact C].
  - intros (f & y & -> & C). exists f, ([f], []), y. split; [constructor|]. split; [exact C|reflexivity].
Qed.
Lemma reads_tag {A} n (l : N -> chunk -> res (A * chunk)) L : (forall t, t < 2 ^ N.of_nat n -> reads_layout (l t) (L t)) ->
  reads_layout (fun b => let? (t, b) := load_un n b in l t b) (fun a x => exists t y, t < 2 ^ N.of_nat n /\ x = capp (nbits n t, []) y /\ L t a y).
Proof.
  intros H b a r. split.
  - destruct (load_un n b) as [[t b']|] eqn:E; [|discriminate]. cbn [rbind]. intros R. apply (reads_un n) in E. destruct E as (x & X & ->). inversion X; subst.
    apply (H t H0) in R. destruct R as (y & Y & ->). exists (capp (nbits n t, []) y). split; [exists t, y; auto|apply capp_assoc].
  - intros (x & (t & y & T & -> & Y) & ->). rewrite <- capp_assoc. rewrite (reads_back _ (uint_c n) t (nbits n t, []) _ (reads_un n)) by (constructor; exact T). cbn [rbind].
    exact (reads_back _ _ _ _ r (H t T) Y).
Qed.
(** Flags. *)
Definition flag (b : bool) : chunk := ([b], []).
Lemma flags2 v x : uint_c 2 v x <-> v = N.lor (N.shiftl (b2n (has v 2)) 1) (b2n (has v 1)) /\ x = capp (flag (has v 2)) (flag (has v 1)).
Proof.
  split.
  - intros [u H]. change (2 ^ N.of_nat 2) with 4 in H. assert (C : u = 0 \/ u = 1 \/ u = 2 \/ u = 3) by lia. destruct C as [->|[->|[->| ->]]]; split; reflexivity.
  - generalize (has v 2), (has v 1). intros p q [-> ->]. replace (capp (flag p) (flag q)) with (nbits 2 (N.lor (N.shiftl (b2n p) 1) (b2n q)), @nil cell) by (destruct p, q; reflexivity). constructor. destruct p, q; reflexivity.
Qed.
Lemma flags3 v x : uint_c 3 v x <-> v = N.lor (N.lor (N.shiftl (b2n (has v 4)) 2) (N.shiftl (b2n (has v 2)) 1)) (b2n (has v 1)) /\ x = capp (flag (has v 4)) (capp (flag (has v 2)) (flag (has v 1))).
Proof.
  split.
  - intros [u H]. change (2 ^ N.of_nat 3) with 8 in H. assert (C : u = 0 \/ u = 1 \/ u = 2 \/ u = 3 \/ u = 4 \/ u = 5 \/ u = 6 \/ u = 7) by lia.
    destruct C as [->|[->|[->|[->|[->|[->|[->| ->]]]]]]]; split; reflexivity.
  - generalize (has v 4), (has v 2), (has v 1). intros o p q [-> ->]. replace (capp (flag o) (capp (flag p) (flag q))) with (nbits 3 (N.lor (N.lor (N.shiftl (b2n o) 2) (N.shiftl (b2n p) 1)) (b2n q)), @nil cell) by (destruct o, p, q; reflexivity). constructor. destruct o, p, q; reflexivity.
Qed.
Lemma has_flags2 p q : let v := N.lor (N.shiftl (b2n p) 1) (b2n q) in has v 2 = p /\ has v 1 = q.
Proof. destruct p, q; split; reflexivity. Qed.
Lemma has_flags3 o p q : let v := N.lor (N.lor (N.shiftl (b2n o) 2) (N.shiftl (b2n p) 1)) (b2n q) in has v 4 = o /\ has v 2 = p /\ has v 1 = q.
Proof. destruct o, p, q; repeat split; reflexivity. Qed.
(** Numbers side by side. *)
Lemma uint_split n m v x : uint_c (n + m) v x <-> exists y z, x = capp y z /\ uint_c n (v / 2 ^ N.of_nat m) y /\ uint_c m (v mod 2 ^ N.of_nat m) z.
Proof.
  assert (Z : 2 ^ N.of_nat m <> 0) by (apply N.pow_nonzero; lia). split.
  - intros [u H]. exists (nbits n (u / 2 ^ N.of_nat m), []), (nbits m (u mod 2 ^ N.of_nat m), []). split; [|split].
    + unfold capp. cbn [fst snd app]. rewrite nbits_app, N.shiftr_div_pow2, nbits_mod by lia. reflexivity.
    + constructor. apply N.div_lt_upper_bound; [exact Z|]. rewrite <- N.pow_add_r. replace (N.of_nat m + N.of_nat n) with (N.of_nat (n + m)) by lia. exact H.
    + constructor. apply N.mod_lt. exact Z.
  - intros (y & z & -> & Hy & Hz). inversion Hy as [? Y]; subst. inversion Hz; subst. unfold capp. cbn [fst snd app]. rewrite nbits_mod, <- N.shiftr_div_pow2, <- nbits_app by lia. constructor.
    rewrite Nat2N.inj_add, N.pow_add_r. pose proof (N.div_mod v (2 ^ N.of_nat m) Z). pose proof (N.mod_lt v (2 ^ N.of_nat m) Z). nia.
Qed.
