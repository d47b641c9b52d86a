(** * Building and changing typed dictionaries in bulk. *)
From Coq Require Import Sorting.Sorted.
From Verif Require Import Err BitsProofs CellModel DictModel DictSpec DictTree DictProofs DictProps BuildModel BuildProps ModifyModel ModifyProps TypedModel TypedSpec TypedProofs TypedProofs2 TypedBulkModel TypedBulkSpec.
Local Open Scope nat_scope.

(** ** Only the order of the given keys matters *)
Lemma build_loop_ext fin (o o' : list bool -> list bool -> comparison) n (P : list bool -> Prop) : (forall a b, P a -> P b -> o a b = o' a b) ->
  forall es prev st, Forall (fun e => P (fst e)) es -> match prev with Some p => P p | None => True end -> build_loop fin o n es prev st = build_loop fin o' n es prev st.
Proof.
  intros X. induction es as [|[k v] es IH]; intros prev st F Hp; [reflexivity|]. inversion F as [|? ? Fk Fs]; subst. cbn [fst] in Fk. cbn [build_loop].
  assert (Q : match prev with Some p => o k p | None => Gt end = match prev with Some p => o' k p | None => Gt end) by (destruct prev; [apply X; assumption|reflexivity]).
  rewrite Q. destruct (match prev with Some p => o' k p | None => Gt end); [apply IH; assumption|reflexivity|].
  destruct (m_reduce fin st k n) as [[lcp st']|e]; cbn [rbind]; [|reflexivity]. apply IH; assumption.
Qed.
Lemma modify_loop_ext {I V} (reduce : list I -> list bool -> nat -> res (nat * list I)) mk_leaf mk_denorm mk_node (o o' : list bool -> list bool -> comparison) (P : list bool -> Prop) root :
  (forall a b, P a -> P b -> o a b = o' a b) ->
  forall (es : list (list bool * res (option V))) prev stack st, Forall (fun e => P (fst e)) es -> match prev with Some p => P p | None => True end ->
  modify_loop reduce mk_leaf mk_denorm mk_node o root es prev stack st = modify_loop reduce mk_leaf mk_denorm mk_node o' root es prev stack st.
Proof.
  intros X. induction es as [|[k v] es IH]; intros prev stack st F Hp; [reflexivity|]. inversion F as [|? ? Fk Fs]; subst. cbn [fst] in Fk. cbn [modify_loop].
  assert (Q : match prev with Some p => o k p | None => Gt end = match prev with Some p => o' k p | None => Gt end) by (destruct prev; [apply X; assumption|reflexivity]).
  rewrite Q. destruct (match prev with Some p => o' k p | None => Gt end); [apply IH; assumption|reflexivity|].
  destruct v as [v|e]; cbn [rbind]; [|reflexivity].
  match goal with |- rbind ?a _ = _ => destruct a as [[[s stack'] st']|e]; cbn [rbind]; [|reflexivity] end.
  match goal with |- rbind ?a _ = _ => destruct a as [[stack'' st'']|e]; cbn [rbind]; [|reflexivity] end.
  apply IH; assumption.
Qed.
Lemma inserts_keys {V} (P : list bool -> Prop) (es : list (list bool * res (option V))) : Forall (fun e => P (fst e)) es -> Forall (fun e => P (fst e)) (fst (inserts es)).
Proof.
  induction es as [|[k v] es IH]; intros F; [constructor|]. inversion F as [|? ? Fk Fs]; subst. specialize (IH Fs). cbn [inserts].
  destruct v as [[v|]|e]; [|exact IH|constructor]. destruct (inserts es) as [l e]. constructor; assumption.
Qed.
Lemma dict_modify_ext fin (o o' : list bool -> list bool -> comparison) n (P : list bool -> Prop) d es : (forall a b, P a -> P b -> o a b = o' a b) ->
  Forall (fun e => P (fst e)) es -> dict_modify fin o n d es = dict_modify fin o' n d es.
Proof.
  intros X F. unfold dict_modify. destruct d as [root|].
  - rewrite (modify_loop_ext _ _ _ _ o o' P root X es None [] [] F Logic.I). reflexivity.
  - pose proof (inserts_keys P es F) as FI. destruct (inserts es) as [l e]. cbn [fst] in FI. rewrite (build_loop_ext fin o o' n P X l None [] FI Logic.I). reflexivity.
Qed.
Lemma sorted_image {A B} (R : A -> B -> Prop) (P : A -> A -> Prop) (Q : B -> B -> Prop) l l' : (forall x y x' y', R x y -> R x' y' -> P x x' -> Q y y') ->
  Forall2 R l l' -> Sorted P l -> Sorted Q l'.
Proof.
  intros X. induction 1 as [|x y l l' Hx F IH]; intros S; [constructor|]. inversion S as [|? ? S1 S2]; subst. constructor; [apply IH, S1|].
  destruct F as [|x' y' l l' Hx' F]; constructor. inversion S2; subst. eapply X; eassumption.
Qed.
Lemma sorted_flip {A B} (R : A -> B -> Prop) l l' : Forall2 R l l' -> Forall2 (fun y x => R x y) l' l.
Proof. induction 1; constructor; assumption. Qed.

Section Map.
Context {K V : Type} (E : EqDecision K) (kd : key_kind K) (ok : K -> Prop) (G : good_key kd ok).
Context (p : K -> Prop) (PO : forall k, p k -> ok k) (cmp : K -> K -> comparison) (O : bit_order kd p cmp).
Context (enc : V -> chunk) (load : chunk -> res (V * chunk)) (fin : list bool -> list cell -> res unit).
Notation n := (k_bits kd).
Notation typed_history := (typed_history E kd ok enc load fin).
Notation rep := (rep kd ok enc load).

Definition has_key (b : list bool) : Prop := exists k, p k /\ k_store kd k = Ok b.
Definition stored_as {A B} (g : A -> B) (x : K * A) (y : list bool * B) : Prop := p (fst x) /\ k_store kd (fst x) = Ok (fst y) /\ snd y = g (snd x).
Lemma compare_bits a b : has_key a -> has_key b -> bits_compare kd cmp a b = num_ord false a b.
Proof.
  intros (k & Hk & Sk) (k' & Hk' & Sk'). unfold bits_compare. rewrite (load_raw kd ok G k a (PO k Hk) Sk), (load_raw kd ok G k' b (PO k' Hk') Sk'). exact (O k k' a b Hk Hk' Sk Sk').
Qed.
Lemma store_all_ok {A B} (g : A -> B) l : Forall (fun x => p (fst x)) l -> exists es, store_all kd g l = Ok es /\ Forall2 (stored_as g) l es.
Proof.
  clear O. induction l as [|[k a] l IH]; intros F; [exists []; split; [reflexivity|constructor]|]. inversion F as [|? ? Fk Fs]; subst. cbn [fst] in Fk.
  destruct (good_store kd ok G k (PO k Fk)) as (b & Hb & _). destruct (IH Fs) as (es & Es & Ss). exists ((b, g a) :: es). cbn [store_all]. rewrite Hb. cbn [rbind]. rewrite Es. cbn [rbind].
  split; [reflexivity|]. constructor; [|exact Ss]. split; [exact Fk|]. split; [exact Hb|reflexivity].
Qed.
Lemma stored_has {A B} (g : A -> B) l es : Forall2 (stored_as g) l es -> Forall (fun e => has_key (fst e)) es.
Proof. induction 1 as [|x y l es (H1 & H2 & _) F IH]; constructor; [exists (fst x); auto|exact IH]. Qed.
Lemma stored_width {A B} (g : A -> B) l es : Forall2 (stored_as g) l es -> Forall (fun e => length (fst e) = n) es.
Proof.
  induction 1 as [|x y l es (H1 & H2 & _) F IH]; constructor; [|exact IH]. destruct (good_store kd ok G _ (PO _ H1)) as (b & Hb & Lb). congruence.
Qed.
Lemma typed_build_eq l es : Forall2 (stored_as enc) l es -> store_all kd enc l = Ok es -> typed_build kd cmp enc fin l = build_dict fin (num_ord false) n es.
Proof.
  intros F S. unfold typed_build. rewrite S. cbn [rbind]. unfold build_dict. rewrite (build_loop_ext fin _ (num_ord false) n has_key compare_bits es None []); [reflexivity| |exact Logic.I].
  exact (stored_has enc l es F).
Qed.
Lemma rep_listed l es : Forall2 (stored_as enc) l es -> Forall (fun x => value_ok enc load (snd x)) l -> rep (listed E l) (dmap es).
Proof.
  induction 1 as [|[k v] [b c] l es (H1 & H2 & H3) F IH]; intros W.
  - split; [|discriminate]. intros b c. cbn. rewrite lookup_empty. split; [discriminate|]. intros (k & v & _ & _ & X & _). discriminate.
  - inversion W as [|? ? W1 W2]; subst. cbn [fst snd] in *. subst c. exact (rep_insert E kd ok G enc load (listed E l) (dmap es) k b v (IH W2) (PO k H1) H2 W1).
Qed.
Lemma rep_ext f f' m : rep f m -> (forall k, f k = f' k) -> rep f' m.
Proof.
  intros [R1 R2] X. split; [|intros k v; rewrite <- X; apply R2]. intros b c. rewrite R1. split; intros (k & v & A & B & C & D); exists k, v; rewrite X in *; auto.
Qed.
Lemma rep_same f m m' : rep f m -> rep f m' -> m = m'.
Proof. intros R R'. apply map_eq. intros b. apply option_eq. intros c. rewrite (proj1 R b c), (proj1 R' b c). reflexivity. Qed.
Lemma get_rep d es f k : is_dict (canonical_dict fin) n d es -> rep f (dmap es) -> ok k -> typed_get kd load d k = Ok (f k).
Proof.
  intros D R Hk. destruct (good_store kd ok G k Hk) as (b & Hb & Lb). unfold typed_get. rewrite Hb. cbn [rbind].
  rewrite (C20_lookup_any n d es b (proj1 G) (weaken_dict fin n d es D) Lb). cbn [rbind]. rewrite (rep_lookup kd ok G enc load f _ k b R Hk Hb).
  destruct (f k) as [v|] eqn:F; cbn [option_map]; [|reflexivity]. destruct (proj2 R k v F) as [_ [rest ->]]. reflexivity.
Qed.

(** ** Changes *)
Lemma typed_modify_eq l : Forall (fun x => p (fst x)) l -> exists b, Forall2 (stored_as (option_map enc)) l b /\
  forall d, typed_modify kd cmp enc fin d l = dict_modify fin (num_ord false) n d (given b).
Proof.
  intros F. destruct (store_all_ok (option_map enc) l F) as (b & Sb & Fb). exists b. split; [exact Fb|]. intros d.
  assert (Sg : store_all kd (fun o => Ok (option_map enc o)) l = Ok (given b)).
  { clear F Fb O. revert b Sb. induction l as [|[k o] l IH]; intros b Sb; cbn [store_all] in *; [injection Sb as <-; reflexivity|].
    destruct (k_store kd k) as [x|]; cbn [rbind] in *; [|discriminate]. destruct (store_all kd (option_map enc) l) as [r|]; cbn [rbind] in *; [|discriminate].
    injection Sb as <-. rewrite (IH r eq_refl). reflexivity. }
  unfold typed_modify. rewrite Sg. cbn [rbind]. apply (dict_modify_ext fin _ _ n has_key d (given b) compare_bits).
  unfold given. apply Forall_map. cbn [fst]. exact (stored_has _ l b Fb).
Qed.
Lemma rep_changed l b : Forall2 (stored_as (option_map enc)) l b -> Forall (fun x => match snd x with Some v => value_ok enc load v | None => True end) l ->
  forall f m, rep f m -> rep (changed E f l) (fold_left apply_map b m).
Proof.
  induction 1 as [|[k o] [x c] l b (H1 & H2 & H3) F IH]; intros W f m R; [exact R|]. inversion W as [|? ? W1 W2]; subst. cbn [fst snd] in *. subst c. cbn [changed fold_left].
  apply (IH W2). unfold apply_map. cbn [fst snd]. destruct o as [v|]; cbn [option_map]; [apply rep_insert|apply rep_delete]; auto.
Qed.
Lemma stored_sorted l b : Forall2 (stored_as (option_map enc)) l b -> Sorted (fun x y => cmp (fst x) (fst y) = Lt) l -> strictly_sorted b.
Proof.
  intros F. apply (sorted_image (stored_as (option_map enc))); [|exact F]. intros x y x' y' (A1 & A2 & _) (B1 & B2 & _) L. rewrite (O _ _ _ _ A1 B1 A2 B2) in L. apply Z.compare_lt_iff, L.
Qed.
Lemma one_by_one_history l : Forall (fun x => p (fst x) /\ match snd x with Some v => value_ok enc load v | None => True end) l ->
  forall d f d', typed_history d f -> one_by_one kd enc load fin d l = Ok d' -> typed_history d' (changed E f l).
Proof.
  induction l as [|[k o] l IH]; intros W d f d' H C; [injection C as <-; exact H|]. inversion W as [|? ? [W1 W1'] W2]; subst. cbn [fst snd] in *. cbn [one_by_one changed] in C |- *. destruct o as [v|].
  - destruct (typed_set kd enc fin d k v) as [[flag d1]|] eqn:S; cbn [rbind] in C; [|discriminate]. eapply IH; [exact W2| |exact C].
    exact (th_insert _ _ _ _ _ _ d f k v MSet flag d1 H (PO k W1) W1' S).
  - destruct (typed_remove kd load fin d k) as [[x d1]|] eqn:S; cbn [rbind] in C; [|discriminate]. eapply IH; [exact W2| |exact C].
    exact (th_remove _ _ _ _ _ _ d f k x d1 H (PO k W1) S).
Qed.
End Map.
