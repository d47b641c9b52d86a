(** * Lazy values: proofs *)
From Verif Require Import Err CellModel DictModel ChunkModel ChunkSpec ChunkProofs MessageSpec LayoutProofs MessageProofs2 LazyModel LazySpec.
Local Open Scope N_scope.

Lemma appends_lazy e c x : lazy_c e c x -> appends (store_lazy c) x.
Proof. intros [d _]. apply appends_ref. Qed.
Lemma reads_lazy e : reads_layout (load_lazy e) (lazy_c e).
Proof.
  intros b a r. unfold load_lazy. split.
  - destruct (load_ref b) as [[x c]|] eqn:E; [|discriminate]. cbn [rbind]. unfold lazy_from_raw. destruct (Bool.eqb_spec (c_exotic x) e) as [H|H]; [|discriminate]. cbn [negb rbind]. intros [= <- <-].
    apply reads_ref in E. destruct E as (y & Hy & ->). inversion Hy; subst. eexists. split; [constructor; exact eq_refl|reflexivity].
  - intros (x & Hx & ->). destruct Hx as [c H]. rewrite (reads_back _ _ c _ r reads_ref (cell_intro c)). cbn [rbind]. unfold lazy_from_raw. rewrite H. destruct e; reflexivity.
Qed.
#[export] Hint Resolve appends_lazy : stores.
#[export] Hint Resolve reads_lazy : loads.

Lemma parse_iff {A} (l : chunk -> res (A * chunk)) L c a : reads_layout l L -> (parse l c = Ok a <-> holds_value any_tail L a c).
Proof.
  intros R. unfold parse. destruct c as [[|] b r]; unfold as_slice; cbn [c_exotic].
  - split; [discriminate|intros H; inversion H].
  - cbn [rbind]. unfold s_chunk. cbn [c_bits c_refs s_bits s_refs]. split.
    + destruct (l (b, r)) as [[a' t]|] eqn:E; [|discriminate]. cbn [rbind]. intros [= <-]. apply R in E. destruct E as (x & Hx & E). injection E as -> ->. constructor; [exact Hx|exact Logic.I].
    + intros H. inversion H as [a' x t Hx _]; subst. assert (E : l (fst x ++ fst t, snd x ++ snd t) = Ok (a, t)) by (apply R; exists x; split; [exact Hx|reflexivity]). rewrite E. reflexivity.
Qed.
Lemma build_from_ok {A} fin (L : A -> chunk -> Prop) a x s : appends s x -> L a x -> fits x -> fin (fst x) (snd x) = Ok tt ->
  exists c, lazy_new fin false s = Ok c /\ holds_value no_tail L a c.
Proof.
  intros Ha Hx Hf Hn. exists (Cell false (fst x) (snd x)). split.
  - unfold lazy_new, build_from. rewrite (appends_empty _ _ Ha Hf). cbn [rbind]. unfold build. rewrite Hn. reflexivity.
  - replace (Cell false (fst x) (snd x)) with (Cell false (fst x ++ []) (snd x ++ [])) by (rewrite !app_nil_r; reflexivity). apply (holds_value_intro no_tail L a x ([], [])); [exact Hx|reflexivity].
Qed.
