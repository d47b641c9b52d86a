(** * C53: messages are stored in their layout and are read back from it *)
From Verif Require Import Err BitsProofs IntModel NumModel NumSpec NumProofs AddrModel AddrSpec AddrProofs CellModel DictModel ChunkModel ChunkSpec ChunkProofs CurrencyModel CurrencySpec CurrencyProps MessageModel MessageSpec LayoutProofs MessageProofs MessageProofs2.
Local Open Scope N_scope.

Lemma info_exact i x : info_c var_uint_bits i x -> chunk_size x = match i with MInt _ => (fst (info_size i) + 1, snd (info_size i)) | _ => info_size i end.
Proof.
  intros [j y H|j y H|j y H]; cbn [info_size fst snd].
  - apply (int_info_size int_tlb int_bit_len int_len), H.
  - apply ext_in_size, H.
  - apply (ext_out_size int_tlb int_bit_len int_len), H.
Qed.
Lemma relaxed_exact i x : relaxed_c var_uint_bits i x -> chunk_size x = match i with RInt _ => (fst (relaxed_size i) + 1, snd (relaxed_size i)) | _ => relaxed_size i end.
Proof.
  intros [j y H|j y H]; cbn [relaxed_size fst snd].
  - apply (int_info_size opt_int_tlb opt_int_bit_len opt_int_len), H.
  - apply (ext_out_size opt_int_tlb opt_int_bit_len opt_int_len), H.
Qed.
Lemma full_size_mono l a b i z : fst a <= fst b -> snd a = snd b -> fst (full_size l a i z) <= fst (full_size l b i z) /\ snd (full_size l a i z) = snd (full_size l b i z).
Proof. intros H1 H2. unfold full_size, detailed. destruct i, l as [[|] [|]]; cbn [fst snd init_to_cell body_to_cell]; lia. Qed.
Lemma full_size_succ l a i z : full_size l (fst a + 1, snd a) i z = (fst (full_size l a i z) + 1, snd (full_size l a i z)).
Proof. unfold full_size, detailed. destruct i, l as [[|] [|]]; cbn [fst snd init_to_cell body_to_cell]; f_equal; lia. Qed.

(** ** Storing with a given layout *)
(** A message whose cells are accepted is appended to whatever the builder holds, exactly as
    TL-B lays it out; it is refused only if it does not fit. *)
Theorem C53_store fin m x : message_c no_tail (info_c var_uint_bits) m x -> accepted fin m -> appends (store_msg fin m) x.
Proof.
  intros H A. apply (appends_message fin (info_c var_uint_bits) info_size store_info near_info m x H A). intros l El.
  assert (Hm : message_c no_tail (info_c var_uint_bits) (with_layout m l) x) by (destruct m as [? ? ? o]; cbn [m_layout] in El; subst o; exact H).
  destruct (m_info m) eqn:Ei.
  1: rewrite (message_size _ m l x (fst (info_size (MInt i)) + 1, snd (info_size (MInt i))) Hm) by (intros xi Hx; rewrite Ei in Hx; apply (info_exact _ _ Hx)).
  2,3: rewrite (message_size _ m l x (info_size (m_info m)) Hm) by (intros xi Hx; rewrite Ei in Hx |- *; apply (info_exact _ _ Hx)); rewrite Ei; split; reflexivity.
  destruct (full_size_mono l (info_size (MInt i)) (fst (info_size (MInt i)) + 1, snd (info_size (MInt i))) (m_init m) (slice_size (m_body m))) as [H1 H2]; [cbn [fst]; lia|reflexivity|]. rewrite H2. split; [exact H1|lia].
Qed.
Print Assumptions C53_store.
Theorem C53_store_relaxed fin m x : message_c no_tail (relaxed_c var_uint_bits) m x -> accepted fin m -> appends (store_relaxed_msg fin m) x.
Proof.
  intros H A. apply (appends_message fin (relaxed_c var_uint_bits) relaxed_size store_relaxed near_relaxed m x H A). intros l El.
  assert (Hm : message_c no_tail (relaxed_c var_uint_bits) (with_layout m l) x) by (destruct m as [? ? ? o]; cbn [m_layout] in El; subst o; exact H).
  destruct (m_info m) eqn:Ei.
  1: rewrite (message_size _ m l x (fst (relaxed_size (RInt i)) + 1, snd (relaxed_size (RInt i))) Hm) by (intros xi Hx; rewrite Ei in Hx; apply (relaxed_exact _ _ Hx)).
  2: rewrite (message_size _ m l x (relaxed_size (m_info m)) Hm) by (intros xi Hx; rewrite Ei in Hx |- *; apply (relaxed_exact _ _ Hx)); rewrite Ei; split; reflexivity.
  destruct (full_size_mono l (relaxed_size (RInt i)) (fst (relaxed_size (RInt i)) + 1, snd (relaxed_size (RInt i))) (m_init m) (slice_size (m_body m))) as [H1 H2]; [cbn [fst]; lia|reflexivity|]. rewrite H2. split; [exact H1|lia].
Qed.
Print Assumptions C53_store_relaxed.

(** ** Loading *)
(** Loading accepts exactly the layouts (with any notation of the amounts that fits, and with
    anything behind an init in a cell of its own); a body in place is all that is left. *)
Theorem C53_load b m r : load_msg b = Ok (m, r) <->
  exists x, message_c any_tail (info_c loose_var_uint_bits) m x /\ b = capp x r /\ (body_to_cell (default (Layout false false) (m_layout m)) = false -> r = ([], [])).
Proof. apply (load_message_iff (info_c loose_var_uint_bits) load_info reads_info). Qed.
Print Assumptions C53_load.
Theorem C53_load_relaxed b m r : load_relaxed_msg b = Ok (m, r) <->
  exists x, message_c any_tail (relaxed_c loose_var_uint_bits) m x /\ b = capp x r /\ (body_to_cell (default (Layout false false) (m_layout m)) = false -> r = ([], [])).
Proof. apply (load_message_iff (relaxed_c loose_var_uint_bits) load_relaxed reads_relaxed). Qed.
Print Assumptions C53_load_relaxed.

Lemma cc_loose v x : currency_c var_uint_bits v x -> currency_c loose_var_uint_bits v x.
Proof. intros [t d y z Hy Hz]. constructor; [apply (vk_loose Tokens), Hy|exact Hz]. Qed.
Lemma int_info_loose {A} S (i : int_info A) x : int_info_c var_uint_bits S i x -> int_info_c loose_var_uint_bits S i x.
Proof. intros H. destruct H. constructor; try assumption; [apply cc_loose; assumption|apply (vk_loose Tokens); assumption|apply (vk_loose Tokens); assumption]. Qed.
Lemma info_loose i x : info_c var_uint_bits i x -> info_c loose_var_uint_bits i x.
Proof. intros [j y H|j y H|j y H]; constructor; [apply int_info_loose, H| |exact H]. destruct H. constructor; try assumption. apply (vk_loose Tokens); assumption. Qed.
Lemma relaxed_loose i x : relaxed_c var_uint_bits i x -> relaxed_c loose_var_uint_bits i x.
Proof. intros [j y H|j y H]; constructor; [apply int_info_loose, H|exact H]. Qed.
Lemma init_any t s x : init_c no_tail t s x -> init_c any_tail t s x.
Proof. intros [|f v y H]; constructor. destruct H; constructor; auto. exact Logic.I. Qed.
Lemma message_any {I} (L L' : I -> chunk -> Prop) m x : (forall i y, L i y -> L' i y) -> message_c no_tail L m x -> message_c any_tail L' m x.
Proof. intros H [i xi s xs b xb l H1 H2 H3]. constructor; [apply H, H1|apply init_any, H2|exact H3]. Qed.

(** A stored message is read back: all of it, and its layout. *)
Theorem C53_round_trip fin m x c : message_c no_tail (info_c var_uint_bits) m x -> accepted fin m -> store_msg fin m ([], []) = Ok c -> c = x /\ load_msg c = Ok (m, ([], [])).
Proof.
  intros H A E. rewrite (C53_store fin m x H A) in E by (split; cbn; lia). destruct (_ || _); [discriminate|]. injection E as <-. rewrite nil_capp. split; [reflexivity|].
  apply C53_load. exists x. split; [|split; [symmetry; apply capp_nil|reflexivity]]. eapply message_any; [apply info_loose|exact H].
Qed.
Print Assumptions C53_round_trip.
Theorem C53_round_trip_relaxed fin m x c : message_c no_tail (relaxed_c var_uint_bits) m x -> accepted fin m -> store_relaxed_msg fin m ([], []) = Ok c -> c = x /\ load_relaxed_msg c = Ok (m, ([], [])).
Proof.
  intros H A E. rewrite (C53_store_relaxed fin m x H A) in E by (split; cbn; lia). destruct (_ || _); [discriminate|]. injection E as <-. rewrite nil_capp. split; [reflexivity|].
  apply C53_load_relaxed. exists x. split; [|split; [symmetry; apply capp_nil|reflexivity]]. eapply message_any; [apply relaxed_loose|exact H].
Qed.
Print Assumptions C53_round_trip_relaxed.

(** ** Sizes *)
(** The declared size of an external message info is the number of bits and references it
    takes; that of an internal one is one bit short. *)
Theorem C53_external_size i x : info_c var_uint_bits i x -> info_type i <> TInt -> info_size i = chunk_size x.
Proof. intros H T. rewrite (info_exact _ _ H). destruct i; [|reflexivity|reflexivity]. contradiction T. reflexivity. Qed.
Print Assumptions C53_external_size.
Theorem C53_internal_size i x : info_c var_uint_bits (MInt i) x -> chunk_size x = (fst (info_size (MInt i)) + 1, snd (info_size (MInt i))).
Proof. intros H. apply (info_exact _ _ H). Qed.
Print Assumptions C53_internal_size.

(** ** Choosing a layout *)
Section Choose.
Context {I : Type} (fin : list bool -> list cell -> res unit) (L : I -> chunk -> Prop) (isize : I -> N * N) (istore : I -> chunk -> res chunk).
Let store := store_message fin isize istore slice_size (store_slice_body fin).
Lemma with_layout_ok m l x : (init_to_cell l = true -> m_init m <> None) -> L (m_info m) x -> (forall s, m_init m = Some s -> exists y, state_init_c s y) -> exists z, message_c no_tail L (with_layout m l) z.
Proof.
  intros Hn Hi Hs. assert (Hxs : exists xs, init_c no_tail (init_to_cell l) (m_init m) xs).
  { destruct (m_init m) as [s|].
    - destruct (Hs s eq_refl) as [y Hy]. destruct (init_to_cell l); eexists; constructor; [eapply either_right; [exact Hy|reflexivity]|apply either_left, Hy].
    - destruct (init_to_cell l); [contradiction Hn; reflexivity|]. eexists. constructor. }
  destruct Hxs as [xs Hxs]. assert (Hb : exists xb, body_c (body_to_cell l) (m_body m) xb) by (destruct (body_to_cell l); eexists; constructor).
  destruct Hb as [xb Hb]. eexists. constructor; eassumption.
Qed.
Lemma choose m : m_layout m = None -> snd (isize (m_info m)) <= 1 ->
  (exists x, L (m_info m) x) -> (forall s, m_init m = Some s -> exists y, state_init_c s y) ->
  (forall l x, message_c no_tail L (with_layout m l) x -> appends (store (with_layout m l)) x) ->
  (forall l x, message_c no_tail L (with_layout m l) x -> (fits x <-> small (full_size l (isize (m_info m)) (m_init m) (slice_size (m_body m))))) ->
  (exists x, first_fit L m x /\ store m ([], []) = Ok x) \/ (fits_never L m /\ store m ([], []) = Err CellOverflow).
Proof.
  intros Hl Hr [x Hx] Hs Ha Hf. pose proof (compute_first (isize (m_info m)) (m_init m) (slice_size (m_body m)) Hr) as C.
  destruct (compute_layout _ _ _) as [l0 z] eqn:Ec. destruct C as (Hz & C1 & C2).
  assert (Es : store m ([], []) = store (with_layout m l0) ([], [])).
  { unfold store, store_message. rewrite Hl. cbn [m_info m_init m_body m_layout with_layout]. rewrite Ec, Hz. reflexivity. }
  rewrite Es. assert (D : small z \/ ~ small z) by (unfold small; lia). destruct D as [D|D].
  - left. destruct (C1 D) as (N1 & pre & post & E & Hp).
    destruct (with_layout_ok m l0 x) as [y Hy]; [intros T C; rewrite (N1 C) in T; discriminate|exact Hx|exact Hs|].
    exists y. rewrite Hz in D. split.
    + exists pre, l0, post. split; [exact E|]. split; [exact Hy|]. split; [apply (Hf _ _ Hy), D|]. eapply Forall_impl; [|exact Hp]. intros l' Hs' x' Hx'. rewrite (Hf _ _ Hx'). exact Hs'.
    + apply appends_empty; [apply Ha, Hy|]. apply (Hf _ _ Hy), D.
  - right. split.
    + intros l y Hy. rewrite (Hf _ _ Hy). apply (C2 D). intros C. remember (with_layout m l) as m' eqn:Em. destruct Hy as [i xi s xs b xb l' _ H2 _]. injection Em as _ Es' _ ->. rewrite C in Es'. subst s. inversion H2; congruence.
    + assert (G : negb (has_room ([], []) (full_size l0 (isize (m_info m)) (m_init m) (slice_size (m_body m)))) = true).
      { unfold has_room. cbn [fst snd length]. change (N.of_nat 0) with 0. rewrite !N.add_0_l. rewrite Hz in D. unfold small in D.
        destruct (N.leb_spec (fst (full_size l0 (isize (m_info m)) (m_init m) (slice_size (m_body m)))) 1023); [|reflexivity]. destruct (N.leb_spec (snd (full_size l0 (isize (m_info m)) (m_init m) (slice_size (m_body m)))) 4); [lia|reflexivity]. }
      unfold store, store_message. cbn [m_info m_init m_body m_layout with_layout]. rewrite G. reflexivity.
Qed.
End Choose.
Lemma fits_small x : fits x <-> small (chunk_size x).
Proof. unfold fits, small, chunk_size. cbn [fst snd]. lia. Qed.
Lemma some_le {A} (o : option A) : some_n o <= 1.
Proof. destruct o; cbn; lia. Qed.
Lemma accepted_with {I} fin (m : message I chunk) l : accepted fin m -> accepted fin (with_layout m l).
Proof. intros H. exact H. Qed.

(** Without a given layout, an external message is stored in the first of the layouts (all in
    place; the body in a cell; the init in a cell; both) in which it fits, and refused only if
    it fits in none. *)
Theorem C53_computed fin m : m_layout m = None -> info_type (m_info m) <> TInt ->
  (exists x, info_c var_uint_bits (m_info m) x) -> (forall s, m_init m = Some s -> exists y, state_init_c s y) -> accepted fin m ->
  (exists x, first_fit (info_c var_uint_bits) m x /\ store_msg fin m ([], []) = Ok x)
  \/ (fits_never (info_c var_uint_bits) m /\ store_msg fin m ([], []) = Err CellOverflow).
Proof.
  intros Hl Ht Hx Hs Ha. apply (choose fin (info_c var_uint_bits) info_size store_info); try assumption.
  - destruct (m_info m) as [i|i|i]; cbn [info_size snd]; [apply some_le|lia|lia].
  - intros l x H. apply C53_store; [exact H|]. apply accepted_with, Ha.
  - intros l x H. rewrite fits_small. rewrite (message_size _ m l x (info_size (m_info m)) H); [reflexivity|]. intros xi Hi. symmetry. apply C53_external_size; assumption.
Qed.
Print Assumptions C53_computed.
Theorem C53_computed_relaxed fin m i : m_layout m = None -> m_info m = RExtOut i ->
  (exists x, relaxed_c var_uint_bits (m_info m) x) -> (forall s, m_init m = Some s -> exists y, state_init_c s y) -> accepted fin m ->
  (exists x, first_fit (relaxed_c var_uint_bits) m x /\ store_relaxed_msg fin m ([], []) = Ok x)
  \/ (fits_never (relaxed_c var_uint_bits) m /\ store_relaxed_msg fin m ([], []) = Err CellOverflow).
Proof.
  intros Hl Ht Hx Hs Ha. apply (choose fin (relaxed_c var_uint_bits) relaxed_size store_relaxed); try assumption.
  - rewrite Ht. cbn [relaxed_size snd]. lia.
  - intros l x H. apply C53_store_relaxed; [exact H|]. apply accepted_with, Ha.
  - intros l x H. rewrite fits_small. rewrite (message_size _ m l x (relaxed_size (m_info m)) H); [reflexivity|]. intros xi Hi. rewrite (relaxed_exact _ _ Hi). rewrite Ht. reflexivity.
Qed.
Print Assumptions C53_computed_relaxed.
(** The same for an internal message, except when one of the layouts takes exactly 1024 bits;
    see [C53_internal_layout_refuted]. *)
Theorem C53_computed_internal_partial fin m i : m_layout m = None -> m_info m = MInt i ->
  (exists x, info_c var_uint_bits (m_info m) x) -> (forall s, m_init m = Some s -> exists y, state_init_c s y) -> accepted fin m ->
  (forall l x, message_c no_tail (info_c var_uint_bits) (with_layout m l) x -> N.of_nat (length (fst x)) <> 1024) ->
  (exists x, first_fit (info_c var_uint_bits) m x /\ store_msg fin m ([], []) = Ok x)
  \/ (fits_never (info_c var_uint_bits) m /\ store_msg fin m ([], []) = Err CellOverflow).
Proof.
  intros Hl Ht Hx Hs Ha Hn. apply (choose fin (info_c var_uint_bits) info_size store_info); try assumption.
  - rewrite Ht. cbn [info_size snd]. apply some_le.
  - intros l x H. apply C53_store; [exact H|]. apply accepted_with, Ha.
  - intros l x H. rewrite fits_small. pose proof (message_size _ m l x (fst (info_size (m_info m)) + 1, snd (info_size (m_info m))) H) as Z. rewrite full_size_succ in Z.
    specialize (Hn l x H). rewrite Z; [|intros xi Hi; rewrite (info_exact _ _ Hi), Ht; reflexivity].
    assert (Hb : N.of_nat (length (fst x)) = fst (full_size l (info_size (m_info m)) (m_init m) (slice_size (m_body m))) + 1).
    { change (N.of_nat (length (fst x))) with (fst (chunk_size x)). rewrite Z; [reflexivity|]. intros xi Hi. rewrite (info_exact _ _ Hi), Ht. reflexivity. }
    unfold small. cbn [fst snd]. lia.
Qed.
Print Assumptions C53_computed_internal_partial.

(** ** Bodies given as a part of a cell *)
Definition in_bounds (p : parts) : Prop := (pt_bs p <= pt_be p <= length (c_bits (pt_cell p)))%nat /\ (pt_rs p <= pt_re p <= length (c_refs (pt_cell p)))%nat.
Definition contents (p : parts) : chunk := (take (pt_be p - pt_bs p) (drop (pt_bs p) (c_bits (pt_cell p))), take (pt_re p - pt_rs p) (drop (pt_rs p) (c_refs (pt_cell p)))).
Definition with_body {I B B'} (m : message I B) (b : B') : message I B' := Message (m_info m) (m_init m) b (m_layout m).
Lemma window_in {A} s e (l : list A) : (s <= e <= length l)%nat -> window s e l = take (e - s) (drop s l).
Proof. intros H. unfold window. rewrite (Nat.min_l e) by lia. rewrite Nat.min_l by lia. reflexivity. Qed.
(** Such a message is stored as the one that has the part's contents as its body. *)
Theorem C53_store_owned fin m b : in_bounds (m_body m) -> c_exotic (pt_cell (m_body m)) = false -> builder_ok (contents (m_body m)) ->
  fin (fst (contents (m_body m))) (snd (contents (m_body m))) = Ok tt -> store_owned fin m b = store_msg fin (with_body m (contents (m_body m))) b.
Proof.
  intros [B1 B2] Ex O F. unfold store_owned, store_msg, store_message, with_body. cbn [m_info m_init m_body m_layout].
  assert (Es : slice_size (contents (m_body m)) = parts_size (m_body m)).
  { unfold slice_size, parts_size, contents. cbn [fst snd]. rewrite !take_length, !drop_length. f_equal; f_equal; lia. }
  rewrite Es. destruct (match m_layout m with Some l => _ | None => _ end) as [l size]. destruct (negb (has_room b size)); [reflexivity|].
  destruct (store_info (m_info m) b) as [c|e]; [|reflexivity]. cbn [rbind]. destruct (match m_init m with Some v => _ | None => _ end) as [c2|e]; [|reflexivity]. cbn [rbind].
  destruct (store_bool (body_to_cell l) c2) as [c3|e]; [|reflexivity]. cbn [rbind]. unfold store_parts_body, store_slice_body, apply_parts. rewrite Ex. cbn [rbind].
  rewrite !window_in by assumption. change (take _ (drop (pt_bs _) _), take _ (drop (pt_rs _) _)) with (contents (m_body m)).
  destruct (body_to_cell l); [|reflexivity]. cbn [andb]. destruct (is_full (m_body m)) eqn:Ef; [|reflexivity].
  unfold is_full in Ef. rewrite !andb_true_iff, !Nat.eqb_eq in Ef. destruct Ef as [[[E1 E2] E3] E4].
  unfold store_value. rewrite (appends_empty _ _ (appends_putc _) O). cbn [rbind]. unfold build. rewrite F. cbn [rbind].
  assert (Ec : contents (m_body m) = (c_bits (pt_cell (m_body m)), c_refs (pt_cell (m_body m)))).
  { unfold contents. rewrite E1, E2, E3, E4, !Nat.sub_0_r, !drop_0, !take_ge by lia. reflexivity. }
  rewrite Ec. cbn [fst snd]. destruct (pt_cell (m_body m)) as [ex cb cr]. cbn [c_exotic c_bits c_refs] in *. subst ex. reflexivity.
Qed.
Print Assumptions C53_store_owned.
(** What can be loaded with a slice as its body can be loaded with a whole cell as its body. *)
Theorem C53_load_owned fin b m r : load_msg b = Ok (m, r) -> builder_ok (m_body m) -> fin (fst (m_body m)) (snd (m_body m)) = Ok tt ->
  load_owned fin b = Ok (with_body m (full_parts (Cell false (fst (m_body m)) (snd (m_body m)))), r).
Proof.
  unfold load_msg, load_owned, load_message. destruct (load_info b) as [[i b1]|e]; [|discriminate]. cbn [rbind]. destruct (load_opt_c _ b1) as [[o b2]|e]; [|discriminate]. cbn [rbind].
  destruct (load_bool b2) as [[t b3]|e]; [|discriminate]. cbn [rbind]. destruct t; cbn [load_slice_body load_parts_body].
  - unfold load_ref. destruct b3 as [b3 [|[[|] xb xr] cr]]; cbn [fst snd rbind]; [discriminate|unfold as_slice; cbn [c_exotic]; discriminate|]. unfold as_slice. cbn [c_exotic c_bits c_refs rbind]. unfold s_chunk. cbn [s_bits s_refs].
    destruct o as [[ic v]|]; intros [= <- <-] O F; reflexivity.
  - cbn [rbind]. destruct o as [[ic v]|]; intros [= <- <-] O F; cbn [m_body] in *; rewrite (appends_empty _ _ (appends_putc _) O); cbn [rbind]; unfold build; rewrite F; reflexivity.
Qed.
Print Assumptions C53_load_owned.
Theorem C53_round_trip_owned fin m x c : message_c no_tail (info_c var_uint_bits) (with_body m (contents (m_body m))) x -> accepted fin (with_body m (contents (m_body m))) ->
  in_bounds (m_body m) -> c_exotic (pt_cell (m_body m)) = false -> store_owned fin m ([], []) = Ok c ->
  load_owned fin c = Ok (with_body m (full_parts (Cell false (fst (contents (m_body m))) (snd (contents (m_body m))))), ([], [])).
Proof.
  intros H A B E S. pose proof A as (_ & A2 & A3). cbn [m_body with_body] in A2, A3. rewrite C53_store_owned in S by assumption. destruct (C53_round_trip _ _ _ _ H A S) as [-> R].
  rewrite (C53_load_owned fin _ _ _ R A3 A2). reflexivity.
Qed.
Print Assumptions C53_round_trip_owned.

(** ** Relaxed messages *)
(** An internal or an external outgoing info is stored the same way in its relaxed form. *)
Theorem C53_relax_store i c : store_relaxed (relax_int i) c = store_info (MInt i) c.
Proof. reflexivity. Qed.
Print Assumptions C53_relax_store.
Theorem C53_relax_store_out i c c' : store_info (MExtOut i) c = Ok c' -> store_relaxed (relax_ext_out i) c = Ok c'.
Proof.
  unfold store_info, store_relaxed, relax_ext_out, store_ext_out. destruct (store_un 2 3 c) as [c1|e]; [|discriminate]. cbn [rbind]. destruct (negb _); [discriminate|]. intros H. exact H.
Qed.
Print Assumptions C53_relax_store_out.
(** What was stored as a message can be loaded as a relaxed message, unless it is an external
    incoming one, and with the same contents. *)
Definition relax (i : msg_info) : option relaxed_info := match i with MInt i => Some (relax_int i) | MExtIn _ => None | MExtOut i => Some (relax_ext_out i) end.
Lemma opt_bits a x : bits_only int_tlb a x -> bits_only opt_int_tlb (Some a) x.
Proof. intros [b y H]. constructor. constructor. exact H. Qed.
Lemma relax_layout U i j x : info_c U i x -> relax i = Some j -> relaxed_c U j x.
Proof.
  intros [k y H|k y H|k y H] [= <-]; constructor; destruct H; [|].
  - constructor; try assumption. apply opt_bits. assumption.
  - constructor; try assumption. apply opt_bits. assumption.
Qed.
Theorem C53_relax_load b m r j : load_msg b = Ok (m, r) -> relax (m_info m) = Some j -> load_relaxed_msg b = Ok (Message j (m_init m) (m_body m) (m_layout m), r).
Proof.
  intros H J. apply C53_load in H. destruct H as (x & H & -> & Hr). apply C53_load_relaxed. exists x. split; [|split; [reflexivity|exact Hr]].
  destruct H as [i xi s xs bd xb l H1 H2 H3]. cbn [m_info m_init m_body m_layout] in *. constructor; [eapply relax_layout; eassumption|exact H2|exact H3].
Qed.
Print Assumptions C53_relax_load.
Theorem C53_relax_ext_in b m r i : load_msg b = Ok (m, r) -> m_info m = MExtIn i -> load_relaxed_msg b = Err InvalidTag.
Proof.
  intros H J. apply C53_load in H. destruct H as (x & H & -> & Hr). destruct H as [k xi s xs bd xb l H1 H2 H3]. cbn [m_info] in J. subst k. inversion H1 as [|k y H4|]; subst. destruct (ext_in_flag _ _ _ H4) as [z ->].
  cbn [cat]. rewrite <- capp_assoc. rewrite capp_two, <- !capp_assoc. set (rest := capp z _). clearbody rest. destruct rest as [rb rr]. reflexivity.
Qed.
Print Assumptions C53_relax_ext_in.

(** ** Findings *)
Definition zero_addr : int_addr := IStd (StdAddr None 0 (replicate 32 0)).
Definition zero_info : int_info int_addr := IntInfo true false false zero_addr zero_addr (Currency 0 None) 0 0 0 0.
Definition yes (b : list bool) (r : list cell) : res unit := Ok tt.
Lemma zero_addr_c : bits_only int_tlb zero_addr ([true; false] ++ [false] ++ replicate 264 false, []).
Proof. constructor. apply int_std. apply (addr_std None [false] 0 (replicate 32 0)); [apply nothing|split; vm_compute; congruence|repeat constructor|reflexivity]. Qed.
Lemma zero_tokens_c : tokens_c var_uint_bits 0 (replicate 4 false, []).
Proof. constructor. exists 0. split; [|split; [reflexivity|reflexivity]]. split; [reflexivity|]. intros m _. lia. Qed.
Definition zero_chunk : chunk := cat [([false], []); ([true; false; false], []); ([true; false] ++ [false] ++ replicate 264 false, []); ([true; false] ++ [false] ++ replicate 264 false, []);
  capp (replicate 4 false, []) ([false], []); (replicate 4 false, []); (replicate 4 false, []); (nbits 64 0, []); (nbits 32 0, [])].
Lemma zero_info_c : info_c var_uint_bits (MInt zero_info) zero_chunk.
Proof.
  constructor. constructor; [apply zero_addr_c|apply zero_addr_c|constructor; [apply zero_tokens_c|constructor]|apply zero_tokens_c|apply zero_tokens_c|constructor; reflexivity|constructor; reflexivity].
Qed.
(** An internal message that fits with its body in a cell, but which is refused when its
    layout is left to be computed: the size is taken to be one bit less than it is, so the
    body is put in place and does not fit there. *)
Definition big_body_message : message msg_info chunk := Message (MInt zero_info) None (replicate 375 true, []) None.
Theorem C53_internal_layout_refuted : exists m x, m_layout m = None /\ accepted yes m
  /\ message_c no_tail (info_c var_uint_bits) (with_layout m (Layout false true)) x /\ fits x
  /\ store_msg yes (with_layout m (Layout false true)) ([], []) = Ok x /\ store_msg yes m ([], []) = Err CellOverflow.
Proof.
  assert (M : message_c no_tail (info_c var_uint_bits) (with_layout big_body_message (Layout false true)) (cat [zero_chunk; ([false], []); ([true], [Cell false (replicate 375 true) []])])).
  { apply (message_intro no_tail (info_c var_uint_bits) (MInt zero_info) zero_chunk None ([false], []) (replicate 375 true, []) ([true], [Cell false (replicate 375 true) []]) (Layout false true));
      [apply zero_info_c|constructor|exact (body_right (replicate 375 true, []))]. }
  assert (A : accepted yes big_body_message). { split; [discriminate|]. split; [reflexivity|]. split; cbn [m_body big_body_message fst snd]; [rewrite replicate_length|cbn [length]]; lia. }
  eexists big_body_message, _. split; [reflexivity|]. split; [exact A|]. split; [exact M|]. split; [|split].
  - apply fits_small. unfold small. vm_compute. split; discriminate.
  - apply appends_empty; [apply (C53_store yes _ _ M A)|]. apply fits_small. unfold small. vm_compute. split; discriminate.
  - vm_compute. reflexivity.
Qed.
Print Assumptions C53_internal_layout_refuted.
(** A flag for an init that is not there takes the room of a reference. *)
Theorem C53_unused_flag fin m bc b x : m_init m = None -> store_msg fin (with_layout m (Layout true bc)) b = Ok x -> store_msg fin (with_layout m (Layout false bc)) b = Ok x.
Proof.
  intros Hn. unfold store_msg, store_message, with_layout. cbn [m_info m_init m_body m_layout init_to_cell body_to_cell]. rewrite Hn. intros H.
  destruct (has_room b (full_size (Layout true bc) (info_size (m_info m)) None (slice_size (m_body m)))) eqn:E; cbn [negb] in H; [|discriminate].
  assert (E2 : has_room b (full_size (Layout false bc) (info_size (m_info m)) None (slice_size (m_body m))) = true).
  { unfold has_room in *. apply andb_true_iff in E. destruct E as [E1 E2]. apply N.leb_le in E1, E2. apply andb_true_iff. rewrite !N.leb_le. unfold full_size, detailed in *. destruct bc; cbn [fst snd init_to_cell body_to_cell] in *; lia. }
  rewrite E2. exact H.
Qed.
Print Assumptions C53_unused_flag.
Theorem C53_unused_flag_refuted : exists m x, m_init m = None /\ accepted yes m
  /\ store_msg yes (with_layout m (Layout false false)) ([], []) = Ok x /\ store_msg yes (with_layout m (Layout true false)) ([], []) = Err CellOverflow.
Proof.
  exists (Message (MInt zero_info) None ([], replicate 4 (Cell false [] [])) None). eexists. split; [reflexivity|]. split; [|split; vm_compute; reflexivity].
  split; [discriminate|]. split; [reflexivity|]. split; cbn; lia.
Qed.
Print Assumptions C53_unused_flag_refuted.
(** A whole exotic cell as the body is stored and loaded back as it is, but it cannot be
    loaded as a slice. *)
Theorem C53_exotic_body : exists m c, c_exotic (pt_cell (m_body m)) = true /\ store_owned yes m ([], []) = Ok c
  /\ load_owned yes c = Ok (m, ([], [])) /\ load_msg c = Err UnexpectedExoticCell.
Proof.
  exists (Message (MInt zero_info) None (full_parts (Cell true (replicate 280 false) [])) (Some (Layout false true))). eexists. split; [reflexivity|]. split; [vm_compute; reflexivity|]. split; vm_compute; reflexivity.
Qed.
Print Assumptions C53_exotic_body.

(** ** A case *)
Definition some_init : state_init := StateInit (Some 3) (Some (Special true false)) (Some (Cell false [true] [])) None None.
Definition ext_message : message msg_info chunk :=
  Message (MExtIn (ExtIn (Some (ExtAddr 4 [0x90])) zero_addr 0)) (Some some_init) (replicate 900 true, [Cell false [] []]) None.
Lemma some_init_c : state_init_c some_init (cat [(true :: nbits 5 3, []); ([true; true; false], []); ([true], [Cell false [true] []]); ([false], []); ([false], [])]).
Proof. apply state_init_intro; [exact (maybe_some _ 3 _ (depth_intro 3 ltac:(lia)))|exact (maybe_some _ _ _ (tick_tock true false))|exact (maybe_some _ _ _ (cell_intro _))|constructor|constructor]. Qed.
(** An external message with an init: it does not fit in place, but it does with the body in
    a cell, which is the layout that is chosen. *)
Example C53_case : m_layout ext_message = None /\ info_type (m_info ext_message) <> TInt /\ (exists x, info_c var_uint_bits (m_info ext_message) x)
  /\ (forall s, m_init ext_message = Some s -> exists y, state_init_c s y) /\ accepted yes ext_message
  /\ (exists c, store_msg yes ext_message ([], []) = Ok c /\ load_msg c = Ok (with_layout ext_message (Layout false true), ([], [])) /\ chunk_size c = (303, 2)).
Proof.
  split; [reflexivity|]. split; [discriminate|]. split; [|split; [|split]].
  - eexists. apply info_ext_in. constructor; [|apply zero_addr_c|apply zero_tokens_c]. constructor. apply (ext_some [true; false; false; true]). reflexivity.
  - intros s [= <-]. eexists. apply some_init_c.
  - split; [intros; reflexivity|]. split; [reflexivity|]. split; cbn [m_body ext_message fst snd]; [rewrite replicate_length; lia|cbn [length]; lia].
  - eexists. split; [vm_compute; reflexivity|]. split; vm_compute; reflexivity.
Qed.
