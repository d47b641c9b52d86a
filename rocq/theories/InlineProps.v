(** * Dictionaries whose root lies in other data (C69) *)
From Verif Require Import Err BitsProofs IntModel NumModel NumSpec LabelModel LabelSpec LabelProofs CellModel DictModel DictSpec DictProofs DictProps ChunkModel LazyModel CurrencyModel ChunkSpec ChunkProofs
  DeriveModel DeriveSpec StructsModel StructsSpec StructsProofs AugModel AugSpec AugProofs AugProofs3 AugExtraModel AugExtraProofs AugProps MessageProofs2 IterProps InlineModel CurrencySpec CurrencyProofs.
Local Open Scope nat_scope.

Lemma cut (x r : chunk) : (take (length (fst (capp x r)) - length (fst r)) (fst (capp x r)), take (length (snd (capp x r)) - length (snd r)) (snd (capp x r))) = x.
Proof.
  unfold capp. cbn [fst snd]. rewrite !app_length. replace (length (fst x) + length (fst r) - length (fst r)) with (length (fst x)) by lia.
  replace (length (snd x) + length (snd r) - length (snd r)) with (length (snd x)) by lia. rewrite !take_app. destruct x. reflexivity.
Qed.
Lemma hml_len n e l : hml n e l -> length e <= 2 * n + 3 /\ length l <= n.
Proof.
  assert (W : forall w, width_for n w -> w <= n).
  { intros w [_ W]. apply W. clear. induction n as [|n IH]; [reflexivity|]. rewrite !Nat2N.inj_succ, N.pow_succ_r'. lia. }
  intros [s H|w s Hw H|w v k Hw H]; rewrite ?app_length, ?replicate_length, ?length_nbits; cbn [length]; [lia| |]; specialize (W w Hw); lia.
Qed.
Lemma put_all fin x : length (fst x) <= 1023 -> length (snd x) <= 4 -> fin (fst x) (snd x) = Ok tt ->
  (let? ch := putc x ([], []) in build fin ch) = Ok (Cell false (fst x) (snd x)).
Proof. intros L1 L2 F. rewrite (appends_empty _ _ (appends_putc x)) by (split; assumption). cbn [rbind]. unfold build. rewrite F. reflexivity. Qed.
Lemma build_inv fin x c : (let? ch := putc x ([], []) in build fin ch) = Ok c -> c = Cell false (fst x) (snd x).
Proof.
  unfold putc, put, putr. destruct (_ <? _); [discriminate|]. cbn [rbind]. destruct (_ <? _); [discriminate|]. cbn [rbind fst snd app]. unfold build. cbn [fst snd].
  destruct (fin _ _); [|discriminate]. intros [= <-]. reflexivity.
Qed.

Section Fin.
Context (fin : list bool -> list cell -> res unit).

(** ** Plain dictionaries *)
(** What is loaded is the beginning of the data, no more and no less than what is taken. *)
Theorem C69_exact n s c r : n <= 1023 -> dict_load_from_root fin s n = Ok (c, r) -> s = capp (c_bits c, c_refs c) r /\ c_exotic c = false.
Proof.
  intros Hn. unfold dict_load_from_root. destruct (read_label n (fst s)) as [[l b]|] eqn:E; [|discriminate]. cbn [rbind].
  apply read_label_suffix in E; [|exact Hn]. destruct E as (e & E). destruct (negb _).
  - destruct s as [sb sr]. cbn [fst snd] in *. subst sb. destruct sr as [|c1 [|c2 rs]]; [discriminate..|]. change (skip_refs 2 (c1 :: c2 :: rs)) with (Ok rs). cbn [rbind]. intros H.
    pose proof (cut (e, [c1; c2]) (b, rs)) as Q. unfold capp in Q. cbn [fst snd app] in Q.
    rewrite Q in H. destruct (putc (e, [c1; c2]) ([], [])) as [ch|] eqn:P; [|discriminate]. cbn [rbind] in H. destruct (build fin ch) as [c'|] eqn:B; [|discriminate]. cbn [rbind] in H. injection H as <- <-.
    assert (V : (let? ch := putc (e, [c1; c2]) ([], []) in build fin ch) = Ok c') by (rewrite P; exact B). apply build_inv in V. subst c'. split; reflexivity.
  - intros H. destruct (putc s ([], [])) as [ch|] eqn:P; [|discriminate]. cbn [rbind] in H. destruct (build fin ch) as [c'|] eqn:B; [|discriminate]. cbn [rbind] in H. injection H as <- <-.
    assert (V : (let? ch := putc s ([], []) in build fin ch) = Ok c') by (rewrite P; exact B). apply build_inv in V. subst c'. rewrite capp_nil. destruct s. split; reflexivity.
Qed.

Lemma load_fork n e l cl cr rest : n <= 1023 -> hml n e l -> length l < n -> length e <= 1023 -> fin e [cl; cr] = Ok tt ->
  dict_load_from_root fin (capp (e, [cl; cr]) rest) n = Ok (Cell false e [cl; cr], rest).
Proof.
  intros Hn H L B F. unfold dict_load_from_root. change (fst (capp (e, [cl; cr]) rest)) with (e ++ fst rest) at 1. rewrite (read_label_hml n e l (fst rest) Hn H). cbn [rbind].
  destruct (Nat.eqb_spec (length l) n) as [Q|_]; [lia|]. cbn [negb]. change (snd (capp (e, [cl; cr]) rest)) with (cl :: cr :: snd rest) at 1. change (skip_refs 2 (cl :: cr :: snd rest)) with (Ok (snd rest)). cbn [rbind].
  rewrite (cut (e, [cl; cr]) rest). pose proof (put_all fin (e, [cl; cr]) B) as P. cbn [fst snd length] in P. specialize (P ltac:(lia) F).
  destruct (putc (e, [cl; cr]) ([], [])) as [ch|]; [|discriminate]. cbn [rbind] in *. rewrite P. cbn [rbind]. destruct rest. reflexivity.
Qed.
Lemma load_leaf n e l v : n <= 1023 -> hml n e l -> length l = n -> length (e ++ fst v) <= 1023 -> length (snd v) <= 4 -> fin (e ++ fst v) (snd v) = Ok tt ->
  dict_load_from_root fin (e ++ fst v, snd v) n = Ok (Cell false (e ++ fst v) (snd v), ([], [])).
Proof.
  intros Hn H L B R F. unfold dict_load_from_root. cbn [fst snd]. rewrite (read_label_hml n e l (fst v) Hn H). cbn [rbind]. rewrite (proj2 (Nat.eqb_eq _ _) L). cbn [negb].
  pose proof (put_all fin (e ++ fst v, snd v) B R F) as P. destruct (putc (e ++ fst v, snd v) ([], [])) as [ch|]; [|discriminate]. cbn [rbind fst snd] in *. rewrite P. reflexivity.
Qed.

(** A dictionary that was made by any sequence of updates is loaded back, the same cell, if nothing
    follows; if it has at least two entries, then whatever follows. *)
Theorem C69_load n c m : n <= 1023 -> history fin n (Some c) m ->
  dict_load_from_root fin (c_bits c, c_refs c) n = Ok (c, ([], [])) /\
  (2 <= size m -> forall rest, dict_load_from_root fin (capp (c_bits c, c_refs c) rest) n = Ok (c, rest)).
Proof.
  intros Hn H. destruct (history_dict fin n _ m Hn H) as (es & D & M). cbn [is_dict] in D.
  inversion D as [n0 bits l v (e & Eb & Hl & _) L (B & R & F) E1 E2 E3|n0 k bits l x cl cr el er (e & Eb & Hl & _) L X (B & R & F) HA HB E1 E2 E3]; subst; cbn [c_bits c_refs].
  - split; [apply (load_leaf (length l) e l); auto|]. intros Z. exfalso. assert (S : size (dmap [(l, v)]) = 1) by (unfold dmap; rewrite list_to_map_cons, list_to_map_nil, map_size_insert_None by apply lookup_empty; rewrite map_size_empty; reflexivity). lia.
  - cbn [canonical_dict r_extra] in X. subst x. cbn [fst snd] in *. rewrite app_nil_r in *.
    assert (G : forall rest, dict_load_from_root fin (capp (e, [cl; cr]) rest) (length l + S k) = Ok (Cell false e [cl; cr], rest)) by (intros rest; apply (load_fork _ e l); auto; lia).
    split; [|intros _; exact G]. specialize (G ([], [])). rewrite capp_nil in G. exact G.
Qed.

(** ** Augmented dictionaries *)
Section Typed.
Context {A V : Type} (a_store : A -> res chunk) (a_load : chunk -> res (A * chunk)) (a_add : A -> A -> res A) (a_default : A) (v_load : chunk -> res (V * chunk)).

Theorem C69_aug_exact LA LV n s d r : n <= 1023 -> reads_layout a_load LA -> reads_layout v_load LV -> aug_load_from_root fin a_load v_load s n = Ok (d, r) ->
  exists c, ad_root d = Some c /\ c_exotic c = false /\ s = capp (c_bits c, c_refs c) r.
Proof.
  intros Hn RA RV. unfold aug_load_from_root. destruct s as [sb sr]. cbn [fst snd]. destruct (read_label n sb) as [[l b]|] eqn:E; [|discriminate]. cbn [rbind].
  apply read_label_suffix in E; [|exact Hn]. destruct E as (e & ->).
  match goal with |- (let? (extra, r) := ?t in _) = _ -> _ => destruct t as [[extra r0]|] eqn:T; [|discriminate] end. cbn [rbind].
  assert (S : exists x, (e ++ b, sr) = capp x r0).
  { destruct (negb _).
    - destruct sr as [|c1 [|c2 rs]]; [discriminate T..|]. change (skip_refs 2 (c1 :: c2 :: rs)) with (Ok rs) in T. cbn [rbind] in T. apply RA in T. destruct T as (x & _ & T).
      exists (capp (e, [c1; c2]) x). rewrite <- capp_assoc, <- T. reflexivity.
    - destruct (a_load (b, sr)) as [[a r1]|] eqn:T1; [|discriminate T]. cbn [rbind] in T. destruct (v_load r1) as [[v r2]|] eqn:T2; [|discriminate T]. cbn [rbind] in T. injection T as <- <-.
      apply RA in T1. destruct T1 as (x & _ & T1). apply RV in T2. destruct T2 as (y & _ & ->). exists (capp (e, []) (capp x y)). rewrite <- !capp_assoc, <- T1. reflexivity. }
  destruct S as (x & S). intros H. pose proof (cut x r0) as Q. rewrite <- S in Q. cbn [fst snd] in Q. rewrite Q in H.
  destruct (putc x ([], [])) as [ch|] eqn:P; [|discriminate]. cbn [rbind] in H. destruct (build fin ch) as [c|] eqn:B; [|discriminate]. cbn [rbind] in H. injection H as <- <-.
  exists c. assert (W : (let? ch := putc x ([], []) in build fin ch) = Ok c) by (rewrite P; exact B). apply build_inv in W. subst c. cbn [ad_root c_exotic c_bits c_refs]. destruct x. auto.
Qed.

Lemma aug_load_ok x c (extra : A) n s r : s = capp (c_bits c, c_refs c) r -> c_exotic c = false -> length (c_bits c) <= 1023 -> length (c_refs c) <= 4 -> fin (c_bits c) (c_refs c) = Ok tt ->
  (let? (label, b) := read_label n (fst s) in
    if negb (length label =? n) then let? refs := skip_refs 2 (snd s) in a_load (b, refs)
    else let? (extra, r) := a_load (b, snd s) in let? (_, r) := v_load r in Ok (extra, r)) = Ok (extra, r) ->
  x = AugDict (Some c) extra -> aug_load_from_root fin a_load v_load s n = Ok (x, r).
Proof.
  intros E X L1 L2 F T ->. unfold aug_load_from_root. destruct (read_label n (fst s)) as [[l b]|]; [|discriminate T]. cbn [rbind] in *. rewrite T. cbn [rbind].
  rewrite E, cut. pose proof (put_all fin (c_bits c, c_refs c) L1 L2 F) as P. destruct (putc _ _) as [ch|]; [|discriminate P]. cbn [rbind] in *. rewrite P. cbn [rbind fst snd].
  destruct c as [[] cb cr]; [discriminate X|reflexivity].
Qed.

(** A dictionary that was made by any sequence of updates, splits and merges is loaded back, the same
    cell and the same extra, whatever follows it. *)
Theorem C69_aug_load n d m c : loads_stored a_store a_load -> n <= 1023 -> ahistory fin a_store a_load a_add a_default n d m -> ad_root d = Some c ->
  (forall k a v rest, m !! k = Some (a, v) -> exists w, v_load (capp v rest) = Ok (w, rest)) ->
  forall rest, aug_load_from_root fin a_load v_load (capp (c_bits c, c_refs c) rest) n = Ok (d, rest).
Proof.
  intros LS Hn H Hc Hv rest. destruct (C31_history fin a_store a_load a_add a_default LS n d m Hn H) as (o & es & l & D & F & -> & Ho). rewrite Hc in D.
  destruct o as [x|]; [|destruct D]. cbn [is_aug_root] in D. destruct Ho as (r0 & Ho). destruct d as [dr de]. cbn [ad_root ad_extra] in *. subst dr.
  inversion D as [n0 bits lb v (e & Eb & Hl & _) L (B & R & Fi) E1 E2 E3|n0 k bits lb x0 cl cr xl xr el er (e & Eb & Hl & _) L C (B & R & Fi) HA HB E1 E2 E3]; subst.
  - inversion F as [|p q l1 es1 [Ek (ex & Ea & Ev)] F0]; subst. inversion F0; subst. destruct p as [key [a w]]. cbn [fst snd] in *. subst key x.
    eapply (aug_load_ok _ _ de); [reflexivity|reflexivity|exact B|exact R|exact Fi| |reflexivity].
    cbn [c_bits c_refs]. change (fst (capp (e ++ fst (capp ex w), snd (capp ex w)) rest)) with ((e ++ fst (capp ex w)) ++ fst rest). rewrite <- app_assoc. rewrite (read_label_hml (length lb) e lb _ Hn Hl). cbn [rbind].
    rewrite Nat.eqb_refl. cbn [negb].
    change (fst (capp ex w) ++ fst rest, snd (capp (e ++ fst (capp ex w), snd (capp ex w)) rest)) with (capp (capp ex w) rest). rewrite <- capp_assoc.
    rewrite (LS a ex (capp w rest) Ea). cbn [rbind]. destruct (Hv lb a w rest) as (u & U); [cbn [list_to_map foldr fst snd]; apply lookup_insert|]. rewrite U. cbn [rbind].
    rewrite (LS a ex w Ea) in Ho. injection Ho as -> _. reflexivity.
  - eapply (aug_load_ok _ _ de); [reflexivity|reflexivity|exact B|exact R|exact Fi| |reflexivity].
    cbn [c_bits c_refs]. change (fst (capp (e ++ fst x, cl :: cr :: snd x) rest)) with ((e ++ fst x) ++ fst rest). rewrite <- app_assoc. rewrite (read_label_hml _ e lb _ Hn Hl). cbn [rbind].
    destruct (Nat.eqb_spec (length lb) (length lb + S k)) as [Q|_]; [lia|]. cbn [negb]. change (snd (capp (e ++ fst x, cl :: cr :: snd x) rest)) with (cl :: cr :: snd x ++ snd rest).
    change (skip_refs 2 (cl :: cr :: snd x ++ snd rest)) with (Ok (snd x ++ snd rest)). cbn [rbind]. change (fst x ++ fst rest, snd x ++ snd rest) with (capp x rest).
    unfold comp_add in C. destruct (a_load xl) as [[al ?]|]; [|discriminate C]. cbn [rbind] in C. destruct (a_load xr) as [[ar ?]|]; [|discriminate C]. cbn [rbind] in C. destruct (a_add al ar) as [ac|]; [|discriminate C]. cbn [rbind] in C.
    rewrite (LS ac x rest C). f_equal. f_equal. pose proof (LS ac x ([], []) C) as G. rewrite capp_nil, Ho in G. injection G as -> _. reflexivity.
Qed.
End Typed.

(** ** Account blocks *)
Lemma cc_size a ch : cc_stored a = Ok ch -> length (fst ch) <= 125 /\ length (snd ch) <= 1.
Proof.
  intros H. pose proof (cc_loads a ch ([], []) H) as L. rewrite capp_nil in L. apply (law_load _ _ lawful_currency) in L. destruct L as (x & W & ->). rewrite capp_nil.
  destruct W as [t d y z Y Z]. destruct Y as [v yb (k & _ & Hk & ->)]. unfold capp. cbn [fst snd]. change (2 ^ N.of_nat 4)%N with 16%N in Hk.
  pose proof (law_bits _ _ lawful_dict d z Z) as B1. pose proof (law_refs _ _ lawful_dict d z Z) as B2. cbn in B1, B2. rewrite !app_length, !length_nbits. cbn [length]. lia.
Qed.
Theorem C69_account_block account d m u rest : ahistory fin cc_stored load_cc (cc_checked_add fin) cc_zero 64 d m -> m <> ∅ ->
  (forall k a v, m !! k = Some (a, v) -> exists t, v = ([], [t]) /\ c_exotic t = false) ->
  length account = 32 -> Forall byte_ok account -> c_exotic u = false ->
  exists x, store_account_block (AccountBlock account d u) ([], []) = Ok x /\ load_account_block fin (capp x rest) = Ok (AccountBlock account d u, rest).
Proof.
  intros H Hm Hv La Fa Xu. destruct (C31_history fin cc_stored load_cc (cc_checked_add fin) cc_zero cc_loads 64 d m ltac:(lia) H) as (o & es & l & D & F & E & Ho).
  destruct (ad_root d) as [c|] eqn:Hc; [|destruct o; [destruct D|cbn in D; subst es; inversion F; subst; destruct (Hm eq_refl)]].
  destruct o as [x|]; [|destruct D]. cbn [is_aug_root] in D.
  assert (S : c_exotic c = false /\ length (c_bits c) <= 256 /\ length (c_refs c) <= 3).
  { clear H Hc Ho. subst m. inversion D as [n0 bits lb v (e & Eb & Hl & _) L R E1 E2 E3|n0 k bits lb x0 cl cr xl xr el er (e & Eb & Hl & _) L C R HA HB E1 E2 E3]; subst; cbn [c_exotic c_bits c_refs].
    - split; [reflexivity|]. inversion F as [|p q l1 es1 [Ek (ex & Ea & Ev)] F0]; subst. inversion F0; subst. destruct p as [key [a w]]. cbn [fst snd] in *. subst key x.
      destruct (Hv lb a w) as (t & -> & _); [cbn [list_to_map foldr fst snd]; apply lookup_insert|]. destruct (cc_size _ _ Ea) as [S1 S2]. destruct (hml_len _ _ _ Hl) as [S3 _]. unfold capp. cbn [fst snd]. rewrite !app_length. cbn [length]. lia.
    - split; [reflexivity|]. destruct (hml_len _ _ _ Hl) as [S3 _]. unfold comp_add in C. destruct (load_cc xl) as [[al ?]|]; [|discriminate C]. cbn [rbind] in C. destruct (load_cc xr) as [[ar ?]|]; [|discriminate C]. cbn [rbind] in C.
      destruct (cc_checked_add fin al ar) as [ac|]; [|discriminate C]. cbn [rbind] in C. destruct (cc_size _ _ C) as [S1 S2]. rewrite app_length. cbn [length]. lia. }
  destruct S as (Xc & S1 & S2). assert (By : bytes_c 32 account (bytes_bits account, [])) by (constructor; assumption).
  set (x1 := capp (nbits 4 5, []) (capp (bytes_bits account, []) (capp (c_bits c, c_refs c) ([], [u])))).
  assert (Ap : appends (fun b => let? b := store_un 4 5 b in let? b := store_bs account b in let? b := putc (c_bits c, c_refs c) b in store_lazy u b) x1).
  { apply appends_bind; [apply appends_un; constructor; reflexivity|]. apply appends_bind; [apply (appends_bs 32), By|]. apply appends_bind; [apply appends_putc|apply appends_ref]. }
  exists x1. split.
  - unfold store_account_block. cbn [ab_transactions ab_account ab_update]. rewrite Hc. unfold as_slice. rewrite Xc. cbn [rbind]. change (s_chunk _) with (c_bits c, c_refs c).
    apply (appends_empty _ _ Ap). unfold x1, capp. split; cbn [fst snd]; rewrite ?app_length, ?length_nbits; cbn [length app]; [rewrite length_bytes_bits, La; lia|lia].
  - unfold load_account_block, x1. rewrite <- capp_assoc. rewrite (reads_back _ _ _ _ _ (reads_un 4) (ltac:(constructor; reflexivity) : uint_c 4 5 (nbits 4 5, []))). cbn [rbind N.eqb Pos.eqb negb].
    rewrite <- capp_assoc. rewrite (reads_back _ _ _ _ _ (reads_bs 32) By). cbn [rbind]. rewrite <- capp_assoc.
    rewrite (C69_aug_load cc_stored load_cc (cc_checked_add fin) cc_zero (load_lazy false) 64 d m c cc_loads ltac:(lia) H Hc).
    + cbn [rbind]. unfold load_lazy, load_ref, capp. cbn [fst snd app rbind]. unfold lazy_from_raw. rewrite Xu. cbn [rbind negb andb orb]. destruct rest. reflexivity.
    + intros k a v r I. destruct (Hv k a v I) as (t & -> & Xt). exists t. unfold load_lazy, load_ref, capp. cbn [fst snd app rbind]. unfold lazy_from_raw. rewrite Xt. destruct r. reflexivity.
Qed.
(** Without transactions there is nothing to store. *)
Theorem C69_empty account u d lib b : ad_root d = None ->
  store_account_block (AccountBlock account d u) b = Err InvalidData /\ store_non_empty None b = Err InvalidData /\
  (builder_ok b -> exists e, store_lib_descr (LibDescr lib None) b = Err e).
Proof.
  intros E. unfold store_account_block. cbn [ab_transactions]. rewrite E. split; [reflexivity|]. split; [reflexivity|]. intros _. unfold store_lib_descr. cbn [ld_lib ld_publishers].
  destruct (store_un 2 0 b) as [b1|e]; [|exists e; reflexivity]. cbn [rbind]. destruct (store_ref lib b1) as [b2|e]; [exists InvalidData; reflexivity|exists e; reflexivity].
Qed.

(** ** Descriptions of libraries, and parameters that are dictionaries *)
Theorem C69_lib_descr lib c m : history fin 256 (Some c) m -> (forall k v, m !! k = Some v -> v = ([], [])) ->
  exists x, store_lib_descr (LibDescr lib (Some c)) ([], []) = Ok x /\
    load_lib_descr fin x = Ok (LibDescr lib (Some c), ([], [])) /\
    (2 <= size m -> forall rest, load_lib_descr fin (capp x rest) = Ok (LibDescr lib (Some c), rest)).
Proof.
  intros H Hv. destruct (C69_load 256 c m ltac:(lia) H) as [G1 G2]. destruct (history_dict fin 256 _ m ltac:(lia) H) as (es & D & M). cbn [is_dict] in D.
  assert (S : length (c_bits c) <= 515 /\ length (c_refs c) <= 2).
  { clear H G1 G2. subst m. inversion D as [n0 bits l v (e & Eb & Hl & _) L R E1 E2 E3|n0 k bits l x cl cr el er (e & Eb & Hl & _) L X R HA HB E1 E2 E3]; subst; cbn [c_bits c_refs]; destruct (hml_len _ _ _ Hl) as [S3 _]; rewrite app_length.
    - specialize (Hv l v). rewrite Hv; [cbn [fst snd length]; lia|]. unfold dmap. cbn [list_to_map foldr fst snd]. apply lookup_insert.
    - cbn [canonical_dict r_extra] in X. subst x. cbn [fst snd length]. lia. }
  destruct S as [S1 S2]. set (x1 := capp (nbits 2 0, []) (capp ([], [lib]) (c_bits c, c_refs c))).
  assert (Ap : appends (fun b => let? b := store_un 2 0 b in let? b := store_ref lib b in putc (c_bits c, c_refs c) b) x1).
  { apply appends_bind; [apply appends_un; constructor; reflexivity|]. apply appends_bind; [apply appends_ref|apply appends_putc]. }
  exists x1. split; [|split].
  - apply (appends_empty _ _ Ap). unfold x1, capp. split; cbn [fst snd]; rewrite ?app_length, ?length_nbits; cbn [length app]; lia.
  - unfold load_lib_descr, x1. rewrite (reads_back _ _ _ _ _ (reads_un 2) (ltac:(constructor; reflexivity) : uint_c 2 0 (nbits 2 0, []))). cbn [rbind N.eqb negb].
    rewrite (reads_back _ _ _ _ _ reads_ref (cell_intro lib)). cbn [rbind]. rewrite G1. reflexivity.
  - intros Z rest. unfold load_lib_descr, x1. rewrite <- capp_assoc. rewrite (reads_back _ _ _ _ _ (reads_un 2) (ltac:(constructor; reflexivity) : uint_c 2 0 (nbits 2 0, []))). cbn [rbind N.eqb negb].
    rewrite <- capp_assoc. rewrite (reads_back _ _ _ _ _ reads_ref (cell_intro lib)). cbn [rbind]. rewrite (G2 Z). reflexivity.
Qed.
Theorem C69_non_empty n c m : n <= 1023 -> history fin n (Some c) m ->
  exists x, store_non_empty (Some c) ([], []) = Ok x /\ load_non_empty fin n x = Ok (Some c, ([], [])).
Proof.
  intros Hn H. destruct (C69_load n c m Hn H) as [G _]. destruct (history_dict fin n _ m Hn H) as (es & D & _). cbn [is_dict] in D.
  assert (S : c_exotic c = false /\ builder_ok (c_bits c, c_refs c)) by (inversion D as [? ? ? ? _ _ (B & R & _)|? ? ? ? ? ? ? ? ? _ _ _ (B & R & _) _ _]; subst; repeat split; assumption).
  destruct S as [X O]. exists (c_bits c, c_refs c). split.
  - unfold store_non_empty, store_root, as_slice. rewrite X. cbn [rbind]. exact (appends_empty _ _ (appends_putc _) O).
  - unfold load_non_empty. rewrite G. reflexivity.
Qed.

(** Finding: a dictionary with one entry takes all that follows it into the value of the entry. *)
Theorem C69_leaf_refuted n c k v rest : n <= 1023 -> history fin n (Some c) {[k := v]} ->
  length (c_bits c) + length (fst rest) <= 1023 -> length (c_refs c) + length (snd rest) <= 4 -> fin (c_bits c ++ fst rest) (c_refs c ++ snd rest) = Ok tt ->
  dict_load_from_root fin (capp (c_bits c, c_refs c) rest) n = Ok (Cell false (c_bits c ++ fst rest) (c_refs c ++ snd rest), ([], [])).
Proof.
  intros Hn H B R F. destruct (history_dict fin n _ _ Hn H) as (es & D & M). cbn [is_dict] in D.
  assert (W : exists e l w, c = Cell false (e ++ fst w) (snd w) /\ hml n e l /\ length l = n).
  { inversion D as [n0 bits l w (e & Eb & Hl & _) L Q E1 E2 E3|n0 j bits l x cl cr el er Hl L X Q HA HB E1 E2 E3]; subst; [exists e, l, w; auto|]. exfalso.
    assert (Ne : forall m c es, hashmap (canonical_dict fin) m c es -> exists p, In p es).
    { clear. induction 1 as [? ? ? v|? ? ? ? ? ? ? ? ? ? ? ? ? HA [p IHA] HB IHB]; [eexists; left; reflexivity|]. eexists. apply in_or_app. left. apply in_map. exact IHA. }
    destruct (Ne _ _ _ HA) as ([ka va] & Ia), (Ne _ _ _ HB) as ([kb vb] & Ib). 
    assert (K : forall q w, In (q, w) (under (l ++ [false]) el ++ under (l ++ [true]) er) -> q = k).
    { intros q w I. assert (U : (dmap (under (l ++ [false]) el ++ under (l ++ [true]) er)) !! q = Some w) by (apply elem_of_list_to_map_1; [exact (dict_nodup _ _ (Some _) _ D)|apply elem_of_list_In; exact I]).
      rewrite M in U. apply lookup_singleton_Some in U. destruct U as [<- _]. reflexivity. }
    assert (K1 : (l ++ [false]) ++ ka = k) by (apply (K _ va), in_or_app; left; apply in_map_iff; exists (ka, va); auto).
    assert (K2 : (l ++ [true]) ++ kb = k) by (apply (K _ vb), in_or_app; right; apply in_map_iff; exists (kb, vb); auto).
    rewrite <- K2 in K1. rewrite <- !app_assoc in K1. apply app_inv_head in K1. discriminate. }
  destruct W as (e & l & w & -> & Hl & L). cbn [c_bits c_refs] in *. pose proof (load_leaf n e l (capp w rest) Hn Hl L) as G. unfold capp in *. cbn [fst snd] in *. rewrite !app_length in *. rewrite app_assoc in G.
  rewrite G; [reflexivity|lia..|exact F].
Qed.
End Fin.
Print Assumptions C69_exact.
Print Assumptions C69_load.
Print Assumptions C69_aug_exact.
Print Assumptions C69_aug_load.
Print Assumptions C69_account_block.
Print Assumptions C69_empty.
Print Assumptions C69_lib_descr.
Print Assumptions C69_non_empty.
Print Assumptions C69_leaf_refuted.

(** Concrete cases: account blocks with one and with two transactions, libraries with one and with
    two publishers. *)
Definition all_fin : list bool -> list cell -> res unit := fun _ _ => Ok tt.
Definition ex_tx (x : N) := Cell false (nbits 8 x) [].
Definition ex_add (d : @aug_dict currency) (lt : N) (fee : N) : @aug_dict currency :=
  fst (aug_insert all_fin (comp_add cc_stored load_cc (cc_checked_add all_fin)) cc_stored load_cc cc_zero d (nbits 64 lt) 64 (Currency fee None) ([], [ex_tx lt]) MSet).
Definition ex_one := ex_add (aug_new cc_zero) 7 100.
Definition ex_two := ex_add ex_one 9 23.
Definition block_ok (d : @aug_dict currency) : Prop :=
  match store_account_block (AccountBlock (repeat 5%N 32) d (ex_tx 1)) ([], []) with
  | Ok x => load_account_block all_fin (capp x ([true], [])) = Ok (AccountBlock (repeat 5%N 32) d (ex_tx 1), ([true], []))
  | Err _ => False
  end.
Lemma ex_insert d m lt fee d' : ahistory all_fin cc_stored load_cc (cc_checked_add all_fin) cc_zero 64 d m ->
  aug_insert all_fin (comp_add cc_stored load_cc (cc_checked_add all_fin)) cc_stored load_cc cc_zero d (nbits 64 lt) 64 (Currency fee None) ([], [ex_tx lt]) MSet = (d', Ok true) ->
  ahistory all_fin cc_stored load_cc (cc_checked_add all_fin) cc_zero 64 d' (<[nbits 64 lt := (Currency fee None, ([], [ex_tx lt]))]> m).
Proof. intros H E. exact (ah_insert all_fin cc_stored load_cc (cc_checked_add all_fin) cc_zero 64 d m _ _ _ MSet d' (Ok true) H (length_nbits 64 lt) E). Qed.
Example C69_case : exists m, ahistory all_fin cc_stored load_cc (cc_checked_add all_fin) cc_zero 64 ex_two m /\ m <> ∅ /\
  (forall k a v, m !! k = Some (a, v) -> exists t, v = ([], [t]) /\ c_exotic t = false) /\ cc_tokens (ad_extra ex_two) = 123%N /\ block_ok ex_one /\ block_ok ex_two.
Proof.
  exists (<[nbits 64 9 := (Currency 23 None, ([], [ex_tx 9]))]> (<[nbits 64 7 := (Currency 100 None, ([], [ex_tx 7]))]> ∅)). split.
  - apply (ex_insert ex_one); [|vm_compute; reflexivity]. apply (ex_insert (aug_new cc_zero)); [|vm_compute; reflexivity]. constructor.
  - split; [apply insert_non_empty|]. split; [|split; [vm_compute; reflexivity|split; vm_compute; reflexivity]].
    intros k a v. rewrite !lookup_insert_Some. intros [[_ [= _ <-]]|[_ [[_ [= _ <-]]|[_ E]]]]; [eexists; split; reflexivity..|]. rewrite lookup_empty in E. discriminate.
Qed.
Definition ex_lib0 := Cell false (nbits 8 0xab) [].
Definition ex_pub (d : option cell) (x : N) : option cell := match dict_insert all_fin d (nbits 256 x) 256 ([], []) MSet with Ok (_, d) => d | Err _ => None end.
Example C69_case_lib : (exists c, ex_pub (ex_pub None 3) 5 = Some c /\ exists m, history all_fin 256 (Some c) m /\ size m = 2 /\ forall k v, m !! k = Some v -> v = ([], [])) /\
  match store_lib_descr (LibDescr ex_lib0 (ex_pub None 3)) ([], []) with
  | Ok x => load_lib_descr all_fin x = Ok (LibDescr ex_lib0 (ex_pub None 3), ([], [])) /\ match load_lib_descr all_fin (capp x ([true], [])) with Ok (l, r) => r = ([], []) /\ ld_publishers l <> ex_pub None 3 | Err _ => False end
  | Err _ => False
  end.
Proof.
  split.
  - eexists. split; [vm_compute; reflexivity|]. exists (set_map MSet (nbits 256 5) ([], []) (set_map MSet (nbits 256 3) ([], []) ∅)). split; [|split].
    + eapply (h_set _ _ (ex_pub None 3) _ _ _ _ true); [eapply (h_set _ _ None _ _ _ _ true); [constructor|vm_compute; reflexivity]|vm_compute; reflexivity].
    + unfold set_map. cbn [stores]. rewrite !map_size_insert_None; [rewrite map_size_empty; reflexivity|apply lookup_empty|]. rewrite lookup_insert_ne by (vm_compute; discriminate). apply lookup_empty.
    + intros k v. unfold set_map. cbn [stores]. rewrite !lookup_insert_Some, lookup_empty. intros [[_ <-]|[_ [[_ <-]|[_ E]]]]; [reflexivity..|discriminate].
  - vm_compute. split; [reflexivity|]. split; [reflexivity|discriminate].
Qed.
