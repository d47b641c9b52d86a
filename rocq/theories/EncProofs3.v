(** * Proofs for C74: values *)
From Verif Require Import Err BitsProofs IntModel NumModel NumSpec NumProofs AddrModel AddrSpec AddrProofs BigIntModel BigIntSpec BigIntProofs CellModel CodecProofs ChunkModel ChunkSpec ChunkProofs LayoutProofs
  DictModel DictSpec IterModel DictProps BuildProps AbiModel AbiSpec AbiProofs AbiProofs2 AbiProofs4 EncSpec EncProofs EncProofs2.
Local Open Scope N_scope.

Section Main.
Context (fin : list bool -> list cell -> res unit) (sorted : forall A : Type, list (pval * A) -> list (pval * A)).
Context (Hsorted : forall A l, Permutation (sorted A l) l).
Context (Hfin : forall b r, (length b <= 1023)%nat -> (length r <= 4)%nat -> fin b r = Ok tt).
Context (v : version).
Notation write := (write fin sorted v).

Definition total (x : aval) : Prop := encodable v x -> forall O T s rest, inv v O T s -> r_left s = sadd (size_full v x) rest ->
  exists s', write x s = Ok s' /\ inv v O T s' /\ r_left s' = rest /\ keeps s s'.

Lemma total_bits x n f bits : (forall s, write x s = emit v (Size n 0) (on_bits f) s) -> size_full v x = Size n 0 -> (forall b, f b = put bits b) ->
  n <= 1023 -> N.of_nat (length bits) <= n -> (use_max v = false -> N.of_nat (length bits) = n) ->
  forall O T s rest, inv v O T s -> r_left s = sadd (size_full v x) rest -> exists s', write x s = Ok s' /\ inv v O T s' /\ r_left s' = rest /\ keeps s s'.
Proof.
  intros W Sz F N1 N2 N3 O T s rest I L. rewrite W. rewrite Sz in L. apply (emit_total v O T s (Size n 0) rest _ (bits, []) I L).
  - split; cbn; lia.
  - apply appends_bits, F.
  - split; cbn; lia.
  - intros M. apply size_eq; cbn; [apply N3, M|reflexivity].
Qed.
Lemma total_ref x c : (forall s, write x s = emit v (Size 0 1) (store_ref c) s) -> size_full v x = Size 0 1 ->
  forall O T s rest, inv v O T s -> r_left s = sadd (size_full v x) rest -> exists s', write x s = Ok s' /\ inv v O T s' /\ r_left s' = rest /\ keeps s s'.
Proof.
  intros W Sz O T s rest I L. rewrite W. rewrite Sz in L. apply (emit_total v O T s (Size 0 1) rest _ ([], [c]) I L).
  - split; cbn; lia.
  - apply appends_ref.
  - split; cbn; lia.
  - reflexivity.
Qed.
Lemma size_leaf x z : max_short x = z -> exact_short x = z -> size_full v x = (if use_max v then max_short x else exact_short x) -> size_full v x = z.
Proof. intros A B ->. rewrite A, B. destruct (use_max v); reflexivity. Qed.

Lemma total_var x n neg y : 2 <= n <= 128 -> (neg = true -> 0 < y) -> (if neg then y <= 2 ^ (8 * (n - 1) - 1) else y < 2 ^ (8 * (n - 1))) ->
  (use_max v = true \/ neg = false \/ N.size y mod 8 <> 0) ->
  (forall s, write x s = write_var v n neg y s) -> size_full v x = Size (max_or v (var_max n) (var_exact n (N.size y))) 0 ->
  forall O T s rest, inv v O T s -> r_left s = sadd (size_full v x) rest -> exists s', write x s = Ok s' /\ inv v O T s' /\ r_left s' = rest /\ keeps s s'.
Proof.
  intros Hn H0 B M W Sz. pose proof (var_bytes_len n neg y H0 ltac:(lia) B) as Lv. pose proof (var_bytes_exact neg y H0) as Lx. unfold write_var in W. set (bytes := var_bytes neg y) in *. cbv zeta in W.
  pose proof (len_bits_ok' n ltac:(lia)) as Lb.
  assert (Lb7 : len_bits n <= 7). { rewrite Lb. rewrite N.size_log2 by lia. pose proof (proj1 (N.log2_lt_pow2 (n - 1) 7 ltac:(lia))). assert (N.log2 (n - 1) < 7) by (apply H; lia). lia. }
  set (bits := nbits (N.to_nat (len_bits n)) (N.of_nat (length bytes)) ++ bytes_bits bytes).
  assert (Lbits : N.of_nat (length bits) = len_bits n + 8 * N.of_nat (length bytes)) by (unfold bits; rewrite app_length, length_nbits, length_bytes_bits; lia).
  assert (Rd : raw_data bytes (8 * N.of_nat (length bytes)) = bytes_bits bytes).
  { unfold raw_data. rewrite (take_ge (bytes_bits bytes)) by (rewrite length_bytes_bits; lia). replace (N.to_nat (8 * N.of_nat (length bytes)) - 8 * length bytes)%nat with 0%nat by lia. reflexivity. }
  assert (Zx : max_or v (var_max n) (var_exact n (N.size y)) = max_or v (var_max n) (len_bits n + 8 * N.of_nat (length bytes))).
  { unfold max_or. destruct (use_max v); [reflexivity|]. destruct M as [M|M]; [discriminate|]. rewrite (Lx M). unfold var_exact, nbytes. lia. }
  rewrite Zx in Sz. apply (total_bits x (max_or v (var_max n) (len_bits n + 8 * N.of_nat (length bytes))) (fun b => let? b := put_uint (N.of_nat (length bytes)) (len_bits n) b in store_raw_bits bytes (8 * N.of_nat (length bytes)) b) bits).
  - intros s. rewrite W. destruct (N.ltb_spec (n - 1) (N.of_nat (length bytes))); [lia|reflexivity].
  - exact Sz.
  - intros b. unfold put_uint, store_raw_bits. rewrite Rd. unfold put, bits. rewrite !app_length, length_nbits. change MAX_BITS with 1023%nat.
    destruct (Nat.ltb_spec 1023 (length b + N.to_nat (len_bits n))) as [G|G]; cbn [rbind].
    + destruct (Nat.ltb_spec 1023 (length b + (N.to_nat (len_bits n) + length (bytes_bits bytes)))); [reflexivity|lia].
    + rewrite app_length, length_nbits, Nat.add_assoc, app_assoc. reflexivity.
  - unfold max_or, var_max. destruct (use_max v); lia.
  - rewrite Lbits. unfold max_or, var_max. destruct (use_max v); lia.
  - intros U. rewrite Lbits. unfold max_or. rewrite U. reflexivity.
Qed.

(** ** Values in serializers of their own *)
Lemma child_total y : total y -> encodable v y -> exists b, child fin v write y = Ok b /\
  z_bits (csize b) <= 1023 /\ z_refs (csize b) <= 4 /\ z_bits (csize b) <= z_bits (max_size (type_of y)) /\
  (small (max_size (type_of y)) = true -> sle (csize b) (max_size (type_of y)) /\ (use_max v = false -> csize b = size_full v y)).
Proof.
  intros Ty E. destruct (all_sized v y E) as [[S1 S2] _]. unfold child.
  assert (I0 : inv v zero_size (z_bits (size_full v y)) (reserve v y ser_new)).
  { constructor; cbn [reserve ser_new r_cur r_left r_stack zero_size sadd z_bits z_refs]; try lia; try reflexivity; discriminate. }
  destruct (Ty E _ _ _ zero_size I0) as (s' & W & I & L & K).
  { cbn [reserve ser_new r_left]. apply size_eq; cbn; lia. }
  rewrite W. cbn [rbind]. destruct (finalize_total fin Hfin v _ _ _ I L) as (b & F & [B1 B2] & B3). cbn [sadd zero_size z_bits z_refs] in B1, B2.
  assert (E0 : sadd (csize b) zero_size = csize b) by (apply size_eq; cbn; lia). rewrite E0 in B3. exists b. split; [exact F|]. split; [lia|]. split; [lia|]. split; [lia|].
  intros Sm. destruct (small_ok _ Sm) as [Q1 Q2]. destruct K as [K1 K2]; [unfold single; cbn [reserve ser_new r_stack length]; lia|split; cbn [reserve ser_new r_cur r_left zero_size sadd z_bits z_refs]; lia|]. destruct (B3 K1) as [B4 B5]. rewrite L in K2.
  assert (C : r_cur s' = size_full v y).
  { transitivity (sadd (r_cur s') zero_size); [apply size_eq; cbn; lia|]. rewrite K2. apply size_eq; cbn; lia. }
  rewrite C in B4, B5. split; [destruct B4; split; lia|exact B5].
Qed.
Lemma build_child b : z_bits (csize b) <= 1023 -> z_refs (csize b) <= 4 -> build fin b = Ok (chunk_cell b).
Proof. intros A B. apply build_total; [exact Hfin|split; assumption]. Qed.

(** ** Dictionaries *)
Lemma leaf_total kw y b : kw <= 1011 -> z_bits (csize b) <= 1023 -> z_refs (csize b) <= 4 -> z_bits (csize b) <= z_bits (max_size (type_of y)) ->
  exists e, leaf_value fin (fits_leaf kw (z_bits (max_size (type_of y)))) b = Ok e /\ DictProps.fits (N.to_nat kw) e.
Proof.
  intros K B1 B2 B3. unfold leaf_value, fits_leaf. destruct (N.leb_spec (12 + kw + z_bits (max_size (type_of y))) 1023) as [G|G].
  - exists b. split; [reflexivity|]. cbn [csize z_bits z_refs] in *. unfold DictProps.fits. lia.
  - rewrite build_child by assumption. cbn [rbind]. eexists. split; [reflexivity|]. unfold DictProps.fits. cbn [fst snd length]. lia.
Qed.
Lemma history_some n d m k e : (n <= 1023)%nat -> history fin n d m -> m !! k = Some e -> d <> None.
Proof.
  intros Hn H M ->. destruct (history_dict fin n None m Hn H) as (es & D & E). cbn [is_dict] in D. subst es. rewrite <- E in M. discriminate M.
Qed.
Lemma insert_total n d m k e : (n <= 1011)%nat -> history fin n d m -> (forall k' e', m !! k' = Some e' -> DictProps.fits n e') -> length k = n -> DictProps.fits n e ->
  exists f d', dict_insert fin d k n e MSet = Ok (f, d') /\ history fin n d' (<[k := e]> m) /\ (forall k' e', <[k := e]> m !! k' = Some e' -> DictProps.fits n e') /\ d' <> None.
Proof.
  intros Hn H F K E. destruct (C20_updates_succeed fin n d m k e MSet Hfin ltac:(lia) H F K E) as [(d' & I) _]. eexists _, d'. split; [exact I|].
  pose proof (h_set fin n d m k e MSet _ d' H I) as H'. unfold set_map in H'. cbn [stores] in H'.
  split; [exact H'|]. split.
  - intros k' e'. destruct (decide (k = k')) as [->|N]; [rewrite lookup_insert; intros [= <-]; exact E|rewrite lookup_insert_ne by exact N; apply F].
  - eapply history_some; [|exact H'|apply lookup_insert]. lia.
Qed.
Definition well_filled (n : nat) (d : option cell) : Prop := exists m, history fin n d m /\ (forall k e, m !! k = Some e -> DictProps.fits n e).
Lemma array_total t l : Forall total l -> all (fun y => encodable v y /\ type_of y = t) l -> forall i d, well_filled 32 d ->
  exists d', array_dict fin (fits_leaf 32 (z_bits (max_size t))) (map (child fin v write) l) i d = Ok d' /\ (l = [] -> d' = d) /\ (l <> [] \/ d <> None -> d' <> None).
Proof.
  induction 1 as [|y l Hy _ IH]; intros E i d (m & H & F); cbn [map array_dict].
  - exists d. split; [reflexivity|]. split; [reflexivity|]. intros [X|X]; [congruence|exact X].
  - apply all_cons in E. destruct E as [[Ey Tt] E]. subst t. destruct (child_total y Hy Ey) as (b & C & B1 & B2 & B3 & _). rewrite C. cbn [rbind].
    destruct (leaf_total 32 y b ltac:(lia) B1 B2 B3) as (e & L & Fe). rewrite L. cbn [rbind].
    destruct (insert_total 32 d m (nbits 32 i) e ltac:(lia) H F ltac:(apply length_nbits) Fe) as (f & d1 & I & H1 & F1 & N1). rewrite I. cbn [rbind].
    destruct (IH E (i + 1) d1) as (d' & A & _ & N'); [exists (<[nbits 32 i := e]> m); auto|]. exists d'. split; [exact A|]. split; [discriminate|]. intros _. apply N'. right. exact N1.
Qed.
Lemma key_total k t b : key_width t <= 1011 -> key_layout k t b -> key_chunk k = Ok b /\ length b = N.to_nat (key_width t).
Proof.
  intros W K. revert W. destruct K as [n x H|n x H|x|a bits H Hl]; cbn [key_chunk key_width]; intros W.
  - rewrite store_ubig_put by (try exact H; lia). unfold put. cbn [length]. rewrite length_nbits. change MAX_BITS with 1023%nat. destruct (Nat.ltb_spec 1023 (0 + N.to_nat n)); [lia|]. split; reflexivity.
  - rewrite store_big_put by (try exact H; lia). assert (Ln : length (zbits (N.to_nat n) x) = N.to_nat n) by apply length_zbits.
    unfold put. cbn [length]. rewrite Ln. change MAX_BITS with 1023%nat. destruct (Nat.ltb_spec 1023 (0 + N.to_nat n)); [lia|]. split; reflexivity.
  - split; reflexivity.
  - rewrite (store_int_put a bits [] H). unfold put. cbn [length]. rewrite Hl. split; reflexivity.
Qed.
(** The entries in any order. *)
Definition entry_total (k : pty) (t : aty) (e : pval * res chunk) : Prop :=
  (exists b, key_layout (fst e) k b) /\ exists b y, snd e = Ok b /\ type_of y = t /\ z_bits (csize b) <= 1023 /\ z_refs (csize b) <= 4 /\ z_bits (csize b) <= z_bits (max_size (type_of y)).
Lemma map_total k t l : key_width k <= 1011 -> Forall (entry_total k t) l -> forall d, well_filled (N.to_nat (key_width k)) d ->
  exists d', map_dict fin (fits_leaf (key_width k) (z_bits (max_size t))) (N.to_nat (key_width k)) l d = Ok d' /\ (l <> [] \/ d <> None -> d' <> None).
Proof.
  intros W. induction 1 as [|[key rb] l ((kb & Hk) & b & y & Eb & Tt & B1 & B2 & B3) _ IH]; intros d (m & H & F); cbn [map_dict].
  - exists d. split; [reflexivity|]. intros [X|X]; [congruence|exact X].
  - cbn [fst snd] in *. subst rb t. destruct (key_total _ _ _ W Hk) as [Kc Kl]. rewrite Kc. cbn [rbind].
    destruct (leaf_total (key_width k) y b W B1 B2 B3) as (e & L & Fe). rewrite L. cbn [rbind].
    destruct (insert_total (N.to_nat (key_width k)) d m kb e ltac:(lia) H F Kl Fe) as (f & d1 & I & H1 & F1 & N1). rewrite I. cbn [rbind].
    destruct (IH d1) as (d' & A & N'); [exists (<[kb := e]> m); auto|]. exists d'. split; [exact A|]. intros _. apply N'. right. exact N1.
Qed.
Lemma well_filled_none n : well_filled n None.
Proof. exists ∅. split; [constructor|]. intros k e E. rewrite lookup_empty in E. discriminate. Qed.
Lemma total_array t l : Forall total l -> total (VArray t l).
Proof.
  intros Hl E O T s rest I L. cbn [encodable] in E. cbn [AbiModel.write]. destruct (array_total t l Hl E 0 None (well_filled_none 32)) as (d & A & D1 & D2). rewrite A. cbn [rbind].
  assert (D : d = None <-> l = []) by (split; [intros ->; destruct l; [reflexivity|exfalso; apply D2; [left; discriminate|reflexivity]]|exact D1]).
  pose proof (one_if_refs l d D) as Nr. destruct (dchunk_bits d) as (f & Ef). pose proof (one_if_le' l) as O1.
  assert (Sf : size_full v (VArray t l) = Size 33 (max_or v 1 (one_if l))) by (cbn [size_full max_short exact_short]; unfold max_or; destruct (use_max v); reflexivity).
  rewrite Sf in L. apply (emit_total v O T s _ rest _ (capp (nbits 32 (w32 (N.of_nat (length l))), []) (dchunk d)) I L).
  - unfold max_or. destruct (use_max v); split; cbn; lia.
  - apply appends_bind; [apply appends_un; constructor; apply N.mod_lt; discriminate|apply appends_dict, dchunk_ok].
  - rewrite csize_capp. unfold csize. rewrite Ef, Nr. cbn [fst snd]. rewrite length_nbits. unfold max_or. split; cbn [sadd z_bits z_refs length]; [lia|]. destruct (use_max v); cbn; lia.
  - intros M. rewrite csize_capp. unfold csize. rewrite Ef, Nr. cbn [fst snd]. rewrite length_nbits. unfold max_or. rewrite M. apply size_eq; cbn [sadd z_bits z_refs length]; lia.
Qed.
Lemma all_in {A} (P : A -> Prop) l : all P l -> Forall P l.
Proof. induction l as [|x l IH]; intros H; [constructor|]. destruct H. constructor; auto. Qed.
Lemma total_map k t l : Forall (fun e => total (snd e)) l -> total (VMap k t l).
Proof.
  intros Hl (W & M & E) O T s rest I L. cbn [AbiModel.write].
  assert (F : Forall (entry_total k t) (sorted (res chunk) (map (fun e => let '(k, y) := e in (k, child fin v write y)) l))).
  { rewrite (Hsorted _ _). clear - Hl E Hfin. induction Hl as [|[key y] l Hy _ IH]; cbn [map]; [constructor|]. apply all_cons in E. destruct E as [(Hk & Ey & Tt) E]. cbn [snd] in Hy. constructor; [|apply IH, E].
    destruct (child_total y Hy Ey) as (b & C & B1 & B2 & B3 & _). split; [exact Hk|]. exists b, y. cbn [snd]. auto 8. }
  destruct (map_total k t _ W F None (well_filled_none _)) as (d & A & D). rewrite A. cbn [rbind].
  assert (Sf : size_full v (VMap k t l) = Size 1 1).
  { cbn [size_full max_short exact_short]. destruct (use_max v); [reflexivity|]. destruct M as [M|M]; [discriminate|]. destruct l; [congruence|reflexivity]. }
  rewrite Sf in L. destruct (dchunk_bits d) as (f & Ef). assert (Lr : (length (snd (dchunk d)) <= 1)%nat) by (destruct d; cbn; lia). apply (emit_total v O T s _ rest _ (dchunk d) I L).
  - split; cbn; lia.
  - apply appends_dict, dchunk_ok.
  - unfold csize. rewrite Ef. split; cbn; lia.
  - intros U. destruct M as [M|M]; [congruence|]. assert (d <> None).
    { apply D. left. intros X. apply M. pose proof (Hsorted _ (map (fun e => let '(k, y) := e in (k, child fin v write y)) l)) as P. rewrite X in P. apply Permutation_nil in P. destruct l; [reflexivity|discriminate P]. }
    destruct d; [reflexivity|congruence].
Qed.

(** ** The rest *)
Lemma total_none t : total (VOpt t None).
Proof.
  intros _ O T s rest I L. rewrite size_full_opt in L. cbn [exact_short] in L. cbn [AbiModel.write]. fold (opt_max t). pose proof (opt_max_ok' t) as (O1 & O2 & O3).
  apply (emit_total v O T s _ rest _ ([false], []) I L).
  - destruct (use_max v); split; cbn [z_bits z_refs]; lia.
  - apply appends_bool. constructor.
  - destruct (use_max v); split; cbn; lia.
  - intros ->. reflexivity.
Qed.
Lemma appends_opt_some c : appends (fun t => let? t := store_bool true t in putc c t) (capp ([true], []) c).
Proof. apply (appends_bind (store_bool true) ([true], [])); [apply appends_bool; constructor|apply appends_putc]. Qed.
Lemma total_some t y : total y -> total (VOpt t (Some y)).
Proof.
  intros Hy [E Tt] O T s rest I L. subst t. rewrite size_full_opt in L. cbn [AbiModel.write]. fold (opt_max (type_of y)). pose proof (opt_max_ok' (type_of y)) as (O1 & O2 & O3).
  destruct (child_total y Hy E) as (b & C & B1 & B2 & B3 & B4). rewrite C. cbn [rbind]. cbn [exact_short] in L. destruct (all_sized v y E) as [[S1 S2] S3].
  assert (Om : opt_max (type_of y) = if small (max_size (type_of y)) then sadd (Size 1 0) (max_size (type_of y)) else Size 1 1) by reflexivity.
  destruct (small (max_size (type_of y))) eqn:Sm; cbn [rbind].
  - destruct (small_ok _ Sm) as [Q1 Q2]. destruct (B4 eq_refl) as [[B5 B6] B7].
    assert (Zs : (if use_max v then opt_max (type_of y) else Size (1 + N.of_nat (length (fst b))) (N.of_nat (length (snd b)))) = (if use_max v then opt_max (type_of y) else sadd (Size 1 0) (exact_short y))).
    { destruct (use_max v) eqn:M; [reflexivity|]. rewrite S3 by (try reflexivity; lia). rewrite <- (B7 eq_refl). reflexivity. }
    rewrite <- Zs in L. apply (emit_total v O T s _ rest _ (capp ([true], []) b) I L).
    + destruct (use_max v); split; cbn [z_bits z_refs]; cbn [csize z_bits z_refs] in B5, B6; lia.
    + apply appends_opt_some.
    + rewrite csize_capp, Om. destruct (use_max v); split; cbn [sadd z_bits z_refs csize fst snd length] in *; lia.
    + intros ->. rewrite csize_capp. apply size_eq; cbn; lia.
  - rewrite build_child by assumption. cbn [rbind]. rewrite Om in L |- *. assert (Z : (if use_max v then Size 1 1 else Size 1 1) = Size 1 1) by (destruct (use_max v); reflexivity). rewrite Z in L |- *.
    apply (emit_total v O T s _ rest _ (capp ([true], []) ([], [chunk_cell b])) I L).
    + split; cbn; lia.
    + apply appends_opt_some.
    + split; cbn; lia.
    + reflexivity.
Qed.
Lemma total_seq l : Forall total l -> all (encodable v) l -> forall O T s rest, inv v O T s -> r_left s = sadd (ssum (map (size_full v) l)) rest ->
  exists s', foldm write l s = Ok s' /\ inv v O T s' /\ r_left s' = rest /\ keeps s s'.
Proof.
  induction 1 as [|x l Hx _ IH]; intros E O T s rest I L; cbn [foldm].
  - exists s. split; [reflexivity|]. split; [exact I|]. split; [rewrite L; apply size_eq; cbn; lia|apply keeps_refl].
  - apply all_cons in E. destruct E as [Ex E]. cbn [map] in L. rewrite ssum_cons in L.
    destruct (Hx Ex O T s (sadd (ssum (map (size_full v) l)) rest) I) as (s1 & W & I1 & L1 & K1); [rewrite L; apply size_eq; cbn; lia|]. rewrite W. cbn [rbind].
    destruct (IH E O T s1 rest I1 L1) as (s' & W' & I' & L' & K'). exists s'. split; [exact W'|]. split; [exact I'|]. split; [exact L'|]. eapply keeps_trans; eassumption.
Qed.
Lemma total_ref_value y : total y -> total (VRef y).
Proof.
  intros Hy E. cbn [encodable] in E. destruct (child_total y Hy E) as (b & C & B1 & B2 & _). apply (total_ref _ (chunk_cell b)).
  - intros s. cbn [AbiModel.write]. rewrite C. cbn [rbind]. rewrite build_child by assumption. reflexivity.
  - apply size_leaf; reflexivity.
Qed.
Lemma all_total x : total x.
Proof.
  induction x using aval_nest; auto using total_array, total_map, total_none, total_some, total_ref_value.
  - intros [E1 E2]. eapply total_bits; [reflexivity|apply size_leaf; reflexivity|intros b; apply store_ubig_put; [exact E1|exact E2]|exact E1|rewrite length_nbits; lia|intros _; rewrite length_nbits; lia].
  - intros [E1 E2]. assert (Ln : length (zbits (N.to_nat n) x) = N.to_nat n) by apply length_zbits.
    eapply total_bits; [reflexivity|apply size_leaf; reflexivity|intros b; apply store_big_put; [exact E1|exact E2]|exact E1|rewrite Ln; lia|intros _; rewrite Ln; lia].
  - intros [E1 E2]. apply (total_var _ n false x); [exact E1|discriminate|exact E2|auto|reflexivity|]. cbn [size_full max_short exact_short]. unfold max_or. destruct (use_max v); reflexivity.
  - intros (E1 & E2 & E3). destruct (varint_abs n x ltac:(lia) E2) as [A _]. apply (total_var _ n (x <? 0)%Z (Z.abs_N x)); [exact E1|lia|exact A| |reflexivity|].
    + destruct E3 as [E3|[E3|E3]]; [auto| |auto]. right. left. lia.
    + cbn [size_full max_short exact_short]. unfold max_or. destruct (use_max v); reflexivity.
  - intros _. eapply (total_bits _ 1 (put [b]) [b]); [reflexivity|apply size_leaf; reflexivity|reflexivity|lia|cbn; lia|reflexivity].
  - intros _. apply (total_ref _ c); [reflexivity|apply size_leaf; reflexivity].
  - intros (bits & E). pose proof (addr_len' a bits E) as La. pose proof (int_len a bits E) as Li. change INT_BITS_MAX with 591 in La.
    apply (total_bits _ (max_or v INT_BITS_MAX (int_bit_len a)) (store_int a) bits); [reflexivity| |intros b; apply store_int_put, E|..]; unfold max_or; change INT_BITS_MAX with 591.
    + cbn [size_full max_short exact_short]. destruct (use_max v); reflexivity.
    + destruct (use_max v); lia.
    + destruct (use_max v); lia.
    + intros ->. exact Li.
  - intros _. destruct (bytes_cell_total fin Hfin v bs) as (c & E). apply (total_ref _ c); [intros s; cbn [AbiModel.write]; rewrite E; reflexivity|apply size_leaf; reflexivity].
  - intros _. destruct (bytes_cell_total fin Hfin v bs) as (c & E). apply (total_ref _ c); [intros s; cbn [AbiModel.write]; rewrite E; reflexivity|apply size_leaf; reflexivity].
  - intros _. destruct (bytes_cell_total fin Hfin v bs) as (c & E). apply (total_ref _ c); [intros s; cbn [AbiModel.write]; rewrite E; reflexivity|apply size_leaf; reflexivity].
  - intros E. cbn [encodable] in E. destruct (token_len x E) as (bits & Hc & A & B). intros O T s rest I L. cbn [AbiModel.write].
    assert (Sf : size_full v (VToken x) = Size (max_or v (vk_max_bits Tokens) (vk_unwrap_bit_len Tokens x)) 0) by (cbn [size_full max_short exact_short]; unfold max_or; destruct (use_max v); reflexivity).
    rewrite Sf in L. apply (emit_total v O T s _ rest _ (bits, []) I L).
    + unfold max_or. change (vk_max_bits Tokens) with 124. destruct (use_max v); split; cbn [z_bits z_refs]; lia.
    + apply appends_vk, Hc.
    + unfold max_or. change (vk_max_bits Tokens) with 124. destruct (use_max v); split; cbn [csize fst snd length z_bits z_refs]; lia.
    + intros M. unfold max_or. rewrite M. apply size_eq; cbn [csize fst snd length z_bits z_refs]; [exact A|reflexivity].
  - intros E O T s rest I L. cbn [encodable] in E. cbn [AbiModel.write]. apply total_seq; assumption.
  - intros [].
Qed.

Lemma encode_value x : encodable v x -> exists b c, make_builder fin sorted v x = Ok b /\ make_cell fin sorted v x = Ok c.
Proof.
  intros E. destruct (child_total x (all_total x) E) as (b & C & B1 & B2 & _). exists b, (chunk_cell b). unfold make_cell, make_builder. rewrite C. cbn [rbind]. split; [reflexivity|apply build_child; assumption].
Qed.
Lemma encode_tuple l : all (encodable v) l -> exists b c, tuple_to_builder fin sorted v l = Ok b /\ tuple_to_cell fin sorted v l = Ok c.
Proof.
  intros E. assert (S0 : forall l s, fold_left (fun s x => reserve v x s) l s = Ser (r_cur s) (sadd (r_left s) (ssum (map (size_full v) l))) (r_stack s)).
  { clear. induction l as [|x l IH]; intros [c f st]; cbn [fold_left map]; [f_equal; apply size_eq; cbn; lia|]. rewrite IH, ssum_cons. cbn [reserve r_cur r_left r_stack]. f_equal. apply size_eq; cbn; lia. }
  unfold tuple_to_cell, tuple_to_builder. rewrite S0. cbn [ser_new r_cur r_left r_stack].
  set (s := Ser zero_size _ []). assert (I0 : inv v zero_size (z_bits (ssum (map (size_full v) l))) s).
  { constructor; subst s; cbn [r_cur r_left r_stack zero_size sadd z_bits z_refs]; try lia; try reflexivity; discriminate. }
  destruct (total_seq l ltac:(apply Forall_forall; intros; apply all_total) E _ _ s zero_size I0) as (s' & W & I & L & _); [subst s; cbn [r_left]; apply size_eq; cbn; lia|].
  rewrite W. cbn [rbind]. destruct (finalize_total fin Hfin v _ _ _ I L) as (b & F & [B1 B2] & _). cbn [sadd zero_size z_bits z_refs] in B1, B2. rewrite F. cbn [rbind]. exists b, (chunk_cell b). split; [reflexivity|]. apply build_child; lia.
Qed.
End Main.
