(** * C39: currency collections *)
From stdpp Require Import gmap.
From Coq Require Import Sorting.Sorted.
From Verif Require Import Err BitsProofs IntModel DictModel DictSpec DictTree DictProofs DictProofs2 DictExist DictOrder LabelModel DictProps BuildModel BuildProps Var248Model NumModel NumSpec NumProofs Var248Proofs NumProps AddrProps
  CellModel ChunkModel ChunkSpec ChunkProofs CurrencyModel CurrencySpec CurrencyProofs.
Local Open Scope N_scope.

(** ** Extra currencies *)
(** Addition: for every currency the exact sum, zero results being dropped; it fails exactly
    when some sum does not fit, except that an unusual dictionary may fail to be updated (its
    labels are not canonical, its values hold more than an amount, or cells are refused). *)
Theorem C39_add fin R V d1 d2 m1 m2 : updatable fin R -> amounts V -> holds R V d1 m1 -> holds any_dict V d2 m2 ->
  match extra_checked_add fin d1 d2 with
  | Ok d => (forall id, amount m1 id + amount m2 id <= MAX248) /\
      exists m, holds R V d m /\ (forall id, amount m id = amount m1 id + amount m2 id) /\
        (forall id, m2 !! id = None -> m !! id = m1 !! id) /\ (forall id, m2 !! id <> None -> m !! id <> Some 0)
  | Err e => (e = IntOverflow /\ exists id, MAX248 < amount m1 id + amount m2 id) \/ ~ sturdy fin R V
  end.
Proof.
  intros U HV H1 H2. destruct (updatable_ok fin R U) as [HRR HRW]. unfold extra_checked_add.
  destruct (cur_iter_ok V d2 m2 (extra_step fin v248_checked_add) d1 HV H2) as (ps & ND & E & F & ->).
  pose proof (steps_ok fin R V HRR HRW HV v248_checked_add g_add ps add_op ND F d1 m1 H1) as S. rewrite <- E in S.
  assert (EL : forall id b, (id, b) ∈ ps <-> m2 !! id = Some b) by (intros; rewrite E; apply elem_of_list_to_map; exact ND).
  assert (M1 : forall id, amount m1 id <= MAX248).
  { intros id. unfold amount. destruct (m1 !! id) as [a|] eqn:X; [|vm_compute; discriminate]. destruct (N.ltb_spec id (2 ^ 32)) as [L|L].
    - apply (get_ok R V HRR HV d1 m1 id H1 L). exact X.
    - apply holds_alt in H1. destruct H1 as (es & _ & [_ A]). rewrite (A id L) in X. discriminate. }
  destruct (cfold (extra_step fin v248_checked_add) ps d1) as [d|e].
  - destruct S as [S1 (m & Hm & S2)].
    assert (B : forall id b, m2 !! id = Some b -> amount m1 id + b <= MAX248 /\ g_add (amount m1 id) b = Some (amount m1 id + b)).
    { intros id b X. apply EL in X. specialize (S1 id b X). unfold g_add in *. destruct (N.leb_spec (amount m1 id + b) MAX248); [auto|contradiction]. }
    split.
    { intros id. unfold amount at 2. destruct (m2 !! id) as [b|] eqn:X; [apply (B id b X)|]. rewrite N.add_0_r. apply M1. }
    exists m. split; [exact Hm|]. split; [|split].
    + intros id. unfold amount at 1 3. rewrite S2. destruct (m2 !! id) as [b|] eqn:X; [|rewrite N.add_0_r; reflexivity].
      rewrite (proj2 (B id b X)). cbn [nz]. destruct (N.eqb_spec (amount m1 id + b) 0); lia.
    + intros id X. rewrite S2, X. reflexivity.
    + intros id X Z. rewrite S2 in Z. destruct (m2 !! id) as [b|] eqn:Y; [|contradiction]. rewrite (proj2 (B id b Y)) in Z. cbn [nz] in Z. destruct (N.eqb_spec (amount m1 id + b) 0); [discriminate|]. injection Z as Z. lia.
  - destruct S as [[-> (id & b & X & G)]|S]; [left|right; exact S]. split; [reflexivity|]. exists id. apply EL in X. unfold amount at 2. rewrite X.
    unfold g_add in G. destruct (N.leb_spec (amount m1 id + b) MAX248); [discriminate|assumption].
Qed.
Print Assumptions C39_add.
(** Subtraction likewise; it fails when some difference is negative. *)
Theorem C39_sub fin R V d1 d2 m1 m2 : updatable fin R -> amounts V -> holds R V d1 m1 -> holds any_dict V d2 m2 ->
  match extra_checked_sub fin d1 d2 with
  | Ok d => (forall id, amount m2 id <= amount m1 id) /\
      exists m, holds R V d m /\ (forall id, amount m id = amount m1 id - amount m2 id) /\
        (forall id, m2 !! id = None -> m !! id = m1 !! id) /\ (forall id, m2 !! id <> None -> m !! id <> Some 0)
  | Err e => (e = IntOverflow /\ exists id, amount m1 id < amount m2 id) \/ ~ sturdy fin R V
  end.
Proof.
  intros U HV H1 H2. destruct (updatable_ok fin R U) as [HRR HRW]. unfold extra_checked_sub.
  destruct (cur_iter_ok V d2 m2 (extra_step fin v248_checked_sub) d1 HV H2) as (ps & ND & E & F & ->).
  pose proof (steps_ok fin R V HRR HRW HV v248_checked_sub g_sub ps sub_op ND F d1 m1 H1) as S. rewrite <- E in S.
  assert (EL : forall id b, (id, b) ∈ ps <-> m2 !! id = Some b) by (intros; rewrite E; apply elem_of_list_to_map; exact ND).
  destruct (cfold (extra_step fin v248_checked_sub) ps d1) as [d|e].
  - destruct S as [S1 (m & Hm & S2)].
    assert (B : forall id b, m2 !! id = Some b -> b <= amount m1 id /\ g_sub (amount m1 id) b = Some (amount m1 id - b)).
    { intros id b X. apply EL in X. specialize (S1 id b X). unfold g_sub in *. destruct (N.leb_spec b (amount m1 id)); [auto|contradiction]. }
    split.
    { intros id. unfold amount at 1. destruct (m2 !! id) as [b|] eqn:X; [apply (B id b X)|]. lia. }
    exists m. split; [exact Hm|]. split; [|split].
    + intros id. unfold amount at 1 3. rewrite S2. destruct (m2 !! id) as [b|] eqn:X; [|rewrite N.sub_0_r; reflexivity].
      rewrite (proj2 (B id b X)). cbn [nz]. destruct (N.eqb_spec (amount m1 id - b) 0); lia.
    + intros id X. rewrite S2, X. reflexivity.
    + intros id X Z. rewrite S2 in Z. destruct (m2 !! id) as [b|] eqn:Y; [|contradiction]. rewrite (proj2 (B id b Y)) in Z. cbn [nz] in Z. destruct (N.eqb_spec (amount m1 id - b) 0); [discriminate|]. injection Z as Z. lia.
  - destruct S as [[-> (id & b & X & G)]|S]; [left|right; exact S]. split; [reflexivity|]. exists id. apply EL in X. unfold amount at 2. rewrite X.
    unfold g_sub in G. destruct (N.leb_spec b (amount m1 id)); [discriminate|assumption].
Qed.
Print Assumptions C39_sub.
(** Subtraction undoes addition. *)
Theorem C39_undo fin R V d1 d2 d m1 m2 : updatable fin R -> amounts V -> holds R V d1 m1 -> holds any_dict V d2 m2 ->
  extra_checked_add fin d1 d2 = Ok d ->
  match extra_checked_sub fin d d2 with
  | Ok d' => exists m, holds R V d' m /\ forall id, amount m id = amount m1 id
  | Err e => ~ sturdy fin R V
  end.
Proof.
  intros U HV H1 H2 E. pose proof (C39_add fin R V d1 d2 m1 m2 U HV H1 H2) as A. rewrite E in A. destruct A as (_ & m & Hm & A & _).
  pose proof (C39_sub fin R V d d2 m m2 U HV Hm H2) as S. destruct (extra_checked_sub fin d d2) as [d'|e].
  - destruct S as (_ & m' & Hm' & S & _). exists m'. split; [exact Hm'|]. intros id. rewrite S, A. lia.
  - destruct S as [[_ (id & L)]|S]; [|exact S]. rewrite A in L. lia.
Qed.
Print Assumptions C39_undo.
(** The smaller amount of each currency; currencies that the other collection does not have
    are dropped, or kept with their zero. *)
Theorem C39_clamp fin R V d1 d2 m1 m2 : updatable fin R -> amounts V -> holds R V d1 m1 -> holds any_dict V d2 m2 ->
  match extra_checked_clamp fin d1 d2 with
  | Ok d => exists m, holds R V d m /\ (forall id, amount m id = N.min (amount m1 id) (amount m2 id)) /\
      (forall id, m1 !! id = None -> m !! id = None)
  | Err e => ~ sturdy fin R V
  end.
Proof.
  intros U HV H1 H2. destruct (updatable_ok fin R U) as [HRR HRW]. unfold extra_checked_clamp.
  destruct (cur_iter_ok V d1 m1 (fun id balance r => let? o := cur_get d2 id in
    match o with
    | Some other_balance => match v248_cmp balance other_balance with Gt => cur_set fin r id other_balance | _ => Ok r end
    | None => if negb (v248_is_zero balance) then cur_remove_raw fin r id else Ok r
    end) d1 HV (holds_weaken fin R V d1 m1 U H1)) as (ps & ND & E & F & ->).
  set (g := fun id a => match m2 !! id with Some b => Some (N.min a b) | None => if a =? 0 then Some 0 else None end).
  match goal with |- match cfold ?f _ _ with _ => _ end => pose proof (edits_ok fin R V f g ps) as S end.
  assert (EL : forall id b, (id, b) ∈ ps -> m1 !! id = Some b) by (intros id b X; rewrite E; apply elem_of_list_to_map_1; assumption).
  lapply S; clear S.
  2:{ intros id a d m Hi Ha Hm X. destruct (get_ok any_dict V reads_any HV d2 m2 id H2 Hi) as [-> Hb]. cbn [rbind]. unfold g. destruct (m2 !! id) as [b|] eqn:Y; cbn [option_map].
      - specialize (Hb b eq_refl). destruct (conv_ok a Ha) as [Oa Ea], (conv_ok b Hb) as [Ob Eb]. rewrite v248_cmp_ok by assumption. rewrite Ea, Eb.
        destruct (N.compare_spec a b) as [C|C|C].
        + exists m. split; [exact Hm|]. split; [rewrite X; f_equal; lia|auto].
        + exists m. split; [exact Hm|]. split; [rewrite X; f_equal; lia|auto].
        + pose proof (set_ok fin R V HRR HRW HV d m id (conv b) Hm Hi Ob ltac:(rewrite Eb; exact Hb)) as T. destruct (cur_set fin d id (conv b)) as [d'|e]; [|exact T]. rewrite Eb in T.
          exists (<[id := b]> m). split; [exact T|]. split; [rewrite lookup_insert; f_equal; lia|]. intros i Ni. apply lookup_insert_ne. congruence.
      - rewrite is_zero_val. destruct (conv_ok a Ha) as [Oa Ea]. rewrite Ea. destruct (N.eqb_spec a 0) as [Z|Z]; cbn [negb].
        + exists m. split; [exact Hm|]. split; [congruence|auto].
        + pose proof (cur_remove_raw_ok fin R V HRR HRW HV d m id Hm Hi) as T. destruct (cur_remove_raw fin d id) as [d'|e]; [|exact T].
          exists (delete id m). split; [exact T|]. split; [apply lookup_delete|]. intros i Ni. apply lookup_delete_ne. congruence. }
  intros S. specialize (S ND F d1 m1 H1 EL). rewrite <- E in S.
  match goal with |- match ?X with _ => _ end => destruct X as [d|e] end; [|exact S].
  destruct S as (m & Hm & S). exists m. split; [exact Hm|]. split.
  - intros id. unfold amount at 1 2. rewrite S. destruct (m1 !! id) as [a|]; [|lia]. unfold g, amount. destruct (m2 !! id) as [b|]; [reflexivity|]. destruct (N.eqb_spec a 0); lia.
  - intros id X. rewrite S, X. reflexivity.
Qed.
Print Assumptions C39_clamp.
(** Normalization drops exactly the currencies with a zero amount. *)
Theorem C39_normalized fin R V d m : updatable fin R -> amounts V -> holds R V d m ->
  match extra_normalized fin d with
  | Ok d' => exists m', holds R V d' m' /\ forall id, m' !! id = match m !! id with Some 0 => None | o => o end
  | Err e => ~ sturdy fin R V
  end.
Proof.
  intros U HV H1. destruct (updatable_ok fin R U) as [HRR HRW]. unfold extra_normalized.
  destruct (cur_iter_ok V d m (fun id a r => if v248_is_zero a then cur_remove fin r id else Ok r) d HV (holds_weaken fin R V d m U H1)) as (ps & ND & E & F & ->).
  match goal with |- match cfold ?f _ _ with _ => _ end => pose proof (edits_ok fin R V f (fun _ a => if a =? 0 then None else Some a) ps) as S end.
  assert (EL : forall id b, (id, b) ∈ ps -> m !! id = Some b) by (intros id b X; rewrite E; apply elem_of_list_to_map_1; assumption).
  lapply S; clear S.
  2:{ intros id a d0 m0 Hi Ha Hm X. rewrite is_zero_val. destruct (conv_ok a Ha) as [Oa ->]. destruct (N.eqb_spec a 0) as [Z|Z].
      - pose proof (cur_remove_ok fin R V HRR HRW HV d0 m0 id Hm Hi) as T. destruct (cur_remove fin d0 id) as [d'|e]; [|exact T].
        exists (delete id m0). split; [exact T|]. split; [apply lookup_delete|]. intros i Ni. apply lookup_delete_ne. congruence.
      - exists m0. auto. }
  intros S. specialize (S ND F d m H1 EL). rewrite <- E in S.
  match goal with |- match ?X with _ => _ end => destruct X as [d'|e] end; [|exact S].
  destruct S as (m' & Hm & S). exists m'. split; [exact Hm|]. intros id. rewrite S. destruct (m !! id) as [[|a]|]; reflexivity.
Qed.
Print Assumptions C39_normalized.
(** Reading one amount. *)
Theorem C39_get V d m id : amounts V -> holds any_dict V d m -> id < 2 ^ 32 ->
  exists o, cur_get d id = Ok o /\ option_map v248_val o = m !! id.
Proof.
  intros HV H Hi. destruct (get_ok any_dict V reads_any HV d m id H Hi) as [-> B]. eexists. split; [reflexivity|].
  destruct (m !! id) as [a|]; [|reflexivity]. cbn [option_map]. rewrite (proj2 (conv_ok a (B a eq_refl))). reflexivity.
Qed.
Print Assumptions C39_get.

(** ** Building a collection from amounts in any order *)
Definition by_id (a b : N * v248) : Prop := fst a <= fst b.
Lemma key_num_unsigned (k : list bool) : key_num false k = Z.of_N (bval k).
Proof. destruct k as [|b k]; [reflexivity|]. cbn [key_num]. rewrite bval_cons. destruct b; cbn [N.b2n]; rewrite ?N2Z.inj_add, ?N2Z.inj_mul, ?N2Z.inj_pow, ?nat_N_Z; lia. Qed.
Lemma build_ext fin f g n es : (forall a b, f a b = g a b) -> build_dict fin f n es = build_dict fin g n es.
Proof.
  intros E. unfold build_dict. assert (X : forall es prev st, build_loop fin f n es prev st = build_loop fin g n es prev st); [|rewrite X; reflexivity].
  clear es. induction es as [|[k v] es IH]; intros prev st; cbn [build_loop]; [reflexivity|].
  assert (Y : match prev with Some p => f k p | None => Gt end = match prev with Some p => g k p | None => Gt end) by (destruct prev; [apply E|reflexivity]). rewrite Y.
  destruct (match prev with Some p => g k p | None => Gt end); [apply IH|reflexivity|]. destruct (m_reduce fin st k n) as [[lcp st']|]; cbn [rbind]; [apply IH|reflexivity].
Qed.
Lemma v248_entries_ok l : Forall (fun p => fst p < 2 ^ 32 /\ v248_ok (snd p)) l ->
  match v248_entries l with
  | Ok es => Forall2 (entry_of amount_exact) es (map (fun p => (fst p, v248_val (snd p))) l) /\ Forall (fun e => (length (fst (snd e)) <= 253)%nat /\ snd (snd e) = []) es /\ Forall (fun p => v248_val (snd p) <= MAX248) l
  | Err e => e = CellOverflow /\ exists p, p ∈ l /\ MAX248 < v248_val (snd p)
  end.
Proof.
  induction l as [|[id a] l IH]; intros F; cbn [v248_entries map fst snd]; [split; constructor; constructor|].
  inversion_clear F as [|? ? [L O] F']. cbn [fst snd] in *. destruct (N.leb_spec (v248_val a) MAX248) as [M|M].
  - destruct (chunk_value amount_exact a ltac:(right; right; reflexivity) O M) as (b & -> & Hb & Lb). cbn [rbind]. specialize (IH F'). destruct (v248_entries l) as [es|e]; cbn [rbind].
    + destruct IH as (I1 & I2 & I3). split; [constructor; [split; [reflexivity|split; [exact L|exact Hb]]|exact I1]|]. split; [constructor; [cbn [fst snd]; auto|exact I2]|constructor; [exact M|exact I3]].
    + destruct IH as (-> & p & Hp & Mp). split; [reflexivity|]. exists p. split; [right; exact Hp|exact Mp].
  - unfold v248_chunk. pose proof (C35_store248 a [] O) as S. destruct (store_v248 a []) as [b|e]; cbn [rbind]; [destruct S as [S _]; lia|].
    destruct S as [-> _]. split; [reflexivity|]. exists (id, a). split; [left|exact M].
Qed.
(** Any list of amounts gives the collection of the first amount for each id, in the order the
    sort leaves them (equal ids may come out in any order); it fails only for numbers out of
    range, or when cells are refused. *)
Theorem C39_from_amounts fin sort l : Permutation (sort l) l -> Sorted by_id (sort l) -> Forall (fun p => fst p < 2 ^ 32 /\ v248_ok (snd p)) l ->
  match extra_from_iter fin sort l with
  | Ok d => exists m, holds (canonical_dict fin) amount_exact d m /\ m = list_to_map (map (fun p => (fst p, v248_val (snd p))) (sort l)) /\
      (forall id, m !! id <> None <-> id ∈ map fst l) /\ (forall id a, m !! id = Some a -> exists x, (id, x) ∈ l /\ v248_val x = a) /\ Forall (fun p => v248_val (snd p) <= MAX248) l
  | Err e => (e = CellOverflow /\ exists p, p ∈ l /\ MAX248 < v248_val (snd p)) \/ ~ sturdy fin (canonical_dict fin) amount_exact
  end.
Proof.
  intros P S F. unfold extra_from_iter. assert (F' : Forall (fun p => fst p < 2 ^ 32 /\ v248_ok (snd p)) (sort l)) by (rewrite P; exact F).
  pose proof (v248_entries_ok (sort l) F') as V. destruct (v248_entries (sort l)) as [es|e]; cbn [rbind].
  2:{ left. destruct V as (-> & p & Hp & Mp). split; [reflexivity|]. exists p. split; [rewrite <- P; exact Hp|exact Mp]. }
  destruct V as (V1 & V2 & V3). rewrite (build_ext fin _ (num_ord false)).
  2:{ intros a b. unfold num_ord. rewrite !key_num_unsigned, N2Z.inj_compare. reflexivity. }
  set (ps := map (fun p => (fst p, v248_val (snd p))) (sort l)) in *.
  assert (K : keys_of_width 32 es) by (clear - V1; induction V1 as [|e p es ps (E & _) V IH]; constructor; [rewrite E; apply length_nbits|exact IH]).
  assert (ND : nondecreasing false es).
  { unfold nondecreasing. assert (S' : Sorted (fun a b : N * N => fst a <= fst b) ps).
    { unfold ps. clear - S. induction S as [|x q S IH H]; cbn [map]; [constructor|]. constructor; [exact IH|]. destruct H as [|y q' H]; constructor. exact H. }
    clear - V1 S'. induction V1 as [|e p es ps (E & L & _) V IH]; [constructor|]. inversion_clear S' as [|? ? S1 S2]. constructor; [apply IH, S1|].
    destruct V as [|e' p' es' ps' (E' & L' & _) V]; [constructor|]. inversion_clear S2. constructor. rewrite E, E', !key_num_unsigned, !bval_nbits_small by assumption. lia. }
  destruct (build_dict fin (num_ord false) 32 es) as [d|e] eqn:B.
  - destruct (C26_build fin 32 es d ltac:(lia) K ND B) as (es' & D & M). exists (list_to_map ps). split.
    { apply holds_alt. exists es'. split; [exact D|]. rewrite M. apply entries_agree, V1. }
    split; [reflexivity|]. split; [|split; [|rewrite <- P; exact V3]].
    + intros id. rewrite <- P. assert (Q : map fst (sort l) = map fst ps) by (unfold ps; rewrite map_map; reflexivity). rewrite Q. split.
      * intros X. destruct (decide (id ∈ map fst ps)) as [Y|Y]; [exact Y|]. destruct X. apply not_elem_of_list_to_map_1, Y.
      * intros X Y. apply not_elem_of_list_to_map_2 in Y. exact (Y X).
    + intros id a X. apply elem_of_list_to_map_2 in X. unfold ps in X. apply elem_of_list_fmap in X. destruct X as ([i x] & [= -> ->] & X). exists x. split; [rewrite <- P; exact X|reflexivity].
  - right. intros (_ & _ & Hfin). destruct (C26_build_succeeds fin 32 es Hfin ltac:(lia) K ND) as (d & B'); [|congruence].
    eapply List.Forall_impl; [|exact V2]. intros x [A1 A2]. rewrite A2. cbn [length]. lia.
Qed.
Print Assumptions C39_from_amounts.

(** ** Collections with native tokens *)
Definition TOKENS_MAX : N := 2 ^ 120 - 1.
Lemma tokens_add a b : a < 2 ^ 128 -> b < 2 ^ 128 -> vk_checked_add Tokens a b = if a + b <=? TOKENS_MAX then Some (a + b) else None.
Proof.
  intros Ha Hb. destruct (C36_checked Tokens a b Ha Hb) as (A & _). cbn zeta in A. change (256 ^ vk_bytes Tokens - 1) with TOKENS_MAX in A.
  destruct (vk_checked_add Tokens a b) as [r|]; cbn [exactly] in A; destruct (N.leb_spec (a + b) TOKENS_MAX); try reflexivity; try (f_equal; lia); lia.
Qed.
Lemma tokens_sub a b : a < 2 ^ 128 -> b < 2 ^ 128 -> vk_checked_sub Tokens a b = if (b <=? a) && (a - b <=? TOKENS_MAX) then Some (a - b) else None.
Proof.
  intros Ha Hb. destruct (C36_checked Tokens a b Ha Hb) as (_ & A & _). cbn zeta in A. change (256 ^ vk_bytes Tokens - 1) with TOKENS_MAX in A.
  destruct (vk_checked_sub Tokens a b) as [r|]; cbn [exactly] in A; destruct (N.leb_spec b a), (N.leb_spec (a - b) TOKENS_MAX); cbn [andb]; try reflexivity; try (f_equal; lia); lia.
Qed.
(** The tokens and each extra currency are added exactly. *)
Theorem C39_collection_add fin R V t1 d1 t2 d2 m1 m2 : updatable fin R -> amounts V -> holds R V d1 m1 -> holds any_dict V d2 m2 -> t1 <= TOKENS_MAX -> t2 <= TOKENS_MAX ->
  match cc_checked_add fin (Currency t1 d1) (Currency t2 d2) with
  | Ok c => cc_tokens c = t1 + t2 /\ t1 + t2 <= TOKENS_MAX /\ exists m, holds R V (cc_other c) m /\ forall id, amount m id = amount m1 id + amount m2 id
  | Err e => (e = IntOverflow /\ (TOKENS_MAX < t1 + t2 \/ exists id, MAX248 < amount m1 id + amount m2 id)) \/ ~ sturdy fin R V
  end.
Proof.
  intros U HV H1 H2 L1 L2. assert (T : TOKENS_MAX < 2 ^ 128) by reflexivity. unfold cc_checked_add. cbn [cc_tokens cc_other]. rewrite tokens_add by lia.
  destruct (N.leb_spec (t1 + t2) TOKENS_MAX) as [L|L]; [|left; auto].
  pose proof (C39_add fin R V d1 d2 m1 m2 U HV H1 H2) as A. destruct (extra_checked_add fin d1 d2) as [d|e]; cbn [rbind cc_tokens cc_other].
  - destruct A as (_ & m & Hm & A & _). split; [reflexivity|]. split; [exact L|]. exists m. auto.
  - destruct A as [[-> A]|A]; auto.
Qed.
Print Assumptions C39_collection_add.
Theorem C39_collection_sub fin R V t1 d1 t2 d2 m1 m2 : updatable fin R -> amounts V -> holds R V d1 m1 -> holds any_dict V d2 m2 -> t1 <= TOKENS_MAX -> t2 <= TOKENS_MAX ->
  match cc_checked_sub fin (Currency t1 d1) (Currency t2 d2) with
  | Ok c => t2 <= t1 /\ cc_tokens c = t1 - t2 /\ (forall id, amount m2 id <= amount m1 id) /\ exists m, holds R V (cc_other c) m /\ forall id, amount m id = amount m1 id - amount m2 id
  | Err e => (e = IntOverflow /\ (t1 < t2 \/ exists id, amount m1 id < amount m2 id)) \/ ~ sturdy fin R V
  end.
Proof.
  intros U HV H1 H2 L1 L2. assert (T : TOKENS_MAX < 2 ^ 128) by reflexivity. unfold cc_checked_sub. cbn [cc_tokens cc_other]. rewrite tokens_sub by lia.
  destruct (N.leb_spec t2 t1) as [L|L]; cbn [andb]; [|left; auto]. destruct (N.leb_spec (t1 - t2) TOKENS_MAX); [|lia].
  pose proof (C39_sub fin R V d1 d2 m1 m2 U HV H1 H2) as A. destruct (extra_checked_sub fin d1 d2) as [d|e]; cbn [rbind cc_tokens cc_other].
  - destruct A as (A0 & m & Hm & A & _). split; [exact L|]. split; [reflexivity|]. split; [exact A0|]. exists m. auto.
  - destruct A as [[-> A]|A]; auto.
Qed.
Print Assumptions C39_collection_sub.
Theorem C39_collection_clamp fin R V t1 d1 t2 d2 m1 m2 : updatable fin R -> amounts V -> holds R V d1 m1 -> holds any_dict V d2 m2 ->
  match cc_checked_clamp fin (Currency t1 d1) (Currency t2 d2) with
  | Ok c => cc_tokens c = N.min t1 t2 /\ exists m, holds R V (cc_other c) m /\ forall id, amount m id = N.min (amount m1 id) (amount m2 id)
  | Err e => ~ sturdy fin R V
  end.
Proof.
  intros U HV H1 H2. unfold cc_checked_clamp. cbn [cc_tokens cc_other]. pose proof (C39_clamp fin R V d1 d2 m1 m2 U HV H1 H2) as A.
  destruct (extra_checked_clamp fin d1 d2) as [d|e]; cbn [rbind cc_tokens cc_other]; [|exact A]. destruct A as (m & Hm & A & _). split; [reflexivity|]. exists m. auto.
Qed.
Print Assumptions C39_collection_clamp.
(** The operations that assign: the exact result, or the collection is left alone. *)
Theorem C39_assign fin R V t1 d1 t2 d2 m1 m2 : updatable fin R -> amounts V -> holds R V d1 m1 -> holds any_dict V d2 m2 -> t1 <= TOKENS_MAX -> t2 <= TOKENS_MAX ->
  match cc_try_add_assign fin (Currency t1 d1) (Currency t2 d2) with
  | (Ok _, c) => cc_tokens c = t1 + t2 /\ exists m, holds R V (cc_other c) m /\ forall id, amount m id = amount m1 id + amount m2 id
  | (Err _, c) => c = Currency t1 d1
  end /\
  match cc_try_sub_assign fin (Currency t1 d1) (Currency t2 d2) with
  | (Ok _, c) => cc_tokens c + t2 = t1 /\ exists m, holds R V (cc_other c) m /\ forall id, amount m id + amount m2 id = amount m1 id
  | (Err _, c) => c = Currency t1 d1
  end.
Proof.
  intros U HV H1 H2 L1 L2. unfold cc_try_add_assign, cc_try_sub_assign.
  pose proof (C39_collection_add fin R V t1 d1 t2 d2 m1 m2 U HV H1 H2 L1 L2) as A. pose proof (C39_collection_sub fin R V t1 d1 t2 d2 m1 m2 U HV H1 H2 L1 L2) as B.
  split.
  - destruct (cc_checked_add _ _ _); [|reflexivity]. destruct A as (A1 & _ & A2). auto.
  - destruct (cc_checked_sub _ _ _); [|reflexivity]. destruct B as (B1 & B2 & B3 & m & Hm & B4). split; [lia|]. exists m. split; [exact Hm|]. intros id. rewrite B4. specialize (B3 id). lia.
Qed.
Print Assumptions C39_assign.

(** ** In cells *)
(** A collection is stored in its layout, with the shortest notation of the tokens, and its
    computed size is the one of the layout. *)
Theorem C39_store c x : currency_c var_uint_bits c x -> appends (store_cc c) x /\ cc_exact_size c = chunk_size x /\ cc_bit_len c = fst (chunk_size x).
Proof.
  intros [t d y z Hy Hz]. split; [|].
  - exact (appends_bind _ _ _ _ (appends_vk Tokens t y Hy) (appends_dict d z Hz)).
  - unfold cc_exact_size, cc_bit_len, chunk_size. cbn [cc_tokens cc_other]. destruct (vk_size Tokens t y Hy) as (E1 & E2 & E3). rewrite E1, E2. unfold capp. cbn [fst snd]. rewrite !app_length, E3.
    destruct Hz as [|a w Hw]; [cbn [fst snd length capp]; split; [f_equal; lia|lia]|]. destruct Hw. cbn [fst snd length capp app]. split; [f_equal; lia|lia].
Qed.
Print Assumptions C39_store.
(** Loading reads exactly the layouts, with any notation of the tokens that fits. *)
Theorem C39_load : reads_layout load_cc (currency_c loose_var_uint_bits) /\ load_fails load_cc.
Proof.
  split.
  - eapply reads_equiv; [|apply (reads_bind (from_bits (load_vk Tokens)) (fun t c => let? (d, c) := load_dict c in Ok (Currency t d, c)) _ (fun t => then_c dict_c (fun d => const_c (Currency t d))) (reads_vk Tokens))].
    + intros a z. split.
      * intros (t & x & y & Hx & (d & y1 & y2 & Hd & [-> ->] & ->) & ->). rewrite capp_nil. constructor; assumption.
      * intros [t d x y Hx Hy]. exists t, x, y. split; [exact Hx|]. split; [|reflexivity]. exists d, y, ([], []). split; [exact Hy|]. split; [split; reflexivity|symmetry; apply capp_nil].
    + intros t. apply (reads_bind load_dict (fun d c => Ok (Currency t d, c)) _ _ reads_dict). intros d. apply reads_ret.
  - apply (fails_bind (from_bits (load_vk Tokens)) (fun t c => let? (d, c) := load_dict c in Ok (Currency t d, c)) (fails_tokens Tokens)). intros t.
    apply (fails_bind load_dict (fun d c => Ok (Currency t d, c)) fails_dict). intros d. apply fails_ret.
Qed.
Print Assumptions C39_load.
Theorem C39_round_trip c x r : currency_c var_uint_bits c x -> load_cc (capp x r) = Ok (c, r).
Proof.
  intros [t d y z Hy Hz]. apply (reads_back load_cc (currency_c loose_var_uint_bits)); [apply C39_load|]. constructor; [|exact Hz]. apply (vk_loose Tokens), Hy.
Qed.
Print Assumptions C39_round_trip.

(** ** A case *)
Definition some_amounts : list (N * v248) := [(7, V248 0 3); (100, V248 1 0); (4294967295, V248 0 255)].
Definition some_dict : option cell := match extra_from_iter ok_fin (fun l => l) some_amounts with Ok d => d | Err _ => None end.
Example C39_case : exists m, holds (canonical_dict ok_fin) amount_exact some_dict m /\ m !! 100 = Some (2 ^ 128) /\ amount m 7 = 3 /\ sturdy ok_fin (canonical_dict ok_fin) amount_exact
  /\ (exists d, extra_checked_add ok_fin some_dict some_dict = Ok d /\ d <> some_dict) /\ extra_checked_sub ok_fin some_dict some_dict = Ok None.
Proof.
  pose proof (C39_from_amounts ok_fin (fun l => l) some_amounts (Permutation_refl _)) as A. unfold some_dict.
  destruct (extra_from_iter ok_fin (fun l => l) some_amounts) as [d|e] eqn:E; [|vm_compute in E; discriminate].
  destruct A as (m & Hm & Em & _).
  { repeat constructor; unfold by_id; cbn; lia. }
  { repeat constructor. }
  exists m. split; [exact Hm|]. rewrite Em. split; [vm_compute; reflexivity|]. split; [vm_compute; reflexivity|].
  split; [split; [reflexivity|split; [right; reflexivity|intros; reflexivity]]|]. vm_compute in E. injection E as <-.
  split; [eexists; split; [vm_compute; reflexivity|discriminate]|vm_compute; reflexivity].
Qed.
Example C39_layout_case : exists x, currency_c var_uint_bits (Currency 300 some_dict) x /\ fst (chunk_size x) = 21.
Proof.
  eexists (capp (nbits 4 2 ++ nbits 16 300, []) (capp ([true], []) ([], [_]))). split; [|reflexivity].
  unfold some_dict. vm_compute (extra_from_iter _ _ _). constructor; [|constructor; constructor]. constructor. exists 2. split; [|split; [reflexivity|reflexivity]].
  split; [reflexivity|]. intros m Hm. destruct (N.leb_spec 2 m) as [|C]; [assumption|]. assert (256 ^ m <= 256 ^ 1) by (apply N.pow_le_mono_r; lia). change (256 ^ 1) with 256 in *. lia.
Qed.
