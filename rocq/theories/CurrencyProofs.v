(** * Proofs for currency collections *)
From stdpp Require Import gmap.
From Coq Require Import Sorting.Sorted.
From Verif Require Import Err BitsProofs WordProofs IntModel DictModel DictSpec DictTree DictProofs DictProofs2 DictProofs4 DictExist DictOrder LabelModel IterModel IterProofs DictProps IterProps
  BuildModel BuildProofs BuildProps Var248Model NumModel NumSpec NumProofs Var248Proofs Var248Proofs2 NumProps CellModel CurrencyModel CurrencySpec.
Local Open Scope N_scope.

Definition agrees (V : chunk -> N -> Prop) (M : gmap (list bool) chunk) (m : gmap N N) : Prop :=
  (forall id, id < 2 ^ 32 -> match M !! nbits 32 id, m !! id with Some v, Some a => V v a | None, None => True | _, _ => False end) /\
  (forall id, 2 ^ 32 <= id -> m !! id = None).

Lemma key_inj id1 id2 : id1 < 2 ^ 32 -> id2 < 2 ^ 32 -> nbits 32 id1 = nbits 32 id2 -> id1 = id2.
Proof. intros H1 H2 E. apply nbits_inj in E; assumption. Qed.

Lemma entries_agree V es ps : Forall2 (entry_of V) es ps -> agrees V (dmap es) (list_to_map ps).
Proof.
  induction 1 as [|[k v] [id a] es ps (E & L & H) F [IH1 IH2]]; cbn [fst snd] in *.
  - split; [intros; unfold dmap; cbn; rewrite !lookup_empty; exact I|intros; apply lookup_empty].
  - subst k. unfold dmap. cbn [list_to_map foldr fst snd]. split.
    + intros i Hi. destruct (decide (i = id)) as [->|Ne]; [rewrite !lookup_insert; exact H|].
      rewrite lookup_insert_ne by (intros X; apply Ne; symmetry; apply key_inj; assumption). rewrite lookup_insert_ne by congruence. apply IH1, Hi.
    + intros i Hi. rewrite lookup_insert_ne by lia. apply IH2, Hi.
Qed.
Lemma agree_entries V es m : NoDup (map fst es) -> Forall (fun e => length (fst e) = 32%nat) es -> agrees V (dmap es) m ->
  exists ps, Forall2 (entry_of V) es ps /\ m = list_to_map ps /\ NoDup (map fst ps).
Proof.
  revert m. induction es as [|[k v] es IH]; intros m ND K A.
  - exists []. split; [constructor|]. split; [|constructor]. apply map_eq. intros i. destruct A as [A1 A2]. cbn [list_to_map foldr]. rewrite lookup_empty.
    destruct (N.ltb_spec i (2 ^ 32)) as [L|L]; [|apply A2, L]. specialize (A1 i L). unfold dmap in A1. cbn [list_to_map foldr] in A1. rewrite lookup_empty in A1. destruct (m !! i); [destruct A1|reflexivity].
  - inversion_clear K as [|? ? K1 K2]. cbn [map fst] in *. apply NoDup_cons in ND. destruct ND as [N1 N2].
    set (id := bval k). assert (Hid : id < 2 ^ 32) by (unfold id; pose proof (bval_lt k) as X; rewrite K1 in X; exact X).
    assert (Ek : k = nbits 32 id) by (unfold id; symmetry; apply nbits_bval'; exact K1).
    destruct A as [A1 A2]. unfold dmap in A1. cbn [list_to_map foldr fst snd] in A1.
    assert (Hk : exists a, m !! id = Some a /\ V v a).
    { specialize (A1 id Hid). rewrite <- Ek, lookup_insert in A1. destruct (m !! id) as [a|]; [eauto|destruct A1]. }
    destruct Hk as (a & Ea & Hv).
    destruct (IH (delete id m) N2 K2) as (ps & F & Em & NP).
    { split.
      - intros i Hi. destruct (decide (i = id)) as [->|Ne].
        + rewrite lookup_delete. rewrite <- Ek. destruct (dmap es !! k) as [w|] eqn:Ew; [|exact I]. apply elem_of_list_to_map_2 in Ew. exfalso. apply N1. apply elem_of_list_fmap. exists (k, w). auto.
        + rewrite lookup_delete_ne by congruence. specialize (A1 i Hi). rewrite lookup_insert_ne in A1; [exact A1|]. rewrite Ek. intros X. apply Ne. symmetry. apply key_inj; assumption.
      - intros i Hi. rewrite lookup_delete_ne by lia. apply A2, Hi. }
    exists ((id, a) :: ps). split; [constructor; [split; [exact Ek|split; [exact Hid|exact Hv]]|exact F]|]. split.
    + cbn [list_to_map foldr fst snd]. change (foldr (fun '(k, a) m => <[k:=a]> m) ∅ ps) with (list_to_map ps : gmap N N). rewrite <- Em. symmetry. apply insert_delete. exact Ea.
    + cbn [map fst]. constructor; [|exact NP]. intros X. apply elem_of_list_fmap in X. destruct X as ([i b] & E & Hi). cbn [fst] in E. subst i.
      apply (elem_of_list_to_map_1 (M := gmap N)) in Hi; [|exact NP]. rewrite <- Em, lookup_delete in Hi. discriminate.
Qed.
Lemma dict_nodup R n d es : is_dict R n d es -> NoDup (map fst es).
Proof.
  intros D. destruct d as [c|]; cbn [is_dict] in D; [|subst es; constructor]. apply hashmap_rep in D. destruct D as (t & Ht & ->).
  assert (P : Permutation (t_list false false t) (entries t)) by apply t_list_perm.
  rewrite <- P. pose proof (t_list_sorted false false t) as S. assert (K : Forall (fun e => length (fst e) = n) (t_list false false t)) by (rewrite P; apply entries_len; eapply Rep_wft; exact Ht).
  eapply before_nodup. eapply sorted_before; [exact K|exact S].
Qed.
Lemma holds_alt R V d m : holds R V d m <-> exists es, is_dict R 32 d es /\ agrees V (dmap es) m.
Proof.
  split.
  - intros (es & ps & D & F & ->). exists es. split; [exact D|apply entries_agree, F].
  - intros (es & D & A). destruct (agree_entries V es m (dict_nodup _ _ _ _ D) (dict_keys _ _ _ _ D) A) as (ps & F & E & _). exists es, ps. auto.
Qed.
Lemma agrees_insert V M m id v a : id < 2 ^ 32 -> agrees V M m -> V v a -> agrees V (<[nbits 32 id := v]> M) (<[id := a]> m).
Proof.
  intros Hi [A1 A2] Hv. split.
  - intros j Hj. destruct (decide (j = id)) as [->|Ne]; [rewrite !lookup_insert; exact Hv|].
    rewrite lookup_insert_ne by (intros X; apply Ne; symmetry; apply key_inj; assumption). rewrite lookup_insert_ne by congruence. apply A1, Hj.
  - intros j Hj. rewrite lookup_insert_ne by lia. apply A2, Hj.
Qed.
Lemma agrees_delete V M m id : id < 2 ^ 32 -> agrees V M m -> agrees V (delete (nbits 32 id) M) (delete id m).
Proof.
  intros Hi [A1 A2]. split.
  - intros j Hj. destruct (decide (j = id)) as [->|Ne]; [rewrite !lookup_delete; exact I|].
    rewrite lookup_delete_ne by (intros X; apply Ne; symmetry; apply key_inj; assumption). rewrite lookup_delete_ne by congruence. apply A1, Hj.
  - intros j Hj. rewrite lookup_delete_ne by lia. apply A2, Hj.
Qed.

(** ** Values *)
Definition conv (a : N) : v248 := V248 (a / 2 ^ 128) (a mod 2 ^ 128).
Lemma conv_ok a : a <= MAX248 -> v248_ok (conv a) /\ v248_val (conv a) = a.
Proof.
  intros H. unfold conv, v248_ok, v248_val. cbn [v_hi v_lo]. split; [split|].
  - apply N.div_lt_upper_bound; [discriminate|]. eapply N.le_lt_trans; [exact H|reflexivity].
  - apply N.mod_lt. discriminate.
  - rewrite N.mul_comm. symmetry. apply N.div_mod'.
Qed.
Lemma conv_val x : v248_ok x -> v248_val x <= MAX248 -> x = conv (v248_val x).
Proof. intros O L. destruct (conv_ok _ L) as [O' E]. apply v248_val_inj; [exact O|exact O'|congruence]. Qed.
Lemma amount_max V v a : amounts V -> V v a -> a <= MAX248 /\ exists r, load_v248 (fst v) = Ok (conv a, r).
Proof.
  intros HV H. assert (A : amount_in v a).
  { destruct HV as [->|[->| ->]]; [exact H| |]; destruct H as [H _]; exists (fst v), []; (split; [rewrite app_nil_r; reflexivity|]); [exact H|apply var_loose, H]. }
  destruct A as (bits & rest & E & L). assert (X : load_var 5 (fst v) = Ok (a, rest)) by (apply load_var_spec; eauto).
  pose proof (load_v248_ok (fst v)) as G. pose proof (C35_load248 (fst v)) as G2. destruct (load_v248 (fst v)) as [[x r]|e]; [|congruence].
  destruct G as [Ox Ev]. rewrite X in Ev. injection Ev as E1 E2. subst a r. destruct G2 as (_ & Lx & _). split; [exact Lx|]. exists rest. rewrite <- conv_val by assumption. reflexivity.
Qed.
Lemma chunk_value V x : amounts V -> v248_ok x -> v248_val x <= MAX248 ->
  exists b, v248_chunk x = Ok (b, []) /\ V (b, []) (v248_val x) /\ (length b <= 253)%nat.
Proof.
  intros HV O L. unfold v248_chunk. pose proof (C35_store248 x [] O) as S. destruct (store_v248 x []) as [b|e].
  - destruct S as (_ & bits & Hb & -> & _). cbn [rbind app]. exists bits. split; [reflexivity|]. split.
    + assert (A : amount_only (bits, []) (v248_val x)) by (split; [apply var_loose, Hb|reflexivity]).
      destruct HV as [->|[->| ->]]; [|exact A|split; [exact Hb|reflexivity]]. exists bits, []. split; [rewrite app_nil_r; reflexivity|apply A].
    + destruct Hb as (n & Sn & Hn & ->). rewrite app_length, !length_nbits. change (2 ^ N.of_nat 5) with 32 in Hn. lia.
  - exfalso. destruct S as [_ [S|S]]; [lia|]. specialize (S (nbits 5 (v248_len x) ++ nbits (N.to_nat (8 * v248_len x)) (v248_val x))).
    assert (Hs := v248_len_shortest x O). assert (Hl : v248_len x <= 31) by (apply (v248_len_le x O), L).
    lapply S; [|exists (v248_len x); split; [exact Hs|]; split; [change (2 ^ N.of_nat 5) with 32; lia|reflexivity]].
    rewrite app_length, !length_nbits. unfold MAX_BITS. cbn [length]. lia.
Qed.

Lemma is_zero_val x : v248_is_zero x = (v248_val x =? 0).
Proof.
  unfold v248_is_zero, v248_val. destruct x as [h l]. cbn [v_hi v_lo]. assert (P : 0 < 2 ^ 128) by reflexivity. generalize dependent (2 ^ 128). intros W P.
  destruct (N.eqb_spec l 0), (N.eqb_spec h 0), (N.eqb_spec (h * W + l) 0); cbn; try reflexivity; nia.
Qed.

(** ** The operations of the typed dictionary *)
Section Ops.
Context (fin : list bool -> list cell -> res unit) (R : rules) (V : chunk -> N -> Prop).
Context (HRR : reads R) (HRW : writes fin R) (HV : amounts V).

Lemma get_ok d m id : holds R V d m -> id < 2 ^ 32 -> cur_get d id = Ok (option_map conv (m !! id)) /\ forall a, m !! id = Some a -> a <= MAX248.
Proof using HRR HV.
  intros (es & D & A)%holds_alt Hi. unfold cur_get, u32_key.
  rewrite (dict_get_spec R 32 d es (nbits 32 id) HRR ltac:(lia) D (length_nbits _ _)). cbn [rbind]. destruct A as [A _]. specialize (A id Hi).
  destruct (dmap es !! nbits 32 id) as [v|], (m !! id) as [a|]; try destruct A; [|split; [reflexivity|discriminate]].
  destruct (amount_max V v a HV A) as (L & r & ->). split; [reflexivity|]. intros ? [= <-]. exact L.
Qed.
Lemma fits_all es m : V = amount_only \/ V = amount_exact -> Forall (fun e => length (fst e) = 32%nat) es -> agrees V (dmap es) m -> forall k (v : chunk), dmap es !! k = Some v -> length k = 32%nat /\ (32 + length (fst v) <= 1011)%nat /\ (length (snd v) <= 4)%nat.
Proof using.
  intros E K A k v G. assert (Hk : length k = 32%nat).
  { apply elem_of_list_to_map_2 in G. rewrite Forall_forall in K. apply (K (k, v) G). }
  split; [exact Hk|]. destruct A as [A _]. specialize (A (bval k)). rewrite nbits_bval' in A by exact Hk. pose proof (bval_lt k) as Lk. rewrite Hk in Lk. specialize (A Lk).
  rewrite G in A.
  destruct (m !! bval k) as [a|]; [|destruct A].
  assert (A' : amount_only v a) by (destruct E as [E|E]; rewrite E in A; [exact A|destruct A as [A1 A2]; split; [apply var_loose, A1|exact A2]]). destruct A' as [(n & _ & Hn & Ef) Es]. rewrite Ef, Es, app_length, !length_nbits. change (2 ^ N.of_nat 5) with 32 in Hn. cbn [length]. lia.
Qed.
Lemma set_ok d m id x : holds R V d m -> id < 2 ^ 32 -> v248_ok x -> v248_val x <= MAX248 ->
  match cur_set fin d id x with
  | Ok d' => holds R V d' (<[id := v248_val x]> m)
  | Err e => ~ sturdy fin R V
  end.
Proof using HRR HRW HV.
  intros (es & D & A)%holds_alt Hi Ox Lx. unfold cur_set. destruct (chunk_value V x HV Ox Lx) as (b & -> & Hb & Lb). cbn [rbind].
  pose proof (dict_insert_sound fin R 32 d es (u32_key id) (b, []) MSet HRR HRW ltac:(lia) D (length_nbits _ _)) as S.
  unfold refused in S. cbn [can_replace can_add mode_bits] in S. change (N.land 3 1 =? 0) with false in S. change (N.land 3 2 =? 0) with false in S. cbn [negb] in S.
  assert (S' : match dict_insert fin d (u32_key id) 32 (b, []) MSet with
    | Ok (flag, d') => flag = true /\ exists es', is_dict R 32 d' es' /\ dmap es' = <[u32_key id := (b, [])]> (dmap es) | Err _ => True end).
  { destruct (bool_decide _) in S; exact S. }
  clear S. destruct (dict_insert fin d (u32_key id) 32 (b, []) MSet) as [[flag d']|e] eqn:E; cbn [rbind].
  - destruct S' as (_ & es' & D' & M'). apply holds_alt. exists es'. split; [exact D'|]. rewrite M'. apply agrees_insert; assumption.
  - intros (ER & EV & Hfin). subst R. destruct (dict_exists fin Hfin 32 (<[u32_key id := (b, [])]> (dmap es))) as (d' & es' & D' & M').
    { intros k v G. apply lookup_insert_Some in G. destruct G as [[<- <-]|[_ G]]; [split; [apply length_nbits|cbn [fst snd length]; lia]|].
      eapply fits_all; [exact EV| |exact A|exact G]. eapply dict_keys. exact D. }
    assert (X : dict_insert fin d (u32_key id) 32 (b, []) MSet = Ok (true, d')); [|congruence].
    apply (dict_insert_complete fin 32 d es (u32_key id) (b, []) MSet d' es'); [lia|exact D|apply length_nbits|destruct (bool_decide _); reflexivity|exact D'|exact M'].
Qed.
Lemma remove_raw_ok d m id : holds R V d m -> id < 2 ^ 32 ->
  match dict_remove_owned fin d (u32_key id) 32 false with
  | Ok (o, d') => holds R V d' (delete id m) /\ match o with Some (r, c) => exists a, V (r_apply r c) a | None => True end
  | Err e => ~ sturdy fin R V
  end.
Proof using HRR HRW HV.
  intros (es & D & A)%holds_alt Hi.
  pose proof (dict_remove_sound fin R 32 d es (u32_key id) false HRR HRW ltac:(lia) D (length_nbits _ _)) as S.
  pose proof (proj1 A id Hi) as AI. change (nbits 32 id) with (u32_key id) in AI.
  destruct (dmap es !! u32_key id) as [v|] eqn:Ev.
  - destruct (dict_remove_owned fin d (u32_key id) 32 false) as [[o d']|e] eqn:E.
    + destruct S as ((r & c & -> & Ra) & es' & D' & M'). split.
      * apply holds_alt. exists es'. split; [exact D'|]. rewrite M'. apply agrees_delete; assumption.
      * rewrite Ra. destruct (m !! id) as [a|]; [eauto|destruct AI].
    + intros (ER & EV & Hfin). subst R. destruct (dict_exists fin Hfin 32 (delete (u32_key id) (dmap es))) as (d' & es' & D' & M').
      { intros k w G. apply lookup_delete_Some in G. destruct G as [_ G]. eapply fits_all; [exact EV| |exact A|exact G]. eapply dict_keys. exact D. }
      destruct (dict_remove_complete fin 32 d es (u32_key id) v false d' es' ltac:(lia) D (length_nbits _ _) Ev D' M') as [o X]. congruence.
  - rewrite S. split; [|exact I]. rewrite delete_notin; [apply holds_alt; exists es; auto|]. destruct (m !! id); [destruct AI|reflexivity].
Qed.
Lemma cur_remove_raw_ok d m id : holds R V d m -> id < 2 ^ 32 ->
  match cur_remove_raw fin d id with Ok d' => holds R V d' (delete id m) | Err e => ~ sturdy fin R V end.
Proof using HRR HRW HV.
  intros H Hi. pose proof (remove_raw_ok d m id H Hi) as S. unfold cur_remove_raw. destruct (dict_remove_owned fin d (u32_key id) 32 false) as [[o d']|e]; cbn [rbind]; [apply S|exact S].
Qed.
Lemma cur_remove_ok d m id : holds R V d m -> id < 2 ^ 32 ->
  match cur_remove fin d id with Ok d' => holds R V d' (delete id m) | Err e => ~ sturdy fin R V end.
Proof using HRR HRW HV.
  intros H Hi. pose proof (remove_raw_ok d m id H Hi) as S. unfold cur_remove. destruct (dict_remove_owned fin d (u32_key id) 32 false) as [[[[r c]|] d']|e]; cbn [rbind]; [|apply S|exact S].
  destruct S as [S (a & Ha)]. destruct (amount_max V _ a HV Ha) as (_ & r' & ->). exact S.
Qed.

(** ** Iteration *)
Fixpoint cfold (f : N -> v248 -> option cell -> res (option cell)) (ps : list (N * N)) (acc : option cell) : res (option cell) :=
  match ps with
  | [] => Ok acc
  | p :: ps => let? acc := f (fst p) (conv (snd p)) acc in cfold f ps acc
  end.
End Ops.

Lemma cur_loop_ok V f d : amounts V -> forall es ps fuel it acc, (length es < fuel)%nat -> iter_inv any_dict false false 32 d it es -> Forall2 (entry_of V) es ps ->
  cur_loop fuel it f acc = cfold f ps acc.
Proof.
  intros HV. induction es as [|e es IH]; intros ps fuel it acc Hf I F; destruct fuel as [|fuel]; try (cbn [length] in Hf; lia); cbn [cur_loop].
  - inversion_clear F. destruct (iter_next_inv any_dict reads_any false false 32 ltac:(lia) _ _ _ I) as (it' & -> & _). reflexivity.
  - inversion_clear F as [|? p ? ps' (E & L & Hv) F']. destruct (iter_next_inv any_dict reads_any false false 32 ltac:(lia) _ _ _ I) as (data & it' & -> & I' & C & _).
    assert (Eb : s_bits data = fst (snd e)) by (rewrite <- C; reflexivity). rewrite Eb. destruct (amount_max V _ _ HV Hv) as (_ & r & ->). cbn [rbind cfold].
    rewrite E, bval_nbits_small by exact L. destruct (f (fst p) (conv (snd p)) acc) as [acc'|]; cbn [rbind]; [|reflexivity]. apply IH; [cbn [length] in Hf; lia|exact I'|exact F'].
Qed.
Lemma hashmap_size R n c es : hashmap R n c es -> (length es <= csize c)%nat.
Proof.
  induction 1 as [n bits l v H1 H2 H3|n m bits l x cl cr el er H1 H2 H3 H4 H5 IH1 H6 IH2]; cbn [csize length]; [lia|].
  rewrite app_length. unfold under. rewrite !map_length. cbn [fold_right length].
  match goal with |- context [foldr ?f ?a ?l] => generalize (foldr f a l) end. intros z. unfold entry in *. clear - IH1 IH2.
 lia.
Qed.
Lemma cur_iter_ok V d m f acc : amounts V -> holds any_dict V d m ->
  exists ps, NoDup (map fst ps) /\ m = list_to_map ps /\ Forall (fun p => fst p < 2 ^ 32 /\ snd p <= MAX248) ps /\ cur_iter d f acc = cfold f ps acc.
Proof.
  intros HV (es & D & A)%holds_alt. destruct (iter_new_inv any_dict false false 32 ltac:(lia) d es D) as (order & P & S & I).
  assert (ND : NoDup (map fst order)) by (rewrite P; eapply dict_nodup; exact D).
  assert (K : Forall (fun e => length (fst e) = 32%nat) order) by (rewrite P; eapply dict_keys; exact D).
  assert (M : dmap order = dmap es) by (apply list_to_map_proper; assumption). rewrite <- M in A.
  destruct (agree_entries V order m ND K A) as (ps & F & E & NP). exists ps. split; [exact NP|]. split; [exact E|]. split.
  - clear - F HV. induction F as [|e p es ps (E & L & H) F IH]; constructor; [|exact IH]. split; [exact L|apply (amount_max V _ _ HV H)].
  - unfold cur_iter. apply (cur_loop_ok V f d HV order ps); [|exact I|exact F]. rewrite P. destruct d as [c|]; cbn [is_dict] in D; [apply hashmap_size in D; lia|subst es; cbn; lia].
Qed.

(** ** Addition, subtraction *)
Definition nz (o : option N) : option N := match o with Some v => if v =? 0 then None else Some v | None => None end.
Definition op_ok (op : v248 -> v248 -> option v248) (gop : N -> N -> option N) : Prop :=
  forall a b, v248_ok a -> v248_ok b -> v248_val a <= MAX248 -> v248_val b <= MAX248 ->
    gop (v248_val a) (v248_val b) = option_map v248_val (op a b) /\ forall r, op a b = Some r -> v248_ok r /\ v248_val r <= MAX248.
Definition g_add (a b : N) : option N := if a + b <=? MAX248 then Some (a + b) else None.
Definition g_sub (a b : N) : option N := if b <=? a then Some (a - b) else None.
Lemma add_op : op_ok v248_checked_add g_add.
Proof.
  intros a b Ha Hb _ _. destruct (checked_add_ok a b Ha Hb) as [E O]. unfold g_add. destruct (v248_checked_add a b) as [r|]; cbn [option_map exactly] in *.
  - split; [|intros r0 [= <-]; split; [apply O; reflexivity|lia]]. destruct (N.leb_spec (v248_val a + v248_val b) MAX248); [f_equal; lia|lia].
  - split; [|discriminate]. destruct (N.leb_spec (v248_val a + v248_val b) MAX248); [lia|reflexivity].
Qed.
Lemma sub_op : op_ok v248_checked_sub g_sub.
Proof.
  intros a b Ha Hb La _. destruct (checked_sub_ok a b Ha Hb) as [E O]. unfold g_sub. destruct (v248_checked_sub a b) as [r|]; cbn [option_map exactly] in *.
  - split; [|intros r0 [= <-]; split; [apply O; reflexivity|lia]]. destruct (N.leb_spec (v248_val b) (v248_val a)); [f_equal; lia|lia].
  - split; [|discriminate]. destruct (N.leb_spec (v248_val b) (v248_val a)); [lia|reflexivity].
Qed.

Section Steps.
Context (fin : list bool -> list cell -> res unit) (R : rules) (V : chunk -> N -> Prop).
Context (HRR : reads R) (HRW : writes fin R) (HV : amounts V).
Notation H := (holds R V).

Lemma step_ok op gop d m id b : op_ok op gop -> H d m -> id < 2 ^ 32 -> b <= MAX248 ->
  match extra_step fin op id (conv b) d with
  | Ok d' => exists v, gop (amount m id) b = Some v /\ H d' (if v =? 0 then delete id m else <[id := v]> m)
  | Err e => (e = IntOverflow /\ gop (amount m id) b = None) \/ ~ sturdy fin R V
  end.
Proof using HRR HRW HV.
  intros Hop Hm Hi Hb. unfold extra_step. destruct (get_ok R V HRR HV d m id Hm Hi) as [-> Hmax]. cbn [rbind].
  set (x := match option_map conv (m !! id) with Some a => a | None => v248_zero end).
  assert (Hx : v248_ok x /\ v248_val x = amount m id /\ v248_val x <= MAX248).
  { unfold x, amount. destruct (m !! id) as [a|]; cbn [option_map].
    - destruct (conv_ok a (Hmax _ eq_refl)) as [O E]. rewrite E. auto.
    - split; [split; reflexivity|]. split; [reflexivity|]. vm_compute. discriminate. }
  destruct Hx as (Ox & Ex & Lx). destruct (conv_ok b Hb) as [Ob Eb]. destruct (Hop x (conv b) Ox Ob Lx ltac:(rewrite Eb; exact Hb)) as [G Hr]. rewrite Ex, Eb in G.
  destruct (op x (conv b)) as [r|]; cbn [option_map] in G; [|left; auto]. destruct (Hr r eq_refl) as [Or Lr].
  rewrite is_zero_val. destruct (v248_val r =? 0) eqn:Z.
  - pose proof (cur_remove_ok fin R V HRR HRW HV d m id Hm Hi) as S. destruct (cur_remove fin d id); [|right; exact S]. exists (v248_val r). rewrite Z. auto.
  - pose proof (set_ok fin R V HRR HRW HV d m id r Hm Hi Or Lr) as S. destruct (cur_set fin d id r); [|right; exact S]. exists (v248_val r). rewrite Z. auto.
Qed.
Lemma steps_ok op gop ps : op_ok op gop -> NoDup (map fst ps) -> Forall (fun p => fst p < 2 ^ 32 /\ snd p <= MAX248) ps -> forall d m, H d m ->
  match cfold (extra_step fin op) ps d with
  | Ok d' => (forall id b, (id, b) ∈ ps -> gop (amount m id) b <> None) /\
      exists m', H d' m' /\ forall id, m' !! id = match (list_to_map ps : gmap N N) !! id with None => m !! id | Some b => nz (gop (amount m id) b) end
  | Err e => (e = IntOverflow /\ exists id b, (id, b) ∈ ps /\ gop (amount m id) b = None) \/ ~ sturdy fin R V
  end.
Proof using HRR HRW HV.
  intros Hop. induction ps as [|[id b] ps IH]; intros ND F d m Hm; cbn [cfold fst snd].
  - split; [intros ? ? X; inversion X|]. exists m. split; [exact Hm|]. intros i. cbn [list_to_map foldr]. rewrite lookup_empty. reflexivity.
  - cbn [map fst] in ND. apply NoDup_cons in ND. destruct ND as [N1 N2]. inversion_clear F as [|? ? [F1 F2] F']. cbn [fst snd] in *.
    pose proof (step_ok op gop d m id b Hop Hm F1 F2) as S. destruct (extra_step fin op id (conv b) d) as [d1|e]; cbn [rbind].
    2:{ destruct S as [[-> G]|S]; [left; split; [reflexivity|]; exists id, b; split; [left|exact G]|right; exact S]. }
    destruct S as (v & G & H1). set (m1 := if v =? 0 then delete id m else <[id := v]> m) in *.
    assert (L1 : m1 !! id = nz (Some v)) by (unfold m1, nz; destruct (v =? 0); [apply lookup_delete|apply lookup_insert]).
    assert (L2 : forall i, i <> id -> m1 !! i = m !! i) by (intros i Ni; unfold m1; destruct (v =? 0); [apply lookup_delete_ne|apply lookup_insert_ne]; congruence).
    assert (NI : forall b', (id, b') ∈ ps -> False) by (intros b' X; apply N1; apply elem_of_list_fmap; exists (id, b'); auto).
    assert (L3 : forall i b', (i, b') ∈ ps -> amount m1 i = amount m i).
    { intros i b' X. unfold amount. rewrite L2; [reflexivity|]. intros ->. exact (NI _ X). }
    specialize (IH N2 F' d1 m1 H1). destruct (cfold (extra_step fin op) ps d1) as [d2|e].
    + destruct IH as [IH1 (m' & H' & IH2)]. split.
      * intros i b' X. apply elem_of_cons in X. destruct X as [[= -> ->]|X]; [congruence|]. rewrite <- (L3 i b' X). apply IH1, X.
      * exists m'. split; [exact H'|]. intros i. rewrite IH2. cbn [list_to_map foldr fst snd]. change (foldr (fun '(k, a) m => <[k:=a]> m) ∅ ps) with (list_to_map ps : gmap N N).
        destruct (decide (i = id)) as [->|Ni].
        -- rewrite lookup_insert, G, <- L1. destruct ((list_to_map ps : gmap N N) !! id) as [b'|] eqn:X; [|reflexivity]. apply elem_of_list_to_map_2 in X. destruct (NI _ X).
        -- rewrite lookup_insert_ne by congruence. rewrite (L2 i Ni). destruct ((list_to_map ps : gmap N N) !! i) as [b'|] eqn:X; [|reflexivity]. apply elem_of_list_to_map_2 in X. rewrite (L3 i b' X). reflexivity.
    + destruct IH as [[-> (i & b' & X & G')]|IH]; [left|right; exact IH]. split; [reflexivity|]. exists i, b'. split; [right; exact X|]. rewrite <- (L3 i b' X). exact G'.
Qed.

(** Removing some currencies and replacing the amounts of others. *)
Lemma edits_ok (f : N -> v248 -> option cell -> res (option cell)) (g : N -> N -> option N) ps :
  (forall id a d m, id < 2 ^ 32 -> a <= MAX248 -> H d m -> m !! id = Some a ->
    match f id (conv a) d with
    | Ok d' => exists m', H d' m' /\ m' !! id = g id a /\ forall i, i <> id -> m' !! i = m !! i
    | Err e => ~ sturdy fin R V
    end) ->
  NoDup (map fst ps) -> Forall (fun p => fst p < 2 ^ 32 /\ snd p <= MAX248) ps -> forall d m, H d m -> (forall id a, (id, a) ∈ ps -> m !! id = Some a) ->
  match cfold f ps d with
  | Ok d' => exists m', H d' m' /\ forall id, m' !! id = match (list_to_map ps : gmap N N) !! id with None => m !! id | Some a => g id a end
  | Err e => ~ sturdy fin R V
  end.
Proof using.
  intros Hf. induction ps as [|[id a] ps IH]; intros ND F d m Hm P; cbn [cfold fst snd].
  - exists m. split; [exact Hm|]. intros i. cbn [list_to_map foldr]. rewrite lookup_empty. reflexivity.
  - cbn [map fst] in ND. apply NoDup_cons in ND. destruct ND as [N1 N2]. inversion_clear F as [|? ? [F1 F2] F']. cbn [fst snd] in *.
    pose proof (Hf id a d m F1 F2 Hm (P id a ltac:(left))) as S. destruct (f id (conv a) d) as [d1|e]; cbn [rbind]; [|exact S]. destruct S as (m1 & H1 & L1 & L2).
    assert (NI : forall b', (id, b') ∈ ps -> False) by (intros b' X; apply N1; apply elem_of_list_fmap; exists (id, b'); auto).
    assert (P1 : forall i b, (i, b) ∈ ps -> m1 !! i = Some b) by (intros i b X; rewrite L2; [apply P; right; exact X|intros ->; exact (NI _ X)]).
    specialize (IH N2 F' d1 m1 H1 P1). destruct (cfold f ps d1) as [d2|e]; [|exact IH]. destruct IH as (m' & H' & IH). exists m'. split; [exact H'|]. intros i. rewrite IH.
    cbn [list_to_map foldr fst snd]. change (foldr (fun '(k, a) m => <[k:=a]> m) ∅ ps) with (list_to_map ps : gmap N N).
    destruct (decide (i = id)) as [->|Ni].
    + rewrite lookup_insert, <- L1. destruct ((list_to_map ps : gmap N N) !! id) as [b'|] eqn:X; [|reflexivity]. apply elem_of_list_to_map_2 in X. destruct (NI _ X).
    + rewrite lookup_insert_ne by congruence. rewrite (L2 i Ni). reflexivity.
Qed.
End Steps.

Lemma updatable_ok fin R : updatable fin R -> reads R /\ writes fin R.
Proof. intros [->| ->]; [split; [apply reads_plain|apply writes_plain]|split; [apply reads_canonical|apply writes_canonical]]. Qed.
Lemma hashmap_any (R : rules) n c es : (forall n bits l rest, r_label R n bits l rest -> any_label n bits l rest) -> hashmap R n c es -> hashmap any_dict n c es.
Proof.
  intros HL. induction 1 as [n bits l v H1 H2 H3|n m bits l x cl cr el er H1 H2 H3 H4 H5 IH1 H6 IH2]; [apply hm_leaf; [apply HL, H1|exact H2|exact I]|].
  eapply hm_fork; [apply HL, H1|exact H2|exact I|exact I|exact IH1|exact IH2].
Qed.
Lemma holds_weaken fin R V d m : updatable fin R -> holds R V d m -> holds any_dict V d m.
Proof.
  intros U (es & ps & D & F & E). exists es, ps. split; [|auto]. destruct d as [c|]; cbn [is_dict] in *; [|exact D].
  eapply hashmap_any; [|exact D]. destruct U; subst R; [intros n bits l rest X; exact X|]. intros n bits l rest (e & -> & X & _). exists e. auto.
Qed.
