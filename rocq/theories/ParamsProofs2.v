(** * Validators and sets of them *)
From Coq Require Import Sorting.Sorted.
From Verif Require Import Err BitsProofs IntModel NumModel CellModel DictModel DictSpec DictProofs DictOrder IterModel IterProofs DictProps IterProps BuildProps CurrencyModel CurrencyProofs
  ChunkModel ChunkSpec ChunkProofs AbiModel AbiProofs3 VsetModel VsetSpec
  DeriveModel DeriveSpec StructsModel StructsSpec StructsProofs DeriveProps CasesSpec CasesProofs TxModel TxProofs ParamsModel ParamsSpec ParamsProofs.
Local Open Scope N_scope.

(** ** Validators *)
Definition key_l (b : chunk) : res (list N * chunk) := let? (t, b) := load_un 32 b in pick [(0x8e81278a, load_bs 32)] t b.
Lemma reads_key : reads_layout key_l (w_read pubkey_w).
Proof.
  eapply reads_equiv; [|apply (reads_tags 32 [(0x8e81278a, load_bs 32)] [bytes_c 32])].
  - intros a x. cbn [map fst picked pubkey_w tag_w w_read hash_w bytes_w exact_w]. tauto.
  - repeat constructor; cbn; tauto.
  - repeat constructor.
  - repeat constructor; cbn [snd]; apply reads_bs.
Qed.
Definition basic_l := pair_l key_l (pair_l (load_un 64) unit_l).
Definition adnl_l := pair_l key_l (pair_l (load_un 64) (pair_l (load_bs 32) unit_l)).
Definition seqno_l := pair_l key_l (pair_l (load_un 64) (pair_l (load_bs 32) (pair_l (load_un 32) unit_l))).
Definition basic_of (v : list N * (N * unit)) : descr := let '(k, (w, _)) := v in Descr k w None 0 0.
Definition adnl_of (v : list N * (N * (list N * unit))) : descr := let '(k, (w, (a, _))) := v in Descr k w (Some a) 0 0.
Definition seqno_of (v : list N * (N * (list N * (N * unit)))) : descr := let '(k, (w, (a, (s, _)))) := v in Descr k w (Some a) s 0.
Lemma load_descr_eq b : load_descr b =
  let? (t, b) := load_un 8 b in
  pick [(0x53, fun b => let? (v, b) := basic_l b in Ok (basic_of v, b)); (0x73, fun b => let? (v, b) := adnl_l b in Ok (adnl_of v, b)); (0x93, fun b => let? (v, b) := seqno_l b in Ok (seqno_of v, b))] t b.
Proof.
  unfold load_descr. destruct (load_un 8 b) as [[t b1]|]; [|reflexivity]. cbn [rbind pick]. unfold basic_l, adnl_l, seqno_l, pair_l, unit_l, key_l.
  destruct (t =? 0x53); [|destruct (t =? 0x73); [|destruct (t =? 0x93); [|reflexivity]]]; cbn [rbind fst snd]; (destruct (load_un 32 b1) as [[kt b2]|]; [|reflexivity]); cbn [rbind pick]; (destruct (kt =? 0x8e81278a); [|reflexivity]); runs.
Qed.
Lemma reads_descr : reads_layout load_descr descr_c.
Proof.
  eapply reads_ext; [intros b; symmetry; apply load_descr_eq|]. eapply reads_equiv; [|apply reads_tags; cbn [map fst]].
  2: { repeat constructor; cbn; intros H; intuition discriminate. }
  2: { repeat constructor; reflexivity. }
  2: { constructor; [|constructor; [|constructor; [|constructor]]]; cbn [snd].
       - apply (reads_map basic_l basic_of). unfold basic_l. apply reads_pair; [apply reads_key|]. apply reads_pair; [apply (law_load _ _ (lawful_uint 64))|apply reads_unit].
       - apply (reads_map adnl_l adnl_of). unfold adnl_l. apply reads_pair; [apply reads_key|]. apply reads_pair; [apply (law_load _ _ (lawful_uint 64))|]. apply reads_pair; [apply (law_load _ _ (lawful_bytes 32))|apply reads_unit].
       - apply (reads_map seqno_l seqno_of). unfold seqno_l. apply reads_pair; [apply reads_key|]. apply reads_pair; [apply (law_load _ _ (lawful_uint 64))|]. apply reads_pair; [apply (law_load _ _ (lawful_bytes 32))|]. apply reads_pair; [apply (law_load _ _ (lawful_uint 32))|apply reads_unit]. }
  intros a x. cbn [map fst picked]. split.
  - intros [(y & -> & (k & w & []) & -> & R)|[(y & -> & (k & w & ad & []) & -> & R)|[(y & -> & (k & w & ad & s & []) & -> & R)|[]]]]; [apply descr_basic|apply descr_adnl|apply descr_seqno]; exists y; auto.
  - intros [k w x' (y & -> & R)|k w ad x' (y & -> & R)|k w ad s x' (y & -> & R)]; [left; exists y; split; [reflexivity|exists (k, (w, tt)); auto]|right; left; exists y; split; [reflexivity|exists (k, (w, (ad, tt))); auto]|right; right; left; exists y; split; [reflexivity|exists (k, (w, (ad, (s, tt)))); auto]].
Qed.
Lemma hash_written h : w_ok hash_w h -> exists x, w_write hash_w h x /\ w_read hash_w h x /\ length (fst x) = 256%nat /\ snd x = [].
Proof. intros O. destruct (law_ok _ _ (lawful_bytes 32) h O) as (x & X). exists x. split; [exact X|]. split; [exact X|]. destruct X as [bs B L]. cbn. rewrite length_bytes_bits, L. auto. Qed.
Lemma uint_written n v : v < 2 ^ N.of_nat n -> w_write (uint_w n) v (nbits n v, []) /\ w_read (uint_w n) v (nbits n v, []).
Proof. intros H. split; constructor; exact H. Qed.
Lemma store_descr_ok d : descr_ok d -> exists x, appends (store_descr d) x /\ descr_c (kept d) x /\ (length (fst x) <= 648)%nat /\ snd x = [].
Proof.
  destruct d as [key w adnl s prev]. unfold descr_ok, kept, store_descr. cbn [d_key d_weight d_adnl d_seqno]. intros (K & W & A & S).
  destruct (hash_written _ K) as (xk & Kw & Kr & Lk & Rk). destruct (uint_written 64 w W) as (Ww & Wr). destruct (uint_written 32 s S) as (Sw & Sr).
  assert (T : forall t, t < 256 -> appends (store_un 8 t) (nbits 8 t, [])) by (intros t Ht; apply appends_prefix; [reflexivity|exact Ht]).
  assert (P : appends (store_un 32 0x8e81278a) (nbits 32 0x8e81278a, [])) by (apply appends_prefix; reflexivity).
  assert (Pr : w_read pubkey_w key (capp (nbits 32 0x8e81278a, []) xk)) by (exists xk; auto).
  assert (Lc : forall a b, (length (fst (capp a b)) = length (fst a) + length (fst b))%nat /\ snd (capp a b) = snd a ++ snd b) by (intros a b; cbn; rewrite app_length; auto).
  destruct (N.eqb_spec s 0) as [->|NZ]; cbn [negb].
  - destruct adnl as [a|].
    + destruct (hash_written _ A) as (xa & Aw & Ar & La & Ra). exists (capp (nbits 8 0x73, []) (capp (capp (nbits 32 0x8e81278a, []) xk) (capp (nbits 64 w, []) (capp xa ([], []))))). split_and!.
      * rewrite <- capp_assoc. apply appends_bind; [apply T; reflexivity|]. apply appends_bind; [exact P|]. apply appends_bind; [by_law (lawful_bytes 32)|]. apply appends_bind; [exact (law_store _ _ (lawful_uint 64) _ _ Ww)|].
        apply appends_bind; [by_law (lawful_bytes 32)|apply appends_nil].
      * apply descr_adnl. eexists. split; [reflexivity|]. eexists _, _. split; [reflexivity|]. split; [exact Pr|]. eexists _, _. split; [reflexivity|]. split; [exact Wr|]. eexists _, _. split; [reflexivity|]. split; [exact Ar|reflexivity].
      * rewrite !(fun a b => proj1 (Lc a b)). cbn [fst]. rewrite !length_nbits, Lk, La. cbn [length]. lia.
      * rewrite !(fun a b => proj2 (Lc a b)). cbn [snd]. rewrite Rk, Ra. reflexivity.
    + exists (capp (nbits 8 0x53, []) (capp (capp (nbits 32 0x8e81278a, []) xk) (capp (nbits 64 w, []) ([], [])))). split_and!.
      * rewrite <- capp_assoc. apply appends_bind; [apply T; reflexivity|]. apply appends_bind; [exact P|]. apply appends_bind; [by_law (lawful_bytes 32)|]. apply appends_bind; [exact (law_store _ _ (lawful_uint 64) _ _ Ww)|].
        cbn [rbind]. apply appends_nil.
      * apply descr_basic. eexists. split; [reflexivity|]. eexists _, _. split; [reflexivity|]. split; [exact Pr|]. eexists _, _. split; [reflexivity|]. split; [exact Wr|reflexivity].
      * rewrite !(fun a b => proj1 (Lc a b)). cbn [fst]. rewrite !length_nbits, Lk. cbn [length]. lia.
      * rewrite !(fun a b => proj2 (Lc a b)). cbn [snd]. rewrite Rk. reflexivity.
  - assert (Z : w_ok hash_w (repeat 0 32)) by (split; [apply List.Forall_forall; intros b Hb; apply repeat_spec in Hb; subst b; reflexivity|reflexivity]).
    destruct (hash_written _ Z) as (xa & Aw & Ar & La & Ra). exists (capp (nbits 8 0x93, []) (capp (capp (nbits 32 0x8e81278a, []) xk) (capp (nbits 64 w, []) (capp xa (capp (nbits 32 s, []) ([], [])))))). split_and!.
    + rewrite capp_nil, <- capp_assoc. apply appends_bind; [apply T; reflexivity|]. apply appends_bind; [exact P|]. apply appends_bind; [by_law (lawful_bytes 32)|]. apply appends_bind; [exact (law_store _ _ (lawful_uint 64) _ _ Ww)|].
      apply appends_bind; [by_law (lawful_bytes 32)|exact (law_store _ _ (lawful_uint 32) _ _ Sw)].
    + apply descr_seqno. eexists. split; [reflexivity|]. eexists _, _. split; [reflexivity|]. split; [exact Pr|]. eexists _, _. split; [reflexivity|]. split; [exact Wr|]. eexists _, _. split; [reflexivity|]. split; [exact Ar|]. eexists _, _. split; [reflexivity|]. split; [exact Sr|reflexivity].
    + rewrite !(fun a b => proj1 (Lc a b)). cbn [fst]. rewrite !length_nbits, Lk, La. cbn [length]. lia.
    + rewrite !(fun a b => proj2 (Lc a b)). cbn [snd]. rewrite Rk, Ra. reflexivity.
Qed.

(** ** The loop over the dictionary *)
Lemma total_cons d l : total_weight (d :: l) = d_weight d + total_weight l.
Proof. reflexivity. Qed.
Lemma load_descrs_spec dd : forall es fuel left i sum it, (length es < fuel)%nat -> sum < 2 ^ 64 -> i + left <= 2 ^ 16 -> Forall (fun e => length (fst e) = 16%nat) es ->
  iter_inv any_dict false false 16 dd it es -> forall l' w, load_descrs fuel left i sum it = Ok (l', w) <->
    exists l, describe i l (take (N.to_nat left) es) /\ l' = with_sums sum l /\ w = sum + total_weight l /\ w < 2 ^ 64.
Proof.
  induction es as [|e es IH]; intros fuel left i sum it Hf Hs Hi K I l' w; (destruct fuel as [|fuel]; [cbn in Hf; lia|]); cbn [load_descrs].
  - assert (X : (if left =? 0 then Ok ([], sum) else match iter_next it with (None, _) => Ok ([], sum) | (Some (Err er), _) => Err er | (Some (Ok (k, s)), it) => let? (d, _) := load_descr (s_chunk s) in if negb (bval k =? i) then Err InvalidData else if negb (sum + d_weight d <? 2 ^ 64) then Err InvalidData else let? (l, total) := load_descrs fuel (left - 1) (i + 1) (sum + d_weight d) it in Ok (Descr (d_key d) (d_weight d) (d_adnl d) (d_seqno d) sum :: l, total) end) = Ok ([], sum)).
    { destruct (left =? 0); [reflexivity|]. destruct (iter_next_inv any_dict reads_any false false 16 ltac:(lia) _ _ _ I) as (it' & -> & _). reflexivity. }
    rewrite X, take_nil. split.
    + intros [= <- <-]. exists []. cbn. rewrite N.add_0_r. auto.
    + intros (l & D & -> & -> & _). destruct l; [|destruct D]. cbn. rewrite N.add_0_r. reflexivity.
  - destruct (N.eqb_spec left 0) as [->|NZ].
    + change (N.to_nat 0) with O. cbn [take]. split.
      * intros [= <- <-]. exists []. cbn. rewrite N.add_0_r. auto.
      * intros (l & D & -> & -> & _). destruct l; [|destruct D]. cbn. rewrite N.add_0_r. reflexivity.
    + destruct (iter_next_inv any_dict reads_any false false 16 ltac:(lia) _ _ _ I) as (data & it' & -> & I' & C & _). inversion_clear K as [|? ? Ke K']. rewrite C. replace (N.to_nat left) with (S (N.to_nat (left - 1))) by lia. cbn [take].
      assert (KB : bval (fst e) = i <-> fst e = nbits 16 i).
      { split; [intros <-; symmetry; rewrite <- Ke; apply nbits_bval|intros ->; apply bval_nbits_small; change (2 ^ N.of_nat 16) with (2 ^ 16); lia]. }
      split.
      * destruct (load_descr (snd e)) as [[d r]|] eqn:E; [|discriminate]. cbn [rbind]. destruct (N.eqb_spec (bval (fst e)) i) as [Hk|]; [|discriminate]. cbn [negb]. destruct (N.ltb_spec (sum + d_weight d) (2 ^ 64)) as [Hw|]; [|discriminate]. cbn [negb].
        destruct (load_descrs fuel (left - 1) (i + 1) (sum + d_weight d) it') as [[l0 w0]|] eqn:El; [|discriminate]. cbn [rbind]. intros [= <- <-].
        apply (IH fuel (left - 1) (i + 1) (sum + d_weight d) it') in El; [|cbn [length] in Hf; lia|exact Hw|lia|exact K'|exact I'].
        destruct El as (l & D & -> & -> & L). exists (d :: l). apply reads_descr in E. destruct E as (x & X & E). split; [|split; [reflexivity|split; [rewrite total_cons; lia|rewrite <- N.add_assoc; rewrite <- N.add_assoc in L; exact L]]].
        cbn [describe]. split; [apply KB, Hk|]. split; [exists x, r; auto|exact D].
      * intros (l & D & -> & -> & L). destruct l as [|d l]; [destruct D|]. cbn [describe] in D. destruct D as (Hk & (x & r & X & E) & D). rewrite E, (reads_back _ _ _ _ r reads_descr X). cbn [rbind].
        rewrite (proj2 (N.eqb_eq _ _) (proj2 KB Hk)). cbn [negb]. rewrite total_cons in L |- *. rewrite (proj2 (N.ltb_lt (sum + d_weight d) (2 ^ 64))) by lia. cbn [negb].
        rewrite (proj2 (IH fuel (left - 1) (i + 1) (sum + d_weight d) it' ltac:(cbn [length] in Hf; lia) ltac:(lia) ltac:(lia) K' I' (with_sums (sum + d_weight d) l) (sum + d_weight d + total_weight l)));
          [|exists l; split; [exact D|]; split; [reflexivity|]; split; [reflexivity|lia]].
        cbn [rbind with_sums]. rewrite N.add_assoc. reflexivity.
Qed.

(** ** Sets *)
Lemma vset_read fin since until total main weight d es order x rest v r : is_dict any_dict 16 d es -> ordered false false es order ->
  w_read vset_head_w (since, (until, (total, (main, (weight, (d, tt)))))) x ->
  (load_vset fin (capp x rest) = Ok (v, r) <->
   r = rest /\ main <= total /\ exists l, l <> [] /\ describe 0 l (take (N.to_nat total) order) /\ total_weight l = weight /\ v = Vset since until main weight (with_sums 0 l)).
Proof.
  intros D O (y & -> & R). destruct R as (b1 & ? & -> & S1 & b2 & ? & -> & S2 & b3 & ? & -> & S3 & b4 & ? & -> & S4 & b5 & ? & -> & S5 & b6 & ? & -> & S6 & ->).
  cbn [fst snd] in *.
  assert (T : total < 2 ^ 16) by (inversion S3; subst; assumption). assert (W : weight < 2 ^ 64) by (inversion S5; subst; assumption).
  unfold load_vset. rewrite <- !capp_assoc. rewrite (reads_back _ _ _ _ _ (reads_un 8) (uint_intro 8 0x12 ltac:(reflexivity))). cbn [rbind N.eqb Pos.eqb].
  rewrite (reads_back _ _ _ _ _ (reads_un 32) S1). cbn [rbind]. rewrite (reads_back _ _ _ _ _ (reads_un 32) S2). cbn [rbind]. rewrite (reads_back _ _ _ _ _ (reads_un 16) S3). cbn [rbind].
  rewrite (reads_back _ _ _ _ _ (law_load _ _ (lawful_nonzero 16)) S4). cbn [rbind].
  destruct (N.ltb_spec total main) as [Hm|Hm]; [split; [intros H; discriminate H|intros (_ & ? & _); lia]|].
  rewrite (reads_back _ _ _ _ _ (reads_un 64) S5). cbn [rbind]. rewrite (reads_back _ _ _ _ _ reads_dict S6). cbn [rbind fst snd].
  assert (Fl : (length order < S (match d with Some c => csize c | None => 0 end))%nat).
  { rewrite (Permutation_length (proj1 O)). destruct d as [c|]; cbn [is_dict] in D; [apply hashmap_size in D; lia|subst es; cbn; lia]. }
  assert (K : Forall (fun e => length (fst e) = 16%nat) order) by (rewrite (proj1 O); eapply dict_keys; exact D).
  assert (I : iter_inv any_dict false false 16 d (iter_new d 16 false false) order).
  { destruct (iter_new_inv any_dict false false 16 ltac:(lia) d es D) as (o & Po & So & I). rewrite (C24_order_unique false false es order o O (make_ordered _ _ _ _ _ _ _ D Po So)). exact I. }
  pose proof (load_descrs_spec d order _ total 0 0 (iter_new d 16 false false) Fl ltac:(lia) ltac:(lia) K I) as L. replace (capp ([], []) rest) with rest by (destruct rest; reflexivity). split.
  - destruct (load_descrs _ _ _ _ _) as [[l' w]|] eqn:E; [|discriminate]. cbn [rbind]. destruct (proj1 (L l' w) eq_refl) as (l & De & -> & -> & _).
    destruct l as [|x0 l]; [discriminate|]. cbn [with_sums andb]. destruct (N.eqb_spec weight (0 + total_weight (x0 :: l))) as [->|]; [|discriminate]. cbn [negb]. intros [= <- <-].
    split; [reflexivity|]. split; [exact Hm|]. exists (x0 :: l). split; [discriminate|]. split; [exact De|]. split; [reflexivity|]. cbn [with_sums]. reflexivity.
  - intros (-> & _ & l & Hl & De & <- & ->). rewrite (proj2 (L (with_sums 0 l) (total_weight l))); [|exists l; auto]. cbn [rbind]. destruct l as [|x0 l]; [destruct (Hl eq_refl)|]. cbn [with_sums andb].
    rewrite N.eqb_refl. reflexivity.
Qed.

(** Whatever is read. *)
Lemma load_descrs_sums fuel : forall left i sum it l w, load_descrs fuel left i sum it = Ok (l, w) -> sum < 2 ^ 64 -> sums_from sum l /\ w = sum + total_weight l /\ w < 2 ^ 64.
Proof.
  induction fuel as [|fuel IH]; intros left i sum it l w; cbn [load_descrs]; [discriminate|].
  assert (Z : Ok ([], sum) = Ok (l, w) -> sum < 2 ^ 64 -> sums_from sum l /\ w = sum + total_weight l /\ w < 2 ^ 64) by (intros [= <- <-] H; cbn [sums_from total_weight fold_right]; rewrite N.add_0_r; auto).
  destruct (left =? 0); [exact Z|]. destruct (iter_next it) as [[[[k s]|]|] it']; [|discriminate|exact Z].
  destruct (load_descr (s_chunk s)) as [[d r]|]; [|discriminate]. cbn [rbind]. destruct (negb (bval k =? i)); [discriminate|]. destruct (N.ltb_spec (sum + d_weight d) (2 ^ 64)) as [Hw|]; [|discriminate]. cbn [negb].
  destruct (load_descrs fuel (left - 1) (i + 1) (sum + d_weight d) it') as [[l0 w0]|] eqn:E; [|discriminate]. cbn [rbind]. intros [= <- <-] _. destruct (IH _ _ _ _ _ _ E Hw) as (S & -> & L).
  cbn [sums_from d_prev d_weight]. split; [auto|]. rewrite total_cons. cbn [d_weight]. split; [lia|exact L].
Qed.
Lemma loaded_set fin b v r : load_vset fin b = Ok (v, r) -> vset_ok v /\ vs_list v <> [] /\ 0 < vs_main v < 2 ^ 16 /\ vs_since v < 2 ^ 32 /\ vs_until v < 2 ^ 32.
Proof.
  unfold load_vset. destruct (load_un 8 b) as [[t b0]|] eqn:E0; [|discriminate]. cbn [rbind].
  destruct (if t =? 0x11 then Ok false else if t =? 0x12 then Ok true else Err InvalidTag) as [wt|]; [|discriminate]. cbn [rbind].
  destruct (load_un 32 b0) as [[since b1]|] eqn:E1; [|discriminate]. cbn [rbind]. destruct (load_un 32 b1) as [[until b2]|] eqn:E2; [|discriminate]. cbn [rbind].
  destruct (load_un 16 b2) as [[total b3]|] eqn:E3; [|discriminate]. cbn [rbind]. destruct (c_load (nonzero_k 16) b3) as [[main b4]|] eqn:E4; [|discriminate]. cbn [rbind].
  destruct (total <? main); [discriminate|]. intros H.
  match type of H with rbind ?a _ = _ => destruct a as [[p b5]|]; [|discriminate H] end. cbn [rbind] in H.
  match type of H with rbind ?a _ = _ => destruct a as [[l w]|] eqn:El; [|discriminate H] end. cbn [rbind] in H.
  destruct (load_descrs_sums _ _ _ _ _ _ _ El ltac:(lia)) as (S & -> & L). destruct l as [|d l]; [discriminate|].
  destruct (wt && negb (fst p =? 0 + total_weight (d :: l))); [discriminate|]. injection H as <- <-. cbn [vs_list vs_main vs_since vs_until].
  apply reads_un in E1. destruct E1 as (x1 & X1 & _). apply reads_un in E2. destruct E2 as (x2 & X2 & _). apply (law_load _ _ (lawful_nonzero 16)) in E4. destruct E4 as (x4 & X4 & _).
  split; [unfold vset_ok; cbn [vs_list vs_total]; split; [exact S|split; [reflexivity|exact L]]|]. split; [discriminate|].
  destruct X4 as (NZ & X4). inversion X1; inversion X2; inversion X4; subst. lia.
Qed.

(** ** Sets are read as they were written *)
Fixpoint idx16 (i : N) (n : nat) : list (list bool) := match n with O => [] | S n => nbits 16 i :: idx16 (i + 1) n end.
Lemma idx16_before i n j : i < j -> j + N.of_nat n <= 2 ^ 16 -> Forall (before false false (nbits 16 i)) (idx16 j n).
Proof.
  revert j. induction n as [|n IH]; intros j H1 H2; cbn [idx16]; constructor; [|apply IH; lia].
  unfold before. rewrite !key_num_false, !bval_nbits_small by (change (2 ^ N.of_nat 16) with (2 ^ 16); lia). lia.
Qed.
Lemma idx16_sorted n : forall i, i + N.of_nat n <= 2 ^ 16 -> StronglySorted (before false false) (idx16 i n).
Proof. induction n as [|n IH]; intros i H; cbn [idx16]; constructor; [apply IH; lia|apply idx16_before; lia]. Qed.

Lemma appends_empty s x : appends s x -> (length (fst x) <= 648)%nat -> snd x = [] -> s ([], []) = Ok x.
Proof.
  intros A L R. rewrite A by (split; cbn; lia). cbn [fst snd length Nat.add]. rewrite R. rewrite (proj2 (Nat.ltb_ge 1023 (length (fst x)))) by lia. cbn. destruct x; reflexivity.
Qed.
Section Store.
Context (fin : list bool -> list cell -> res unit).
Context (Hfin : forall b r, (length b <= 1023)%nat -> (length r <= 4)%nat -> fin b r = Ok tt).
Lemma descr_dict_ok l : Forall descr_ok l -> forall i d m, history fin 16 d m -> (forall k v, m !! k = Some v -> DictProps.fits 16 v) ->
  exists d' es, descr_dict fin l i d = Ok d' /\ insert_all fin 16 MSet es d = Ok d' /\ map fst es = idx16 i (length l) /\ describe i (map kept l) es.
Proof.
  induction 1 as [|x l Hx F IH]; intros i d m H Hm; cbn [descr_dict length idx16 map].
  - exists d, []. cbn. auto.
  - destruct (store_descr_ok x Hx) as (v & A & C & L & R). rewrite (appends_empty _ _ A L R). cbn [rbind].
    assert (Fv : DictProps.fits 16 v) by (split; [lia|rewrite R; cbn; lia]).
    destruct (proj1 (C20_updates_succeed fin 16 d m (nbits 16 i) v MSet Hfin ltac:(lia) H Hm (length_nbits _ _) Fv)) as (d1 & E).
    rewrite E. cbn [rbind].
    destruct (IH (i + 1) d1 (set_map MSet (nbits 16 i) v m)) as (d' & es & E' & Ei & K & De).
    { eapply h_set; eassumption. }
    { intros k w Hk. unfold set_map in Hk. cbn [stores] in Hk. destruct (decide (nbits 16 i = k)) as [<-|N]; [rewrite lookup_insert in Hk; injection Hk as <-; exact Fv|rewrite lookup_insert_ne in Hk by exact N; eapply Hm; exact Hk]. }
    exists d', ((nbits 16 i, v) :: es). split; [exact E'|]. split; [cbn [insert_all]; rewrite E; exact Ei|]. split; [cbn [map fst]; rewrite K; reflexivity|].
    cbn [describe fst snd]. split; [reflexivity|]. split; [|exact De]. exists v, ([], []). split; [exact C|]. rewrite capp_nil. reflexivity.
Qed.
End Store.
