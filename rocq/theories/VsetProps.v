(** * Subsets of validators: theorems *)
From stdpp Require Import list_numbers.
From Verif Require Import Err BitsProofs IntModel CellModel BocModel Crc32c ShardModel VsetModel VsetSpec VsetProofs.
Local Open Scope N_scope.

(** C56: the generator produces the words of the hashes of the numbered texts, in order. *)
Theorem C56_generator f s q seed n : seed < 2 ^ 256 -> first_words f n (prng_with_seed s q (to_be 32 seed)) = map (prng_word f s q seed) (seq 0 n).
Proof. intros H. apply first_words_at, start_word, H. Qed.
Print Assumptions C56_generator.

Lemma words_ok f s q n : sha512_like f -> Forall (fun w => w < 2 ^ 64) (first_words f n (prng_new s q)).
Proof.
  intros Hf. unfold prng_new. change (replicate 32 0) with (to_be 32 0). rewrite C56_generator by reflexivity. apply List.Forall_forall. intros w I. apply in_map_iff in I. destruct I as (k & <- & _). apply word_lt, Hf.
Qed.
Lemma loop_ok f w s q n : sha512_like f -> vset_ok w -> positive (vs_list w) -> (n <= length (vs_list w))%nat ->
  exists chosen nodes, subset_loop f n w (vs_total w) [] (prng_new s q) = Ok nodes /\ drawn (numbered (vs_list w)) (first_words f n (prng_new s q)) chosen /\ Forall2 (node_at (vs_list w)) chosen nodes.
Proof.
  intros Hf (Hs & Ht & Hl) Hp Hn. set (M := imap (fun i d => ((0 + i)%nat, d, false)) (vs_list w)).
  assert (ER : rest M = numbered (vs_list w)) by (unfold M; rewrite numbered_rest; reflexivity).
  assert (EW : weight_of (rest M) = vs_total w).
  { rewrite Ht, ER. unfold numbered. clear. assert (G : forall k, weight_of (imap (fun i d => ((k + i)%nat, d_weight d)) (vs_list w)) = total_weight (vs_list w)); [|apply (G 0%nat)].
    induction (vs_list w) as [|d l IH]; intros k; [reflexivity|]. cbn [imap]. rewrite weight_cons. cbn [total_weight fold_right]. fold (total_weight l). f_equal. rewrite <- (IH (S k)). f_equal. apply imap_ext. intros. cbn. f_equal. lia. }
  destruct (subset_loop_ok f w Hs Hp Ht Hl n M (prng_new s q)) as (chosen & nodes & E & D & F).
  - unfold M. apply numbered_descrs.
  - intros i d t I. unfold M in I. apply elem_of_list_In, elem_of_lookup_imap in I. destruct I as (j & y & E & L). injection E as -> -> _. exact L.
  - rewrite ER. unfold numbered. rewrite imap_length. exact Hn.
  - apply words_ok, Hf.
  - exists chosen, nodes. rewrite EW in E. unfold M in E. rewrite numbered_holes in E. rewrite ER in D. split; [exact E|]. split; assumption.
Qed.

(** C56: the subset of a shard.  The candidates are all the validators, or the ones after the
    masterchain's when those are kept apart; as many as are asked for are drawn from them
    without replacement by the words of the generator. *)
Theorem C56_shard_subset f v s cc q : sha512_like f -> vset_ok v -> positive (vs_list v) -> is_masterchain s = false ->
  let candidates := if cc_isolate cc then drop (N.to_nat (vs_main v)) (vs_list v) else vs_list v in
  let count := Nat.min (length candidates) (N.to_nat (cc_vals_num cc)) in
  (cc_isolate cc = true /\ candidates = [] -> subset f v s cc q = Ok None) /\
  (~ (cc_isolate cc = true /\ candidates = []) -> exists chosen nodes, subset f v s cc q = Ok (Some (nodes, hash_short nodes q))
    /\ drawn (numbered candidates) (first_words f count (prng_new s q)) chosen /\ Forall2 (node_at candidates) chosen nodes).
Proof.
  intros Hf Hv Hp Hm candidates count. unfold subset. rewrite Hm. destruct (cc_isolate cc) eqn:I; subst candidates; cbn [andb].
  - destruct (Nat.leb_spec (length (vs_list v)) (N.to_nat (vs_main v))) as [L|L].
    + split; [reflexivity|]. intros Ne. exfalso. apply Ne. split; [reflexivity|]. apply drop_ge. exact L.
    + split; [intros [_ E]; exfalso; apply (f_equal length) in E; rewrite drop_length in E; cbn [length] in E; lia|]. intros _.
      set (l := drop (N.to_nat (vs_main v)) (vs_list v)) in *. destruct Hv as (Hs & Ht & Hl).
      assert (Tl : total_weight l <= vs_total v). { rewrite Ht. unfold l. rewrite <- (take_drop (N.to_nat (vs_main v)) (vs_list v)) at 2. rewrite total_app. lia. }
      destruct (renumber_ok l 0) as (l' & E & S' & F); [lia|]. rewrite E. cbn [rbind vs_list vs_total]. rewrite N.add_0_l.
      assert (LL : length l' = length l) by (symmetry; eapply Forall2_length, F).
      set (w := Vset (vs_since v) (vs_until v) (vs_main v) (total_weight l) l').
      assert (TT : total_weight l = total_weight l'). { clear -F. induction F as [|d d' l l' [Hd _] F IH]; [reflexivity|]. cbn [total_weight fold_right]. fold (total_weight l) (total_weight l'). congruence. }
      assert (Hw : vset_ok w) by (split; [exact S'|split; [exact TT|cbn [vs_total w]; lia]]).
      assert (Pl : positive l) by (unfold positive, l; apply Forall_drop, Hp).
      assert (Pw : positive (vs_list w)). { cbn [vs_list w]. clear -F Pl. induction F as [|d d' l l' [Hd _] F IH]; [constructor|]. inversion Pl; subst. constructor; [lia|apply IH; assumption]. }
      assert (NN : numbered l' = numbered l). { unfold numbered. clear -F. assert (G : forall k, imap (fun i d => ((k + i)%nat, d_weight d)) l' = imap (fun i d => ((k + i)%nat, d_weight d)) l); [|apply (G 0%nat)].
        induction F as [|d d' l l' [Hd _] F IH]; intros k; [reflexivity|]. cbn [imap]. rewrite Hd. f_equal. specialize (IH (S k)). etransitivity; [|etransitivity; [exact IH|]]; apply imap_ext; intros; cbn; f_equal; lia. }
      destruct (loop_ok f w s q count Hf Hw Pw) as (chosen & nodes & E2 & D & F2); [cbn [vs_list w]; rewrite LL; unfold count; lia|]. cbn [vs_total vs_list w] in E2, D, F2. rewrite NN in D.
      exists chosen, nodes. rewrite LL. fold count. rewrite E2. cbn [rbind]. split; [reflexivity|]. split; [exact D|]. eapply Forall2_impl; [exact F2|]. intros i n (d' & Hd & ->).
      destruct (Forall2_lookup_r _ _ _ _ _ F Hd) as (d & Hd2 & _ & En). exists d. split; [exact Hd2|congruence].
  - split; [intros [C _]; discriminate|]. intros _. cbn [rbind]. fold count. destruct (loop_ok f v s q count Hf Hv Hp) as (chosen & nodes & E & D & F); [unfold count; lia|]. rewrite E. cbn [rbind]. exists chosen, nodes. repeat split; assumption.
Qed.
Print Assumptions C56_shard_subset.

Lemma numbered_fst l : map fst (numbered l) = seq 0 (length l).
Proof.
  unfold numbered. assert (G : forall k, map fst (imap (fun i d => ((k + i)%nat, d_weight d)) l) = seq k (length l)); [|apply (G 0%nat)].
  induction l as [|d l IH]; intros k; [reflexivity|]. cbn [imap map fst length seq]. f_equal; [lia|]. rewrite <- (IH (S k)). f_equal. apply imap_ext. intros. cbn. f_equal. lia.
Qed.
Lemma sub_nodup {A} (a b : list A) : sublist a b -> NoDup b -> NoDup a.
Proof.
  induction 1 as [|x a b Sb IH|x a b Sb IH]; intros Nd.
  - exact Nd.
  - apply list.NoDup_cons in Nd. destruct Nd as [Nx Nd]. apply list.NoDup_cons. split; [|apply IH, Nd]. intros I. apply Nx. eapply elem_of_submseteq; [exact I|apply sublist_submseteq, Sb].
  - apply list.NoDup_cons in Nd. apply IH, Nd.
Qed.
(** C56: a draw takes as many positions as there are words, no position twice, and the words
    determine it. *)
Theorem C56_draw l vs xs : drawn (numbered l) vs xs ->
  length xs = length vs /\ List.NoDup xs /\ Forall (fun i => (i < length l)%nat) xs /\ (forall ys, drawn (numbered l) vs ys -> ys = xs).
Proof.
  intros D. destruct (drawn_in _ _ _ D) as (L & r & P & Sb). pose proof (numbered_fst l) as Nf. apply (Permutation_map fst) in P. rewrite Nf in P.
  split; [exact L|]. assert (Nd : List.NoDup (map fst r)) by (eapply Permutation_NoDup; [exact P|apply seq_NoDup]).
  split; [apply NoDup_ListNoDup; eapply sub_nodup; [exact Sb|apply NoDup_ListNoDup, Nd]|]. split.
  - apply List.Forall_forall. intros i I. apply elem_of_list_In in I. eapply elem_of_submseteq in I; [|apply sublist_submseteq, Sb]. rewrite <- P in I. apply elem_of_list_In, in_seq in I. lia.
  - intros ys D'. eapply drawn_fun; [exact D'|exact D|]. rewrite Nf. apply seq_NoDup.
Qed.
Print Assumptions C56_draw.

(** C56: the subset of the masterchain: the first validators of the list, in their order or in
    the order the shuffle makes. *)
Theorem C56_masterchain_subset f v s cc q : sha512_like f -> is_masterchain s = true ->
  let count := Nat.min (length (vs_list v)) (N.to_nat (vs_main v)) in
  exists order nodes, subset f v s cc q = Ok (Some (nodes, hash_short nodes q)) /\ Forall2 (fun i d => vs_list v !! i = Some d) order nodes
    /\ order ≡ₚ seq 0 count
    /\ order = if cc_shuffle cc then shuffled (choices_of (first_words f count (prng_new (shard_full (-1)) q))) [] else seq 0 count.
Proof.
  intros Hf Hm count. unfold subset. rewrite Hm. unfold mc_subset. fold count. destruct (cc_shuffle cc); cbn [negb].
  - destruct (shuffle_loop_ok f count [] (prng_new (shard_full (-1)) q) (words_ok _ _ _ _ Hf)) as (g' & E). cbn [app length] in E. rewrite E. cbn [rbind].
    change (imap (fun i v0 => N.to_nat ((N.of_nat (0 + i) + 1) * v0 / 2 ^ 64)) (first_words f count (prng_new (shard_full (-1)) q))) with (choices_of (first_words f count (prng_new (shard_full (-1)) q))).
    set (js := choices_of _). assert (Lj : length js = count) by (unfold js, choices_of; rewrite imap_length, first_words_len; reflexivity).
    pose proof (shuffled_perm js) as P. rewrite Lj in P. rewrite take_ge by (rewrite (Permutation_length P), seq_length; lia).
    destruct (collect_ok (vs_list v) (shuffled js [])) as (r & Er & F).
    { apply List.Forall_forall. intros i I. apply elem_of_list_In in I. rewrite P in I. apply elem_of_list_In, in_seq in I. unfold count in I. lia. }
    rewrite Er. cbn [rbind]. exists (shuffled js []), r. repeat split; assumption.
  - cbn [rbind]. exists (seq 0 count), (take count (vs_list v)). split; [reflexivity|]. split; [|split; reflexivity].
    apply Forall2_same_length_lookup. split; [rewrite seq_length, take_length; unfold count; lia|]. intros i x d Hx Hd.
    rewrite lookup_seq in Hx. destruct Hx as [-> Hi]. rewrite lookup_take in Hd by exact Hi. exact Hd.
Qed.
Print Assumptions C56_masterchain_subset.

(** C56: the shuffle reaches every order, each by exactly one sequence of choices, so it is
    fair if the choices are. *)
Theorem C56_shuffle_fair n order : order ≡ₚ seq 0 n -> exists js, (choices js /\ length js = n /\ shuffled js [] = order) /\ (forall js', choices js' -> length js' = n -> shuffled js' [] = order -> js' = js).
Proof.
  intros P. destruct (shuffled_onto n order P) as (js & C & L & E). exists js. split; [repeat split; assumption|]. intros js' C' L' E'. apply shuffled_inj; [assumption|assumption|congruence|congruence].
Qed.
Print Assumptions C56_shuffle_fair.
Theorem C56_choices vs : Forall (fun w => w < 2 ^ 64) vs -> choices (choices_of vs).
Proof.
  intros F i j E. unfold choices_of in E. rewrite list_lookup_imap in E. destruct (vs !! i) as [w|] eqn:Ew; [|discriminate]. injection E as <-.
  rewrite List.Forall_forall in F. assert (w < 2 ^ 64) by (apply F, elem_of_list_In; eapply elem_of_list_lookup_2, Ew).
  assert ((N.of_nat i + 1) * w / 2 ^ 64 < N.of_nat i + 1); [|lia]. apply N.div_lt_upper_bound; [discriminate|]. rewrite (N.mul_comm (2 ^ 64)). apply N.mul_lt_mono_pos_l; [lia|assumption].
Qed.
Print Assumptions C56_choices.

(** C56: the short hash is the checksum of one text. *)
Theorem C56_hash nodes q : N.of_nat (length nodes) < 2 ^ 32 -> hash_short nodes q = crc32c_append 0 (hash_text nodes q).
Proof.
  intros L. unfold hash_short, hash_text. unfold w32. rewrite N.mod_small by exact L. rewrite !crc32c_app. change (to_le 4 2417385709) with [0xED; 0x60; 0x16; 0x90].
  assert (G : forall t l, fold_left (fun h n => crc32c_append (crc32c_append (crc32c_append h (d_key n)) (to_le 8 (d_weight n))) (default (replicate 32 0) (d_adnl n))) l (crc32c_append 0 t)
    = crc32c_append 0 (t ++ concat (map (fun d => d_key d ++ rev (to_be 8 (d_weight d)) ++ default (replicate 32 0) (d_adnl d)) l))).
  { intros t l. revert t. induction l as [|d l IH]; intros t; [cbn; rewrite app_nil_r; reflexivity|]. cbn [fold_left map concat]. rewrite !crc32c_app, IH. f_equal. rewrite <- !app_assoc. reflexivity. }
  cbv zeta. rewrite G. f_equal.
Qed.
Print Assumptions C56_hash.

(** ** A validator without weight *)
(** The claim that every well-formed set gives a subset is false: with a validator of no weight
    in front of one of weight one, drawing both stops at an assertion (and without assertions the
    second one is drawn twice). *)
Definition no_weight : vset := Vset 0 1 1 1 [Descr (replicate 32 1) 0 None 0 0; Descr (replicate 32 2) 1 None 0 0].
Theorem C56_zero_weight_refuted : vset_ok no_weight /\ forall f s cc q, cc_isolate cc = false -> cc_vals_num cc = 2 -> is_masterchain s = false -> sha512_like f -> subset f no_weight s cc q = Err Panic.
Proof.
  split; [repeat split|]. intros f s cc q I Nn Hm Hf. unfold subset. rewrite Hm, I, Nn. cbn [andb rbind]. change (Nat.min (length (vs_list no_weight)) (N.to_nat 2)) with 2%nat.
  pose proof (words_ok f s q 1 Hf) as W. cbn [first_words] in W. cbn [subset_loop]. unfold next_ranged. change (vs_total no_weight) with 1. change (0 <? 1) with true. cbn [negb].
  destruct (next_u64 f (prng_new s q)) as [w g]. inversion W as [|? ? Hw _]; subst. rewrite N.mul_1_l, N.shiftr_div_pow2, N.div_small by exact Hw. reflexivity.
Qed.
Print Assumptions C56_zero_weight_refuted.

(** ** A case *)
(** A hash function of sorts: the sum of the bytes in every byte. *)
Definition toy (x : list N) : list N := map (fun i => (fold_left N.add x 0 * 37 + N.of_nat i * 91) mod 256) (seq 0 64).
Lemma toy_like : sha512_like toy.
Proof. intros x. split; [unfold toy; rewrite map_length, seq_length; reflexivity|]. unfold toy. apply List.Forall_forall. intros b I. apply in_map_iff in I. destruct I as (i & <- & _). unfold byte_ok. apply N.mod_lt. discriminate. Qed.
Definition node (k : nat) (w prev : N) : descr := Descr (replicate 32 (N.of_nat k)) w None 0 prev.
Definition five : vset := Vset 0 100 2 31 [node 1 1 0; node 2 2 1; node 3 4 3; node 4 8 7; node 5 16 15].
Definition keys (r : res (option (list descr * N))) : list N := match r with Ok (Some (l, _)) => map (fun d => nth 0 (d_key d) 0) l | _ => [] end.
Example C56_case : sha512_like toy /\ vset_ok five /\ positive (vs_list five)
  /\ drawn (numbered (vs_list five)) (first_words toy 3 (prng_new (shard_full 0) 7)) [4; 2; 1]%nat
  /\ keys (subset toy five (shard_full 0) (Catchain false false 1 1 1 3) 7) = [5; 3; 2]
  /\ keys (subset toy five (shard_full 0) (Catchain true false 1 1 1 3) 7) = [5; 4; 3]
  /\ keys (subset toy five (shard_full (-1)) (Catchain true true 1 1 1 3) 7) = [1; 2]
  /\ shuffled [0; 0; 2; 1]%nat [] = [1; 3; 2; 0]%nat.
Proof.
  split; [exact toy_like|]. split; [repeat split; reflexivity|]. split; [repeat constructor|]. split; [|vm_compute; repeat split].
  replace (first_words toy 3 (prng_new (shard_full 0) 7)) with [9502095575630914816; 6608488662107848152; 3715163223578269104] by (vm_compute; reflexivity). change (numbered (vs_list five)) with [(0%nat, 1); (1%nat, 2); (2%nat, 4); (3%nat, 8); (4%nat, 16)].
  apply (drawn_next [(0%nat, 1); (1%nat, 2); (2%nat, 4); (3%nat, 8)] 4%nat 16 []); [vm_compute; split; congruence|]. cbn [app].
  apply (drawn_next [(0%nat, 1); (1%nat, 2)] 2%nat 4 [(3%nat, 8)]); [vm_compute; split; congruence|]. cbn [app].
  apply (drawn_next [(0%nat, 1)] 1%nat 2 [(3%nat, 8)]); [vm_compute; split; congruence|]. apply drawn_none.
Qed.
