(** * Subsets of validators: proofs *)
From Verif Require Import Err BitsProofs IntModel CellModel BocModel BocProofs5 Crc32c ShardModel VsetModel VsetSpec.
Local Open Scope N_scope.

(** ** The generator *)
Fixpoint le_val (l : list N) : N := match l with [] => 0 | b :: l => b + 256 * le_val l end.
Lemma from_be_snoc l b : from_be (l ++ [b]) = 256 * from_be l + b.
Proof. unfold from_be. rewrite fold_left_app. reflexivity. Qed.
Lemma from_be_rev l : from_be (rev l) = le_val l.
Proof. induction l as [|b l IH]; [reflexivity|]. cbn [rev le_val]. rewrite from_be_snoc, IH. lia. Qed.
Lemma bump_len l : length (bump l) = length l.
Proof. induction l as [|b l IH]; [reflexivity|]. cbn [bump]. destruct (negb _); cbn [length]; congruence. Qed.
Lemma bump_ok l : Forall byte_ok l -> Forall byte_ok (bump l) /\ le_val (bump l) = (le_val l + 1) mod 256 ^ N.of_nat (length l).
Proof.
  induction l as [|b l IH]; intros F; [split; [constructor|reflexivity]|]. inversion F as [|? ? Fb Fl]; subst. destruct (IH Fl) as [F' V]. unfold byte_ok in Fb.
  cbn [bump le_val length]. rewrite Nat2N.inj_succ, N.pow_succ_r'. assert (P : 0 < 256 ^ N.of_nat (length l)) by (apply N.neq_0_lt_0, N.pow_nonzero; lia).
  assert (B : le_val l < 256 ^ N.of_nat (length l)).
  { clear -Fl. induction Fl as [|x l Hx Fl IH]; [reflexivity|]. cbn [le_val length]. rewrite Nat2N.inj_succ, N.pow_succ_r'. unfold byte_ok in Hx. lia. }
  unfold w8. destruct (N.eq_dec b 255) as [->|D].
  - change ((255 + 1) mod 256) with 0. cbn [N.eqb negb le_val]. split; [constructor; [vm_compute; reflexivity|exact F']|]. rewrite V.
    replace (255 + 256 * le_val l + 1) with (256 * (le_val l + 1)) by lia. rewrite N.mul_mod_distr_l by lia. lia.
  - rewrite N.mod_small by lia. destruct (N.eqb_spec (b + 1) 0); [lia|]. cbn [negb le_val]. split; [constructor; [unfold byte_ok; lia|exact Fl]|]. rewrite N.mod_small; lia.
Qed.
Lemma bump_be n x : x < 2 ^ N.of_nat (8 * n) -> rev (bump (rev (to_be n x))) = to_be n ((x + 1) mod 2 ^ N.of_nat (8 * n)).
Proof.
  intros H. assert (L : length (to_be n x) = n) by (unfold to_be; rewrite map_length, seq_length; reflexivity).
  assert (F : Forall byte_ok (to_be n x)). { unfold to_be. apply List.Forall_forall. intros b Hb. apply in_map_iff in Hb. destruct Hb as (i & <- & _). unfold byte_ok. apply N.mod_lt. lia. }
  assert (F' : Forall byte_ok (rev (to_be n x))) by (apply Forall_rev, F). destruct (bump_ok _ F') as [G V].
  rewrite <- (to_be_from_be n (rev (bump (rev (to_be n x))))); [|apply Forall_rev, G|rewrite rev_length, bump_len, rev_length; exact L].
  f_equal. rewrite from_be_rev, V, <- from_be_rev, rev_involutive, rev_length, L, from_be_to_be by exact H. f_equal. change 256 with (2 ^ 8). rewrite <- N.pow_mul_r. f_equal. lia.
Qed.
Section Prng.
Context (f : list N -> list N) (Hf : sha512_like f) (s : shard) (q seed : N).
Let text := prng_text s q seed.
Definition fresh (b : N) (g : prng) : Prop := g_context g = text b /\ 7 <= nth 0 (g_bag g) 0.
Definition midway (b : N) (r : nat) (g : prng) : Prop := g_context g = text (b + 1) /\ g_bag g = N.of_nat r - 1 :: tl (words (f (text b))).
Lemma words_nth h i : (i < 8)%nat -> nth i (words h) 0 = from_be (take 8 (drop (8 * i) h)).
Proof.
  intros H. do 8 (destruct i as [|i]; [reflexivity|]). lia.
Qed.
Lemma next_fresh b g : fresh b g -> exists g', next_u64 f g = (from_be (take 8 (drop 0 (f (text b)))), g') /\ midway b 1 g'.
Proof.
  intros [C B]. unfold next_u64. destruct (N.ltb_spec (nth 0 (g_bag g) 0) 7); [lia|]. unfold prng_reset. cbv zeta. rewrite C, words_nth by lia. eexists. split; [reflexivity|].
  split; [|reflexivity]. cbn [g_context]. unfold text, prng_text.
  assert (L : length (to_be 32 ((seed + b) mod 2 ^ 256)) = 32%nat) by (unfold to_be; rewrite map_length, seq_length; reflexivity).
  rewrite take_app_alt, drop_app_alt by (symmetry; exact L). f_equal. rewrite bump_be; [|apply N.mod_lt; discriminate]. change (N.of_nat (8 * 32)) with 256. rewrite N.add_mod_idemp_l by discriminate. f_equal. f_equal. lia.
Qed.
Lemma next_midway b r g : (1 <= r <= 7)%nat -> midway b r g -> exists g', next_u64 f g = (from_be (take 8 (drop (8 * r) (f (text b)))), g') /\ midway b (S r) g'.
Proof.
  intros Hr [C B]. unfold next_u64. rewrite B. cbn [nth]. destruct (N.ltb_spec (N.of_nat r - 1) 7); [|lia]. eexists. split.
  - f_equal. rewrite <- words_nth by lia. replace (1 + N.to_nat (N.of_nat r - 1))%nat with (S (r - 1)) by lia. cbn [nth]. destruct (words (f (text b))) as [|w ws] eqn:E; [discriminate|]. destruct r as [|r]; [lia|]. cbn [tl nth]. replace (S r - 1)%nat with r by lia. reflexivity.
  - split; [exact C|]. cbn [g_bag tl]. f_equal. lia.
Qed.
Lemma midway_fresh b g : midway b 8 g -> fresh (b + 1) g.
Proof. intros [C B]. split; [exact C|]. rewrite B. cbn [nth]. lia. Qed.
Definition at_word (k : nat) (g : prng) : Prop := match (k mod 8)%nat with O => fresh (N.of_nat (k / 8)) g | r => midway (N.of_nat (k / 8)) r g end.
Lemma next_word k g : at_word k g -> exists g', next_u64 f g = (prng_word f s q seed k, g') /\ at_word (S k) g'.
Proof.
  intros H. unfold at_word in H. unfold prng_word. fold text. pose proof (Nat.div_mod k 8 ltac:(lia)) as D. pose proof (Nat.mod_upper_bound k 8 ltac:(lia)) as M.
  assert (N1 : exists g', next_u64 f g = (from_be (take 8 (drop (8 * (k mod 8)) (f (text (N.of_nat (k / 8)))))), g') /\ midway (N.of_nat (k / 8)) (S (k mod 8)) g').
  { destruct (k mod 8)%nat as [|r] eqn:E; [apply next_fresh, H|apply next_midway; [lia|exact H]]. }
  destruct N1 as (g' & E & Hm). exists g'. split; [exact E|]. unfold at_word. destruct (Nat.eq_dec (k mod 8) 7) as [E7|E7].
  - rewrite E7 in Hm. apply midway_fresh in Hm. assert (A : (S k / 8 = k / 8 + 1)%nat). { symmetry. apply (Nat.div_unique _ _ _ 0); lia. }
    assert (B : (S k mod 8 = 0)%nat) by (symmetry; apply (Nat.mod_unique _ _ (k / 8 + 1)); lia). rewrite A, B. rewrite Nat2N.inj_add. exact Hm.
  - assert (A : (S k / 8 = k / 8)%nat). { symmetry. apply (Nat.div_unique _ _ _ (S (k mod 8))); lia. }
    assert (B : (S k mod 8 = S (k mod 8))%nat) by (symmetry; apply (Nat.mod_unique _ _ (k / 8)); lia). rewrite A, B. exact Hm.
Qed.
Lemma first_words_at n : forall k g, at_word k g -> first_words f n g = map (prng_word f s q seed) (seq k n).
Proof.
  induction n as [|n IH]; intros k g H; [reflexivity|]. cbn [first_words seq map]. destruct (next_word k g H) as (g' & -> & H'). rewrite (IH _ _ H'). reflexivity.
Qed.
Lemma start_word : seed < 2 ^ 256 -> at_word 0 (prng_with_seed s q (to_be 32 seed)).
Proof. intros H. split; [|vm_compute; discriminate]. cbn [prng_with_seed g_context]. unfold text, prng_text. change (N.of_nat (0 / 8)) with 0. rewrite N.add_0_r, N.mod_small by exact H. reflexivity. Qed.
Lemma word_lt k : prng_word f s q seed k < 2 ^ 64.
Proof.
  unfold prng_word. destruct (Hf (prng_text s q seed (N.of_nat (k / 8)))) as [L F]. set (x := take 8 _).
  assert (Fx : Forall byte_ok x) by (apply Forall_take, Forall_drop, F). pose proof (from_be_lt x Fx) as H. pose proof (Nat.mod_upper_bound k 8 ltac:(lia)) as M.
  assert (E : length x = 8%nat) by (unfold x; rewrite take_length, drop_length, L; lia). rewrite E in H. exact H.
Qed.
End Prng.

(** ** Drawing *)
Definition masked : Type := nat * descr * bool.
Definition m_index (m : masked) : nat := fst (fst m).
Definition m_descr (m : masked) : descr := snd (fst m).
Definition m_taken (m : masked) : bool := snd m.
Definition rest (M : list masked) : list (nat * N) := map (fun m => (m_index m, d_weight (m_descr m))) (filter (fun m => m_taken m = false) M).
Definition holes (M : list masked) : list (N * N) := map (fun m => (d_prev (m_descr m), d_weight (m_descr m))) (filter (fun m => m_taken m = true) M).
Definition descrs (M : list masked) : list descr := map m_descr M.
Lemma weight_app {A} (a b : list (A * N)) : weight_of (a ++ b) = weight_of a + weight_of b.
Proof. unfold weight_of. induction a as [|x a IH]; cbn [app fold_right]; [reflexivity|]. rewrite IH. lia. Qed.
Lemma weight_cons {A} (x : A) w l : weight_of ((x, w) :: l) = w + weight_of l.
Proof. reflexivity. Qed.
Lemma rest_app a b : rest (a ++ b) = rest a ++ rest b.
Proof. unfold rest. rewrite list.filter_app, map_app. reflexivity. Qed.
Lemma holes_app a b : holes (a ++ b) = holes a ++ holes b.
Proof. unfold holes. rewrite list.filter_app, map_app. reflexivity. Qed.
Lemma rest_false i d M : rest ((i, d, false) :: M) = (i, d_weight d) :: rest M.
Proof. unfold rest. rewrite filter_cons_True by reflexivity. reflexivity. Qed.
Lemma rest_true i d M : rest ((i, d, true) :: M) = rest M.
Proof. unfold rest. rewrite filter_cons_False by (cbn; discriminate). reflexivity. Qed.
Lemma holes_true i d M : holes ((i, d, true) :: M) = (d_prev d, d_weight d) :: holes M.
Proof. unfold holes. rewrite filter_cons_True by reflexivity. reflexivity. Qed.
Lemma holes_false i d M : holes ((i, d, false) :: M) = holes M.
Proof. unfold holes. rewrite filter_cons_False by (cbn; discriminate). reflexivity. Qed.
Lemma rest_le M : weight_of (rest M) <= total_weight (descrs M).
Proof.
  induction M as [|[[i d] t] M IH]; [reflexivity|]. unfold descrs in *. cbn [map total_weight fold_right m_descr fst snd]. fold (total_weight (map m_descr M)).
  destruct t; [rewrite rest_true; lia|]. rewrite rest_false, weight_cons. lia.
Qed.
Lemma sums_app a : forall t b, sums_from t (a ++ b) <-> sums_from t a /\ sums_from (t + total_weight a) b.
Proof.
  induction a as [|d a IH]; intros t b; cbn [app sums_from total_weight fold_right]; [rewrite N.add_0_r; tauto|]. fold (total_weight a). rewrite IH. rewrite N.add_assoc. tauto.
Qed.
Lemma total_app a b : total_weight (a ++ b) = total_weight a + total_weight b.
Proof. unfold total_weight. induction a as [|d a IH]; cbn [app fold_right]; [reflexivity|]. rewrite IH. lia. Qed.
Lemma sums_ge l : forall t, sums_from t l -> Forall (fun d => t <= d_prev d) l.
Proof. induction l as [|d l IH]; intros t H; [constructor|]. destruct H as [E H]. constructor; [lia|]. eapply List.Forall_impl; [|apply (IH _ H)]. cbn. intros; lia. Qed.
Lemma sums_lt l : forall t, positive l -> sums_from t l -> Forall (fun d => d_prev d < t + total_weight l) l.
Proof.
  induction l as [|d l IH]; intros t P H; [constructor|]. inversion P; subst. destruct H as [E H]. cbn [total_weight fold_right]. fold (total_weight l). constructor; [lia|].
  eapply List.Forall_impl; [|apply (IH _ ltac:(assumption) H)]. cbn. intros; lia.
Qed.
Lemma holes_in M x : In x (holes M) -> exists d, In d (descrs M) /\ x = (d_prev d, d_weight d).
Proof. unfold holes, descrs. intros H. apply in_map_iff in H. destruct H as (m & <- & H). apply elem_of_list_In, elem_of_list_filter in H. destruct H as [_ H]. apply elem_of_list_In in H. exists (m_descr m). split; [apply in_map, H|reflexivity]. Qed.
Lemma skip_ok M : forall t p, sums_from t (descrs M) -> t + total_weight (descrs M) < 2 ^ 64 -> p < weight_of (rest M) ->
  exists before i d after P, M = before ++ (i, d, false) :: after /\ skip_holes (t + p) (holes M) = Ok P
    /\ d_prev d <= P < d_prev d + d_weight d /\ weight_of (rest before) <= p < weight_of (rest before) + d_weight d.
Proof.
  induction M as [|[[i d] taken] M IH]; intros t p Hs Ht Hp; [cbn in Hp; lia|]. destruct Hs as [E Hs]. cbn [m_descr fst snd] in E.
  unfold descrs in Ht. cbn [map total_weight fold_right m_descr fst snd] in Ht, Hs. fold (descrs M) in Ht, Hs. fold (total_weight (descrs M)) in Ht. pose proof (rest_le M) as Lr.
  destruct taken.
  - rewrite rest_true in Hp. rewrite holes_true. cbn [skip_holes]. rewrite E. destruct (N.ltb_spec (t + p) t); [lia|]. unfold add64p. destruct (N.ltb_spec (t + p + d_weight d) (2 ^ 64)); [|lia]. cbn [rbind].
    destruct (IH (t + d_weight d) p Hs ltac:(lia) Hp) as (b & i' & d' & a & P & -> & EP & B1 & B2). exists ((i, d, true) :: b), i', d', a, P. split; [reflexivity|].
    split; [rewrite <- EP; f_equal; lia|]. split; [exact B1|]. rewrite rest_true. exact B2.
  - rewrite rest_false, weight_cons in Hp. rewrite holes_false. destruct (N.lt_ge_cases p (d_weight d)) as [C|C].
    + exists [], i, d, M, (t + p). split; [reflexivity|]. split; [|split; [lia|cbn; lia]].
      destruct (holes M) as [|[q w] hs] eqn:Eh; [reflexivity|]. cbn [skip_holes].
      assert (G : t + d_weight d <= q). { destruct (holes_in M (q, w)) as (d' & I & Eq); [rewrite Eh; left; reflexivity|]. injection Eq as -> _. pose proof (sums_ge _ _ Hs) as Fg. rewrite List.Forall_forall in Fg. apply (Fg d' I). }
      destruct (N.ltb_spec (t + p) q); [reflexivity|lia].
    + destruct (IH (t + d_weight d) (p - d_weight d) Hs ltac:(lia) ltac:(lia)) as (b & i' & d' & a & P & -> & EP & B1 & B2). exists ((i, d, false) :: b), i', d', a, P. split; [reflexivity|].
      split; [rewrite <- EP; f_equal; lia|]. split; [exact B1|]. rewrite rest_false, weight_cons. lia.
Qed.
Lemma partition_app {A} (h : A -> bool) a b : Forall (fun x => h x = true) a -> Forall (fun x => h x = false) b -> partition_point h (a ++ b) = length a.
Proof.
  intros Fa Fb. induction Fa as [|x a Hx Fa IH]; cbn [app partition_point length].
  - destruct Fb as [|x b Hx Fb]; [reflexivity|]. cbn [partition_point]. rewrite Hx. reflexivity.
  - rewrite Hx. f_equal. exact IH.
Qed.
Lemma at_weight_ok v before d after P : vs_list v = before ++ d :: after -> sums_from 0 (vs_list v) -> positive (vs_list v) -> P < vs_total v -> d_prev d <= P < d_prev d + d_weight d -> at_weight v P = Ok d.
Proof.
  intros E Hs Hp Ht HP. unfold at_weight. destruct (N.ltb_spec P (vs_total v)); [|lia]. cbn [negb]. rewrite E in *. replace (before ++ d :: after) with ((before ++ [d]) ++ after) by (rewrite <- app_assoc; reflexivity).
  rewrite partition_app.
  - rewrite app_length. cbn [length]. destruct (Nat.eqb_spec (length before + 1) 0); [lia|]. replace (length before + 1 - 1)%nat with (length before) by lia. rewrite <- app_assoc. cbn [app]. rewrite list_lookup_middle by reflexivity. reflexivity.
  - apply sums_app in Hs. destruct Hs as [Hb [Ed _]]. apply Forall_app in Hp. destruct Hp as [Pb _]. pose proof (sums_lt _ _ Pb Hb) as L. apply Forall_app. split.
    + eapply List.Forall_impl; [|exact L]. cbn. intros x Hx. apply N.leb_le. lia.
    + constructor; [|constructor]. apply N.leb_le. lia.
  - apply sums_app in Hs. destruct Hs as [_ [Ed Ha]]. pose proof (sums_ge _ _ Ha) as G. eapply List.Forall_impl; [|exact G]. cbn. intros x Hx. apply N.leb_gt. lia.
Qed.
Lemma holes_forall M (R : descr -> Prop) : Forall R (descrs M) -> Forall (fun x => exists d, R d /\ x = (d_prev d, d_weight d)) (holes M).
Proof. intros F. rewrite List.Forall_forall in *. intros x Hx. destruct (holes_in M x Hx) as (d & I & E). exists d. split; [apply F, I|exact E]. Qed.
Lemma insert_hole before i d after t : sums_from t (descrs (before ++ (i, d, false) :: after)) -> positive (descrs (before ++ (i, d, false) :: after)) ->
  let h := (d_prev d, d_weight d) in let hs := holes (before ++ (i, d, false) :: after) in let k := partition_point (fun x => pair_le x h) hs in
  k = length (holes before) /\ take k hs ++ h :: drop k hs = holes (before ++ (i, d, true) :: after)
  /\ ((k =? 0)%nat || match hs !! (k - 1)%nat with Some x => pair_lt x h | None => false end) = true.
Proof.
  intros Hs Hp h hs k. unfold descrs in Hs, Hp. rewrite map_app in Hs, Hp. cbn [map m_descr fst snd] in Hs, Hp. fold (descrs before) (descrs after) in Hs, Hp.
  apply sums_app in Hs. destruct Hs as [Hb [Ed Ha]]. apply Forall_app in Hp. destruct Hp as [Pb Pa]. inversion Pa as [|? ? Pd Pa']; subst.
  assert (Eh : hs = holes before ++ holes after) by (unfold hs; rewrite holes_app, holes_false; reflexivity).
  pose proof (holes_forall before _ (sums_lt _ _ Pb Hb)) as Fb. pose proof (holes_forall after _ (sums_ge _ _ Ha)) as Fa.
  assert (Ek : k = length (holes before)).
  { unfold k. rewrite Eh. apply partition_app.
    - eapply List.Forall_impl; [|exact Fb]. cbn. intros x (d' & Hd & ->). unfold pair_le, h. cbn [fst snd]. destruct (N.ltb_spec (d_prev d') (d_prev d)); [reflexivity|lia].
    - eapply List.Forall_impl; [|exact Fa]. cbn. intros x (d' & Hd & ->). unfold pair_le, h. cbn [fst snd]. destruct (N.ltb_spec (d_prev d') (d_prev d)); [lia|]. destruct (N.eqb_spec (d_prev d') (d_prev d)); [lia|reflexivity]. }
  split; [exact Ek|]. rewrite Ek, Eh, take_app, drop_app. split; [rewrite holes_app, holes_true; reflexivity|].
  destruct (Nat.eqb_spec (length (holes before)) 0) as [Z|Z]; [reflexivity|]. cbn [orb]. rewrite lookup_app_l by lia.
  destruct (lookup_lt_is_Some_2 (holes before) (length (holes before) - 1)) as [x Hx]; [lia|]. rewrite Hx. apply elem_of_list_lookup_2 in Hx. rewrite List.Forall_forall in Fb.
  destruct (Fb x) as (d' & Hd & ->); [apply elem_of_list_In, Hx|]. unfold pair_lt, pair_le, h. cbn [fst snd]. destruct (N.ltb_spec (d_prev d') (d_prev d)); [|lia]. destruct (N.eqb_spec (d_prev d') (d_prev d)); [lia|reflexivity].
Qed.
Lemma positive_weight M : positive (descrs M) -> N.of_nat (length (rest M)) <= weight_of (rest M).
Proof.
  induction M as [|[[i d] t] M IH]; intros P; [reflexivity|]. unfold descrs in P. cbn [map m_descr fst snd] in P. inversion P; subst. specialize (IH ltac:(assumption)). destruct t; [rewrite rest_true; exact IH|]. rewrite rest_false, weight_cons. cbn [length]. lia.
Qed.
Section Loop.
Context (f : list N -> list N) (v : vset) (Hs : sums_from 0 (vs_list v)) (Hp : positive (vs_list v)) (Ht : vs_total v = total_weight (vs_list v)) (Hl : vs_total v < 2 ^ 64).
Lemma subset_loop_ok n : forall M g, descrs M = vs_list v -> (forall i d t, In (i, d, t) M -> vs_list v !! i = Some d) -> (n <= length (rest M))%nat -> Forall (fun w => w < 2 ^ 64) (first_words f n g) ->
  exists chosen nodes, subset_loop f n v (weight_of (rest M)) (holes M) g = Ok nodes /\ drawn (rest M) (first_words f n g) chosen /\ Forall2 (node_at (vs_list v)) chosen nodes.
Proof using Hs Hp Ht Hl.
  induction n as [|n IH]; intros M g EM HI Hn Hw; [exists [], []; split; [reflexivity|split; constructor]|].
  cbn [subset_loop first_words] in *. unfold next_ranged. destruct (next_u64 f g) as [w g'] eqn:Eg. inversion Hw as [|? ? Hw1 Hw2]; subst.
  assert (Z : 0 < weight_of (rest M)). { assert (positive (descrs M)) by (rewrite EM; exact Hp). pose proof (positive_weight M ltac:(assumption)). lia. }
  destruct (N.ltb_spec 0 (weight_of (rest M))); [|lia]. cbn [negb]. rewrite N.shiftr_div_pow2. set (p := weight_of (rest M) * w / 2 ^ 64).
  assert (Lp : p < weight_of (rest M)). { unfold p. apply N.div_lt_upper_bound; [discriminate|]. rewrite (N.mul_comm (2 ^ 64)). apply N.mul_lt_mono_pos_l; assumption. }
  assert (HsM : sums_from 0 (descrs M)) by (rewrite EM; exact Hs). assert (HpM : positive (descrs M)) by (rewrite EM; exact Hp).
  destruct (skip_ok M 0 p HsM) as (b & i & d & a & P & E & EP & B1 & B2); [rewrite EM, <- Ht; lia|exact Lp|]. rewrite N.add_0_l in EP. rewrite EP. cbn [rbind].
  assert (Ev : vs_list v = descrs b ++ d :: descrs a). { rewrite <- EM, E. unfold descrs. rewrite map_app. reflexivity. }
  assert (LP : P < vs_total v). { rewrite Ht, Ev, total_app. cbn [total_weight fold_right]. fold (total_weight (descrs a)). rewrite Ev in Hs. apply sums_app in Hs. destruct Hs as [_ [Ed _]]. lia. }
  rewrite (at_weight_ok v (descrs b) d (descrs a) P Ev Hs Hp LP B1). cbn [rbind].
  assert (Er : rest M = rest b ++ (i, d_weight d) :: rest a) by (rewrite E, rest_app, rest_false; reflexivity).
  assert (Wr : weight_of (rest M) = weight_of (rest b) + (d_weight d + weight_of (rest a))) by (rewrite Er, weight_app, weight_cons; reflexivity).
  destruct (N.leb_spec (d_weight d) (weight_of (rest M))); [|lia]. cbn [negb].
  assert (HsM' := HsM). assert (HpM' := HpM). rewrite E in HsM', HpM'. destruct (insert_hole b i d a 0 HsM' HpM') as (K1 & K2 & K3). rewrite <- E in K1, K2, K3. rewrite K3, K2. cbn [negb].
  assert (Er2 : rest (b ++ (i, d, true) :: a) = rest b ++ rest a) by (rewrite rest_app, rest_true; reflexivity).
  replace (weight_of (rest M) - d_weight d) with (weight_of (rest (b ++ (i, d, true) :: a))) by (rewrite Er2, weight_app; lia).
  destruct (IH (b ++ (i, d, true) :: a) g') as (chosen & nodes & E2 & D2 & F2).
  - unfold descrs. rewrite map_app. symmetry. exact Ev.
  - intros i' d' t' I. rewrite E in HI. apply in_app_iff in I. destruct I as [I|[I|I]]; [apply (HI i' d' t'), in_app_iff; left; exact I| |apply (HI i' d' t'), in_app_iff; right; right; exact I].
    injection I as <- <- _. apply (HI i d false), in_app_iff. right. left. reflexivity.
  - rewrite Er2, app_length. rewrite Er, app_length in Hn. cbn [length] in Hn. lia.
  - exact Hw2.
  - rewrite E2. cbn [rbind]. exists (i :: chosen), (Descr (d_key d) 1 (d_adnl d) 0 0 :: nodes). split; [reflexivity|]. split.
    + subst p. rewrite Er in B2 |- *. apply drawn_next; [exact B2|]. rewrite Er2 in D2. exact D2.
    + constructor; [|exact F2]. exists d. split; [|reflexivity]. apply (HI i d false). rewrite E. apply in_app_iff. right. left. reflexivity.
Qed.
End Loop.
Lemma numbered_rest l : forall k, rest (imap (fun i d => (k + i, d, false)%nat) l) = imap (fun i d => ((k + i)%nat, d_weight d)) l.
Proof.
  induction l as [|d l IH]; intros k; [reflexivity|]. cbn [imap]. rewrite rest_false. f_equal. specialize (IH (S k)).
  rewrite !(imap_ext _ (fun i d => ((S k + i)%nat, d, false)) l) by (intros; cbn; repeat f_equal; lia). rewrite IH. apply imap_ext. intros. cbn. f_equal. lia.
Qed.
Lemma numbered_descrs l : forall k, descrs (imap (fun i d => (k + i, d, false)%nat) l) = l.
Proof.
  induction l as [|d l IH]; intros k; [reflexivity|]. cbn [imap]. unfold descrs. cbn [map m_descr fst snd]. f_equal. specialize (IH (S k)). unfold descrs in IH.
  rewrite (imap_ext _ (fun i d => ((S k + i)%nat, d, false)) l) by (intros; cbn; repeat f_equal; lia). exact IH.
Qed.
Lemma numbered_holes l : forall k, holes (imap (fun i d => (k + i, d, false)%nat) l) = [].
Proof.
  induction l as [|d l IH]; intros k; [reflexivity|]. cbn [imap]. rewrite holes_false. specialize (IH (S k)).
  rewrite (imap_ext _ (fun i d => ((S k + i)%nat, d, false)) l) by (intros; cbn; repeat f_equal; lia). exact IH.
Qed.
Lemma renumber_ok l : forall t, t + total_weight l < 2 ^ 64 -> exists l', renumber t l = Ok (l', t + total_weight l) /\ sums_from t l' /\ Forall2 (fun d d' => d_weight d' = d_weight d /\ as_node d' = as_node d) l l'.
Proof.
  induction l as [|d l IH]; intros t H; cbn [renumber total_weight fold_right] in *; [exists []; rewrite N.add_0_r; split; [reflexivity|split; constructor]|]. fold (total_weight l) in *.
  unfold add64p. destruct (N.ltb_spec (t + d_weight d) (2 ^ 64)); [|lia]. cbn [rbind]. destruct (IH (t + d_weight d)) as (l' & E & Hs & F); [lia|]. rewrite E. cbn [rbind].
  eexists. split; [f_equal; f_equal; lia|]. split; [split; [reflexivity|exact Hs]|]. constructor; [split; reflexivity|exact F].
Qed.

(** ** Shuffling *)
Lemma shuffle_loop_ok f n : forall acc g, Forall (fun w => w < 2 ^ 64) (first_words f n g) ->
  exists g', shuffle_loop f n (length acc) (acc ++ replicate n 0%nat) g = Ok (shuffled (imap (fun i v => N.to_nat ((N.of_nat (length acc + i) + 1) * v / 2 ^ 64)) (first_words f n g)) acc, g').
Proof.
  induction n as [|n IH]; intros acc g Hw; [exists g; cbn; rewrite app_nil_r; reflexivity|]. cbn [shuffle_loop first_words] in *. unfold next_ranged. destruct (next_u64 f g) as [v g1]. inversion Hw as [|? ? Hv Hw']; subst. cbn [imap shuffled].
  rewrite N.shiftr_div_pow2. replace (length acc + 0)%nat with (length acc) by lia. set (i := length acc). set (q := (N.of_nat i + 1) * v / 2 ^ 64).
  assert (Lq : q < N.of_nat i + 1). { unfold q. apply N.div_lt_upper_bound; [discriminate|]. rewrite (N.mul_comm (2 ^ 64)). apply N.mul_lt_mono_pos_l; [lia|assumption]. }
  destruct (Nat.leb_spec (N.to_nat q) i) as [Lj|Lj]; [|lia]. cbn [negb]. set (j := N.to_nat q) in *.
  assert (Len : length (acc ++ replicate (S n) 0%nat) = (i + S n)%nat) by (rewrite app_length, replicate_length; reflexivity).
  destruct (Nat.ltb_spec i (length (acc ++ replicate (S n) 0%nat))); [|lia].
  assert (IM : forall acc' : list nat, length acc' = S i -> imap (fun k w => N.to_nat ((N.of_nat (length acc' + k) + 1) * w / 2 ^ 64)) (first_words f n g1) = imap ((fun k w => N.to_nat ((N.of_nat (i + k) + 1) * w / 2 ^ 64)) ∘ S) (first_words f n g1)).
  { intros acc' L'. apply imap_ext. intros k w _. cbn. rewrite L'. do 4 f_equal. lia. }
  destruct (Nat.eq_dec j i) as [Ej|Ej].
  - rewrite Ej. assert (E0 : (acc ++ replicate (S n) 0%nat) !! i = Some 0%nat) by (unfold i; rewrite lookup_app_r, Nat.sub_diag by lia; reflexivity). rewrite E0.
    assert (E1 : acc !! i = None) by (apply lookup_ge_None; unfold i; lia). rewrite E1. rewrite list_insert_insert.
    replace (<[i := i]> (acc ++ replicate (S n) 0%nat)) with ((acc ++ [i]) ++ replicate n 0%nat) by (unfold i at 2; rewrite <- (Nat.add_0_r (length acc)), insert_app_r; rewrite <- app_assoc; reflexivity).
    destruct (IH (acc ++ [i]) g1 Hw') as (g' & E). rewrite app_length in E. cbn [length] in E. replace (length acc + 1)%nat with (S i) in E by (unfold i; lia). rewrite E. exists g'. do 3 f_equal. rewrite <- (IM (acc ++ [i])); [|rewrite app_length; cbn [length]; unfold i; lia].
    apply imap_ext. intros k w _. cbn. rewrite app_length. cbn [length]. unfold i. do 4 f_equal. lia.
  - assert (Lj' : (j < length acc)%nat) by (unfold i in *; lia). destruct (lookup_lt_is_Some_2 acc j Lj') as [x Hx]. rewrite lookup_app_l by exact Lj'. rewrite Hx.
    replace (<[i := x]> (acc ++ replicate (S n) 0%nat)) with (acc ++ x :: replicate n 0%nat) by (unfold i; rewrite <- (Nat.add_0_r (length acc)), insert_app_r; reflexivity).
    rewrite insert_app_l by exact Lj'. replace (<[j:=i]> acc ++ x :: replicate n 0%nat) with ((<[j:=i]> acc ++ [x]) ++ replicate n 0%nat) by (rewrite <- app_assoc; reflexivity).
    destruct (IH (<[j:=i]> acc ++ [x]) g1 Hw') as (g' & E). assert (LL : length (<[j:=i]> acc ++ [x]) = S i) by (rewrite app_length, insert_length; cbn [length]; unfold i; lia). rewrite LL in E. rewrite E. exists g'. do 3 f_equal. rewrite <- (IM _ LL). apply imap_ext. intros k w _. cbn. rewrite LL. reflexivity.
Qed.
(** One step of the shuffle. *)
Definition put (acc : list nat) (j : nat) : list nat := match acc !! j with Some x => <[j := length acc]> acc ++ [x] | None => acc ++ [length acc] end.
Lemma shuffled_app a : forall b acc, shuffled (a ++ b) acc = shuffled b (shuffled a acc).
Proof. induction a as [|j a IH]; intros b acc; [reflexivity|]. cbn [app shuffled]. apply IH. Qed.
Lemma shuffled_snoc js j : shuffled (js ++ [j]) [] = put (shuffled js []) j.
Proof. rewrite shuffled_app. reflexivity. Qed.
Lemma put_perm acc j : put acc j ≡ₚ length acc :: acc.
Proof.
  unfold put. destruct (acc !! j) as [x|] eqn:E; [|rewrite Permutation_app_comm; reflexivity].
  rewrite Permutation_app_comm. cbn [app]. rewrite insert_take_drop by (eapply lookup_lt_Some, E). set (n := length acc). assert (Pa : acc ≡ₚ x :: take j acc ++ drop (S j) acc) by (rewrite <- (take_drop_middle acc j x E) at 1; rewrite <- Permutation_middle; reflexivity).
  rewrite Pa at 3. rewrite <- Permutation_middle. apply perm_swap.
Qed.
Lemma seq_S n : seq 0 (S n) ≡ₚ n :: seq 0 n.
Proof. rewrite List.seq_S. rewrite Permutation_app_comm. reflexivity. Qed.
Lemma shuffled_perm js : shuffled js [] ≡ₚ seq 0 (length js).
Proof.
  induction js as [|j js IH] using rev_ind; [reflexivity|]. rewrite shuffled_snoc, put_perm, app_length. cbn [length]. rewrite Nat.add_1_r, seq_S.
  assert (L : length (shuffled js []) = length js) by (rewrite (Permutation_length IH), seq_length; reflexivity). rewrite L. apply perm_skip, IH.
Qed.
Lemma shuffled_len js : length (shuffled js []) = length js.
Proof. rewrite (Permutation_length (shuffled_perm js)), seq_length. reflexivity. Qed.
Lemma shuffled_not js : length js ∉ shuffled js [].
Proof. rewrite shuffled_perm. rewrite elem_of_list_In, in_seq. lia. Qed.
Lemma choices_snoc js j : choices (js ++ [j]) <-> choices js /\ (j <= length js)%nat.
Proof.
  unfold choices. split.
  - intros H. split; [|apply H; rewrite list_lookup_middle by reflexivity; reflexivity]. intros i k E. apply H. rewrite lookup_app_l by (eapply lookup_lt_Some, E). exact E.
  - intros [H L] i k E. destruct (Nat.lt_ge_cases i (length js)) as [C|C]; [rewrite lookup_app_l in E by exact C; apply H, E|].
    rewrite lookup_app_r in E by exact C. destruct (i - length js)%nat as [|m] eqn:D; [|destruct m; discriminate]. injection E as <-. lia.
Qed.
Lemma put_inj acc acc' j j' n : length acc = n -> length acc' = n -> (j <= n)%nat -> (j' <= n)%nat -> n ∉ acc -> n ∉ acc' -> put acc j = put acc' j' -> acc = acc' /\ j = j'.
Proof.
  intros L L' Lj Lj' Nn Nn' E. unfold put in E. rewrite L, L' in E.
  destruct (acc !! j) as [x|] eqn:Ex, (acc' !! j') as [x'|] eqn:Ex'; apply app_inj_tail in E; destruct E as [E1 E2].
  - subst x'. assert (B : (j < length acc)%nat) by (eapply lookup_lt_Some, Ex). assert (B' : (j' < length acc')%nat) by (eapply lookup_lt_Some, Ex').
    assert (J : j = j'). { destruct (Nat.eq_dec j j') as [|D]; [assumption|]. exfalso. assert (H : <[j := n]> acc !! j = Some n) by (apply list_lookup_insert; lia). rewrite E1, list_lookup_insert_ne in H by congruence. apply Nn'. eapply elem_of_list_lookup_2, H. }
    subst j'. split; [|reflexivity]. rewrite <- (list_insert_id acc j x Ex), <- (list_insert_id acc' j x Ex'). rewrite <- (list_insert_insert acc j x n), <- (list_insert_insert acc' j x n). rewrite E1. reflexivity.
  - exfalso. apply Nn. rewrite <- E2. eapply elem_of_list_lookup_2, Ex.
  - exfalso. apply Nn'. rewrite E2. eapply elem_of_list_lookup_2, Ex'.
  - split; [exact E1|]. apply lookup_ge_None in Ex, Ex'. lia.
Qed.
Lemma shuffled_inj js : forall js', choices js -> choices js' -> length js = length js' -> shuffled js [] = shuffled js' [] -> js = js'.
Proof.
  induction js as [|j js IH] using rev_ind; intros js' C C' L E; [destruct js'; [reflexivity|discriminate]|].
  destruct js' as [|j' js' _] using rev_ind; [rewrite app_length in L; cbn in L; lia|]. rewrite !app_length in L. cbn [length] in L. apply choices_snoc in C, C'. destruct C as [C Cj], C' as [C' Cj']. rewrite !shuffled_snoc in E.
  pose proof (shuffled_not js) as N1. pose proof (shuffled_not js') as N2. assert (LL : length js = length js') by lia. rewrite <- LL in N2, Cj'.
  assert (L2 : length (shuffled js' []) = length js) by (rewrite shuffled_len; lia).
  destruct (put_inj _ _ _ _ (length js) (shuffled_len js) L2 Cj Cj' N1 N2 E) as [Ea ->]. f_equal. apply IH; [exact C|exact C'|lia|exact Ea].
Qed.
Lemma shuffled_onto n : forall p, p ≡ₚ seq 0 n -> exists js, choices js /\ length js = n /\ shuffled js [] = p.
Proof.
  induction n as [|n IH]; intros p H.
  - symmetry in H. apply Permutation_nil in H. subst. exists []. split; [intros i j E; rewrite lookup_nil in E; discriminate|]. split; reflexivity.
  - assert (Lp : length p = S n) by (rewrite (Permutation_length H), seq_length; reflexivity). destruct p as [|x p _] using rev_ind; [discriminate|]. rewrite app_length in Lp. cbn [length] in Lp.
    assert (K : forall acc j, (j <= n)%nat -> length acc = n -> put acc j = p ++ [x] -> exists js, choices js /\ length js = S n /\ shuffled js [] = p ++ [x]).
    { intros acc j Lj La E. destruct (IH acc) as (js & C & L & S').
      - pose proof (put_perm acc j) as Pp. rewrite E, H, La, seq_S in Pp. apply Permutation_cons_inv in Pp. symmetry. exact Pp.
      - exists (js ++ [j]). split; [apply choices_snoc; split; [exact C|lia]|]. split; [rewrite app_length; cbn [length]; lia|]. rewrite shuffled_snoc, S'. exact E. }
    destruct (Nat.eq_dec x n) as [->|D].
    + apply (K p n); [lia|lia|]. unfold put. replace (p !! n) with (@None nat) by (symmetry; apply lookup_ge_None; lia). do 2 f_equal. lia.
    + assert (I : n ∈ p). { assert (I : n ∈ p ++ [x]) by (rewrite H, elem_of_list_In, in_seq; lia). rewrite elem_of_app, elem_of_list_singleton in I. destruct I as [I|I]; [exact I|congruence]. }
      apply elem_of_list_lookup in I. destruct I as [j Hj]. assert (Lj : (j < length p)%nat) by (eapply lookup_lt_Some, Hj). apply (K (<[j := x]> p) j); [lia|rewrite insert_length; lia|].
      unfold put. rewrite list_lookup_insert by exact Lj. rewrite insert_length, list_insert_insert. f_equal. replace (length p) with n by lia. apply list_insert_id, Hj.
Qed.
Lemma first_words_len f n : forall g, length (first_words f n g) = n.
Proof. induction n as [|n IH]; intros g; [reflexivity|]. cbn [first_words]. destruct (next_u64 f g). cbn [length]. rewrite IH. reflexivity. Qed.
Lemma collect_ok {A} (l : list A) is : Forall (fun i => (i < length l)%nat) is -> exists r, collect l is = Ok r /\ Forall2 (fun i x => l !! i = Some x) is r.
Proof.
  induction 1 as [|i is Hi F IH]; [exists []; split; [reflexivity|constructor]|]. destruct IH as (r & E & F2). cbn [collect]. destruct (lookup_lt_is_Some_2 l i Hi) as [x Hx]. rewrite Hx, E. cbn [rbind]. exists (x :: r). split; [reflexivity|constructor; assumption].
Qed.
(** ** Properties of draws *)
Lemma drawn_in {A} (l : list (A * N)) vs xs : drawn l vs xs -> length xs = length vs /\ exists rest, l ≡ₚ rest ∧ sublist xs (map fst rest).
Proof.
  induction 1 as [rest|before x w after v vs xs p Hp D [L (r & P & S')]]; [split; [reflexivity|]; exists rest; split; [reflexivity|apply sublist_nil_l]|].
  split; [cbn [length]; rewrite L; reflexivity|]. exists ((x, w) :: r). split; [rewrite <- Permutation_middle; apply perm_skip, P|]. cbn [map fst]. apply sublist_skip, S'.
Qed.
Lemma drawn_fun {A} (l : list (A * N)) vs : forall xs ys, drawn l vs xs -> drawn l vs ys -> List.NoDup (map fst l) -> xs = ys.
Proof.
  intros xs ys D. revert ys. induction D as [rest|before x w after v vs xs p Hp D IH]; intros ys D' Nd; [inversion D'; reflexivity|].
  inversion D' as [|before' y w' after' v' vs' ys' p' Hp' D2 E1 E2 E3]; subst. clear D'. subst p'. rewrite E1 in Hp'. fold p in Hp'.
  assert (Eq : before' = before /\ (y, w') = (x, w) /\ after' = after).
  { clear -E1 Hp Hp'. subst p. revert Hp Hp'. generalize (weight_of (before ++ (x, w) :: after) * v / 2 ^ 64). intros q. revert before' E1 q. induction before as [|[b wb] before IH]; intros [|[b' wb'] before'] E q Hp Hp'; cbn [app] in E; injection E as e1 e2 e3.
    - repeat split; congruence.
    - exfalso. cbn in Hp. rewrite weight_cons in Hp'. subst wb'. lia.
    - exfalso. cbn in Hp'. rewrite weight_cons in Hp. subst wb. lia.
    - subst b' wb'. rewrite weight_cons in Hp, Hp'. destruct (IH before' e3 (q - wb)) as (-> & -> & ->); [lia|lia|repeat split]. }
  destruct Eq as (-> & [= -> ->] & ->). f_equal. apply IH; [exact D2|]. rewrite !map_app in *. cbn [map fst] in Nd. apply NoDup_remove_1 in Nd. exact Nd.
Qed.
