(** * Storing and loading messages *)
From Verif Require Import Err BitsProofs IntModel NumModel NumSpec NumProofs AddrModel AddrSpec AddrProofs CellModel DictModel ChunkModel ChunkSpec ChunkProofs CurrencyModel CurrencySpec CurrencyProps MessageModel MessageSpec LayoutProofs.
Local Open Scope N_scope.

(** ** Infos *)
Lemma uint_bools3 v x : uint_c 3 v x -> x = ([negb (N.land v 4 =? 0); negb (N.land v 2 =? 0); negb (N.land v 1 =? 0)], []).
Proof.
  intros [u Hu]. change (2 ^ N.of_nat 3) with 8 in Hu. assert (C : u = 0 \/ u = 1 \/ u = 2 \/ u = 3 \/ u = 4 \/ u = 5 \/ u = 6 \/ u = 7) by lia.
  destruct C as [->|[->|[->|[->|[->|[->|[->| ->]]]]]]]; reflexivity.
Qed.
Lemma flags_uint h b d : uint_c 3 (N.lor (N.lor (N.shiftl (N.b2n h) 2) (N.shiftl (N.b2n b) 1)) (N.b2n d)) ([h; b; d], []).
Proof.
  replace [h; b; d] with (nbits 3 (N.lor (N.lor (N.shiftl (N.b2n h) 2) (N.shiftl (N.b2n b) 1)) (N.b2n d))) by (destruct h, b, d; reflexivity).
  constructor. destruct h, b, d; reflexivity.
Qed.
Lemma appends_lit v b : appends (store_un (length v) (bval v)) (v, []) -> b = v -> appends (store_un (length v) (bval v)) (b, []).
Proof. intros H ->. exact H. Qed.
Lemma uint_10 : uint_c 2 2 ([true; false], []). Proof. change [true; false] with (nbits 2 2). constructor. reflexivity. Qed.
Lemma uint_11 : uint_c 2 3 ([true; true], []). Proof. change [true; true] with (nbits 2 3). constructor. reflexivity. Qed.

Lemma capp_inj x y z : capp x y = capp x z -> y = z.
Proof. destruct x, y, z. unfold capp. cbn [fst snd]. intros [= H1 H2]. apply app_inv_head in H1, H2. congruence. Qed.
Lemma tokens_size v x : tokens_c var_uint_bits v x -> chunk_size x = (vk_unwrap_bit_len Tokens v, 0).
Proof. intros H. destruct (vk_size Tokens _ _ H) as (E1 & _ & E2). unfold chunk_size. rewrite E1, E2. reflexivity. Qed.
Lemma int_size a x : bits_only int_tlb a x -> chunk_size x = (int_bit_len a, 0).
Proof. intros [b y H]. unfold chunk_size. cbn [fst snd length]. rewrite (int_len _ _ H). reflexivity. Qed.
Lemma ext_size a x : bits_only ext_tlb a x -> chunk_size x = (opt_ext_bit_len a, 0).
Proof. intros [b y H]. unfold chunk_size. cbn [fst snd length]. rewrite (ext_len _ _ H). reflexivity. Qed.
Lemma uint_size w v x : uint_c w v x -> chunk_size x = (N.of_nat w, 0).
Proof. intros [u H]. unfold chunk_size. cbn [fst snd length]. rewrite length_nbits. reflexivity. Qed.
Lemma cc_size v x : currency_c var_uint_bits v x -> chunk_size x = (cc_bit_len v, some_n (cc_other v)).
Proof.
  intros H. destruct (C39_store _ _ H) as (_ & E1 & E2). rewrite E2, <- E1. unfold cc_exact_size. cbn [fst snd]. f_equal; destruct (cc_other v); reflexivity.
Qed.
Section Int.
Context {A : Type} (S : A -> list bool -> Prop) (sstore : A -> list bool -> res (list bool)) (sload : list bool -> res (A * list bool)) (sbits : A -> N).
Context (Hstore : forall a x, bits_only S a x -> appends (on_bits (sstore a)) x) (Hload : reads_layout (from_bits sload) (bits_only S))
  (Hbits : forall a x, S a x -> N.of_nat (length x) = sbits a).
Lemma appends_int_info i x : int_info_c var_uint_bits S i x -> appends (fun c => let? c := store_bool false c in store_int_info sstore i c) x.
Proof using Hstore.
  clear Hload Hbits sload sbits.
  intros H. destruct H. unfold store_int_info. cbn [ii_src ii_dst ii_value ii_ihr_fee ii_fwd_fee ii_lt ii_at]. cbn [cat].
  eapply appends_bind; [apply appends_bool; constructor|]. eapply appends_bind; [apply appends_un, flags_uint|]. stores.
Qed.
(** Layouts behind a constant prefix. *)
Definition behind {T} (p : list bool) (L : T -> chunk -> Prop) (a : T) (x : chunk) : Prop := L a (capp (p, []) x).
Lemma reads_int_info : reads_layout (load_int_info sload) (behind [false] (int_info_c loose_var_uint_bits S)).
Proof using Hload.
  clear Hstore Hbits sstore sbits.
  unfold load_int_info. loads. intros i z. unfold behind. split.
  - intros H. layout_fwd. match goal with H : uint_c 3 _ _ |- _ => rewrite (uint_bools3 _ _ H) end. econstructor; eassumption.
  - intros H. remember (capp ([false], []) z) as u eqn:E. destruct H. cbn [cat] in E. apply capp_inj in E. subst z.
    eexists _, _, _. split; [apply flags_uint|]. split; [|reflexivity]. layout_bwd. split; [|reflexivity]. destruct h, b, d; reflexivity.
Qed.
Lemma int_info_size i x : int_info_c var_uint_bits S i x -> chunk_size x = (int_info_bits sbits i + 1, some_n (cc_other (ii_value i))).
Proof using Hbits.
  clear Hload Hstore sload sstore.
  intros H. destruct H as [h b d src xs dst xd v xv i xi w xw l xl a xa Hs Hd Hv Hi Hw Hl Ha]. cbn [cat]. rewrite !chunk_size_capp. unfold int_info_bits. cbn [ii_src ii_dst ii_value ii_ihr_fee ii_fwd_fee].
  rewrite (tokens_size _ _ Hi), (tokens_size _ _ Hw), (int_size _ _ Hd), (uint_size _ _ _ Hl), (uint_size _ _ _ Ha), (cc_size _ _ Hv).
  destruct Hs as [? ? Hs]. pose proof (Hbits _ _ Hs). unfold chunk_size. cbn [fst snd length]. f_equal; lia.
Qed.
Lemma reads_ext_out_info : reads_layout (load_ext_out sload) (behind [true; true] (ext_out_c S)).
Proof using Hload.
  clear Hbits Hstore sstore sbits.
  unfold load_ext_out. loads. intros i z. unfold behind. split.
  - intros H. layout_fwd. econstructor; eassumption.
  - intros H. remember (capp ([true; true], []) z) as u eqn:E. destruct H. cbn [cat] in E. apply capp_inj in E. subst z. layout_bwd.
Qed.
Lemma appends_ext_out_any i x : ext_out_c S i x -> appends (fun c => let? c := store_un 2 3 c in store_ext_out_any sstore i c) x.
Proof using Hstore.
  clear Hload Hbits sload sbits.
  intros H. destruct H. unfold store_ext_out_any. cbn [eo_src eo_dst eo_lt eo_at]. cbn [cat]. eapply appends_bind; [apply appends_un, uint_11|]. stores.
Qed.
Lemma ext_out_size i x : ext_out_c S i x -> chunk_size x = (ext_out_bits sbits i, 0).
Proof using Hbits.
  clear Hload Hstore sload sstore.
  intros H. destruct H as [s xs d xd l xl a xa Hs Hd Hl Ha]. cbn [cat]. rewrite !chunk_size_capp. unfold ext_out_bits. cbn [eo_src eo_dst].
  rewrite (ext_size _ _ Hd), (uint_size _ _ _ Hl), (uint_size _ _ _ Ha). destruct Hs as [? ? Hs]. pose proof (Hbits _ _ Hs). unfold chunk_size. cbn [fst snd length]. f_equal; lia.
Qed.
End Int.

(** ** Storing with a check that asks for [k] bits too many *)
Definition near (k : nat) (s : chunk -> res chunk) (x : chunk) : Prop :=
  forall b, builder_ok b -> (length (fst b) + length (fst x) + k <= 1023 -> length (snd b) + length (snd x) <= 4 -> s b = Ok (capp b x))%nat
    /\ (s b = Ok (capp b x) /\ builder_ok (capp b x) \/ s b = Err CellOverflow).
Lemma capp_ok b x : (length (fst b) + length (fst x) <= 1023)%nat -> (length (snd b) + length (snd x) <= 4)%nat -> builder_ok (capp b x).
Proof. unfold builder_ok, capp. cbn [fst snd]. rewrite !app_length. lia. Qed.
Lemma ok_capp b x : builder_ok (capp b x) -> (length (fst b) + length (fst x) <= 1023)%nat /\ (length (snd b) + length (snd x) <= 4)%nat.
Proof. unfold builder_ok, capp. cbn [fst snd]. rewrite !app_length. lia. Qed.
Lemma appends_cases s x b : appends s x -> builder_ok b -> s b = Ok (capp b x) /\ builder_ok (capp b x) \/ s b = Err CellOverflow /\ ~ builder_ok (capp b x).
Proof.
  intros H B. rewrite (H b B). destruct (Nat.ltb_spec 1023 (length (fst b) + length (fst x))); cbn [orb]; [right; split; [reflexivity|intros C; apply ok_capp in C; lia]|].
  destruct (Nat.ltb_spec 4 (length (snd b) + length (snd x))); [right; split; [reflexivity|intros C; apply ok_capp in C; lia]|]. left. split; [reflexivity|]. apply capp_ok; lia.
Qed.
Lemma appends_intro s x : (forall b, builder_ok b -> s b = Ok (capp b x) /\ builder_ok (capp b x) \/ s b = Err CellOverflow /\ ~ builder_ok (capp b x)) -> appends s x.
Proof.
  intros H b B. destruct (H b B) as [[E O]|[E O]]; rewrite E; clear E.
  - apply ok_capp in O. destruct (Nat.ltb_spec 1023 (length (fst b) + length (fst x))); [lia|]. destruct (Nat.ltb_spec 4 (length (snd b) + length (snd x))); [lia|]. reflexivity.
  - destruct (Nat.ltb_spec 1023 (length (fst b) + length (fst x))); [reflexivity|]. destruct (Nat.ltb_spec 4 (length (snd b) + length (snd x))); [reflexivity|]. destruct O. apply capp_ok; lia.
Qed.
Lemma appends_near k s x : appends s x -> near k s x.
Proof.
  intros H b B. destruct (appends_cases _ _ _ H B) as [[E O]|[E O]]; (split; [|auto]); intros L1 L2; [exact E|].
  destruct O. apply capp_ok; lia.
Qed.
Lemma near_bind k s x f y : near k s x -> (k <= length (fst y))%nat -> appends f y -> appends (fun b => let? b := s b in f b) (capp x y).
Proof.
  intros Hs Hk Hf. apply appends_intro. intros b B. destruct (Hs b B) as [H1 [[E O]|E]]; rewrite E; cbn [rbind].
  - rewrite capp_assoc. apply appends_cases; assumption.
  - right. split; [reflexivity|]. intros O. apply ok_capp in O. unfold capp in O. cbn [fst snd] in O. rewrite !app_length in O. rewrite H1 in E by lia. discriminate.
Qed.
Lemma near_cap p x s y n k : appends p x -> appends s y -> n <= N.of_nat (length (fst y) + k) ->
  near k (fun b => let? b := p b in if negb (has_capacity (fst b) n) then Err CellOverflow else s b) (capp x y).
Proof.
  intros Hp Hs Hn b B. destruct (appends_cases _ _ _ Hp B) as [[E O]|[E O]]; rewrite E; cbn [rbind].
  - unfold has_capacity. destruct (N.leb_spec (N.of_nat (length (fst (capp b x))) + n) 1023) as [L|L]; cbn [negb].
    + rewrite !capp_assoc. destruct (appends_cases _ _ _ Hs O) as [[E2 O2]|[E2 O2]]; (split; [|auto]); intros L1 L2; [exact E2|]. destruct O2. rewrite <- capp_assoc. apply capp_ok; lia.
    + split; [|auto]. intros L1 L2. unfold capp in L, L1. cbn [fst] in L, L1. rewrite app_length in L, L1. lia.
  - split; [|auto]. intros L1 L2. unfold capp in L1, L2. cbn [fst snd] in L1, L2. rewrite !app_length in L1, L2. destruct O. apply capp_ok; lia.
Qed.

(** ** The infos of messages *)
Lemma chunk_len x n r : chunk_size x = (n, r) -> N.of_nat (length (fst x)) = n /\ N.of_nat (length (snd x)) = r.
Proof. unfold chunk_size. intros [= <- <-]. auto. Qed.
Lemma ext_in_size i x : ext_in_c var_uint_bits i x -> chunk_size x = (ext_in_bits i, 0).
Proof.
  intros H. destruct H as [s xs d xd f xf Hs Hd Hf]. cbn [cat]. rewrite !chunk_size_capp. unfold ext_in_bits. cbn [ei_src ei_dst ei_fee].
  rewrite (tokens_size _ _ Hf), (int_size _ _ Hd), (ext_size _ _ Hs). unfold chunk_size. cbn [fst snd length]. f_equal; lia.
Qed.
Lemma near_ext_in i x : ext_in_c var_uint_bits i x -> near 2 (store_info (MExtIn i)) x.
Proof.
  intros H. pose proof (ext_in_size _ _ H) as Z. destruct H as [s xs d xd f xf Hs Hd Hf]. cbn [cat] in *. unfold store_info, store_ext_in. cbn [ei_src ei_dst ei_fee].
  assert (V : vk_valid Tokens f = true). { destruct Hf as [f bits Hf]. unfold vk_valid. apply N.leb_le. apply (vk_fits Tokens f bits Hf). }
  rewrite V. cbn [negb]. apply near_cap; [apply appends_un, uint_10|stores|]. apply chunk_len in Z. destruct Z as [<- _].
  change (capp ([true; false], []) ?y) with (capp ([true; false], []) y). unfold capp at 1. cbn [fst]. rewrite app_length. cbn [length]. lia.
Qed.
Lemma near_ext_out i x : ext_out_c int_tlb i x -> near 2 (store_info (MExtOut i)) x.
Proof.
  intros H. pose proof (ext_out_size int_tlb int_bit_len int_len _ _ H) as Z. destruct H as [s xs d xd l xl a xa Hs Hd Hl Ha]. cbn [cat] in *. unfold store_info, store_ext_out, store_ext_out_any. cbn [eo_src eo_dst eo_lt eo_at].
  apply near_cap; [apply appends_un, uint_11|stores|]. apply chunk_len in Z. destruct Z as [<- _].
  unfold capp at 1. cbn [fst]. rewrite app_length. cbn [length]. lia.
Qed.
Lemma near_info i x : info_c var_uint_bits i x -> near 2 (store_info i) x.
Proof.
  intros [j y H|j y H|j y H]; [|apply near_ext_in, H|apply near_ext_out, H].
  apply appends_near. exact (appends_int_info int_tlb store_int (fun a x H => appends_int a x H) j y H).
Qed.
Lemma near_relaxed i x : relaxed_c var_uint_bits i x -> near 2 (store_relaxed i) x.
Proof.
  intros [j y H|j y H]; apply appends_near.
  - exact (appends_int_info opt_int_tlb store_opt_int (fun a x H => appends_opt_int a x H) j y H).
  - exact (appends_ext_out_any opt_int_tlb store_opt_int (fun a x H => appends_opt_int a x H) j y H).
Qed.
