(** * Proofs for C74: sizes, the serializer *)
From Verif Require Import Err BitsProofs IntModel NumModel NumSpec NumProofs AddrModel AddrSpec AddrProofs BigIntModel BigIntSpec BigIntProofs CellModel CodecProofs ChunkModel ChunkSpec ChunkProofs LayoutProofs
  DictModel DictSpec IterModel DictProps BuildProps AbiModel AbiSpec AbiProofs AbiProofs2 AbiProofs4 EncSpec EncProofs.
Local Open Scope N_scope.

Definition sle (a b : size) : Prop := z_bits a <= z_bits b /\ z_refs a <= z_refs b.
Definition csize (b : chunk) : size := Size (N.of_nat (length (fst b))) (N.of_nat (length (snd b))).
Lemma size_eq a b : z_bits a = z_bits b -> z_refs a = z_refs b -> a = b.
Proof. destruct a, b. cbn. intros -> ->. reflexivity. Qed.
Lemma ssub_sadd a b : ssub (sadd a b) a = b.
Proof. apply size_eq; cbn; lia. Qed.
Lemma csize_capp a b : csize (capp a b) = sadd (csize a) (csize b).
Proof. unfold csize, capp, sadd. cbn [fst snd z_bits z_refs]. rewrite !app_length. apply size_eq; cbn; lia. Qed.

(** ** Reckoned sizes *)
Section Sizes.
Context (v : version).
Lemma token_len x : x < 2 ^ 120 -> exists bits, vk_c var_uint_bits Tokens x (bits, []) /\ N.of_nat (length bits) = vk_unwrap_bit_len Tokens x /\ N.of_nat (length bits) <= 124.
Proof.
  intros V. assert (V' : x < 2 ^ vk_width Tokens) by (eapply N.lt_trans; [exact V|reflexivity]).
  assert (L : x <= vk_max Tokens) by (change (vk_max Tokens) with (2 ^ 120 - 1); lia).
  pose proof (proj2 (vk_len_le Tokens x V') L) as Lb. change (vk_bytes Tokens) with 15 in Lb.
  assert (Hb : var_uint_bits 4 x (nbits 4 (vk_len Tokens x) ++ nbits (N.to_nat (8 * vk_len Tokens x)) x)).
  { exists (vk_len Tokens x). split; [apply vk_len_shortest, V'|]. split; [|reflexivity]. change (2 ^ N.of_nat 4) with 16. lia. }
  eexists. split; [constructor; exact Hb|]. assert (Hc : vk_c var_uint_bits Tokens x (nbits 4 (vk_len Tokens x) ++ nbits (N.to_nat (8 * vk_len Tokens x)) x, [])) by (constructor; exact Hb).
  pose proof (vk_size _ _ _ Hc) as (Sz & _). cbn [fst] in Sz. split; [symmetry; exact Sz|]. rewrite app_length, !length_nbits. lia.
Qed.
Lemma var_exact_max n x : 2 <= n -> x < 2 ^ (8 * (n - 1)) -> var_exact n (N.size x) <= var_max n.
Proof. intros Hn H. apply BigIntProofs.size_lt in H. unfold var_exact, var_max. lia. Qed.
Lemma varint_abs n x : 2 <= n -> fits_in x (8 * (n - 1)) true -> (if (x <? 0)%Z then Z.abs_N x <= 2 ^ (8 * (n - 1) - 1) else Z.abs_N x < 2 ^ (8 * (n - 1))) /\ Z.abs_N x < 2 ^ (8 * (n - 1)).
Proof.
  intros Hn H. set (k := 8 * (n - 1)) in *. assert (P0 : 0 < 2 ^ (k - 1)) by (apply N.neq_0_lt_0, N.pow_nonzero; lia).
  assert (P1 : 2 ^ k = 2 * 2 ^ (k - 1)) by (rewrite <- N.pow_succ_r'; f_equal; unfold k; lia).
  assert (Z.abs_N x <= 2 ^ (k - 1)).
  { destruct H as [->|[K H]]; [cbn; lia|]. assert ((2 ^ (Z.of_N k - 1) = Z.of_N (2 ^ (k - 1)))%Z) as Q by (rewrite N2Z.inj_pow; f_equal; lia). rewrite Q in H. lia. }
  destruct (x <? 0)%Z; lia.
Qed.
Lemma ssum_cons a l : ssum (a :: l) = sadd a (ssum l).
Proof. reflexivity. Qed.
Lemma sat_sum_small l : forall acc, z_bits acc + z_bits (ssum l) <= 65535 -> z_refs acc + z_refs (ssum l) <= 255 -> fold_left sat_add l acc = sadd acc (ssum l).
Proof.
  induction l as [|x l IH]; intros acc B R; cbn [fold_left]; [apply size_eq; cbn; lia|].
  rewrite ssum_cons in *. cbn [sadd z_bits z_refs] in B, R. rewrite IH; [apply size_eq|..]; cbn [sat_add sadd z_bits z_refs]; lia.
Qed.
Definition sized (x : aval) : Prop := encodable v x ->
  sle (size_full v x) (max_size (type_of x)) /\
  (use_max v = false -> z_bits (max_size (type_of x)) <= 65535 -> z_refs (max_size (type_of x)) <= 255 -> exact_short x = size_full v x).
Lemma sized_leaf x : (forall w, size_full w x = if use_max w then max_short x else exact_short x) -> max_short x = max_size (type_of x) ->
  (encodable v x -> sle (exact_short x) (max_size (type_of x))) -> sized x.
Proof.
  intros A B C E. rewrite A, B. destruct (use_max v).
  - split; [split; lia|discriminate].
  - split; [apply C, E|reflexivity].
Qed.
Lemma sized_all l : Forall sized l -> all (encodable v) l -> 
  sle (ssum (map (size_full v) l)) (ssum (map (fun x => max_size (type_of x)) l)) /\
  (use_max v = false -> z_bits (ssum (map (fun x => max_size (type_of x)) l)) <= 65535 -> z_refs (ssum (map (fun x => max_size (type_of x)) l)) <= 255 -> ssum (map exact_short l) = ssum (map (size_full v) l)).
Proof.
  induction 1 as [|x l Hx _ IH]; intros E; [split; [split; cbn; lia|reflexivity]|]. apply all_cons in E. destruct E as [Ex E]. destruct (Hx Ex) as [[A1 A2] A3], (IH E) as [[B1 B2] B3].
  cbn [map]. rewrite !ssum_cons. unfold sle. cbn [sadd z_bits z_refs]. split; [lia|]. intros M P Q. rewrite A3, B3 by (try exact M; lia). reflexivity.
Qed.
Lemma all_sized x : sized x.
Proof.
  induction x using aval_nest; try (apply sized_leaf; [reflexivity|reflexivity|]; intros E; cbn [exact_short type_of max_size]; split; cbn [z_bits z_refs]; try lia; fail).
  - apply sized_leaf; [reflexivity|reflexivity|]. intros [E1 E2]. split; cbn [exact_short type_of max_size z_bits z_refs]; [apply var_exact_max; [lia|exact E2]|lia].
  - apply sized_leaf; [reflexivity|reflexivity|]. intros (E1 & E2 & _). split; cbn [exact_short type_of max_size z_bits z_refs]; [apply var_exact_max; [lia|apply varint_abs; [lia|exact E2]]|lia].
  - apply sized_leaf; [reflexivity|reflexivity|]. intros (bits & E). pose proof (addr_len' a bits E). pose proof (int_len a bits E). split; cbn [exact_short type_of max_size z_bits z_refs]; lia.
  - apply sized_leaf; [reflexivity|reflexivity|]. intros E. destruct (token_len x E) as (bits & _ & A & B). split; cbn [exact_short type_of max_size z_bits z_refs]; [change (vk_max_bits Tokens) with 124; lia|lia].
  - intros E. cbn [encodable] in E. destruct (sized_all l H E) as [A B]. cbn [size_full type_of max_size exact_short]. rewrite map_map. split; [exact A|].
    intros M P Q. specialize (B M P Q). unfold sat_sum. destruct A as [A1 A2]. rewrite sat_sum_small; rewrite B; [apply size_eq; cbn; lia|cbn; lia|cbn; lia].
  - apply sized_leaf; [reflexivity|reflexivity|]. intros _. pose proof (one_if_le' l). split; cbn [exact_short type_of max_size z_bits z_refs]; lia.
  - intros [].
  - apply sized_leaf; [reflexivity|reflexivity|]. intros _. pose proof (one_if_le' l). split; cbn [exact_short type_of max_size z_bits z_refs]; lia.
  - apply sized_leaf; [reflexivity|cbn [type_of]; rewrite max_size_opt; apply max_short_opt|]. intros _. cbn [type_of]. rewrite max_size_opt. pose proof (opt_max_ok' t). split; cbn [exact_short z_bits z_refs]; lia.
  - intros [E1 E2]. destruct (IHx E1) as [[A1 A2] A3]. rewrite size_full_opt. cbn [type_of]. rewrite max_size_opt. destruct (use_max v) eqn:M; [split; [split; lia|discriminate]|].
    split; [|reflexivity]. cbn [exact_short]. unfold opt_max. subst t. destruct (small (max_size (type_of x))) eqn:Sm; [|split; cbn; lia].
    destruct (small_ok _ Sm) as [S1 S2]. rewrite A3 by (try reflexivity; lia). split; cbn [sadd z_bits z_refs]; lia.
Qed.
End Sizes.

(** ** The serializer *)
Section Ser.
Context (fin : list bool -> list cell -> res unit) (Hfin : forall b r, (length b <= 1023)%nat -> (length r <= 4)%nat -> fin b r = Ok tt).
Context (v : version).
(** [O]: what is kept free in the first cell. *)
Context (O : size).

Definition pad (r : list chunk) : size := match r with [] => O | _ => zero_size end.
Fixpoint under (T : N) (l : list chunk) : Prop :=
  match l with [] => True | p :: l => sle (sadd (csize p) (pad l)) (Size (N.min 1023 T) 3) /\ under T l end.
Record inv (T : N) (s : ser) : Prop := {
  i_bits : z_bits (r_cur s) <= 1023; i_refs : z_refs (r_cur s) <= 4;
  i_tot : z_bits (r_cur s) + z_bits (r_left s) <= T;
  i_four : z_refs (r_cur s) = 4 -> z_refs (r_left s) = 0 /\ z_bits (r_cur s) + z_bits (r_left s) <= 1023;
  i_stack : match r_stack s with
            | [] => r_cur s = O
            | b :: r => sle (sadd (csize b) (pad r)) (r_cur s) /\ (use_max v = false -> sadd (csize b) (pad r) = r_cur s) /\ under T r
            end }.
Definition single (s : ser) : Prop := (length (r_stack s) <= 1)%nat.
Definition keeps (s s' : ser) : Prop :=
  single s -> sle (sadd (r_cur s) (r_left s)) (Size 1023 3) -> single s' /\ sadd (r_cur s') (r_left s') = sadd (r_cur s) (r_left s).
Lemma keeps_refl s : keeps s s.
Proof. intros A _. split; [exact A|reflexivity]. Qed.
Lemma keeps_trans a b c : keeps a b -> keeps b c -> keeps a c.
Proof. intros H K A B. destruct (H A B) as [C D]. rewrite <- D in B. destruct (K C B) as [E F]. split; [exact E|congruence]. Qed.

(** The chunks as they are before the first one exists. *)
Definition opened (s : ser) : list chunk := match r_stack s with [] => [empty_b] | l => l end.
Lemma opened_ok T s : inv T s -> exists b r, opened s = b :: r /\ sle (sadd (csize b) (pad r)) (r_cur s) /\ (use_max v = false -> sadd (csize b) (pad r) = r_cur s) /\ under T r /\ (single s -> r = []).
Proof.
  intros [_ _ _ _ I]. unfold opened, single. destruct (r_stack s) as [|b r].
  - exists empty_b, []. rewrite I. assert (E : sadd (csize empty_b) (pad []) = O) by (apply size_eq; cbn; lia). rewrite E.
    split; [reflexivity|]. split; [split; lia|]. split; [reflexivity|]. split; [exact Logic.I|reflexivity].
  - exists b, r. destruct I as (A & B & C). split; [reflexivity|]. split; [exact A|]. split; [exact B|]. split; [exact C|]. destruct r; [reflexivity|cbn; lia].
Qed.
Lemma appends_fits f x b : appends f x -> sle (sadd (csize b) (csize x)) (Size 1023 4) -> f b = Ok (capp b x).
Proof.
  intros A [B C]. cbn in B, C. rewrite A by (split; lia).
  destruct (Nat.ltb_spec 1023 (length (fst b) + length (fst x))); [lia|]. destruct (Nat.ltb_spec 4 (length (snd b) + length (snd x))); [lia|]. reflexivity.
Qed.
Lemma emit_total T s Z rest f x : inv T s -> r_left s = sadd Z rest -> sle Z (Size 1023 3) -> appends f x -> sle (csize x) Z -> (use_max v = false -> csize x = Z) ->
  exists s', emit v Z f s = Ok s' /\ inv T s' /\ r_left s' = rest /\ keeps s s'.
Proof.
  intros I L [Z1 Z2] A [X1 X2] Ex. destruct (opened_ok T s I) as (b & r & Op & [B1 B2] & Eb & R & Sg). destruct I as [I1 I2 I3 I4 _]. cbn [z_bits z_refs] in Z1, Z2. cbn [sadd z_bits z_refs] in B1, B2.
  unfold emit, require. fold (opened s). rewrite Op, L, ssub_sadd. rewrite L in I3, I4. cbn [sadd z_bits z_refs] in I3, I4.
  destruct (N.ltb_spec 1023 (z_bits (r_cur s))) as [|_]; [lia|]. destruct (N.ltb_spec 4 (z_refs (r_cur s))) as [|_]; [lia|]. cbn [orb z_bits z_refs].
  match goal with |- context [if (if ?c then false else _) then _ else _] => set (c1 := c) end.
  match goal with |- context [if c1 then false else ?e] => set (c2 := e) end.
  assert (K1 : c1 = false <-> z_bits (r_cur s) + z_bits Z <= 1023 /\ z_refs (r_cur s) + z_refs Z <= 4).
  { unfold c1. rewrite orb_false_iff, !N.ltb_ge. lia. }
  assert (K2 : c2 = true -> z_refs (r_cur s) + z_refs Z <= 4 -> z_refs (r_cur s) + z_refs Z = 4 -> z_refs Z = 0 \/ z_refs rest = 0 /\ z_bits rest + z_bits Z <= 1023 - z_bits (r_cur s)).
  { unfold c2. intros H Q1 Q2. destruct (N.ltb_spec 0 (z_refs Z)) as [P|P]; [|lia]. cbn [andb] in H. destruct (N.eqb_spec (z_refs Z) (4 - z_refs (r_cur s))) as [_|P2]; [|lia].
    rewrite !andb_true_iff, N.eqb_eq, N.leb_le in H. lia. }
  assert (K3 : c2 = false -> 0 < z_refs Z /\ (z_refs Z = 4 - z_refs (r_cur s))).
  { unfold c2. destruct (N.ltb_spec 0 (z_refs Z)) as [P|P]; cbn [andb]; [|discriminate]. destruct (N.eqb_spec (z_refs Z) (4 - z_refs (r_cur s))); [auto|discriminate]. }
  clearbody c1 c2.
  assert (In : z_refs (r_cur s) = 4 -> (if c1 then false else c2) = true).
  { intros Q. destruct (I4 Q) as [Q1 Q2]. destruct c1; [exfalso; assert (true = false) by (apply K1; lia); discriminate|]. destruct c2; [reflexivity|]. destruct (K3 eq_refl). lia. }
  assert (Kp : sle (sadd (r_cur s) (sadd Z rest)) (Size 1023 3) -> (if c1 then false else c2) = true).
  { intros [Q1 Q2]. cbn in Q1, Q2. destruct c1; [exfalso; assert (true = false) by (apply K1; lia); discriminate|]. destruct c2; [reflexivity|]. destruct (K3 eq_refl). lia. }
  destruct (if c1 then false else c2) eqn:Inl; cbn [rbind r_stack r_cur r_left].
  - destruct c1; [discriminate|]. subst c2. destruct (proj1 K1 eq_refl) as [J1 J2]. rewrite (appends_fits f x b A) by (split; cbn [sadd z_bits z_refs]; lia). cbn [rbind].
    eexists. split; [reflexivity|]. split; [constructor; cbn [r_cur r_left r_stack sadd z_bits z_refs]; try lia|].
    + rewrite csize_capp. split; [split; cbn [sadd z_bits z_refs]; lia|]. split; [|exact R]. intros M. rewrite <- (Eb M), (Ex M). apply size_eq; cbn; lia.
    + split; [reflexivity|]. intros S0 _. unfold single in *. cbn [r_stack length r_cur r_left]. rewrite (Sg S0), L. split; [cbn; lia|]. apply size_eq; cbn; lia.
  - change (appends f x) in A. rewrite (appends_fits f x empty_b A) by (clear - X1 X2 Z1 Z2; split; cbn; cbn in X1, X2; lia). cbn [rbind].
    eexists. split; [reflexivity|]. split; [constructor; cbn [r_cur r_left r_stack]; try lia|].
    + rewrite csize_capp. cbn [pad]. split; [split; cbn; cbn in X1, X2; lia|]. split; [intros M; rewrite <- (Ex M); apply size_eq; cbn; lia|].
      split; [|exact R]. assert (z_refs (r_cur s) <> 4) by (intros Q; discriminate (In Q)). split; cbn [sadd z_bits z_refs]; lia.
    + split; [reflexivity|]. intros _ Q. rewrite L in Q. discriminate (Kp Q).
Qed.

Lemma build_total b : sle (csize b) (Size 1023 4) -> build fin b = Ok (chunk_cell b).
Proof. intros [A B]. cbn in A, B. unfold build. rewrite Hfin by lia. reflexivity. Qed.
Lemma store_ref_total c b : z_refs (csize b) <= 3 -> store_ref c b = Ok (fst b, snd b ++ [c]).
Proof. intros A. cbn in A. unfold store_ref, putr. cbn [length]. change MAX_REFS with 4%nat. destruct (Nat.ltb_spec 4 (length (snd b) + 1)); [lia|reflexivity]. Qed.
Lemma join_total T r : under T r -> forall b, sle (sadd (csize b) (pad r)) (Size (N.min 1023 T) 4) ->
  exists b', join fin b r = Ok b' /\ sle (sadd (csize b') O) (Size (N.min 1023 T) 4).
Proof.
  induction r as [|p r IH]; intros U b B; cbn [join]; [exists b; split; [reflexivity|exact B]|]. destruct U as [[P1 P2] U], B as [B1 B2]. cbn [pad sadd zero_size z_bits z_refs] in *.
  rewrite build_total by (split; cbn [z_bits z_refs]; lia). cbn [rbind]. rewrite store_ref_total by lia. cbn [rbind]. apply IH; [exact U|].
  split; cbn [csize z_bits z_refs fst snd sadd] in *; [lia|]. rewrite app_length. cbn [length]. lia.
Qed.
Lemma finalize_total T s : inv T s -> r_left s = zero_size ->
  exists b, finalize fin s = Ok b /\ sle (sadd (csize b) O) (Size (N.min 1023 T) 4) /\ (single s -> sle (sadd (csize b) O) (r_cur s) /\ (use_max v = false -> sadd (csize b) O = r_cur s)).
Proof.
  intros [I1 I2 I3 _ I5] L. unfold finalize. rewrite L. cbn [zero_size z_bits z_refs N.eqb andb negb]. rewrite L in I3. cbn [zero_size z_bits] in I3. unfold single. destruct (r_stack s) as [|b r].
  - exists empty_b. split; [reflexivity|]. assert (E : sadd (csize empty_b) O = O) by (apply size_eq; cbn; lia). rewrite I5 in *. rewrite E. split; [split; cbn [z_bits z_refs]; lia|]. intros _. split; [split; lia|reflexivity].
  - destruct I5 as ([J1 J2] & J3 & J4). destruct (join_total T r J4 b) as (b' & E & Q); [split; cbn [z_bits z_refs]; lia|]. exists b'. split; [exact E|]. split; [exact Q|].
    destruct r; [|cbn; lia]. intros _. cbn [join] in E. injection E as <-. split; [split; assumption|exact J3].
Qed.

(** ** Byte strings *)
Lemma bytes_loop_total fuel : forall data per b, (length data < fuel)%nat -> (per <= 127)%nat -> (data <> [] -> 1 <= per)%nat -> sle (csize b) (Size 1023 1) -> (fst b = [] -> snd b = []) ->
  exists b', bytes_loop fin fuel data per b = Ok b' /\ sle (csize b') (Size 1023 1).
Proof.
  induction fuel as [|fuel IH]; intros data per b Hf P1 P2 B Hb; [lia|]. cbn [bytes_loop]. destruct data as [|d0 data0]; [eauto|].
  set (data := d0 :: data0) in *. assert (Dn : data <> []) by discriminate. clearbody data. specialize (P2 Dn). cbv zeta. set (len := (length data - per)%nat).
  assert (G : forall q, (length q <= 1)%nat -> exists b', (let? b := store_bs (drop len data) ([], q) in bytes_loop fin fuel (take len data) (Nat.min 127 len) b) = Ok b' /\ sle (csize b') (Size 1023 1)).
  { intros q Hq. assert (Ld : (length (drop len data) <= 127)%nat) by (rewrite drop_length; lia). unfold store_bs, on_bits, put. cbn [fst snd length]. rewrite length_bytes_bits. change MAX_BITS with 1023%nat.
    destruct (Nat.ltb_spec 1023 (0 + 8 * length (drop len data))); [lia|]. cbn [rbind app]. destruct data as [|d1 data1]; [congruence|]. cbn [length] in *.
    apply IH.
    - rewrite take_length. cbn [length]. lia.
    - lia.
    - intros Tk. destruct len; [rewrite take_0 in Tk; congruence|lia].
    - split; cbn [csize fst snd z_bits z_refs]; rewrite ?length_bytes_bits; lia.
    - cbn [fst snd]. intros E. apply (f_equal length) in E. rewrite length_bytes_bits in E. cbn [length] in E. rewrite drop_length in E. cbn [length] in E. lia. }
  destruct b as [bb br]. cbn [fst snd] in *. destruct bb as [|b0 bb].
  - rewrite (Hb eq_refl). cbn [rbind]. apply G. cbn; lia.
  - destruct B as [B1 B2]. rewrite build_total by (split; cbn in *; lia). cbn [rbind]. rewrite store_ref_total by (cbn; lia). cbn [rbind]. apply G. cbn. lia.
Qed.
Lemma bytes_cell_total data : exists c, bytes_cell fin v data = Ok c.
Proof.
  unfold bytes_cell. cbv zeta. set (per := if 1 <? v_major v then _ else _).
  assert (P : (per <= 127 /\ (data <> [] -> 1 <= per))%nat).
  { subst per. destruct (1 <? v_major v).
    - destruct ((length data mod 127)%nat) eqn:M; [lia|]. pose proof (Nat.mod_upper_bound (length data) 127 ltac:(lia)). lia.
    - split; [lia|]. destruct data; [congruence|cbn [length]; lia]. }
  destruct (bytes_loop_total (S (length data)) data per empty_b ltac:(lia) (proj1 P) (proj2 P)) as (b & E & B1 & B2); [split; cbn; lia|reflexivity|].
  rewrite E. cbn [rbind]. rewrite build_total by (split; cbn in *; lia). eauto.
Qed.
End Ser.
