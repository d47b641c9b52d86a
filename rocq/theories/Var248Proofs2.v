(** * Proofs about storing, loading, printing and parsing [VarUint248]. *)
From Verif Require Import Err BitsProofs CellModel ShardProofs TextModel TextProofs2 NumModel Var248Model NumSpec NumProofs Var248Proofs DivProofs DivProofs2.
Local Open Scope N_scope.

(** ** Length *)
Lemma size_hi h l : h <> 0 -> l < W128 -> N.size (h * W128 + l) = 128 + N.size h.
Proof.
  intros Hh Hl. pose proof (N.size_gt h) as G. pose proof (N.size_log2 h Hh) as S.
  assert (L : 2 ^ (N.size h - 1) <= h). { rewrite S. replace (N.succ (N.log2 h) - 1) with (N.log2 h) by lia. apply N.log2_spec. lia. }
  assert (P : 0 < N.size h) by lia.
  apply N.le_antisymm.
  - apply size_le. rewrite N.pow_add_r. change (2 ^ 128) with W128. set (X := 2 ^ N.size h) in *. clear - G Hl. nia.
  - assert (H : ~ N.size (h * W128 + l) <= 127 + N.size h); [|lia]. rewrite size_le. apply N.le_ngt.
    replace (127 + N.size h) with (128 + (N.size h - 1)) by lia. rewrite N.pow_add_r. change (2 ^ 128) with W128.
    set (X := 2 ^ (N.size h - 1)) in *. clear - L. nia.
Qed.
Lemma v248_lz_ok a : v248_ok a -> v248_lz a = 256 - N.size (v248_val a).
Proof.
  rewrite v248_ok_eq. intros [Hh Hl]. unfold v248_lz. rewrite v248_val_eq. destruct (N.eqb_spec (v_hi a) 0) as [->|Nz].
  - rewrite N.mul_0_l, N.add_0_l. unfold lz. unfold W128 in Hl. apply size_le in Hl. lia.
  - rewrite size_hi by assumption. unfold lz. lia.
Qed.
Lemma val_lt256 a : v248_ok a -> v248_val a < 2 ^ 256.
Proof. intros H. apply v248_val_lt in H. exact H. Qed.
Lemma v248_len_size a : v248_ok a -> v248_len a = (N.size (v248_val a) + 7) / 8.
Proof.
  intros H. unfold v248_len. rewrite v248_lz_ok by exact H. apply (len_size 32); [|lia]. apply size_le. apply val_lt256. exact H.
Qed.
Lemma v248_len_shortest a : v248_ok a -> shortest (v248_val a) (v248_len a).
Proof. intros H. rewrite v248_len_size by exact H. apply shortest_size. Qed.
Lemma v248_len_le a : v248_ok a -> v248_len a <= 31 <-> v248_val a <= MAX248.
Proof.
  intros H. destruct (v248_len_shortest a H) as [A B]. assert (E : 256 ^ 31 = MAX248 + 1) by reflexivity.
  split; intros L.
  - assert (256 ^ v248_len a <= 256 ^ 31) by (apply N.pow_le_mono_r; lia). lia.
  - apply B. lia.
Qed.

(** ** Storing *)
Lemma nbits_words m h l : l < W128 -> nbits (m + 128) (h * W128 + l) = nbits m h ++ nbits 128 l.
Proof.
  intros H. rewrite nbits_app. f_equal.
  - rewrite shr_div. f_equal. change (2 ^ N.of_nat 128) with W128. rewrite N.div_add_l by discriminate. rewrite N.div_small by exact H. lia.
  - apply nbits_ext. intros i Hi. rewrite <- (N.mod_pow2_bits_low (h * W128 + l) 128) by lia. f_equal.
    change (2 ^ 128) with W128. rewrite N.add_comm, N.mod_add by discriminate. apply N.mod_small. exact H.
Qed.
Lemma store_v248_ok a b : v248_ok a ->
  store_v248 a b =
  if (MAX248 <? v248_val a) || (MAX_BITS <? length b + N.to_nat (5 + v248_len a * 8))%nat then Err CellOverflow
  else Ok (b ++ nbits 5 (v248_len a) ++ nbits (N.to_nat (v248_len a * 8)) (v248_val a)).
Proof.
  intros Ha. pose proof (v248_len_le a Ha) as Le. unfold store_v248. rewrite has_capacity_spec, negb_involutive.
  assert ((31 <? v248_len a) = (MAX248 <? v248_val a)) as ->.
  { destruct (N.ltb_spec 31 (v248_len a)), (N.ltb_spec MAX248 (v248_val a)); try reflexivity; lia. }
  destruct (N.ltb_spec MAX248 (v248_val a)) as [V|V]; cbn [orb]; [reflexivity|].
  destruct (Nat.ltb_spec MAX_BITS (length b + N.to_nat (5 + v248_len a * 8))) as [C|C]; [reflexivity|].
  apply Le in V. rewrite put_uint_ok by lia. cbn [rbind]. change (N.to_nat 5) with 5%nat.
  destruct (v248_len_shortest a Ha) as [S _]. rewrite v248_ok_eq in Ha. destruct Ha as [Hh Hl]. rewrite v248_val_eq in *. set (n := v248_len a) in *.
  unfold p_sub. destruct (N.leb_spec 128 (n * 8)) as [L|L].
  - rewrite store_u128_ok; [|lia|rewrite app_length, length_nbits; lia]. cbn [rbind].
    rewrite store_u128_ok; [|lia|rewrite !app_length, !length_nbits; lia].
    replace (n * 8 - (n * 8 - 128)) with 128 by lia.
    replace (N.to_nat (n * 8)) with (N.to_nat (n * 8 - 128) + 128)%nat by lia. rewrite nbits_words by exact Hl.
    rewrite <- !app_assoc. reflexivity.
  - rewrite store_u128_ok; [|lia|rewrite app_length, length_nbits; lia].
    assert (v_hi a = 0) as ->.
    { assert (256 ^ n <= 256 ^ 16) by (apply N.pow_le_mono_r; lia). change (256 ^ 16) with W128 in H. set (X := 256 ^ n) in *. clear - S H. nia. }
    rewrite N.mul_0_l, N.add_0_l, <- app_assoc. reflexivity.
Qed.
Lemma store_v248_spec a b : v248_ok a ->
  match store_v248 a b with
  | Ok b' => v248_val a <= MAX248 /\ exists bits, var_uint_bits 5 (v248_val a) bits /\ b' = b ++ bits /\ (length b' <= MAX_BITS)%nat
  | Err e => e = CellOverflow /\ (MAX248 < v248_val a \/ forall bits, var_uint_bits 5 (v248_val a) bits -> (MAX_BITS < length b + length bits)%nat)
  end.
Proof.
  intros Ha. rewrite store_v248_ok by exact Ha. pose proof (v248_len_shortest a Ha) as S. pose proof (v248_len_le a Ha) as Le.
  destruct (N.ltb_spec MAX248 (v248_val a)) as [V|V]; cbn [orb]; [split; [reflexivity|left; exact V]|].
  destruct (Nat.ltb_spec MAX_BITS (length b + N.to_nat (5 + v248_len a * 8))) as [C|C].
  - split; [reflexivity|]. right. intros bits Hb. apply var_bits_length in Hb. destruct Hb as (n & Sn & ->).
    rewrite (shortest_unique _ _ _ Sn S). lia.
  - split; [exact V|]. eexists. split; [|split; [reflexivity|]].
    + exists (v248_len a). split; [exact S|]. split; [apply Le in V; change (2 ^ N.of_nat 5) with 32; lia|]. rewrite (N.mul_comm 8). reflexivity.
    + rewrite !app_length, !length_nbits. lia.
Qed.
Lemma load_uint_lt_pow n b x r k : load_uint n b = Ok (x, r) -> N.of_nat n <= k -> x < 2 ^ k.
Proof. intros H L. eapply N.lt_le_trans; [eapply load_uint_lt; exact H|]. apply N.pow_le_mono_r; lia. Qed.
Lemma load_v248_ok b :
  match load_v248 b with
  | Ok (a, r) => v248_ok a /\ load_var 5 b = Ok (v248_val a, r)
  | Err e => load_var 5 b = Err e
  end.
Proof.
  unfold load_v248, load_var. destruct (load_uint 5 b) as [[n b1]|e] eqn:E; [|reflexivity]. cbn [rbind].
  apply load_uint_lt in E. change (2 ^ N.of_nat 5) with 32 in E. unfold p_sub. destruct (N.leb_spec 16 n) as [L|L].
  - destruct (N.ltb_spec 0 (n - 16)) as [P|P].
    + rewrite load_u128_ok by lia. replace (N.to_nat (n * 8)) with (N.to_nat ((n - 16) * 8) + N.to_nat (16 * 8))%nat by lia. rewrite load_uint_app.
      destruct (load_uint (N.to_nat ((n - 16) * 8)) b1) as [[h b2]|e] eqn:E1; cbn [rbind]; [|reflexivity].
      replace (n - (n - 16)) with 16 by lia. rewrite load_u128_ok by lia.
      destruct (load_uint (N.to_nat (16 * 8)) b2) as [[l b3]|e] eqn:E2; cbn [rbind]; [|reflexivity].
      split; [|reflexivity]. apply ok_intro; cbn [v_hi v_lo]; [apply (load_uint_lt_pow _ _ _ _ 128 E1); lia|apply (load_uint_lt_pow _ _ _ _ 128 E2); lia].
    + cbn [rbind]. rewrite load_u128_ok by lia. destruct (load_uint (N.to_nat (n * 8)) b1) as [[l b3]|e] eqn:E2; cbn [rbind]; [|reflexivity].
      split; [|reflexivity]. apply ok_intro; cbn [v_hi v_lo]; [reflexivity|apply (load_uint_lt_pow _ _ _ _ 128 E2); lia].
  - cbn [rbind]. rewrite load_u128_ok by lia. destruct (load_uint (N.to_nat (n * 8)) b1) as [[l b3]|e] eqn:E2; cbn [rbind]; [|reflexivity].
    split; [|reflexivity]. apply ok_intro; cbn [v_hi v_lo]; [reflexivity|apply (load_uint_lt_pow _ _ _ _ 128 E2); lia].
Qed.

(** ** Printing *)
Lemma digits_val_app r a b : digits_val r (a ++ b) = digits_val r a * r ^ N.of_nat (length b) + digits_val r b.
Proof.
  unfold digits_val. rewrite fold_left_app. generalize (fold_left (fun a d => a * r + d) a 0). intros x.
  assert (G : forall l y, fold_left (fun a d => a * r + d) l y = y * r ^ N.of_nat (length l) + fold_left (fun a d => a * r + d) l 0).
  { induction l as [|c l IH]; intros y; cbn [fold_left length]; [change (r ^ N.of_nat 0) with 1; lia|].
    rewrite IH, (IH (0 * r + c)), Nat2N.inj_succ, N.pow_succ_r'. ring. }
  apply G.
Qed.
Lemma lut2_ok x : x < 100 -> lut2 (x * 2) = Ok (map (fun d => 48 + d) [x / 10; x mod 10]).
Proof.
  intros H. unfold lut2. destruct (N.leb_spec (x * 2 + 2) 200); [|lia]. rewrite N.div_mul by lia. reflexivity.
Qed.
Definition digs (buf : list N) (v : N) (l : nat) : Prop :=
  exists ds, buf = map (fun d => 48 + d) ds /\ Forall (fun d => d < 10) ds /\ digits_val 10 ds = v /\ length ds = l.
Lemma pow10_lt k n : 10 ^ k <= n -> n < 2 ^ 256 -> k <= 77.
Proof.
  intros H L. destruct (N.le_gt_cases k 77) as [G|G]; [exact G|exfalso].
  assert (10 ^ 78 <= 10 ^ k) by (apply N.pow_le_mono_r; lia). assert (2 ^ 256 < 10 ^ 78) by reflexivity. lia.
Qed.
Lemma new_val v : v248_val (v248_new v) = v.
Proof. rewrite v248_val_eq. reflexivity. Qed.
Lemma new_ok v : v < W128 -> v248_ok (v248_new v).
Proof. intros. apply ok_intro; cbn [v248_new v_hi v_lo]; [reflexivity|assumption]. Qed.
Lemma small_lo a k : v248_ok a -> v248_val a < k -> k <= W128 -> v_lo a = v248_val a.
Proof.
  rewrite v248_ok_eq, v248_val_eq. intros [Hh Hl] L K. destruct (N.eq_dec (v_hi a) 0) as [->|Ne]; [lia|].
  exfalso. assert (1 * W128 <= v_hi a * W128) by (apply N.mul_le_mono_r; lia). lia.
Qed.
Lemma four_digits r : r < 10000 -> exists s1 s2 ds, lut2 (r / 100 * 2) = Ok s1 /\ lut2 (r mod 100 * 2) = Ok s2 /\ s1 ++ s2 = map (fun d => 48 + d) ds /\
  Forall (fun d => d < 10) ds /\ digits_val 10 ds = r /\ length ds = 4%nat.
Proof.
  intros H. assert (A : r / 100 < 100) by (apply N.div_lt_upper_bound; lia). assert (B : r mod 100 < 100) by (apply N.mod_lt; lia).
  eexists _, _, ([r / 100 / 10; (r / 100) mod 10; r mod 100 / 10; (r mod 100) mod 10]). rewrite !lut2_ok by assumption.
  split; [reflexivity|]. split; [reflexivity|]. split; [reflexivity|].
  pose proof (N.div_mod r 100 ltac:(lia)). pose proof (N.div_mod (r / 100) 10 ltac:(lia)). pose proof (N.div_mod (r mod 100) 10 ltac:(lia)).
  pose proof (N.mod_lt (r / 100) 10 ltac:(lia)). pose proof (N.mod_lt (r mod 100) 10 ltac:(lia)).
  split; [repeat constructor; lia|]. split; [|reflexivity]. unfold digits_val. cbn [fold_left]. lia.
Qed.
Lemma fmt_loop_ok n0 : n0 < 2 ^ 256 -> forall fuel n buf v l, v248_ok n -> digs buf v l ->
  v248_val n * 10 ^ N.of_nat l + v = n0 -> (77 < l + 4 * fuel)%nat -> (l = 0%nat \/ v248_val n <> 0) ->
  exists n' buf' v' l', fmt_loop fuel n buf = Ok (n', buf') /\ v248_ok n' /\ v248_val n' < 10000 /\ digs buf' v' l' /\
    v248_val n' * 10 ^ N.of_nat l' + v' = n0 /\ (l' = 0%nat \/ v248_val n' <> 0).
Proof.
  intros H0. induction fuel as [|f IH]; intros n buf v l Hn D E F Z.
  { exfalso. destruct Z as [->|Z]; [lia|]. assert (N.of_nat l <= 77); [|lia]. apply (pow10_lt _ n0); [|exact H0].
    assert (1 * 10 ^ N.of_nat l <= v248_val n * 10 ^ N.of_nat l) by (apply N.mul_le_mono_r; lia). lia. }
  cbn [fmt_loop]. rewrite v248_cmp_ok by (try exact Hn; apply new_ok; reflexivity). rewrite new_val.
  assert (K : (v248_val n < 10000 /\ (v248_val n ?= 10000) = Lt) \/ (10000 <= v248_val n /\ (v248_val n ?= 10000) <> Lt)).
  { destruct (N.compare_spec (v248_val n) 10000); [right|left|right]; split; try congruence; lia. }
  destruct K as [[K ->]|[K NL]].
  { eexists _, _, v, l. split; [reflexivity|]. auto. }
  unfold v248_rem, v248_div. destruct (udivmod_ok n (v248_new 10000) Hn (new_ok 10000 eq_refl)) as (q & r & -> & Hq & Hr & Eq & Er); [rewrite new_val; lia|].
  rewrite new_val in Eq, Er. cbn [rbind].
  assert (Lr : v248_val r < 10000) by (rewrite Er; apply N.mod_lt; lia).
  rewrite (small_lo r 10000 Hr Lr) by (vm_compute; discriminate).
  destruct (four_digits _ Lr) as (s1 & s2 & ds & -> & -> & Es & F1 & F2 & F3). cbn [rbind].
  pose proof (N.div_mod (v248_val n) 10000 ltac:(lia)) as DM. rewrite <- Eq, <- Er in DM.
  assert (Nq : v248_val q <> 0) by lia.
  destruct D as (ds0 & -> & D1 & D2 & D3).
  assert (P4 : 10 ^ N.of_nat (4 + l) = 10000 * 10 ^ N.of_nat l) by (rewrite Nat2N.inj_add, N.pow_add_r; reflexivity).
  assert (E' : v248_val q * 10 ^ N.of_nat (4 + l) + (v248_val r * 10 ^ N.of_nat l + v) = n0) by (rewrite P4, <- E, DM; ring).
  assert (L' : (4 + l <= 77)%nat).
  { assert (N.of_nat (4 + l) <= 77); [|lia]. apply (pow10_lt _ n0); [|exact H0].
    assert (1 * 10 ^ N.of_nat (4 + l) <= v248_val q * 10 ^ N.of_nat (4 + l)) by (apply N.mul_le_mono_r; lia). lia. }
  unfold in_front. rewrite Es, !map_length, F3, D3. destruct (Nat.ltb_spec 79 (4 + l)); [lia|]. cbn [rbind].
  assert (NL' : match v248_val n ?= 10000 with Lt => True | _ => True end) by (destruct (_ ?= _); exact I).
  destruct (v248_val n ?= 10000); [|congruence|]; (eapply IH; [exact Hq| |exact E'|lia|right; exact Nq]);
  exists (ds ++ ds0); (split; [rewrite map_app; reflexivity|]; split; [apply Forall_app; split; assumption|];
    split; [rewrite digits_val_app, F2, D2, D3; reflexivity|rewrite app_length, F3, D3; reflexivity]).
Qed.
Lemma display_ok n : v248_ok n -> exists s, v248_display n = Ok s /\ decimal (v248_val n) s.
Proof.
  intros Hn. unfold v248_display. pose proof (val_lt256 n Hn) as H0.
  destruct (fmt_loop_ok (v248_val n) H0 80 n [] 0 0) as (m & buf & v & l & -> & Hm & Lm & D & E & Z); [exact Hn|exists []; split_and!; constructor| |lia|left; reflexivity|].
  { change (10 ^ N.of_nat 0) with 1. lia. }
  cbn [rbind]. rewrite (small_lo m 10000 Hm Lm) by (vm_compute; discriminate). set (x := v248_val m) in *. clearbody x. clear Hm m.
  destruct D as (ds0 & -> & D1 & D2 & D3).
  assert (G : forall ds y, x = y * 10 ^ N.of_nat (length ds) + digits_val 10 ds -> Forall (fun d => d < 10) ds -> (length ds <= 2)%nat -> (ds = [] \/ y <> 0) -> y < 100 ->
    exists s, (if y <? 10 then in_front [y + 48] (map (fun d => 48 + d) (ds ++ ds0)) else let? s := lut2 (y * 2) in in_front s (map (fun d => 48 + d) (ds ++ ds0))) = Ok s /\ decimal (v248_val n) s).
  { intros ds y Ex Fd Ld Zy Ly.
    assert (T : forall d1, Forall (fun d => d < 10) d1 -> d1 <> [] -> digits_val 10 d1 = y -> (hd 0 d1 = 0 -> y = 0 /\ d1 = [0]) -> (y <> 0 -> 10 ^ N.of_nat (length d1 - 1) <= y) ->
       exists s, in_front (map (fun d => 48 + d) d1) (map (fun d => 48 + d) (ds ++ ds0)) = Ok s /\ decimal (v248_val n) s).
    { intros d1 F1 N1 V1 Hd1 G1.
      assert (VN : digits_val 10 (d1 ++ ds ++ ds0) = v248_val n) by (rewrite !digits_val_app, V1, <- E, Ex, D2, D3, app_length, D3, Nat2N.inj_add, N.pow_add_r; ring).
      assert (LB : (length d1 + length (ds ++ ds0) <= 79)%nat).
      { destruct (N.eq_dec y 0) as [Y0|Y0].
        - assert (ds = []) as -> by tauto. rewrite app_nil_l, D3.
          assert (l = 0%nat). { destruct Z as [Z|Z]; [exact Z|]. exfalso. apply Z. rewrite Ex, Y0. reflexivity. }
          destruct d1 as [|d d1]; [congruence|]. assert (d = 0) as ->.
          { rewrite Y0 in V1. change (d :: d1) with ([d] ++ d1) in V1. rewrite (digits_val_app 10 [d] d1) in V1. change (digits_val 10 [d]) with d in V1.
            assert (10 ^ N.of_nat (length d1) <> 0) by (apply N.pow_nonzero; lia). nia. }
          destruct (Hd1 eq_refl) as [_ X]. injection X as ->. cbn [length]. lia.
        - specialize (G1 Y0). assert (N.of_nat (length d1 - 1 + length (ds ++ ds0)) <= 77).
          { apply (pow10_lt _ (v248_val n)); [|exact H0]. rewrite <- VN, digits_val_app, V1, Nat2N.inj_add, N.pow_add_r.
            set (P := 10 ^ N.of_nat (length (ds ++ ds0))). assert (10 ^ N.of_nat (length d1 - 1) * P <= y * P) by (apply N.mul_le_mono_r; exact G1). lia. }
          destruct d1; [congruence|]. cbn [length] in *. lia. }
      unfold in_front. rewrite !map_length. destruct (Nat.ltb_spec 79 (length d1 + length (ds ++ ds0))); [lia|].
      eexists. split; [reflexivity|]. exists (d1 ++ ds ++ ds0). split; [destruct d1; [congruence|discriminate]|].
      split; [apply Forall_app; split; [exact F1|apply Forall_app; split; assumption]|].
      split; [|split; [exact VN|symmetry; apply map_app]].
      intros Hh. destruct d1 as [|d d1]; [congruence|]. cbn [app hd] in Hh. destruct (Hd1 Hh) as [Y0 X]. rewrite X.
      assert (ds = []) as -> by tauto. assert (l = 0%nat) as L0. { destruct Z as [Z|Z]; [exact Z|]. exfalso. apply Z. rewrite Ex, Y0. reflexivity. }
      cbn [app length]. rewrite D3, L0. reflexivity. }
    destruct (N.ltb_spec y 10) as [Y|Y].
    - rewrite (N.add_comm y 48). change [48 + y] with (map (fun d => 48 + d) [y]). apply T.
      + repeat constructor; lia.
      + discriminate.
      + unfold digits_val. cbn [fold_left]. lia.
      + cbn [hd]. intros ->. auto.
      + intros. cbn [length]. change (10 ^ N.of_nat (1 - 1)) with 1. lia.
    - rewrite lut2_ok by lia. cbn [rbind]. pose proof (N.div_mod y 10 ltac:(lia)). pose proof (N.mod_lt y 10 ltac:(lia)).
      apply T; try discriminate.
      + repeat constructor; lia.
      + unfold digits_val. cbn [fold_left]. lia.
      + cbn [hd]. intros. lia.
      + intros. cbn [length]. change (10 ^ N.of_nat (2 - 1)) with 10. lia. }
  destruct (N.leb_spec 100 x) as [L|L].
  - rewrite lut2_ok by (apply N.mod_lt; lia). cbn [rbind]. unfold in_front at 1. rewrite !map_length, D3. cbn [length].
    destruct (Nat.ltb_spec 79 (2 + l)) as [B|B].
    { exfalso. assert (N.of_nat l <= 77); [|lia]. apply (pow10_lt _ (v248_val n)); [|exact H0]. assert (1 * 10 ^ N.of_nat l <= x * 10 ^ N.of_nat l) by (apply N.mul_le_mono_r; lia). lia. }
    cbn [rbind]. rewrite <- map_app. pose proof (N.div_mod x 100 ltac:(lia)). pose proof (N.mod_lt x 100 ltac:(lia)).
    pose proof (N.div_mod (x mod 100) 10 ltac:(lia)). pose proof (N.mod_lt (x mod 100) 10 ltac:(lia)).
    apply G; try lia.
    + unfold digits_val. cbn [length fold_left]. change (10 ^ N.of_nat 2) with 100. lia.
    + repeat constructor; lia.
    + cbn [length]. lia.
  - cbn [rbind]. apply (G [] x).
    + unfold digits_val. cbn [length fold_left]. change (10 ^ N.of_nat 0) with 1. lia.
    + constructor.
    + cbn. lia.
    + left. reflexivity.
    + exact L.
Qed.

(** ** Parsing *)
Lemma to_digit_iff radix c d : radix <= 36 -> to_digit radix c = Some d <-> digit_text radix d c.
Proof.
  intros Hr. unfold to_digit, digit_text. cbn zeta.
  destruct (N.leb_spec 48 c), (N.leb_spec c 57), (N.leb_spec 97 c), (N.leb_spec c 122), (N.leb_spec 65 c), (N.leb_spec c 90); cbn [andb]; try lia;
    repeat match goal with |- context [?a <? ?b] => destruct (N.ltb_spec a b) end;
    (split; [intros [= <-] || discriminate; lia|intros K; try (exfalso; lia); f_equal; lia]).
Qed.
Lemma dval_iff radix s acc v : radix <= 36 -> dval radix s acc = Some v <->
  exists ds, Forall2 (digit_text radix) ds s /\ fold_left (fun a d => a * radix + d) ds acc = v.
Proof.
  intros Hr. revert acc. induction s as [|c s IH]; intros acc; cbn [dval].
  - split; [intros [= <-]; exists []; split; [constructor|reflexivity]|]. intros (ds & F & E). inversion F; subst. reflexivity.
  - split.
    + destruct (to_digit radix c) as [d|] eqn:T; [|discriminate]. intros H. apply IH in H. destruct H as (ds & F & E).
      exists (d :: ds). split; [constructor; [apply to_digit_iff; assumption|exact F]|exact E].
    + intros (ds & F & E). inversion F as [|d ? ds' ? Hd F' E1 E2]; subst. apply to_digit_iff in Hd; [|exact Hr]. rewrite Hd. apply IH. eauto.
Qed.
Definition body (s : list N) : list N :=
  match s with
  | [] => []
  | c :: s' => if ((c =? 43) || (c =? 45)) && (length s' =? 0)%nat then [] else if c =? 43 then s' else s
  end.
Lemma digit_not_sign radix d c : digit_text radix d c -> c <> 43 /\ c <> 45.
Proof. unfold digit_text. lia. Qed.
Lemma number_text_body radix v s : radix <= 36 -> number_text radix v s <-> body s <> [] /\ dval radix (body s) 0 = Some v.
Proof.
  intros Hr. split.
  - intros (ds & cs & F & Nd & E & S). assert (V : dval radix cs 0 = Some v) by (apply dval_iff; [exact Hr|]; exists ds; auto).
    inversion F as [|d c ds' cs' Hd F' E1 E2]; subst; [congruence|]. pose proof (digit_not_sign _ _ _ Hd) as [X1 X2].
    destruct S as [->| ->]; unfold body.
    + apply N.eqb_neq in X1, X2. rewrite X1, X2. cbn [orb andb]. split; [discriminate|exact V].
    + cbn [length Nat.eqb N.eqb Pos.eqb orb andb]. split; [discriminate|exact V].
  - intros [Nb V]. apply dval_iff in V; [|exact Hr]. destruct V as (ds & F & E). exists ds, (body s). split; [exact F|].
    split; [intros ->; inversion F; congruence|]. split; [exact E|]. destruct s as [|c s']; [left; reflexivity|]. unfold body in *.
    destruct (_ && _); [congruence|]. destruct (N.eqb_spec c 43) as [->|]; auto.
Qed.
Lemma parse_slow_ok radix s : radix <= 36 -> forall r, v248_ok r -> v248_val r <= MAX248 ->
  exists o, parse_slow radix s r = Ok o /\ option_map v248_val o = parse_digits radix MAX248 s (v248_val r) /\ (forall a, o = Some a -> v248_ok a).
Proof.
  intros Hr. assert (Or : v248_ok (v248_new radix)) by (apply new_ok; assert (36 < W128) by reflexivity; lia).
  induction s as [|c s IH]; intros r Hok Hv; cbn [parse_slow parse_digits].
  { eexists. split; [reflexivity|]. split; [reflexivity|]. intros a [= <-]. exact Hok. }
  destruct (v248_checked_mul_ok r (v248_new radix) Hok Or) as (o & -> & Ex & Ho).
  { apply v248_valid_iff; [|exact Hv]. rewrite v248_ok_eq in Hok. apply Hok. }
  cbn [rbind]. rewrite new_val in Ex. assert (MX : MAX248 < W128 * W128 - 1) by reflexivity. destruct o as [m|]; cbn [option_map exactly] in Ex.
  - specialize (Ho m eq_refl). destruct Ex as [Em _].
    destruct (to_digit radix c) as [x|] eqn:T; [|eexists; split; [reflexivity|]; split; [reflexivity|discriminate]]. cbn zeta.
    assert (Lx : x < radix) by (apply to_digit_iff in T; [|exact Hr]; apply T).
    destruct (checked_add_ok m (v248_new x) Ho) as [Ea Oa]; [apply new_ok; assert (36 < W128) by reflexivity; lia|]. rewrite new_val in Ea.
    assert (Em' : v248_val m = v248_val r * radix) by (apply N2Z.inj; rewrite N2Z.inj_mul; exact Em). rewrite Em' in Ea.
    destruct (v248_checked_add m (v248_new x)) as [y|]; cbn [option_map exactly] in Ea.
    + destruct Ea as [Ey Ly]. assert (Ey' : v248_val y = v248_val r * radix + x) by (clear - Ey; lia). rewrite <- Ey'.
      destruct (N.ltb_spec MAX248 (v248_val y)); [exfalso; clear - Ey Ly H; lia|].
      apply IH; [apply Oa; reflexivity|exact H].
    + eexists. split; [reflexivity|]. split; [|discriminate]. destruct (N.ltb_spec MAX248 (v248_val r * radix + x)); [reflexivity|exfalso; clear - H Ea; lia].
  - eexists. split; [reflexivity|]. split; [|discriminate]. destruct (to_digit radix c) as [x|]; [|reflexivity]. cbn zeta.
    destruct (N.ltb_spec MAX248 (v248_val r * radix + x)); [reflexivity|exfalso; clear - H Ex MX; lia].
Qed.
Lemma parse_fast_ok radix s : 1 <= radix -> radix <= 36 -> forall r v, v248_ok r -> dval radix s (v248_val r) = Some v -> v < W128 ->
  exists a, parse_fast radix s r = Ok (Some a) /\ v248_ok a /\ v248_val a = v.
Proof.
  intros H1 Hr. assert (Or : v248_ok (v248_new radix)) by (apply new_ok; assert (36 < W128) by reflexivity; lia).
  induction s as [|c s IH]; intros r v Hok D V; cbn [parse_fast dval] in *.
  { injection D as <-. eexists. split; [reflexivity|]. auto. }
  destruct (v248_mul_ok r (v248_new radix) Hok Or) as (m & -> & Om & Em). cbn [rbind]. rewrite new_val in Em.
  destruct (to_digit radix c) as [x|] eqn:T; [|discriminate].
  assert (Lx : x < radix) by (apply to_digit_iff in T; [|exact Hr]; apply T).
  pose proof (dval_ge radix s _ _ H1 D) as G.
  rewrite N.mod_small in Em by (eapply N.le_lt_trans; [|eapply N.lt_trans; [exact V|reflexivity]]; lia).
  destruct (v248_add_ok m (v248_new x) Om) as [Oa Ea]; [apply new_ok; assert (36 < W128) by reflexivity; lia|]. cbn [v248_new v_hi v_lo] in Ea.
  rewrite (small_lo m W128 Om) in Ea by lia. rewrite N.mul_0_r, N.mul_0_l, N.add_0_l, Em in Ea.
  rewrite N.mod_small in Ea by (eapply N.le_lt_trans; [exact G|eapply N.lt_trans; [exact V|reflexivity]]).
  apply IH; [exact Oa| |exact V]. rewrite Ea. exact D.
Qed.
Lemma parse_fast_bad radix s r o : radix <= 36 -> parse_fast radix s r = Ok (Some o) -> exists v, dval radix s 0 = Some v.
Proof.
  intros Hr. assert (G : forall s r acc, parse_fast radix s r = Ok (Some o) -> exists v, dval radix s acc = Some v).
  { clear s r. induction s as [|c s IH]; intros r acc H; cbn [parse_fast dval] in *; [eauto|].
    destruct (v248_mul r (v248_new radix)); [|discriminate]. cbn [rbind] in H. destruct (to_digit radix c); [|discriminate]. eapply IH. exact H. }
  apply G.
Qed.
