(** * Proofs about Rust values as ABI values: conversion back, and encoding *)
From Coq Require Import Sorting.Sorted.
From Verif Require Import Err BitsProofs IntModel NumModel AddrModel AddrSpec BigIntModel BigIntSpec CellModel DictSpec AbiModel AbiSpec AbiProofs EncSpec RustModel RustSpec RustProofs.
Local Open Scope N_scope.

Lemma fits_in_int w x : fits_in x (wbits w) true <-> AddrSpec.in_int (Z.of_N (wbits w)) x.
Proof.
  unfold fits_in, AddrSpec.in_int. split.
  - intros [->|[_ H]]; [|exact H]. destruct w; vm_compute; intuition discriminate.
  - intros H. right. split; [destruct w; vm_compute; reflexivity|exact H].
Qed.
Lemma key_from utf8 v k x : readable_key k = true -> type_of x = key_type k -> value_ok utf8 x -> encodable v x ->
  (forall r, from_key k x = Ok r -> into_key k r = x /\ key_ok k r) /\ (any_key k = true -> exists r, from_key k x = Ok r).
Proof.
  intros R T V E. destruct k; try discriminate R; destruct x; try discriminate T; cbn [from_key into_key key_ok type_of key_type rust_key] in *.
  - injection T as ->. rewrite N.eqb_refl. destruct E as [_ E]. split; [|intros _; rewrite to_unsigned_ok by exact E; eauto]. intros r Hr. apply to_unsigned_inv in Hr as [-> H]. auto.
  - injection T as ->. rewrite N.eqb_refl. destruct E as [_ E]. apply fits_in_int in E. split; [|intros _; rewrite to_signed_ok by exact E; eauto]. intros r Hr. apply to_signed_inv in Hr as [-> H]. auto.
  - injection T as ->. rewrite N.eqb_refl. destruct E as [_ E]. destruct (to_hash_facts x E) as (A & B & C). split; [|eauto]. intros r [= <-]. rewrite C. auto.
  - split; [|eauto]. intros r [= <-]. auto.
  - split; [|eauto]. intros r [= <-]. auto.
  - split; [|discriminate]. destruct a; intros r [= <-]. split; [reflexivity|]. destruct V as [bits Hb]. inversion Hb; subst. eauto.
  - split; [|discriminate]. destruct a; intros r [= <-]. split; [reflexivity|]. destruct V as [bits Hb]. inversion Hb; subst. eauto.
Qed.
Lemma plain_from k x b : readable_key k = true -> key_layout x (plain_type k) b ->
  (forall r, from_plain k x = Ok r -> into_plain k r = x /\ key_ok k r) /\ (any_key k = true -> exists r, from_plain k x = Ok r).
Proof.
  intros R L. destruct k; try discriminate R; cbn [plain_type] in L; inversion L as [n y E e1 e2|n y E e1 e2|c e1 e2|a bits E W e1 e2]; subst; cbn [from_plain into_plain key_ok rust_key].
  - rewrite N.eqb_refl. split; [|intros _; rewrite to_unsigned_ok by exact E; eauto]. intros r Hr. apply to_unsigned_inv in Hr as [-> H]. auto.
  - rewrite N.eqb_refl. apply fits_in_int in E. split; [|intros _; rewrite to_signed_ok by exact E; eauto]. intros r Hr. apply to_signed_inv in Hr as [-> H]. auto.
  - change (256 =? 256) with true. destruct (to_hash_facts y E) as (A & B & C). split; [|eauto]. intros r [= <-]. rewrite C. auto.
  - split; [|eauto]. intros r [= <-]. auto.
  - split; [|eauto]. intros r [= <-]. eauto.
  - split; [|discriminate]. destruct a; intros r [= <-]. split; [reflexivity|]. inversion E; subst. eauto.
  - split; [|discriminate]. destruct a; intros r [= <-]. split; [reflexivity|]. inversion E; subst. eauto.
Qed.
Lemma collect_from {A B} (f : A -> res B) (g : B -> A) (P : A -> Prop) (Q : B -> Prop) l :
  (forall x, P x -> forall r, f x = Ok r -> g r = x /\ Q r) -> all P l ->
  forall r, collect f l = Ok r -> map g r = l /\ all Q r.
Proof.
  intros H. induction l as [|x l IH]; intros O r Hr; [injection Hr as <-; split; [reflexivity|exact Logic.I]|].
  destruct O as [Ox Ol]. cbn [collect] in Hr. destruct (f x) as [y|] eqn:Fx; [|discriminate]. cbn [rbind] in Hr. destruct (collect f l) as [ys|] eqn:C; [|discriminate]. injection Hr as <-.
  destruct (H x Ox y Fx) as [<- Q1]. destruct (IH Ol ys eq_refl) as [<- Q2]. split; [reflexivity|split; assumption].
Qed.
Lemma collect_total {A B} (f : A -> res B) (P : A -> Prop) l : (forall x, P x -> exists r, f x = Ok r) -> all P l -> exists r, collect f l = Ok r.
Proof.
  intros H. induction l as [|x l IH]; intros O; [eauto|]. destruct O as [Ox Ol]. destruct (H x Ox) as [y Hy]. destruct (IH Ol) as [ys Hs]. exists (y :: ys). cbn. rewrite Hy. cbn. rewrite Hs. reflexivity.
Qed.
Lemma collect_map_from {A B K V} `{EqDecision K} (f : A -> res K) (g : B -> res V) (f' : K -> A) (g' : V -> B) (P : A * B -> Prop) (Q : K * V -> Prop) l :
  (forall e, P e -> forall k y, f (fst e) = Ok k -> g (snd e) = Ok y -> f' k = fst e /\ g' y = snd e /\ Q (k, y)) -> all P l -> NoDup (map fst l) ->
  forall m r, (forall e, e ∈ m -> f' (fst e) ∉ map fst l) -> NoDup (map fst m) -> collect_map f g l m = Ok r ->
  exists l', r = m ++ l' /\ map (fun e => (f' (fst e), g' (snd e))) l' = l /\ all Q l' /\ NoDup (map fst r).
Proof.
  intros H. induction l as [|[a b] l IH]; intros O D m r N Dm Hr; [injection Hr as <-; exists []; rewrite app_nil_r; repeat split; assumption|].
  destruct O as [Oe Ol]. cbn [map fst] in D, N. apply NoDup_cons in D as [Da Dl]. cbn [collect_map] in Hr. destruct (f a) as [k|] eqn:Fa; [|discriminate]. cbn [rbind] in Hr. destruct (g b) as [y|] eqn:Gb; [|discriminate]. cbn [rbind] in Hr.
  destruct (H (a, b) Oe k y Fa Gb) as (E1 & E2 & Qe). cbn [fst snd] in *.
  assert (Nk : k ∉ map fst m).
  { intros C. apply elem_of_list_fmap in C as (e & Ek & C). apply (N e C). rewrite <- Ek, E1. left. }
  rewrite insert_new in Hr by exact Nk. destruct (IH Ol Dl (m ++ [(k, y)]) r) as (l' & -> & M & Ql & Dr); [|rewrite map_app; cbn [map fst]; apply NoDup_app; split; [exact Dm|split; [|apply NoDup_singleton]]|exact Hr|].
  - intros e He. apply elem_of_app in He as [He|He]; [intros C; apply (N e He); right; exact C|]. apply elem_of_list_singleton in He. subst e. cbn [fst]. rewrite E1. exact Da.
  - intros x Hx C. apply elem_of_list_singleton in C. congruence.
  - exists ((k, y) :: l'). split; [rewrite <- app_assoc; reflexivity|]. split; [cbn [map fst snd]; rewrite E1, E2, M; reflexivity|]. split; [split; assumption|exact Dr].
Qed.
Lemma collect_map_total {A B K V} `{EqDecision K} (f : A -> res K) (g : B -> res V) (P : A * B -> Prop) l :
  (forall e, P e -> (exists k, f (fst e) = Ok k) /\ exists y, g (snd e) = Ok y) -> all P l -> forall m, exists r, collect_map f g l m = Ok r.
Proof.
  intros H. induction l as [|[a b] l IH]; intros O m; [eauto|]. destruct O as [Oe Ol]. destruct (H _ Oe) as [[k Hk] [y Hy]]. cbn [fst snd] in *. cbn [collect_map]. rewrite Hk. cbn [rbind]. rewrite Hy. cbn [rbind]. apply IH, Ol.
Qed.
Lemma all_and {A} (P Q : A -> Prop) l : all P l -> all Q l -> all (fun x => P x /\ Q x) l.
Proof. induction l as [|x l IH]; [intros; exact Logic.I|]. intros [A1 A2] [B1 B2]. split; [split; assumption|apply IH; assumption]. Qed.
Lemma all_mono {A} (P Q : A -> Prop) l : (forall x, P x -> Q x) -> all P l -> all Q l.
Proof. intros H. induction l as [|x l IH]; [intros; exact Logic.I|]. intros [A1 A2]. split; [apply H; assumption|apply IH; assumption]. Qed.
Lemma layout_fun k p b c : key_layout p k b -> key_layout p k c -> b = c.
Proof.
  intros A B. destruct A as [| | |a bits A L]; inversion B as [| | |a' bits' A' L']; subst; try reflexivity.
  pose proof (AddrProofs.store_int_put a bits [] A) as E. rewrite (AddrProofs.store_int_put a c [] A') in E. unfold put in E. cbn [length app] in E.
  rewrite L, L' in E. injection E as <-. reflexivity.
Qed.
Lemma keys_distinct {B} k (l : list (pval * B)) keys :
  Forall2 (fun e b => key_layout (fst e) k b) l keys -> StronglySorted (before false false) keys -> NoDup (map fst l).
Proof.
  intros F. induction F as [|e b l keys He F IH]; intros S; [constructor|]. apply StronglySorted_inv in S as [S H]. cbn [map]. apply NoDup_cons. split; [|apply IH, S].
  intros C. apply elem_of_list_fmap in C as (e' & E & C). apply elem_of_list_lookup in C as [i C]. destruct (Forall2_lookup_l _ _ _ _ _ F C) as (b' & Hb & L).
  rewrite <- E in L. pose proof (layout_fun _ _ _ _ He L) as <-. rewrite Forall_forall in H. assert (X : before false false b b) by (apply H; eapply elem_of_list_lookup_2; exact Hb).
  unfold before in X. lia.
Qed.
Lemma all_in2 {A B} (P : A -> Prop) (R : A -> B -> Prop) l keys : all P l -> Forall2 R l keys -> all (fun e => P e /\ exists b, R e b) l.
Proof. intros O F. revert O. induction F as [|e b l keys He F IH]; intros O; [exact Logic.I|]. destruct O as [Oe Ol]. split; [eauto|apply IH, Ol]. Qed.

Lemma from_facts utf8 v t : readable t = true -> forall x, type_of x = abi_type t -> value_ok utf8 x -> encodable v x ->
  (forall r, from_abi t x = Ok r -> into_abi t r = x /\ rust_ok utf8 t r) /\ (any_address t = true -> exists r, from_abi t x = Ok r).
Proof.
  induction t as [k| | | | | | |t IH|t IH|t IH|t n IH|k t IH|ts IH] using rty_ind'; intros R x T V E.
  - apply (key_from utf8 v); assumption.
  - destruct x; try discriminate T. injection T as ->. destruct E as [_ E]. cbn [from_abi into_abi rust_ok]. change (4 =? 4) with true. change (8 * (4 - 1)) with 24 in E.
    assert (H : x < 2 ^ wbits W32) by (eapply N.lt_trans; [exact E|vm_compute; reflexivity]). rewrite to_unsigned_ok by exact H. split; [intros r [= <-]; auto|eauto].
  - destruct x; try discriminate T. injection T as ->. destruct E as [_ E]. cbn [from_abi into_abi rust_ok]. change (8 =? 8) with true. change (8 * (8 - 1)) with 56 in E.
    assert (H : x < 2 ^ wbits W64) by (eapply N.lt_trans; [exact E|vm_compute; reflexivity]). rewrite to_unsigned_ok by exact H. split; [intros r [= <-]; auto|eauto].
  - destruct x; try discriminate T. cbn [from_abi into_abi rust_ok]. split; [intros r [= <-]; split; [reflexivity|exact E]|eauto].
  - destruct x; try discriminate T. cbn [from_abi into_abi rust_ok]. split; [intros r [= <-]; auto|eauto].
  - destruct x; try discriminate T. cbn [from_abi into_abi rust_ok]. split; [intros r [= <-]; split; [reflexivity|exact V]|eauto].
  - destruct x; try discriminate T. cbn [from_abi into_abi rust_ok]. split; [intros r [= <-]; split; [reflexivity|exact V]|eauto].
  - exact (IH R x T V E).
  - destruct x as [| | | | | | | | | | | | | | |s o|]; try discriminate T. injection T as ->. cbn [from_abi into_abi rust_ok any_address readable] in *. destruct o as [y|]; [|split; [intros r [= <-]; split; [reflexivity|exact Logic.I]|eauto]].
    cbn [value_ok encodable] in V, E. destruct V as [V Ty], E as [E _]. destruct (IH R y Ty V E) as [F G]. split.
    + intros r Hr. destruct (from_abi t y) as [r0|]; [|discriminate]. injection Hr as <-. destruct (F r0 eq_refl) as [<- O]. auto.
    + intros A. destruct (G A) as [r ->]. eauto.
  - cbn [from_abi into_abi rust_ok any_address readable abi_type] in *. destruct (is_u8 t) eqn:U.
    + apply is_u8_true in U. subst t. destruct x; try discriminate T. cbn [of_bytes as_bytes value_ok rust_ok] in *. split; [|eauto]. intros r [= <-]. split; [reflexivity|].
      clear -V. induction V; [exact Logic.I|]. split; assumption.
    + destruct x as [| | | | | | | | | | | |s l| | | |]; try discriminate T. injection T as ->. cbn [value_ok encodable] in V, E. destruct V as [_ V]. pose proof (all_and _ _ _ V E) as O.
      assert (O' : all (fun y => type_of y = abi_type t /\ value_ok utf8 y /\ encodable v y) l) by (eapply all_mono; [|exact O]; cbn; tauto). split.
      * intros r Hr. destruct (collect_from (from_abi t) (into_abi t) (fun y => type_of y = abi_type t /\ value_ok utf8 y /\ encodable v y) (rust_ok utf8 t) l) with (2 := O') (3 := Hr) as [M Q]; [|rewrite M; auto].
        intros y (T & V1 & E1) r1. apply IH; assumption.
      * intros A. apply collect_total with (2 := O'). intros y (T & V1 & E1). destruct (IH R y T V1 E1) as [_ G]. exact (G A).
  - discriminate R.
  - cbn [readable] in R. apply andb_prop in R as [Rk Rt]. destruct x as [| | | | | | | | | | | | | |s u l| |]; try discriminate T. injection T as -> ->. cbn [from_abi into_abi rust_ok value_ok encodable] in *. destruct V as (V & keys & F & S), E as (_ & _ & E).
    pose proof (all_in2 _ _ _ _ (all_and _ _ _ V E) F) as O.
    assert (O' : all (fun e : pval * aval => (exists b, key_layout (fst e) (plain_type k) b) /\ type_of (snd e) = abi_type t /\ value_ok utf8 (snd e) /\ encodable v (snd e)) l).
    { eapply all_mono; [|exact O]. intros [a y]. cbn [fst snd]. tauto. }
    split.
    + intros r Hr. destruct (collect_map_from (from_plain k) (from_abi t) (into_plain k) (into_abi t) (fun e : pval * aval => (exists b, key_layout (fst e) (plain_type k) b) /\ type_of (snd e) = abi_type t /\ value_ok utf8 (snd e) /\ encodable v (snd e)) (fun e => key_ok k (fst e) /\ rust_ok utf8 t (snd e)) l) with (2 := O') (6 := Hr) as (l' & -> & M & Q & D).
      * intros [a y] ((b & L) & T & V1 & E1) k1 y1 F1 G1. cbn [fst snd] in *. destruct (plain_from k a b Rk L) as [P _]. destruct (P _ F1) as [P1 P2]. destruct (IH Rt y T V1 E1) as [P3 _]. destruct (P3 _ G1). auto.
      * eapply keys_distinct; eassumption.
      * intros e C. apply elem_of_nil in C. destruct C.
      * constructor.
      * cbn [app] in *. rewrite M. auto.
    + intros A. cbn [any_address] in A. apply andb_prop in A as [Ak At]. apply collect_map_total with (2 := O'). intros [a y] ((b & L) & T & V1 & E1). cbn [fst snd] in *.
      destruct (plain_from k a b Rk L) as [_ P]. destruct (IH Rt y T V1 E1) as [_ P3]. auto.
  - destruct x as [| | | | | | | | | | |l| | | | |]; try discriminate T. injection T as T. rewrite from_tuple. cbn [value_ok encodable readable any_address] in *.
    assert (L : length l = length ts) by (rewrite <- (map_length type_of l), T; apply map_length). rewrite L, Nat.eqb_refl. clear L.
    assert (X : (forall r, from_abis ts l = Ok r -> into_abis ts r = l /\ rusts_ok utf8 ts r) /\ (forallb any_address ts = true -> exists r, from_abis ts l = Ok r)).
    + revert l T V E. induction IH as [|t ts It _ IH]; intros [|y l] T V E; try discriminate T; [split; [intros r [= <-]; split; [reflexivity|exact Logic.I]|exists tt; reflexivity]|].
      injection T as Ty T. destruct V as [Vy V], E as [Ey E]. cbn [forallb] in R. apply andb_prop in R as [R1 R2]. destruct (It R1 y Ty Vy Ey) as [A1 A2]. destruct (IH R2 l T V E) as [B1 B2]. cbn [from_abis into_abis rusts_ok forallb]. split.
      * intros r Hr. destruct (from_abi t y) as [r1|]; [|discriminate]. cbn [rbind] in Hr. destruct (from_abis ts l) as [r2|]; [|discriminate]. injection Hr as <-. cbn [fst snd].
        destruct (A1 r1 eq_refl) as [-> ?]. destruct (B1 r2 eq_refl) as [-> ?]. auto.
      * intros A. apply andb_prop in A as [C1 C2]. destruct (A2 C1) as [r1 ->]. destruct (B2 C2) as [r2 ->]. cbn [rbind]. eauto.
    + destruct X as [X1 X2]. split; [|exact X2]. intros r Hr. rewrite into_tuple, rust_ok_tuple. destruct (X1 r Hr) as [-> ?]. auto.
Qed.
