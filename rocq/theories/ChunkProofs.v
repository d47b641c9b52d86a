(** * Composing layouts *)
From Verif Require Import Err BitsProofs IntModel NumModel NumSpec NumProofs AddrModel AddrSpec CellModel CodecProofs AddrProofs AddrProofs2 AddrProofs3 AddrProps ChunkModel ChunkSpec NumProps.
Local Open Scope N_scope.

Lemma capp_assoc x y z : capp x (capp y z) = capp (capp x y) z.
Proof. unfold capp. cbn [fst snd]. rewrite !app_assoc. reflexivity. Qed.
Lemma capp_nil x : capp x ([], []) = x.
Proof. unfold capp. destruct x. cbn [fst snd]. rewrite !app_nil_r. reflexivity. Qed.
Lemma nil_capp x : capp ([], []) x = x.
Proof. destruct x. reflexivity. Qed.

(** ** Storing *)
Lemma appends_bind s x f y : appends s x -> appends f y -> appends (fun b => let? b := s b in f b) (capp x y).
Proof.
  intros Hs Hf b [B1 B2]. cbv beta. rewrite Hs by (split; assumption). change (fst (capp x y)) with (fst x ++ fst y). change (snd (capp x y)) with (snd x ++ snd y). rewrite !app_length, !Nat.add_assoc.
  destruct (Nat.ltb_spec 1023 (length (fst b) + length (fst x))) as [L|L]; cbn [orb rbind].
  { destruct (Nat.ltb_spec 1023 (length (fst b) + length (fst x) + length (fst y))); [reflexivity|lia]. }
  destruct (Nat.ltb_spec 4 (length (snd b) + length (snd x))) as [L2|L2]; cbn [orb rbind].
  { destruct (Nat.ltb_spec 4 (length (snd b) + length (snd x) + length (snd y))); [rewrite orb_true_r; reflexivity|lia]. }
  rewrite Hf by (split; unfold capp; cbn [fst snd]; rewrite app_length; assumption).
  change (fst (capp b x)) with (fst b ++ fst x). change (snd (capp b x)) with (snd b ++ snd x). rewrite !app_length. rewrite capp_assoc. reflexivity.
Qed.
Lemma appends_ext s s' x : (forall b, builder_ok b -> s b = s' b) -> appends s x -> appends s' x.
Proof. intros E H b B. rewrite <- E by exact B. apply H, B. Qed.
Lemma appends_nil : appends Ok ([], []).
Proof.
  intros b [B1 B2]. rewrite capp_nil. cbn [fst snd length].
  destruct (Nat.ltb_spec 1023 (length (fst b) + 0)); [lia|]. destruct (Nat.ltb_spec 4 (length (snd b) + 0)); [lia|]. reflexivity.
Qed.
Lemma appends_bits s x : (forall b, s b = put x b) -> appends (on_bits s) (x, []).
Proof.
  intros H b [_ B2]. unfold on_bits. rewrite H. unfold put, capp. cbn [fst snd length]. change MAX_BITS with 1023%nat. rewrite app_nil_r, Nat.add_0_r.
  destruct (1023 <? length (fst b) + length x)%nat; [reflexivity|]. cbn [rbind orb].
  destruct (Nat.ltb_spec 4 (length (snd b))) as [L|L]; [lia|reflexivity].
Qed.
Lemma appends_ref c : appends (store_ref c) ([], [c]).
Proof.
  intros b [B1 _]. unfold store_ref, putr, capp. cbn [fst snd length]. change MAX_REFS with 4%nat. rewrite app_nil_r.
  destruct (Nat.ltb_spec 1023 (length (fst b) + 0)) as [L|L]; [lia|]. cbn [orb]. destruct (4 <? _)%nat; reflexivity.
Qed.
Lemma appends_opt {A} (L : A -> chunk -> Prop) s o x : (forall a y, L a y -> appends (s a) y) -> maybe_c L o x -> appends (store_opt_c s o) x.
Proof.
  intros H Hm. destruct Hm as [|a y Ha].
  - exact (appends_bits (put [false]) [false] (fun b => eq_refl)).
  - exact (appends_bind _ _ _ _ (appends_bits (put [true]) [true] (fun b => eq_refl)) (H a y Ha)).
Qed.
Lemma appends_dict d x : dict_c d x -> appends (store_dict d) x.
Proof. apply appends_opt. intros a y Ha. destruct Ha. apply appends_ref. Qed.
Lemma appends_bool b x : bool_c b x -> appends (store_bool b) x.
Proof. intros [c]. exact (appends_bits (put [c]) [c] (fun _ => eq_refl)). Qed.
Lemma appends_un w v x : uint_c w v x -> appends (store_un w v) x.
Proof. intros [u Hu]. exact (appends_bits (put (nbits w u)) _ (fun _ => eq_refl)). Qed.
Lemma appends_bs n bs x : bytes_c n bs x -> appends (store_bs bs) x.
Proof. intros [u Hu]. exact (appends_bits (put (bytes_bits u)) _ (fun _ => eq_refl)). Qed.
(** A check for room that asks for no more than is going to be stored. *)
Lemma appends_cap s x n : appends s x -> n <= N.of_nat (length (fst x)) ->
  appends (fun c => if negb (has_capacity (fst c) n) then Err CellOverflow else s c) x.
Proof.
  intros H Hn b B. cbv beta. unfold has_capacity. destruct (N.leb_spec (N.of_nat (length (fst b)) + n) 1023) as [L|L]; cbn [negb]; [apply H, B|].
  destruct (Nat.ltb_spec 1023 (length (fst b) + length (fst x))) as [L2|L2]; [reflexivity|lia].
Qed.

(** ** Loading *)
Definition then_c {A B} (L1 : A -> chunk -> Prop) (L2 : A -> B -> chunk -> Prop) (b : B) (z : chunk) : Prop :=
  exists a x y, L1 a x /\ L2 a b y /\ z = capp x y.
Lemma reads_bind {A B} (l1 : chunk -> res (A * chunk)) (l2 : A -> chunk -> res (B * chunk)) L1 L2 :
  reads_layout l1 L1 -> (forall a, reads_layout (l2 a) (L2 a)) -> reads_layout (fun c => let? (a, c) := l1 c in l2 a c) (then_c L1 L2).
Proof.
  intros H1 H2 c b r. split.
  - destruct (l1 c) as [[a c1]|e] eqn:E; [|discriminate]. cbn [rbind]. intros E2. apply H1 in E. destruct E as (x & Hx & ->).
    apply H2 in E2. destruct E2 as (y & Hy & ->). exists (capp x y). split; [exists a, x, y; auto|apply capp_assoc].
  - intros (z & (a & x & y & Hx & Hy & ->) & ->). rewrite <- capp_assoc. rewrite (proj2 (H1 _ a (capp y r)) (ex_intro _ x (conj Hx eq_refl))). cbn [rbind].
    apply H2. exists y. auto.
Qed.
Definition const_c {A} (a : A) (b : A) (z : chunk) : Prop := b = a /\ z = ([], []).
Lemma reads_ret {A} (a : A) : reads_layout (fun c => Ok (a, c)) (const_c a).
Proof.
  intros c b r. split.
  - intros [= <- <-]. exists ([], []). split; [split; reflexivity|symmetry; apply nil_capp].
  - intros (x & [-> ->] & ->). rewrite nil_capp. reflexivity.
Qed.
Definition no_c {A} (a : A) (x : chunk) : Prop := False.
Lemma reads_err {A} e : reads_layout (fun _ => Err e) (@no_c A).
Proof. intros c b r. split; [discriminate|]. intros (x & [] & _). Qed.
Lemma reads_equiv {A} (l : chunk -> res (A * chunk)) L L' : (forall a x, L a x <-> L' a x) -> reads_layout l L -> reads_layout l L'.
Proof. intros E H c a r. rewrite (H c a r). split; intros (x & Hx & Ex); exists x; (split; [apply E; exact Hx|exact Ex]). Qed.
Lemma reads_ext {A} (l l' : chunk -> res (A * chunk)) L : (forall c, l c = l' c) -> reads_layout l L -> reads_layout l' L.
Proof. intros E H c a r. rewrite <- E. apply H. Qed.
Lemma reads_if {A} (t : bool) (l l' : chunk -> res (A * chunk)) L L' : reads_layout l L -> reads_layout l' L' -> reads_layout (fun c => if t then l c else l' c) (fun a x => if t then L a x else L' a x).
Proof. intros H H' c a r. destruct t; [apply H|apply H']. Qed.
Lemma reads_bits {A} (l : list bool -> res (A * list bool)) L : (forall b a r, l b = Ok (a, r) <-> exists x, L a x /\ b = x ++ r) -> reads_layout (from_bits l) (bits_only L).
Proof.
  intros H c a r. unfold from_bits. split.
  - destruct (l (fst c)) as [[a0 b]|e] eqn:E; [|discriminate]. cbn [rbind]. intros [= <- <-]. apply H in E. destruct E as (x & Hx & E). exists (x, []). split; [constructor; exact Hx|].
    destruct c as [cb cr]. unfold capp. cbn [fst snd app] in *. rewrite E. reflexivity.
  - intros (x & Hx & ->). destruct Hx as [a x Hx]. cbn [capp fst snd]. rewrite (proj2 (H (x ++ fst r) a (fst r)) (ex_intro _ x (conj Hx eq_refl))). cbn [rbind app]. destruct r; reflexivity.
Qed.
Lemma reads_ref : reads_layout load_ref cell_c.
Proof.
  intros c a r. unfold load_ref. split.
  - destruct c as [cb [|x cr]]; cbn [fst snd]; [discriminate|]. intros [= <- <-]. exists ([], [x]). split; [constructor|reflexivity].
  - intros (x & Hx & ->). destruct Hx as [a]. destruct r. reflexivity.
Qed.
Lemma reads_bool : reads_layout load_bool bool_c.
Proof.
  apply (reads_equiv _ (bits_only (fun b x => x = [b]))).
  - intros a x. split; [intros [b y ->]; constructor|intros [b]; constructor; reflexivity].
  - apply reads_bits. intros b x t. rewrite load_bit_iff. split; [intros ->; exists [x]; auto|intros (y & -> & ->); reflexivity].
Qed.
Lemma reads_un w : reads_layout (load_un w) (uint_c w).
Proof.
  apply (reads_equiv _ (bits_only (fun v x => v < 2 ^ N.of_nat w /\ x = nbits w v))).
  - intros a x. split; [intros [b y [L ->]]; constructor; exact L|intros [b L]; constructor; auto].
  - apply reads_bits. intros b x t. rewrite load_uint_iff'. split; [intros [L ->]; eauto|intros (y & [L ->] & ->); auto].
Qed.
Lemma reads_bs n : reads_layout (load_bs n) (bytes_c n).
Proof.
  apply (reads_equiv _ (bits_only (fun bs x => Forall byte_ok bs /\ length bs = n /\ x = bytes_bits bs))).
  - intros a x. split; [intros [b y (F & L & ->)]; constructor; assumption|intros [b F L]; constructor; auto].
  - apply reads_bits. intros b x t. rewrite load_bytes_iff. split; [intros (F & L & ->); eauto|intros (y & (F & L & ->) & ->); auto].
Qed.
Lemma reads_opt {A} (l : chunk -> res (A * chunk)) L : reads_layout l L -> reads_layout (load_opt_c l) (maybe_c L).
Proof.
  intros H. unfold load_opt_c.
  eapply reads_equiv; [|apply (reads_bind (from_bits load_bit) (fun (f : bool) c => if f then let? (a, c) := l c in Ok (Some a, c) else Ok (None, c)) bool_c
     (fun (f : bool) o x => if f then then_c L (fun a => const_c (Some a)) o x else const_c None o x) reads_bool)].
  2:{ intros f. apply (reads_if f (fun c => let? (a, c) := l c in Ok (Some a, c)) (fun c => Ok (None, c))); [|apply reads_ret].
      apply (reads_bind l (fun a c => Ok (Some a, c))); [exact H|]. intros a. apply reads_ret. }
  intros o z. split.
  - intros (f & x & y & Hf & Hy & ->). destruct Hf as [[|]].
    + destruct Hy as (a & x & y' & Ha & [-> ->] & ->). rewrite capp_nil. constructor. exact Ha.
    + destruct Hy as [-> ->]. rewrite capp_nil. constructor.
  - intros [|a x Ha].
    + exists false, ([false], []), ([], []). split; [constructor|]. split; [split; reflexivity|reflexivity].
    + exists true, ([true], []), x. split; [constructor|]. split; [|reflexivity]. exists a, x, ([], []). split; [exact Ha|]. split; [split; reflexivity|symmetry; apply capp_nil].
Qed.
Lemma reads_dict : reads_layout load_dict dict_c.
Proof. apply reads_opt, reads_ref. Qed.
(** A value that is stored in its layout is read back. *)
Lemma reads_back {A} (l : chunk -> res (A * chunk)) L a x r : reads_layout l L -> L a x -> l (capp x r) = Ok (a, r).
Proof. intros H Ha. apply H. eauto. Qed.

(** ** Errors of loading *)
Definition load_fails {A} (l : chunk -> res (A * chunk)) : Prop := forall b e, l b = Err e -> load_error e.
Lemma fails_bind {A B} (l1 : chunk -> res (A * chunk)) (l2 : A -> chunk -> res (B * chunk)) : load_fails l1 -> (forall a, load_fails (l2 a)) -> load_fails (fun c => let? (a, c) := l1 c in l2 a c).
Proof. intros H1 H2 c e. destruct (l1 c) as [[a c1]|e1] eqn:E; cbn [rbind]; [apply H2|]. intros [= <-]. eapply H1, E. Qed.
Lemma fails_ret {A} (a : A) : load_fails (fun c => Ok (a, c)).
Proof. discriminate. Qed.
Lemma fails_bits {A} (l : list bool -> res (A * list bool)) : (forall b e, l b = Err e -> load_error e) -> load_fails (from_bits l).
Proof. intros H c e. unfold from_bits. destruct (l (fst c)) as [[a b]|e1] eqn:E; cbn [rbind]; [discriminate|]. intros [= <-]. eapply H, E. Qed.
Lemma fails_ref : load_fails load_ref.
Proof. intros c e. unfold load_ref. destruct (snd c); [|discriminate]. intros [= <-]. left. reflexivity. Qed.
Lemma fails_bool : load_fails load_bool.
Proof. apply fails_bits, load_bit_err. Qed.
Lemma fails_un w : load_fails (load_un w).
Proof. apply fails_bits. intros b e. apply load_uint_err. Qed.
Lemma fails_bs n : load_fails (load_bs n).
Proof. apply fails_bits. intros b e. destruct (load_uint (8 * n) b) as [[x r]|e1] eqn:E; cbn [rbind]; [discriminate|]. intros [= <-]. eapply load_uint_err, E. Qed.
Lemma fails_opt {A} (l : chunk -> res (A * chunk)) : load_fails l -> load_fails (load_opt_c l).
Proof.
  intros H. apply (fails_bind (from_bits load_bit) (fun (f : bool) c => if f then let? (a, c) := l c in Ok (Some a, c) else Ok (None, c))); [apply fails_bits, load_bit_err|].
  intros [|]; [|apply fails_ret]. apply (fails_bind l (fun a c => Ok (Some a, c)) H). intros a. apply fails_ret.
Qed.
Lemma fails_dict : load_fails load_dict.
Proof. apply fails_opt, fails_ref. Qed.
Lemma fails_tokens k : load_fails (from_bits (load_vk k)).
Proof. apply fails_bits. intros b e E. destruct (C35_load k b) as (_ & _ & H). left. apply H, E. Qed.

(** ** Numbers of variable length *)
Definition vk_c (U : nat -> N -> list bool -> Prop) (k : vkind) : N -> chunk -> Prop := bits_only (U (N.to_nat (vk_len_bits k))).
Lemma reads_vk k : reads_layout (from_bits (load_vk k)) (vk_c loose_var_uint_bits k).
Proof. apply reads_bits. intros b a r. apply C35_load. Qed.
Lemma vk_fits k v bits : var_uint_bits (N.to_nat (vk_len_bits k)) v bits -> v < 2 ^ vk_width k /\ v <= vk_max k.
Proof.
  intros (n & [Hn _] & Hl & _). rewrite N2Nat.id in Hl. pose proof (vk_bytes_lt k) as B. rewrite vk_max_eq.
  assert (256 ^ n <= 256 ^ vk_bytes k) by (apply N.pow_le_mono_r; lia). assert (256 ^ vk_bytes k <= 2 ^ vk_width k) by (destruct k; vm_compute; discriminate). lia.
Qed.
Lemma appends_vk k v x : vk_c var_uint_bits k v x -> appends (on_bits (store_vk k v)) x.
Proof.
  intros [v0 bits H]. apply appends_bits. intros b. destruct (vk_fits k v0 bits H) as [L M]. rewrite store_vk_ok by exact L.
  destruct (N.ltb_spec (vk_max k) v0) as [C|C]; [lia|]. cbn [orb]. destruct H as (n & Sn & Hn & ->). pose proof (vk_len_shortest k v0 L) as S. pose proof (shortest_unique _ _ _ Sn S) as En. subst n.
  unfold put. rewrite app_length, !length_nbits. replace (N.to_nat (vk_len_bits k) + N.to_nat (8 * vk_len k v0))%nat with (N.to_nat (vk_len_bits k + vk_len k v0 * 8)) by lia.
  destruct (MAX_BITS <? _)%nat; [reflexivity|]. rewrite <- ?app_assoc. replace (vk_len k v0 * 8) with (8 * vk_len k v0) by lia. reflexivity.
Qed.
Lemma vk_loose k v x : vk_c var_uint_bits k v x -> vk_c loose_var_uint_bits k v x.
Proof. intros [v0 bits H]. constructor. apply var_loose, H. Qed.
Lemma vk_size k v x : vk_c var_uint_bits k v x -> vk_unwrap_bit_len k v = N.of_nat (length (fst x)) /\ vk_exact_size k v = N.of_nat (length (fst x)) /\ snd x = [].
Proof.
  intros [v0 bits H]. cbn [fst snd]. destruct (vk_fits k v0 bits H) as [L M]. pose proof (C35_bit_len k v0 L) as B. unfold vk_unwrap_bit_len, vk_exact_size.
  assert (BL : vk_bit_len k v0 = Some (N.of_nat (length bits))).
  { unfold vk_bit_len. apply (vk_len_le k v0 L) in M. destruct (N.ltb_spec (vk_bytes k) (vk_len k v0)); [lia|].
    apply var_bits_length in H. destruct H as (n & Sn & ->). rewrite (shortest_unique _ _ _ Sn (vk_len_shortest k v0 L)). f_equal. lia. }
  rewrite BL. split; [|auto].
  pose proof (C35_round_trip k v0 [] bits L) as R.
  assert (Hs : store_vk k v0 [] = Ok bits).
  { pose proof (appends_vk k v0 (bits, []) ltac:(constructor; exact H) ([], []) ltac:(split; cbn; lia)) as A. unfold on_bits in A. cbn [fst snd length Nat.add orb] in A.
    pose proof (var_bits_length _ _ _ H) as (n & Sn & Ln). assert (n < 2 ^ vk_len_bits k). { destruct H as (n' & Sn' & Hn' & _). rewrite (shortest_unique _ _ _ Sn Sn'). rewrite N2Nat.id in Hn'. exact Hn'. }
    assert (length bits <= 1023)%nat. { rewrite Ln. clear - H0. destruct k; cbv [vk_len_bits vk_bytes] in *; match goal with H : _ < 2 ^ ?e |- _ => let z := eval vm_compute in (2 ^ e) in change (2 ^ e) with z in H end; match goal with |- context [N.to_nat (8 - ?e)] => let z := eval vm_compute in (N.to_nat (8 - e)) in change (N.to_nat (8 - e)) with z end; lia. }
    destruct (Nat.ltb_spec 1023 (length bits)); [lia|]. cbn [orb Nat.ltb Nat.leb] in A. destruct (store_vk k v0 []); [|discriminate]. cbn [rbind capp app fst snd] in A. injection A as ->. reflexivity. }
  destruct (R Hs) as (b & Eb & _ & _ & Eu & _). cbn [app] in Eb. subst b. unfold vk_unwrap_bit_len in Eu. exact Eu.
Qed.
