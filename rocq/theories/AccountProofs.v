(** * Accounts: proofs *)
From Verif Require Import Err BitsProofs IntModel NumModel NumSpec NumProofs AddrModel AddrSpec CellModel ChunkModel ChunkSpec ChunkProofs CurrencyModel CurrencySpec MessageModel MessageSpec LayoutProofs MessageProofs LazyModel LazySpec LazyProofs AccountModel AccountSpec.
Local Open Scope N_scope.

(** A tag of [w] bits in front. *)
Definition tagged {A} (w : nat) (L : N -> A -> chunk -> Prop) (a : A) (x : chunk) : Prop :=
  exists t y, t < 2 ^ N.of_nat w /\ L t a y /\ x = capp (nbits w t, []) y.
Lemma reads_tag {A} w (l : N -> chunk -> res (A * chunk)) L : (forall t, t < 2 ^ N.of_nat w -> reads_layout (l t) (L t)) ->
  reads_layout (fun c => let? (t, c) := load_un w c in l t c) (tagged w L).
Proof.
  intros H b a r. split.
  - destruct (load_un w b) as [[t c]|] eqn:E; [|discriminate]. cbn [rbind]. intros E2. apply reads_un in E. destruct E as (x & Hx & ->). destruct Hx as [t Ht].
    apply (H t Ht) in E2. destruct E2 as (y & Hy & ->). exists (capp (nbits w t, []) y). split; [exists t, y; auto|]. apply capp_assoc.
  - intros (x & (t & y & Ht & Hy & ->) & ->). rewrite <- capp_assoc. rewrite (reads_back _ _ t _ (capp y r) (reads_un w) (uint_intro w t Ht)). cbn [rbind]. apply (H t Ht). exists y. auto.
Qed.
Lemma appends_tag w t s x y : t < 2 ^ N.of_nat w -> y = capp (nbits w t, []) x -> appends s x -> appends (fun c => let? c := store_un w t c in s c) y.
Proof. intros Ht -> H. apply appends_bind; [apply appends_un; constructor; exact Ht|exact H]. Qed.
Lemma appends_const w t y : t < 2 ^ N.of_nat w -> y = (nbits w t, []) -> appends (store_un w t) y.
Proof. intros Ht ->. apply appends_un. constructor. exact Ht. Qed.
Ltac by_tag := match goal with |- context [?t =? ?k] => destruct (N.eqb_spec t k); [subst|] end.
Ltac tag_lt := vm_compute; reflexivity.

Lemma appends_vk56 v x : bits_only (var_uint_bits 3) v x -> appends (on_bits (store_vk VarUint56 v)) x.
Proof. apply (appends_vk VarUint56). Qed.
Lemma reads_vk56 : reads_layout (from_bits (load_vk VarUint56)) (bits_only (loose_var_uint_bits 3)).
Proof. apply (reads_vk VarUint56). Qed.
#[export] Hint Resolve appends_vk56 appends_si : stores.
#[export] Hint Resolve reads_vk56 reads_si : loads.

Lemma appends_used u x : used_c var_uint_bits u x -> appends (store_used u) x.
Proof. intros H. destruct H. unfold store_used. cbn [us_cells us_bits]. stores. Qed.
Lemma reads_used : reads_layout load_used (used_c loose_var_uint_bits).
Proof. unfold load_used. struct_loads. Qed.
Lemma appends_extra e x : extra_c e x -> appends (store_extra e) x.
Proof.
  intros [|h y H]; unfold store_extra.
  - apply (appends_const 3 0); [tag_lt|reflexivity].
  - eapply (appends_tag 3 1); [tag_lt|reflexivity|]. apply appends_last. eapply appends_bs, H.
Qed.
Lemma reads_extra : reads_layout load_extra extra_c.
Proof.
  unfold load_extra. eapply reads_equiv; [|apply (reads_tag 3 _ (fun t => if t =? 0 then const_c NoExtra else if t =? 1 then then_c (bytes_c 32) (fun h => const_c (DictHash h)) else no_c))].
  - intros a x. split.
    + intros (t & y & Ht & H & ->). revert H. repeat by_tag; intros H; layout_fwd; [constructor| |destruct H]. rewrite capp_nil. match goal with H : bytes_c 32 _ ?y |- _ => rewrite <- (cat_one y) end. constructor. assumption.
    + intros [|h y H]; [exists 0, ([], [])|exists 1, y]; (split; [tag_lt|]); cbn [N.eqb]; (split; [|try reflexivity]).
      * split; reflexivity.
      * eexists _, y, ([], []). split; [exact H|]. split; [split; reflexivity|symmetry; apply capp_nil].
      * cbn [cat]. rewrite capp_nil. reflexivity.
  - intros t _. repeat by_tag; repeat loads1.
Qed.
#[export] Hint Resolve appends_used appends_extra : stores.
#[export] Hint Resolve reads_used reads_extra : loads.
Lemma appends_storage s x : storage_c var_uint_bits s x -> appends (store_storage s) x.
Proof. intros H. destruct H. unfold store_storage. cbn [st_used st_extra st_last_paid st_due]. stores. Qed.
Lemma reads_storage : reads_layout load_storage (storage_c loose_var_uint_bits).
Proof. unfold load_storage. struct_loads. Qed.
Lemma appends_status s x : status_c s x -> appends (store_status s) x.
Proof. intros []; apply appends_const; first [tag_lt|reflexivity]. Qed.
Lemma reads_status : reads_layout load_status status_c.
Proof.
  unfold load_status. eapply reads_equiv; [|apply (reads_tag 2 _ (fun t => if t =? 0 then const_c SUninit else if t =? 1 then const_c SFrozen else if t =? 2 then const_c SActive else if t =? 3 then const_c SNotExists else no_c))].
  - intros a x. split.
    + intros (t & y & Ht & H & ->). revert H. repeat by_tag; intros H; layout_fwd; try constructor. destruct H.
    + intros []; [exists 0, ([], [])|exists 1, ([], [])|exists 2, ([], [])|exists 3, ([], [])]; (split; [tag_lt|]); cbn [N.eqb Pos.eqb]; repeat split.
  - intros t _. repeat by_tag; repeat loads1.
Qed.
Lemma appends_state s x : state_c s x -> appends (store_state s) x.
Proof.
  intros [|i y H|h y H]; unfold store_state.
  - apply appends_const; [tag_lt|reflexivity].
  - cbn [cat]. eapply appends_bind; [apply appends_bool; constructor|]. rewrite capp_nil. apply appends_si, H.
  - eapply (appends_tag 2 1); [tag_lt|reflexivity|]. apply appends_last. eapply appends_bs, H.
Qed.
Lemma reads_state : reads_layout load_state state_c.
Proof.
  unfold load_state. eapply reads_equiv; [|eapply reads_bind; [apply reads_bool|]; intros a; eapply (reads_if a); [repeat loads1|eapply reads_bind; [apply reads_bool|]; intros a'; eapply (reads_if a'); repeat loads1]].
  intros a x. split.
  - intros (b & y & z & Hb & H & ->). destruct Hb as [[|]].
    + layout_fwd. match goal with |- context [capp ?u ([], [])] => change (capp u ([], [])) with (cat [u]) end. apply state_active. assumption.
    + destruct H as (b' & y' & z' & Hb & H & ->). destruct Hb as [[|]]; layout_fwd; [|constructor].
      match goal with |- state_c (Frozen _) (capp ?a (capp ?b (capp ?u ([], [])))) => change (capp a (capp b (capp u ([], [])))) with (cat [([false; true], []); u]) end. apply state_frozen. assumption.
  - intros [|i y H|h y H].
    + exists false, ([false], []), ([false], []). split; [constructor|]. split; [|reflexivity]. exists false, ([false], []), ([], []). split; [constructor|]. split; [|reflexivity]. split; reflexivity.
    + exists true, ([true], []), y. split; [constructor|]. split; [|cbn [cat]; rewrite capp_nil; reflexivity]. eexists _, y, ([], []). split; [exact H|]. split; [split; reflexivity|symmetry; apply capp_nil].
    + exists false, ([false], []), (capp ([true], []) y). split; [constructor|]. split; [|cbn [cat]; rewrite capp_nil; reflexivity].
      exists true, ([true], []), y. split; [constructor|]. split; [|reflexivity]. eexists _, y, ([], []). split; [exact H|]. split; [split; reflexivity|symmetry; apply capp_nil].
Qed.
#[export] Hint Resolve appends_storage appends_status appends_state : stores.
#[export] Hint Resolve reads_storage reads_status reads_state : loads.
Lemma appends_account a x : account_c var_uint_bits a x -> appends (store_account a) x.
Proof.
  intros [ad xa t xt l v s xs H1 H2 H3]. destruct H3 as [l xl v xv s xs H3 H4 H5]. unfold store_account. cbn [ac_address ac_storage ac_lt ac_balance ac_state].
  cbn [cat]. rewrite capp_nil. stores.
Qed.
Lemma reads_account : reads_layout load_account (account_c loose_var_uint_bits).
Proof.
  unfold load_account. loads. intros a x. split.
  - intros H. layout_fwd. rewrite !capp_nil. match goal with |- account_c _ _ (capp ?a (capp ?b (capp ?u (capp ?v ?w)))) => rewrite <- (capp_nil (capp u (capp v w))), <- (capp_nil w); change (account_c loose_var_uint_bits (Account a0 a1 a2 a3 a4) (cat [a; b; cat [u; v; w]])) end.
    constructor; [assumption|assumption|constructor; assumption].
  - intros [ad xa t xt l v s xs H1 H2 H3]. destruct H3 as [l xl v xv s xs H3 H4 H5]. cbn [cat]. rewrite !capp_nil. rewrite <- (capp_nil xs). layout_bwd.
Qed.
Lemma appends_optional a x : optional_c var_uint_bits a x -> appends (store_optional a) x.
Proof. apply appends_opt. apply appends_account. Qed.
Lemma reads_optional : reads_layout load_optional (optional_c loose_var_uint_bits).
Proof. apply reads_opt, reads_account. Qed.
Lemma appends_shard_account a x : shard_account_c a x -> appends (store_shard_account a) x.
Proof. intros H. destruct H. unfold store_shard_account. cbn [sh_account sh_hash sh_lt]. stores. Qed.
Lemma reads_shard_account : reads_layout load_shard_account shard_account_c.
Proof. unfold load_shard_account. struct_loads. Qed.
Lemma appends_cell c x : cell_c c x -> appends (store_ref c) x.
Proof. intros [d]. apply appends_ref. Qed.
#[export] Hint Resolve appends_cell : stores.
Lemma appends_lib l x : lib_c l x -> appends (store_lib l) x.
Proof. intros H. destruct H. unfold store_lib. cbn [lib_public lib_root]. stores. Qed.
Lemma reads_lib : reads_layout load_lib lib_c.
Proof. unfold load_lib. struct_loads. Qed.
