(** * The extras of augmented dictionaries: what is stored can be loaded. *)
From Verif Require Import Err BitsProofs IntModel NumModel NumSpec NumProofs NumProps CellModel ChunkModel ChunkSpec ChunkProofs CurrencyModel AugSpec AugExtraModel.
Local Open Scope N_scope.

(** [s] appends something from which [l] reads [a]. *)
Definition rt {A} (s : chunk -> res chunk) (l : chunk -> res (A * chunk)) (a : A) : Prop :=
  forall b b', s b = Ok b' -> exists x, b' = capp b x /\ forall r, l (capp x r) = Ok (a, r).
Lemma rt_bind {A C} s1 s2 (l1 : chunk -> res (A * chunk)) (l2 : A -> chunk -> res (C * chunk)) a c :
  rt s1 l1 a -> rt s2 (l2 a) c -> rt (fun b => let? b := s1 b in s2 b) (fun b => let? (a, b) := l1 b in l2 a b) c.
Proof.
  intros H1 H2 b b' H. destruct (s1 b) as [b1|] eqn:E1; cbn [rbind] in H; [|discriminate].
  destruct (H1 _ _ E1) as (x & -> & Hx). destruct (H2 _ _ H) as (y & -> & Hy). exists (capp x y).
  rewrite capp_assoc. split; [reflexivity|]. intros r. rewrite <- capp_assoc, Hx. cbn [rbind]. apply Hy.
Qed.
Lemma rt_map {A C} s (l : chunk -> res (A * chunk)) (f : A -> C) a : rt s l a -> rt s (fun b => let? (a, b) := l b in Ok (f a, b)) (f a).
Proof. intros H b b' E. destruct (H _ _ E) as (x & -> & Hx). exists x. split; [reflexivity|]. intros r. rewrite Hx. reflexivity. Qed.
Lemma rt_layout {A} s (l : chunk -> res (A * chunk)) L a x : appends s x -> reads_layout l L -> L a x ->
  forall b b', builder_ok b -> s b = Ok b' -> exists x, b' = capp b x /\ forall r, l (capp x r) = Ok (a, r).
Proof. intros S R H b b' Hb E. rewrite S in E by exact Hb. destruct (_ || _); [discriminate|]. injection E as <-. exists x. split; [reflexivity|]. intros r. eapply reads_back; eassumption. Qed.
Lemma rt_put {A} bits (l : chunk -> res (A * chunk)) a : (forall r, l (capp (bits, []) r) = Ok (a, r)) -> rt (on_bits (put bits)) l a.
Proof.
  intros H b b' E. unfold on_bits, put in E. destruct (_ <? _)%nat; cbn [rbind] in E; [discriminate|]. injection E as <-.
  exists (bits, []). split; [unfold capp; cbn [fst snd]; rewrite app_nil_r; reflexivity|exact H].
Qed.
Lemma rt_bool b : rt (store_bool b) load_bool b.
Proof. apply rt_put. intros r. eapply reads_back; [apply reads_bool|constructor]. Qed.
Lemma rt_un w v : v < 2 ^ N.of_nat w -> rt (store_un w v) (load_un w) v.
Proof. intros H. apply rt_put. intros r. eapply reads_back; [apply reads_un|constructor; exact H]. Qed.
Lemma rt_ref c : rt (store_ref c) load_ref c.
Proof.
  intros b b' E. unfold store_ref, putr in E. destruct (_ <? _)%nat; cbn [rbind] in E; [discriminate|]. injection E as <-.
  exists ([], [c]). split; [unfold capp; cbn [fst snd]; rewrite app_nil_r; reflexivity|]. intros [rb rr]. reflexivity.
Qed.
Lemma rt_dict d : rt (store_dict d) load_dict d.
Proof.
  destruct d as [c|]; unfold store_dict, load_dict, store_opt_c, load_opt_c.
  - apply (rt_bind (on_bits (put [true])) (store_ref c) (from_bits load_bit) (fun (f : bool) c => if f then let? (a, c) := load_ref c in Ok (Some a, c) else Ok (None, c)) true).
    + apply (rt_bool true).
    + apply (rt_map _ _ Some), rt_ref.
  - apply rt_put. intros [rb rr]. reflexivity.
Qed.
Lemma rt_vk k v : v < 2 ^ vk_width k -> rt (on_bits (store_vk k v)) (from_bits (load_vk k)) v.
Proof.
  intros H b b' E. unfold on_bits in E. destruct (store_vk k v (fst b)) as [y|] eqn:Es; cbn [rbind] in E; [|discriminate]. injection E as <-.
  destruct (C35_round_trip k v (fst b) y H Es) as (bits & -> & _ & _ & _ & R). exists (bits, []).
  split; [unfold capp; cbn [fst snd]; rewrite app_nil_r; reflexivity|]. intros [rb rr]. unfold from_bits, capp. cbn [fst snd app]. rewrite R. reflexivity.
Qed.
Lemma rt_cc a : cc_ok a = true -> rt (store_cc a) load_cc a.
Proof.
  intros H. apply N.ltb_lt in H. destruct a as [t d]. cbn [cc_tokens] in H. unfold store_cc, load_cc. cbn [cc_tokens cc_other].
  apply (rt_bind _ _ (from_bits (load_vk Tokens)) (fun t c => let? (d, c) := load_dict c in Ok (Currency t d, c)) t); [apply (rt_vk Tokens), H|].
  apply (rt_map _ load_dict (Currency t)), rt_dict.
Qed.
Lemma rt_loads {A} (ok : A -> bool) (s : A -> chunk -> res chunk) (l : chunk -> res (A * chunk)) :
  (forall a, ok a = true -> rt (s a) l a) -> loads_stored (fun a => stored (ok a) (s a)) l.
Proof.
  intros H a ch rest E. unfold stored in E. destruct (ok a) eqn:O; [|discriminate]. destruct (H a O _ _ E) as (x & -> & Hx).
  unfold capp at 2. cbn [fst snd app]. destruct x. apply Hx.
Qed.

Lemma cc_loads : loads_stored cc_stored load_cc.
Proof. apply (rt_loads cc_ok store_cc). exact rt_cc. Qed.
Lemma kml_loads : loads_stored kml_stored load_kml.
Proof.
  apply (rt_loads (fun a => k_max a <? 2 ^ 64) store_kml). intros [h m] H. apply N.ltb_lt in H. unfold store_kml, load_kml. cbn [k_has k_max] in *.
  apply (rt_bind _ _ load_bool (fun h c => let? (m, c) := load_un 64 c in Ok (KeyMaxLt h m, c)) h); [apply rt_bool|].
  apply (rt_map _ (load_un 64) (KeyMaxLt h)), rt_un. exact H.
Qed.
Lemma sf_loads : loads_stored sf_stored load_sf.
Proof.
  apply (rt_loads (fun a => cc_ok (sf_fees a) && cc_ok (sf_create a)) store_sf). intros [f k] H. apply andb_prop in H. unfold store_sf, load_sf. cbn [sf_fees sf_create] in *.
  apply (rt_bind _ _ load_cc (fun f c => let? (k, c) := load_cc c in Ok (ShardFee f k, c)) f); [apply rt_cc, H|].
  apply (rt_map _ load_cc (ShardFee f)), rt_cc, H.
Qed.
Lemma if_loads : loads_stored if_stored load_if.
Proof.
  apply (rt_loads (fun a => u128_ok (if_fees a) && cc_ok (if_value a)) store_if). intros [f v] H. apply andb_prop in H. destruct H as [H1 H2]. apply N.ltb_lt in H1.
  unfold store_if, load_if. cbn [if_fees if_value] in *.
  apply (rt_bind _ _ (from_bits (load_vk Tokens)) (fun f c => let? (v, c) := load_cc c in Ok (ImportFees f v, c)) f); [apply (rt_vk Tokens), H1|].
  apply (rt_map _ load_cc (ImportFees f)), rt_cc, H2.
Qed.
Lemma db_loads : loads_stored db_stored load_db.
Proof.
  apply (rt_loads (fun a => cc_ok (db_balance a)) store_db). intros [d c] H. unfold store_db, load_db. cbn [db_depth db_balance] in *.
  destruct (N.leb_spec d 30) as [L|L]; [|intros b b'; discriminate]. cbn [negb].
  apply (rt_bind _ _ (load_un 5) (fun d b => let? (c, b) := load_cc b in if d <=? 30 then Ok (DepthBalance d c, b) else Err IntOverflow) d).
  - apply rt_un. change (2 ^ N.of_nat 5) with 32. lia.
  - rewrite (proj2 (N.leb_le _ _) L). apply (rt_map _ load_cc (DepthBalance d)), rt_cc, H.
Qed.
