(** * Structures made of fields, one after another: tactics for storing and loading *)
From Verif Require Import Err BitsProofs IntModel NumModel NumSpec NumProofs CodecProofs AddrModel AddrSpec AddrProofs CellModel ChunkModel ChunkSpec ChunkProofs CurrencyModel CurrencySpec CurrencyProps MessageModel MessageSpec.
Local Open Scope N_scope.

Lemma cat_one x : cat [x] = x.
Proof. apply capp_nil. Qed.
Lemma chunk_size_capp x y : chunk_size (capp x y) = (fst (chunk_size x) + fst (chunk_size y), snd (chunk_size x) + snd (chunk_size y)).
Proof. unfold chunk_size, capp. cbn [fst snd]. rewrite !app_length. f_equal; lia. Qed.
Lemma appends_last s x : appends s x -> appends s (capp x ([], [])).
Proof. rewrite capp_nil. auto. Qed.
Lemma appends_maybe_ref o x : maybe_c cell_c o x -> appends (store_opt_c store_ref o) x.
Proof. apply appends_dict. Qed.
Lemma appends_tokens v x : tokens_c var_uint_bits v x -> appends (on_bits (store_vk Tokens v)) x.
Proof. apply (appends_vk Tokens). Qed.
Lemma appends_int a x : bits_only int_tlb a x -> appends (on_bits (store_int a)) x.
Proof. intros [b y H]. apply appends_bits. intros c. apply store_int_put, H. Qed.
Lemma appends_opt_int a x : bits_only opt_int_tlb a x -> appends (on_bits (store_opt_int a)) x.
Proof. intros [b y H]. apply appends_bits. intros c. apply store_opt_int_put, H. Qed.
Lemma appends_ext_addr a x : bits_only ext_tlb a x -> appends (on_bits (store_ext a)) x.
Proof. intros [b y H]. apply appends_bits. intros c. apply store_ext_put, H. Qed.
Lemma appends_cc a x : currency_c var_uint_bits a x -> appends (store_cc a) x.
Proof. intros H. apply C39_store, H. Qed.

Lemma reads_tokens : reads_layout (from_bits (load_vk Tokens)) (tokens_c loose_var_uint_bits).
Proof. apply (reads_vk Tokens). Qed.
Lemma reads_int : reads_layout (from_bits load_int) (bits_only int_tlb).
Proof. apply reads_bits. intros. apply load_int_addr_iff. Qed.
Lemma reads_opt_int : reads_layout (from_bits load_opt_int) (bits_only opt_int_tlb).
Proof. apply reads_bits. intros. apply load_opt_int_iff. Qed.
Lemma reads_ext_addr : reads_layout (from_bits load_ext) (bits_only ext_tlb).
Proof. apply reads_bits. intros. apply load_ext_iff. Qed.
Lemma reads_cc : reads_layout load_cc (currency_c loose_var_uint_bits).
Proof. apply C39_load. Qed.

Create HintDb stores.
Create HintDb loads.
#[export] Hint Resolve appends_bool appends_un appends_bs appends_dict appends_maybe_ref appends_tokens appends_int appends_opt_int appends_ext_addr appends_cc appends_ref : stores.
#[export] Hint Resolve reads_bool reads_un reads_bs reads_dict reads_ref reads_tokens reads_int reads_opt_int reads_ext_addr reads_cc reads_ret reads_err : loads.
#[export] Hint Extern 5 (appends (store_opt_c _ _) _) => eapply appends_opt; [intros; eauto with stores nocore|eassumption] : stores.
#[export] Hint Extern 5 (reads_layout (load_opt_c _) _) => eapply reads_opt; eauto with loads nocore : loads.

(** Goals [appends (fun c => let? c := s1 c in ... sn c) (cat [x1; ...; xn])]. *)
Ltac stores1 := first [eapply appends_bind; [solve [eauto with stores nocore]|]|apply appends_last; solve [eauto with stores nocore]].
Ltac stores := cbn [cat]; repeat stores1.
(** Goals [reads_layout (fun c => let? (a, c) := l1 c in ...) L] *)
Ltac loads1 := lazymatch goal with
  | |- reads_layout (fun c => rbind _ _) _ => eapply reads_bind; [solve [eauto with loads nocore]|intros ?; cbv beta]
  | |- reads_layout (fun c => Ok (_, c)) _ => apply reads_ret
  | |- reads_layout _ _ => solve [eauto with loads nocore]
  end.
Ltac layout_fwd := repeat match goal with
  | H : then_c _ _ _ _ |- _ => let a := fresh "a" in let x := fresh "x" in let y := fresh "y" in let E := fresh "E" in
      destruct H as (a & x & y & ? & H & E); rewrite E in *; clear E
  | H : const_c _ _ _ |- _ => let E1 := fresh in let E2 := fresh in destruct H as [E1 E2]; rewrite E1, E2 in *; clear E1 E2
  end.
Ltac layout_bwd := repeat match goal with
  | |- then_c _ _ _ (capp ?x ?y) => eexists _, x, y; split; [eassumption|split; [|reflexivity]]
  | |- const_c _ _ _ => split; reflexivity
  end.
Ltac loads := eapply reads_equiv; [|repeat loads1].
Ltac struct_loads := loads; intros; split; [intros; layout_fwd; change (@capp) with (@capp); econstructor; eassumption|intros H; destruct H; cbn [cat]; layout_bwd].

Lemma appends_depth d x : depth_c d x -> appends (on_bits (store_sd d)) x.
Proof. intros [e H]. apply appends_bits. reflexivity. Qed.
Lemma reads_depth : reads_layout (from_bits load_sd) depth_c.
Proof.
  apply (reads_equiv _ (bits_only (fun d x => 1 <= d <= 31 /\ x = nbits 5 d))).
  - intros a x. split; [intros [b y [L ->]]; constructor; exact L|intros [b L]; constructor; auto].
  - apply reads_bits. intros b a r. unfold load_sd. split.
    + destruct (load_uint 5 b) as [[v r']|e] eqn:E; [|discriminate]. cbn [rbind]. unfold sd_new. destruct (N.eqb_spec v 0); [discriminate|]. cbn [rbind]. intros [= <- <-].
      apply load_uint_iff' in E. destruct E as [E1 E2]. change (2 ^ N.of_nat 5) with 32 in E1. exists (nbits 5 v). split; [split; [lia|reflexivity]|exact E2].
    + intros (x & [H ->] & ->). rewrite (proj2 (load_uint_iff' 5 (nbits 5 a ++ r) a r)); [|change (2 ^ N.of_nat 5) with 32; split; [lia|reflexivity]].
      cbn [rbind]. unfold sd_new. destruct (N.eqb_spec a 0); [lia|reflexivity].
Qed.
Lemma appends_special s x : special_c s x -> appends (store_special s) x.
Proof. intros [t k]. apply (appends_bits (put _)). intros b. destruct t, k; reflexivity. Qed.
Lemma uint_bools2 v x : uint_c 2 v x -> x = ([negb (N.land v 2 =? 0); negb (N.land v 1 =? 0)], []).
Proof.
  intros [u Hu]. change (2 ^ N.of_nat 2) with 4 in Hu. assert (C : u = 0 \/ u = 1 \/ u = 2 \/ u = 3) by lia.
  destruct C as [->|[->|[->| ->]]]; reflexivity.
Qed.
Lemma reads_special : reads_layout load_special special_c.
Proof.
  unfold load_special. loads. intros a x. split.
  - intros H. layout_fwd. rewrite (uint_bools2 _ _ H0). constructor.
  - intros [t k]. eexists (N.lor (N.shiftl (N.b2n t) 1) (N.b2n k)), _, ([], []). split; [|split; [|symmetry; apply capp_nil]].
    + replace ([t; k], []) with (nbits 2 (N.lor (N.shiftl (N.b2n t) 1) (N.b2n k)), @nil cell) by (destruct t, k; reflexivity). constructor. destruct t, k; reflexivity.
    + split; [|reflexivity]. destruct t, k; reflexivity.
Qed.
#[export] Hint Resolve appends_depth appends_special : stores.
#[export] Hint Resolve reads_depth reads_special : loads.

Lemma appends_si s x : state_init_c s x -> appends (store_si s) x.
Proof. intros H. destruct H. unfold store_si. cbn [si_depth si_special si_code si_data si_libs]. stores. Qed.
Lemma reads_si : reads_layout load_si state_init_c.
Proof. unfold load_si. struct_loads. Qed.
