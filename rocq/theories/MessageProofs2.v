(** * Storing and loading messages, continued: init, body, layouts *)
From Verif Require Import Err BitsProofs IntModel NumModel NumSpec NumProofs AddrModel AddrSpec AddrProofs CellModel DictModel ChunkModel ChunkSpec ChunkProofs CurrencyModel CurrencySpec CurrencyProps MessageModel MessageSpec LayoutProofs MessageProofs.
Local Open Scope N_scope.

(** ** Loading *)
Lemma reads_ext_in : reads_layout load_ext_in (behind [true; false] (ext_in_c loose_var_uint_bits)).
Proof.
  unfold load_ext_in. loads. intros i z. unfold behind. split.
  - intros H. layout_fwd. econstructor; eassumption.
  - intros H. remember (capp ([true; false], []) z) as u eqn:E. destruct H. cbn [cat] in E. apply capp_inj in E. subst z. layout_bwd.
Qed.
Lemma info_flag_false {A} U S (i : int_info A) x : int_info_c U S i x -> exists y, x = capp ([false], []) y.
Proof. intros H. destruct H. cbn [cat]. eauto. Qed.
Lemma ext_in_flag U i x : ext_in_c U i x -> exists y, x = capp ([true; false], []) y.
Proof. intros H. destruct H. cbn [cat]. eauto. Qed.
Lemma ext_out_flag {A} S (i : ext_out A) x : ext_out_c S i x -> exists y, x = capp ([true; true], []) y.
Proof. intros H. destruct H. cbn [cat]. eauto. Qed.
Lemma capp_two a b y : capp ([a; b], []) y = capp ([a], []) (capp ([b], []) y).
Proof. reflexivity. Qed.
Lemma reads_info : reads_layout load_info (info_c loose_var_uint_bits).
Proof.
  unfold load_info.
  eapply reads_equiv; [|apply (reads_bind load_bool (fun t c => if negb t then let? (i, c) := load_int_info load_int c in Ok (MInt i, c)
     else let? (t, c) := load_bool c in if negb t then let? (i, c) := load_ext_in c in Ok (MExtIn i, c) else let? (i, c) := load_ext_out load_int c in Ok (MExtOut i, c)) bool_c
     (fun t => if negb t then then_c (behind [false] (int_info_c loose_var_uint_bits int_tlb)) (fun i => const_c (MInt i))
        else then_c bool_c (fun t => if negb t then then_c (behind [true; false] (ext_in_c loose_var_uint_bits)) (fun i => const_c (MExtIn i))
           else then_c (behind [true; true] (ext_out_c int_tlb)) (fun i => const_c (MExtOut i)))) reads_bool)].
  - intros i z. split.
    + intros (t & x & y & Hb & H & ->). destruct Hb as [[|]]; cbn [negb] in H.
      * destruct H as (t & x & y' & Hb & H & ->). destruct Hb as [[|]]; cbn [negb] in H; destruct H as (j & u & v & Hj & [-> ->] & ->); rewrite capp_nil, <- capp_two; constructor; exact Hj.
      * destruct H as (j & u & v & Hj & [-> ->] & ->). rewrite capp_nil. constructor. exact Hj.
    + intros [j x H|j x H|j x H].
      * destruct (info_flag_false _ _ _ _ H) as [y ->]. exists false, ([false], []), y. split; [constructor|]. split; [|reflexivity]. exists j, y, ([], []). split; [exact H|]. split; [split; reflexivity|symmetry; apply capp_nil].
      * destruct (ext_in_flag _ _ _ H) as [y ->]. exists true, ([true], []), (capp ([false], []) y). split; [constructor|]. split; [|reflexivity]. exists false, ([false], []), y. split; [constructor|]. split; [|reflexivity].
        exists j, y, ([], []). split; [exact H|]. split; [split; reflexivity|symmetry; apply capp_nil].
      * destruct (ext_out_flag _ _ _ H) as [y ->]. exists true, ([true], []), (capp ([true], []) y). split; [constructor|]. split; [|reflexivity]. exists true, ([true], []), y. split; [constructor|]. split; [|reflexivity].
        exists j, y, ([], []). split; [exact H|]. split; [split; reflexivity|symmetry; apply capp_nil].
  - intros [|]; cbn [negb].
    + eapply reads_bind; [apply reads_bool|]. intros [|]; cbn [negb]; (eapply reads_bind; [|intros a; apply reads_ret]); [apply reads_ext_out_info, reads_int|apply reads_ext_in].
    + eapply reads_bind; [|intros a; apply reads_ret]. apply reads_int_info, reads_int.
Qed.
Lemma reads_relaxed : reads_layout load_relaxed (relaxed_c loose_var_uint_bits).
Proof.
  unfold load_relaxed.
  eapply reads_equiv; [|apply (reads_bind load_bool (fun t c => if negb t then let? (i, c) := load_int_info load_opt_int c in Ok (RInt i, c)
     else let? (t, c) := load_bool c in if t : bool then let? (i, c) := load_ext_out load_opt_int c in Ok (RExtOut i, c) else Err InvalidTag) bool_c
     (fun t => if negb t then then_c (behind [false] (int_info_c loose_var_uint_bits opt_int_tlb)) (fun i => const_c (RInt i))
        else then_c bool_c (fun t => if t : bool then then_c (behind [true; true] (ext_out_c opt_int_tlb)) (fun i => const_c (RExtOut i)) else no_c)) reads_bool)].
  - intros i z. split.
    + intros (t & x & y & Hb & H & ->). destruct Hb as [[|]]; cbn [negb] in H.
      * destruct H as (t & x & y' & Hb & H & ->). destruct Hb as [[|]]; [|destruct H]. destruct H as (j & u & v & Hj & [-> ->] & ->); rewrite capp_nil, <- capp_two; constructor; exact Hj.
      * destruct H as (j & u & v & Hj & [-> ->] & ->). rewrite capp_nil. constructor. exact Hj.
    + intros [j x H|j x H].
      * destruct (info_flag_false _ _ _ _ H) as [y ->]. exists false, ([false], []), y. split; [constructor|]. split; [|reflexivity]. exists j, y, ([], []). split; [exact H|]. split; [split; reflexivity|symmetry; apply capp_nil].
      * destruct (ext_out_flag _ _ _ H) as [y ->]. exists true, ([true], []), (capp ([true], []) y). split; [constructor|]. split; [|reflexivity]. exists true, ([true], []), y. split; [constructor|]. split; [|reflexivity].
        exists j, y, ([], []). split; [exact H|]. split; [split; reflexivity|symmetry; apply capp_nil].
  - intros [|]; cbn [negb].
    + eapply reads_bind; [apply reads_bool|]. intros [|]; cbn [negb]; [|apply reads_err]. eapply reads_bind; [|intros a; apply reads_ret]. apply reads_ext_out_info, reads_opt_int.
    + eapply reads_bind; [|intros a; apply reads_ret]. apply reads_int_info, reads_opt_int.
Qed.

Definition flagged {A} (L : bool -> A -> chunk -> Prop) (p : bool * A) (x : chunk) : Prop := L (fst p) (snd p) x.
Lemma reads_slice_or_cell {A} (l : chunk -> res (A * chunk)) L : reads_layout l L -> reads_layout (load_slice_or_cell l) (flagged (either_c any_tail L)).
Proof.
  intros H. unfold load_slice_or_cell. intros b [f a] r. unfold flagged. cbn [fst snd]. split.
  - destruct b as [[|t bb] br]; [discriminate|]. unfold load_bool, from_bits, load_bit. cbn [fst snd rbind]. destruct t.
    + unfold load_ref. cbn [fst snd]. destruct br as [|x br]; [discriminate|]. cbn [rbind]. unfold as_slice. destruct x as [[|] xb xr]; cbn [c_exotic]; [discriminate|]. cbn [rbind s_chunk s_bits s_refs c_bits c_refs].
      destruct (l _) as [[a' t]|e] eqn:E; [|discriminate]. cbn [rbind]. intros [= <- <- <-]. apply H in E. destruct E as (y & Hy & E). exists ([true], [Cell false xb xr]). split; [|reflexivity].
      change xb with (fst (xb, xr)). change xr with (snd (xb, xr)) at 2. unfold s_chunk in E. cbn [s_bits s_refs] in E. rewrite E. constructor; [exact Hy|exact Logic.I].
    + destruct (l (bb, br)) as [[a' c]|e] eqn:E; [|discriminate]. cbn [rbind]. intros [= <- <- <-]. apply H in E. destruct E as (y & Hy & E). exists (capp ([false], []) y). split; [constructor; exact Hy|].
      rewrite <- capp_assoc, <- E. reflexivity.
  - intros (x & Hx & ->). destruct Hx as [a x Ha|a x t Ha _].
    + rewrite <- capp_assoc. assert (E : l (capp x r) = Ok (a, r)) by (apply H; eauto). destruct (capp x r) as [cb cr]. unfold load_bool, from_bits, load_bit, capp. cbn [fst snd app rbind]. rewrite E. reflexivity.
    + assert (E : l (capp x t) = Ok (a, t)) by (apply H; eauto). destruct (capp x t) as [cb cr]. destruct r as [rb rr]. cbn. unfold s_chunk. cbn [s_bits s_refs]. rewrite E. reflexivity.
Qed.
Lemma reads_init : reads_layout (load_opt_c (load_slice_or_cell load_si)) (fun o x => init_c any_tail (match o with Some (t, _) => t | None => false end) (option_map snd o) x).
Proof.
  eapply reads_equiv; [|apply reads_opt, reads_slice_or_cell, reads_si]. intros o x. split.
  - intros [|[t s] y H]; constructor. exact H.
  - intros H. destruct o as [[t s]|]; cbn [option_map snd] in H; inversion H; subst; constructor. assumption.
Qed.

Lemma body_right_inv b y : body_c true b y -> y = ([true], [Cell false (fst b) (snd b)]).
Proof. intros H. remember true as t eqn:E. destruct H; [discriminate|reflexivity]. Qed.
Lemma body_left_inv b y : body_c false b y -> y = capp ([false], []) b.
Proof. intros H. remember false as t eqn:E. destruct H; [reflexivity|discriminate]. Qed.
Section Load.
Context {I : Type} (fin : list bool -> list cell -> res unit) (L : I -> chunk -> Prop) (iload : chunk -> res (I * chunk)) (HL : reads_layout iload L).
Lemma slice_body_iff t c b r : load_slice_body t c = Ok (b, r) <-> exists x, body_c t b (capp ([t], []) x) /\ c = capp x r /\ (t = false -> r = ([], [])).
Proof.
  destruct t; cbn [load_slice_body]; split.
  - unfold load_ref. destruct c as [cb [|x cr]]; cbn [fst snd]; [discriminate|]. cbn [rbind]. unfold as_slice. destruct x as [[|] xb xr]; cbn [c_exotic]; [discriminate|]. cbn [rbind]. intros [= <- <-].
    exists ([], [Cell false xb xr]). split; [|split; [reflexivity|discriminate]]. unfold capp. cbn [fst snd app]. exact (body_right (xb, xr)).
  - intros (x & Hx & -> & _). apply body_right_inv in Hx. destruct x as [xb xr]. unfold capp in Hx. cbn [fst snd app] in Hx. injection Hx as -> ->. destruct r as [rb rr], b as [bb br]. reflexivity.
  - intros [= <- <-]. exists c. split; [constructor|]. split; [symmetry; apply capp_nil|reflexivity].
  - intros (x & Hx & -> & E). rewrite (E eq_refl), capp_nil. apply body_left_inv in Hx. apply capp_inj in Hx. subst. reflexivity.
Qed.
Lemma body_flag t b y : body_c t b y -> exists x, y = capp ([t], []) x.
Proof. intros [c|c]; eauto. exists ([], [Cell false (fst c) (snd c)]). reflexivity. Qed.
Lemma load_message_iff b m r : load_message iload load_slice_body b = Ok (m, r) <->
  exists x, message_c any_tail L m x /\ b = capp x r /\ (body_to_cell (default (Layout false false) (m_layout m)) = false -> r = ([], [])).
Proof using HL.
  clear fin. unfold load_message. split.
  - destruct (iload b) as [[i b1]|e] eqn:E1; [|discriminate]. cbn [rbind]. destruct (load_opt_c _ b1) as [[o b2]|e] eqn:E2; [|discriminate]. cbn [rbind].
    destruct (load_bool b2) as [[t b3]|e] eqn:E3; [|discriminate]. cbn [rbind]. destruct (load_slice_body t b3) as [[bd b4]|e] eqn:E4; [|discriminate]. cbn [rbind].
    apply HL in E1. destruct E1 as (x1 & H1 & ->). apply reads_init in E2. destruct E2 as (x2 & H2 & ->). apply reads_bool in E3. destruct E3 as (x3 & H3 & ->). destruct H3 as [t].
    apply slice_body_iff in E4. destruct E4 as (x4 & H4 & -> & H5).
    destruct o as [[ic v]|]; cbn [option_map snd] in H2; intros [= <- <-]; (exists (cat [x1; x2; capp ([t], []) x4]); split; [apply message_intro; assumption|]; split; [|exact H5]); cbn [cat]; rewrite capp_nil, !capp_assoc; reflexivity.
  - intros (x & H & -> & Hr). destruct H as [i xi s xs bd xb l H1 H2 H3]. cbn [m_layout default] in Hr. destruct (body_flag _ _ _ H3) as [y ->]. cbn [cat]. rewrite capp_nil, <- !capp_assoc.
    rewrite (proj2 (HL _ i (capp xs (capp ([body_to_cell l], []) (capp y r))))) by eauto. cbn [rbind].
    set (o := match s with Some v => Some (init_to_cell l, v) | None => None end).
    rewrite (proj2 (reads_init _ o (capp ([body_to_cell l], []) (capp y r)))).
    2:{ exists xs. split; [|reflexivity]. unfold o. destruct s; cbn [option_map snd]; [exact H2|]. inversion H2; subst. constructor. }
    cbn [rbind]. rewrite (proj2 (reads_bool _ (body_to_cell l) (capp y r))) by (eexists; split; [constructor|reflexivity]). cbn [rbind].
    rewrite (proj2 (slice_body_iff _ _ bd r)) by eauto. cbn [rbind]. unfold o. destruct s; cbn; destruct l as [ic bc]; cbn [init_to_cell body_to_cell] in *; [reflexivity|]. inversion H2; subst. reflexivity.
Qed.
End Load.

(** ** Sizes *)
Lemma maybe_ref_size o x : maybe_c cell_c o x -> chunk_size x = (1, some_n o).
Proof. intros [|a y Ha]; [reflexivity|]. destruct Ha. reflexivity. Qed.
Lemma si_size_ok s x : state_init_c s x -> chunk_size x = si_size s.
Proof.
  intros H. destruct H as [d s k t l xd xs xk xt xl Hd Hs Hk Ht Hl]. cbn [cat]. rewrite !chunk_size_capp. unfold si_size. cbn [si_depth si_special si_code si_data si_libs].
  rewrite (maybe_ref_size _ _ Hk), (maybe_ref_size _ _ Ht), (maybe_ref_size _ _ Hl). destruct Hd as [|d y Hd]; [|destruct Hd]; (destruct Hs as [|s z Hs]; [|destruct Hs]); unfold chunk_size; cbn [fst snd length capp some_n]; rewrite ?app_length, ?length_nbits; cbn [length]; f_equal; lia.
Qed.
Lemma si_small s x : state_init_c s x -> builder_ok x.
Proof.
  intros H. apply si_size_ok in H. unfold si_size in H. apply chunk_len in H. destruct H as [H1 H2]. unfold some_n in *. split.
  - destruct (si_depth s), (si_special s); lia.
  - destruct (si_code s), (si_data s), (si_libs s); lia.
Qed.
Lemma chunk_size_bits b : chunk_size (b, []) = (N.of_nat (length b), 0).
Proof. reflexivity. Qed.
Lemma message_size {I} (L : I -> chunk -> Prop) m l x isz : message_c no_tail L (with_layout m l) x -> (forall xi, L (m_info m) xi -> chunk_size xi = isz) ->
  chunk_size x = full_size l isz (m_init m) (slice_size (m_body m)).
Proof.
  intros H Hi. remember (with_layout m l) as m' eqn:E. destruct H as [i xi s xs b xb l' H1 H2 H3]. injection E as Ei Es Eb El. subst. specialize (Hi _ H1). clear H1.
  cbn [cat]. rewrite !chunk_size_capp, Hi. unfold full_size, detailed. change (slice_size (m_body m)) with (chunk_size (m_body m)).
  destruct (m_init m) as [s|].
  - inversion H2 as [|f s' y H4]; subst. destruct l as [ic bc]. cbn [init_to_cell body_to_cell] in *. rewrite chunk_size_capp.
    inversion H4 as [a z Ha E1 E2 E3|a z t Ha Ht E1 E2 E3]; subst; inversion H3; subst; rewrite ?chunk_size_capp, ?(si_size_ok _ _ Ha); unfold chunk_size; cbn [fst snd length]; f_equal; lia.
  - inversion H2; subst. destruct l as [ic bc]. cbn [init_to_cell body_to_cell] in *. subst. inversion H3; subst; rewrite ?chunk_size_capp; unfold chunk_size; cbn [fst snd length]; f_equal; lia.
Qed.

(** ** Storing *)
Lemma appends_room s x size : appends s x -> fst size <= fst (chunk_size x) -> snd size <= snd (chunk_size x) ->
  appends (fun c => if negb (has_room c size) then Err CellOverflow else s c) x.
Proof.
  intros H H1 H2. apply appends_intro. intros b B. unfold chunk_size in H1, H2. cbn [fst snd] in H1, H2. unfold has_room.
  destruct (N.leb_spec (N.of_nat (length (fst b)) + fst size) 1023) as [L1|L1]; cbn [andb negb].
  - destruct (N.leb_spec (N.of_nat (length (snd b)) + snd size) 4) as [L2|L2]; cbn [negb]; [apply appends_cases; assumption|]. right. split; [reflexivity|]. intros C. apply ok_capp in C. lia.
  - right. split; [reflexivity|]. intros C. apply ok_capp in C. lia.
Qed.
Lemma appends_putc x : appends (putc x) x.
Proof.
  intros b [B1 B2]. unfold putc, put, putr. change MAX_BITS with 1023%nat. change MAX_REFS with 4%nat.
  destruct (1023 <? _)%nat eqn:E1; cbn [rbind orb]; [reflexivity|]. destruct (4 <? _)%nat; reflexivity.
Qed.
Lemma appends_empty s x : appends s x -> builder_ok x -> s ([], []) = Ok x.
Proof.
  intros H O. destruct (appends_cases s x ([], []) H) as [[E _]|[_ E]]; [split; cbn; lia| |].
  - rewrite E, nil_capp. reflexivity.
  - rewrite nil_capp in E. contradiction.
Qed.
Section Store.
Context {I : Type} (fin : list bool -> list cell -> res unit) (L : I -> chunk -> Prop) (isize : I -> N * N) (istore : I -> chunk -> res chunk)
  (HL : forall i x, L i x -> near 2 (istore i) x).
Lemma appends_value t s x : appends s x -> builder_ok x -> fin (fst x) (snd x) = Ok tt -> appends (store_value fin t s) (if t then ([], [Cell false (fst x) (snd x)]) else x).
Proof.
  intros H O F. destruct t; unfold store_value; [|exact H]. rewrite (appends_empty _ _ H O). cbn [rbind]. unfold build. rewrite F. cbn [rbind]. apply appends_ref.
Qed.
Lemma appends_either s a x t : appends s a -> builder_ok a -> fin (fst a) (snd a) = Ok tt -> either_c no_tail (fun (_ : unit) y => y = a) t tt x ->
  appends (store_slice_or_cell fin t s) x.
Proof.
  intros H O F E. unfold store_slice_or_cell. assert (Ex : x = capp ([t], []) (if t then ([], [Cell false (fst a) (snd a)]) else a)).
  { destruct E as [u y ->|u y z -> ->]; [reflexivity|]. rewrite capp_nil. reflexivity. }
  rewrite Ex. apply appends_bind; [apply appends_bool; constructor|]. apply appends_value; assumption.
Qed.
Lemma appends_init t s x : init_c no_tail t s x -> (forall v y, s = Some v -> state_init_c v y -> fin (fst y) (snd y) = Ok tt) ->
  appends (fun c => match s with Some v => let? c := store_bool true c in store_slice_or_cell fin t (store_si v) c | None => store_bool false c end) x.
Proof.
  intros H F. destruct H as [|f v x H]; [apply appends_bool; constructor|]. apply appends_bind; [apply appends_bool; constructor|].
  assert (Hy : exists y, state_init_c v y /\ either_c no_tail (fun (_ : unit) z => z = y) f tt x).
  { destruct H as [a y Ha|a y z Ha Hz]; exists y; (split; [exact Ha|]); constructor; auto. }
  destruct Hy as (y & Hy & E). eapply appends_either; [apply appends_si, Hy|eapply si_small, Hy|eapply F; [reflexivity|exact Hy]|exact E].
Qed.
Lemma appends_slice_body t b y : body_c t b y -> builder_ok b -> fin (fst b) (snd b) = Ok tt ->
  appends (fun c => let? c := store_bool t c in store_slice_body fin t b c) y.
Proof.
  intros H O F. assert (Ex : y = capp ([t], []) (if t then ([], [Cell false (fst b) (snd b)]) else b)) by (destruct H; reflexivity).
  rewrite Ex. apply appends_bind; [apply appends_bool; constructor|]. unfold store_slice_body. apply appends_value; [apply appends_putc|exact O|exact F].
Qed.
Lemma init_len t f s x : init_c t f s x -> (1 <= length (fst x))%nat.
Proof. intros [|g v y H]; cbn; [lia|]. lia. Qed.
Lemma body_len t b y : body_c t b y -> (1 <= length (fst y))%nat.
Proof. intros [c|c]; cbn; lia. Qed.
Lemma appends_message m x : message_c no_tail L m x -> accepted fin m ->
  (forall l, m_layout m = Some l -> fst (full_size l (isize (m_info m)) (m_init m) (slice_size (m_body m))) <= fst (chunk_size x)
     /\ snd (full_size l (isize (m_info m)) (m_init m) (slice_size (m_body m))) <= snd (chunk_size x)) ->
  appends (store_message fin isize istore slice_size (store_slice_body fin) m) x.
Proof using HL.
  intros H (F1 & F2 & F3) Hz. destruct H as [i xi s xs b xb l H1 H2 H3]. cbn [m_info m_init m_body m_layout] in *. unfold store_message. cbn [m_info m_init m_body m_layout].
  destruct (Hz l eq_refl) as [Z1 Z2]. apply appends_room; [|exact Z1|exact Z2]. cbn [cat]. rewrite capp_nil.
  eapply near_bind; [apply HL, H1| |].
  - unfold capp. cbn [fst]. rewrite app_length. pose proof (init_len _ _ _ _ H2). pose proof (body_len _ _ _ H3). lia.
  - exact (appends_bind _ _ _ _ (appends_init _ _ _ H2 F1) (appends_slice_body _ _ _ H3 F3 F2)).
Qed.
End Store.

(** ** Layouts *)
Definition small (z : N * N) : Prop := fst z <= 1023 /\ snd z <= 4.
Lemma compute_first isz init bsz : snd isz <= 1 ->
  let '(l0, z) := compute_layout isz init bsz in
  z = full_size l0 isz init bsz
  /\ (small z -> (init = None -> init_to_cell l0 = false) /\ exists pre post, layouts = pre ++ l0 :: post /\ Forall (fun l' => ~ small (full_size l' isz init bsz)) pre)
  /\ (~ small z -> forall l, (init = None -> init_to_cell l = false) -> ~ small (full_size l isz init bsz)).
Proof.
  intros Hr. unfold compute_layout, full_size. destruct (detailed isz init bsz) as [[n i] b] eqn:D.
  assert (Dn : init = None -> i = (0, 0) /\ snd n <= 1). { intros ->. unfold detailed in D. injection D as <- <- <-. cbn [snd]. auto. }
  unfold small.
  destruct (N.leb_spec (fst n + fst i + fst b) 1023) as [A1|A1]; [destruct (N.leb_spec (snd n + snd i + snd b) 4) as [A2|A2]|]; cbn [andb init_to_cell body_to_cell].
  1:{ cbn [fst snd]. split; [f_equal; lia|]. split; [|lia]. intros _. split; [reflexivity|]. exists [], (tl layouts). split; [reflexivity|constructor]. }
  all: (destruct (N.leb_spec (fst n + fst i) 1023) as [B1|B1]; [destruct (N.ltb_spec (snd n + snd i) 4) as [B2|B2]|]); cbn [andb init_to_cell body_to_cell].
  1,4: cbn [fst snd]; split; [f_equal; lia|]; split; [|lia]; intros _; split; [reflexivity|]; exists [Layout false false], [Layout true false; Layout true true]; split; [reflexivity|]; repeat constructor; cbn [init_to_cell body_to_cell fst snd]; lia.
  all: (destruct (N.leb_spec (fst n + fst b) 1023) as [C1|C1]; [destruct (N.ltb_spec (snd n + snd b) 4) as [C2|C2]|]); cbn [andb init_to_cell body_to_cell].
  all: cbn [fst snd]; (split; [f_equal; lia|]).
  all: destruct init as [s|]; [clear Dn|destruct (Dn eq_refl) as [-> Hn]; cbn [fst snd] in *].
  all: (split; [intros [S1 S2]; split; [first [discriminate|intros _; exfalso; lia]|]|intros S [ic bc] Hl; cbn [init_to_cell body_to_cell] in *]).
  all: try (rewrite (Hl eq_refl)).
  all: try (destruct ic, bc; cbn [fst snd]; lia).
  all: try (destruct bc; cbn [fst snd]; lia).
  all: try (exfalso; lia).
  all: first [exists [Layout false false; Layout false true], [Layout true true]; split; [reflexivity|]; repeat constructor; cbn [init_to_cell body_to_cell fst snd]; lia
    |exists [Layout false false; Layout false true; Layout true false], []; split; [reflexivity|]; repeat constructor; cbn [init_to_cell body_to_cell fst snd]; lia].
Qed.
