(** * Proofs for C71 *)
From Verif Require Import Err BitsProofs IntModel NumModel NumProofs AddrModel AddrSpec AddrProofs BigIntModel BigIntSpec BigIntProofs CellModel ChunkModel ChunkSpec ChunkProofs DictModel CurrencyModel AbiModel AbiSpec AbiProofs AbiProofs2 AbiProofs4
  CallModel CallSpec.
From Verif Require ShardProps.
Local Open Scope N_scope.

(** ** Types *)
Lemma pty_eqb_eq a b : pty_eqb a b = true <-> a = b.
Proof. destruct a, b; cbn; rewrite ?N.eqb_eq; split; try congruence; try discriminate; intros [= ->]; reflexivity. Qed.
Section TyInd.
Context (P : aty -> Prop).
Context (H1 : forall n, P (TUint n)) (H2 : forall n, P (TInt n)) (H3 : forall n, P (TVarUint n)) (H4 : forall n, P (TVarInt n)) (H5 : P TBool) (H6 : P TCell) (H7 : P TAddr).
Context (H8 : P TBytes) (H9 : forall n, P (TFixedBytes n)) (H10 : P TString) (H11 : P TToken) (H12 : forall ts, Forall P ts -> P (TTuple ts)) (H13 : forall t, P t -> P (TArray t)).
Context (H14 : forall t n, P t -> P (TFixedArray t n)) (H15 : forall k t, P t -> P (TMap k t)) (H16 : forall t, P t -> P (TOpt t)) (H17 : forall t, P t -> P (TRef t)).
Fixpoint aty_nest (t : aty) : P t :=
  match t with
  | TUint n => H1 n | TInt n => H2 n | TVarUint n => H3 n | TVarInt n => H4 n | TBool => H5 | TCell => H6 | TAddr => H7 | TBytes => H8 | TFixedBytes n => H9 n | TString => H10 | TToken => H11
  | TTuple ts => H12 ts ((fix go (l : list aty) : Forall P l := match l with [] => @List.Forall_nil _ P | y :: l => @List.Forall_cons _ P y l (aty_nest y) (go l) end) ts)
  | TArray t => H13 t (aty_nest t) | TFixedArray t n => H14 t n (aty_nest t) | TMap k t => H15 k t (aty_nest t) | TOpt t => H16 t (aty_nest t) | TRef t => H17 t (aty_nest t)
  end.
End TyInd.
Lemma all2_eq {A B} (f : A -> B -> bool) (g : A -> B) l : Forall (fun x => forall y, f x y = true <-> g x = y) l -> forall r, all2 f l r = true <-> map g l = r.
Proof.
  induction 1 as [|x l H _ IH]; intros [|y r]; cbn [all2 map]; try (split; (reflexivity || discriminate)).
  rewrite andb_true_iff, H, IH. split; [intros [-> ->]; reflexivity|intros [= -> ->]; auto].
Qed.
Lemma aty_eqb_eq a : forall b, aty_eqb a b = true <-> a = b.
Proof.
  induction a using aty_nest; intros b; destruct b; cbn [aty_eqb]; try (split; [discriminate|intros [=]]);
    rewrite ?N.eqb_eq, ?Nat.eqb_eq, ?andb_true_iff, ?pty_eqb_eq, ?Nat.eqb_eq, ?IHa; try (split; (congruence || (intros [= ->]; reflexivity))); try (split; reflexivity).
  - rewrite (all2_eq aty_eqb (fun t => t) ts) by exact H. rewrite map_id. split; [intros ->; reflexivity|intros [= ->]; reflexivity].
  - split; [intros [-> ->]; reflexivity|intros [= -> ->]; auto].
  - split; [intros [-> ->]; reflexivity|intros [= -> ->]; auto].
Qed.
Lemma has_type_iff x : forall t, has_type x t = true <-> type_of x = t.
Proof.
  induction x using aval_nest; intros t'; destruct t'; cbn [has_type type_of]; try (split; [discriminate|intros [=]]);
    rewrite ?N.eqb_eq, ?andb_true_iff, ?pty_eqb_eq, ?Nat.eqb_eq, ?aty_eqb_eq, ?IHx; try (split; (congruence || (intros [= ->]; reflexivity))); try (split; reflexivity).
  - rewrite (all2_eq has_type type_of l) by exact H. split; [intros ->; reflexivity|intros [= ->]; reflexivity].
  - split; [intros [<- ->]; reflexivity|intros [= -> <-]; auto].
  - split; [intros [-> ->]; reflexivity|intros [= -> ->]; auto].
Qed.
Lemma check_types_iff l ts : check_types l ts = Ok tt <-> map type_of l = ts.
Proof.
  unfold check_types. rewrite <- (all2_eq has_type type_of l) by (apply Forall_forall; intros x _; apply has_type_iff).
  destruct (all2 has_type l ts); split; (reflexivity || discriminate).
Qed.
Lemma check_types_no l ts : map type_of l <> ts -> check_types l ts = Err InvalidData.
Proof. intros H. destruct (check_types l ts) as [[]|] eqn:E; [apply check_types_iff in E; congruence|]. unfold check_types in E. destruct (all2 _ _ _); congruence. Qed.

Section Main.
Context (fin : list bool -> list cell -> res unit) (utf8 : list N -> bool) (sorted : forall A : Type, list (pval * A) -> list (pval * A)) (valid_key : list N -> bool).
Context (Hsorted : forall A l, Permutation (sorted A l) l).
Context (v : version) (Hv : 2 <= v_major v).
Notation write := (write fin sorted v).

(** ** The bits at the front *)
Record lead (s : ser) (acc : list bool) (u : N) (l : size) : Prop := {
  l_cur : r_cur s = Size u 0; l_left : r_left s = l; l_top : top_is s (acc, []); l_len : N.of_nat (length acc) <= u; l_fits : u <= 1023 }.
Lemma lead_emit s acc u l k f a : lead s acc u l -> appends f (a, []) -> N.of_nat (length a) <= k -> u + k <= 1023 ->
  exists s', emit v (Size k 0) f s = Ok s' /\ lead s' (acc ++ a) (u + k) (ssub l (Size k 0)).
Proof.
  intros [C L T N1 N2] A La F. unfold emit, require. cbv zeta. rewrite C, L. cbn [z_bits z_refs].
  destruct (N.ltb_spec 1023 u) as [|_]; [lia|]. cbn [N.ltb orb]. destruct (N.ltb_spec (1023 - u) k) as [|_]; [lia|]. change (4 <? 0) with false. cbn [orb]. change (4 - 0 <? 0) with false. change (0 <? 0) with false.
  cbn [andb rbind r_stack r_cur r_left sadd z_bits z_refs].
  assert (match r_stack s with [] => [empty_b] | l0 => l0 end = [(acc, []) : chunk]) as -> by (destruct T as [->|[-> E]]; [reflexivity|rewrite E; reflexivity]).
  rewrite (A (acc, [])) by (split; cbn [fst snd length]; lia). cbn [fst snd length].
  destruct (Nat.ltb_spec 1023 (length acc + length a)) as [|_]; [lia|]. cbn [orb Nat.ltb Nat.leb Nat.add rbind].
  eexists. split; [reflexivity|]. constructor; cbn [r_cur r_left r_stack]; [reflexivity|reflexivity|left; reflexivity|rewrite app_length; lia|exact F].
Qed.

Lemma reserve_all l : forall s, fold_left (fun s x => reserve v x s) l s = Ser (r_cur s) (sadd (r_left s) (ssum (map (size_full v) l))) (r_stack s).
Proof.
  induction l as [|x l IH]; intros s; cbn [fold_left map].
  - change (ssum []) with zero_size. destruct s as [c [p q] st]. unfold sadd, zero_size. cbn [r_cur r_left r_stack z_bits z_refs]. rewrite !N.add_0_r. reflexivity.
  - rewrite IH. change (ssum (size_full v x :: map (size_full v) l)) with (sadd (size_full v x) (ssum (map (size_full v) l))). unfold reserve, sadd. cbn [r_cur r_left r_stack z_bits z_refs]. rewrite !N.add_assoc. reflexivity.
Qed.
Lemma ssub_sadd a b : ssub (sadd a b) a = b.
Proof. destruct a as [p q], b as [p2 q2]. unfold ssub, sadd. cbn [z_bits z_refs]. f_equal; lia. Qed.
Lemma sadd_assoc a b c : sadd a (sadd b c) = sadd (sadd a b) c.
Proof. unfold sadd. cbn [z_bits z_refs]. f_equal; lia. Qed.

(** What is written behind them. *)
Lemma lead_args s acc u tokens s' b : lead s acc u (ssum (map (size_full v) tokens)) -> acc <> [] -> all (value_ok utf8) tokens -> all (supported v) tokens ->
  foldm write tokens s = Ok s' -> finalize fin s' = Ok b ->
  exists B R, b = (acc ++ B, R) /\ forall c partial, exists s2, load_all utf8 v (map type_of tokens) true partial (Sl c B R) = Ok (tokens, s2) /\ s_bits s2 = [] /\ s_refs s2 = [].
Proof.
  intros L A V U W F.
  assert (Cl : Forall (correct fin utf8 sorted v) tokens) by (apply Forall_forall; intros x _; apply all_correct; assumption).
  destruct L as [C Lf T N1 N2]. assert (St : r_stack s = [(acc, []) : chunk]) by (destruct T as [T|[_ T]]; [exact T|unfold empty_b in T; congruence]).
  assert (B0 : Forall builder_ok (r_stack s)) by (rewrite St; constructor; [split; cbn [fst snd length]; lia|constructor]).
  destruct (seq_write fin utf8 sorted v tokens Cl V U s s' B0 W) as (us & E & (uss & -> & Fe) & _).
  assert (Sums : z_refs (usum (concat uss)) = z_refs (ssum (map (size_full v) tokens)) /\ z_bits (ssum (map (size_full v) tokens)) <= z_bits (usum (concat uss))).
  { destruct tokens as [|x l]; [inversion Fe; subst; split; [reflexivity|apply N.le_refl]|]. pose proof (enc_tuple utf8 v Hv (x :: l) uss ltac:(discriminate) Fe) as Y. split; [exact (e_refs _ _ _ _ Y)|exact (e_bits _ _ _ _ Y)]. }
  assert (P0 : placed s [[(acc, []) : chunk]] (concat uss)).
  { constructor; rewrite ?C, ?Lf; cbn [z_bits z_refs map]; try lia; try (rewrite St, cats_one; reflexivity).
    - constructor; [discriminate|constructor].
    - intros a p st' X. discriminate.
    - exact (seq_ok _ _ _ _ Fe).
    - discriminate. }
  destruct (place_all v Hv _ _ _ _ P0 E) as (st & P1 & C1). cbn [rev concat app] in C1.
  pose proof (finalize_pos _ s' st b P1 F) as Pb. rewrite C1 in Pb. destruct Pb as (g & gs & H & La & Eg & Ng). specialize (Ng ltac:(discriminate)).
  destruct g as [|a g]; [congruence|]. cbn [app] in Eg. injection Eg as -> Eg. cbn [holds] in H. destruct H as (Hb & tl & Hr & H). rewrite cats_fst in Hb. rewrite cats_snd in Hr. cbn [fst snd app] in Hb, Hr.
  exists (fst (cats g)), (snd (cats g) ++ tl). split; [destruct b; cbn [fst snd] in *; congruence|]. intros c partial.
  destruct (seq_dec utf8 v tokens uss Fe true partial (Sl c (fst (cats g)) (snd (cats g) ++ tl)) []) as (s2 & Ld & P2); [|constructor|reflexivity|].
  - rewrite app_nil_r. exists g, gs. cbn [s_bits s_refs]. split; [|auto]. cbn [holds]. split; [reflexivity|]. exists tl. split; [reflexivity|exact H].
  - exists s2. split; [exact Ld|]. apply pos_nil, P2.
Qed.

Lemma appends_uint32 id : id < 2 ^ 32 -> appends (on_bits (store_ubig 32 id)) (nbits 32 id, []).
Proof.
  intros H. apply appends_bits. intros b. unfold store_ubig. destruct (N.ltb_spec 32 (ubitsize id false)) as [G|_]; [|reflexivity].
  exfalso. assert (X : ubitsize id false <= 32).
  { apply ubitsize_fits; [apply N.size_le in H || idtac|]. 2: (cbn [fits_in]; split; [lia|apply N2Z.inj_lt in H; exact H]).
    destruct (N.eq_dec id 0) as [->|N0]; [cbn; lia|]. rewrite N.size_log2 by exact N0. apply N.log2_lt_pow2 in H; lia. }
  lia.
Qed.
Lemma write_id s acc u l id : id < 2 ^ 32 -> lead s acc u l -> u + 32 <= 1023 ->
  exists s', write (VUint 32 id) s = Ok s' /\ lead s' (acc ++ nbits 32 id) (u + 32) (ssub l (Size 32 0)).
Proof. intros Hi L F. cbn [AbiModel.write]. apply lead_emit; [exact L|apply appends_uint32, Hi|rewrite length_nbits; cbn; lia|exact F]. Qed.
Lemma size_id id : size_full v (VUint 32 id) = Size 32 0.
Proof. cbn [size_full max_short exact_short]. destruct (use_max v); reflexivity. Qed.
Lemma reserve_id id s : reserve v (VUint 32 id) s = Ser (r_cur s) (sadd (r_left s) (Size 32 0)) (r_stack s).
Proof. unfold reserve. rewrite size_id. reflexivity. Qed.
Lemma load_id id B : id < 2 ^ 32 -> load_uint 32 (nbits 32 id ++ B) = Ok (id, B).
Proof. intros H. apply load_uint_iff. split; [exact H|reflexivity]. Qed.

(** ** Internal messages *)
Lemma body_round_trip id tokens b : id < 2 ^ 32 -> all (value_ok utf8) tokens -> all (supported v) tokens -> encode_body fin sorted v id tokens = Ok b ->
  exists B R, b = (nbits 32 id ++ B, R) /\ forall c partial, decode_body utf8 v id (map type_of tokens) partial (Sl c (fst b) (snd b)) = Ok tokens.
Proof.
  intros Hi V U. unfold encode_body. rewrite reserve_all.
  set (s0 := Ser _ _ _). assert (L0 : lead s0 [] 0 (sadd (Size 32 0) (ssum (map (size_full v) tokens)))).
  { unfold s0, reserve. rewrite size_id. constructor; cbn [r_cur r_left r_stack ser_new]; [reflexivity| |right; split; reflexivity|cbn; lia|lia].
    unfold sadd, zero_size. cbn [z_bits z_refs]. reflexivity. }
  destruct (write_id s0 [] 0 _ id Hi L0 ltac:(lia)) as (s1 & -> & L1). cbn [rbind]. rewrite ssub_sadd in L1. cbn [app] in L1.
  destruct (foldm write tokens s1) as [s2|] eqn:W; cbn [rbind]; [|discriminate]. intros F.
  destruct (lead_args s1 _ _ tokens s2 b L1 ltac:(intros X; apply (f_equal (@length _)) in X; rewrite length_nbits in X; discriminate) V U W F) as (B & R & -> & D).
  exists B, R. split; [reflexivity|]. intros c partial. destruct (D c partial) as (s3 & Ld & E1 & E2). unfold decode_body, sl_bits. cbn [fst snd s_bits s_cell s_refs].
  rewrite load_id by exact Hi. cbn [rbind]. rewrite N.eqb_refl. cbn [negb]. rewrite Ld. cbn [rbind]. unfold check_remaining. rewrite E1, E2. destruct partial; reflexivity.
Qed.

(** ** Headers *)
Definition header_ok (h : hval) : Prop :=
  match h with WTime t => t < 2 ^ 64 | WExpire t => t < 2 ^ 32 | WPubkey None => True | WPubkey (Some k) => Forall byte_ok k /\ length k = 32%nat end.
Definition kind (h : hval) : htype := match h with WTime _ => HTime | WExpire _ => HExpire | WPubkey _ => HPubkey end.
Definition hsize (has_key : bool) (hs : list htype) : N := fold_right (fun h n => header_bits v has_key h + n) 0 hs.
Definition key_given (h : hval) (has_key : bool) : Prop := match h with WPubkey k => has_key = match k with Some _ => true | None => false end | _ => True end.
Lemma header_len h has_key : header_ok h -> key_given h has_key -> N.of_nat (length (header_layout h)) <= header_bits v has_key (kind h).
Proof.
  destruct h as [t|t|[k|]]; cbn [header_ok key_given header_layout kind header_bits]; intros H K; try subst has_key; rewrite ?length_nbits; try (cbn; lia).
  - destruct H as [_ H]. cbn [length]. rewrite length_bytes_bits, H. unfold key_bits. rewrite orb_true_r. cbn. lia.
  - unfold key_bits. cbn [length]. lia.
Qed.
Lemma header_appends h s has_key : header_ok h -> key_given h has_key -> 
  exists f, write_header v h s = emit v (Size (header_bits v has_key (kind h)) 0) f s /\ appends f (header_layout h, []).
Proof.
  destruct h as [t|t|[k|]]; cbn [header_ok key_given header_layout kind header_bits write_header]; intros H K; try subst has_key; eexists; (split; [reflexivity|]).
  - apply appends_un. constructor. exact H.
  - apply appends_un. constructor. exact H.
  - change (true :: bytes_bits k, []) with (capp ([true], []) (bytes_bits k, [])). apply appends_bind; [apply appends_bool; constructor|]. eapply appends_bs. constructor; apply H.
  - apply appends_bool. constructor.
Qed.
Lemma write_headers has_key hs : Forall header_ok hs -> Forall (fun h => key_given h has_key) hs -> forall s acc u l, lead s acc u l -> u + hsize has_key (map kind hs) <= 1023 ->
  exists s', foldm (write_header v) hs s = Ok s' /\ lead s' (acc ++ concat (map header_layout hs)) (u + hsize has_key (map kind hs)) (ssub l (Size (hsize has_key (map kind hs)) 0)).
Proof.
  induction hs as [|h hs IH]; intros O K s acc u l L F; cbn [foldm map concat hsize fold_right].
  - exists s. split; [reflexivity|]. rewrite app_nil_r, N.add_0_r. replace (ssub l (Size 0 0)) with l; [exact L|]. destruct l as [p q]. unfold ssub. cbn [z_bits z_refs]. f_equal; lia.
  - inversion_clear O as [|? ? Oh O']. inversion_clear K as [|? ? Kh K']. cbn [map hsize fold_right] in F. fold (hsize has_key (map kind hs)) in *.
    destruct (header_appends h s has_key Oh Kh) as (f & -> & A). pose proof (header_len h has_key Oh Kh) as Lh.
    destruct (lead_emit s acc u l _ f _ L A Lh ltac:(lia)) as (s1 & -> & L1). cbn [rbind].
    destruct (IH O' K' s1 _ _ _ L1 ltac:(lia)) as (s2 & E2 & L2). exists s2. split; [exact E2|].
    rewrite <- app_assoc in L2. replace (u + (header_bits v has_key (kind h) + hsize has_key (map kind hs))) with (u + header_bits v has_key (kind h) + hsize has_key (map kind hs)) by lia.
    replace (ssub l (Size (header_bits v has_key (kind h) + hsize has_key (map kind hs)) 0)) with (ssub (ssub l (Size (header_bits v has_key (kind h)) 0)) (Size (hsize has_key (map kind hs)) 0)); [exact L2|].
    unfold ssub. cbn [z_bits z_refs]. f_equal; lia.
Qed.
Lemma reserve_headers_eq has_key hs : forall s, fold_left (reserve_header v has_key) hs s = Ser (r_cur s) (sadd (r_left s) (Size (hsize has_key hs) 0)) (r_stack s).
Proof.
  induction hs as [|h hs IH]; intros s; cbn [fold_left hsize fold_right].
  - destruct s as [c [p q] st]. unfold sadd. cbn [r_cur r_left r_stack z_bits z_refs]. rewrite !N.add_0_r. reflexivity.
  - rewrite IH. unfold reserve_header, sadd. cbn [r_cur r_left r_stack z_bits z_refs]. fold (hsize has_key hs). f_equal. f_equal; lia.
Qed.
Lemma hsize_nodup has_key hs : NoDup hs -> hsize has_key hs <= 353.
Proof.
  intros H. assert (K : key_bits v has_key <= 257) by (unfold key_bits; destruct (_ || _); lia).
  destruct hs as [|a [|b [|c [|d hs]]]]; cbn [hsize fold_right]; [lia|..].
  - destruct a; cbn [header_bits]; lia.
  - apply list.NoDup_cons in H. destruct H as [H _]. destruct a, b; cbn [header_bits]; try lia; exfalso; apply H; left.
  - apply list.NoDup_cons in H. destruct H as [H1 H]. apply list.NoDup_cons in H. destruct H as [H2 _].
    destruct a, b, c; cbn [header_bits]; try lia; exfalso; first [apply H1; left|apply H1; right; left|apply H2; left].
  - exfalso. apply list.NoDup_cons in H. destruct H as [H1 H]. apply list.NoDup_cons in H. destruct H as [H2 H]. apply list.NoDup_cons in H. destruct H as [H3 _].
    destruct a, b, c, d; first [apply H1; left|apply H1; right; left|apply H1; right; right; left|apply H2; left|apply H2; right; left|apply H3; left].
Qed.

(** ** Reading them *)
Lemma preload_front n c a B R : (1 <= length a)%nat -> n <= N.of_nat (length a) -> preload n (Sl c (a ++ B) R) = Ok (Sl c (a ++ B) R).
Proof.
  intros L Hn. unfold preload. cbn [s_bits]. destruct (n =? 0); [reflexivity|]. destruct a as [|x a]; [cbn [length] in L; lia|]. cbn [app]. change (x :: a ++ B) with ((x :: a) ++ B). rewrite app_length.
  destruct (N.ltb_spec (N.of_nat (length (x :: a) + length B)) n); [lia|reflexivity].
Qed.
Lemma skip_front n c a B R : length a = n -> skip_bits n (Sl c (a ++ B) R) = Ok (Sl c B R).
Proof. intros <-. unfold skip_bits. cbn [s_bits s_cell s_refs]. rewrite app_length. destruct (Nat.ltb_spec (length a + length B) (length a)); [lia|]. rewrite drop_app. reflexivity. Qed.
Lemma skip_header_ok h c B R : header_ok h -> skip_header (kind h) (Sl c (header_layout h ++ B) R) = Ok (Sl c B R).
Proof.
  destruct h as [t|t|[k|]]; cbn [header_ok header_layout kind skip_header]; intros H.
  - rewrite (preload_front 64 c (nbits 64 t) B R) by (rewrite length_nbits; cbn; lia). cbn [rbind]. apply skip_front, length_nbits.
  - rewrite (preload_front 32 c (nbits 32 t) B R) by (rewrite length_nbits; cbn; lia). cbn [rbind]. apply skip_front, length_nbits.
  - destruct H as [_ H]. cbn [app]. change (true :: bytes_bits k ++ B) with ([true] ++ bytes_bits k ++ B). rewrite (preload_front 1 c [true] (bytes_bits k ++ B) R) by (cbn; lia).
    cbn [rbind]. unfold sl_bits. cbn [s_bits app load_bit rbind s_cell s_refs].
    rewrite (preload_front 256 c (bytes_bits k) B R) by (rewrite length_bytes_bits, H; cbn; lia). cbn [rbind]. apply skip_front. rewrite length_bytes_bits, H. reflexivity.
  - change ([false] ++ B) with ([false] ++ B). rewrite (preload_front 1 c [false] B R) by (cbn; lia). reflexivity.
Qed.
Lemma skip_headers_ok hs : Forall header_ok hs -> forall c B R, foldm skip_header (map kind hs) (Sl c (concat (map header_layout hs) ++ B) R) = Ok (Sl c B R).
Proof.
  induction 1 as [|h hs H _ IH]; intros c B R; cbn [foldm map concat]; [reflexivity|]. rewrite <- app_assoc, skip_header_ok by exact H. cbn [rbind]. apply IH.
Qed.
Definition key_valid (h : hval) : Prop := match h with WPubkey (Some k) => valid_key k = true | _ => True end.
Lemma load_header_ok h c B R : header_ok h -> key_valid h -> load_header valid_key (kind h) (Sl c (header_layout h ++ B) R) = Ok (h, Sl c B R).
Proof.
  destruct h as [t|t|[k|]]; cbn [header_ok header_layout kind load_header key_valid]; intros H Hk.
  - rewrite (preload_front 64 c (nbits 64 t) B R) by (rewrite length_nbits; cbn; lia). cbn [rbind]. unfold sl_bits. cbn [s_bits s_cell s_refs].
    rewrite (proj2 (load_uint_iff 64 (nbits 64 t ++ B) t B) ltac:(split; [exact H|reflexivity])). reflexivity.
  - rewrite (preload_front 32 c (nbits 32 t) B R) by (rewrite length_nbits; cbn; lia). cbn [rbind]. unfold sl_bits. cbn [s_bits s_cell s_refs].
    rewrite (proj2 (load_uint_iff 32 (nbits 32 t ++ B) t B) ltac:(split; [exact H|reflexivity])). reflexivity.
  - destruct H as [O H]. cbn [app]. change (true :: bytes_bits k ++ B) with ([true] ++ bytes_bits k ++ B). rewrite (preload_front 1 c [true] (bytes_bits k ++ B) R) by (cbn; lia).
    cbn [rbind]. unfold sl_bits. cbn [s_bits app load_bit rbind s_cell s_refs].
    rewrite (preload_front 256 c (bytes_bits k) B R) by (rewrite length_bytes_bits, H; cbn; lia). cbn [rbind s_bits s_cell s_refs].
    change (load_uint 256) with (load_uint (8 * 32)). rewrite (ShardProps.load_bytes 32 k B O H). cbn [rbind]. rewrite (ShardProps.to_be_bval 32 k O H), Hk. reflexivity.
  - rewrite (preload_front 1 c [false] B R) by (cbn; lia). reflexivity.
Qed.
Lemma load_headers_ok hs : Forall header_ok hs -> Forall key_valid hs -> forall c B R, load_headers valid_key (map kind hs) (Sl c (concat (map header_layout hs) ++ B) R) = Ok (hs, Sl c B R).
Proof.
  induction 1 as [|h hs H _ IH]; intros K c B R; cbn [load_headers map concat]; [reflexivity|]. inversion_clear K as [|? ? Kh K']. rewrite <- app_assoc, load_header_ok by assumption. cbn [rbind].
  fold (load_headers valid_key). rewrite IH by exact K'. reflexivity.
Qed.

(** ** External messages *)
Lemma w32_lt n : w32 n < 2 ^ 32.
Proof. unfold w32. apply N.mod_lt. discriminate. Qed.
Lemma call_expire_lt x now : call_ok x now -> call_expire x now < 2 ^ 32.
Proof. intros (_ & _ & H & _). unfold call_expire. destruct (x_expire x) as [t|] eqn:E; [apply H; reflexivity|apply w32_lt]. Qed.
Lemma header_value_ok x now h : call_ok x now -> header_ok (header_value x now h).
Proof.
  intros O. destruct h; cbn [header_value header_ok].
  - destruct O as (H & H1 & _). unfold call_time. destruct (x_time x) as [t|]; [apply H1; reflexivity|exact H].
  - apply call_expire_lt, O.
  - destruct O as (_ & _ & _ & H). destruct (x_pubkey x) as [k|]; [apply H; reflexivity|exact Logic.I].
Qed.
Definition given (x : call) : bool := match x_pubkey x with Some _ => true | None => false end.
Lemma header_value_key x now h : key_given (header_value x now h) (given x).
Proof. destruct h; try exact Logic.I. reflexivity. Qed.
Lemma kinds x now hs : map kind (map (header_value x now) hs) = hs.
Proof. rewrite map_map. rewrite <- (map_id hs) at 2. apply map_ext. intros []; reflexivity. Qed.
Definition front (x : call) (now : N) (hs : list htype) : list bool := concat (map header_layout (map (header_value x now) hs)).
Lemma offset_ok : exists o, offset v = Size o 0 /\ o <= 591.
Proof. unfold offset. destruct (N.eqb_spec (v_major v) 1) as [|_]; [lia|]. destruct (from_2_3 v); eexists; (split; [reflexivity|]); [vm_compute; discriminate|lia]. Qed.
Lemma foldm_map {A B S} (g : A -> B) (f : B -> S -> res S) l : forall s, foldm (fun a => f (g a)) l s = foldm f (map g l) s.
Proof. induction l as [|a l IH]; intros s; [reflexivity|]. cbn [foldm map]. destruct (f (g a) s); cbn [rbind]; [apply IH|reflexivity]. Qed.

Lemma payload_ok f x now rs e c : f_version f = v -> f_input_id f < 2 ^ 32 -> NoDup (f_headers f) -> call_ok x now -> all (value_ok utf8) (x_tokens x) -> all (supported v) (x_tokens x) ->
  build_payload fin sorted f x now rs = Ok (e, c) ->
  e = call_expire x now /\ map type_of (x_tokens x) = f_inputs f /\
  exists B R, c = Cell false ((if rs then [] else [false]) ++ front x now (f_headers f) ++ nbits 32 (f_input_id f) ++ B) R /\
    forall c partial, exists s2, load_all utf8 v (f_inputs f) true partial (Sl c B R) = Ok (x_tokens x, s2) /\ s_bits s2 = [] /\ s_refs s2 = [].
Proof.
  intros Ev Hi Nd O V U. unfold build_payload. cbv zeta. rewrite Ev. destruct (check_types (x_tokens x) (f_inputs f)) as [[]|] eqn:Ct; cbn [rbind]; [|discriminate]. apply check_types_iff in Ct.
  fold (given x). rewrite !reserve_headers_eq, !reserve_id, !reserve_all. cbn [r_cur r_left r_stack].
  destruct offset_ok as (o & -> & Ho). pose proof (hsize_nodup (given x) (f_headers f) Nd) as Hh.
  set (hb := hsize (given x) (f_headers f)) in *. set (T := ssum (map (size_full v) (x_tokens x))).
  set (s0 := Ser (Size o 0) _ []).
  assert (L0 : lead s0 [] o (sadd (Size hb 0) (sadd (Size 32 0) T))).
  { constructor; cbn [r_cur r_left r_stack s0]; [reflexivity| |right; split; reflexivity|cbn; lia|lia]. unfold sadd, zero_size. cbn [z_bits z_refs]. f_equal; lia. }
  assert (L1 : exists s1 o1, (if rs then Ok s0 else write (if v_major v =? 1 then VCell (Cell false [] []) else VBool false) (reserve v (if v_major v =? 1 then VCell (Cell false [] []) else VBool false) s0)) = Ok s1 /\ o1 <= 592 /\
            lead s1 (if rs then [] else [false]) o1 (sadd (Size hb 0) (sadd (Size 32 0) T))).
  { destruct rs; [exists s0, o; split; [reflexivity|]; split; [lia|exact L0]|]. destruct (N.eqb_spec (v_major v) 1) as [|_]; [lia|]. cbn [AbiModel.write].
    assert (L0' : lead (reserve v (VBool false) s0) [] o (sadd (Size 1 0) (sadd (Size hb 0) (sadd (Size 32 0) T)))).
    { destruct L0 as [A1 A2 A3 A4 A5]. assert (Sb : size_full v (VBool false) = Size 1 0) by (cbn [size_full max_short exact_short]; destruct (use_max v); reflexivity).
      constructor; [exact A1| |exact A3|exact A4|exact A5]. unfold reserve. rewrite Sb. cbn [r_left]. rewrite A2. unfold sadd. cbn [z_bits z_refs]. f_equal; lia. }
    destruct (lead_emit _ [] o _ 1 (store_bool false) [false] L0' (appends_bool false _ (bool_intro false)) ltac:(cbn; lia) ltac:(lia)) as (s1 & E1 & L1). exists s1, (o + 1). split; [exact E1|]. split; [lia|].
    rewrite ssub_sadd in L1. exact L1. }
  destruct L1 as (s1 & o1 & E1 & Ho1 & L1).
  rewrite E1. cbn [rbind].
  rewrite (foldm_map (header_value x now) (write_header v)).
  destruct (write_headers (given x) (map (header_value x now) (f_headers f))) with (s := s1) (acc := if rs then [] else [false]) (u := o1) (l := sadd (Size hb 0) (sadd (Size 32 0) T)) as (s2 & -> & L2).
  { apply Forall_forall. intros h Hin. apply in_map_iff in Hin. destruct Hin as (t & <- & _). apply header_value_ok, O. }
  { apply Forall_forall. intros h Hin. apply in_map_iff in Hin. destruct Hin as (t & <- & _). apply header_value_key. }
  { exact L1. }
  { rewrite kinds. fold hb. lia. }
  rewrite kinds in L2. fold hb in L2. rewrite ssub_sadd in L2. cbn [rbind].
  destruct (write_id s2 _ _ _ (f_input_id f) Hi L2 ltac:(lia)) as (s3 & -> & L3). rewrite ssub_sadd in L3. cbn [rbind].
  destruct (foldm write (x_tokens x) s3) as [s4|] eqn:W; cbn [rbind]; [|discriminate]. destruct (finalize fin s4) as [b|] eqn:F; cbn [rbind]; [|discriminate].
  destruct (build fin b) as [c'|] eqn:Eb; cbn [rbind]; [|discriminate]. apply build_ok in Eb. subst c'. intros [= <- <-].
  assert (Ne : ((if rs then [] else [false]) ++ concat (map header_layout (map (header_value x now) (f_headers f)))) ++ nbits 32 (f_input_id f) <> []).
  { intros X. apply (f_equal (@length _)) in X. rewrite !app_length, length_nbits in X. cbn [length] in X. lia. }
  destruct (lead_args s3 _ _ (x_tokens x) s4 b L3 Ne V U W F) as (B & R & -> & D).
  split; [reflexivity|]. split; [exact Ct|]. exists B, R. split; [unfold chunk_cell, front; cbn [fst snd]; rewrite <- !app_assoc; reflexivity|]. rewrite <- Ct. exact D.
Qed.

Lemma skip_signature_ok sig c B R : signature_ok sig -> skip_signature (Sl c (signature_layout sig ++ B) R) = Ok (Sl c B R).
Proof.
  intros H. unfold skip_signature, sl_bits. destruct sig as [s|]; cbn [signature_layout app s_bits load_bit rbind s_cell s_refs]; [|reflexivity].
  destruct (H s eq_refl) as [_ L]. apply skip_front. rewrite length_bytes_bits, L. reflexivity.
Qed.
(** Reading a body whose front is as it should be. *)
Lemma decode_ok f x now sig B R c partial : f_version f = v -> f_input_id f < 2 ^ 32 -> call_ok x now -> signature_ok sig ->
  (forall c partial, exists s2, load_all utf8 v (f_inputs f) true partial (Sl c B R) = Ok (x_tokens x, s2) /\ s_bits s2 = [] /\ s_refs s2 = []) ->
  decode_external_input utf8 f partial (Sl c (signature_layout sig ++ front x now (f_headers f) ++ nbits 32 (f_input_id f) ++ B) R) = Ok (x_tokens x).
Proof.
  intros Ev Hi O Hs D. unfold decode_external_input. rewrite Ev. destruct (N.eqb_spec (v_major v) 1) as [|_]; [lia|]. rewrite skip_signature_ok by exact Hs. cbn [rbind].
  rewrite <- (kinds x now (f_headers f)) at 1. unfold front. rewrite skip_headers_ok; [|apply Forall_forall; intros h Hin; apply in_map_iff in Hin; destruct Hin as (t & <- & _); apply header_value_ok, O].
  cbn [rbind]. unfold sl_bits. cbn [s_bits s_cell s_refs]. rewrite load_id by exact Hi. cbn [rbind]. rewrite N.eqb_refl. cbn [negb].
  destruct (D c partial) as (s2 & -> & E1 & E2). cbn [rbind]. unfold check_remaining. rewrite E1, E2. destruct partial; reflexivity.
Qed.
Lemma fill_ok u sig c : 2 <= v_major (ub_version u) -> signature_ok sig -> c_exotic (ub_payload u) = false -> fill_signature fin u sig = Ok c ->
  c = Cell false (signature_layout sig ++ c_bits (ub_payload u)) (c_refs (ub_payload u)).
Proof.
  intros Hu Hs X. unfold fill_signature. destruct (N.eqb_spec (v_major (ub_version u)) 1) as [|_]; [lia|].
  assert (E : forall b, match sig with Some sig => let? b := store_bool true empty_b in store_bs sig b | None => store_bool false empty_b end = Ok b -> b = (signature_layout sig, [])).
  { intros b. destruct sig as [s|]; cbn [signature_layout].
    - destruct (store_bool true empty_b) as [b1|] eqn:E1; cbn [rbind]; [|discriminate]. injection E1 as <-. intros E. apply store_bs_ok in E. exact E.
    - intros [= <-]. reflexivity. }
  destruct (match sig with Some _ => _ | None => _ end) as [b|]; cbn [rbind]; [|discriminate]. rewrite (E b eq_refl). clear E.
  unfold as_slice. rewrite X. cbn [rbind]. unfold s_chunk. cbn [s_bits s_refs].
  destruct (putc _ _) as [b2|] eqn:E2; cbn [rbind]; [|discriminate]. intros Eb. apply build_ok in Eb. subst c.
  unfold putc, put, putr in E2. cbn [fst snd] in E2. destruct (_ <? _)%nat; cbn [rbind] in E2; [discriminate|]. destruct (_ <? _)%nat; cbn [rbind] in E2; [discriminate|]. injection E2 as <-. reflexivity.
Qed.
Lemma build_input_inv f x now addr u : f_version f = v -> build_input_ext fin sorted f x now addr = Ok u ->
  ub_version u = v /\ build_payload fin sorted f x now true = Ok (ub_expire u, ub_payload u) /\
  (if from_2_3 v then exists a bits, addr = Some a /\ on_bits (store_std a) empty_b = Ok bits /\ c_exotic (ub_payload u) = false /\ ub_signed u = Cell false (fst bits ++ c_bits (ub_payload u)) (snd bits ++ c_refs (ub_payload u))
   else ub_signed u = ub_payload u).
Proof.
  intros Ev. unfold build_input_ext. rewrite Ev. destruct (build_payload fin sorted f x now true) as [[e p]|]; cbn [rbind]; [|discriminate].
  destruct (from_2_3 v); cbn [rbind].
  - destruct addr as [a|]; cbn [rbind]; [|discriminate]. destruct (on_bits (store_std a) empty_b) as [b|] eqn:Ea; cbn [rbind]; [|discriminate].
    unfold as_slice. destruct (c_exotic p) eqn:X; cbn [rbind]; [discriminate|]. unfold s_chunk. cbn [s_bits s_refs].
    destruct (putc _ b) as [b2|] eqn:E2; cbn [rbind]; [|discriminate]. destruct (build fin b2) as [c|] eqn:Eb; cbn [rbind]; [|discriminate]. apply build_ok in Eb. intros [= <-]. cbn [ub_version ub_expire ub_payload ub_signed].
    split; [reflexivity|]. split; [reflexivity|]. exists a, b. split; [reflexivity|]. split; [exact Ea|]. split; [exact X|]. subst c.
    unfold putc, put, putr in E2. cbn [fst snd] in E2. destruct (_ <? _)%nat; cbn [rbind] in E2; [discriminate|]. destruct (_ <? _)%nat; cbn [rbind] in E2; [discriminate|]. injection E2 as <-. reflexivity.
  - intros [= <-]. split; [reflexivity|]. split; reflexivity.
Qed.
End Main.
