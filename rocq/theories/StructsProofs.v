(** * The fields and the structures have their layouts *)
From Verif Require Import Err BitsProofs IntModel IntProofs NumModel NumSpec NumProofs NumProps CodecProofs AddrSpec CurrencyModel CurrencySpec CellModel ChunkModel LazyModel ChunkSpec ChunkProofs LayoutProofs
  DeriveModel DeriveSpec DeriveProofs StructsModel StructsSpec.
Local Open Scope N_scope.

(** ** Fields *)
Lemma lawful_uint w : lawful (uint_k w) (uint_w w).
Proof.
  constructor; cbn [uint_w exact_w w_ok w_write w_read w_bits w_refs uint_k c_store c_load].
  - intros a H. eexists. constructor. exact H.
  - intros a x H. apply appends_un, H.
  - apply reads_un.
  - auto.
  - intros a x [v H]. cbn [fst]. rewrite length_nbits. lia.
  - intros a x [v H]. cbn. lia.
Qed.
Lemma lawful_int w : (0 < w)%nat -> lawful (int_k w) (int_w w).
Proof.
  intros W. constructor; cbn [int_w exact_w w_ok w_write w_read w_bits w_refs int_k c_store c_load].
  - intros a H. eexists. split; [exact H|reflexivity].
  - intros a x [_ ->]. rewrite <- as_unsigned_bits. apply appends_un. constructor. apply as_unsigned_lt.
  - intros b z r. unfold load_un, from_bits. destruct b as [bits refs]. cbn [fst snd]. pose proof (load_int_iff w bits z) as E.
    destruct (load_uint w bits) as [[v bs]|e]; cbn [rbind] in *.
    + split.
      * intros [= <- <-]. destruct (proj1 (E bs W) eq_refl) as [I ->]. eexists. split; [split; [exact I|reflexivity]|]. unfold capp. cbn [fst snd app]. reflexivity.
      * intros (x & [I ->] & Eb). destruct r as [rb rr]. unfold capp in Eb. cbn [fst snd app] in Eb. injection Eb as -> ->. pose proof (proj2 (E rb W) (conj I eq_refl)) as H. injection H as -> ->. reflexivity.
    + split; [discriminate|]. intros (x & [I ->] & Eb). destruct r as [rb rr]. unfold capp in Eb. cbn [fst snd app] in Eb. injection Eb as -> ->. pose proof (proj2 (E rb W) (conj I eq_refl)) as H. discriminate.
  - auto.
  - intros a x [_ ->]. cbn [fst]. unfold int_bits. rewrite length_nbits. lia.
  - intros a x [_ ->]. cbn. lia.
Qed.
Lemma lawful_nonzero w : lawful (nonzero_k w) (nonzero_w w).
Proof.
  pose proof (lawful_uint w) as L. constructor; cbn [nonzero_w such_w w_ok w_write w_read w_bits w_refs nonzero_k c_store c_load].
  - intros a [H Z]. destruct (law_ok _ _ L a H) as (x & Hx). exists x. auto.
  - intros a x [_ H]. exact (law_store _ _ L _ _ H).
  - eapply reads_equiv; [|eapply reads_bind; [apply reads_un|intros x; apply (reads_if (x =? 0)); [apply reads_err|apply reads_ret]]].
    intros a x. unfold then_c. cbn [uint_w exact_w w_read]. split.
    + intros (a' & y & z & U & C & ->). destruct (N.eqb_spec a' 0); [destruct C|]. destruct C as [<- ->]. rewrite capp_nil. auto.
    + intros [Z U]. exists a, x, ([], []). split; [exact U|]. destruct (N.eqb_spec a 0); [contradiction|]. split; [split; reflexivity|symmetry; apply capp_nil].
  - intros a x [Z H]. auto.
  - intros a x [_ H]. exact (law_bits _ _ L _ _ H).
  - intros a x [_ H]. exact (law_refs _ _ L _ _ H).
Qed.
Lemma lawful_bool : lawful bool_k bool_w.
Proof.
  constructor; cbn [bool_w exact_w w_ok w_write w_read w_bits w_refs bool_k c_store c_load].
  - intros a _. eexists. constructor.
  - intros a x H. apply appends_bool, H.
  - apply reads_bool.
  - auto.
  - intros a x []. cbn. lia.
  - intros a x []. cbn. lia.
Qed.
Lemma lawful_bytes n : lawful (bytes_k n) (bytes_w n).
Proof.
  constructor; cbn [bytes_w exact_w w_ok w_write w_read w_bits w_refs bytes_k c_store c_load].
  - intros a [F L]. eexists. constructor; assumption.
  - intros a x H. exact (appends_bs n _ _ H).
  - apply reads_bs.
  - auto.
  - intros a x [bs F L]. cbn [fst]. rewrite length_bytes_bits. lia.
  - intros a x [bs F L]. cbn. lia.
Qed.
Lemma lawful_cell : lawful cell_k ref_w.
Proof.
  constructor; cbn [ref_w exact_w w_ok w_write w_read w_bits w_refs cell_k c_store c_load].
  - intros a _. eexists. constructor.
  - intros a x []. apply appends_ref.
  - apply reads_ref.
  - auto.
  - intros a x []. cbn. lia.
  - intros a x []. cbn. lia.
Qed.
Lemma lawful_lazy : lawful lazy_k lazy_w.
Proof.
  pose proof lawful_cell as L. constructor; cbn [lazy_w such_w w_ok w_write w_read w_bits w_refs lazy_k c_store c_load].
  - intros a [H Z]. destruct (law_ok _ _ L a H) as (x & Hx). exists x. auto.
  - intros a x [_ H]. exact (law_store _ _ L _ _ H).
  - eapply reads_equiv; [|eapply (reads_bind _ (fun x c => let? x := lazy_from_raw false x in Ok (x, c))); [apply reads_ref|intros x; apply (reads_ext (fun c => if c_exotic x then Err UnexpectedExoticCell else Ok (x, c)) _); [unfold lazy_from_raw; destruct (c_exotic x); reflexivity|apply (reads_if (c_exotic x)); [apply reads_err|apply reads_ret]]]].
    intros a x. unfold then_c. cbn [ref_w exact_w w_read]. split.
    + intros (a' & y & z & U & C & ->). destruct (c_exotic a') eqn:E; [destruct C|]. destruct C as [<- ->]. rewrite capp_nil. auto.
    + intros [Z U]. exists a, x, ([], []). split; [exact U|]. rewrite Z. split; [split; reflexivity|symmetry; apply capp_nil].
  - intros a x [Z H]. auto.
  - intros a x [_ H]. exact (law_bits _ _ L _ _ H).
  - intros a x [_ H]. exact (law_refs _ _ L _ _ H).
Qed.
Lemma lawful_opt {A} (c : codec A) l : lawful c l -> lawful (opt_k c) (maybe_w l).
Proof.
  intros L. constructor; cbn [maybe_w w_ok w_write w_read w_bits w_refs opt_k c_store c_load].
  - intros [a|] H; [destruct (law_ok _ _ L a H) as (x & Hx)|]; eexists; constructor; exact Hx.
  - intros a x H. eapply appends_opt; [|exact H]. exact (law_store _ _ L).
  - apply reads_opt. exact (law_load _ _ L).
  - intros a x [|b y H]; constructor. exact (law_same _ _ L _ _ H).
  - intros a x [|b y H]; unfold capp; cbn [fst app length]; [lia|]. pose proof (law_bits _ _ L _ _ H). lia.
  - intros a x [|b y H]; unfold capp; cbn [snd app length]; [lia|]. exact (law_refs _ _ L _ _ H).
Qed.
Lemma lawful_dict : lawful dict_k dict_w.
Proof.
  pose proof (lawful_opt cell_k ref_w lawful_cell) as L.
  constructor; cbn [dict_w exact_w w_ok w_write w_read w_bits w_refs dict_k c_store c_load].
  - intros a _. apply (law_ok _ _ L). destruct a; exact Logic.I.
  - intros a x H. apply appends_dict, H.
  - apply reads_dict.
  - auto.
  - exact (law_bits _ _ L).
  - exact (law_refs _ _ L).
Qed.
Lemma var_exists k v : v <= vk_max k -> exists bits, var_uint_bits (N.to_nat (vk_len_bits k)) v bits.
Proof.
  intros H. assert (L : v < 2 ^ vk_width k).
  { assert (vk_max k < 2 ^ vk_width k) by (destruct k; vm_compute; reflexivity). lia. }
  exists (nbits (N.to_nat (vk_len_bits k)) (vk_len k v) ++ nbits (N.to_nat (8 * vk_len k v)) v), (vk_len k v). split; [exact (vk_len_shortest k v L)|]. split; [|reflexivity].
  rewrite N2Nat.id, vk_bytes_lt. apply (vk_len_le k v L) in H. lia.
Qed.
Lemma lawful_var k lb : N.to_nat (vk_len_bits k) = lb -> lawful (var_k k) (var_w lb).
Proof.
  intros <-. constructor; cbn [var_w w_ok w_write w_read w_bits w_refs var_k c_store c_load].
  - intros a H. destruct (var_exists k a) as (bits & B); [|exists (bits, []); constructor; exact B].
    rewrite vk_max_eq. rewrite N2Nat.id in H. rewrite vk_bytes_lt in H. replace (vk_bytes k + 1 - 1) with (vk_bytes k) in H by lia.
    rewrite N.pow_mul_r in H. change (2 ^ 8) with 256 in H. lia.
  - intros a x H. apply appends_vk. exact H.
  - apply reads_vk.
  - intros a x H. apply vk_loose. exact H.
  - intros a x [v bits H]. cbn [fst]. apply var_bits_length in H as H'. destruct H' as (n & Sn & Ln). rewrite Ln.
    destruct H as (n' & Sn' & Hn & _). rewrite (shortest_unique _ _ _ Sn Sn').
    rewrite Nat.mul_comm. enough (n' <= N.of_nat (2 ^ N.to_nat (vk_len_bits k) - 1)) by lia.
    assert (E : N.of_nat (2 ^ N.to_nat (vk_len_bits k)) = 2 ^ vk_len_bits k) by (destruct k; reflexivity). rewrite N2Nat.id in Hn. lia.
  - intros a x [v bits H]. cbn. lia.
Qed.
Lemma lawful_small k : lawful (small_k k) (uint_w (N.to_nat (sk_bits k))).
Proof.
  pose proof (lawful_uint (N.to_nat (sk_bits k))) as L. constructor; try exact (law_ok _ _ L); try exact (law_same _ _ L); try exact (law_bits _ _ L); try exact (law_refs _ _ L).
  - cbn [uint_w exact_w w_write small_k c_store]. intros a x [v H]. rewrite N2Nat.id in H. apply appends_bits. intros b.
    unfold store_sk, sk_valid. assert (M : sk_max k + 1 = 2 ^ sk_bits k) by (destruct k; reflexivity). destruct (N.leb_spec v (sk_max k)); [|lia]. reflexivity.
  - cbn [uint_w exact_w w_read small_k c_load]. eapply reads_equiv; [|apply (reads_bits _ (fun v bits => v < 2 ^ sk_bits k /\ bits = nbits (N.to_nat (sk_bits k)) v))].
    + intros a x. split; [intros [v bits [H ->]]; constructor; rewrite N2Nat.id; exact H|intros [v H]; constructor; rewrite N2Nat.id in H; auto].
    + intros b a r. rewrite C51_load. split; [intros [H ->]; eexists; split; [split; [exact H|reflexivity]|reflexivity]|intros (x & [H ->] & ->); auto].
Qed.
Lemma lawful_currency : lawful currency_k currency_w.
Proof.
  constructor; cbn [currency_w w_ok w_write w_read w_bits w_refs currency_k c_store c_load].
  - intros [t d] H. cbn [cc_tokens] in H. destruct (var_exists Tokens t) as (bits & B); [rewrite vk_max_eq; change (256 ^ vk_bytes Tokens) with (2 ^ 120); lia|].
    destruct (law_ok _ _ lawful_dict d Logic.I) as (y & Hy). exists (capp (bits, []) y). constructor; [constructor; exact B|exact Hy].
  - intros a x H. apply appends_cc, H.
  - apply reads_cc.
  - intros a x [t d y z Hy Hz]. constructor; [|exact Hz]. exact (vk_loose Tokens t y Hy).
  - intros a x [t d y z Hy Hz]. unfold capp. cbn [fst]. rewrite app_length. pose proof (law_bits _ _ (lawful_var Tokens 4 eq_refl) t y Hy) as B1. pose proof (law_bits _ _ lawful_dict d z Hz) as B2. cbn in B1, B2. lia.
  - intros a x [t d y z Hy Hz]. unfold capp. cbn [snd]. rewrite app_length. pose proof (law_refs _ _ (lawful_var Tokens 4 eq_refl) t y Hy) as B1. pose proof (law_refs _ _ lawful_dict d z Hz) as B2. cbn in B1, B2. lia.
Qed.

(** ** Structures *)
Record same_layout {A} (l m : layout A) : Prop := Same_layout {
  sl_ok : forall a, w_ok m a -> w_ok l a;
  sl_write : forall a x, w_write l a x <-> w_write m a x;
  sl_read : forall a x, w_read l a x <-> w_read m a x;
  sl_bits : (w_bits l <= w_bits m)%nat;
  sl_refs : (w_refs l <= w_refs m)%nat
}.
Lemma lawful_same {A} (c : codec A) l m : same_layout l m -> lawful c l -> lawful c m.
Proof.
  intros S L. constructor.
  - intros a H. destruct (law_ok _ _ L a (sl_ok _ _ S a H)) as (x & Hx). exists x. apply S, Hx.
  - intros a x H. apply (law_store _ _ L). apply S, H.
  - eapply reads_equiv; [exact (sl_read _ _ S)|exact (law_load _ _ L)].
  - intros a x H. apply S, (law_same _ _ L), S, H.
  - intros a x H. etransitivity; [apply (law_bits _ _ L a), S, H|exact (sl_bits _ _ S)].
  - intros a x H. etransitivity; [apply (law_refs _ _ L a), S, H|exact (sl_refs _ _ S)].
Qed.
(** The fields one after another. *)
Fixpoint fields_w (l : list field) : laws l -> layout (vals l) :=
  match l return laws l -> layout (vals l) with
  | [] => fun _ => end_w
  | f :: l => fun w => seq_w (fst w) (fields_w l (snd w))
  end.
Lemma fields_w_ok l : forall w v, w_ok (fields_w l w) v -> all_ok l w v.
Proof. induction l as [|f l IH]; intros w v H; [exact Logic.I|]. destruct H as [H1 H2]. split; [exact H1|apply IH, H2]. Qed.
Lemma fields_w_write l : forall w v x, fields_c (@w_write) None l w v x <-> w_write (fields_w l w) v x.
Proof.
  induction l as [|f l IH]; intros w v x; [reflexivity|]. cbn [fields_c fields_w seq_w w_write present]. split.
  - intros (y & z & -> & Hz & Hy). exists y, z. split; [reflexivity|]. split; [exact Hy|apply IH, Hz].
  - intros (y & z & -> & Hy & Hz). exists y, z. split; [reflexivity|]. split; [apply IH, Hz|exact Hy].
Qed.
Lemma fields_w_read l : forall w v x, fields_c (@w_read) None l w v x <-> w_read (fields_w l w) v x.
Proof.
  induction l as [|f l IH]; intros w v x; [reflexivity|]. cbn [fields_c fields_w seq_w w_read present]. split.
  - intros (y & z & -> & Hz & Hy). exists y, z. split; [reflexivity|]. split; [exact Hy|apply IH, Hz].
  - intros (y & z & -> & Hy & Hz). exists y, z. split; [reflexivity|]. split; [apply IH, Hz|exact Hy].
Qed.
Lemma fields_w_bits l : forall w, w_bits (fields_w l w) = sum_bits l w.
Proof. induction l as [|f l IH]; intros w; [reflexivity|]. cbn. rewrite IH. reflexivity. Qed.
Lemma fields_w_refs l : forall w, w_refs (fields_w l w) = sum_refs l w.
Proof. induction l as [|f l IH]; intros w; [reflexivity|]. cbn. rewrite IH. reflexivity. Qed.
Lemma lawful_plain l valid (P : vals l -> Prop) w : (forall v, valid v = true <-> P v) -> all_lawful l w -> lawful (derived (Struct NoTag l valid)) (such_w P (fields_w l w)).
Proof.
  intros V L. eapply lawful_same; [|apply (lawful_struct (Struct NoTag l valid) w Logic.I L)].
  constructor; cbn [such_w struct_layout w_ok w_write w_read w_bits w_refs s_fields s_tags s_valid tag_bits Nat.add].
  - intros v [H1 H2]. split; [apply fields_w_ok, H1|apply V, H2].
  - intros v x. unfold struct_write. cbn [s_fields s_tags s_valid]. rewrite fields_w_write, V. reflexivity.
  - intros v x. unfold struct_read. cbn [s_fields s_tags s_valid]. rewrite fields_w_read, V. reflexivity.
  - rewrite fields_w_bits. lia.
  - rewrite fields_w_refs. lia.
Qed.
Lemma lawful_tagged n t l valid (P : vals l -> Prop) w : t < 2 ^ N.of_nat n -> (forall v, valid v = true <-> P v) -> all_lawful l w ->
  lawful (derived (Struct (OneTag (Tag n t)) l valid)) (such_w P (tag_w n t (fields_w l w))).
Proof.
  intros T V L. eapply lawful_same; [|apply (lawful_struct (Struct (OneTag (Tag n t)) l valid) w T L)].
  constructor; cbn [such_w tag_w struct_layout w_ok w_write w_read w_bits w_refs s_fields s_tags s_valid tag_bits t_bits Nat.add].
  - intros v [H1 H2]. split; [apply fields_w_ok, H1|apply V, H2].
  - intros v x. unfold struct_write. cbn [s_fields s_tags s_valid]. rewrite V. setoid_rewrite fields_w_write. reflexivity.
  - intros v x. unfold struct_read. cbn [s_fields s_tags s_valid]. rewrite V. setoid_rewrite fields_w_read. reflexivity.
  - rewrite fields_w_bits. lia.
  - rewrite fields_w_refs. lia.
Qed.
Lemma such_always {A} (l : layout A) : same_layout (such_w (fun _ => True) l) l.
Proof. constructor; cbn [such_w w_ok w_write w_read w_bits w_refs]; auto; intros; split; tauto. Qed.
Lemma lawful_plain_of l w : all_lawful l w -> lawful (derived (struct_of NoTag l)) (fields_w l w).
Proof. intros L. eapply lawful_same; [apply such_always|]. apply lawful_plain; [|exact L]. intros v. split; reflexivity. Qed.
Lemma lawful_tagged_of n t l w : t < 2 ^ N.of_nat n -> all_lawful l w -> lawful (derived (struct_of (OneTag (Tag n t)) l)) (tag_w n t (fields_w l w)).
Proof. intros T L. eapply lawful_same; [apply such_always|]. apply lawful_tagged; [exact T| |exact L]. intros v. split; reflexivity. Qed.

(** [b] is the layout of the fields [l]. *)
Definition fits (l : list field) (b : layout (vals l)) : Prop := exists w, all_lawful l w /\ b = fields_w l w.
Lemma fits_nil : fits [] end_w.
Proof. exists tt. split; [exact Logic.I|reflexivity]. Qed.
Lemma fits_cons f l a b : lawful (f_codec f) a -> fits l b -> fits (f :: l) (seq_w a b).
Proof. intros L (w & W & ->). exists (a, w). split; [split; assumption|reflexivity]. Qed.
Lemma fits_valid l b valid P : fits l b -> (forall v, valid v = true <-> P v) -> lawful (derived (Struct NoTag l valid)) (such_w P b).
Proof. intros (w & W & ->) V. apply lawful_plain; assumption. Qed.
Lemma fits_tagged_valid n t l b valid P : fits l b -> t < 2 ^ N.of_nat n -> (forall v, valid v = true <-> P v) -> lawful (derived (Struct (OneTag (Tag n t)) l valid)) (such_w P (tag_w n t b)).
Proof. intros (w & W & ->) T V. apply lawful_tagged; assumption. Qed.
Lemma fits_plain l b : fits l b -> lawful (derived (struct_of NoTag l)) b.
Proof. intros (w & W & ->). apply lawful_plain_of; assumption. Qed.
Lemma fits_tagged n t l b : fits l b -> t < 2 ^ N.of_nat n -> lawful (derived (struct_of (OneTag (Tag n t)) l)) (tag_w n t b).
Proof. intros (w & W & ->) T. apply lawful_tagged_of; assumption. Qed.

Create HintDb layouts discriminated.
#[export] Hint Resolve lawful_uint lawful_nonzero lawful_bool lawful_bytes lawful_cell lawful_lazy lawful_dict lawful_currency lawful_opt : layouts.
#[export] Hint Extern 1 (lawful (int_k _) _) => apply lawful_int; apply Nat.ltb_lt; reflexivity : layouts.
#[export] Hint Extern 1 (lawful (var_k _) _) => apply lawful_var; reflexivity : layouts.
#[export] Hint Extern 1 (lawful (small_k ?k) _) => exact (lawful_small k) : layouts.
Ltac field_of := cbv [u8 u16 u32 u64 i8 i32 nz32 bool' hash tokens var56 uint12 ref lazy dict cc sub plain f_codec]; cbv [hash_w tokens_w]; first [solve [eauto 4 with layouts] | struct_by]
with fields := repeat (apply fits_cons; [field_of|]); (apply fits_nil)
with struct_by := first [apply fits_plain; fields | apply fits_tagged; [fields|reflexivity]].
