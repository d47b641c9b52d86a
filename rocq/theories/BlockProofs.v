(** * Blocks and shard states are written and read in their layouts *)
From Verif Require Import Err BitsProofs IntModel NumModel CellModel DictModel ChunkModel LazyModel ShardModel ShardSpec ShardProofs CurrencyModel CurrencySpec ChunkSpec ChunkProofs
  DeriveModel DeriveSpec StructsModel StructsSpec StructsProofs DeriveProps CasesSpec CasesProofs TxModel TxProofs ParamsSpec ParamsProofs BlockModel BlockSpec.
Local Open Scope N_scope.

(** ** More about reading *)
(** Two loaders that differ in their errors only. *)
Definition okp {A} (r : res A) : option A := match r with Ok a => Some a | Err _ => None end.
Lemma okp_ok {A} (r s : res A) a : okp r = okp s -> r = Ok a <-> s = Ok a.
Proof. destruct r, s; cbn; intros [=]; split; intros [=]; congruence. Qed.
Lemma reads_okp {A} (l l' : chunk -> res (A * chunk)) L : (forall c, okp (l' c) = okp (l c)) -> reads_layout l L -> reads_layout l' L.
Proof. intros E H b a r. rewrite (okp_ok _ _ _ (E b)). apply H. Qed.
Definition tag_l {A} n t (l : chunk -> res (A * chunk)) (b : chunk) : res (A * chunk) := let? (u, b) := load_un n b in if negb (u =? t) then Err InvalidTag else l b.
Lemma reads_tag_l {A} n t (l : chunk -> res (A * chunk)) w : t < 2 ^ N.of_nat n -> reads_layout l (w_read w) -> reads_layout (tag_l n t l) (w_read (tag_w n t w)).
Proof.
  intros T H b a r. unfold tag_l. cbn [tag_w w_read]. split.
  - destruct (load_un n b) as [[u b']|] eqn:E; [|discriminate]. cbn [rbind]. destruct (N.eqb_spec u t) as [->|]; [|discriminate]. cbn [negb]. intros X. apply (reads_un n) in E. destruct E as (y & Y & ->). inversion Y; subst.
    apply H in X. destruct X as (z & Z & ->). exists (capp (nbits n t, []) z). split; [exists z; auto|apply capp_assoc].
  - intros (x & (y & -> & Y) & ->). rewrite <- capp_assoc, (reads_back _ _ t (nbits n t, []) _ (reads_un n)) by (constructor; exact T). cbn [rbind]. rewrite N.eqb_refl. cbn [negb]. exact (reads_back _ _ _ _ _ H Y).
Qed.
Definition dep_l {A B} (f : chunk -> res (A * chunk)) (g : A -> chunk -> res (B * chunk)) (b : chunk) : res ((A * B) * chunk) :=
  let? (x, b) := f b in let? (y, b) := g x b in Ok ((x, y), b).
Lemma reads_dep {A B} (f : chunk -> res (A * chunk)) (g : A -> chunk -> res (B * chunk)) l m bits refs :
  reads_layout f (w_read l) -> (forall a, reads_layout (g a) (w_read (m a))) -> reads_layout (dep_l f g) (w_read (dep_w l m bits refs)).
Proof.
  intros F G b [x y] r. unfold dep_l. cbn [dep_w w_read fst snd]. split.
  - destruct (f b) as [[x' b1]|] eqn:E1; [|discriminate]. cbn [rbind]. destruct (g x' b1) as [[y' b2]|] eqn:E2; [|discriminate]. cbn [rbind]. intros [= <- <- <-].
    apply F in E1. apply G in E2. destruct E1 as (u & U & ->), E2 as (v & V & ->). exists (capp u v). split; [exists u, v; auto|apply capp_assoc].
  - intros (c & (u & v & -> & U & V) & ->). rewrite <- capp_assoc, (reads_back _ _ _ _ _ F U). cbn [rbind]. rewrite (reads_back _ _ _ _ _ (G x) V). reflexivity.
Qed.
Lemma reads_when {A} f (l : chunk -> res (A * chunk)) w : reads_layout l (w_read w) -> reads_layout (load_if f l) (w_read (when_w f w)).
Proof.
  intros H b o r. unfold load_if. cbn [when_w w_read]. destruct f.
  - split.
    + destruct (l b) as [[a b']|] eqn:E; [|discriminate]. cbn [rbind]. intros [= <- <-]. apply H in E. destruct E as (x & X & ->). exists x. auto.
    + intros (x & X & ->). destruct o as [a|]; [|destruct X; discriminate]. destruct X as [_ X]. rewrite (reads_back _ _ _ _ _ H X). reflexivity.
  - split.
    + intros [= <- <-]. exists ([], []). rewrite nil_capp. auto.
    + intros (x & X & ->). destruct o as [a|]; [destruct X; discriminate|]. destruct X as [_ ->]. rewrite nil_capp. reflexivity.
Qed.
(** A value read by way of another one, some values being refused. *)
Lemma reads_view {A B} (k : chunk -> res (B * chunk)) (l : chunk -> res (A * chunk)) (f : A -> B) (g : B -> A) (ok : A -> bool) (P : A -> Prop) (w : layout B) :
  reads_layout k (w_read w) -> (forall b, okp (l b) = okp (let? (v, b) := k b in if ok (g v) then Ok (g v, b) else Err Panic)) ->
  (forall v x, w_read w v x -> f (g v) = v /\ (ok (g v) = true -> P (g v))) -> (forall a, P a -> g (f a) = a /\ ok a = true) -> reads_layout l (w_read (such_w P (as_w f w))).
Proof.
  intros K E FG GF b a r. rewrite (okp_ok _ _ _ (E b)). cbn [such_w as_w w_read]. split.
  - destruct (k b) as [[v b']|] eqn:Ek; [|discriminate]. cbn [rbind]. destruct (ok (g v)) eqn:O; [|discriminate]. intros [= <- <-]. apply K in Ek. destruct Ek as (x & X & ->). exists x. destruct (FG v x X) as [-> Q]. auto.
  - intros (x & (Pa & X) & ->). rewrite (reads_back _ _ _ _ _ K X). cbn [rbind]. destruct (GF a Pa) as [-> ->]. reflexivity.
Qed.
Lemma reads_same {A B} (k : chunk -> res (B * chunk)) (l : chunk -> res (A * chunk)) (f : A -> B) (g : B -> A) (w : layout B) :
  reads_layout k (w_read w) -> (forall b, okp (l b) = okp (let? (v, b) := k b in Ok (g v, b))) -> (forall v x, w_read w v x -> f (g v) = v) -> (forall a, g (f a) = a) -> reads_layout l (w_read (as_w f w)).
Proof.
  intros K E FG GF b a r. rewrite (okp_ok _ _ _ (E b)). cbn [as_w w_read]. split.
  - destruct (k b) as [[v b']|] eqn:Ek; [|discriminate]. cbn [rbind]. intros [= <- <-]. apply K in Ek. destruct Ek as (x & X & ->). exists x. rewrite (FG v x X). auto.
  - intros (x & X & ->). rewrite (reads_back _ _ _ _ _ K X). cbn [rbind]. rewrite GF. reflexivity.
Qed.
(** The outcomes of two chains of steps. *)
Ltac runs := repeat (cbn [rbind okp negb]; try reflexivity;
  match goal with
  | |- context [rbind ?e _] => lazymatch e with rbind _ _ => fail | (if _ then _ else _) => fail | _ => let p := fresh "p" in destruct e as [p|]; [lazymatch type of p with (_ * _)%type => destruct p | _ => idtac end|] end
  | |- context [if negb ?c then _ else _] => lazymatch c with true => fail | false => fail | _ => destruct c end
  | |- context [if ?c then _ else _] => lazymatch c with true => fail | false => fail | negb _ => fail | _ => destruct c end
  end).

Lemma proper_when {A} f (l : layout A) : proper l -> proper (when_w f l).
Proof.
  intros P. constructor; cbn [when_w w_ok w_write w_read w_bits w_refs].
  - intros [a|] H; [destruct H as [-> H]; destruct (pr_ok _ P a H) as (x & X); exists x; auto|exists ([], []); auto].
  - intros [a|] x [E H]; [split; [exact E|exact (pr_same _ P _ _ H)]|auto].
  - intros [a|] x [E H]; [exact (pr_bits _ P _ _ H)|subst; cbn; lia].
  - intros [a|] x [E H]; [exact (pr_refs _ P _ _ H)|subst; cbn; lia].
Qed.
Lemma proper_dep {A B} (l : layout A) (m : A -> layout B) bits refs : proper l -> (forall a, proper (m a) /\ (w_bits (m a) <= bits)%nat /\ (w_refs (m a) <= refs)%nat) -> proper (dep_w l m bits refs).
Proof.
  intros P Q. constructor; cbn [dep_w w_ok w_write w_read w_bits w_refs].
  - intros [a b] [H1 H2]. cbn [fst snd] in *. destruct (pr_ok _ P _ H1) as (x & X), (pr_ok _ (proj1 (Q a)) _ H2) as (y & Y). exists (capp x y), x, y. auto.
  - intros [a b] x (y & z & -> & Y & Z). exists y, z. split; [reflexivity|]. split; [exact (pr_same _ P _ _ Y)|exact (pr_same _ (proj1 (Q a)) _ _ Z)].
  - intros [a b] x (y & z & -> & Y & Z). cbn [fst snd capp] in *. rewrite app_length. pose proof (pr_bits _ P _ _ Y). pose proof (pr_bits _ (proj1 (Q a)) _ _ Z). destruct (Q a) as (_ & ? & ?). lia.
  - intros [a b] x (y & z & -> & Y & Z). cbn [fst snd capp] in *. rewrite app_length. pose proof (pr_refs _ P _ _ Y). pose proof (pr_refs _ (proj1 (Q a)) _ _ Z). destruct (Q a) as (_ & ? & ?). lia.
Qed.
Lemma appends_when {A} f (l : layout A) s (o : option A) x : (forall a y, w_write l a y -> appends (s a) y) -> w_write (when_w f l) o x -> appends (store_if s o) x.
Proof. intros S. destruct o as [a|]; cbn [when_w w_write store_if]; intros [E W]; [exact (S _ _ W)|subst; apply appends_nil]. Qed.

(** ** Shards and identifiers of blocks *)
Lemma signed_word v : v < 2 ^ 32 -> (- 2 ^ 31 <= as_signed 32 v < 2 ^ 31)%Z /\ nbits 32 (as_unsigned 32 (as_signed 32 v)) = nbits 32 v.
Proof.
  intros H. pose proof (CodecProofs.load_int_iff 32 (nbits 32 v ++ []) (as_signed 32 v) [] (Nat.lt_0_succ 31)) as E. rewrite load_uint_nbits in E by exact H. cbn [rbind] in E.
  destruct (proj1 E eq_refl) as [I B]. rewrite !app_nil_r in B. rewrite <- CodecProofs.as_unsigned_bits in B. split; [exact I|symmetry; exact B].
Qed.
Lemma load_shard_any wc p rest r : is_path p -> (- 2 ^ 31 <= wc < 2 ^ 31)%Z -> length (p ++ rest) = 64%nat ->
  load_shard ((nbits 8 (N.of_nat (length p)) ++ nbits 32 (as_unsigned 32 wc) ++ p ++ rest) ++ r) = Ok (shard_at wc p, r).
Proof.
  unfold is_path. intros Hp Hw Lx. rewrite <- !app_assoc. unfold load_shard.
  rewrite load_uint_nbits by (change (2 ^ N.of_nat 8) with 256; lia). cbn [rbind].
  destruct (N.ltb_spec MAX_SPLIT_DEPTH (N.of_nat (length p))) as [L|_]; [unfold MAX_SPLIT_DEPTH in L; lia|].
  rewrite load_uint_nbits by apply (IntProofs.as_unsigned_lt 32). cbn [rbind].
  pose proof (load_uint_nbits 64 (bval (p ++ rest)) r) as E. rewrite nbits_bval' in E by exact Lx. rewrite <- app_assoc in E. rewrite E.
  2:{ pose proof (bval_lt (p ++ rest)) as B. rewrite Lx in B. exact B. }
  cbn [rbind]. rewrite tag_of_len by lia. rewrite mask_load by (assumption || lia). rewrite take_app. unfold shard_at. do 3 f_equal. apply IntProofs.as_signed_unsigned; [lia|exact Hw].
Qed.
Lemma lawful_shard : lawful shard_k shard_w.
Proof.
  apply lawful_intro; cbn [shard_w w_ok w_write w_read w_bits w_refs].
  - intros s (wc & p & E & P & W). eexists _, wc, p. eauto.
  - intros s x (wc & p & -> & P & W & ->). cbn [shard_k c_store]. apply appends_bits. intros b. rewrite store_shard_ok by exact P.
    assert (Ls : length (shard_bits wc p) = 104%nat) by (unfold shard_bits, is_path in *; rewrite !app_length, !length_nbits, length_zeros; lia). fold (shard_bits wc p). unfold put. rewrite Ls. reflexivity.
  - eapply reads_equiv; [|apply (reads_bits load_shard (fun s x => exists wc p rest, s = shard_at wc p /\ is_path p /\ (- 2 ^ 31 <= wc < 2 ^ 31)%Z /\ length (p ++ rest) = 64%nat /\
      x = nbits 8 (N.of_nat (length p)) ++ nbits 32 (as_unsigned 32 wc) ++ p ++ rest))].
    + intros s x. split; [intros [s' y (wc & p & rest & E & P & W & L & ->)]; exists wc, p, rest; auto|intros (wc & p & rest & E & P & W & L & ->); constructor; exists wc, p, rest; auto].
    + intros b s r. split.
      * intros H. apply load_shard_ok in H. destruct H as (n & wc & x & -> & Hn & Hw & Lx & ->). destruct (signed_word wc Hw) as [R E]. eexists. split.
        { exists (as_signed 32 wc), (take n x), (drop n x). split; [reflexivity|]. split; [unfold is_path; rewrite take_length; lia|]. split; [exact R|]. rewrite take_drop. split; [exact Lx|reflexivity]. }
        rewrite take_length, Lx, E. replace (n `min` 64)%nat with n by lia. rewrite <- !app_assoc. reflexivity.
      * intros (x & (wc & p & rest & -> & P & W & L & ->) & ->). apply load_shard_any; assumption.
  - intros s x (wc & p & E & P & W & ->). exists wc, p, (zeros (64 - length p)). unfold is_path in P. rewrite app_length, length_zeros. repeat split; auto; try apply W; lia.
  - intros s x (wc & p & E & P & W & ->). unfold is_path in P. cbn [fst snd length]. rewrite !app_length, !length_nbits, length_zeros. lia.
Qed.
Definition block_id_of (v : shard * (N * (list N * (list N * unit)))) : block_id := let '(a, (b, (c, (d, _)))) := v in BlockId a b c d.
Lemma lawful_block_id : lawful block_id_k block_id_w.
Proof.
  apply proper_lawful.
  - unfold block_id_w, u32_w, hash_w. propers. exact (lawful_proper _ _ lawful_shard).
  - intros [s n r f] x. cbn [block_id_w as_w w_write bi_shard bi_seqno bi_root bi_file]. intros F. unpack2 F. subst. rewrite capp_nil.
    apply (appends_ext (fun b => let? b := c_store shard_k s b in let? b := store_un 32 n b in let? b := store_bs r b in store_bs f b)).
    + intros [b rs] _. cbn [block_id_k shard_k c_store]. unfold on_bits, store_un, store_bs, store_block_id, on_bits. cbn [fst snd bi_shard bi_seqno bi_root bi_file].
      destruct (store_shard s b) as [b1|]; cbn [rbind fst snd]; [|reflexivity]. destruct (put (nbits 32 n) b1) as [b2|]; cbn [rbind fst snd]; [|reflexivity]. destruct (put (bytes_bits r) b2) as [b3|]; cbn [rbind fst snd]; reflexivity.
    + apply appends_bind; [by_law lawful_shard|]. apply appends_bind; [by_law (lawful_uint 32)|]. apply appends_bind; [by_law (lawful_bytes 32)|]. by_law (lawful_bytes 32).
  - apply (reads_same (pair_l (c_load shard_k) (pair_l (load_un 32) (pair_l (load_bs 32) (pair_l (load_bs 32) unit_l)))) _ _ block_id_of).
    + apply reads_pair; [exact (law_load _ _ lawful_shard)|]. unfold u32_w, hash_w. parts.
    + intros [b rs]. cbn [block_id_k shard_k c_load]. unfold pair_l, unit_l, load_un, load_bs, load_block_id, from_bits. cbn [fst snd]. change (8 * 32)%nat with 256%nat.
      destruct (load_shard b) as [[s b1]|]; [|reflexivity]. cbn [rbind fst snd]. destruct (load_uint 32 b1) as [[n b2]|]; [|reflexivity]. cbn [rbind fst snd]. destruct (load_uint 256 b2) as [[r b3]|]; [|reflexivity]. cbn [rbind fst snd].
      destruct (load_uint 256 b3) as [[f b4]|]; reflexivity.
    + intros (a & b & c & d & []) x _. reflexivity.
    + intros []. reflexivity.
Qed.
#[export] Hint Resolve lawful_shard lawful_block_id : layouts.

(** ** Block info *)
Lemma lawful_version : lawful (derived global_version) global_version_w.
Proof. struct_by. Qed.
Lemma lawful_bref : lawful (derived block_ref) block_ref_w.
Proof. struct_by. Qed.
#[export] Hint Resolve lawful_version lawful_bref : layouts.
Lemma has_odd f : has f 1 = N.odd f.
Proof. unfold has. change 1 with (2 ^ 1 - 1) at 1. change (2 ^ 1 - 1) with (N.ones 1). rewrite N.land_ones. change (2 ^ 1) with 2. rewrite <- N.bit0_mod, <- N.bit0_odd. destruct (N.testbit f 0); reflexivity. Qed.
Definition unpack8 (v : N) : bool * (bool * (bool * (bool * (bool * (bool * (bool * (bool * unit))))))) :=
  (has v 128, (has v 64, (has v 32, (has v 16, (has v 8, (has v 4, (has v 2, (has v 1, tt)))))))).
Definition pack8 (a b c d e f g h : bool) : N :=
  N.lor (N.lor (N.lor (N.lor (N.lor (N.lor (N.lor (N.shiftl (b2n a) 7) (N.shiftl (b2n b) 6)) (N.shiftl (b2n c) 5)) (N.shiftl (b2n d) 4)) (N.shiftl (b2n e) 3)) (N.shiftl (b2n f) 2)) (N.shiftl (b2n g) 1)) (b2n h).
Lemma flags8 v x : uint_c 8 v x -> exists a b c d e f g h, v = pack8 a b c d e f g h /\ x = ([a; b; c; d; e; f; g; h], []).
Proof.
  intros [u U]. assert (E : u = bval (nbits 8 u)) by (rewrite bval_nbits_small by exact U; reflexivity). pose proof (length_nbits 8 u) as L. revert E L. generalize (nbits 8 u). intros l -> L. clear U.
  do 8 (destruct l as [|? l]; [discriminate L|]). destruct l; [|discriminate L]. eexists _, _, _, _, _, _, _, _. split; [|reflexivity]. destruct b, b0, b1, b2, b3, b4, b5, b6; reflexivity.
Qed.
Lemma pack8_bits a b c d e f g h : nbits 8 (pack8 a b c d e f g h) = [a; b; c; d; e; f; g; h] /\ pack8 a b c d e f g h < 256 /\ unpack8 (pack8 a b c d e f g h) = (a, (b, (c, (d, (e, (f, (g, (h, tt)))))))).
Proof. destruct a, b, c, d, e, f, g, h; repeat split; reflexivity. Qed.
Lemma split256 p f : f < 256 -> (p * 256 + f) / 256 = p /\ (p * 256 + f) mod 256 = f.
Proof. intros H. split; [rewrite N.div_add_l, N.div_small by lia; lia|rewrite N.add_comm, N.mod_add, N.mod_small by lia; reflexivity]. Qed.
Definition flags_8_8_l (b : chunk) : res ((bool * (bool * (bool * (bool * (bool * (bool * (bool * (bool * (N * unit))))))))) * chunk) :=
  let? (w, b) := load_un 16 b in let pf := N.shiftr w 8 in
  Ok ((has pf 128, (has pf 64, (has pf 32, (has pf 16, (has pf 8, (has pf 4, (has pf 2, (has pf 1, (w8 w, tt))))))))), b).
Lemma reads_flags_8_8 : reads_layout flags_8_8_l (w_read info_flags_w).
Proof.
  eapply reads_equiv; [|apply (reads_map (load_un 16) (fun w => let pf := N.shiftr w 8 in (has pf 128, (has pf 64, (has pf 32, (has pf 16, (has pf 8, (has pf 4, (has pf 2, (has pf 1, (w8 w, tt))))))))))), reads_un].
  intros (a & b & c & d & e & f & g & h & fl & []) x. unfold info_flags_w. split.
  - intros (v & E & V). apply (uint_split 8 8) in V. destruct V as (y & z & -> & Y & Z). change (2 ^ N.of_nat 8) with 256 in *. cbn zeta in E. rewrite N.shiftr_div_pow2 in E. change (2 ^ 8) with 256 in E. unfold w8 in E.
    destruct (flags8 _ _ Y) as (a' & b' & c' & d' & e' & f' & g' & h' & Ev & ->). rewrite Ev in E. pose proof (proj2 (proj2 (pack8_bits a' b' c' d' e' f' g' h'))) as U. unfold unpack8 in U. injection U as U1 U2 U3 U4 U5 U6 U7 U8.
    rewrite U1, U2, U3, U4, U5, U6, U7, U8 in E. injection E as -> -> -> -> -> -> -> -> ->.
    change (capp ([a'; b'; c'; d'; e'; f'; g'; h'], []) z) with (capp ([a'], []) (capp ([b'], []) (capp ([c'], []) (capp ([d'], []) (capp ([e'], []) (capp ([f'], []) (capp ([g'], []) (capp ([h'], []) z)))))))).
    do 8 (eexists _, _; split; [reflexivity|]; split; [constructor|]). exists z, ([], []). rewrite capp_nil. split; [reflexivity|]. split; [exact Z|reflexivity].
  - intros F. unpack2 F. subst. repeat match goal with H : w_read bool_w _ _ |- _ => destruct H end. rewrite capp_nil. match goal with H : w_read (uint_w 8) _ _ |- _ => inversion H; subst; clear H end.
    match goal with H : fl < _ |- _ => rename H into F; change (2 ^ N.of_nat 8) with 256 in F end.
    match goal with |- context [capp ([?p1], []) (capp ([?p2], []) (capp ([?p3], []) (capp ([?p4], []) (capp ([?p5], []) (capp ([?p6], []) (capp ([?p7], []) (capp ([?p8], []) _)))))))] =>
      destruct (pack8_bits p1 p2 p3 p4 p5 p6 p7 p8) as (B1 & B2 & B3); set (p := pack8 p1 p2 p3 p4 p5 p6 p7 p8) in * end. unfold unpack8 in B3. injection B3 as U1 U2 U3 U4 U5 U6 U7 U8.
    destruct (split256 p fl F) as [D M].
    exists (p * 256 + fl). cbn zeta. unfold w8. rewrite N.shiftr_div_pow2. change (2 ^ 8) with 256. rewrite D, M, U1, U2, U3, U4, U5, U6, U7, U8. split; [reflexivity|].
    apply (uint_split 8 8). change (2 ^ N.of_nat 8) with 256. rewrite D, M. exists (nbits 8 p, []), (nbits 8 fl, []). rewrite B1. split; [reflexivity|]. split; [rewrite <- B1|]; constructor; assumption.
Qed.
Lemma appends_flags_8_8 a b c d e f g h fl z : w_write (uint_w 8) fl z ->
  appends (store_un 16 (pack8 a b c d e f g h * 256 + fl)) (capp ([a], []) (capp ([b], []) (capp ([c], []) (capp ([d], []) (capp ([e], []) (capp ([f], []) (capp ([g], []) (capp ([h], []) z)))))))).
Proof.
  intros [v F]. change (2 ^ N.of_nat 8) with 256 in F. destruct (pack8_bits a b c d e f g h) as (B1 & B2 & _). set (p := pack8 a b c d e f g h) in *. apply appends_un. apply (uint_split 8 8). change (2 ^ N.of_nat 8) with 256.
  destruct (split256 p v F) as [D M]. rewrite D, M.
  exists (nbits 8 p, []), (nbits 8 v, []). rewrite B1. split; [reflexivity|]. split; [rewrite <- B1|]; constructor; assumption.
Qed.
Definition flags_t := (bool * (bool * (bool * (bool * (bool * (bool * (bool * (bool * (N * unit)))))))))%type.
Definition head_t := (N * (flags_t * (N * (N * (shard * (N * (N * (N * (N * (N * (N * (N * unit))))))))))))%type.
Definition tail_t := (option version * (option cell * (cell * (option cell * unit))))%type.
Definition head_l : chunk -> res (head_t * chunk) := pair_l (load_un 32) (pair_l flags_8_8_l (pair_l (load_un 32) (pair_l (load_un 32) (pair_l (c_load shard_k) (pair_l (load_un 32) (pair_l (load_un 64) (pair_l (load_un 64)
  (pair_l (load_un 32) (pair_l (load_un 32) (pair_l (load_un 32) (pair_l (load_un 32) unit_l))))))))))).
Definition tail_l (h : head_t) : chunk -> res (tail_t * chunk) :=
  let '(_, ((master, (_, (_, (_, (_, (_, (_, (vert, (flags, _))))))))), _)) := h in
  pair_l (load_if (has flags 1) (c_load (derived global_version))) (pair_l (load_if master (load_lazy false)) (pair_l load_ref (pair_l (load_if vert (load_lazy false)) unit_l))).
Definition info_tail_of (h : head_t) : layout tail_t := let '(_, ((master, (_, (_, (_, (_, (_, (_, (vert, (flags, _))))))))), _)) := h in info_tail_w flags master vert.
Definition info_of (v : head_t * tail_t) : block_info :=
  let '((ver, ((ma, (am, (bs, (as', (ws, (wm, (kb, (pv, (fl, _))))))))), (sq, (vs, (sh, (ut, (sl, (el, (vl, (ca, (mr, (pk, _)))))))))))), (sw, (mref, (pref, (vref, _))))) := v in
  BlockInfo ver am bs as' ws wm kb fl sq vs sh ut sl el vl ca mr pk (match sw with Some s => s | None => no_version end) mref pref vref.
Definition info_ok (i : block_info) : bool := negb (in_seqno i =? 0) && negb (in_vert_seqno i <? b2n (some (in_prev_vert_ref i))).
Ltac by_law L := match goal with H : w_write _ _ ?y |- appends _ ?y => exact (law_store _ _ L _ _ H) end.
Ltac one := first [by_law (lawful_uint 8) | by_law (lawful_uint 16) | by_law (lawful_uint 32) | by_law (lawful_uint 64) | by_law lawful_bool | by_law (lawful_bytes 32) | by_law lawful_shard
  | by_law lawful_lazy | by_law lawful_cell | by_law lawful_dict | by_law lawful_currency | by_law (lawful_int 32 (Nat.lt_0_succ 31)) | by_law (lawful_opt _ _ lawful_lazy) | by_law (lawful_opt _ _ lawful_bref)
  | match goal with H : w_write (when_w _ _) _ ?y |- appends _ ?y => apply (appends_when _ lazy_w store_ref _ _ (law_store _ _ lawful_lazy) H) end ].
Lemma proper_info_any : proper block_info_any_w.
Proof.
  apply proper_as, proper_tag, proper_dep.
  - unfold info_head_w, info_flags_w, u32_w, u64_w. propers. exact (lawful_proper _ _ lawful_shard).
  - intros (ver & (ma & am & bs & as' & ws & wm & kb & pv & fl & []) & r). split; [|split; vm_compute; lia]. unfold info_tail_w. propers; apply proper_when; first [exact (lawful_proper _ _ lawful_version)|exact (lawful_proper _ _ lawful_lazy)].
Qed.
Definition store_head (i : block_info) (b : chunk) : res chunk :=
  let? b := store_un 32 (in_version i) b in
  let? b := store_un 16 (packed i * 256 + in_flags i) b in
  let? b := store_un 32 (in_seqno i) b in
  let? b := store_un 32 (in_vert_seqno i) b in
  let? b := c_store shard_k (in_shard i) b in
  let? b := store_un 32 (in_utime i) b in
  let? b := store_un 64 (in_start_lt i) b in
  let? b := store_un 64 (in_end_lt i) b in
  let? b := store_un 32 (in_vlist i) b in
  let? b := store_un 32 (in_catchain i) b in
  let? b := store_un 32 (in_min_ref i) b in
  store_un 32 (in_prev_key i) b.
Definition store_tail (i : block_info) (b : chunk) : res chunk :=
  let? b := (if has (in_flags i) 1 then c_store (derived global_version) (in_software i) b else Ok b) in
  let? b := store_if store_ref (in_master_ref i) b in
  let? b := store_ref (in_prev_ref i) b in
  store_if store_ref (in_prev_vert_ref i) b.
Lemma packed_eq i : packed i = pack8 (some (in_master_ref i)) (in_after_merge i) (in_before_split i) (in_after_split i) (in_want_split i) (in_want_merge i) (in_key_block i) (some (in_prev_vert_ref i)).
Proof. reflexivity. Qed.
Lemma store_head_ok i y : w_write info_head_w (info_head i) y -> appends (store_head i) y.
Proof.
  unfold info_head_w, info_head. intros F. unpack2 F. subst. unfold store_head. rewrite capp_nil. apply appends_bind; [one|]. apply appends_bind.
  - rewrite packed_eq. match goal with H : w_write info_flags_w _ _ |- _ => unfold info_flags_w, info_flags in H; unpack2 H end. subst. rewrite capp_nil. repeat match goal with H : w_write bool_w _ _ |- _ => apply bool_written in H; rewrite H; clear H end.
    apply appends_flags_8_8. assumption.
  - repeat (apply appends_bind; [one|]). one.
Qed.
Lemma store_tail_ok i z : w_write (info_tail_w (in_flags i) (some (in_master_ref i)) (some (in_prev_vert_ref i))) (info_tail i) z -> appends (store_tail i) z.
Proof.
  unfold info_tail_w, info_tail, with_software. intros G. unpack2 G. subst. unfold store_tail. rewrite capp_nil, has_odd. apply appends_bind.
  - match goal with H : w_write (when_w _ global_version_w) _ _ |- _ => cbn [when_w w_write] in H end. destruct (N.odd (in_flags i)).
    + match goal with H : true = true /\ _ |- _ => destruct H as [_ H] end. by_law lawful_version.
    + match goal with H : false = false /\ _ |- _ => destruct H as [_ ->] end. apply appends_nil.
  - apply appends_bind; [one|]. apply appends_bind; [one|]. one.
Qed.
Lemma store_info_ok i x : w_write block_info_any_w i x -> appends (store_block_info i) x.
Proof.
  cbn [block_info_any_w as_w w_write]. intros (x1 & -> & y & z & -> & F & G). cbn [fst snd] in F, G.
  apply (appends_ext (fun b => let? b := store_un 32 0x9bc7a987 b in let? b := store_head i b in store_tail i b)).
  - intros b _. unfold store_block_info, store_head, store_tail.
    do 12 (cbn [rbind]; match goal with |- context [rbind (store_un ?n ?v ?b) _] => destruct (store_un n v b); [|reflexivity] | |- context [rbind (c_store shard_k ?v ?b) _] => destruct (c_store shard_k v b); [|reflexivity] end). cbn [rbind].
    match goal with |- context [rbind (store_un ?n ?v ?b) _] => destruct (store_un n v b) end; reflexivity.
  - apply appends_bind; [apply appends_prefix; reflexivity|]. apply appends_bind; [exact (store_head_ok i y F)|exact (store_tail_ok i z G)].
Qed.
Lemma reads_info_k : reads_layout (tag_l 32 0x9bc7a987 (dep_l head_l tail_l)) (w_read (tag_w 32 0x9bc7a987 (dep_w info_head_w info_tail_of 104 3))).
Proof.
  apply reads_tag_l; [reflexivity|]. apply reads_dep.
  - unfold head_l, info_head_w, u32_w, u64_w. apply reads_pair; [apply (reads_law (uint_k _) _ (lawful_uint _))|]. apply reads_pair; [exact reads_flags_8_8|]. parts.
  - intros (ver & (ma & am & bs & as' & ws & wm & kb & pv & fl & []) & r). unfold tail_l, info_tail_of, info_tail_w. rewrite has_odd.
    apply reads_pair; [apply reads_when, (law_load _ _ lawful_version)|]. apply reads_pair; [apply reads_when, (law_load _ _ lawful_lazy)|]. apply reads_pair; [exact (law_load _ _ lawful_cell)|]. apply reads_pair; [apply reads_when, (law_load _ _ lawful_lazy)|]. exact reads_unit.
Qed.
Lemma load_info_eq b : okp (load_block_info b) = okp (let? (v, b) := tag_l 32 0x9bc7a987 (dep_l head_l tail_l) b in if info_ok (info_of v) then Ok (info_of v, b) else Err Panic).
Proof.
  unfold load_block_info, tag_l, dep_l, head_l, pair_l, unit_l, flags_8_8_l.
  destruct (load_un 32 b) as [[t b1]|]; [|reflexivity]. cbn [rbind]. destruct (negb (t =? 2613553543)); [reflexivity|].
  destruct (load_un 32 b1) as [[ver b2]|]; [|reflexivity]. cbn [rbind].
  destruct (load_un 16 b2) as [[w b3]|]; [|reflexivity]. cbn [rbind].
  destruct (load_un 32 b3) as [[sq b4]|]; [|reflexivity]. cbn [rbind].
  destruct (load_un 32 b4) as [[vs b5]|]; [|destruct (sq =? 0); reflexivity]. cbn [rbind].
  destruct (c_load shard_k b5) as [[sh b6]|]; [|destruct (sq =? 0); reflexivity]. cbn [rbind].
  destruct (load_un 32 b6) as [[ut b7]|]; [|destruct (sq =? 0); reflexivity]. cbn [rbind].
  destruct (load_un 64 b7) as [[sl b8]|]; [|destruct (sq =? 0); reflexivity]. cbn [rbind].
  destruct (load_un 64 b8) as [[el b9]|]; [|destruct (sq =? 0); reflexivity]. cbn [rbind].
  destruct (load_un 32 b9) as [[vl b10]|]; [|destruct (sq =? 0); reflexivity]. cbn [rbind].
  destruct (load_un 32 b10) as [[ca b11]|]; [|destruct (sq =? 0); reflexivity]. cbn [rbind].
  destruct (load_un 32 b11) as [[mr b12]|]; [|destruct (sq =? 0); reflexivity]. cbn [rbind].
  destruct (load_un 32 b12) as [[pk b13]|]; [|destruct (sq =? 0); reflexivity]. cbn [rbind].
  unfold tail_l, pair_l, unit_l. generalize (has (w8 w) 1), (has (N.shiftr w 8) 128), (has (N.shiftr w 8) 1), (has (N.shiftr w 8) 64), (has (N.shiftr w 8) 32), (has (N.shiftr w 8) 16), (has (N.shiftr w 8) 8), (has (N.shiftr w 8) 4), (has (N.shiftr w 8) 2).
  intros fs fm fv g1 g2 g3 g4 g5 g6. unfold info_ok.
  assert (E : (if fs then c_load (derived global_version) b13 else Ok (no_version, b13)) = let? (o, b) := load_if fs (c_load (derived global_version)) b13 in Ok (match o with Some s => s | None => no_version end, b)) by (unfold load_if; destruct fs; [destruct (c_load (derived global_version) b13) as [[]|]|]; reflexivity).
  rewrite E. destruct (load_if fs (c_load (derived global_version)) b13) as [[sw b14]|]; [|destruct (sq =? 0); reflexivity]. cbn [rbind].
  destruct (load_if fm (load_lazy false) b14) as [[mref b15]|]; [|destruct (sq =? 0); reflexivity]. cbn [rbind].
  destruct (load_ref b15) as [[pref b16]|]; [|destruct (sq =? 0); reflexivity]. cbn [rbind].
  destruct (load_if fv (load_lazy false) b16) as [[vref b17]|]; [|destruct (sq =? 0); reflexivity]. cbn [rbind info_of in_seqno in_vert_seqno in_prev_vert_ref].
  destruct (sq =? 0); [reflexivity|]. destruct (vs <? b2n (some vref)); reflexivity.
Qed.
Lemma lawful_block_info : lawful block_info_k block_info_w.
Proof.
  apply proper_lawful.
  - apply proper_such, proper_info_any.
  - intros i x [_ H]. exact (store_info_ok i x H).
  - apply (reads_view _ _ (fun i => (info_head i, info_tail i)) info_of info_ok info_valid _ reads_info_k load_info_eq).
    + intros ((ver & (ma & am & bs & as' & ws & wm & kb & pv & fl & []) & sq & vs & sh & ut & sl & el & vl & ca & mr & pk & []) & sw & mref & pref & vref & []) x. intros (x1 & -> & y & z & -> & _ & G). cbn [fst snd info_tail_of] in G. unfold info_tail_w in G. unpack2 G.
      cbn [when_w w_read] in *. assert (Es : N.odd fl = some sw) by (destruct sw; tauto). assert (Em : ma = some mref) by (destruct mref; tauto). assert (Ev : pv = some vref) by (destruct vref; tauto). split.
      * unfold info_head, info_tail, info_flags, with_software, info_of. cbn [in_version in_after_merge in_before_split in_after_split in_want_split in_want_merge in_key_block in_flags in_seqno in_vert_seqno in_shard in_utime in_start_lt in_end_lt in_vlist in_catchain in_min_ref in_prev_key in_software in_master_ref in_prev_ref in_prev_vert_ref].
        rewrite Es, Em, Ev. destruct sw; reflexivity.
      * unfold info_ok, info_valid, with_software, info_of. cbn [in_flags in_seqno in_vert_seqno in_software in_prev_vert_ref]. rewrite andb_true_iff, !negb_true_iff, N.eqb_neq, N.ltb_ge, Es. intros [S V]. split; [exact S|]. split.
        -- intros HV. destruct vref; [cbn in V; lia|contradiction].
        -- destruct sw; [discriminate|reflexivity].
    + intros i (S & V & W). split.
      * clear S V. destruct i. unfold info_head, info_tail, info_flags, with_software, info_of in *. cbn in W |- *. destruct (N.odd in_flags); [reflexivity|rewrite W by reflexivity; reflexivity].
      * unfold info_ok. rewrite andb_true_iff, !negb_true_iff, N.eqb_neq, N.ltb_ge. split; [exact S|]. destruct (in_prev_vert_ref i); cbn; [|lia]. assert (in_vert_seqno i <> 0) by (apply V; discriminate). lia.
Qed.
