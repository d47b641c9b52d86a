(** * C45: which texts are identifiers *)
From Verif Require Import Err BitsProofs TextModel TextSpec TextProofs TextProofs2 AddrSpec AddrProofs3 NumSpec NumProofs NumProps ShardModel ShardSpec ShardProofs ShardProps ShardTextSpec.
Local Open Scope N_scope.

Lemma number_chars radix v s : 1 <= radix <= 36 -> number_text radix v s -> Forall (fun c => c <> 58) s.
Proof.
  intros _ (ds & cs & F & _ & _ & E). assert (C : Forall (fun c => c <> 58) cs) by (clear - F; induction F as [|d c ds cs H _ IH]; constructor; [unfold digit_text in H; lia|exact IH]).
  destruct E as [->| ->]; [exact C|constructor; [discriminate|exact C]].
Qed.
Lemma spells_chars s b : spells s b -> Forall (fun c => c <> 58) s.
Proof. induction 1 as [|c v s b H _ IH]; constructor; [|exact IH]. intros ->. apply hexdigit_val in H. discriminate. Qed.
Lemma prefix_ok wc p s : parse_prefix wc (Some p) = IOk s <-> sh_wc s = wc /\ (exists path, is_path path /\ sh_prefix s = path_prefix path /\ (wc = (-1)%Z -> path = [])) /\ number_text 16 (sh_prefix s) p.
Proof.
  unfold parse_prefix. split.
  - destruct (parse_unsigned 16 MAX64 p) as [x|] eqn:E; [|discriminate]. apply parse_unsigned_iff in E; [|lia]. destruct E as [T L]. destruct (shard_new wc x) as [s'|] eqn:Es; [|discriminate]. intros [= <-].
    apply shard_new_ok in Es; [|clear -L; revert L; unfold MAX64; lia]. destruct Es as (path & Hp & -> & -> & Hw). split; [reflexivity|]. split; [exists path; auto|exact T].
  - intros (Ew & (path & Hp & Ep & Hw) & T). rewrite Ep in T. assert (L : path_prefix path < 2 ^ 64) by (apply path_prefix_valid; exact Hp).
    rewrite (proj2 (parse_unsigned_iff 16 MAX64 p (path_prefix path) ltac:(lia)) (conj T (proj1 (N.lt_succ_r _ MAX64) L))). rewrite (proj2 (shard_new_ok wc _ (shard_at wc path) L)) by eauto 6. f_equal. destruct s as [w x]. cbn in *. subst. reflexivity.
Qed.
Lemma shard_text_ok wc p s : parse_signed 32 wc = Some (sh_wc s) /\ parse_prefix (sh_wc s) (Some p) = IOk s <-> shard_text wc p s.
Proof.
  rewrite parse_signed_iff by lia. rewrite prefix_ok. unfold shard_text, valid_shard, in_int. split.
  - intros ([T R] & _ & (path & Hp & Ep & Hw) & T2). split; [exists path; repeat split; try assumption; lia|auto].
  - intros ((path & Hp & Ep & R & Hw) & T & T2). split; [split; [exact T|lia]|]. split; [reflexivity|]. split; [eauto|exact T2].
Qed.
Lemma shard_text_chars wc p s : shard_text wc p s -> wc <> [] /\ Forall (fun c => c <> 58) wc /\ Forall (fun c => c <> 58) p.
Proof. intros (_ & T & T2). apply int_text_chars in T. destruct T as [N F]. split; [exact N|]. split; [exact F|]. eapply number_chars; [|exact T2]. lia. Qed.
(** Splitting into parts and joining them. *)
Fixpoint join (ps : list (list N)) : list N := match ps with [] => [] | [p] => p | p :: ps => p ++ 58 :: join ps end.
Lemma split_join s : s = join (split_at 58 s).
Proof.
  remember (split_at 58 s) as ps eqn:E. revert s E. induction ps as [|p ps IH]; intros s E; [destruct (split_at_inv 58 s) as (Q & _); congruence|].
  destruct (split_at_inv 58 s) as (_ & _ & I1 & I2). destruct ps as [|q r]; [apply I1; auto|]. destruct (I2 p q r (eq_sym E)) as (t & -> & Et). cbn [join]. f_equal. f_equal. apply IH. auto.
Qed.
(** C45: exactly the texts of the grammar are block identifiers. *)
Theorem C45_block_grammar s x : parse_block_id s = IOk x <-> block_text s x.
Proof.
  split.
  - unfold parse_block_id. destruct s as [|c s']; [discriminate|]. set (s := c :: s'). change COLON with 58. pose proof (split_join s) as J. destruct (split_at 58 s) as [|wc parts]; [discriminate|]. destruct (parse_signed 32 wc) as [w|] eqn:Ew; [|discriminate].
    destruct (parse_prefix w (head parts)) as [sh|] eqn:Ep; [|discriminate]. destruct parts as [|p parts]; [discriminate|]. cbn [head] in Ep. cbn [lookup list_lookup]. 
    destruct parts as [|q parts]; [discriminate|]. cbn [lookup list_lookup]. destruct (parse_unsigned 10 (2 ^ 32 - 1) q) as [n|] eqn:Eq; [|discriminate].
    destruct parts as [|r parts]; [discriminate|]. cbn [lookup list_lookup]. destruct (hex_decode_to 32 r) as [root|] eqn:Er; [|discriminate].
    destruct parts as [|f parts]; [discriminate|]. cbn [lookup list_lookup]. destruct (hex_decode_to 32 f) as [file|] eqn:Ef; [|discriminate].
    destruct parts as [|z parts]; cbn [lookup list_lookup]; [|discriminate]. intros [= <-]. exists wc, p, q, r, f. split; [rewrite J; reflexivity|]. cbn [bi_shard bi_seqno bi_root bi_file].
    apply parse_unsigned_iff in Eq; [|lia]. apply hex_decode_to_iff in Er, Ef. split; [|split; [tauto|split; [lia|split; [exact Er|exact Ef]]]].
    pose proof Ep as Ep'. apply prefix_ok in Ep'. destruct Ep' as (<- & _). apply shard_text_ok. auto.
  - intros (wc & p & q & r & f & -> & Hs & Hq & Lq & Hr & Hf). pose proof (shard_text_chars _ _ _ Hs) as (Nw & Fw & Fp). pose proof (number_chars 10 _ _ ltac:(lia) Hq) as Fq.
    pose proof (spells_chars _ _ (proj2 (proj2 Hr))) as Fr. pose proof (spells_chars _ _ (proj2 (proj2 Hf))) as Ff. unfold parse_block_id. destruct (wc ++ _) as [|c s'] eqn:E; [destruct wc; [congruence|discriminate]|]. rewrite <- E. clear E c s'.
    change COLON with 58. cbn [app]. rewrite !split_at_app, split_at_last by assumption. apply shard_text_ok in Hs. destruct Hs as [E1 E2]. rewrite E1. cbn [head]. rewrite E2. cbn [lookup list_lookup].
    assert (Eq : parse_unsigned 10 (2 ^ 32 - 1) q = Some (bi_seqno x)) by (apply parse_unsigned_iff; [lia|split; [exact Hq|lia]]). rewrite Eq. apply hex_decode_to_iff in Hr, Hf. rewrite Hr, Hf. destruct x; reflexivity.
Qed.
Print Assumptions C45_block_grammar.
(** C45: exactly the texts of the grammar, with whatever parts behind them, are shard identifiers. *)
Theorem C45_shard_grammar s x : parse_shard s = IOk x <-> exists wc prefix rest, s = wc ++ [58] ++ prefix ++ rest /\ (rest = [] \/ exists t, rest = 58 :: t) /\ shard_text wc prefix x.
Proof.
  unfold parse_shard. change COLON with 58. split.
  - destruct (split_at_inv 58 s) as (_ & _ & I1 & I2). destruct (split_at 58 s) as [|wc parts] eqn:E; [discriminate|]. destruct (parse_signed 32 wc) as [w|] eqn:Ew; [|discriminate]. destruct parts as [|p parts]; [discriminate|]. cbn [head]. intros Ep.
    destruct (I2 wc p parts eq_refl) as (t & -> & Et). exists wc, p. assert (T : shard_text wc p x) by (pose proof Ep as Ep'; apply prefix_ok in Ep'; destruct Ep' as (<- & _); apply shard_text_ok; auto).
    destruct parts as [|q parts].
    + exists []. split; [|auto]. rewrite app_nil_r. f_equal. cbn [app]. f_equal. apply (proj1 (proj2 (proj2 (split_at_inv 58 t)))). exact Et.
    + destruct (proj2 (proj2 (proj2 (split_at_inv 58 t))) _ _ _ Et) as (u & -> & _). exists (58 :: u). split; [reflexivity|]. split; [right; eauto|exact T].
  - intros (wc & p & rest & -> & R & T). destruct (shard_text_chars _ _ _ T) as (_ & Fw & Fp). apply shard_text_ok in T. destruct T as [E1 E2]. cbn [app]. rewrite split_at_app by exact Fw. destruct R as [->|(t & ->)].
    + rewrite app_nil_r, split_at_last by exact Fp. rewrite E1. exact E2.
    + rewrite split_at_app by exact Fp. rewrite E1. exact E2.
Qed.
Print Assumptions C45_shard_grammar.
(** So a text with more parts is a shard identifier as well, unlike for block identifiers. *)
Theorem C45_more_parts_refuted s t : valid_shard s -> parse_shard (show_shard s ++ [58] ++ t) = IOk s.
Proof.
  intros V. pose proof (C45_shard_text s V) as H. apply C45_shard_grammar in H. destruct H as (wc & p & rest & E & R & T). rewrite E. apply C45_shard_grammar. exists wc, p, (rest ++ [58] ++ t). rewrite <- !app_assoc. split; [reflexivity|]. split; [|exact T]. right. destruct R as [->|(u & ->)]; eauto.
Qed.
Print Assumptions C45_more_parts_refuted.
Example C45_grammar_case : valid_shard (shard_at 0 [true]) /\ parse_shard [48; 58; 43; 67; 48; 48; 48; 48; 48; 48; 48; 48; 48; 48; 48; 48; 48; 48; 48; 58; 33] = IOk (shard_at 0 [true]).
Proof. split; [exists [true]; repeat split; try (unfold is_path; cbn; lia); discriminate|vm_compute; reflexivity]. Qed.
