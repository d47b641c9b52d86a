From Verif Require Import Err Bits BitsProofs CellModel LabelModel LabelSpec.
Local Open Scope nat_scope.

(** ** Small facts about the bit-level operations *)
Lemma put_ok x b : length b + length x <= 1023 -> put x b = Ok (b ++ x).
Proof. intros H. unfold put, MAX_BITS. rewrite (proj2 (Nat.ltb_ge _ _)) by lia. reflexivity. Qed.
Lemma put_inv x b b' : put x b = Ok b' -> b' = b ++ x /\ length b' <= 1023.
Proof.
  unfold put, MAX_BITS. destruct (Nat.ltb_spec 1023 (length b + length x)); [discriminate|].
  intros [= <-]. rewrite app_length. split; [reflexivity|lia].
Qed.
Lemma put_err x b : 1023 < length b + length x -> put x b = Err CellOverflow.
Proof. intros H. unfold put, MAX_BITS. rewrite (proj2 (Nat.ltb_lt _ _)) by lia. reflexivity. Qed.

Lemma uniform_some l b : uniform l = Some b <-> l <> [] /\ l = replicate (length l) b.
Proof.
  destruct l as [|x r]; [split; [discriminate|intros [H _]; congruence]|].
  cbn [uniform length replicate]. split.
  - destruct (forallb (Bool.eqb x) r) eqn:E; [|discriminate]. intros [= ->]. split; [discriminate|]. f_equal.
    induction r as [|y r IH]; [reflexivity|]. cbn [forallb] in E. apply andb_true_iff in E. destruct E as [E1 E2].
    apply eqb_prop in E1. subst y. cbn [length replicate]. f_equal. apply IH, E2.
  - intros [_ E]. injection E as -> E. rewrite E.
    assert (H : forallb (Bool.eqb b) (replicate (length r) b) = true).
    { generalize (length r). intros n. induction n as [|n IH]; [reflexivity|]. cbn. rewrite Bool.eqb_reflx. exact IH. }
    rewrite <- E. rewrite E. rewrite H. reflexivity.
Qed.

Lemma uniform_none l : uniform l = None -> forall b, l <> [] -> l <> replicate (length l) b.
Proof. intros H b Hn E. rewrite (proj2 (uniform_some l b)) in H; [discriminate|]. split; assumption. Qed.

Lemma nbits_len w v : length (nbits w v) = w.
Proof. induction w as [|w IH]; [reflexivity|]. cbn [nbits length]. rewrite IH. reflexivity. Qed.

(** ** Width of the length field *)
Lemma size_le_iff v k : (N.size v <= k <-> v < 2 ^ k)%N.
Proof.
  split.
  - intros H. pose proof (N.size_gt v). pose proof (N.pow_le_mono_r 2 (N.size v) k ltac:(lia) H). lia.
  - intros H. destruct (N.eq_dec v 0) as [->|Hv]; [cbn; lia|].
    rewrite N.size_log2 by exact Hv. pose proof (proj1 (N.log2_lt_pow2 v k ltac:(lia)) H). lia.
Qed.

Lemma bits_for_len_width n : width_for n (bits_for_len n).
Proof.
  unfold width_for, bits_for_len. rewrite N2Nat.id. split.
  - apply size_le_iff. lia.
  - intros w' H. apply size_le_iff in H. lia.
Qed.
Lemma width_unique n a b : width_for n a -> width_for n b -> a = b.
Proof. intros [A1 A2] [B1 B2]. pose proof (A2 _ B1). pose proof (B2 _ A1). lia. Qed.

Lemma bits_for_len_le n k : (N.of_nat n < 2 ^ N.of_nat k)%N -> bits_for_len n <= k.
Proof. intros H. apply bits_for_len_width, H. Qed.
Lemma bits_for_len_10 n : n <= 1023 -> bits_for_len n <= 10.
Proof. intros H. apply bits_for_len_le. change (2 ^ N.of_nat 10)%N with 1024%N. lia. Qed.
Lemma bits_for_len_lt n r : r <= n -> (N.of_nat r < 2 ^ N.of_nat (bits_for_len n))%N.
Proof. intros H. pose proof (proj1 (bits_for_len_width n)). lia. Qed.
Lemma bits_for_len_pos n : 1 <= n -> 1 <= bits_for_len n.
Proof.
  intros H. pose proof (proj1 (bits_for_len_width n)) as W. destruct (bits_for_len n); [|lia].
  cbn in W. lia.
Qed.
Lemma bits_for_len_0 : bits_for_len 0 = 0.
Proof. reflexivity. Qed.

(** ** The canonical encoding as a function *)
Definition label_short (s : list bool) : list bool := [false] ++ replicate (length s) true ++ [false] ++ s.
Definition label_long (n : nat) (s : list bool) : list bool :=
  [true; false] ++ nbits (bits_for_len n) (N.of_nat (length s)) ++ s.
Definition label_same (n : nat) (b : bool) (k : nat) : list bool :=
  [true; true; b] ++ nbits (bits_for_len n) (N.of_nat k).

Definition label_bits (n : nat) (s : list bool) : list bool :=
  let bl := bits_for_len n in
  let r := length s in
  if (3 + bl <? 2 + bl + r) && (3 + bl <? 2 + 2 * r) then
    match uniform s with
    | Some b => label_same n b r
    | None => if 2 + 2 * r <=? 2 + bl + r then label_short s else label_long n s
    end
  else if 2 + 2 * r <=? 2 + bl + r then label_short s else label_long n s.

Lemma label_short_len s : length (label_short s) = 2 + 2 * length s.
Proof. unfold label_short. rewrite !app_length, replicate_length. cbn [length]. lia. Qed.
Lemma label_long_len n s : length (label_long n s) = 2 + bits_for_len n + length s.
Proof. unfold label_long. rewrite !app_length, nbits_len. cbn [length]. lia. Qed.
Lemma label_same_len n b k : length (label_same n b k) = 3 + bits_for_len n.
Proof. unfold label_same. rewrite !app_length, nbits_len. cbn [length]. lia. Qed.

Lemma nbits3_same b : nbits 3 (N.lor 6 (N.b2n b)) = [true; true; b].
Proof. destruct b; reflexivity. Qed.

Lemma short_tag_ok r key : 2 + 2 * r <= 1023 -> r = length key ->
  (let? b := write_hml_short_tag r [] in put key b) = Ok (label_short key).
Proof.
  intros H Hr. unfold write_hml_short_tag.
  rewrite put_ok by (cbn [length]; lia). cbn [rbind].
  rewrite put_ok by (rewrite app_length, replicate_length; cbn [length]; lia). cbn [rbind].
  rewrite put_ok by (rewrite !app_length, replicate_length; cbn [length]; lia). cbn [rbind].
  rewrite put_ok by (rewrite !app_length, replicate_length; cbn [length]; lia).
  unfold label_short. rewrite <- Hr, <- !app_assoc. reflexivity.
Qed.
Lemma long_tag_ok n r key : 2 + bits_for_len n + r <= 1023 -> r = length key ->
  (let? b := write_hml_long_tag r (bits_for_len n) [] in put key b) = Ok (label_long n key).
Proof.
  intros H Hr. unfold write_hml_long_tag.
  rewrite put_ok by (cbn [length]; lia). cbn [rbind].
  rewrite put_ok by (rewrite app_length; cbn [length]; lia). cbn [rbind].
  rewrite put_ok by (rewrite !app_length, nbits_len; cbn [length]; lia). cbn [rbind].
  rewrite put_ok by (rewrite !app_length, nbits_len; cbn [length]; lia).
  unfold label_long. rewrite <- Hr. cbn [app]. rewrite <- ?app_assoc. reflexivity.
Qed.
Lemma same_ok n b r : 3 + bits_for_len n <= 1023 ->
  write_hml_same b r (bits_for_len n) [] = Ok (label_same n b r).
Proof.
  intros H. unfold write_hml_same. rewrite nbits3_same.
  rewrite put_ok by (cbn [length]; lia). cbn [rbind].
  rewrite put_ok by (rewrite !app_length, nbits_len; cbn [length]; lia). reflexivity.
Qed.

Lemma label_bits_nil n : label_bits n [] = [false; false].
Proof.
  unfold label_bits. cbn [length]. rewrite (proj2 (Nat.ltb_ge _ _)) by lia. cbn [andb].
  rewrite (proj2 (Nat.leb_le _ _)) by lia. reflexivity.
Qed.

(** [write_label] into an empty builder writes [label_bits] or fails. *)
Lemma write_label_spec n key : length key <= n -> n <= 1023 ->
  write_label key n [] =
    if length (label_bits n key) <=? 1023 then Ok (label_bits n key) else Err InvalidData.
Proof.
  intros Hk Hn. pose proof (bits_for_len_10 n Hn) as Hb. unfold write_label.
  destruct ((n =? 0) || (length key =? 0)) eqn:E0.
  { assert (key = []) as ->.
    { apply nil_length_inv. apply orb_true_iff in E0. destruct E0 as [E|E]; apply Nat.eqb_eq in E; lia. }
    rewrite label_bits_nil. cbn [length]. reflexivity. }
  apply orb_false_iff in E0. destruct E0 as [_ E0]. apply Nat.eqb_neq in E0.
  set (bl := bits_for_len n) in *. set (r := length key) in *. cbv zeta.
  set (inline := rbind _ _).
  assert (HI : inline = if length (if 2 + 2 * r <=? 2 + bl + r then label_short key else label_long n key) <=? 1023
                        then Ok (if 2 + 2 * r <=? 2 + bl + r then label_short key else label_long n key)
                        else Err InvalidData).
  { subst inline. unfold MAX_BITS. destruct (Nat.leb_spec (2 + 2 * r) (2 + bl + r)) as [L|L].
    - rewrite (proj2 (Nat.leb_le (2 + 2 * r) 1023)) by lia. cbn [andb].
      rewrite short_tag_ok by (fold r; lia). rewrite label_short_len. fold r.
      rewrite (proj2 (Nat.leb_le _ _)) by lia. reflexivity.
    - rewrite andb_false_r. rewrite label_long_len. fold bl r.
      destruct (Nat.leb_spec (2 + bl + r) 1023) as [M|M]; [|reflexivity].
      apply (long_tag_ok n r key); [fold bl; lia|reflexivity]. }
  unfold label_bits. fold bl r.
  destruct ((3 + bl <? 2 + bl + r) && (3 + bl <? 2 + 2 * r)) eqn:Es; [|exact HI].
  destruct (uniform key) as [b|]; [|exact HI].
  rewrite label_same_len. fold bl. rewrite (proj2 (Nat.leb_le _ _)) by lia. subst bl. apply same_ok. lia.
Qed.

Lemma is_uniform_spec bit l : is_uniform bit l = true <-> l <> [] /\ l = replicate (length l) bit.
Proof.
  unfold is_uniform. destruct (uniform l) as [p|] eqn:E.
  - pose proof (proj1 (uniform_some l p) E) as [H1 H2]. split.
    + intros H. apply eqb_prop in H. subst p. split; assumption.
    + intros [_ H]. rewrite H in H2. destruct l as [|x l]; [congruence|]. cbn in H2. injection H2 as <- _. apply Bool.eqb_reflx.
  - split; [discriminate|]. intros [H1 H2]. rewrite (proj2 (uniform_some l bit)) in E; [discriminate|]. split; assumption.
Qed.

Lemma parts_uniform pfx bit rem :
  ((length pfx =? 0) || is_uniform bit pfx) && ((length rem =? 0) || is_uniform bit rem) = true <->
  uniform (pfx ++ bit :: rem) = Some bit.
Proof.
  assert (A : forall l, (length l =? 0) || is_uniform bit l = true <-> l = replicate (length l) bit).
  { intros l. rewrite orb_true_iff, Nat.eqb_eq, is_uniform_spec. destruct l as [|x l].
    - cbn. tauto.
    - split; [intros [H|[_ H]]; [discriminate|exact H]|intros H; right; split; [discriminate|exact H]]. }
  rewrite andb_true_iff, !A, uniform_some. split.
  - intros [H1 H2]. split; [destruct pfx; discriminate|].
    rewrite app_length. cbn [length]. rewrite replicate_add. cbn [replicate]. rewrite <- H1, <- H2. reflexivity.
  - intros [_ H]. rewrite app_length in H. cbn [length] in H. rewrite replicate_add in H. cbn [replicate] in H.
    apply app_inj_1 in H; [|rewrite replicate_length; reflexivity]. destruct H as [H1 H2].
    injection H2 as H2. split; assumption.
Qed.
Lemma parts_uniform_other pfx bit rem b : uniform (pfx ++ bit :: rem) = Some b -> b = bit.
Proof.
  intros H. apply uniform_some in H. destruct H as [_ H].
  assert (E : (pfx ++ bit :: rem) !! length pfx = Some bit).
  { rewrite lookup_app_r by lia. rewrite Nat.sub_diag. reflexivity. }
  rewrite H in E. apply lookup_replicate_1 in E. symmetry. apply E.
Qed.

Lemma write_label_parts_spec n pfx bit rem : length pfx + 1 + length rem <= n -> n <= 1023 ->
  write_label_parts pfx bit rem n [] =
    if length (label_bits n (pfx ++ bit :: rem)) <=? 1023
    then Ok (label_bits n (pfx ++ bit :: rem)) else Err InvalidData.
Proof.
  intros Hk Hn. pose proof (bits_for_len_10 n Hn) as Hb. unfold write_label_parts.
  rewrite (proj2 (Nat.eqb_neq n 0)) by lia. cbv zeta.
  assert (Hl : length (pfx ++ bit :: rem) = length pfx + 1 + length rem) by (rewrite app_length; cbn [length]; lia).
  set (key := pfx ++ bit :: rem) in *. rewrite <- Hl.
  set (bl := bits_for_len n) in *. set (r := length key) in *.
  set (inline := rbind _ _).
  assert (HP : forall b, (let? b := put pfx b in let? b := put [bit] b in put rem b) = put key b).
  { intros b. destruct (Nat.le_gt_cases (length b + r) 1023) as [L|L].
    - rewrite (put_ok key) by (fold r; lia). rewrite put_ok by lia. cbn [rbind].
      rewrite put_ok by (rewrite app_length; cbn [length]; lia). cbn [rbind].
      rewrite put_ok by (rewrite !app_length; cbn [length]; lia). subst key. rewrite <- !app_assoc. reflexivity.
    - rewrite (put_err key) by (fold r; lia).
      destruct (Nat.le_gt_cases (length b + length pfx) 1023) as [L1|L1]; [|rewrite put_err by lia; reflexivity].
      rewrite put_ok by lia. cbn [rbind].
      destruct (Nat.le_gt_cases (length b + length pfx + 1) 1023) as [L2|L2].
      + rewrite put_ok by (rewrite app_length; cbn [length]; lia). cbn [rbind].
        rewrite put_err by (rewrite !app_length; cbn [length]; lia). reflexivity.
      + rewrite put_err by (rewrite app_length; cbn [length]; lia). reflexivity. }
  assert (HI : inline = if length (if 2 + 2 * r <=? 2 + bl + r then label_short key else label_long n key) <=? 1023
                        then Ok (if 2 + 2 * r <=? 2 + bl + r then label_short key else label_long n key)
                        else Err InvalidData).
  { subst inline. unfold MAX_BITS. destruct (Nat.leb_spec (2 + 2 * r) (2 + bl + r)) as [L|L].
    - rewrite (proj2 (Nat.leb_le (2 + 2 * r) 1023)) by lia. cbn [andb].
      rewrite label_short_len. fold r. rewrite (proj2 (Nat.leb_le _ _)) by lia.
      etransitivity; [|apply (short_tag_ok r key); [lia|reflexivity]].
      destruct (write_hml_short_tag r []); [apply HP|reflexivity].
    - rewrite andb_false_r. rewrite label_long_len. fold bl r.
      destruct (Nat.leb_spec (2 + bl + r) 1023) as [M|M]; [|reflexivity].
      etransitivity; [|apply (long_tag_ok n r key); [fold bl; lia|reflexivity]].
      fold bl. destruct (write_hml_long_tag r bl []); [apply HP|reflexivity]. }
  unfold label_bits. fold bl r.
  destruct ((3 + bl <? 2 + bl + r) && (3 + bl <? 2 + 2 * r)) eqn:Es.
  2:{ cbn [andb]. exact HI. }
  cbn [andb]. destruct (((length pfx =? 0) || is_uniform bit pfx) && ((length rem =? 0) || is_uniform bit rem)) eqn:Eu.
  - apply parts_uniform in Eu. fold key in Eu. rewrite Eu. rewrite label_same_len. fold bl.
    rewrite (proj2 (Nat.leb_le _ _)) by lia. apply same_ok. fold bl. lia.
  - destruct (uniform key) as [b|] eqn:Ek; [|exact HI].
    pose proof (parts_uniform_other _ _ _ _ Ek). subst b. apply parts_uniform in Ek. congruence.
Qed.

(** ** Reading *)
Lemma read_unary_ones k r : read_unary (replicate k true ++ false :: r) = Ok (k, r).
Proof. induction k as [|k IH]; [reflexivity|]. cbn [replicate app read_unary]. rewrite IH. reflexivity. Qed.

Lemma take_label_app s rest : take_label (length s) (s ++ rest) = Ok (s, rest).
Proof.
  unfold take_label, skip_bits. rewrite app_length, (proj2 (Nat.ltb_ge _ _)) by lia. cbn [rbind].
  rewrite take_app, drop_app. reflexivity.
Qed.

Lemma load_uint_app k v rest : (v < 2 ^ N.of_nat k)%N -> load_uint k (nbits k v ++ rest) = Ok (v, rest).
Proof.
  intros H. unfold load_uint. rewrite app_length, nbits_len, (proj2 (Nat.ltb_ge _ _)) by lia.
  rewrite take_app_alt, drop_app_alt by (symmetry; apply nbits_len).
  rewrite bval_nbits_small by exact H. reflexivity.
Qed.

Lemma w16_len r n : r <= n -> n <= 1023 -> N.to_nat (w16 (N.of_nat r)) = r.
Proof. intros. unfold w16. rewrite N.mod_small by lia. lia. Qed.

Lemma read_label_hml n e s rest : n <= 1023 -> hml n e s -> read_label n (e ++ rest) = Ok (s, rest).
Proof.
  intros Hn H. unfold read_label. cbv zeta. destruct H as [s Hs|w s Hw Hs|w v k Hw Hk].
  - rewrite <- !app_assoc. cbn [app length]. rewrite andb_false_r. cbn [load_bit rbind negb].
    unfold read_hml_short. rewrite read_unary_ones. cbn [rbind]. apply take_label_app.
  - rewrite (width_unique n w (bits_for_len n) Hw (bits_for_len_width n)).
    rewrite <- !app_assoc. cbn [app length]. rewrite andb_false_r. cbn [load_bit rbind negb].
    unfold read_hml_long. rewrite load_uint_app by (apply bits_for_len_lt, Hs). cbn [rbind].
    rewrite (w16_len _ n) by assumption. apply take_label_app.
  - rewrite (width_unique n w (bits_for_len n) Hw (bits_for_len_width n)).
    rewrite <- !app_assoc. cbn [app length]. rewrite andb_false_r. cbn [load_bit rbind negb].
    unfold read_hml_same. cbn [load_bit rbind]. rewrite load_uint_app by (apply bits_for_len_lt, Hk). cbn [rbind].
    rewrite (w16_len _ n) by assumption. unfold MAX_BITS. rewrite Nat.min_l by lia. reflexivity.
Qed.

Lemma label_bits_hml n s : length s <= n -> hml n (label_bits n s) s.
Proof.
  intros H. unfold label_bits. cbv zeta.
  assert (A : hml n (if 2 + 2 * length s <=? 2 + bits_for_len n + length s then label_short s else label_long n s) s).
  { destruct (_ <=? _); [apply hml_short, H|apply hml_long; [apply bits_for_len_width|exact H]]. }
  destruct (_ && _); [|exact A]. destruct (uniform s) as [b|] eqn:E; [|exact A].
  apply uniform_some in E. destruct E as [_ E].
  pose proof (hml_same n (bits_for_len n) b (length s) (bits_for_len_width n) H) as G.
  rewrite <- E in G. exact G.
Qed.

Lemma read_label_bits n s rest : length s <= n -> n <= 1023 ->
  read_label n (label_bits n s ++ rest) = Ok (s, rest).
Proof. intros H Hn. apply read_label_hml; [exact Hn|apply label_bits_hml, H]. Qed.

Lemma label_bits_canonical n s : length s <= n -> hml_canonical n (label_bits n s) s.
Proof.
  intros Hs. split; [apply label_bits_hml, Hs|]. intros e' He'.
  assert (HW : forall w, width_for n w -> w = bits_for_len n)
    by (intros w Hw; apply (width_unique n); [exact Hw|apply bits_for_len_width]).
  unfold label_bits. cbv zeta.
  inversion He' as [s' H1 E1 E2|w s' Hw H1 E1 E2|w v k Hw Hk E1 E2].
  - subst s'. fold (label_short s). rewrite label_short_len.
    destruct ((3 + bits_for_len n <? 2 + bits_for_len n + length s) && (3 + bits_for_len n <? 2 + 2 * length s)) eqn:Es.
    + apply andb_true_iff in Es. rewrite !Nat.ltb_lt in Es. destruct Es as [Es1 Es2].
      destruct (uniform s); [rewrite label_same_len; lia|].
      destruct (Nat.leb_spec (2 + 2 * length s) (2 + bits_for_len n + length s)) as [L|L].
      * right. split; [rewrite label_short_len; reflexivity|left; reflexivity].
      * rewrite label_long_len. lia.
    + destruct (Nat.leb_spec (2 + 2 * length s) (2 + bits_for_len n + length s)) as [L|L].
      * right. split; [rewrite label_short_len; reflexivity|left; reflexivity].
      * rewrite label_long_len. lia.
  - subst s'. rewrite (HW _ Hw). fold (label_long n s). rewrite label_long_len.
    destruct ((3 + bits_for_len n <? 2 + bits_for_len n + length s) && (3 + bits_for_len n <? 2 + 2 * length s)) eqn:Es.
    + apply andb_true_iff in Es. rewrite !Nat.ltb_lt in Es. destruct Es as [Es1 Es2].
      destruct (uniform s); [rewrite label_same_len; lia|].
      destruct (Nat.leb_spec (2 + 2 * length s) (2 + bits_for_len n + length s)) as [L|L].
      * rewrite label_short_len. cbn [tag_rank label_short label_long app]. lia.
      * right. split; [rewrite label_long_len; reflexivity|left; reflexivity].
    + destruct (Nat.leb_spec (2 + 2 * length s) (2 + bits_for_len n + length s)) as [L|L].
      * rewrite label_short_len. cbn [tag_rank label_short label_long app]. lia.
      * right. split; [rewrite label_long_len; reflexivity|left; reflexivity].
  - rewrite (HW _ Hw). fold (label_same n v k). rewrite label_same_len. rewrite replicate_length.
    destruct ((3 + bits_for_len n <? 2 + bits_for_len n + k) && (3 + bits_for_len n <? 2 + 2 * k)) eqn:Es.
    + apply andb_true_iff in Es. rewrite !Nat.ltb_lt in Es. destruct Es as [Es1 Es2].
      rewrite (proj2 (uniform_some (replicate k v) v)).
      * right. split; [rewrite label_same_len; reflexivity|left; reflexivity].
      * rewrite replicate_length. split; [destruct k; [lia|discriminate]|reflexivity].
    + apply andb_false_iff in Es. rewrite !Nat.ltb_ge in Es.
      destruct (Nat.leb_spec (2 + 2 * k) (2 + bits_for_len n + k)) as [L|L].
      * rewrite label_short_len, replicate_length. cbn [tag_rank label_short label_same app]. lia.
      * rewrite label_long_len, replicate_length. cbn [tag_rank label_long label_same app]. lia.
Qed.

(** What [read_label] accepts. *)
Lemma read_unary_inv l k r : read_unary l = Ok (k, r) -> l = replicate k true ++ false :: r.
Proof.
  revert k r. induction l as [|[] l IH]; intros k r; cbn [read_unary]; [discriminate| |].
  - destruct (read_unary l) as [[k' r']|]; cbn [rbind]; [|discriminate]. intros [= <- <-].
    cbn [replicate app]. f_equal. apply IH. reflexivity.
  - intros [= <- <-]. reflexivity.
Qed.
Lemma take_label_inv k l s r : take_label k l = Ok (s, r) -> l = s ++ r /\ length s = k.
Proof.
  unfold take_label, skip_bits. destruct (Nat.ltb_spec (length l) k); cbn [rbind]; [discriminate|].
  intros [= <- <-]. split; [symmetry; apply take_drop|apply take_length_le; lia].
Qed.
Lemma load_uint_inv k l v r : load_uint k l = Ok (v, r) ->
  l = nbits k v ++ r /\ (v < 2 ^ N.of_nat k)%N.
Proof.
  unfold load_uint. destruct (Nat.ltb_spec (length l) k); [discriminate|]. intros [= <- <-].
  assert (L : length (take k l) = k) by (apply take_length_le; lia).
  pose proof (nbits_bval' k (take k l) L) as E. rewrite E. split; [symmetry; apply take_drop|].
  pose proof (bval_lt (take k l)). rewrite L in *. assumption.
Qed.

(** Any accepted label: one of the three forms with a length that fits the length field
    (not checked against the remaining key width). *)
Lemma read_label_inv n l s rest : n <= 1023 -> read_label n l = Ok (s, rest) ->
  (n = 0 /\ l = [] /\ s = [] /\ rest = []) \/
  l = label_short s ++ rest \/
  l = label_long n s ++ rest \/
  exists v k, s = replicate k v /\ l = label_same n v k ++ rest.
Proof.
  intros Hn. pose proof (bits_for_len_10 n Hn) as Hb. unfold read_label. cbv zeta.
  destruct ((bits_for_len n =? 0) && (length l =? 0)) eqn:E0.
  { intros [= <- <-]. apply andb_true_iff in E0. rewrite !Nat.eqb_eq in E0. destruct E0 as [E1 E2].
    left. destruct l; [|discriminate]. split; [|auto].
    destruct n; [reflexivity|]. pose proof (bits_for_len_pos (S n)). lia. }
  destruct l as [|[] l]; cbn [load_bit rbind negb]; [discriminate| |].
  - assert (P : (2 ^ N.of_nat (bits_for_len n) <= 2 ^ 10)%N) by (apply N.pow_le_mono_r; lia).
    change (2 ^ 10)%N with 1024%N in P.
    destruct l as [|[] l]; cbn [load_bit rbind negb]; [discriminate| |].
    + unfold read_hml_same. destruct l as [|v l]; cbn [load_bit rbind]; [discriminate|].
      destruct (load_uint (bits_for_len n) l) as [[k r]|] eqn:E; cbn [rbind]; [|discriminate].
      apply load_uint_inv in E. destruct E as [-> E]. intros [= <- <-].
      unfold w16. rewrite N.mod_small by lia. unfold MAX_BITS. rewrite Nat.min_l by lia.
      right. right. right. exists v, (N.to_nat k). split; [reflexivity|].
      unfold label_same. rewrite N2Nat.id, <- !app_assoc. reflexivity.
    + unfold read_hml_long. destruct (load_uint (bits_for_len n) l) as [[k r]|] eqn:E; cbn [rbind]; [|discriminate].
      apply load_uint_inv in E. destruct E as [-> E]. intros T. apply take_label_inv in T. destruct T as [-> T].
      unfold w16 in T. rewrite N.mod_small in T by lia.
      right. right. left. unfold label_long. rewrite T, N2Nat.id, <- !app_assoc. reflexivity.
  - unfold read_hml_short. destruct (read_unary l) as [[k r]|] eqn:E; cbn [rbind]; [|discriminate].
    apply read_unary_inv in E. subst l. intros T. apply take_label_inv in T. destruct T as [-> <-].
    right. left. unfold label_short. rewrite <- !app_assoc. reflexivity.
Qed.

Lemma read_label_suffix n l s rest : n <= 1023 -> read_label n l = Ok (s, rest) -> exists e, l = e ++ rest.
Proof.
  intros Hn H. apply read_label_inv in H; [|exact Hn].
  destruct H as [(_ & -> & _ & ->)|[->|[->|(v & k & _ & ->)]]]; [exists []; reflexivity|eexists; reflexivity..].
Qed.
