(** * The decoder on arbitrary bytes (C16). *)
From Verif Require Import Err BitsProofs BuilderModel BuilderSpec CellModel HashSpec HashModel FcellSpec HashProofs HashProofs2 BocSpec BocModel BocProofs BocProofs2.
Local Open Scope nat_scope.

Definition harmless (e : boc_err) : Prop := e <> OutOfBounds /\ e <> BPanic.
Definition safe {A} (r : bres A) (P : A -> Prop) : Prop := match r with BOk a => P a | BErr e => harmless e end.
Lemma safe_bind {A B} (r : bres A) (f : A -> bres B) P Q : safe r P -> (forall a, P a -> safe (f a) Q) -> safe (let! a := r in f a) Q.
Proof. destruct r as [a|e]; cbn; auto. Qed.
Lemma safe_fail b e (P : Prop) : harmless e -> (b = false -> P) -> safe (fail_if b e) (fun _ => P).
Proof. intros H Q. destruct b; cbn; auto. Qed.
Lemma safe_impl {A} (r : bres A) (P Q : A -> Prop) : safe r P -> (forall a, P a -> Q a) -> safe r Q.
Proof. destruct r as [a|e]; cbn; auto. Qed.
Ltac harm := split; discriminate.
(** A check: its error is harmless, its outcome is remembered. *)
Tactic Notation "check" ident(H) := eapply safe_bind; [apply safe_fail; [harm|intros H; exact H]|]; cbn beta; intros _ H.

(** ** Bytes *)
Lemma to_be_from_be n b : Forall byte_ok b -> length b = n -> to_be n (from_be b) = b.
Proof.
  intros H L. apply bytes_bits_inj; [apply to_be_ok|exact H|]. rewrite bytes_bits_to_be, from_be_bval by exact H.
  apply nbits_bval'. rewrite length_bytes_bits, L. reflexivity.
Qed.
Lemma drop_split {A} (l : list A) off n : drop off l = take n (drop off l) ++ drop (off + n) l.
Proof. rewrite <- drop_drop, take_drop. reflexivity. Qed.
Lemma Forall_take_drop {A} (P : A -> Prop) l off n : Forall P l -> Forall P (take n (drop off l)).
Proof. intros H. apply Forall_take, Forall_drop, H. Qed.
Lemma rdn_in data off n : off + n <= length data -> exists b, rdn data off n = Some b /\ length b = n /\ drop off data = b ++ drop (off + n) data /\ b = take n (drop off data).
Proof.
  intros H. exists (take n (drop off data)). rewrite rdn_some by exact H. split; [reflexivity|]. split; [rewrite take_length, drop_length; lia|].
  split; [apply drop_split|reflexivity].
Qed.
Lemma read_uint_in data off n : Forall byte_ok data -> off + n <= length data ->
  safe (read_uint data off n) (fun v => (v < 256 ^ N.of_nat n)%N /\ drop off data = to_be n v ++ drop (off + n) data).
Proof.
  intros OK H. destruct (rdn_in data off n H) as (b & E & L & D & Eb). unfold read_uint. rewrite E. cbn [b_opt bbind safe].
  assert (Bb : Forall byte_ok b) by (rewrite Eb; apply Forall_take_drop, OK).
  split; [rewrite pow256, <- L; apply from_be_lt, Bb|]. rewrite to_be_from_be by assumption. exact D.
Qed.
Lemma rd_in data off : off < length data -> exists x, rd data off = Some x /\ drop off data = x :: drop (S off) data.
Proof.
  intros H. destruct (lookup_lt_is_Some_2 data off H) as (x & E). exists x. split; [exact E|].
  apply drop_S. exact E.
Qed.

(** ** One cell *)
(** What is known of a slice after [read_raw]. *)
Record raw_ok (rs : nat) (raw : list N) : Prop := RawOk {
  ro_parts : exists d1 d2 stored data refs, raw = [d1; d2] ++ stored ++ data ++ refs /\ (d1 < 256)%N /\ (d2 < 256)%N /\
    length stored = (if d_store_hashes d1 then 34 * (N.to_nat (lm_level (d_mask d1)) + 1) else 0) /\
    length data = N.to_nat (d_byte_len d2) /\ N.to_nat (d_refs d1) <= 4 /\ length refs = N.to_nat (d_refs d1) * rs /\
    (d_store_hashes d1 = true -> d_exotic d1 && (N.to_nat (d_refs d1) =? 0) && (0 <? lm_level (d_mask d1))%N = false) /\
    (d_aligned d2 = false -> exists x, list.last data = Some x /\ (N.land x 127 =? 0)%N = false) }.
Lemma odd_len d2 : (d2 < 256)%N -> d_aligned d2 = false -> 1 <= N.to_nat (d_byte_len d2).
Proof.
  intros H A. unfold d_aligned in A. unfold d_byte_len. destruct (N.land d2 1) eqn:E; [discriminate|]. lia.
Qed.
Lemma read_raw_safe bytes rs : Forall byte_ok bytes -> safe (read_raw bytes rs) (fun n => 2 <= n <= length bytes /\ raw_ok rs (take n bytes)).
Proof.
  intros OK. unfold read_raw. check H2. apply Nat.ltb_ge in H2.
  destruct bytes as [|d1 [|d2 bytes]]; cbn [length] in H2; try lia. cbn [rd lookup list_lookup b_opt bbind].
  inversion OK as [|? ? O1 OK']; subst. inversion OK' as [|? ? O2 OK2]; subst. unfold byte_ok in O1, O2.
  check HA. cbn zeta. check H4. apply Nat.ltb_ge in H4.
  eapply safe_bind with (P := fun n => n = (if d_store_hashes d1 then 34 * (N.to_nat (lm_level (d_mask d1)) + 1) else 0) /\ (d_store_hashes d1 = true -> d_exotic d1 && (N.to_nat (d_refs d1) =? 0) && (0 <? lm_level (d_mask d1))%N = false)).
  { destruct (d_store_hashes d1); [|split; [reflexivity|discriminate]].
    destruct (d_exotic d1 && (N.to_nat (d_refs d1) =? 0) && (0 <? lm_level (d_mask d1))%N); [harm|]. split; auto. }
  intros so (Eso & PR). check HT. apply Nat.ltb_ge in HT.
  set (dl := N.to_nat (d_byte_len d2)) in *. set (nr := N.to_nat (d_refs d1)) in *.
  set (total := 2 + so + dl + nr * rs) in *.
  assert (Done : (d_aligned d2 = false -> exists x, rd (d1 :: d2 :: bytes) (2 + so + dl - 1) = Some x /\ (N.land x 127 =? 0)%N = false) -> 
    2 <= total <= length (d1 :: d2 :: bytes) /\ raw_ok rs (take total (d1 :: d2 :: bytes))).
  { intros TG. split; [unfold total in *; lia|]. constructor.
    assert (Lb : so + dl + nr * rs <= length bytes) by (unfold total in HT; cbn [length] in HT; lia).
    exists d1, d2, (take so bytes), (take dl (drop so bytes)), (take (nr * rs) (drop (so + dl) bytes)).
    split; [|split; [exact O1|split; [exact O2|split; [rewrite take_length; lia|split; [rewrite take_length, drop_length; unfold dl in *; lia|split; [exact H4|split; [rewrite take_length, drop_length; unfold nr in *; lia|split; [exact PR|]]]]]]]].
    - unfold total. cbn [Nat.add take]. cbn [app]. f_equal. f_equal.
      replace (so + dl + nr * rs) with (so + (dl + nr * rs)) by lia.
      rewrite <- (take_take_drop bytes so (dl + nr * rs)). f_equal. rewrite <- (take_take_drop (drop so bytes) dl (nr * rs)). f_equal. rewrite drop_drop. reflexivity.
    - intros A. destruct (TG A) as (x & X1 & X2). exists x. split; [|exact X2].
      pose proof (odd_len d2 O2 A) as D1. fold dl in D1. rewrite last_lookup. rewrite take_length, drop_length. replace (Nat.min dl (length bytes - so)) with dl by lia.
      rewrite lookup_take by lia. rewrite lookup_drop. unfold rd in X1. replace (2 + so + dl - 1) with (S (S (so + pred dl))) in X1 by lia. exact X1. }
  destruct (d_aligned d2) eqn:A; cbn [negb].
  - rewrite andb_false_r. apply Done. discriminate.
  - pose proof (odd_len d2 O2 A) as D1. fold dl in D1. rewrite (proj2 (Nat.ltb_lt _ _)) by lia. cbn [andb].
    destruct (rd_in (d1 :: d2 :: bytes) (2 + so + dl - 1)) as (x & X1 & _); [unfold total in HT; lia|]. rewrite X1. cbn [b_opt bbind].
    destruct (N.land x 127 =? 0)%N eqn:XT; [harm|]. apply Done. intros _. exists x. auto.
Qed.
Lemma read_cells_safe data rs : Forall byte_ok data -> forall n off, off <= length data ->
  safe (read_cells n data off rs) (fun '(cells, off') => length cells = n /\ drop off data = concat cells ++ drop off' data /\ off' = off + length (concat cells) /\
    off' <= length data /\ Forall (raw_ok rs) cells /\ 2 * n <= length (concat cells)).
Proof.
  intros OK. induction n as [|n IH]; intros off H.
  - cbn. repeat split; try lia; auto.
  - cbn [read_cells]. rewrite (proj2 (Nat.ltb_ge _ _)) by exact H. cbn [fail_if bbind].
    eapply safe_bind; [apply read_raw_safe; apply Forall_drop, OK|]. cbn beta. intros len (L & RO). rewrite drop_length in L.
    eapply safe_bind; [apply IH; lia|]. cbn beta. intros (cells, off') (A1 & A2 & A3 & A4 & A5 & A6). cbn [safe].
    cbn [length concat]. rewrite app_length, take_length, drop_length. split; [lia|]. split; [|split; [lia|split; [exact A4|split; [constructor; assumption|lia]]]].
    rewrite <- app_assoc, <- A2. apply drop_split.
Qed.
Lemma read_roots_safe data rs cc : Forall byte_ok data -> forall n off, off + n * rs <= length data ->
  safe (read_roots n data off rs cc) (fun l => length l = n /\ Forall (fun r => (r < cc)%N) l /\
    drop off data = concat (map (fun r => to_be rs r) l) ++ drop (off + n * rs) data).
Proof.
  intros OK. induction n as [|n IH]; intros off H.
  - cbn [read_roots safe]. split; [reflexivity|]. split; [constructor|]. cbn [map concat app]. f_equal. lia.
  - cbn [read_roots]. eapply safe_bind; [apply read_uint_in; [exact OK|lia]|]. cbn beta. intros r (_ & Dr).
    check HC. apply N.leb_gt in HC. eapply safe_bind; [apply (IH (off + rs)); lia|]. cbn beta. intros l (L & F & D). cbn [safe length map concat].
    split; [lia|]. split; [constructor; assumption|]. rewrite Dr at 1. rewrite D, <- app_assoc. do 3 f_equal. lia.
Qed.
Lemma read_refs_safe raw rs cc cells : Forall byte_ok raw -> forall n off, off + n * rs <= length raw ->
  safe (read_refs n raw off rs (N.of_nat cc) cells) (fun refs => exists next, length next = n /\
    Forall2 (fun j x => j < cc /\ cells !! (cc - j - 1) = Some x) next refs /\
    drop off raw = concat (map (fun j => to_be rs (N.of_nat j)) next) ++ drop (off + n * rs) raw).
Proof.
  intros OK. induction n as [|n IH]; intros off H.
  - cbn [read_refs safe]. exists []. split; [reflexivity|]. split; [constructor|]. cbn [map concat app]. f_equal. lia.
  - cbn [read_refs]. eapply safe_bind; [apply read_uint_in; [exact OK|lia]|]. cbn beta. intros r (_ & Dr).
    check HC. apply N.leb_gt in HC. destruct (cells !! N.to_nat (N.of_nat cc - r - 1)) as [x|] eqn:X; [|harm]. cbn [b_opt bbind].
    eapply safe_bind; [apply (IH (off + rs)); lia|]. cbn beta. intros refs (l & L & F & D). cbn [safe].
    exists (N.to_nat r :: l). cbn [length map concat]. split; [lia|]. split; [constructor; [|exact F]|].
    + split; [lia|]. rewrite <- X. f_equal. lia.
    + rewrite N2Nat.id. rewrite Dr at 1. rewrite D, <- app_assoc. do 3 f_equal. lia.
Qed.

Section Sha.
Context (sha : list N -> list N) (Hsha : sha_like sha).

Lemma data_bits_of d2 data : (d2 < 256)%N -> Forall byte_ok data -> length data = N.to_nat (d_byte_len d2) ->
  (d_aligned d2 = false -> exists x, list.last data = Some x /\ (N.land x 127 =? 0)%N = false) ->
  exists bits, data_bytes bits = data /\ length bits <= 1023 /\ compute_d2 (N.of_nat (length bits)) = d2 /\
    (if d_aligned d2 then 8 * N.of_nat (length data) else match list.last data with Some x => 8 * N.of_nat (length data) - trailing_zeros8 x - 1 | None => 0 end)%N = N.of_nat (length bits).
Proof.
  intros H OK L T. unfold d_byte_len in L. pose proof (seqN_all 256 (fun d2 => (if d_aligned d2 then d2 =? 2 * d_byte_len d2 else (d2 + 1 =? 2 * d_byte_len d2))%N) ltac:(vm_compute; reflexivity) d2 H) as A.
  cbn beta in A. fold (d_byte_len d2) in L. destruct (d_aligned d2) eqn:Al.
  - apply N.eqb_eq in A. destruct (aligned_data data OK) as (bits & L1 & D1 & M). exists bits.
    assert (LB : length bits <= 1023) by lia.
    split; [exact D1|]. split; [exact LB|]. split; [|lia]. rewrite compute_d2_val by exact LB.
    rewrite L1. replace (8 * length data) with (length data * 8) by lia. rewrite Nat.div_mul, Nat.div_add_l, (Nat.div_small 7) by lia. lia.
  - apply N.eqb_eq in A. destruct (T eq_refl) as (x & X1 & X2). rewrite X1. destruct (last_tag data x OK X1 X2) as (bits & L1 & D1 & M). exists bits.
    assert (Ld : length (data_bytes bits) = length data) by congruence. rewrite length_data in Ld.
    assert (LB : length bits <= 1023) by lia.
    split; [exact D1|]. split; [exact LB|]. split; [|lia]. rewrite compute_d2_val by exact LB.
    pose proof (Nat.div_mod (length bits) 8 ltac:(lia)) as DM. pose proof (Nat.mod_upper_bound (length bits) 8 ltac:(lia)) as U.
    assert (Q : (length bits + 7) / 8 = length bits / 8 + 1).
    { set (r := length bits mod 8) in *. set (k := length bits / 8) in *. rewrite DM. replace (8 * k + r + 7) with ((k + 1) * 8 + (r - 1)) by lia.
      rewrite Nat.div_add_l, (Nat.div_small (r - 1)) by lia. lia. }
    lia.
Qed.
(** The entry a slice stands for. *)
Definition slot_of (rs cc : nat) (cells : list fcell) (raw : list N) (c : fcell) (e : entry) : Prop :=
  finalized sha c /\ e_tree e = tree_of c /\ cell_slot sha rs e raw /\
  Forall2 (fun j x => j < cc /\ cells !! (cc - j - 1) = Some x) (e_next e) (f_refs c).
Lemma build_raw_safe rs cc cells raw : Forall byte_ok raw -> raw_ok rs raw -> Forall (finalized sha) cells ->
  safe (build_raw sha raw cells (N.of_nat cc) rs) (fun c => exists e, slot_of rs cc cells raw c e).
Proof.
  intros OK [(d1 & d2 & stored & data & rb & E & H1 & H2 & Ls & Ld & H4 & Lr & PR & TG)] FC.
  assert (OKd : Forall byte_ok data). { rewrite E in OK. rewrite !List.Forall_app in OK. tauto. }
  unfold build_raw.
  assert (R0 : rd raw 0 = Some d1) by (rewrite E; reflexivity). assert (R1 : rd raw 1 = Some d2) by (rewrite E; reflexivity).
  rewrite R0, R1. cbn [b_opt bbind].
  assert (OF : (2 + if d_store_hashes d1 then 34 * (N.to_nat (lm_level (d_mask d1)) + 1) else 0) = length ([d1; d2] ++ stored)) by (rewrite app_length, Ls; reflexivity).
  rewrite OF, <- Ld.
  assert (RD : rdn raw (length ([d1; d2] ++ stored)) (length data) = Some data).
  { rewrite E, app_assoc. apply rdn_app; reflexivity. }
  rewrite RD. cbn [b_opt bbind].
  assert (Lraw : length raw = length ([d1; d2] ++ stored) + length data + N.to_nat (d_refs d1) * rs) by (rewrite E, !app_length, Lr; cbn [length]; lia).
  eapply safe_bind; [apply read_refs_safe; [exact OK|lia]|]. cbn beta. intros refs (next & Ln & FN & DN).
  assert (FR : Forall (finalized sha) refs).
  { clear - FN FC. induction FN as [|j x next refs (_ & Hx) _ IH]; constructor; [apply (Forall_lookup_1 _ _ _ _ FC Hx)|exact IH]. }
  pose proof (Forall2_length _ _ _ FN) as Lnr.
  destruct (data_bits_of d2 data H2 OKd Ld TG) as (bits & DB & LB & D2 & BL). rewrite BL, <- D2, <- DB.
  assert (ST : d_store_hashes d1 = true -> d_type d1 <> PrunedBranch).
  { intros S. specialize (PR S). intros T. unfold d_type in T. destruct (d_exotic d1); [|discriminate]. cbn [negb] in T.
    pose proof (seqN_all 256 (fun d1 => Bool.eqb (N.land d1 224 =? 0)%N (lm_level (d_mask d1) =? 0)%N) ltac:(vm_compute; reflexivity) d1 H1) as Q. cbn beta in Q. apply Bool.eqb_prop in Q.
    destruct (N.eqb_spec (d_refs d1) 0) as [Z|Z].
    - rewrite Z in PR. cbn [N.to_nat Nat.eqb andb] in PR. apply N.ltb_ge in PR. rewrite Q, (proj2 (N.eqb_eq _ _)) in T by lia. discriminate.
    - destruct (d_refs d1 =? 1)%N; discriminate. }
  assert (Hd : d_refs d1 = N.of_nat (length refs)) by lia.
  destruct (finalize_cell_spec sha Hsha d1 bits refs FR ltac:(lia) LB H1 Hd ST) as [(OKc & VT & ND & c & Ec & Fc & TC & D1c & RC)|[(OKc & VT & TD & Ec)|(NO & Ec)]]; rewrite Ec.
  2,3: harm.
  cbn [safe]. exists (Entry (tree_of c) (d_store_hashes d1) next). split; [exact Fc|]. split; [reflexivity|]. split; [|rewrite RC; exact FN].
  unfold cell_slot. cbn [e_tree e_stored e_next]. rewrite TC. destruct OKc as (_ & OM). rewrite <- OM.
  destruct (d1_split d1 H1) as (ES & M8 & _). exists stored.
  split; [rewrite Ls, length_own, (level_of _ M8); destruct (d_store_hashes d1); [f_equal; lia|reflexivity]|].
  rewrite map_length, <- Hd. rewrite <- compute_d2_val, D2, <- ES by exact LB. rewrite E. do 2 f_equal. rewrite DB. f_equal.
  assert (DR : drop (length ([d1; d2] ++ stored) + length data) raw = rb).
  { rewrite E. rewrite !app_assoc. rewrite <- (app_length _ data). apply drop_app. }
  rewrite DR in DN. rewrite drop_ge in DN by lia. rewrite app_nil_r in DN. exact DN.
Qed.
Lemma build_cells_safe rs cc raws : Forall (Forall byte_ok) raws -> Forall (raw_ok rs) raws -> forall cells, Forall (finalized sha) cells ->
  safe (build_cells sha raws cells (N.of_nat cc) rs) (fun C => exists new es, C = cells ++ new /\ length es = length raws /\ length new = length raws /\
    forall k raw, raws !! k = Some raw -> exists c e, new !! k = Some c /\ es !! k = Some e /\ slot_of rs cc (cells ++ take k new) raw c e).
Proof.
  intros OK RO. induction RO as [|raw raws R1 RO IH]; intros cells FC.
  - cbn [build_cells safe]. exists [], []. rewrite app_nil_r. repeat split; try reflexivity. intros k raw H. discriminate.
  - inversion OK as [|? ? O1 OK']; subst. cbn [build_cells]. eapply safe_bind; [apply build_raw_safe; assumption|]. cbn beta. intros c (e & S).
    eapply safe_impl; [apply (IH OK' (cells ++ [c])); apply Forall_app_2; [exact FC|constructor; [apply S|constructor]]|].
    cbn beta. intros C (new & es & EC & L1 & L2 & K). exists (c :: new), (e :: es).
    split; [rewrite EC, <- app_assoc; reflexivity|]. split; [cbn; lia|]. split; [cbn; lia|].
    intros [|k] r Hr; cbn [lookup list_lookup] in Hr.
    + injection Hr as <-. exists c, e. cbn [take]. rewrite app_nil_r. auto.
    + destruct (K k r Hr) as (c' & e' & N1 & N2 & N3). exists c', e'. split; [exact N1|]. split; [exact N2|]. rewrite <- app_assoc in N3. exact N3.
Qed.
(** ** All the cells *)
Lemma finalize_safe p : Forall (Forall byte_ok) (p_cells p) -> Forall (raw_ok (p_ref_size p)) (p_cells p) ->
  safe (finalize sha p) (fun C => exists table, Forall2 (cell_slot sha (p_ref_size p)) table (p_cells p) /\ linked table /\ Forall2 (made sha) (rev table) C).
Proof.
  intros OK RO. unfold finalize. set (rs := p_ref_size p) in *. set (cc := length (p_cells p)).
  eapply safe_impl; [apply (build_cells_safe rs cc (rev (p_cells p))); [| |constructor]|].
  - apply List.Forall_rev, OK.
  - apply List.Forall_rev, RO.
  - cbn beta. intros C (new & es & EC & L1 & L2 & K). cbn [app] in EC. subst C. rewrite rev_length in L1, L2. fold cc in L1, L2.
    assert (K2 : forall k e, es !! k = Some e -> exists raw c, rev (p_cells p) !! k = Some raw /\ new !! k = Some c /\ slot_of rs cc (take k new) raw c e).
    { intros k e He. pose proof (lookup_lt_Some _ _ _ He) as Lk. destruct (lookup_lt_is_Some_2 (rev (p_cells p)) k) as (raw & Hr); [rewrite rev_length; fold cc; lia|].
      destruct (K k raw Hr) as (c & e' & N1 & N2 & N3). cbn [app] in N3. exists raw, c. split; [exact Hr|]. split; [exact N1|]. congruence. }
    exists (rev es). split; [|split].
    + apply Forall2_same_length_lookup_2; [rewrite rev_length; exact L1|]. intros i e raw He Hr.
      pose proof (lookup_lt_Some _ _ _ Hr) as Li. fold cc in Li. rewrite reverse_rev_lookup in He by lia.
      destruct (K2 _ _ He) as (raw' & c & N1 & N2 & N3). rewrite reverse_rev_lookup in N1 by (fold cc; lia). fold cc in N1. 
      replace (cc - 1 - (length es - 1 - i)) with i in N1 by lia. replace raw with raw' by congruence. apply N3.
    + intros i e He. pose proof (lookup_lt_Some _ _ _ He) as Li. rewrite rev_length in Li. rewrite reverse_rev_lookup in He by lia.
      destruct (K2 _ _ He) as (raw & c & _ & N2 & (Fc & Te & _ & FN)). rewrite Te.
      assert (ER : c_refs (tree_of c) = map tree_of (f_refs c)) by (destruct Fc; reflexivity). rewrite ER. apply Forall2_fmap_r.
      eapply Forall2_impl; [exact FN|]. cbn beta. intros j x (Hj & Hx).
      pose proof (lookup_lt_Some _ _ _ Hx) as Lx. rewrite take_length in Lx.
      rewrite lookup_take in Hx by lia. split; [lia|].
      destruct (lookup_lt_is_Some_2 es (cc - j - 1)) as (e' & He'); [lia|]. destruct (K2 _ _ He') as (raw' & c' & _ & N2' & (_ & Te' & _)).
      exists e'. rewrite reverse_rev_lookup by lia. split; [rewrite <- He'; f_equal; lia|congruence].
    + rewrite rev_involutive. apply Forall2_same_length_lookup_2; [lia|]. intros k e c He Hc.
      destruct (K2 _ _ He) as (raw & c' & _ & N2 & (Fc & Te & _)). replace c with c' by congruence. split; [exact Fc|congruence].
Qed.

(** ** The header *)
Lemma magic_flags f : (f < 256)%N -> exists u, (u < 4)%N /\ f = (128 * N.b2n (negb (N.land f 128 =? 0)) + 64 * N.b2n (negb (N.land f 64 =? 0)) + 32 * N.b2n (negb (N.land f 32 =? 0)) + 8 * u + N.land f 7)%N.
Proof.
  intros H. exists (N.land (N.shiftr f 3) 3).
  pose proof (seqN_all 256 (fun f => (N.land (N.shiftr f 3) 3 <? 4) && (f =? 128 * N.b2n (negb (N.land f 128 =? 0)) + 64 * N.b2n (negb (N.land f 64 =? 0)) + 32 * N.b2n (negb (N.land f 32 =? 0)) + 8 * N.land (N.shiftr f 3) 3 + N.land f 7))%N ltac:(vm_compute; reflexivity) f H) as A.
  cbn beta in A. apply andb_true_iff in A as (A & B). split; [apply N.ltb_lt, A|apply N.eqb_eq, B].
Qed.
Lemma concat_ok (cells : list (list N)) : Forall byte_ok (concat cells) -> Forall (Forall byte_ok) cells.
Proof. induction cells as [|c l IH]; [constructor|]. cbn [concat]. intros H. apply List.Forall_app in H as (H1 & H2). constructor; auto. Qed.
Definition header_ok (crc : N -> list N -> N) (o : boc_options) (data : list N) (p : boc_parsed) : Prop :=
  Forall (Forall byte_ok) (p_cells p) /\ Forall (raw_ok (p_ref_size p)) (p_cells p) /\ 2 * length (p_cells p) <= length data /\
  Forall (fun r => (r < N.of_nat (length (p_cells p)))%N) (p_roots p) /\
  p_roots p <> [] /\ (forall m, o_min o = Some m -> (m <= N.of_nat (length (p_roots p)))%N) /\ (N.of_nat (length (p_roots p)) <= match o_max o with Some m => m | None => 32 end)%N /\
  forall table, Forall2 (cell_slot sha (p_ref_size p)) table (p_cells p) -> bag sha (crc 0%N) data table (map N.to_nat (p_roots p)).
Lemma header_safe crc o data : Forall byte_ok data -> safe (decode_header crc o data) (header_ok crc o data).
Proof.
  intros OK. unfold decode_header.
  check H6. apply negb_false_iff in H6. unfold require in H6. apply N.leb_le in H6.
  destruct (rd_in data 4) as (flags & E4 & D4); [lia|]. destruct (rd_in data 5) as (ob & E5 & D5); [lia|].
  destruct (rdn_in data 0 4) as (tag & ET & LT & DT & _); [lia|]. rewrite E4, E5, ET. cbn [b_opt bbind].
  assert (F8 : (flags < 256)%N) by apply (Forall_lookup_1 _ _ _ _ OK E4). clear ET.
  eapply safe_bind with (P := fun '(hi, hc, hb, rb, multi) => hb && negb hi = false -> forall rs, rb = N.of_nat rs -> bag_magic (tag ++ [flags]) rs hi hc multi).
  { unfold tag_from_bytes.
    destruct (bytes_eqb tag (tag_bytes TGeneric)) eqn:T1; [|destruct (bytes_eqb tag (tag_bytes TIndexedCrc)) eqn:T2; [|destruct (bytes_eqb tag (tag_bytes TIndexed)) eqn:T3; [|harm]]].
    - apply bytes_eqb_eq in T1 as ->. cbn [safe]. intros HB rs Hrs. destruct (magic_flags flags F8) as (u & U & EF). rewrite Hrs in EF. rewrite EF at 1. cbn [tag_bytes app].
      apply magic_generic; [exact U|]. intros C. rewrite C in HB. destruct (negb (N.land flags 128 =? 0)%N); [reflexivity|discriminate].
    - apply bytes_eqb_eq in T2 as ->. cbn [safe]. intros _ rs ->. apply magic_indexed_crc.
    - apply bytes_eqb_eq in T3 as ->. cbn [safe]. intros _ rs ->. apply magic_indexed. }
  intros ((((hi, hc), hb), rb), multi) MG.
  check HB. specialize (MG HB). clear HB.
  check HR. check HO. apply orb_false_iff in HR as (R1 & R2), HO as (O1 & O2). apply N.eqb_neq in R1, O1. apply N.ltb_ge in R2, O2.
  set (rs := N.to_nat rb). set (os := N.to_nat ob). specialize (MG rs ltac:(lia)).
  check HQ. apply negb_false_iff in HQ. unfold require in HQ. apply N.leb_le in HQ.
  eapply safe_bind; [apply read_uint_in; [exact OK|lia]|]. cbn beta. intros cc (Bc & Dc).
  eapply safe_bind; [apply read_uint_in; [exact OK|lia]|]. cbn beta. intros rc (Br & Dr).
  eapply safe_bind; [apply read_uint_in; [exact OK|lia]|]. cbn beta. intros ac (Ba & Da).
  check C1. check C2. check C3. check C4. check C5. check C6.
  apply N.eqb_neq in C1. apply N.ltb_ge in C3. assert (ac = 0%N) by (apply N.ltb_ge in C4; lia). subst ac. apply N.ltb_ge in C6.
  cbn zeta. eapply safe_bind; [apply read_uint_in; [exact OK|lia]|]. cbn beta. intros total (Bt & Dt).
  check C7. check C8. check C9. clear C7 C8.
  apply negb_false_iff in C9. unfold require in C9. apply N.leb_le in C9.
  set (off0 := 6 + 3 * rs + os) in *.
  eapply safe_bind with (P := fun '(roots, off) => off0 <= off <= length data /\ length roots = N.to_nat rc /\ Forall (fun r => (r < cc)%N) roots /\ (multi = false -> map N.to_nat roots = [0]) /\
     drop off0 data = (if multi then concat (map (fun r => to_be rs r) roots) else []) ++ drop off data).
  { destruct multi.
    - eapply safe_bind; [apply (read_roots_safe data rs cc OK (N.to_nat rc) off0); lia|]. cbn beta. intros roots (L & F & D). cbn [safe].
      split; [lia|]. split; [exact L|]. split; [exact F|]. split; [discriminate|exact D].
    - cbn [negb andb] in C2. apply N.ltb_ge in C2. cbn [safe]. split; [lia|]. split; [cbn; lia|]. split; [constructor; [lia|constructor]|]. split; reflexivity. }
  intros (roots, off) (Bo & Lroots & Froots & Single & Droots). cbn zeta.
  check C10. apply negb_false_iff in C10. unfold require in C10. apply N.leb_le in C10.
  set (isz := if hi then (cc * ob)%N else 0%N) in *. set (start := off + N.to_nat isz).
  eapply safe_bind; [apply (read_cells_safe data rs OK (N.to_nat cc) start); unfold start; lia|]. cbn beta. intros (cells, fin) (L1 & L2 & L3 & L4 & L5 & L6).
  check C11. apply negb_false_iff, N.eqb_eq in C11.
  eapply safe_bind with (P := fun _ => hc = true -> exists rest, drop fin data = le_bytes 4 (crc 0%N (take fin data)) ++ rest).
  { destruct hc; [|cbn; discriminate]. check C12. apply negb_false_iff in C12. unfold require in C12. apply N.leb_le in C12.
    unfold check_crc. destruct (rdn_in data fin 4) as (b & Eb & Lb & Db & Eb2); [lia|]. rewrite Eb. cbn [b_opt bbind].
    destruct (from_le b =? crc 0 (take fin data))%N eqn:Q; [|harm]. cbn [negb fail_if safe]. intros _. apply N.eqb_eq in Q.
    exists (drop (fin + 4) data). rewrite Db at 1. f_equal. unfold le_bytes. rewrite <- Q. unfold from_le.
    rewrite to_be_from_be; [rewrite rev_involutive; reflexivity| |rewrite rev_length; exact Lb].
    apply List.Forall_rev. rewrite Eb2. apply Forall_take_drop, OK. }
  intros _ CR. cbn [safe]. unfold header_ok. cbn [p_cells p_roots p_ref_size].
  assert (OKc : Forall byte_ok (concat cells)).
  { assert (Q : Forall byte_ok (drop start data)) by (apply Forall_drop, OK). rewrite L2 in Q. apply List.Forall_app in Q. tauto. }
  split; [apply concat_ok, OKc|]. split; [exact L5|]. split; [lia|]. split; [rewrite L1, N2Nat.id; exact Froots|].
  split; [destruct roots; [cbn in Lroots; lia|discriminate]|].
  split; [intros m Hm; rewrite Hm in C5; apply N.ltb_ge in C5; lia|]. split; [rewrite Lroots, N2Nat.id; exact C6|].
  intros table FT. pose proof (Forall2_length _ _ _ FT) as Lt. rewrite L1 in Lt.
  assert (Ecc : cc = N.of_nat (length table)) by lia. assert (Etot : total = N.of_nat (length (concat cells))) by lia.
  assert (Erc : rc = N.of_nat (length (map N.to_nat roots))) by (rewrite map_length; lia).
  unfold bag. exists (tag ++ [flags]), rs, os, hi, hc, multi, (take (N.to_nat isz) (drop off data)), cells.
  set (body := (tag ++ [flags]) ++ [N.of_nat os] ++ _).
  exists (if hc then drop (fin + 4) data else drop fin data).
  split; [exact MG|]. split; [lia|]. split; [lia|]. split; [exact FT|].
  rewrite <- Ecc, <- Etot. split; [exact Bc|]. split; [exact Bt|]. split; [rewrite take_length, drop_length; unfold isz; destruct hi; lia|]. split; [exact Single|].
  assert (ERO : concat (map (fun j => to_be rs (N.of_nat j)) (map N.to_nat roots)) = concat (map (fun r => to_be rs r) roots)).
  { rewrite map_map. f_equal. apply map_ext. intros r. rewrite N2Nat.id. reflexivity. }
  assert (ED : data = body ++ drop fin data).
  { unfold body. rewrite ERO, <- Ecc, <- Etot, <- Erc. rewrite <- (drop_0 data) at 1. rewrite DT. rewrite <- !app_assoc. f_equal. cbn [Nat.add]. rewrite D4. cbn [app]. f_equal.
    rewrite D5. f_equal; [unfold os; lia|]. rewrite Dc. f_equal. rewrite Dr. f_equal.
    replace (6 + rs + rs) with (6 + 2 * rs) by lia. rewrite Da. f_equal. replace (6 + 2 * rs + rs) with (6 + 3 * rs) by lia. rewrite Dt. f_equal.
    fold off0. rewrite Droots. f_equal. rewrite (drop_split data off (N.to_nat isz)) at 1. f_equal. exact L2. }
  assert (LB : length body = fin). { apply (f_equal length) in ED. rewrite app_length, drop_length in ED. lia. }
  assert (TB : take fin data = body). { rewrite ED. rewrite <- LB. apply take_app. }
  destruct hc; [|exact ED]. destruct (CR eq_refl) as (rest & Erest). rewrite TB in Erest.
  rewrite ED at 1. f_equal. rewrite Erest. f_equal.
  apply (f_equal (drop 4)) in Erest. rewrite drop_drop in Erest. rewrite Erest. symmetry. apply drop_app_alt. unfold le_bytes. rewrite rev_length, to_be_length. reflexivity.
Qed.

(** ** The entry points *)
Lemma get_all_safe table cells roots : Forall2 (made sha) (rev table) cells -> Forall (fun r => (r < N.of_nat (length table))%N) roots ->
  safe (get_all cells roots) (fun cs => Forall (finalized sha) cs /\ Forall2 (points table) (map N.to_nat roots) (map tree_of cs)).
Proof.
  intros F B. assert (P : exists trees, Forall2 (points table) (map N.to_nat roots) trees).
  { induction B as [|r roots Hr _ (ts & IH)]; [exists []; constructor|]. destruct (lookup_lt_is_Some_2 table (N.to_nat r)) as (e & He); [lia|].
    exists (e_tree e :: ts). constructor; [exists e; auto|exact IH]. }
  destruct P as (trees & P). destruct (get_all_ok sha table cells _ trees F P) as (cs & E & T & Fc).
  rewrite map_map in E. rewrite (map_ext _ (fun x => x)) in E by (intros x; apply N2Nat.id). rewrite map_id in E. rewrite E. cbn [safe].
  split; [exact Fc|]. rewrite T. exact P.
Qed.
Definition accepted (crc : N -> list N -> N) (o : boc_options) (data : list N) (cs : list fcell) : Prop :=
  Forall (finalized sha) cs /\ cs <> [] /\ (forall m, o_min o = Some m -> (m <= N.of_nat (length cs))%N) /\ (N.of_nat (length cs) <= match o_max o with Some m => m | None => 32 end)%N /\
  exists table roots, bag sha (crc 0%N) data table roots /\ linked table /\ Forall (fun e => valid_tree (e_tree e)) table /\ Forall2 (points table) roots (map tree_of cs) /\ 2 * length table <= length data.
Lemma table_valid table C : Forall2 (made sha) (rev table) C -> Forall (fun e => valid_tree (e_tree e)) table.
Proof.
  intros F. rewrite <- (rev_involutive table). apply List.Forall_rev. induction F as [|e c l C' (Fc & Te) _ IH]; constructor; [|exact IH].
  rewrite <- Te. apply (finalized_agrees sha Hsha c Fc).
Qed.
Lemma decode_all_safe crc o data : Forall byte_ok data -> safe (decode_all crc sha o data) (accepted crc o data).
Proof.
  intros OK. unfold decode_all. eapply safe_bind; [apply header_safe, OK|]. intros p (A1 & A2 & A3 & A4 & A5 & A6 & A7 & A8).
  eapply safe_bind; [apply finalize_safe; assumption|]. cbn beta. intros C (table & T1 & T2 & T3).
  pose proof (Forall2_length _ _ _ T1) as LT.
  eapply safe_impl; [apply (get_all_safe table C (p_roots p) T3); rewrite LT; exact A4|]. cbn beta. intros cs (F & P).
  pose proof (Forall2_length _ _ _ P) as LP. rewrite !map_length in LP.
  split; [exact F|]. split; [destruct cs; [destruct (p_roots p); [congruence|discriminate]|discriminate]|].
  rewrite <- LP. split; [exact A6|]. split; [exact A7|]. exists table, (map N.to_nat (p_roots p)).
  split; [apply A8, T1|]. split; [exact T2|]. split; [apply (table_valid _ _ T3)|]. split; [exact P|lia].
Qed.
(** The two other entry points are the first one with other options. *)
Lemma decode_eq crc data : Forall byte_ok data -> match decode_all crc sha (Options (Some 1%N) (Some 1%N)) data with
  | BOk cs => exists c, cs = [c] /\ decode crc sha data = BOk c | BErr e => decode crc sha data = BErr e end.
Proof.
  intros OK. pose proof (decode_all_safe crc (Options (Some 1%N) (Some 1%N)) data OK) as S. revert S. unfold decode_all, decode.
  pose proof (header_safe crc (Options (Some 1%N) (Some 1%N)) data OK) as HS.
  destruct (decode_header crc (Options (Some 1%N) (Some 1%N)) data) as [p|e]; [|reflexivity]. cbn [bbind safe] in *.
  destruct HS as (_ & _ & _ & _ & NE & _ & A7 & _). cbn [o_max] in A7.
  destruct (p_roots p) as [|r [|r2 rs]]; [congruence| |cbn [length] in A7; lia].
  destruct (finalize sha p) as [cells|e]; [|reflexivity]. cbn [bbind get_all]. destruct (processed_get cells r) as [c|e]; [|reflexivity].
  cbn [bbind]. intros _. exists c. auto.
Qed.
Lemma decode_pair_eq crc data : Forall byte_ok data -> match decode_all crc sha (Options (Some 2%N) (Some 2%N)) data with
  | BOk cs => exists a b, cs = [a; b] /\ decode_pair crc sha data = BOk (a, b) | BErr e => decode_pair crc sha data = BErr e end.
Proof.
  intros OK. unfold decode_all, decode_pair.
  pose proof (header_safe crc (Options (Some 2%N) (Some 2%N)) data OK) as HS.
  destruct (decode_header crc (Options (Some 2%N) (Some 2%N)) data) as [p|e]; [|reflexivity]. cbn [bbind safe] in *.
  destruct HS as (_ & _ & _ & _ & NE & A6 & A7 & _). cbn [o_max o_min] in A6, A7. specialize (A6 _ eq_refl).
  destruct (p_roots p) as [|r [|r2 [|r3 rs]]]; [congruence|cbn [length] in A6; lia| |cbn [length] in A7; lia].
  destruct (finalize sha p) as [cells|e]; [|reflexivity]. cbn [bbind get_all]. destruct (processed_get cells r) as [c|e]; [|reflexivity].
  cbn [bbind]. destruct (processed_get cells r2) as [c2|e]; [|reflexivity]. cbn [bbind]. exists c, c2. auto.
Qed.
End Sha.
