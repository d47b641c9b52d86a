(** * Neighbours: [dict_find_owned]. *)
From Verif Require Import Err BitsProofs CellModel LabelModel LabelSpec LabelProofs DictModel DictSpec DictTree DictProofs DictOrder DictProofs4.
Local Open Scope nat_scope.

Definition f_finish (root : cell) (rev : bool) (data : cell) (n' : nat) (rkey : list bool) (prev : option (cell * bool)) :=
  let? (rkey, r, prev) := find_down (S n') data n' rkey rev prev in
  let? c := owner root prev in
  Ok (Some (rkey, (r, c))).
Definition f_rewind (root : cell) (key : list bool) (n : nat) (signed rev : bool) (stack : list seg) :=
  match find_rewind stack n signed rev with
  | None => Ok None
  | Some (d, n', b, plen, _) =>
    let? rkey := put (take plen key) [] in
    let? rkey := put [b] rkey in
    let? child := ref_at b d in
    f_finish root rev child n' rkey (Some (d, b))
  end.
Definition f_move (root : cell) (key : list bool) (n : nat) (signed rev : bool)
    (x : find_leaf * cell * list bool * list seg * option (cell * bool)) :=
  let '(leaf, data, k, stack, prev) := x in
  match leaf with
  | FValue _ => f_rewind root key n signed rev stack
  | FDiverge b =>
    if Bool.eqb b rev then
      let? rkey := put (take (n - length k) key) [] in f_finish root rev data (length k) rkey prev
    else f_rewind root key n signed rev stack
  end.

Lemma dict_find_owned_eq root n key towards inclusive signed : length key = n ->
  dict_find_owned (Some root) n key towards inclusive signed =
  (let? x := find_loop (S n) root key signed [] None in
   match x with
   | (FValue r, data, k, stack, prev) =>
     if inclusive then
       let? c := last_owner root stack in let? rkey := put key [] in Ok (Some (rkey, (r, c)))
     else f_move root key n signed (negb towards) x
   | _ => f_move root key n signed (negb towards) x
   end).
Proof.
  intros H. unfold dict_find_owned. rewrite H, Nat.eqb_refl. cbn [negb].
  destruct (find_loop (S n) root key signed [] None) as [[[[[leaf data] k] stack] prev]|]; cbn [rbind]; [|reflexivity].
  destruct leaf; reflexivity.
Qed.

Lemma find_down_spec R n c t pre rev fuel root prev : reads R ->
  length pre + n <= 1023 -> Rep R n c t -> n < fuel -> owns root prev c ->
  exists r prev' c', find_down fuel c n pre rev prev = Ok (pre ++ fst (t_first false rev t), r, prev') /\
    owns root prev' c' /\ r_apply r c' = snd (t_first false rev t).
Proof.
  intros HR. revert n c t pre prev. induction fuel as [|f IH]; intros n c t pre prev Hn H Hf Ho; [lia|].
  pose proof (Rep_wft _ _ _ _ H) as Hw. pose proof (lbl_le _ _ Hw) as Ll.
  destruct (Rep_inv R n c t HR ltac:(lia) H) as (bits & refs & rest & Ec & Es & El & Ht).
  assert (Hn1 : n <= 1023) by lia. destruct (read_label_suffix _ _ _ _ Hn1 El) as [e He].
  cbn [find_down]. rewrite Es. cbn [rbind s_bits s_cell s_refs]. rewrite El. cbn [rbind].
  rewrite put_or_skip by lia. cbn [rbind]. rewrite (proj2 (Nat.ltb_ge _ _)) by lia.
  destruct t as [l v|l x a b]; cbn [lbl t_first fst snd] in *.
  - destruct Ht as [Hl Hv]. rewrite Hl, Nat.sub_diag. cbn [Nat.eqb].
    eexists _, prev, c. split; [reflexivity|]. split; [exact Ho|].
    rewrite Hv. apply (range_apply c e); subst c; [exact He|reflexivity].
  - destruct Ht as (m & cl & cr & Hm & Hrefs & Hrest & Ha & Hb). subst refs.
    rewrite (proj2 (Nat.eqb_neq _ _)) by lia. cbn [length]. rewrite (proj2 (Nat.ltb_ge _ _)) by lia.
    rewrite first_false. rewrite put_ok by (rewrite app_length; cbn [length]; lia). cbn [rbind].
    replace (n - length l - 1) with m by lia.
    set (ct := if rev then cr else cl). set (ttt := if rev then b else a).
    assert (G1 : ref_at rev c = Ok ct) by (subst ct c; destruct rev; reflexivity).
    assert (G2 : Rep R m ct ttt) by (subst ct ttt; destruct rev; assumption).
    rewrite G1. cbn [rbind].
    destruct (IH m ct ttt ((pre ++ l) ++ [rev]) (Some (c, rev))) as (r & prev' & c' & F & C2 & C3).
    { rewrite !app_length. cbn [length]. lia. }
    { exact G2. } { lia. } { exact G1. }
    rewrite F. exists r, prev', c'.
    rewrite <- !app_assoc. cbn [app]. auto.
Qed.

Lemma f_finish_spec R n c t pre rev root prev : reads R ->
  length pre + n <= 1023 -> Rep R n c t -> owns root prev c ->
  exists r c', f_finish root rev c n pre prev = Ok (Some (pre ++ fst (t_first false rev t), (r, c'))) /\
    r_apply r c' = snd (t_first false rev t).
Proof.
  intros HR Hn H Ho. unfold f_finish.
  destruct (find_down_spec R n c t pre rev (S n) root prev HR Hn H ltac:(lia) Ho) as (r & prev' & c' & -> & Ho' & A).
  cbn [rbind]. unfold owns in Ho'. rewrite Ho'. cbn [rbind]. exists r, c'. auto.
Qed.

Lemma first_of_labelled s rev t x l : lbl t = x :: l -> t_first s rev t = t_first false rev t.
Proof.
  destruct t as [l0 v|l0 y a b]; cbn [lbl t_first]; [reflexivity|]. intros ->. rewrite !first_cons. reflexivity.
Qed.

Lemma find_loop_spec R n0 c t pre k key n signed rev stack root prev fuel : reads R ->
  n <= 1023 -> Rep R n0 c t -> key = pre ++ k -> length k = n0 -> length key = n -> n0 < fuel ->
  owns root prev c -> last_owner root stack = Ok c -> (length stack =? 0) = (length pre =? 0) ->
  let s := signed && (length pre =? 0) in
  exists x, find_loop fuel c k signed stack prev = Ok x /\
    match t_get t k with
    | Some v => exists r data k' st pv c', x = (FValue r, data, k', st, pv) /\ last_owner root st = Ok c' /\ r_apply r c' = v
    | None => exists b data k' st pv, x = (FDiverge b, data, k', st, pv)
    end /\
    match t_next s rev t k with
    | Some e => exists r c', f_move root key n signed rev x = Ok (Some (pre ++ fst e, (r, c'))) /\ r_apply r c' = snd e
    | None => f_move root key n signed rev x = f_rewind root key n signed rev stack
    end.
Proof.
  intros HR. revert n0 c t pre k stack prev. induction fuel as [|f IH];
    intros n0 c t pre k stack prev Hn H Ek Hk Hkey Hf Ho Hl Hst s; [lia|].
  assert (Hn0 : length pre + n0 = n) by (rewrite <- Hkey, Ek, app_length; lia).
  pose proof (Rep_wft _ _ _ _ H) as Hw. pose proof (lbl_le _ _ Hw) as Ll.
  assert (Hn1 : n0 <= 1023) by lia.
  destruct (Rep_inv R n0 c t HR Hn1 H) as (bits & refs & rest & Ec & Es & El & Ht).
  destruct (read_label_suffix _ _ _ _ Hn1 El) as [e He].
  cbn [find_loop]. rewrite Es. cbn [rbind s_bits s_refs]. rewrite Hk, El. cbn [rbind].
  destruct (key_label_cases k (lbl t) ltac:(lia)) as [[r Er]|(p & z & ka & lb & Ekk & Elb)].
  - rewrite Er, cpfx_self_l. rewrite <- Er.
    destruct t as [l w|l x a b].
    + cbn [lbl t_get t_next] in *. destruct Ht as [Hll Hv]. assert (r = []) as ->.
      { destruct r; [reflexivity|]. subst k. rewrite app_length in Hk. cbn in Hk. lia. }
      rewrite app_nil_r in Er. subst k. rewrite strip_self, Hll, Nat.eqb_refl.
      eexists. split; [reflexivity|]. split.
      * eexists _, _, _, _, _, c. split; [reflexivity|]. split; [exact Hl|].
        rewrite Hv. apply (range_apply c e); subst c; [exact He|reflexivity].
      * reflexivity.
    + cbn [lbl t_get t_next] in *. destruct Ht as (m & cl & cr & Hm & Hrefs & Hrest & Ha & Hb). subst refs.
      destruct r as [|c0 r]; [subst k; rewrite app_nil_r in Hk; lia|].
      pose proof Hk as Hk'. rewrite Er, app_length in Hk'. cbn [length] in Hk'.
      rewrite (proj2 (Nat.eqb_neq (length l) n0)) by lia. rewrite Nat.ltb_irrefl.
      assert (LR : length (c_refs c) <? 2 = false) by (subst c; reflexivity). rewrite LR.
      unfold skip_bits. rewrite Hk, (proj2 (Nat.ltb_ge n0 (length l))) by lia. cbn [rbind]. rewrite Er, drop_app. cbn [load_bit rbind].
      rewrite strip_app.
      set (ct := if c0 then cr else cl). set (ttt := if c0 then b else a).
      assert (G1 : ref_at c0 c = Ok ct) by (subst ct c; destruct c0; reflexivity).
      assert (G2 : Rep R m ct ttt) by (subst ct ttt; destruct c0; assumption).
      set (oc := if c0 then cl else cr). set (ot := if c0 then a else b).
      assert (G3 : ref_at (negb c0) c = Ok oc) by (subst oc c; destruct c0; reflexivity).
      assert (G4 : Rep R m oc ot) by (subst oc ot; destruct c0; assumption).
      rewrite G1. cbn [rbind].
      assert (Lr : length r = m) by lia.
      destruct (IH m ct ttt (pre ++ l ++ [c0]) r (Seg c c0 (length r) :: stack) (Some (c, c0)) Hn G2) as (x0 & F1 & F2 & F3).
      { rewrite Ek, Er, <- !app_assoc. reflexivity. } { exact Lr. } { exact Hkey. } { lia. } { exact G1. } { exact G1. }
      { rewrite !app_length. cbn [length]. symmetry. apply Nat.eqb_neq. lia. }
      exists x0. split; [exact F1|]. split.
      { replace (match c0 with true => t_get b r | false => t_get a r end) with (t_get ttt r) by (subst ttt; destruct c0; reflexivity). exact F2. }
      replace (signed && (length (pre ++ l ++ [c0]) =? 0)) with false in F3
        by (rewrite !app_length; cbn [length]; rewrite (proj2 (Nat.eqb_neq _ 0)) by lia; rewrite andb_false_r; reflexivity).
      fold ttt. destruct (t_next false rev ttt r) as [e0|].
      { destruct F3 as (rr & c' & F3 & F4). exists rr, c'. cbn [fst snd]. split; [|exact F4]. rewrite F3, <- !app_assoc. reflexivity. }
      rewrite F3. unfold f_rewind at 1 2. cbn [find_rewind g_len g_branch g_data].
      replace (n - length r) with (length pre + length l + 1) by lia.
      assert (ES : signed && (length pre + length l + 1 =? 1) = s && (length l =? 0)).
      { subst s. destruct (Nat.eqb_spec (length pre) 0), (Nat.eqb_spec (length l) 0), (Nat.eqb_spec (length pre + length l + 1) 1); try lia; destruct signed; reflexivity. }
      rewrite ES. unfold first. fold ot.
      assert (FS : forall bb, bb = negb c0 ->
        exists r0 c', (let? rkey := put (take (length pre + length l + 1 - 1) key) [] in
           let? rkey0 := put [bb] rkey in let? child := ref_at bb c in f_finish root rev child (length r) rkey0 (Some (c, bb)))
         = Ok (Some (pre ++ l ++ negb c0 :: fst (t_first false rev ot), (r0, c'))) /\ r_apply r0 c' = snd (t_first false rev ot)).
      { intros bb ->. rewrite Ek, Er. replace (length pre + length l + 1 - 1) with (length (pre ++ l)) by (rewrite app_length; lia).
        rewrite (app_assoc pre l (c0 :: r)), take_app. rewrite put_ok by (rewrite app_length; cbn [length]; lia). cbn [rbind app].
        rewrite put_ok by (rewrite app_length; cbn [length]; lia). cbn [rbind]. rewrite G3. cbn [rbind]. rewrite Lr.
        destruct (f_finish_spec R m oc ot ((pre ++ l) ++ [negb c0]) rev root (Some (c, negb c0)) HR) as (r0 & c' & F & A).
        { rewrite !app_length. cbn [length]. lia. } { exact G4. } { exact G3. }
        exists r0, c'. split; [|exact A]. rewrite F, <- !app_assoc. reflexivity. }
      destruct (s && (length l =? 0)) eqn:ESS; cbn [andb negb].
      * rewrite xorb_true_r. destruct (Bool.eqb_spec c0 rev) as [->|Hc]; cbn [negb].
        -- replace (Bool.eqb rev (negb rev)) with false by (destruct rev; reflexivity). reflexivity.
        -- assert (c0 = negb rev) as -> by (destruct c0, rev; cbn; congruence). rewrite Bool.eqb_reflx. apply FS. rewrite negb_involutive. reflexivity.
      * rewrite xorb_false_r. destruct (Bool.eqb_spec c0 rev) as [->|Hc].
        -- apply FS. reflexivity.
        -- reflexivity.
  - assert (cpfx k (lbl t) = p) as Ecp by (rewrite Ekk, Elb; apply cpfx_diverge).
    rewrite Ecp.
    assert (L2 : length p < length (lbl t)) by (rewrite Elb, app_length; cbn [length]; lia).
    assert (Sn : strip (lbl t) k = None).
    { rewrite Ekk, Elb, strip_app_l, strip_app. cbn [strip]. destruct z; reflexivity. }
    pose proof (get_strip _ _ Sn) as Hg. rewrite Hg.
    pose proof Hk as Hk'. rewrite Ekk, app_length in Hk'. cbn [length] in Hk'.
    rewrite (proj2 (Nat.eqb_neq (length p) n0)) by lia.
    rewrite (proj2 (Nat.ltb_lt _ _)) by lia.
    assert (Elk : k !! length p = Some z) by (rewrite Ekk; apply diverge_shape). rewrite Elk. cbn [of_opt rbind].
    eexists. split; [reflexivity|]. split; [eexists _, _, _, _, _; reflexivity|].
    assert (Et : t_next s rev t k = if Bool.eqb z (first s rev p) then Some (t_first s rev t) else None).
    { assert (nth (length p) k false = z) as Ez by (rewrite Ekk, app_nth2, Nat.sub_diag by lia; reflexivity).
      destruct t as [l w|l x a b]; cbn [t_next lbl] in *; rewrite Sn, Ecp, Ez; reflexivity. }
    rewrite Et. cbn [f_move].
    assert (EZ : Bool.eqb (if signed && (length stack =? 0) && (length p =? 0) then negb z else z) rev = Bool.eqb z (first s rev p)).
    { rewrite Hst. fold s. unfold first. destruct (s && (length p =? 0)), z, rev; reflexivity. }
    rewrite EZ. destruct (Bool.eqb z (first s rev p)); [|reflexivity].
    rewrite Hk. replace (n - n0) with (length pre) by lia. rewrite Ek, take_app.
    rewrite put_ok by (cbn [length]; lia). cbn [rbind app].
    destruct (f_finish_spec R n0 c t pre rev root prev HR ltac:(lia) H Ho) as (r0 & c' & F & A).
    assert (t_first s rev t = t_first false rev t) as ->.
    { destruct (lbl t) as [|x l] eqn:Elt; [cbn in L2; lia|]. eapply first_of_labelled. exact Elt. }
    exists r0, c'. auto.
Qed.

(** The whole operation: the entry with the key itself (if inclusive), else the next one. *)
Lemma dict_find_spec R n c t key towards (inclusive : bool) signed : reads R -> n <= 1023 -> Rep R n c t -> length key = n ->
  match (match (if inclusive then t_get t key else None) with
         | Some v => Some (key, v)
         | None => t_next signed (negb towards) t key
         end) with
  | Some e => exists r c', dict_find_owned (Some c) n key towards inclusive signed = Ok (Some (fst e, (r, c'))) /\ r_apply r c' = snd e
  | None => dict_find_owned (Some c) n key towards inclusive signed = Ok None
  end.
Proof.
  intros HR Hn H Hk. rewrite dict_find_owned_eq by exact Hk.
  destruct (find_loop_spec R n c t [] key key n signed (negb towards) [] c None (S n) HR Hn H eq_refl Hk Hk ltac:(lia) eq_refl eq_refl eq_refl) as (x & E1 & E2 & E3).
  cbn [length Nat.eqb] in E3. rewrite andb_true_r in E3. rewrite E1. cbn [rbind].
  destruct (t_get t key) as [v|].
  - destruct E2 as (r & data & k' & st & pv & c' & -> & El & A). destruct inclusive.
    + rewrite El. cbn [rbind]. rewrite put_ok by (cbn [length]; lia). cbn [rbind app]. exists r, c'. auto.
    + destruct (t_next signed (negb towards) t key) as [e|]; [destruct E3 as (r1 & c1 & E3 & E4); exists r1, c1; rewrite E3; auto|].
      rewrite E3. reflexivity.
  - destruct E2 as (b & data & k' & st & pv & ->).
    replace (if inclusive then (None : option chunk) else None) with (None : option chunk) by (destruct inclusive; reflexivity).
    destruct (t_next signed (negb towards) t key) as [e|]; [destruct E3 as (r1 & c1 & E3 & E4); exists r1, c1; rewrite E3; auto|].
    rewrite E3. reflexivity.
Qed.
