(** * Removal by key. *)
From Verif Require Import Err BitsProofs CellModel LabelModel LabelSpec LabelProofs DictModel DictSpec DictTree DictProofs DictProofs2.
Local Open Scope nat_scope.

Section W.
Context (fin : list bool -> list cell -> res unit).
Notation CR := (canonical_dict fin).
Notation cell_ok := (cell_ok fin).

(** The edge that replaces a fork when one of its branches goes away. *)
Lemma relink n l bit t rest refs : n <= 1023 -> length l + 1 + length (lbl t) <= n ->
  forall c, (let? b := write_label_parts l bit (lbl t) n [] in
     let? ch := putc (rest, refs) (b, []) in build fin ch) = Ok c <->
    c = Cell false (label_bits n (l ++ bit :: lbl t) ++ rest) refs /\
    cell_ok (label_bits n (l ++ bit :: lbl t) ++ rest) refs.
Proof.
  intros Hn Hl c. rewrite write_label_parts_spec by assumption.
  assert (E : make_leaf fin (l ++ bit :: lbl t) n (rest, refs) =
    (let? b := if length (label_bits n (l ++ bit :: lbl t)) <=? 1023
              then Ok (label_bits n (l ++ bit :: lbl t)) else Err InvalidData in
     let? ch := putc (rest, refs) (b, []) in build fin ch)).
  { unfold make_leaf. rewrite write_label_spec by (rewrite ?app_length; cbn [length]; lia). reflexivity. }
  rewrite <- E. rewrite make_leaf_iff by (rewrite ?app_length; cbn [length]; lia). reflexivity.
Qed.

Lemma removed_spec R n bits x l a b (br : bool) m len cl cr : reads R -> writes fin R -> n <= 1023 ->
  read_label n bits = Ok (l, fst x) -> n = length l + S m ->
  Rep R m cl a -> Rep R m cr b ->
  let o := (if br then a else b) in let oc := (if br then cl else cr) in
  match rebuild_as_removed fin (Seg (Cell false bits (cl :: cr :: snd x)) br len) m n with
  | Ok (leaf, value) => value = (if br then cr else cl) /\ Rep R n leaf (relabel (l ++ negb br :: lbl o) o)
  | Err _ => Rep CR m oc o -> forall c', ~ Rep CR n c' (relabel (l ++ negb br :: lbl o) o)
  end.
Proof.
  intros HR HW Hn El Hm Ha Hb. set (o := if br then a else b). set (oc := if br then cl else cr). cbv zeta.
  assert (Ho : Rep R m oc o) by (subst o oc; destruct br; assumption).
  unfold rebuild_as_removed. cbn [g_branch g_data].
  assert (E1 : ref_at br (Cell false bits (cl :: cr :: snd x)) = Ok (if br then cr else cl)) by (destruct br; reflexivity).
  assert (E2 : ref_at (negb br) (Cell false bits (cl :: cr :: snd x)) = Ok oc) by (subst oc; destruct br; reflexivity).
  rewrite E1. cbn [rbind as_slice_allow_exotic s_bits c_bits]. rewrite El. cbn [rbind]. rewrite E2. cbn [rbind].
  destruct (Rep_inv R m oc o HR ltac:(lia) Ho) as (ob & orf & orest & Ec & Es & Elo & _).
  pose proof (Rep_content fin R HR HW _ _ _ _ _ _ Ho ltac:(lia) Ec Elo) as Hc.
  rewrite Es. cbn [rbind s_bits s_refs]. rewrite Elo. cbn [rbind].
  pose proof (Rep_wft _ _ _ _ Ho) as Hw. pose proof (lbl_le _ _ Hw) as Hl.
  pose proof (relink n l (negb br) o orest orf Hn ltac:(lia)) as K.
  assert (W : wft n (relabel (l ++ negb br :: lbl o) o)).
  { eapply relabel_wft; [exact Hw|]. rewrite app_length. cbn [length]. lia. }
  match goal with |- match (let? b := ?A in let? ch := @?B b in let? leaf := @?D ch in _) with _ => _ end =>
    set (X := let? b := A in let? ch := B b in D ch) in *;
    replace (let? b := A in let? ch := B b in let? leaf := D ch in Ok (leaf, if br then cr else cl))
      with (let? leaf := X in Ok (leaf, if br then cr else cl))
      by (subst X; destruct A as [b0|]; cbn [rbind]; [destruct (B b0); reflexivity|reflexivity])
  end.
  destruct X as [leaf|]; cbn [rbind].
  - split; [reflexivity|]. destruct (proj1 (K leaf) eq_refl) as [-> Hok].
    exact (Rep_relabel fin R HW n o (orest, orf) _ Hc W Hn Hok).
  - intros HC c' H'.
    assert (Hc' : has_content CR o (orest, orf)).
    { eapply Rep_content; [apply reads_canonical|apply writes_canonical|exact HC|lia|exact Ec|exact Elo]. }
    apply (Rep_relabel_inv fin _ _ _ _ _ Hc') in H'. cbn [fst snd] in H'.
    apply (proj2 (K c')) in H'. discriminate.
Qed.

(** A fork rebuilt with one new branch. *)
Lemma node_fork R n bits x l a b (br : bool) m cl cr c t' c2 c' : writes fin R ->
  Rep R n c (Fork l x a b) -> c = Cell false bits (cl :: cr :: snd x) -> n = length l + S m ->
  Rep R m cl a -> Rep R m cr b -> Rep R m c2 t' ->
  node fin bits (if br then cl else c2) (if br then c2 else cr) = Ok c' ->
  Rep R n c' (Fork l x (if br then a else t') (if br then t' else b)).
Proof.
  intros HW H -> Hm Ha Hb Ht En. apply node_iff in En. destruct En as [-> (C1 & C2 & C3)].
  inversion H as [|n' m' bits' l' x' cl' cr' a' b' H1 H2 H3 H4 HL HRR]; subst n' bits' l' x' cl' cr' a' b'.
  destruct HW as (W1 & W2 & W3 & W4). pose proof (W2 _ H3) as Hx. rewrite Hx in *. cbn [fst snd] in *.
  destruct br; apply (Rep_fork R _ m bits l ([], [])); cbn [fst snd]; try assumption; apply W4; assumption.
Qed.

Definition rem_out (o : res (option (list seg * range * nat * list bool))) : res (option (range * cell * cell)) :=
  let? o := o in
  match o with
  | Some (last :: stack, r, plen, k') =>
    let? (leaf, value) := rebuild_as_removed fin last (length k') plen in
    let? c := rebuild fin stack leaf in Ok (Some (r, value, c))
  | _ => Ok None
  end.

Lemma find_remove_spec R n c t key fuel plen stack : reads R -> writes fin R ->
  n <= 1023 -> Rep R n c t -> length key = n -> n < fuel ->
  match t_get t key with
  | None => find_remove_loop fuel c key plen stack = Ok None
  | Some v =>
    match t_rem t key with
    | None => exists r, find_remove_loop fuel c key plen stack = Ok (Some (stack, r, plen, key)) /\ r_apply r c = v
    | Some t' => exists r res,
        rem_out (find_remove_loop fuel c key plen stack) =
          (let? (value, c1) := res in let? c2 := rebuild fin stack c1 in Ok (Some (r, value, c2))) /\
        match res with Ok (value, c1) => r_apply r value = v /\ Rep R n c1 t' | Err _ => True end /\
        (Rep CR n c t -> match res with Ok (_, c1) => Rep CR n c1 t' | Err _ => forall c', ~ Rep CR n c' t' end)
    end
  end.
Proof.
  intros HR HW. revert n c t key plen stack. induction fuel as [|f IH]; intros n c t key plen stack Hn H Hk Hf; [lia|].
  pose proof (Rep_wft _ _ _ _ H) as Hw.
  destruct (Rep_inv R n c t HR Hn H) as (bits & refs & rest & Ec & Es & El & Ht).
  destruct (read_label_suffix _ _ _ _ Hn El) as [e He].
  cbn [find_remove_loop]. rewrite Es. cbn [rbind s_bits s_refs]. rewrite Hk, El. cbn [rbind].
  pose proof (lbl_le _ _ Hw) as Ll.
  destruct (key_label_cases key (lbl t) ltac:(lia)) as [[r Er]|(p & z & ka & lb & Ek & Elb)].
  - rewrite Er, cpfx_self_l. rewrite <- Er.
    destruct t as [l w|l x a b]; cbn [lbl t_get t_rem] in *.
    + destruct Ht as [Hl Hv]. assert (r = []) as ->.
      { destruct r; [reflexivity|]. subst key. rewrite app_length in Hk. cbn in Hk. lia. }
      rewrite app_nil_r in Er. subst key. rewrite strip_self, Hl, Nat.eqb_refl.
      eexists. split; [reflexivity|]. rewrite Hv. apply (range_apply c e); subst c; [exact He|reflexivity].
    + destruct Ht as (m & cl & cr & Hm & Hrefs & Hrest & Ha & Hb). subst refs.
      destruct r as [|c0 r]; [subst key; rewrite app_nil_r in Hk; lia|].
      pose proof Hk as Hk'. rewrite Er, app_length in Hk'. cbn [length] in Hk'.
      rewrite (proj2 (Nat.eqb_neq _ _)) by lia. rewrite Nat.ltb_irrefl.
      subst c. cbn [c_refs length]. rewrite (proj2 (Nat.ltb_ge _ _)) by lia.
      unfold skip_bits. rewrite Hk, (proj2 (Nat.ltb_ge _ _)) by lia. cbn [rbind]. rewrite Er, drop_app. cbn [load_bit rbind].
      rewrite strip_app.
      set (ct := if c0 then cr else cl). set (tt := if c0 then b else a).
      assert (G1 : ref_at c0 (Cell false bits (cl :: cr :: snd x)) = Ok ct) by (subst ct; destruct c0; reflexivity).
      assert (G2 : Rep R m ct tt) by (subst ct tt; destruct c0; assumption).
      rewrite G1. cbn [rbind].
      specialize (IH m ct tt r n (Seg (Cell false bits (cl :: cr :: snd x)) c0 n :: stack) ltac:(lia) G2 ltac:(lia) ltac:(lia)).
      replace (match c0 with true => t_get b r | false => t_get a r end) with (t_get tt r) by (subst tt; destruct c0; reflexivity).
      destruct (t_get tt r) as [v|] eqn:Eg; [|exact IH].
      destruct (t_rem tt r) as [t'|] eqn:Et.
      * (* deeper *)
        assert (ET : (if c0 then match t_rem b r with None => Some (relabel (l ++ false :: lbl a) a) | Some b' => Some (Fork l x a b') end
                     else match t_rem a r with None => Some (relabel (l ++ true :: lbl b) b) | Some a' => Some (Fork l x a' b) end)
                     = Some (Fork l x (if c0 then a else t') (if c0 then t' else b))).
        { subst tt; destruct c0; rewrite Et; reflexivity. }
        replace (match c0 with true => _ | false => _ end) with (Some (Fork l x (if c0 then a else t') (if c0 then t' else b))) by (rewrite <- ET; destruct c0; reflexivity).
        destruct IH as (rr & res & E1 & E2 & E3). exists rr.
        exists (let? (value, c1) := res in let? c2 := node fin bits (if c0 then cl else c1) (if c0 then c1 else cr) in Ok (value, c2)).
        split; [|split].
        { rewrite E1. destruct res as [[value c1]|]; cbn [rbind]; [|reflexivity]. rewrite rebuild_step. destruct (node _ _ _ _); reflexivity. }
        { destruct res as [[value c1]|]; cbn [rbind]; [|exact I]. destruct E2 as [E2 E4].
          destruct (node fin bits (if c0 then cl else c1) (if c0 then c1 else cr)) as [c2|] eqn:En; cbn [rbind]; [|exact I].
          split; [exact E2|]. eapply node_fork; [exact HW|exact H|reflexivity|exact Hm|exact Ha|exact Hb| |exact En].
          exact E4. }
        intros HC. pose proof HC as HC0. apply Rep_canon_fork in HC. destruct HC as (m1 & cl1 & cr1 & EC & Hok & Hx & Hm1 & Ha1 & Hb1).
        subst x. cbn [fst snd] in *. injection EC as EB <- <-. assert (m1 = m) as -> by lia.
        assert (G3 : Rep CR m ct tt) by (subst ct tt; destruct c0; assumption). specialize (E3 G3).
        destruct res as [[value c1]|]; cbn [rbind].
        -- destruct (node fin bits (if c0 then cl else c1) (if c0 then c1 else cr)) as [c2|] eqn:En; cbn [rbind].
           { eapply node_fork; [apply writes_canonical|exact HC0|reflexivity|exact Hm|exact Ha1|exact Hb1|exact E3|exact En]. }
           intros c' HC'. apply Rep_canon_fork in HC'.
           destruct HC' as (m2 & cl2 & cr2 & -> & Hok' & _ & Hm2 & Ha2 & Hb2). assert (m2 = m) as -> by lia.
           assert (X : cl2 = (if c0 then cl else c1) /\ cr2 = (if c0 then c1 else cr)).
           { destruct c0; split; eapply Rep_canonical_det; eassumption. }
           destruct X as [-> ->].
           pose proof (proj2 (node_iff fin bits _ _ _) (conj eq_refl (eq_ind_r (fun z => cell_ok z _) Hok' EB))). congruence.
        -- intros c' HC'. apply Rep_canon_fork in HC'.
           destruct HC' as (m2 & cl2 & cr2 & -> & Hok' & _ & Hm2 & Ha2 & Hb2). assert (m2 = m) as -> by lia.
           destruct c0; eapply E3; eassumption.
      * (* this fork goes away *)
        assert (ET : (if c0 then match t_rem b r with None => Some (relabel (l ++ false :: lbl a) a) | Some b' => Some (Fork l x a b') end
                     else match t_rem a r with None => Some (relabel (l ++ true :: lbl b) b) | Some a' => Some (Fork l x a' b) end)
                     = Some (relabel (l ++ negb c0 :: lbl (if c0 then a else b)) (if c0 then a else b))).
        { subst tt; destruct c0; rewrite Et; reflexivity. }
        replace (match c0 with true => _ | false => _ end) with (Some (relabel (l ++ negb c0 :: lbl (if c0 then a else b)) (if c0 then a else b))) by (rewrite <- ET; destruct c0; reflexivity).
        destruct IH as (rr & E1 & E2). exists rr. rewrite E1. unfold rem_out. cbn [rbind].
        assert (length r = m) as -> by lia.
        set (S := Seg (Cell false bits (cl :: cr :: snd x)) c0 n).
        exists (let? (leaf, value) := rebuild_as_removed fin S m n in Ok (value, leaf)).
        pose proof (removed_spec R n bits x l a b c0 m n cl cr HR HW Hn ltac:(rewrite El, Hrest; reflexivity) Hm Ha Hb) as K. cbv zeta in K.
        split; [|split].
        -- fold S. destruct (rebuild_as_removed fin S m n) as [[leaf value]|]; reflexivity.
        -- fold S in K. destruct (rebuild_as_removed fin S m n) as [[leaf value]|]; cbn [rbind]; [|exact I].
           destruct K as [-> K]. split; [exact E2|exact K].
        -- intros HC. apply Rep_canon_fork in HC. destruct HC as (m1 & cl1 & cr1 & EC & Hok & Hx & Hm1 & Ha1 & Hb1).
           subst x. cbn [fst snd] in *. injection EC as EB <- <-. assert (m1 = m) as -> by lia.
           pose proof (removed_spec CR n bits ([], []) l a b c0 m n cl cr (reads_canonical fin) (writes_canonical fin) Hn ltac:(rewrite El, Hrest; reflexivity) Hm Ha1 Hb1) as K'.
           cbv zeta in K'. cbn [snd] in K'. fold S in K'.
           destruct (rebuild_as_removed fin S m n) as [[leaf value]|]; cbn [rbind].
           ++ apply K'.
           ++ apply K'. destruct c0; assumption.
  - assert (cpfx key (lbl t) = p) as -> by (rewrite Ek, Elb; apply cpfx_diverge).
    assert (L2 : length p < length (lbl t)) by (rewrite Elb, app_length; cbn [length]; lia).
    assert (t_get t key = None) as Hg.
    { apply get_strip. rewrite Ek, Elb, strip_app_l, strip_app. cbn [strip]. destruct z; reflexivity. }
    rewrite Hg. pose proof Hk as Hk'. rewrite Ek, app_length in Hk'. cbn [length] in Hk'.
    rewrite (proj2 (Nat.eqb_neq _ _)) by lia.
    rewrite (proj2 (Nat.ltb_lt _ _)) by lia. reflexivity.
Qed.
End W.
