(** * Bounds and neighbours: the walks. *)
From Verif Require Import Err BitsProofs CellModel LabelModel LabelSpec LabelProofs DictModel DictSpec DictTree DictProofs DictProofs2 DictProofs3 DictOrder.
Local Open Scope nat_scope.

Lemma put_or_skip (p key : list bool) : length key + length p <= 1023 ->
  (if length p =? 0 then Ok key else put p key) = Ok (key ++ p).
Proof.
  intros H. destruct p as [|x p]; cbn [length Nat.eqb]; [rewrite app_nil_r; reflexivity|]. apply put_ok. exact H.
Qed.

(** How the direction argument relates to the remaining sign handling. *)
Definition dir_ok (bound signed : bool) (dir : option bool) (s : bool) : Prop :=
  (dir = None /\ s = signed) \/ (dir = Some bound /\ s = false).
Lemma dir_step bound signed dir s l : dir_ok bound signed dir s ->
  update_direction bound l signed dir = (first s bound l, Some bound).
Proof.
  intros [[-> ->]|[-> ->]]; cbn [update_direction].
  - unfold first. destruct (signed && (length l =? 0)); destruct bound; reflexivity.
  - rewrite first_false. reflexivity.
Qed.

Lemma find_bound_spec R n c t pre bound signed dir s fuel root prev : reads R ->
  length pre + n <= 1023 -> Rep R n c t -> n < fuel -> dir_ok bound signed dir s -> owns root prev c ->
  exists d data prev' c', as_slice c = Ok d /\
    find_bound_loop fuel d n pre bound signed dir prev = Ok (pre ++ fst (t_first s bound t), data, prev') /\
    s_chunk data = snd (t_first s bound t) /\ owns root prev' c' /\ r_apply (s_range data) c' = snd (t_first s bound t).
Proof.
  intros HR. revert n c t pre dir s prev. induction fuel as [|f IH]; intros n c t pre dir s prev Hn H Hf Hd Ho; [lia|].
  pose proof (Rep_wft _ _ _ _ H) as Hw. pose proof (lbl_le _ _ Hw) as Ll.
  destruct (Rep_inv R n c t HR ltac:(lia) H) as (bits & refs & rest & Ec & Es & El & Ht).
  assert (Hn1 : n <= 1023) by lia. destruct (read_label_suffix _ _ _ _ Hn1 El) as [e He].
  exists (Sl c bits refs). cbn [find_bound_loop s_bits s_cell s_refs]. rewrite El. cbn [rbind].
  rewrite put_or_skip by lia. cbn [rbind]. rewrite (proj2 (Nat.ltb_ge _ _)) by lia.
  destruct t as [l v|l x a b]; cbn [lbl t_first fst snd] in *.
  - destruct Ht as [Hl Hv]. rewrite Hl, Nat.sub_diag. cbn [Nat.eqb].
    exists (Sl c rest refs), prev, c. split; [exact Es|]. split; [reflexivity|]. split; [symmetry; exact Hv|]. split; [exact Ho|].
    rewrite Hv. apply (range_apply c e); subst c; [exact He|reflexivity].
  - destruct Ht as (m & cl & cr & Hm & Hrefs & Hrest & Ha & Hb). subst refs.
    rewrite (proj2 (Nat.eqb_neq _ _)) by lia. cbn [length]. rewrite (proj2 (Nat.ltb_ge _ _)) by lia.
    rewrite (dir_step bound signed dir s l Hd). rewrite put_ok by (rewrite app_length; cbn [length]; lia). cbn [rbind].
    replace (n - length l - 1) with m by lia.
    set (z := first s bound l). set (ct := if z then cr else cl). set (ttt := if z then b else a).
    assert (G1 : ref_at z c = Ok ct) by (subst ct c; destruct z; reflexivity).
    assert (G2 : Rep R m ct ttt) by (subst ct ttt; destruct z; assumption).
    rewrite G1. cbn [rbind].
    destruct (IH m ct ttt ((pre ++ l) ++ [z]) (Some bound) false (Some (c, z))) as (d & data & prev' & c' & D & F & C1 & C2 & C3).
    { rewrite !app_length. cbn [length]. lia. }
    { exact G2. } { lia. } { right. auto. } { exact G1. }
    rewrite D. cbn [rbind]. rewrite F. exists data, prev', c'. split; [exact Es|].
    rewrite <- !app_assoc. cbn [app]. auto.
Qed.

Section W.
Context (fin : list bool -> list cell -> res unit).
Notation CR := (canonical_dict fin).

(** [g_len] plays no role in rebuilding. *)
Definition zlen (g : seg) : seg := Seg (g_data g) (g_branch g) 0.
Lemma rebuild_zlen st c : rebuild fin (map zlen st) c = rebuild fin st c.
Proof.
  revert c. induction st as [|g st IH]; intros c; [reflexivity|]. cbn [map rebuild zlen g_branch g_data].
  match goal with |- rbind ?A _ = rbind ?A _ => destruct A as [[lc rc]|]; cbn [rbind]; [|reflexivity] end.
  destruct (put _ _); cbn [rbind]; [|reflexivity].
  destruct (putr _ _); cbn [rbind]; [|reflexivity].
  destruct (putr _ _); cbn [rbind]; [|reflexivity].
  destruct (build _ _); cbn [rbind]; [|reflexivity]. apply IH.
Qed.
Lemma removed_zlen g k p : rebuild_as_removed fin (zlen g) k p = rebuild_as_removed fin g k p.
Proof. reflexivity. Qed.

Lemma remove_bound_walk R n c t pre bound signed dir s fuel plen stack : reads R ->
  length pre + n <= 1023 -> Rep R n c t -> n < fuel -> dir_ok bound signed dir s ->
  exists st r pl k', find_remove_loop fuel c (fst (t_first s bound t)) plen stack = Ok (Some (st, r, pl, k')) /\
    remove_bound_loop fuel c n pre bound signed dir plen (map zlen stack) =
      Ok (map zlen st, r, pl, length k', pre ++ fst (t_first s bound t)).
Proof.
  intros HR. revert n c t pre dir s plen stack. induction fuel as [|f IH]; intros n c t pre dir s plen stack Hn H Hf Hd; [lia|].
  pose proof (Rep_wft _ _ _ _ H) as Hw. pose proof (lbl_le _ _ Hw) as Ll.
  destruct (Rep_inv R n c t HR ltac:(lia) H) as (bits & refs & rest & Ec & Es & El & Ht).
  cbn [find_remove_loop remove_bound_loop]. rewrite Es. cbn [rbind s_bits s_refs].
  pose proof (t_get_len _ _ _ _ Hw (t_first_get s bound t)) as Lk. rewrite Lk, El. cbn [rbind].
  rewrite put_or_skip by lia. cbn [rbind]. rewrite (proj2 (Nat.ltb_ge n (length (lbl t)))) by lia.
  destruct t as [l v|l x a b]; cbn [lbl t_first fst snd] in *.
  - destruct Ht as [Hl Hv].
    assert (cpfx l l = l) as -> by (pose proof (cpfx_self_l l []) as K; rewrite app_nil_r in K; exact K).
    rewrite Hl, Nat.sub_diag, Nat.eqb_refl. cbn [Nat.eqb].
    eexists _, _, _, _. split; [reflexivity|]. rewrite Hl. reflexivity.
  - destruct Ht as (m & cl & cr & Hm & Hrefs & Hrest & Ha & Hb). subst refs.
    rewrite (dir_step bound signed dir s l Hd).
    set (z := first s bound l) in *. set (ct := if z then cr else cl). set (ttt := if z then b else a) in *.
    rewrite cpfx_self_l. rewrite (proj2 (Nat.eqb_neq _ _)) by lia. rewrite Nat.ltb_irrefl.
    rewrite (proj2 (Nat.eqb_neq (n - length l) 0)) by lia.
    assert (LR : length (c_refs c) <? 2 = false) by (subst c; reflexivity). rewrite LR.
    cbn [length]. cbn [Nat.ltb Nat.leb].
    unfold skip_bits. rewrite (proj2 (Nat.ltb_ge _ _)) by lia. cbn [rbind]. rewrite drop_app. cbn [load_bit rbind].
    rewrite put_ok by (rewrite app_length; cbn [length]; lia). cbn [rbind].
    assert (G1 : ref_at z c = Ok ct) by (subst ct c; destruct z; reflexivity).
    assert (G2 : Rep R m ct ttt) by (subst ct ttt; destruct z; assumption).
    rewrite G1. cbn [rbind]. replace (n - length l - 1) with m by lia.
    destruct (IH m ct ttt ((pre ++ l) ++ [z]) (Some bound) false n (Seg c z n :: stack)) as (st & r & pl & k' & F1 & F2).
    { rewrite !app_length. cbn [length]. lia. }
    { exact G2. } { lia. } { right. auto. }
    rewrite F1. cbn [map] in F2. change (zlen (Seg c z n)) with (Seg c z 0) in F2. rewrite F2.
    exists st, r, pl, k'. split; [reflexivity|]. rewrite <- !app_assoc. reflexivity.
Qed.

(** ** Whole operations *)
Lemma dict_remove_sound R n d es k sub : reads R -> writes fin R -> n <= 1023 -> is_dict R n d es -> length k = n ->
  match dmap es !! k with
  | None => dict_remove_owned fin d k n sub = Ok (None, d)
  | Some v =>
    match dict_remove_owned fin d k n sub with
    | Ok (o, d') => (exists r c, o = Some (r, c) /\ r_apply r c = v) /\
        exists es', is_dict R n d' es' /\ dmap es' = delete k (dmap es)
    | Err _ => True
    end
  end.
Proof.
  intros HR HW Hn Hd Hk. unfold dict_remove_owned. rewrite Hk, Nat.eqb_refl. cbn [negb]. rewrite andb_false_r.
  destruct d as [c|]; cbn [is_dict] in Hd; [|subst es; cbn; rewrite lookup_empty; reflexivity].
  apply hashmap_rep in Hd. destruct Hd as (t & H & ->). rewrite t_get_spec.
  pose proof (find_remove_spec fin R n c t k (S n) n [] HR HW Hn H Hk ltac:(lia)) as S.
  pose proof (Rep_wft _ _ _ _ H) as Hw. pose proof (t_rem_map n t k Hw) as M.
  destruct (t_get t k) as [v|]; [|rewrite S; reflexivity].
  destruct (t_rem t k) as [t'|]; cbn [oentries] in M.
  - destruct S as (r & res & E1 & E2 & _). unfold rem_out in E1.
    destruct (find_remove_loop (Datatypes.S n) c k n []) as [[[[[[|last st] r'] pl] k']|]|]; cbn [rbind] in E1 |- *.
    + destruct res as [[value c1]|]; discriminate.
    + destruct (rebuild_as_removed fin last (length k') pl) as [[leaf value]|]; cbn [rbind] in E1 |- *; [|exact I].
      destruct (rebuild fin st leaf) as [c2|]; cbn [rbind] in E1 |- *; [|exact I].
      destruct res as [[value' c1]|]; cbn [rbind rebuild] in E1; [|discriminate]. injection E1 as -> -> ->.
      destruct E2 as [E2 E3]. split; [eexists _, _; split; [reflexivity|exact E2]|].
      exists (entries t'). split; [apply hashmap_rep; eauto|exact M].
    + destruct res as [[value c1]|]; discriminate.
    + exact I.
  - destruct S as (r & E1 & E2). rewrite E1. cbn [rbind].
    split; [eexists _, _; split; [reflexivity|exact E2]|]. exists []. split; [reflexivity|exact M].
Qed.

Lemma plain_rem t k t' : plain t -> t_rem t k = Some t' -> plain t'.
Proof.
  revert k t'. induction t as [l w|l x a IHa b IHb]; intros k t' P; cbn [t_rem plain] in *.
  - destruct (strip l k) as [[|]|]; intros [= <-]; exact I.
  - destruct P as (-> & Pa & Pb). destruct (strip l k) as [[|[] r]|]; try (intros [= <-]; cbn [plain]; auto).
    + destruct (t_rem b r) as [b'|] eqn:E; intros [= <-]; cbn [plain]; [eauto|destruct a; exact Pa].
    + destruct (t_rem a r) as [a'|] eqn:E; intros [= <-]; cbn [plain]; [eauto|destruct b; exact Pb].
Qed.

Lemma dict_remove_complete n d es k v sub d' es' : n <= 1023 -> is_dict CR n d es -> length k = n ->
  dmap es !! k = Some v -> is_dict CR n d' es' -> dmap es' = delete k (dmap es) ->
  exists o, dict_remove_owned fin d k n sub = Ok (o, d').
Proof.
  intros Hn Hd Hk Hv Hd' Hm. unfold dict_remove_owned. rewrite Hk, Nat.eqb_refl. cbn [negb]. rewrite andb_false_r.
  pose proof (reads_canonical fin) as HR. pose proof (writes_canonical fin) as HW.
  destruct d as [c|]; cbn [is_dict] in Hd; [|subst es; cbn in Hv; rewrite lookup_empty in Hv; discriminate].
  apply hashmap_rep in Hd. destruct Hd as (t & H & ->). rewrite t_get_spec in Hv.
  pose proof (find_remove_spec fin CR n c t k (S n) n [] HR HW Hn H Hk ltac:(lia)) as S. rewrite Hv in S.
  pose proof (Rep_wft _ _ _ _ H) as Hw. pose proof (t_rem_map n t k Hw) as M.
  destruct (t_rem t k) as [t'|] eqn:Et; cbn [oentries] in M.
  - destruct S as (r & res & E1 & E2 & E3). specialize (E3 H).
    destruct d' as [c'|]; cbn [is_dict] in Hd'.
    2:{ subst es'. destruct (t_nonempty n t' (t_rem_wft _ _ _ _ Hw Et)) as (q & w & G).
        rewrite <- t_get_spec, M, <- Hm in G. cbn in G. rewrite lookup_empty in G. discriminate. }
    apply hashmap_rep in Hd'. destruct Hd' as (t2 & H' & ->).
    assert (t2 = t') as ->.
    { apply (t_ext n); [eapply Rep_wft; eassumption|eapply t_rem_wft; eassumption
      |eapply (Rep_plain CR fin); [apply writes_canonical|eassumption]
      |eapply plain_rem; [eapply (Rep_plain CR fin); [apply writes_canonical|exact H]|exact Et]|].
      intros q. rewrite <- !t_get_spec, Hm, M. reflexivity. }
    destruct res as [[value c1]|]; [|destruct (E3 _ H')].
    assert (c1 = c') as -> by (eapply Rep_canonical_det; eassumption).
    unfold rem_out in E1. cbn [rbind rebuild] in E1.
    destruct (find_remove_loop (Datatypes.S n) c k n []) as [[[[[[|last st] r'] pl] k']|]|]; cbn [rbind] in E1 |- *; try discriminate.
    destruct (rebuild_as_removed fin last (length k') pl) as [[leaf value']|]; cbn [rbind] in E1 |- *; [|discriminate].
    destruct (rebuild fin st leaf) as [c2|]; cbn [rbind] in E1 |- *; [|discriminate].
    injection E1 as -> -> ->. eexists. reflexivity.
  - destruct S as (r & E1 & E2). rewrite E1. cbn [rbind].
    destruct (dict_unique fin n d' None es' [] Hd' eq_refl) as [-> _]; [rewrite Hm, <- M; reflexivity|].
    eexists. reflexivity.
Qed.

(** Removing a bound is removing its key. *)
Lemma dict_remove_bound_eq R n c t bound signed : reads R -> n <= 1023 -> Rep R n c t ->
  dict_remove_bound_owned fin (Some c) n bound signed =
    (let? (o, d') := dict_remove_owned fin (Some c) (fst (t_first signed bound t)) n false in
     Ok (option_map (fun p => (fst (t_first signed bound t), p)) o, d')).
Proof.
  intros HR Hn H. unfold dict_remove_bound_owned, dict_remove_owned.
  pose proof (t_get_len _ _ _ _ (Rep_wft _ _ _ _ H) (t_first_get signed bound t)) as Lk.
  rewrite Lk, Nat.eqb_refl. cbn [negb andb].
  destruct (remove_bound_walk R n c t [] bound signed None signed (S n) n [] HR ltac:(cbn; lia) H ltac:(lia) ltac:(left; auto)) as (st & r & pl & k' & E1 & E2).
  cbn [map] in E2. rewrite E1, E2. cbn [rbind app].
  destruct st as [|last st]; cbn [map rbind option_map]; [reflexivity|]. rewrite removed_zlen.
  destruct (rebuild_as_removed fin last (length k') pl) as [[leaf value]|]; cbn [rbind]; [|reflexivity]. rewrite rebuild_zlen.
  destruct (rebuild fin st leaf); reflexivity.
Qed.
End W.
