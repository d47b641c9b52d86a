(** * Iterators visit the entries of a dictionary in order. *)
From Verif Require Import Err BitsProofs CellModel LabelModel LabelSpec LabelProofs DictModel DictSpec DictTree DictProofs DictOrder IterModel.
Local Open Scope nat_scope.

Lemma take_pad {A} i (l : list A) x : take i (l ++ x :: replicate i x) = take i (l ++ replicate i x).
Proof.
  rewrite <- replicate_S, replicate_S_end, app_assoc. rewrite take_app_le; [reflexivity|].
  rewrite app_length, replicate_length. lia.
Qed.

Section It.
Context (R : rules) (HR : reads R) (rev signed : bool) (n : nat) (Hn : n <= 1023).

Definition no_rest {A} (rest : list A) : bool := match rest with [] => true | _ => false end.
Definition sgn (rest : list iseg) : bool := signed && no_rest rest.
Definition part (P : list bool) (a b : pt) (z : bool) : list entry :=
  under (P ++ [z]) (t_list false rev (if z then b else a)).
Definition todo (P : list bool) (a b : pt) (f : bool) (o : nat) : list entry :=
  match o with 0 => part P a b f ++ part P a b (negb f) | 1 => part P a b (negb f) | _ => [] end.

Inductive stack_inv : list iseg -> list bool -> list entry -> Prop :=
| si_nil : stack_inv [] [] []
| si_cons rest Q es bits xs sb a b l m cl cr bit o P :
    stack_inv rest Q es -> Rep R m cl a -> Rep R m cr b -> o <= 2 ->
    P = Q ++ (if no_rest rest then [] else [bit]) ++ l -> length P + S m = n ->
    stack_inv (ISeg (Sl (Cell false bits (cl :: cr :: xs)) sb (drop o (cl :: cr :: xs))) m (Some l) :: rest) P
      (todo P a b (first (sgn rest) rev l) o ++ es).

(** The cell that the item just returned is stored in. *)
Definition owner_of (root : cell) (segs : list iseg) : res cell :=
  match segs with
  | [] => Ok root
  | g :: _ =>
    match i_prefix g with
    | None => Err Panic
    | Some prefix =>
      if (offset_refs (i_data g) =? 1) || (offset_refs (i_data g) =? 2) then
        ref_at (xorb (xorb (negb (offset_refs (i_data g) =? 1)) rev) (signed && (length segs =? 1) && (length prefix =? 0)))
          (s_cell (i_data g))
      else Err Panic
    end
  end.

Lemma sgn_len (g : iseg) rest : (length (g :: rest) =? 1) = no_rest rest.
Proof. destruct rest; reflexivity. Qed.

Lemma rewind_ok (P J : list bool) : rewind (length J) (P ++ J) = Ok P.
Proof.
  unfold rewind. destruct (Nat.eqb_spec (length J) 0) as [E|E].
  - apply nil_length_inv in E. subst J. rewrite app_nil_r. reflexivity.
  - rewrite app_length, (proj2 (Nat.ltb_ge _ _)) by lia. rewrite Nat.add_sub, take_app. reflexivity.
Qed.

Lemma part_nonempty P a b z : part P a b z <> [].
Proof. unfold part. destruct (t_first_list false rev (if z then b else a)) as [es ->]. cbn. discriminate. Qed.

Lemma pop_step rest bits xs sb l m cl cr o k B : o <= 2 ->
  iter_pop rev signed (ISeg (Sl (Cell false bits (cl :: cr :: xs)) sb (drop o (cl :: cr :: xs))) m (Some l) :: rest) k B =
  if o <? 2 then
    let z := if o =? 0 then first (sgn rest) rev l else negb (first (sgn rest) rev l) in
    let? d := as_slice (if z then cr else cl) in
    let? b := rewind k B in
    let? b := put [z] b in
    Ok (Some (ISeg d m None :: ISeg (Sl (Cell false bits (cl :: cr :: xs)) sb (drop (S o) (cl :: cr :: xs))) m (Some l) :: rest, b))
  else iter_pop rev signed rest (k + length l + (if rest then 0 else 1)) B.
Proof.
  intros Ho. cbn [iter_pop i_prefix i_data i_rem s_cell]. unfold offset_refs. cbn [s_cell c_refs s_refs].
  rewrite sgn_len, drop_length. cbn [length].
  assert (Eo : S (S (length xs)) - (S (S (length xs)) - o) = o) by lia. rewrite Eo.
  destruct (Nat.ltb_spec o 2) as [Lo|Lo]; [|reflexivity]. cbv zeta.
  assert (Ez : xorb (xorb (negb (o =? 0)) rev) (signed && no_rest rest && (length l =? 0)) =
    (if o =? 0 then first (sgn rest) rev l else negb (first (sgn rest) rev l))).
  { unfold first, sgn. destruct (o =? 0), rev, (signed && no_rest rest && (length l =? 0)); reflexivity. }
  rewrite Ez. set (z := if o =? 0 then _ else _). unfold ref_slice.
  assert (G1 : ref_at z (Cell false bits (cl :: cr :: xs)) = Ok (if z then cr else cl)) by (destruct z; reflexivity).
  rewrite G1. cbn [rbind]. destruct (as_slice (if z then cr else cl)); cbn [rbind]; [|reflexivity].
  destruct (rewind k B); cbn [rbind]; [|reflexivity]. destruct (put [z] a0); cbn [rbind]; [|reflexivity].
  unfold skip_ref. cbn [s_refs s_cell s_bits]. destruct o as [|[|o]]; [reflexivity|reflexivity|lia].
Qed.

Lemma pop_spec segs P es J root : stack_inv segs P es ->
  (es = [] /\ iter_pop rev signed segs (length J) (P ++ J) = Ok None) \/
  (exists ct d t m segs' P' z es', iter_pop rev signed segs (length J) (P ++ J) = Ok (Some (ISeg d m None :: segs', P' ++ [z])) /\
     as_slice ct = Ok d /\ Rep R m ct t /\ stack_inv segs' P' es' /\ no_rest segs' = false /\
     es = under (P' ++ [z]) (t_list false rev t) ++ es' /\ length P' + S m = n /\ owner_of root segs' = Ok ct).
Proof.
  intros H. revert J. induction H as [|rest Q es bits xs sb a b l m cl cr bit o P H IH Ha Hb Ho HP HL]; intros J.
  - left. split; reflexivity.
  - rewrite pop_step by exact Ho. set (f := first (sgn rest) rev l).
    destruct (Nat.ltb_spec o 2) as [Lo|Lo].
    + right. cbv zeta. set (z := if o =? 0 then f else negb f).
      set (ct := if z then cr else cl). set (t := if z then b else a).
      assert (G1 : ref_at z (Cell false bits (cl :: cr :: xs)) = Ok ct) by (subst ct; destruct z; reflexivity).
      assert (G2 : Rep R m ct t) by (subst ct t; destruct z; assumption).
      assert (exists d, as_slice ct = Ok d) as [d Hd] by (inversion G2; subst; eexists; reflexivity).
      rewrite Hd. cbn [rbind]. rewrite rewind_ok. cbn [rbind]. rewrite put_ok by (cbn [length]; lia). cbn [rbind].
      exists ct, d, t, m, (ISeg (Sl (Cell false bits (cl :: cr :: xs)) sb (drop (S o) (cl :: cr :: xs))) m (Some l) :: rest), P, z, (todo P a b f (S o) ++ es).
      split; [reflexivity|]. split; [exact Hd|]. split; [exact G2|]. split.
      { eapply si_cons; eauto. }
      split; [reflexivity|]. split.
      { rewrite app_assoc. f_equal. destruct o as [|[|o]]; [| |lia]; cbn [todo Nat.eqb] in *; [reflexivity|]. rewrite app_nil_r. reflexivity. }
      split; [exact HL|].
      cbn [owner_of i_prefix i_data s_cell]. rewrite sgn_len. unfold offset_refs. cbn [s_cell c_refs s_refs].
      rewrite drop_length. cbn [length]. replace (S (S (length xs)) - (S (S (length xs)) - S o)) with (S o) by lia.
      replace ((S o =? 1) || (S o =? 2)) with true by (clear - Lo; destruct o as [|[|o]]; [reflexivity|reflexivity|lia]).
      rewrite <- G1. f_equal. subst z. cbn [Nat.eqb]. subst f. unfold first, sgn.
      destruct (o =? 0), rev, (signed && no_rest rest && (length l =? 0)); reflexivity.
    + assert (o = 2) as -> by lia. cbn [todo app].
      specialize (IH ((if no_rest rest then [] else [bit]) ++ l ++ J)).
      replace (Q ++ (if no_rest rest then [] else [bit]) ++ l ++ J) with (P ++ J) in IH by (rewrite HP, <- !app_assoc; reflexivity).
      replace (length ((if no_rest rest then [] else [bit]) ++ l ++ J)) with (length J + length l + (if rest then 0 else 1)) in IH
        by (destruct rest; cbn [no_rest]; rewrite !app_length; cbn [length]; lia).
      exact IH.
Qed.

Lemma loop_pop f segs B segs2 B2 d m : iter_pop rev signed segs 0 B = Ok (Some (ISeg d m None :: segs2, B2)) ->
  iter_loop (S f) rev signed segs B = iter_loop (S f) rev signed (ISeg d m None :: segs2) B2.
Proof. intros H. cbn [iter_loop]. rewrite H. cbn [rbind iter_pop i_prefix]. reflexivity. Qed.

Lemma descend f c t m d rest Q es bit root : m < f -> Rep R m c t -> as_slice c = Ok d -> stack_inv rest Q es ->
  length Q + (if no_rest rest then 0 else 1) + m = n ->
  owner_of root rest = Ok c ->
  let B := Q ++ (if no_rest rest then [] else [bit]) in
  exists e tl data segs' B', t_list (sgn rest) rev t = e :: tl /\
    iter_loop f rev signed (ISeg d m None :: rest) B = Ok (Some (B ++ fst e, data), segs', B') /\
    stack_inv segs' B' (under B tl ++ es) /\ s_chunk data = snd e /\ owner_of root segs' = Ok (s_cell data) /\
    r_apply (s_range data) (s_cell data) = snd e.
Proof.
  revert c t m d rest Q es bit. induction f as [|f IH]; intros c t m d rest Q es bit Hf H Hd Hs HL Ho B; [lia|].
  assert (Hm : m <= 1023) by lia.
  pose proof (Rep_wft _ _ _ _ H) as Hw. pose proof (lbl_le _ _ Hw) as Ll.
  destruct (Rep_inv R m c t HR Hm H) as (bits & refs & rst & Ec & Es & El & Ht).
  destruct (read_label_suffix _ _ _ _ Hm El) as [e He].
  rewrite Es in Hd. injection Hd as <-.
  assert (LB : length B = length Q + (if no_rest rest then 0 else 1)) by (subst B; destruct rest; cbn [no_rest]; rewrite app_length; reflexivity).
  cbn [iter_loop iter_pop i_prefix rbind i_rem i_data s_bits s_cell s_refs]. rewrite El. cbn [rbind].
  rewrite (proj2 (Nat.ltb_ge m (length (lbl t)))) by lia.
  destruct t as [l v|l x a b]; cbn [lbl t_list] in *.
  - destruct Ht as [Hl Hv]. rewrite Hl, Nat.sub_diag. cbn [Nat.eqb].
    rewrite put_ok by lia. cbn [rbind].
    assert (RW : rewind (if rest then 0 else 1) B = Ok Q).
    { subst B. destruct rest as [|g0 rest]; cbn [no_rest].
      - rewrite app_nil_r. reflexivity.
      - exact (rewind_ok Q [bit]). }
    rewrite RW. cbn [rbind]. eexists (l, v), [], (Sl c rst refs), rest, Q.
    split; [reflexivity|]. split; [reflexivity|]. split; [exact Hs|]. split; [symmetry; exact Hv|]. split; [exact Ho|].
    cbn [snd s_cell]. rewrite Hv. apply (range_apply c e); subst c; [exact He|reflexivity].
  - destruct Ht as (m' & cl & cr & Hm' & Hrefs & Hrest & Ha & Hb). subst refs.
    rewrite (proj2 (Nat.eqb_neq _ _)) by lia. cbn [length]. rewrite (proj2 (Nat.ltb_ge _ _)) by lia.
    rewrite put_ok by lia. cbn [rbind]. replace (m - length l - 1) with m' by lia.
    set (g := ISeg (Sl c rst (cl :: cr :: snd x)) m' (Some l)).
    assert (SI : stack_inv (g :: rest) (B ++ l) (todo (B ++ l) a b (first (sgn rest) rev l) 0 ++ es)).
    { subst g c. subst B. rewrite <- app_assoc. apply (si_cons rest Q es bits (snd x) rst a b l m' cl cr bit 0); auto.
      rewrite app_assoc, app_length, LB. lia. }
    set (f0 := first (sgn rest) rev l) in *.
    pose proof (pop_step rest bits (snd x) rst l m' cl cr 0 0 (B ++ l) ltac:(lia)) as E1. rewrite <- Ec in E1.
    cbn [drop] in E1. fold g in E1. cbn [Nat.ltb Nat.leb Nat.eqb] in E1. cbv zeta in E1. fold f0 in E1.
    assert (Ht : Rep R m' (if f0 then cr else cl) (if f0 then b else a)) by (destruct f0; assumption).
    assert (exists d, as_slice (if f0 then cr else cl) = Ok d) as [d E2] by (inversion Ht; subst; eexists; reflexivity).
    rewrite E2 in E1. cbn [rbind rewind Nat.eqb] in E1. unfold rewind in E1. cbn [Nat.eqb rbind] in E1.
    rewrite put_ok in E1 by (rewrite app_length; cbn [length]; lia). cbn [rbind] in E1.
    destruct f as [|f]; [lia|]. rewrite (loop_pop f _ _ _ _ _ _ E1).
    set (g' := ISeg (Sl c rst (cr :: snd x)) m' (Some l)) in *.
    assert (NR : no_rest (g' :: rest) = false) by reflexivity.
    assert (SI' : stack_inv (g' :: rest) (B ++ l) (todo (B ++ l) a b f0 1 ++ es)).
    { subst g' g c. subst B. rewrite <- app_assoc.
      apply (si_cons rest Q es bits (snd x) rst a b l m' cl cr bit 1); auto. rewrite app_assoc, app_length, LB. lia. }
    assert (E8 : owner_of root (g' :: rest) = Ok (if f0 then cr else cl)).
    { subst g' c. cbn [owner_of i_prefix i_data s_cell]. rewrite sgn_len. unfold offset_refs. cbn [s_cell c_refs s_refs length].
      replace (S (S (length (snd x))) - S (length (snd x))) with 1 by lia. cbn [Nat.eqb negb].
      replace (xorb (xorb false rev) (signed && no_rest rest && (length l =? 0))) with (first (sgn rest) rev l) by (unfold first, sgn; destruct rev; reflexivity). fold f0.
      destruct f0; reflexivity. }
    destruct (IH _ _ m' _ (g' :: rest) (B ++ l) _ f0 ltac:(lia) Ht E2 SI') as (e0 & tl & data & segs2 & B2 & K1 & K2 & K3 & K4 & K5 & K6).
    { rewrite NR, app_length, LB. lia. } { exact E8. }
    rewrite NR in K2, K3. assert (sgn (g' :: rest) = false) as SF by (unfold sgn; cbn [no_rest]; apply andb_false_r). rewrite SF in K1.
    assert (EL : t_list (sgn rest) rev (Fork l x a b) = under (l ++ [f0]) (e0 :: tl) ++ under (l ++ [negb f0]) (t_list false rev (if negb f0 then b else a))).
    { cbn [t_list]. fold f0. rewrite <- K1. destruct f0; reflexivity. }
    cbn [t_list] in EL. fold f0 in EL. rewrite EL.
    cbn [under map app].
    eexists _, _, data, segs2, B2. split; [reflexivity|]. split.
    { rewrite K2. cbn [fst]. rewrite <- !app_assoc. reflexivity. }
    split; [|split; [exact K4|split; [exact K5|exact K6]]].
    refine (eq_ind _ (stack_inv segs2 B2) K3 _ _).
    cbn [todo part]. unfold part, under. rewrite map_app, !map_map. cbn [fst snd]. rewrite <- !app_assoc. f_equal.
    + apply map_ext. intros e1. rewrite <- !app_assoc. reflexivity.
    + f_equal. apply map_ext. intros e1. rewrite <- !app_assoc. reflexivity.
Qed.

(** ** The iterator as a whole *)
Definition iter_inv (root : option cell) (it : raw_iter) (es : list entry) : Prop :=
  it_rev it = rev /\ it_signed it = signed /\ it_fuel it = n /\ it_status it = StValid /\
  ((it_segs it = [] /\ es = []) \/
   (it_segs it <> [] /\ (exists c, root = Some c) /\ stack_inv (it_segs it) (it_builder it) es) \/
   (exists c d t, root = Some c /\ it_segs it = [ISeg d n None] /\ it_builder it = [] /\ as_slice c = Ok d /\ Rep R n c t /\ es = t_list signed rev t)).

Lemma iter_new_inv d es0 : is_dict R n d es0 ->
  exists es, Permutation es es0 /\ Sorted.StronglySorted (edir signed rev) es /\ iter_inv d (iter_new d n rev signed) es.
Proof.
  intros H. destruct d as [c|]; cbn [is_dict] in H.
  - apply hashmap_rep in H. destruct H as (t & H & ->). exists (t_list signed rev t).
    split; [apply t_list_perm|]. split; [apply t_list_sorted|].
    assert (exists s, as_slice c = Ok s) as [s Hs] by (inversion H; subst; eexists; reflexivity).
    unfold iter_new. rewrite Hs. unfold iter_inv. cbn [it_rev it_signed it_fuel it_status it_segs it_builder].
    repeat (split; [reflexivity|]). right. right. exists c, s, t. auto 10.
  - subst es0. exists []. split; [constructor|]. split; [constructor|].
    unfold iter_inv, iter_new. cbn [it_rev it_signed it_fuel it_status it_segs it_builder].
    repeat (split; [reflexivity|]). left. auto.
Qed.

Lemma iter_next_inv root it es : iter_inv root it es ->
  match es with
  | [] => exists it', iter_next it = (None, it') /\ iter_inv root it' []
  | e :: es' => exists data it', iter_next it = (Some (Ok (fst e, data)), it') /\ iter_inv root it' es' /\
      s_chunk data = snd e /\ r_apply (s_range data) (s_cell data) = snd e /\
      exists c, root = Some c /\ owner_of c (it_segs it') = Ok (s_cell data)
  end.
Proof.
  intros (E1 & E2 & E3 & E4 & H). unfold iter_next. rewrite E4, E1, E2, E3.
  assert (Done : forall b, exists it', (None, RawIter [] StValid b rev signed n) = (None : option (res (list bool * sl)), it') /\ iter_inv root it' []).
  { intros b. eexists. split; [reflexivity|]. unfold iter_inv. cbn [it_rev it_signed it_fuel it_status it_segs it_builder].
    repeat (split; [reflexivity|]). left. auto. }
  assert (Mk : forall segs b es', (exists c, root = Some c) -> stack_inv segs b es' -> iter_inv root (RawIter segs StValid b rev signed n) es').
  { intros segs b es' Hr S. unfold iter_inv. cbn [it_rev it_signed it_fuel it_status it_segs it_builder].
    repeat (split; [reflexivity|]). destruct segs as [|g segs]; [left; inversion S; auto|right; left]. split; [discriminate|]. auto. }
  destruct H as [[H ->]|[(H & [c Hr] & S)|(c & d & t & Hr & H & Hb & Hd & Ht & ->)]].
  - rewrite H. cbn [iter_loop iter_pop rbind option_map]. apply Done.
  - destruct (pop_spec _ _ _ [] c S) as [[-> E]|(ct & d & t & m & segs' & P' & z & es' & F1 & F2 & F3 & F4 & F5 & F6 & F7 & F8)].
    + rewrite app_nil_r in E. cbn [length] in E. cbn [iter_loop]. rewrite E. cbn [rbind option_map]. apply Done.
    + rewrite app_nil_r in F1. cbn [length] in F1. rewrite (loop_pop _ _ _ _ _ _ _ F1).
      destruct (descend (Datatypes.S (Datatypes.S n)) ct t m d segs' P' es' z c ltac:(lia) F3 F2 F4) as (e & tl & data & segs2 & B2 & K1 & K2 & K3 & K4 & K5 & K6).
      { rewrite F5. lia. } { exact F8. }
      rewrite F5 in K2, K3. assert (sgn segs' = false) as SF by (unfold sgn; rewrite F5; apply andb_false_r). rewrite SF in K1.
      rewrite F6, K1. cbn [under map app fst]. rewrite K2. cbn [option_map].
      eexists data, _. split; [reflexivity|]. split; [apply Mk; [eauto|exact K3]|]. split; [exact K4|]. split; [exact K6|].
      exists c. split; [exact Hr|]. cbn [it_segs]. exact K5.
  - rewrite H, Hb.
    destruct (descend (Datatypes.S (Datatypes.S n)) c t n d [] [] [] false c ltac:(lia) Ht Hd si_nil) as (e & tl & data & segs2 & B2 & K1 & K2 & K3 & K4 & K5 & K6).
    { cbn [no_rest length]. lia. } { reflexivity. }
    cbn [no_rest app] in K2, K3. assert (sgn [] = signed) as SF by (unfold sgn; cbn [no_rest]; apply andb_true_r). rewrite SF in K1.
    rewrite K1, K2. cbn [option_map]. eexists data, _. split; [reflexivity|]. split.
    + apply Mk; [eauto|]. rewrite app_nil_r in K3. unfold under in K3.
      refine (eq_ind _ (stack_inv segs2 B2) K3 _ _). erewrite map_ext; [apply map_id|intros [? ?]; reflexivity].
    + split; [exact K4|]. split; [exact K6|]. exists c. auto.
Qed.

(** All calls of [next]. *)
Lemma iter_calls i root it es : iter_inv root it es ->
  map (option_map (fun x => let? (k, d) := x in Ok (k, s_chunk d))) (calls iter_next i it) =
  take i (map (fun e => Some (Ok e)) es ++ replicate i None).
Proof.
  revert it es. induction i as [|i IH]; intros it es H; [rewrite take_0; reflexivity|].
  pose proof (iter_next_inv _ _ _ H) as N. cbn [calls]. destruct es as [|e es].
  - destruct N as (it' & -> & N). cbn [map option_map app replicate firstn]. f_equal. rewrite (IH _ _ N). reflexivity.
  - destruct N as (data & it' & -> & N & C & _). cbn [map option_map app replicate take]. cbn [rbind]. rewrite C.
    f_equal; [destruct e; reflexivity|]. rewrite (IH _ _ N).
    symmetry. apply (take_pad i).
Qed.

Lemma iter_calls_owned i root it es : iter_inv root it es ->
  map (option_map (fun x => let? (k, p) := x in Ok (k, r_apply (fst p) (snd p)))) (calls (iter_next_owned root) i it) =
  take i (map (fun e => Some (Ok e)) es ++ replicate i None).
Proof.
  revert it es. induction i as [|i IH]; intros it es H; [rewrite take_0; reflexivity|].
  pose proof (iter_next_inv _ _ _ H) as N. cbn [calls]. unfold iter_next_owned at 1. destruct es as [|e es].
  - destruct N as (it' & -> & N). cbn [map option_map app replicate firstn]. f_equal. rewrite (IH _ _ N). reflexivity.
  - destruct N as (data & it' & -> & N & C & A & c & Hr & Ho).
    assert (X : exists y, (match it_segs it' with
      | g :: rest => match i_prefix g with
         | None => (Some (Err Panic), RawIter (it_segs it') StBroken (it_builder it') (it_rev it') (it_signed it') (it_fuel it'))
         | Some prefix => match ref_at (xorb (xorb (negb (offset_refs (i_data g) =? 1)) (it_rev it')) (it_signed it' && (length (it_segs it') =? 1) && (length prefix =? 0))) (s_cell (i_data g)) with
             | Ok c => (Some (Ok (fst e, (s_range data, c))), it')
             | Err e0 => (Some (Err e0), RawIter (it_segs it') StBroken (it_builder it') (it_rev it') (it_signed it') (it_fuel it'))
             end
         end
      | [] => match root with Some c => (Some (Ok (fst e, (s_range data, c))), it')
           | None => (Some (Err Panic), RawIter (it_segs it') StBroken (it_builder it') (it_rev it') (it_signed it') (it_fuel it')) end
      end) = (Some (Ok (fst e, (s_range data, y))), it') /\ y = s_cell data).
    { destruct N as (I1 & I2 & _). unfold owner_of in Ho. rewrite I1, I2. destruct (it_segs it') as [|g rest].
      - rewrite Hr. injection Ho as ->. eauto.
      - destruct (i_prefix g) as [prefix|]; [|discriminate]. destruct ((offset_refs (i_data g) =? 1) || (offset_refs (i_data g) =? 2)); [|discriminate]. rewrite Ho. eauto. }
    destruct X as (y & X & ->). cbv zeta. rewrite X. cbn [map option_map app replicate take rbind fst snd]. rewrite A.
    f_equal; [destruct e; reflexivity|]. rewrite (IH _ _ N).
    symmetry. apply (take_pad i).
Qed.
End It.

(** ** Values without keys *)
Lemma read_label_shorter m l s rest : m <= 1023 -> m <> 0 -> read_label m l = Ok (s, rest) -> length rest < length l.
Proof.
  intros Hm Hz H. apply read_label_inv in H; [|exact Hm].
  destruct H as [(-> & _)|[->|[->|(v & k & _ & ->)]]]; [lia|..]; unfold label_short, label_long, label_same; rewrite app_length; cbn [app length]; lia.
Qed.

Section Values.
Context (R : rules) (HR : reads R) (rev : bool) (n : nat) (Hn : n <= 1023).

Definition vrel (g : iseg) (v : vseg) : Prop :=
  v_data v = i_data g /\ v_rem v = i_rem g /\ i_rem g <= 1023 /\
  match i_prefix g with
  | None => s_bits (i_data g) = c_bits (s_cell (i_data g))
  | Some _ => length (s_bits (i_data g)) < length (c_bits (s_cell (i_data g)))
  end.

Lemma pop_sim segs vs tr b o : Forall2 vrel segs vs -> iter_pop rev false segs tr b = Ok o ->
  match o with
  | None => values_pop rev false vs = Ok []
  | Some (segs', b') => exists vs', values_pop rev false vs = Ok vs' /\ Forall2 vrel segs' vs' /\
      match segs' with g :: _ => i_prefix g = None | [] => False end
  end.
Proof.
  intros H. revert tr b. induction H as [|g v segs vs H HF IH]; intros tr b E; cbn [iter_pop] in E.
  - injection E as <-. reflexivity.
  - destruct H as (Hd & Hr & Hl & Hp). cbn [values_pop]. rewrite Hd, Hr. unfold offset_bits.
    destruct (i_prefix g) as [p|] eqn:Ep.
    + rewrite (proj2 (Nat.eqb_neq _ _)) by lia. destruct (offset_refs (i_data g) <? 2).
      * cbn [andb] in E |- *. destruct (ref_slice _ _) as [d|] eqn:Ed; cbn [rbind] in E; [|discriminate].
        destruct (rewind tr b); cbn [rbind] in E; [|discriminate]. destruct (put _ a); cbn [rbind] in E; [|discriminate].
        injection E as <-. cbn [rbind]. eexists. split; [reflexivity|]. split; [|reflexivity]. constructor.
        { unfold vrel. cbn [v_data i_data v_rem i_rem i_prefix]. repeat (split; [reflexivity || assumption|]).
          unfold ref_slice in Ed. destruct (ref_at _ _) as [x|]; cbn [rbind] in Ed; [|discriminate].
          unfold as_slice in Ed. destruct (c_exotic x); [discriminate|]. injection Ed as <-. reflexivity. }
        constructor; [|assumption].
        unfold vrel. cbn [v_data i_data v_rem i_rem i_prefix]. repeat (split; [reflexivity || assumption|]).
        unfold skip_ref. destruct (s_refs (i_data g)); assumption.
      * eapply IH. exact E.
    + injection E as <-. rewrite Hp, Nat.sub_diag. cbn [Nat.eqb]. eexists. split; [reflexivity|]. split; [|exact Ep].
      constructor; [|assumption]. unfold vrel. rewrite Ep. auto.
Qed.

Lemma loop_sim f segs vs b o segs' b' : Forall2 vrel segs vs -> iter_loop f rev false segs b = Ok (o, segs', b') ->
  exists vs', values_loop f rev false vs = Ok (option_map snd o, vs') /\ Forall2 vrel segs' vs'.
Proof.
  revert segs vs b o segs' b'. induction f as [|f IH]; intros segs vs b o segs' b' H E; cbn [iter_loop] in E; [discriminate|].
  destruct (iter_pop rev false segs 0 b) as [q|] eqn:Eq; cbn [rbind] in E; [|discriminate].
  pose proof (pop_sim _ _ _ _ _ H Eq) as P. cbn [values_loop]. destruct q as [[sg b0]|].
  2:{ injection E as <- <- <-. rewrite P. cbn [rbind]. eexists. split; [reflexivity|]. constructor. }
  destruct P as (vs' & -> & P & HN). cbn [rbind]. destruct sg as [|g rest]; [destruct HN|].
  inversion P as [|? v ? vr HV HVR]; subst. destruct HV as (Hd & Hr & Hl & Hp). rewrite HN in Hp. rewrite Hd, Hr.
  destruct (read_label (i_rem g) (s_bits (i_data g))) as [[prefix rb]|] eqn:El; cbn [rbind] in E |- *; [|discriminate].
  destruct (i_rem g <? length prefix); [discriminate|]. destruct (i_rem g - length prefix =? 0) eqn:Hrem.
  - destruct (put prefix b0); cbn [rbind] in E; [|discriminate]. destruct (rewind _ b0); cbn [rbind] in E; [|discriminate].
    injection E as <- <- <-. eexists. split; [reflexivity|]. assumption.
  - cbn [s_refs] in E |- *. destruct (length (s_refs (i_data g)) <? 2); [discriminate|].
    destruct (put prefix b0); cbn [rbind] in E; [|discriminate]. eapply IH; [|exact E]. constructor; [|assumption].
    unfold vrel. cbn [v_data i_data v_rem i_rem i_prefix s_bits s_cell]. split; [reflexivity|]. split; [reflexivity|]. split; [lia|].
    rewrite <- Hp. eapply read_label_shorter; [exact Hl| |exact El]. intros E0. rewrite E0 in Hrem. discriminate Hrem.
Qed.

Definition values_inv (root : option cell) (vs : raw_values) (es : list entry) : Prop :=
  exists it, iter_inv R rev false n root it es /\ vl_rev vs = rev /\ vl_signed vs = false /\ vl_fuel vs = n /\
    vl_status vs = StValid /\ Forall2 vrel (it_segs it) (vl_segs vs).

Lemma values_new_inv d es0 : is_dict R n d es0 ->
  exists es, Permutation es es0 /\ Sorted.StronglySorted (edir false rev) es /\ values_inv d (values_new d n rev false) es.
Proof.
  intros H. destruct (iter_new_inv R rev false n Hn d es0 H) as (es & P & S & I). exists es. split; [exact P|]. split; [exact S|].
  exists (iter_new d n rev false). split; [exact I|]. destruct I as (_ & _ & _ & Hs & _). unfold iter_new in *. unfold values_new.
  destruct d as [c|]; [|repeat (split; [reflexivity|]); constructor].
  destruct (as_slice c) as [s|] eqn:Es; [|discriminate]. repeat (split; [reflexivity|]). constructor; [|constructor].
  unfold vrel. cbn. repeat (split; [reflexivity || assumption|]).
  unfold as_slice in Es. destruct (c_exotic c); [discriminate|]. injection Es as <-. reflexivity.
Qed.

Lemma values_next_inv root vs es : values_inv root vs es ->
  match es with
  | [] => exists vs', values_next vs = (None, vs') /\ values_inv root vs' []
  | e :: es' => exists data vs', values_next vs = (Some (Ok data), vs') /\ values_inv root vs' es' /\
      s_chunk data = snd e /\ r_apply (s_range data) (s_cell data) = snd e /\
      exists c, root = Some c /\
        (rev = false ->
         match vl_segs vs' with
         | [] => s_cell data = c
         | g :: _ => c_refs (s_cell (v_data g)) !! (offset_refs (v_data g) - 1) = Some (s_cell data)
         end)
  end.
Proof.
  intros (it & I & V1 & V2 & V3 & V4 & F). pose proof (iter_next_inv R HR rev false n Hn root it es I) as N.
  destruct I as (I1 & I2 & I3 & I4 & _). unfold iter_next in N. rewrite I1, I2, I3, I4 in N.
  unfold values_next. rewrite V1, V2, V3, V4.
  destruct (iter_loop (S (S n)) rev false (it_segs it) (it_builder it)) as [[[o sg] b]|e0] eqn:El.
  2:{ destruct es as [|e es]; [destruct N as (? & N & _)|destruct N as (? & ? & N & _)]; discriminate. }
  destruct (loop_sim _ _ _ _ _ _ _ F El) as (vs' & -> & F').
  destruct es as [|e es].
  - destruct N as (it' & N & I'). injection N as N <-. destruct o as [|]; [discriminate|]. cbn [option_map].
    eexists. split; [reflexivity|]. eexists. split; [exact I'|]. repeat (split; [reflexivity|]). exact F'.
  - destruct N as (data & it' & N & I' & C & A & c & Hr & Ho). injection N as N <-. destruct o as [[k d0]|]; [|discriminate].
    injection N as -> ->. cbn [option_map snd]. eexists data, _. split; [reflexivity|]. split.
    { eexists. split; [exact I'|]. repeat (split; [reflexivity|]). exact F'. }
    split; [exact C|]. split; [exact A|]. exists c. split; [exact Hr|]. intros ->. cbn [it_segs vl_segs] in *.
    destruct F' as [|g v sg' vs2 HV _]; [injection Ho as <-; reflexivity|].
    destruct HV as (-> & _). cbn [owner_of] in Ho. destruct (i_prefix g); [|discriminate].
    cbn [andb] in Ho. rewrite !xorb_false_r in Ho. unfold ref_at in Ho.
    destruct (offset_refs (i_data g)) as [|[|[|o]]]; cbn in Ho |- *; try discriminate.
    + destruct (c_refs (s_cell (i_data g)) !! 0); [|discriminate]. injection Ho as ->. reflexivity.
    + destruct (c_refs (s_cell (i_data g)) !! 1); [|discriminate]. injection Ho as ->. reflexivity.
Qed.

Lemma values_calls i root vs es : values_inv root vs es ->
  map (option_map (fun x => let? d := x in Ok (s_chunk d))) (calls values_next i vs) =
  take i (map (fun e => Some (Ok (snd e))) es ++ replicate i None).
Proof.
  revert vs es. induction i as [|i IH]; intros vs es H; [rewrite take_0; reflexivity|].
  pose proof (values_next_inv _ _ _ H) as N. cbn [calls]. destruct es as [|e es].
  - destruct N as (vs' & -> & N). cbn [map option_map app replicate firstn]. f_equal. rewrite (IH _ _ N). reflexivity.
  - destruct N as (data & vs' & -> & N & C & _). cbn [map option_map app replicate take]. cbn [rbind]. rewrite C.
    apply f_equal. rewrite (IH _ _ N). symmetry. apply (take_pad i).
Qed.

Lemma values_calls_owned i root vs es : rev = false -> values_inv root vs es ->
  map (option_map (fun x => let? p := x in Ok (r_apply (fst p) (snd p)))) (calls (values_next_owned root) i vs) =
  take i (map (fun e => Some (Ok (snd e))) es ++ replicate i None).
Proof.
  intros Hrev. revert vs es. induction i as [|i IH]; intros vs es H; [rewrite take_0; reflexivity|].
  pose proof (values_next_inv _ _ _ H) as N. cbn [calls]. unfold values_next_owned at 1. destruct es as [|e es].
  - destruct N as (vs' & -> & N). cbn [map option_map app replicate firstn]. f_equal. rewrite (IH _ _ N). reflexivity.
  - destruct N as (data & vs' & -> & N & C & A & c & Hr & Ho). specialize (Ho Hrev).
    assert (X : (match vl_segs vs' with
    | g :: _ =>
      match c_refs (s_cell (v_data g)) !! (offset_refs (v_data g) - 1) with
      | Some c => (Some (Ok (s_range data, c)), vs')
      | None => (Some (Err CellUnderflow), RawValues (vl_segs vs') StBroken (vl_rev vs') (vl_signed vs') (vl_fuel vs'))
      end
    | [] =>
      match root with
      | Some c => (Some (Ok (s_range data, c)), vs')
      | None => (Some (Err Panic), RawValues (vl_segs vs') StBroken (vl_rev vs') (vl_signed vs') (vl_fuel vs'))
      end
    end) = (Some (Ok (s_range data, s_cell data)), vs')).
    { destruct (vl_segs vs') as [|g sg]; [rewrite Hr, Ho|rewrite Ho]; reflexivity. }
    cbv zeta. rewrite X. cbn [map option_map app replicate take rbind fst snd]. rewrite A.
    apply f_equal. rewrite (IH _ _ N). symmetry. apply (take_pad i).
Qed.
End Values.
