(** * Operations on arbitrary cell trees end without panic. *)
From Verif Require Import Err CellModel LabelModel LabelProofs DictModel IterModel IterProofs SafeSpec.
Local Open Scope nat_scope.

Lemma orderly_bind {A B} (x : res A) (f : A -> res B) : orderly x -> (forall a, x = Ok a -> orderly (f a)) -> orderly (rbind x f).
Proof. destruct x as [a|e]; cbn [rbind]; intros H K; [apply K; reflexivity|exact H]. Qed.
Ltac ord1 := match goal with
  | |- orderly (Ok _) => exact I
  | |- orderly (Err CellUnderflow) => exact I
  | |- orderly (Err InvalidData) => exact I
  | |- orderly (Err CellOverflow) => exact I
  | |- orderly (Err UnexpectedExoticCell) => exact I
  | H : orderly ?x |- orderly ?x => exact H
  | |- orderly (rbind _ _) => apply orderly_bind; [|let a := fresh "a" in let E := fresh "E" in intros a E]
  | |- orderly (if ?b then _ else _) => destruct b eqn:?
  | |- orderly (match ?x with _ => _ end) => destruct x eqn:?
  end.
Ltac ord := repeat (cbv zeta; ord1).

Lemma o_put x b : orderly (put x b). Proof. unfold put. ord. Qed.
Lemma o_putr x b : orderly (putr x b). Proof. unfold putr. ord. Qed.
Lemma o_putc x b : orderly (putc x b). Proof. unfold putc. ord; try apply o_put; try apply o_putr. Qed.
Lemma o_ref b c : orderly (ref_at b c). Proof. unfold ref_at. ord. Qed.
Lemma o_slice c : orderly (as_slice c). Proof. unfold as_slice. ord. Qed.
Lemma o_bit l : orderly (load_bit l). Proof. unfold load_bit. ord. Qed.
Lemma o_skip k l : orderly (skip_bits k l). Proof. unfold skip_bits. ord. Qed.
Lemma o_skipr k l : orderly (skip_refs k l). Proof. unfold skip_refs. ord. Qed.
Lemma o_uint k l : orderly (load_uint k l). Proof. unfold load_uint. ord. Qed.
Lemma o_opt {A} (o : option A) : orderly (of_opt CellUnderflow o). Proof. unfold of_opt. ord. Qed.
Lemma o_unary l : orderly (read_unary l).
Proof. induction l as [|[] l IH]; cbn; try exact I. destruct (read_unary l) as [[]|]; [exact I|exact IH]. Qed.
Lemma o_rewind k l : orderly (rewind k l). Proof. unfold rewind. ord. Qed.
Lemma o_ref_slice b c : orderly (ref_slice b c). Proof. unfold ref_slice. ord; [apply o_ref|apply o_slice]. Qed.
#[global] Hint Resolve o_put o_putr o_putc o_ref o_slice o_bit o_skip o_skipr o_uint o_opt o_unary o_rewind o_ref_slice : orderly.
Ltac ords := repeat (cbv zeta; first [ord1 | solve [auto 1 with orderly]]).
Lemma o_read n l : orderly (read_label n l).
Proof. unfold read_label, read_hml_short, read_hml_long, read_hml_same, take_label. ords. Qed.
Lemma o_write k n b : orderly (write_label k n b).
Proof. unfold write_label, write_hml_empty, write_hml_short_tag, write_hml_long_tag, write_hml_same. ords. Qed.
Lemma o_write_parts p b r n x : orderly (write_label_parts p b r n x).
Proof. unfold write_label_parts, write_hml_empty, write_hml_short_tag, write_hml_long_tag, write_hml_same. ords. Qed.
#[global] Hint Resolve o_read o_write o_write_parts : orderly.

Lemma load_bit_len l b r : load_bit l = Ok (b, r) -> length l = S (length r).
Proof. destruct l; cbn; [discriminate|]. intros [= <- <-]. reflexivity. Qed.
Lemma skip_bits_len k l r : skip_bits k l = Ok r -> length r = length l - k.
Proof. unfold skip_bits. destruct (_ <? _); [discriminate|]. intros [= <-]. apply drop_length. Qed.
Lemma strip_len p k r : strip p k = Some r -> length r <= length k.
Proof.
  revert k. induction p as [|x p IH]; intros k; cbn [strip]; [intros [= ->]; lia|].
  destruct k as [|y k]; [discriminate|]. destruct (Bool.eqb x y); [|discriminate]. intros H. apply IH in H. cbn [length]. lia.
Qed.
Ltac lens := repeat match goal with
  | H : load_bit _ = Ok (_, _) |- _ => apply load_bit_len in H
  | H : skip_bits _ _ = Ok _ |- _ => apply skip_bits_len in H
  | H : strip _ _ = Some _ |- _ => apply strip_len in H
  end; cbn [length] in *.

Lemma o_get_loop fuel data key : length key < fuel -> orderly (get_loop fuel data key).
Proof.
  revert data key. induction fuel as [|f IH]; intros data key H; [lia|]. cbn [get_loop]. ords. apply IH. lens. lia.
Qed.
Lemma o_get d n key : orderly (dict_get d n key).
Proof. unfold dict_get. ords. apply o_get_loop. lia. Qed.
Lemma o_get_owned_loop fuel data prev key : length key < fuel -> orderly (get_owned_loop fuel data prev key).
Proof.
  revert data prev key. induction fuel as [|f IH]; intros data prev key H; [lia|]. cbn [get_owned_loop]. ords. apply IH. lens. lia.
Qed.
Lemma o_owner root prev : orderly (owner root prev).
Proof. unfold owner. ords. Qed.
#[global] Hint Resolve o_owner : orderly.
Lemma o_get_owned d n key : orderly (dict_get_owned d n key).
Proof. unfold dict_get_owned. ords. apply o_get_owned_loop. lia. Qed.
Lemma o_find_bound_loop fuel data n key bound signed dir prev : n < fuel -> orderly (find_bound_loop fuel data n key bound signed dir prev).
Proof.
  revert data n key dir prev. induction fuel as [|f IH]; intros data n key dir prev H; [lia|]. cbn [find_bound_loop]. ords.
  apply IH. rewrite Nat.eqb_neq in *. lia.
Qed.
Lemma o_find_bound d n bound signed : orderly (dict_find_bound d n bound signed).
Proof. unfold dict_find_bound. ords. apply o_find_bound_loop. lia. Qed.
Lemma o_find_bound_owned d n bound signed : orderly (dict_find_bound_owned d n bound signed).
Proof. unfold dict_find_bound_owned. ords. apply o_find_bound_loop. lia. Qed.
Lemma o_find_loop fuel data key signed stack prev : length key < fuel -> orderly (find_loop fuel data key signed stack prev).
Proof.
  revert data key stack prev. induction fuel as [|f IH]; intros data key stack prev H; [lia|]. cbn [find_loop]. ords. apply IH. lens. lia.
Qed.
Lemma o_find_down fuel data n key rev prev : n < fuel -> orderly (find_down fuel data n key rev prev).
Proof.
  revert data n key prev. induction fuel as [|f IH]; intros data n key prev H; [lia|]. cbn [find_down]. ords.
  apply IH. rewrite Nat.eqb_neq in *. lia.
Qed.
Lemma o_last_owner root stack : orderly (last_owner root stack).
Proof. unfold last_owner. ords. Qed.
#[global] Hint Resolve o_last_owner : orderly.
Lemma o_find d n key towards inclusive signed : orderly (dict_find_owned d n key towards inclusive signed).
Proof.
  unfold dict_find_owned. ords; try (apply o_find_down; lia). apply o_find_loop.
  match goal with H : negb _ = false |- _ => apply negb_false_iff, Nat.eqb_eq in H end. lia.
Qed.

Section Fin.
Context (fin : list bool -> list cell -> res unit) (Hfin : forall b r, orderly (fin b r)).
Lemma o_build ch : orderly (build fin ch).
Proof. unfold build. ords. Qed.
Hint Resolve o_build : orderly.
Lemma o_leaf k n v : orderly (make_leaf fin k n v). Proof. unfold make_leaf. ords. Qed.
Lemma o_fork k n l r : orderly (make_fork fin k n l r). Proof. unfold make_fork. ords. Qed.
Hint Resolve o_leaf o_fork : orderly.
Lemma o_split d p l k v : orderly (split_edge fin d p l k v). Proof. unfold split_edge. ords. Qed.
Hint Resolve o_split : orderly.
Lemma o_rebuild stack leaf : orderly (rebuild fin stack leaf).
Proof. revert leaf. induction stack as [|g stack IH]; intros leaf; cbn [rebuild]; ords. Qed.
Lemma o_as_removed s k p : orderly (rebuild_as_removed fin s k p). Proof. unfold rebuild_as_removed. ords. Qed.
Hint Resolve o_rebuild o_as_removed : orderly.
Lemma o_insert_loop fuel data key v mode stack : length key < fuel -> orderly (insert_loop fin fuel data key v mode stack).
Proof.
  revert data key stack. induction fuel as [|f IH]; intros data key stack H; [lia|]. cbn [insert_loop]. ords. apply IH. lens. lia.
Qed.
Lemma o_insert d key n v mode : orderly (dict_insert fin d key n v mode).
Proof. unfold dict_insert. ords. apply o_insert_loop. lia. Qed.
Lemma o_insert_owned_loop fuel data key v mode stack : length key < fuel -> orderly (insert_owned_loop fin fuel data key v mode stack).
Proof.
  revert data key stack. induction fuel as [|f IH]; intros data key stack H; [lia|]. cbn [insert_owned_loop]. ords. apply IH. lens. lia.
Qed.
Lemma o_insert_owned d key n v mode : orderly (dict_insert_owned fin d key n v mode).
Proof. unfold dict_insert_owned. ords. apply o_insert_owned_loop. lia. Qed.
Lemma o_find_remove_loop fuel data key pl stack : length key < fuel -> orderly (find_remove_loop fuel data key pl stack).
Proof.
  revert data key pl stack. induction fuel as [|f IH]; intros data key pl stack H; [lia|]. cbn [find_remove_loop]. ords. apply IH. lens. lia.
Qed.
Lemma o_remove d key n sub : orderly (dict_remove_owned fin d key n sub).
Proof. unfold dict_remove_owned. ords. apply o_find_remove_loop. lia. Qed.
Lemma o_remove_bound_loop fuel data n key bound signed dir pl stack : n < fuel ->
  orderly (remove_bound_loop fuel data n key bound signed dir pl stack).
Proof.
  revert data n key dir pl stack. induction fuel as [|f IH]; intros data n key dir pl stack H; [lia|]. cbn [remove_bound_loop]. ords.
  apply IH. rewrite Nat.eqb_neq in *. lia.
Qed.
Lemma o_remove_bound d n bound signed : orderly (dict_remove_bound_owned fin d n bound signed).
Proof. unfold dict_remove_bound_owned. ords. apply o_remove_bound_loop. lia. Qed.
Lemma o_split_prefix d n p : orderly (dict_split_by_prefix fin d n p).
Proof. unfold dict_split_by_prefix, rebuild_branch. ords. Qed.
Lemma o_split_raw d n : orderly (dict_split_raw d n).
Proof. unfold dict_split_raw. ords. Qed.
Lemma o_merge_siblings l r n : orderly (dict_merge_siblings fin l r n).
Proof. unfold dict_merge_siblings, merge_sibling_roots. ords. Qed.
Lemma o_load_root s n : orderly (dict_load_from_root fin s n).
Proof. unfold dict_load_from_root. ords. Qed.
End Fin.

(** ** Iterators *)
Section It.
Context (n : nat).
Definition walked (g : iseg) : Prop := i_rem g <= n /\ i_prefix g <> None.
Definition fresh_seg (g : iseg) : Prop := i_rem g <= n /\ i_prefix g = None /\ s_refs (i_data g) = c_refs (s_cell (i_data g)).
Definition segs_ok (segs : list iseg) : Prop :=
  match segs with [] => True | g :: rest => (walked g \/ fresh_seg g) /\ Forall walked rest end.

Lemma as_slice_full c d : as_slice c = Ok d -> s_refs d = c_refs (s_cell d).
Proof. unfold as_slice. destruct (c_exotic c); [discriminate|]. intros [= <-]. reflexivity. Qed.

Lemma pop_ok rev signed segs k b : segs_ok segs ->
  match iter_pop rev signed segs k b with
  | Ok (Some (g :: rest, _)) => fresh_seg g /\ Forall walked rest
  | Ok (Some ([], _)) => False
  | Ok None => True
  | Err e => orderly (Err e : res unit)
  end.
Proof.
  revert k b. induction segs as [|g segs IH]; intros k b H; cbn [iter_pop]; [exact I|]. destruct H as [Hg HF].
  destruct (i_prefix g) as [p|] eqn:Ep.
  - assert (W : walked g) by (destruct Hg as [W|(_ & W & _)]; [exact W|congruence]). destruct W as [W _]. cbv zeta.
    destruct (offset_refs (i_data g) <? 2).
    + destruct (ref_slice _ _) as [d|e] eqn:Ed; cbn [rbind]; [|pose proof (o_ref_slice (xorb (xorb (negb (offset_refs (i_data g) =? 0)) rev) (signed && (length (g :: segs) =? 1) && (length p =? 0))) (s_cell (i_data g))) as O; rewrite Ed in O; exact O].
      pose proof (o_rewind k b) as O1. destruct (rewind k b) as [b1|]; cbn [rbind]; [|exact O1].
      match goal with |- context [put ?x b1] => pose proof (o_put x b1) as O2; destruct (put x b1) as [b2|] end; cbn [rbind]; [|exact O2].
      unfold ref_slice in Ed. destruct (ref_at _ _) as [c|]; cbn [rbind] in Ed; [|discriminate]. apply as_slice_full in Ed.
      split; [repeat split; assumption|]. constructor; [|exact HF]. split; [exact W|]. cbn. discriminate.
    + apply IH. destruct segs as [|g2 segs]; [exact I|]. inversion HF; subst. split; [left|]; assumption.
  - split; [|exact HF]. destruct Hg as [[_ W]|W]; [congruence|exact W].
Qed.

Lemma loop_fresh rev signed fuel g rest b : i_rem g < fuel -> fresh_seg g -> Forall walked rest ->
  match iter_loop fuel rev signed (g :: rest) b with
  | Ok (_, segs, _) => Forall walked segs
  | Err e => orderly (Err e : res unit)
  end.
Proof.
  revert g rest b. induction fuel as [|f IH]; intros g rest b Hf (Hr & Hp & Hd) HF; [lia|].
  cbn [iter_loop iter_pop]. rewrite Hp. cbn [rbind].
  pose proof (o_read (i_rem g) (s_bits (i_data g))) as O. destruct (read_label (i_rem g) (s_bits (i_data g))) as [[p rb]|]; cbn [rbind]; [|exact O].
  destruct (i_rem g <? length p); [exact I|]. destruct (Nat.eqb_spec (i_rem g - length p) 0) as [E|E].
  - pose proof (o_put p b) as O1. destruct (put p b); cbn [rbind]; [|exact O1].
    match goal with |- context [rewind ?k b] => pose proof (o_rewind k b) as O2; destruct (rewind k b) end; cbn [rbind]; [|exact O2]. exact HF.
  - cbn [s_refs]. destruct (Nat.ltb_spec (length (s_refs (i_data g))) 2) as [L|L]; [exact I|].
    pose proof (o_put p b) as O1. destruct (put p b) as [b1|]; cbn [rbind]; [|exact O1].
    set (g' := ISeg (Sl (s_cell (i_data g)) rb (s_refs (i_data g))) (i_rem g - length p - 1) (Some p)).
    assert (W : walked g') by (split; [cbn; lia|discriminate]).
    destruct f as [|f]; [lia|]. cbn [iter_loop].
    assert (Eo : offset_refs (i_data g') = 0) by (unfold offset_refs; cbn [i_data g' s_cell s_refs]; rewrite Hd; lia).
    cbn [iter_pop]. replace (i_prefix g') with (Some p) by reflexivity. rewrite Eo. cbn [Nat.ltb Nat.leb]. cbv zeta.
    match goal with |- context [ref_slice ?z ?c] => pose proof (o_ref_slice z c) as O2; destruct (ref_slice z c) as [d|] eqn:Ed end; cbn [rbind]; [|exact O2].
    unfold rewind. cbn [Nat.eqb rbind].
    match goal with |- context [put ?x b1] => pose proof (o_put x b1) as O3; destruct (put x b1) as [b2|] end; cbn [rbind]; [|exact O3].
    unfold ref_slice in Ed. destruct (ref_at _ _) as [c|]; cbn [rbind] in Ed; [|discriminate]. apply as_slice_full in Ed.
    specialize (IH (ISeg d (i_rem g') None) (ISeg (skip_ref (i_data g')) (i_rem g') (Some p) :: rest) b2).
    cbn [iter_loop iter_pop i_prefix rbind] in IH. apply IH.
    + cbn. lia.
    + split; [exact (proj1 W)|]. split; [reflexivity|exact Ed].
    + constructor; [|exact HF]. split; [exact (proj1 W)|discriminate].
Qed.

Definition iter_ok (it : raw_iter) : Prop := segs_ok (it_segs it) /\ it_fuel it = n.
Lemma iter_new_ok root rev signed : iter_ok (iter_new root n rev signed).
Proof.
  unfold iter_new, iter_ok. destruct root as [c|]; [|cbn; auto]. destruct (as_slice c) as [d|] eqn:E; [|cbn; auto].
  cbn. split; [|reflexivity]. split; [|constructor]. right. split; [cbn; lia|]. split; [reflexivity|]. apply as_slice_full in E. exact E.
Qed.
Lemma iter_next_ok it : iter_ok it ->
  iter_ok (snd (iter_next it)) /\ match fst (iter_next it) with Some r => orderly r | None => True end /\
  match fst (iter_next it) with Some (Ok _) => Forall walked (it_segs (snd (iter_next it))) | _ => True end.
Proof.
  intros [H1 H2].
  assert (Same : forall st, iter_ok (RawIter (it_segs it) st (it_builder it) (it_rev it) (it_signed it) (it_fuel it))) by (intros st; split; assumption).
  unfold iter_next. destruct (it_status it); [|split; [apply Same|split; exact I]|split; [split; assumption|split; exact I]].
  set (segs := it_segs it) in *. rewrite H2.
  assert (X : match iter_loop (S (S n)) (it_rev it) (it_signed it) segs (it_builder it) with
    | Ok (_, sg, _) => Forall walked sg | Err e => orderly (Err e : res unit) end).
  { pose proof (pop_ok (it_rev it) (it_signed it) segs 0 (it_builder it) H1) as P.
    destruct (iter_pop (it_rev it) (it_signed it) segs 0 (it_builder it)) as [[[[|g rest] b]|]|e] eqn:E; [destruct P| | |].
    - destruct P as [P1 P2]. pose proof (loop_fresh (it_rev it) (it_signed it) (S (S n)) g rest b ltac:(destruct P1; lia) P1 P2) as L.
      cbn [iter_loop] in L |- *. rewrite E. cbn [iter_pop] in L. destruct P1 as (_ & P1 & _). rewrite P1 in L. exact L.
    - cbn [iter_loop]. rewrite E. cbn [rbind]. constructor.
    - cbn [iter_loop]. rewrite E. cbn [rbind]. exact P. }
  destruct (iter_loop _ _ _ _ _) as [[[o sg] b]|e]; cbn [fst snd it_segs].
  - split; [|split; [destruct o; exact I|destruct o; [exact X|exact I]]]. split; [|reflexivity]. cbn [it_segs].
    destruct X as [|g sg X1 X2]; [exact I|]. split; [left|]; assumption.
  - split; [rewrite <- H2; apply Same|]. split; [exact X|exact I].
Qed.
Lemma iter_calls_ok i it : iter_ok it -> Forall (fun o => match o with Some r => orderly r | None => True end) (calls iter_next i it).
Proof.
  revert it. induction i as [|i IH]; intros it H; cbn [calls]; [constructor|].
  destruct (iter_next_ok it H) as (A & B & _). destruct (iter_next it) as [o it']. constructor; [exact B|apply IH, A].
Qed.
Lemma iter_calls_owned_ok i c it : iter_ok it ->
  Forall (fun o => match o with Some r => orderly r | None => True end) (calls (iter_next_owned (Some c)) i it).
Proof.
  revert it. induction i as [|i IH]; intros it H; cbn [calls]; [constructor|].
  destruct (iter_next_ok it H) as (A & B & C). unfold iter_next_owned at 1. destruct (iter_next it) as [o it']. cbn [fst snd] in *.
  destruct o as [[[k s]|e]|]; [|constructor; [exact B|apply IH, A]|constructor; [exact I|apply IH, A]].
  cbv zeta. destruct (it_segs it') as [|g rest] eqn:Es; [constructor; [exact I|apply IH, A]|].
  inversion C as [|? ? C1 C2]; subst. destruct (i_prefix g) as [p|] eqn:Ep; [|destruct C1; congruence].
  match goal with |- context [ref_at ?z ?c] => pose proof (o_ref z c) as O; destruct (ref_at z c) end.
  - constructor; [exact I|apply IH, A].
  - constructor; [exact O|]. apply IH. destruct A as [A1 A2]. rewrite Es in A1. split; assumption.
Qed.
End It.

(** The keyless iterator. *)
Section Vals.
Context (n : nat) (Hn : n <= 1023).
Definition vwalked (g : vseg) : Prop := v_rem g <= n /\ length (s_bits (v_data g)) < length (c_bits (s_cell (v_data g))).
Definition vfresh (g : vseg) : Prop :=
  v_rem g <= n /\ s_bits (v_data g) = c_bits (s_cell (v_data g)) /\ s_refs (v_data g) = c_refs (s_cell (v_data g)).
Definition vsegs_ok (segs : list vseg) : Prop :=
  match segs with [] => True | g :: rest => (vwalked g \/ vfresh g) /\ Forall vwalked rest end.
Lemma as_slice_bits c d : as_slice c = Ok d -> s_bits d = c_bits (s_cell d).
Proof. unfold as_slice. destruct (c_exotic c); [discriminate|]. intros [= <-]. reflexivity. Qed.

Lemma vpop_ok rev signed segs : vsegs_ok segs ->
  match values_pop rev signed segs with
  | Ok (g :: rest) => vfresh g /\ Forall vwalked rest
  | Ok [] => True
  | Err e => orderly (Err e : res unit)
  end.
Proof.
  induction segs as [|g segs IH]; intros H; cbn [values_pop]; [exact I|]. destruct H as [Hg HF].
  unfold offset_bits. destruct Hg as [[W1 W2]|W].
  - rewrite (proj2 (Nat.eqb_neq _ _)) by lia. cbv zeta. destruct (offset_refs (v_data g) <? 2).
    + match goal with |- context [ref_slice ?z ?c] => pose proof (o_ref_slice z c) as O2; destruct (ref_slice z c) as [d|] eqn:Ed end; cbn [rbind]; [|exact O2].
      unfold ref_slice in Ed. destruct (ref_at _ _) as [c|]; cbn [rbind] in Ed; [|discriminate].
      split; [split; [exact W1|split; [apply as_slice_bits in Ed|apply as_slice_full in Ed]; exact Ed]|]. constructor; [|exact HF].
      split; [exact W1|]. cbn [v_data]. unfold skip_ref. destruct (s_refs (v_data g)); exact W2.
    + apply IH. destruct segs as [|g2 segs]; [exact I|]. inversion HF; subst. split; [left|]; assumption.
  - pose proof W as (W1 & W2 & W3). rewrite W2, Nat.sub_diag. cbn [Nat.eqb]. split; assumption.
Qed.

Lemma vloop_pop rev signed f segs h hs : values_pop rev signed segs = Ok (h :: hs) -> vfresh h ->
  values_loop (S f) rev signed segs = values_loop (S f) rev signed (h :: hs).
Proof.
  intros E (_ & Hb & _). cbn [values_loop]. rewrite E. cbn [values_pop]. unfold offset_bits. rewrite Hb, Nat.sub_diag. reflexivity.
Qed.

Lemma vloop_fresh rev signed fuel g rest : v_rem g < fuel -> vfresh g -> Forall vwalked rest ->
  match values_loop fuel rev signed (g :: rest) with
  | Ok (_, segs) => Forall vwalked segs
  | Err e => orderly (Err e : res unit)
  end.
Proof.
  revert g rest. induction fuel as [|f IH]; intros g rest Hf (Hr & Hb & Hd) HF; [lia|].
  assert (Ep : values_pop rev signed (g :: rest) = Ok (g :: rest)) by (cbn [values_pop]; unfold offset_bits; rewrite Hb, Nat.sub_diag; reflexivity).
  cbn [values_loop]. rewrite Ep. cbn [rbind].
  pose proof (o_read (v_rem g) (s_bits (v_data g))) as O. destruct (read_label (v_rem g) (s_bits (v_data g))) as [[p rb]|] eqn:El; cbn [rbind]; [|exact O].
  destruct (v_rem g <? length p); [exact I|]. destruct (Nat.eqb_spec (v_rem g - length p) 0) as [E|E]; [exact HF|].
  cbn [s_refs]. destruct (Nat.ltb_spec (length (s_refs (v_data g))) 2) as [L|L]; [exact I|].
  apply read_label_shorter in El; [|lia|lia]. rewrite Hb in El.
  set (g' := VSeg (Sl (s_cell (v_data g)) rb (s_refs (v_data g))) (v_rem g - length p - 1)).
  assert (W : vwalked g') by (split; [cbn; lia|exact El]).
  destruct f as [|f]; [lia|].
  pose proof (vpop_ok rev signed (g' :: rest) (conj (or_introl W) HF)) as P.
  assert (Q : match values_pop rev signed (g' :: rest) with Ok (h :: _) => v_rem h = v_rem g' | _ => True end).
  { cbn [values_pop]. unfold offset_bits. rewrite (proj2 (Nat.eqb_neq _ _)) by (destruct W; lia).
    assert (Eo : offset_refs (v_data g') = 0) by (unfold offset_refs; cbn [v_data g' s_cell s_refs]; rewrite Hd; lia). rewrite Eo. cbn [Nat.ltb Nat.leb]. cbv zeta.
    destruct (ref_slice _ _); cbn [rbind]; [reflexivity|exact I]. }
  destruct (values_pop rev signed (g' :: rest)) as [[|h hs]|e] eqn:E2.
  - cbn [values_loop]. rewrite E2. cbn [rbind]. constructor.
  - destruct P as [P1 P2]. rewrite (vloop_pop _ _ _ _ _ _ E2 P1). apply IH; [rewrite Q; cbn; lia|assumption..].
  - cbn [values_loop]. rewrite E2. cbn [rbind]. exact P.
Qed.

Definition values_ok (v : raw_values) : Prop := vsegs_ok (vl_segs v) /\ vl_fuel v = n.
Lemma values_new_ok root rev signed : values_ok (values_new root n rev signed).
Proof.
  unfold values_new, values_ok. destruct root as [c|]; [|cbn; auto]. destruct (as_slice c) as [d|] eqn:E; [|cbn; auto].
  cbn. split; [|reflexivity]. split; [|constructor]. right. split; [cbn; lia|].
  split; [apply as_slice_bits in E|apply as_slice_full in E]; exact E.
Qed.
Lemma values_next_ok it : values_ok it ->
  values_ok (snd (values_next it)) /\ match fst (values_next it) with Some r => orderly r | None => True end.
Proof.
  intros [H1 H2].
  assert (Same : forall st, values_ok (RawValues (vl_segs it) st (vl_rev it) (vl_signed it) (vl_fuel it))) by (intros st; split; assumption).
  unfold values_next. destruct (vl_status it); [|split; [apply Same|exact I]|split; [split; assumption|exact I]].
  set (segs := vl_segs it) in *. rewrite H2.
  assert (X : match values_loop (S (S n)) (vl_rev it) (vl_signed it) segs with
    | Ok (_, sg) => Forall vwalked sg | Err e => orderly (Err e : res unit) end).
  { pose proof (vpop_ok (vl_rev it) (vl_signed it) segs H1) as P.
    destruct (values_pop (vl_rev it) (vl_signed it) segs) as [[|g rest]|e] eqn:E.
    - cbn [values_loop]. rewrite E. cbn [rbind]. constructor.
    - destruct P as [P1 P2]. rewrite (vloop_pop _ _ _ _ _ _ E P1). apply vloop_fresh; [destruct P1; lia|assumption..].
    - cbn [values_loop]. rewrite E. cbn [rbind]. exact P. }
  destruct (values_loop _ _ _ _) as [[o sg]|e]; cbn [fst snd].
  - split; [|destruct o; exact I]. split; [|reflexivity]. cbn [vl_segs].
    destruct X as [|g sg X1 X2]; [exact I|]. split; [left|]; assumption.
  - split; [rewrite <- H2; apply Same|exact X].
Qed.
Lemma values_calls_ok i it : values_ok it -> Forall (fun o => match o with Some r => orderly r | None => True end) (calls values_next i it).
Proof.
  revert it. induction i as [|i IH]; intros it H; cbn [calls]; [constructor|].
  destruct (values_next_ok it H) as (A & B). destruct (values_next it) as [o it']. constructor; [exact B|apply IH, A].
Qed.
End Vals.
