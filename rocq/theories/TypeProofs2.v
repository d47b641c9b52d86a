(** * Proofs about parsing ABI types *)
From Coq Require Import String.
From Verif Require Import Err NumSpec NumProps IntModel TextModel TextSpec TextProofs TextProofs2 CellModel AbiModel AbiProofs CallModel CallProofs InitModel TypeModel TypeSpec TypeProofs.
Local Open Scope N_scope.
Local Opaque show_dec parse_unsigned.

Lemma strip_suffix_app c s : strip_suffix c (s ++ [c]) = Some s.
Proof. unfold strip_suffix. rewrite rev_app_distr. cbn [rev app]. rewrite N.eqb_refl, rev_involutive. reflexivity. Qed.
Lemma strip_suffix_other c d s : d <> c -> strip_suffix c (s ++ [d]) = None.
Proof. intros H. unfold strip_suffix. rewrite rev_app_distr. cbn [rev app]. destruct (N.eqb_spec d c); congruence. Qed.
Lemma strip_suffix_word c s : ~ alnum c -> Forall alnum s -> strip_suffix c s = None.
Proof.
  intros H F. destruct s as [|d s _] using rev_ind; [reflexivity|]. apply strip_suffix_other. apply Forall_app in F. destruct F as [_ F]. apply Forall_inv in F. congruence.
Qed.
Lemma split_once_app c a b : ~ alnum c -> Forall alnum a -> split_once c (a ++ c :: b) = Some (a, b).
Proof.
  intros H. induction 1 as [|x a Hx _ IH]; cbn [app split_once]; [rewrite N.eqb_refl; reflexivity|]. rewrite IH. destruct (N.eqb_spec x c); [congruence|reflexivity].
Qed.
Lemma rsplit_once_app c a b : ~ alnum c -> Forall alnum b -> rsplit_once c (a ++ c :: b) = Some (a, b).
Proof.
  intros H F. unfold rsplit_once. rewrite rev_app_distr. cbn [rev]. rewrite <- app_assoc. cbn [app].
  rewrite split_once_app; [rewrite !rev_involutive; reflexivity|exact H|]. rewrite List.Forall_forall in F |- *. intros x Hx. apply F, in_rev, Hx.
Qed.
Lemma dec_u16 n : n < 2 ^ 16 -> parse_u16 (show_dec n) = Some n.
Proof. intros H. apply show_dec_parse. change (2 ^ 16) with 65536 in H. lia. Qed.
Lemma dec_usize n : N.of_nat n < 2 ^ 64 -> parse_usize (show_dec (N.of_nat n)) = Some n.
Proof. intros H. unfold parse_usize. rewrite show_dec_parse by lia. cbn [option_map]. rewrite Nat2N.id. reflexivity. Qed.
Lemma dec_nz8 n : 1 <= n /\ n < 2 ^ 8 -> parse_nz8 (show_dec n) = Some n.
Proof. change (2 ^ 8) with 256. intros H. unfold parse_nz8. rewrite show_dec_parse by lia. destruct (N.eqb_spec n 0); [lia|reflexivity]. Qed.
Lemma right_not : ~ alnum RIGHT. Proof. unfold alnum, RIGHT. lia. Qed.
Lemma left_not : ~ alnum LEFT. Proof. unfold alnum, LEFT. lia. Qed.
Lemma comma_not : ~ alnum COMMA. Proof. unfold alnum, COMMA. lia. Qed.
Lemma dot_not : ~ alnum DOT. Proof. unfold alnum, DOT. lia. Qed.
Lemma pty_round k : key_fits k -> parse_pty (show_pty k) = Some k.
Proof.
  destruct k; cbn [key_fits show_pty]; intros H; [| |reflexivity|reflexivity]; wtxt; unfold parse_pty; wtxt; cbn [app];
    rewrite !bool_decide_eq_false_2 by discriminate; cbn [strip_prefix N.eqb Pos.eqb]; rewrite dec_u16 by exact H; reflexivity.
Qed.
Section NtyInd.
Context (P : nty -> Prop) (H1 : forall b, P (NBase b)) (H2 : forall l, Forall (fun p => P (snd p)) l -> P (NTuple l)) (H3 : forall t, P t -> P (NArray t))
  (H4 : forall t n, P t -> P (NFixedArray t n)) (H5 : forall k t, P t -> P (NMap k t)) (H6 : forall t, P t -> P (NOpt t)) (H7 : forall t, P t -> P (NRef t)).
Fixpoint nty_nest (t : nty) : P t :=
  match t with
  | NBase b => H1 b
  | NTuple l => H2 l ((fix go (l : list (list N * nty)) : Forall (fun p => P (snd p)) l := match l with [] => List.Forall_nil _ | y :: l => @List.Forall_cons _ (fun p => P (snd p)) y l (nty_nest (snd y)) (go l) end) l)
  | NArray t => H3 t (nty_nest t) | NFixedArray t n => H4 t n (nty_nest t) | NMap k t => H5 k t (nty_nest t) | NOpt t => H6 t (nty_nest t) | NRef t => H7 t (nty_nest t)
  end.
End NtyInd.
Lemma base_alnum b : Forall alnum (show_aty (unbase b)).
Proof.
  assert (C : core (unbase b) = true) by (destruct b; reflexivity). apply core_text in C. destruct C as [_ C]. destruct b; exact C.
Qed.
Lemma parse_base_round b fuel : base_fits b -> parse_simple (S fuel) (show_aty (unbase b)) = Some (NBase b).
Proof.
  intros H. pose proof (strip_suffix_word RIGHT _ right_not (base_alnum b)) as Sx. cbn [parse_simple]. rewrite Sx. clear Sx. unfold parse_base.
  destruct b; cbn [unbase show_aty base_fits] in *; wtxt; cbn [app] in *; try reflexivity;
    repeat rewrite bool_decide_eq_false_2 by discriminate; cbn [orb strip_prefix N.eqb Pos.eqb].
  - rewrite dec_u16 by exact H. reflexivity.
  - rewrite dec_u16 by exact H. reflexivity.
  - rewrite dec_nz8 by exact H. reflexivity.
  - rewrite dec_nz8 by exact H. reflexivity.
  - rewrite dec_usize by exact H. reflexivity.
Qed.
Lemma parse_simple_round t : fits t -> forall fuel, (length (show_simple t) < fuel)%nat -> parse_simple fuel (show_simple t) = Some (set_components [] t).
Proof.
  induction t as [b|l _|t IH|t n IH|k t IH|t IH|t IH] using nty_nest; cbn [fits]; intros H fuel L; (destruct fuel as [|fuel]; [lia|]).
  - apply parse_base_round, H.
  - reflexivity.
  - cbn [show_simple parse_simple set_components] in *. rewrite app_length in L. cbn [length] in L.
    change (show_simple t ++ [LEFT; RIGHT]) with (show_simple t ++ [LEFT] ++ [RIGHT]). rewrite app_assoc, strip_suffix_app, (rsplit_once_app _ _ [] left_not (List.Forall_nil _)).
    rewrite IH by (exact H || lia). reflexivity.
  - destruct H as [H Hn]. cbn [show_simple parse_simple set_components] in *. rewrite app_length in L. cbn [length] in L.
    change (show_simple t ++ LEFT :: show_dec (N.of_nat n) ++ [RIGHT]) with (show_simple t ++ (LEFT :: show_dec (N.of_nat n)) ++ [RIGHT]).
    rewrite app_assoc, strip_suffix_app, (rsplit_once_app _ _ _ left_not (dec_alnum _)). pose proof (dec_nonempty (N.of_nat n)) as Nz. pose proof (dec_usize n Hn) as Du.
    destruct (show_dec (N.of_nat n)) as [|d ds]; [congruence|]. rewrite Du, IH by (exact H || lia). reflexivity.
  - destruct H as [Hk H]. cbn [show_simple parse_simple set_components] in *. rewrite !app_length in L. cbn [length] in L. rewrite app_length in L.
    change (txt "map(" ++ show_pty k ++ COMMA :: show_simple t ++ [CLOSE]) with (txt "map(" ++ show_pty k ++ (COMMA :: show_simple t) ++ [CLOSE]).
    rewrite !app_assoc, (strip_suffix_other RIGHT CLOSE) by discriminate. rewrite <- !app_assoc. unfold parse_base. wtxt. cbn [app].
    repeat rewrite bool_decide_eq_false_2 by discriminate. cbn [orb strip_prefix N.eqb Pos.eqb].
    change (show_pty k ++ COMMA :: show_simple t ++ [CLOSE]) with (show_pty k ++ (COMMA :: show_simple t) ++ [CLOSE]). rewrite app_assoc, strip_suffix_app, (split_once_app _ _ _ comma_not (pty_word k)), pty_round by exact Hk.
    rewrite IH by (exact H || (cbn [length] in L; lia)). reflexivity.
  - cbn [show_simple parse_simple set_components] in *. rewrite !app_length in L.
    rewrite !app_assoc, (strip_suffix_other RIGHT CLOSE) by discriminate. rewrite <- !app_assoc. unfold parse_base. wtxt. cbn [app].
    repeat rewrite bool_decide_eq_false_2 by discriminate. cbn [orb strip_prefix N.eqb Pos.eqb]. rewrite strip_suffix_app.
    rewrite IH by (exact H || (cbn [length] in L; lia)). reflexivity.
  - cbn [show_simple parse_simple set_components] in *. rewrite !app_length in L.
    rewrite !app_assoc, (strip_suffix_other RIGHT CLOSE) by discriminate. rewrite <- !app_assoc. unfold parse_base. wtxt. cbn [app].
    repeat rewrite bool_decide_eq_false_2 by discriminate. cbn [orb strip_prefix N.eqb Pos.eqb]. rewrite strip_suffix_app.
    rewrite IH by (exact H || (cbn [length] in L; lia)). reflexivity.
Qed.
Lemma simple_round t : fits t -> from_simple_str (show_simple t) = Some (set_components [] t).
Proof. intros H. apply parse_simple_round; [exact H|lia]. Qed.
Lemma has_set l t : has_components (set_components l t) = has_components t.
Proof. induction t; cbn [has_components set_components]; auto. Qed.
Lemma set_set l t : forall m, set_components l (set_components m t) = set_components l t.
Proof. induction t; intros m; cbn [set_components]; rewrite ?IHt; reflexivity. Qed.
Lemma json_round t : fits t -> forall name, of_json (to_json (name, t)) = Some (name, t).
Proof.
  assert (J : forall t name, fits t ->
    match json_components t with
    | Some cs => has_components t = true /\ exists l, all_some (map of_json cs) = Some l /\ set_components l t = t
    | None => has_components t = false /\ set_components [] t = t
    end -> of_json (to_json (name, t)) = Some (name, t)).
  { clear t. intros t name F H. unfold to_json. cbn [fst snd of_json]. rewrite (simple_round t F), has_set. destruct (json_components t) as [cs|].
    - destruct H as (-> & l & -> & E). rewrite set_set, E. reflexivity.
    - destruct H as [-> E]. rewrite E. reflexivity. }
  intros F name. apply J; [exact F|]. clear name. induction t as [b|l IH|t IH|t n IH|k t IH|t IH|t IH] using nty_nest; cbn [json_components has_components set_components fits] in *.
  - split; reflexivity.
  - split; [reflexivity|]. exists l. split; [|reflexivity]. induction IH as [|[name t] l Ht _ IHl]; [reflexivity|]. destruct F as [F Fl]. cbn [map all_some].
    change (Json name (show_simple t) (json_components t)) with (to_json (name, t)). rewrite (J t name F (Ht F)), (IHl Fl). reflexivity.
  - specialize (IH F). destruct (json_components t); [destruct IH as (A & l' & B & C); split; [exact A|exists l'; rewrite C; auto]|destruct IH as [A C]; rewrite C; auto].
  - specialize (IH (proj1 F)). destruct (json_components t); [destruct IH as (A & l' & B & C); split; [exact A|exists l'; rewrite C; auto]|destruct IH as [A C]; rewrite C; auto].
  - specialize (IH (proj2 F)). destruct (json_components t); [destruct IH as (A & l' & B & C); split; [exact A|exists l'; rewrite C; auto]|destruct IH as [A C]; rewrite C; auto].
  - specialize (IH F). destruct (json_components t); [destruct IH as (A & l' & B & C); split; [exact A|exists l'; rewrite C; auto]|destruct IH as [A C]; rewrite C; auto].
  - specialize (IH F). destruct (json_components t); [destruct IH as (A & l' & B & C); split; [exact A|exists l'; rewrite C; auto]|destruct IH as [A C]; rewrite C; auto].
Qed.
(** ** What is accepted fits *)
Lemma parse_le max s v : parse_unsigned 10 max s = Some v -> v <= max.
Proof. intros H. apply parse_unsigned_iff in H; [apply H|lia]. Qed.
Lemma u16_fits s n : parse_u16 s = Some n -> n < 2 ^ 16.
Proof. intros H. apply parse_le in H. change (2 ^ 16) with 65536. lia. Qed.
Lemma usize_fits s n : parse_usize s = Some n -> N.of_nat n < 2 ^ 64.
Proof.
  unfold parse_usize. destruct (parse_unsigned 10 (2 ^ 64 - 1) s) as [v|] eqn:E; cbn [option_map]; [|discriminate]. intros [= <-]. apply parse_le in E. rewrite N2Nat.id. lia.
Qed.
Lemma nz8_fits s n : parse_nz8 s = Some n -> 1 <= n /\ n < 2 ^ 8.
Proof.
  unfold parse_nz8. destruct (parse_unsigned 10 255 s) as [v|] eqn:E; [|discriminate]. destruct (N.eqb_spec v 0); [discriminate|]. intros [= <-]. apply parse_le in E. change (2 ^ 8) with 256. lia.
Qed.
Lemma pty_fits s k : parse_pty s = Some k -> key_fits k.
Proof.
  unfold parse_pty. destruct (bool_decide _); [intros [= <-]; exact Logic.I|]. destruct (bool_decide _); [intros [= <-]; exact Logic.I|].
  destruct (strip_prefix _ s) as [u|].
  - destruct (parse_u16 u) eqn:E; [|discriminate]. intros [= <-]. apply (u16_fits _ _ E).
  - destruct (strip_prefix _ s) as [w|]; [|discriminate]. destruct (parse_u16 w) eqn:E; [|discriminate]. intros [= <-]. apply (u16_fits _ _ E).
Qed.
Lemma base_parsed s b : parse_base s = Some b -> base_fits b.
Proof. unfold parse_base. repeat (destruct (bool_decide _); [intros [= <-]; exact Logic.I|]). destruct (_ || _); [intros [= <-]; exact Logic.I|discriminate]. Qed.
Lemma parse_simple_fits fuel : forall s t, parse_simple fuel s = Some t -> fits t.
Proof.
  induction fuel as [|fuel IH]; intros s t; cbn [parse_simple]; [discriminate|]. destruct (strip_suffix RIGHT s) as [a|].
  { destruct (rsplit_once LEFT a) as [[ty len]|]; [|discriminate]. destruct len as [|c len].
    - destruct (parse_simple fuel ty) eqn:E; [|discriminate]. intros [= <-]. apply (IH _ _ E).
    - destruct (parse_usize (c :: len)) as [n|] eqn:En; [|discriminate]. destruct (parse_simple fuel ty) eqn:E; [|discriminate]. intros [= <-]. split; [apply (IH _ _ E)|apply (usize_fits _ _ En)]. }
  destruct (parse_base s) as [b|] eqn:Eb; [intros [= <-]; apply (base_parsed _ _ Eb)|]. destruct (bool_decide _); [intros [= <-]; exact Logic.I|].
  destruct (strip_prefix (txt "uint") s) as [u|]; [destruct (parse_u16 u) eqn:E; [intros [= <-]; apply (u16_fits _ _ E)|discriminate]|].
  destruct (strip_prefix (txt "int") s) as [u|]; [destruct (parse_u16 u) eqn:E; [intros [= <-]; apply (u16_fits _ _ E)|discriminate]|].
  destruct (strip_prefix (txt "varuint") s) as [u|]; [destruct (parse_nz8 u) eqn:E; [intros [= <-]; apply (nz8_fits _ _ E)|discriminate]|].
  destruct (strip_prefix (txt "varint") s) as [u|]; [destruct (parse_nz8 u) eqn:E; [intros [= <-]; apply (nz8_fits _ _ E)|discriminate]|].
  destruct (strip_prefix (txt "fixedbytes") s) as [u|]; [destruct (parse_usize u) eqn:E; [intros [= <-]; apply (usize_fits _ _ E)|discriminate]|].
  destruct (strip_prefix (txt "map(") s) as [u|].
  { destruct (strip_suffix CLOSE u) as [v|]; [|discriminate]. destruct (split_once COMMA v) as [[k w]|]; [|discriminate]. destruct (parse_pty k) as [k'|] eqn:Ek; [|discriminate].
    destruct (parse_simple fuel w) eqn:E; [|discriminate]. intros [= <-]. split; [apply (pty_fits _ _ Ek)|apply (IH _ _ E)]. }
  destruct (strip_prefix (txt "optional(") s) as [u|].
  { destruct (strip_suffix CLOSE u) as [v|]; [|discriminate]. destruct (parse_simple fuel v) eqn:E; [|discriminate]. intros [= <-]. apply (IH _ _ E). }
  destruct (strip_prefix (txt "ref(") s) as [u|]; [|discriminate].
  destruct (strip_suffix CLOSE u) as [v|]; [|discriminate]. destruct (parse_simple fuel v) eqn:E; [|discriminate]. intros [= <-]. apply (IH _ _ E).
Qed.
Fixpoint json_nest (P : json -> Prop) (H : forall n t cs, match cs with Some l => Forall P l | None => True end -> P (Json n t cs)) (j : json) : P j :=
  match j with
  | Json n t cs => H n t cs
    match cs with
    | Some l => (fix go (l : list json) : Forall P l := match l with [] => @List.Forall_nil _ P | y :: l => @List.Forall_cons _ P y l (json_nest P H y) (go l) end) l
    | None => Logic.I
    end
  end.
Lemma set_fits l t : fits (NTuple l) -> fits t -> fits (set_components l t).
Proof. intros Hl. induction t as [b|m _|t IH|t n IH|k t IH|t IH|t IH] using nty_nest; cbn [set_components]; intros F; try exact F; try (apply IH, F); try exact Hl; cbn [fits] in *; destruct F; auto. Qed.
Lemma json_fits j : forall p, of_json j = Some p -> fits (snd p).
Proof.
  induction j as [n ty cs IH] using json_nest. intros p. cbn [of_json]. destruct (from_simple_str ty) as [t|] eqn:Et; [|discriminate]. apply parse_simple_fits in Et.
  destruct (has_components t), cs as [cs|]; try discriminate; [|intros [= <-]; exact Et].
  destruct (all_some (map of_json cs)) as [l|] eqn:El; [|discriminate]. intros [= <-]. cbn [snd]. apply set_fits; [|exact Et]. clear - IH El. revert l El.
  induction IH as [|j cs Hj _ IHc]; intros l; cbn [map all_some]; [intros [= <-]; exact Logic.I|]. destruct (of_json j) as [[n t]|] eqn:Ej; [|discriminate].
  destruct (all_some (map of_json cs)) as [l'|]; [|discriminate]. intros [= <-]. split; [apply (Hj _ eq_refl)|apply IHc; reflexivity].
Qed.
