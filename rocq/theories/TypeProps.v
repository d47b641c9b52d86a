(** * C73: ABI types, signatures and contracts as text *)
From Coq Require Import String.
From Verif Require Import Err NumSpec NumProps IntModel TextModel TextSpec TextProofs TextProofs2 CellModel AbiModel AbiProofs CallModel CallProofs InitModel TypeModel TypeSpec TypeProofs TypeProofs2.
Local Open Scope N_scope.

(** ** Types *)
(** The text of a type in a signature is what the grammar says, *)
Theorem C73_text s t : type_text s t <-> s = show_aty t.
Proof. apply aty_text_iff. Qed.
Print Assumptions C73_text.
(** and it is read in one way only, whatever follows within a list of types. *)
Theorem C73_unambiguous s t u : type_text s t -> type_text s u -> t = u.
Proof.
  rewrite !C73_text. intros -> E. destruct (aty_reads t u [] [] Logic.I Logic.I) as [H _]; [rewrite !app_nil_r; exact E|exact H].
Qed.
Print Assumptions C73_unambiguous.
(** A named type is read back from its JSON, with the names of all components, *)
Theorem C73_json name t : fits t -> of_json (to_json (name, t)) = Some (name, t).
Proof. intros H. apply json_round, H. Qed.
Print Assumptions C73_json.
(** and whatever is accepted is such a type. *)
Theorem C73_accepted j name t : of_json j = Some (name, t) -> fits t /\ of_json (to_json (name, t)) = Some (name, t).
Proof. intros H. apply json_fits in H. split; [exact H|apply json_round, H]. Qed.
Print Assumptions C73_accepted.
(** An accepted type has the name and the text that are given, and components exactly if it
    contains a tuple: those that are given. *)
Lemma show_set l t : show_simple (set_components l t) = show_simple t.
Proof. induction t as [b|m _|t IH|t n IH|k t IH|t IH|t IH] using nty_nest; cbn [set_components show_simple]; rewrite ?IH; reflexivity. Qed.
Lemma components_set l t : json_components (set_components l t) = if has_components t then Some (map to_json l) else None.
Proof.
  induction t as [b|m _|t IH|t n IH|k t IH|t IH|t IH] using nty_nest; cbn [set_components json_components has_components]; try exact IH; [reflexivity|].
  f_equal. apply map_ext. intros [n t]. reflexivity.
Qed.
Lemma components_none t : has_components t = false -> json_components t = None.
Proof. induction t as [b|m _|t IH|t n IH|k t IH|t IH|t IH] using nty_nest; cbn [json_components has_components]; auto. discriminate. Qed.
Theorem C73_parts name s components name' t : of_json (Json name s components) = Some (name', t) ->
  exists t', name' = name /\ from_simple_str s = Some t' /\ show_simple t' = show_simple t /\
  match components with
  | None => json_components t = None
  | Some l => exists l', json_components t = Some (map to_json l') /\ Forall2 (fun j p => of_json j = Some p) l l'
  end.
Proof.
  cbn [of_json]. destruct (from_simple_str s) as [u|]; [|discriminate]. destruct (has_components u) eqn:Hu, components as [l|]; try discriminate.
  - destruct (all_some (map of_json l)) as [l'|] eqn:E; [|discriminate]. intros [= <- <-]. exists u. split; [reflexivity|]. split; [reflexivity|]. split; [symmetry; apply show_set|].
    exists l'. rewrite components_set, Hu. split; [reflexivity|]. clear - E. revert l' E. induction l as [|j l IH]; intros l'; cbn [map all_some]; [intros [= <-]; constructor|].
    destruct (of_json j) as [p|] eqn:Ej; [|discriminate]. destruct (all_some (map of_json l)) as [r|]; [|discriminate]. intros [= <-]. constructor; [exact Ej|apply IH; reflexivity].
  - intros [= <- <-]. exists u. split; [reflexivity|]. split; [reflexivity|]. split; [reflexivity|]. apply components_none, Hu.
Qed.
Print Assumptions C73_parts.
(** Different texts may be accepted as the same type. *)
Theorem C73_spelling_refuted : ~ (forall s s' t, from_simple_str s = Some t -> from_simple_str s' = Some t -> s = s').
Proof. intros H. specialize (H (txt "uint8") (txt "uint+008") (NBase (BUint 8)) ltac:(vm_compute; reflexivity) ltac:(vm_compute; reflexivity)). discriminate H. Qed.
Print Assumptions C73_spelling_refuted.

(** ** Versions and headers *)
Theorem C73_version v : v_major v < 2 ^ 8 -> v_minor v < 2 ^ 8 ->
  parse_version (show_version v) = Some v /\ exists a b, decimal (v_major v) a /\ decimal (v_minor v) b /\ show_version v = a ++ txt "." ++ b.
Proof.
  destruct v as [x y]. cbn [v_major v_minor]. change (2 ^ 8) with 256. intros Hx Hy. split.
  - unfold parse_version, show_version. cbn [v_major v_minor]. rewrite (split_once_app _ _ _ dot_not (dec_alnum _)), !show_dec_parse by lia. reflexivity.
  - exists (show_dec x), (show_dec y). split; [apply show_dec_decimal|]. split; [apply show_dec_decimal|reflexivity].
Qed.
Print Assumptions C73_version.
Lemma split_once_inv c s : forall a b, split_once c s = Some (a, b) -> s = a ++ c :: b.
Proof.
  induction s as [|x s IH]; intros a b; cbn [split_once]; [discriminate|]. destruct (N.eqb_spec x c) as [->|]; [intros [= <- <-]; reflexivity|].
  destruct (split_once c s) as [[a' b']|]; [|discriminate]. intros [= <- <-]. rewrite (IH _ _ eq_refl). reflexivity.
Qed.
Theorem C73_version_accepted s v : parse_version s = Some v <->
  exists a b, s = a ++ txt "." ++ b /\ number_text 10 (v_major v) a /\ number_text 10 (v_minor v) b /\ v_major v < 2 ^ 8 /\ v_minor v < 2 ^ 8.
Proof.
  change (2 ^ 8) with 256. unfold parse_version. split.
  - destruct (split_once DOT s) as [[a b]|] eqn:E; [|discriminate]. apply split_once_inv in E. destruct (parse_unsigned 10 255 a) as [x|] eqn:A; [|discriminate].
    destruct (parse_unsigned 10 255 b) as [y|] eqn:B; [|discriminate]. intros [= <-]. apply parse_unsigned_iff in A, B; [|lia..]. destruct A, B.
    exists a, b. cbn [v_major v_minor]. repeat split; try assumption; lia.
  - intros (a & b & -> & A & B & La & Lb). assert (Sp : split_once DOT (a ++ txt "." ++ b) = Some (a, b)).
    { destruct A as (ds & cs & F & _ & _ & H). assert (Fa : Forall (fun c => c <> DOT) cs).
      { clear - F. induction F as [|d c ds cs Hd F IH]; constructor; [unfold digit_text, DOT in *; lia|exact IH]. }
      assert (Fx : Forall (fun c => c <> DOT) a). { destruct H as [->| ->]; [exact Fa|constructor; [discriminate|exact Fa]]. }
      clear - Fx. induction Fx as [|x a Hx _ IH]; [reflexivity|]. cbn [app split_once]. cbn [app] in IH. rewrite IH. destruct (N.eqb_spec x DOT); [congruence|reflexivity]. }
    assert (Pa : parse_unsigned 10 255 a = Some (v_major v)) by (apply parse_unsigned_iff; [lia|]; split; [exact A|lia]).
    assert (Pb : parse_unsigned 10 255 b = Some (v_minor v)) by (apply parse_unsigned_iff; [lia|]; split; [exact B|lia]).
    rewrite Sp, Pa, Pb. destruct v; reflexivity.
Qed.
Print Assumptions C73_version_accepted.
Theorem C73_header s h : parse_header s = Some h <-> argument_text s (inl h).
Proof.
  unfold parse_header. split.
  - destruct (bool_decide_reflect (s = txt "time")) as [->|]; [intros [= <-]; constructor|]. destruct (bool_decide_reflect (s = txt "expire")) as [->|]; [intros [= <-]; constructor|].
    destruct (bool_decide_reflect (s = txt "pubkey")) as [->|]; [intros [= <-]; constructor|discriminate].
  - intros H. inversion H; subst; reflexivity.
Qed.
Print Assumptions C73_header.

(** ** Signatures *)
Definition show_argument (x : htype + aty) : list N := match x with inl h => show_header h | inr t => show_aty t end.
Lemma argument_iff x s : argument_text s x <-> s = show_argument x.
Proof.
  destruct x as [h|t].
  - split; [intros H; inversion H; reflexivity|intros ->; destruct h; constructor].
  - split; [intros H; inversion H; subst; apply C73_text; assumption|intros ->; constructor; apply C73_text; reflexivity].
Qed.
Lemma argument_starts x : starts (show_argument x).
Proof. destruct x as [h|t]; [destruct h; cbn; unfold COMMA, CLOSE; lia|apply show_starts]. Qed.
Lemma stop_brk r : stop r -> brk r.
Proof. destruct r as [|c r]; [trivial|]. unfold stop, brk, alnum, COMMA, CLOSE. lia. Qed.
Lemma header_word h : Forall alnum (show_header h).
Proof. destruct h; cbn [show_header]; wtxt; alpha. Qed.
Lemma header_type h t r r' : stop r -> stop r' -> show_header h ++ r = show_aty t ++ r' -> False.
Proof.
  intros Hr Hr' E. destruct (decompose t) as (c & l & C & ->). rewrite arrs_text in E. destruct (core_text c C) as [Ec Fc]. rewrite Ec, <- !app_assoc in E.
  destruct (words _ _ _ _ (header_word h) Fc (stop_brk _ Hr) (tail_brk c _ (sufs_brk l r' Hr')) E) as [W _].
  destruct h, c; try discriminate C; cbn [show_header word show_aty] in W; wtxt; discriminate W.
Qed.
Lemma argument_reads x : reads show_argument x.
Proof.
  intros y r r' Hr Hr' E. destruct x as [h|t], y as [h'|t']; cbn [show_argument] in E.
  - destruct (words _ _ _ _ (header_word h) (header_word h') (stop_brk _ Hr) (stop_brk _ Hr') E) as [W ->]. destruct h, h'; cbn [show_header] in W; wtxt; try discriminate W; split; reflexivity.
  - destruct (header_type _ _ _ _ Hr Hr' E).
  - symmetry in E. destruct (header_type _ _ _ _ Hr' Hr E).
  - destruct (aty_reads t t' r r' Hr Hr' E) as [-> ->]. split; reflexivity.
Qed.
Lemma all_reads {A} (f : A -> list N) : (forall x, reads f x) -> forall l, Forall (reads f) l.
Proof. intros H. induction l; constructor; auto. Qed.
Lemma arguments_text v hs ins : (if v_major v =? 1 then map show_header hs else []) ++ map show_aty ins = map show_argument (arguments v hs ins).
Proof. unfold arguments. rewrite map_app. destruct (v_major v =? 1); rewrite ?map_map; reflexivity. Qed.
Lemma types_text ins : map show_aty ins = map show_argument (map inr ins).
Proof. rewrite map_map. reflexivity. Qed.
Lemma function_text_eq v name hs ins outs : function_text v name hs ins outs =
  name ++ OPEN :: join (map show_argument (arguments v hs ins)) ++ CLOSE :: OPEN :: join (map show_aty outs) ++ CLOSE :: 118 :: show_dec (v_major v).
Proof. unfold function_text. rewrite arguments_text. reflexivity. Qed.
Lemma event_text_eq v name ins : event_text v name ins = name ++ OPEN :: join (map show_argument (map inr ins)) ++ CLOSE :: 118 :: show_dec (v_major v).
Proof. unfold event_text. rewrite types_text. reflexivity. Qed.
Theorem C73_signature_text s v name headers inputs outputs : signature_of_function s v name headers inputs outputs <-> s = function_text v name headers inputs outputs.
Proof.
  rewrite function_text_eq. unfold signature_of_function.
  pose proof (items_iff show_argument argument_text (arguments v headers inputs)) as Ii. specialize (Ii ltac:(apply List.Forall_forall; intros x _ q; apply argument_iff)).
  pose proof (items_iff show_aty type_text outputs) as Io. specialize (Io ltac:(apply List.Forall_forall; intros x _ q; apply C73_text)). split.
  - intros (i & o & d & Hi & Ho & Hd & ->). apply Ii in Hi. apply Io in Ho. apply decimal_iff in Hd. subst. reflexivity.
  - intros ->. eexists _, _, _. split; [apply Ii; reflexivity|]. split; [apply Io; reflexivity|]. split; [apply show_dec_decimal|]. reflexivity.
Qed.
Print Assumptions C73_signature_text.
Theorem C73_event_text s v name inputs : signature_of_event s v name inputs <-> s = event_text v name inputs.
Proof.
  unfold signature_of_event, event_text.
  pose proof (items_iff show_aty type_text inputs) as Io. specialize (Io ltac:(apply List.Forall_forall; intros x _ q; apply C73_text)). split.
  - intros (i & d & Hi & Hd & ->). apply Io in Hi. apply decimal_iff in Hd. subst. reflexivity.
  - intros ->. eexists _, _. split; [apply Io; reflexivity|]. split; [apply show_dec_decimal|]. reflexivity.
Qed.
Print Assumptions C73_event_text.
Definition plain_name (name : list N) : Prop := ~ In OPEN name.
Lemma name_split a : forall b q q', plain_name a -> plain_name b -> a ++ OPEN :: q = b ++ OPEN :: q' -> a = b /\ q = q'.
Proof.
  induction a as [|x a IH]; intros [|y b] q q' Ha Hb E; cbn [app] in E.
  - injection E as ->. split; reflexivity.
  - injection E as <- _. exfalso. apply Hb. cbn. auto.
  - injection E as -> _. exfalso. apply Ha. cbn. auto.
  - injection E as <- E. destruct (IH b q q') as [-> ->]; [intros H; apply Ha; cbn; auto|intros H; apply Hb; cbn; auto|exact E|split; reflexivity].
Qed.
Lemma inr_inj ins ins' : map (@inr htype aty) ins = map inr ins' -> ins = ins'.
Proof. revert ins'. induction ins as [|x l IH]; intros [|y l']; cbn; try discriminate; [reflexivity|]. intros [= -> E]. f_equal. apply IH, E. Qed.
Lemma args_inj hs : forall hs' ins ins', map (@inl htype aty) hs ++ map inr ins = map inl hs' ++ map inr ins' -> hs = hs' /\ ins = ins'.
Proof.
  induction hs as [|h hs IH]; intros [|h' hs'] ins ins' E; cbn [map app] in E.
  - split; [reflexivity|apply inr_inj, E].
  - destruct ins; discriminate E.
  - destruct ins'; discriminate E.
  - injection E as -> E. destruct (IH _ _ _ E) as [-> ->]. split; reflexivity.
Qed.
(** Functions have the same signature only if they agree in all that is hashed, *)
Theorem C73_signature s v name headers inputs outputs v' name' headers' inputs' outputs' :
  plain_name name -> plain_name name' ->
  signature_of_function s v name headers inputs outputs -> signature_of_function s v' name' headers' inputs' outputs' ->
  v_major v = v_major v' /\ name = name' /\ inputs = inputs' /\ outputs = outputs' /\ (v_major v = 1 -> headers = headers').
Proof.
  intros P P'. rewrite !C73_signature_text, !function_text_eq. intros -> E. destruct (name_split _ _ _ _ P P' E) as [<- E1].
  destruct (items_reads show_argument argument_starts _ (all_reads _ argument_reads _) _ _ _ E1) as [A E2]. injection E2 as E2.
  destruct (items_reads show_aty show_starts _ (all_reads _ aty_reads _) _ _ _ E2) as [-> E3]. injection E3 as E3. apply dec_inj in E3.
  unfold arguments in A. rewrite <- E3 in A. destruct (N.eqb_spec (v_major v) 1) as [M|N1].
  - apply args_inj in A. destruct A as [-> ->]. auto.
  - apply inr_inj in A. subst. repeat split; auto. intros H. contradiction.
Qed.
Print Assumptions C73_signature.
(** and so do events; *)
Theorem C73_event_signature s v name inputs v' name' inputs' :
  plain_name name -> plain_name name' -> signature_of_event s v name inputs -> signature_of_event s v' name' inputs' ->
  v_major v = v_major v' /\ name = name' /\ inputs = inputs'.
Proof.
  intros P P'. rewrite !C73_event_text, !event_text_eq. intros -> E. destruct (name_split _ _ _ _ P P' E) as [<- E1].
  destruct (items_reads show_argument argument_starts _ (all_reads _ argument_reads _) _ _ _ E1) as [A E2]. injection E2 as E2. apply dec_inj in E2. apply inr_inj in A. auto.
Qed.
Print Assumptions C73_event_signature.
(** no function shares one with an event. *)
Theorem C73_kinds s v name headers inputs outputs v' name' inputs' :
  plain_name name -> plain_name name' -> signature_of_function s v name headers inputs outputs -> ~ signature_of_event s v' name' inputs'.
Proof.
  intros P P'. rewrite C73_signature_text, C73_event_text, function_text_eq, event_text_eq. intros -> E. destruct (name_split _ _ _ _ P P' E) as [<- E1].
  destruct (items_reads show_argument argument_starts _ (all_reads _ argument_reads _) _ _ _ E1) as [_ E2]. discriminate E2.
Qed.
Print Assumptions C73_kinds.
(** Names are not checked, and with a parenthesis in a name this is false. *)
Theorem C73_name_refuted : ~ (forall s v name headers inputs outputs name' inputs', signature_of_function s v name headers inputs outputs -> ~ signature_of_event s v name' inputs').
Proof.
  intros H. apply (H (txt "f()()v2") (Version 2 0) (txt "f") [] [] [] (txt "f()") []); [apply C73_signature_text|apply C73_event_text]; vm_compute; reflexivity.
Qed.
Print Assumptions C73_name_refuted.

(** ** Contracts *)
Section Contracts.
Context (sha256 : list N -> list N).
(** The first four bytes of a hash as a number. *)
Definition hash_number (s : list N) : N := from_be (take 4 (sha256 s)).
(** What the identifier of a function or an event says. *)
Definition id_text (o : option (list N)) (id : option N) : Prop :=
  match o, id with
  | None, None => True
  | Some s, Some n => exists d, s = txt "0x" ++ d /\ number_text 16 n d /\ n < 2 ^ 32
  | _, _ => False
  end.
Definition types_say (js : list json) (ts : list aty) : Prop := exists l, Forall2 (fun j p => of_json j = Some p) js l /\ ts = map (fun p => unnamed (snd p)) l.
Definition function_says (v : version) (headers : list htype) (j : json_function) (f : func) : Prop :=
  exists inputs outputs id s, types_say (jf_inputs j) inputs /\ types_say (jf_outputs j) outputs /\ id_text (jf_id j) id /\
    signature_of_function s v (jf_name j) headers inputs outputs /\
    f = match id with
        | Some n => Func v headers inputs outputs n n
        | None => Func v headers inputs outputs (N.land (hash_number s) (2 ^ 31 - 1)) (N.lor (hash_number s) (2 ^ 31))
        end.
Definition event_says (v : version) (j : json_event) (e : event) : Prop :=
  exists inputs id s, types_say (je_inputs j) inputs /\ id_text (je_id j) id /\ signature_of_event s v (je_name j) inputs /\
    e = Event v inputs match id with Some n => n | None => N.land (hash_number s) (2 ^ 31 - 1) end.
(** [m] has, for every name, what the last item with that name says. *)
Definition last_of {J A : Type} (name : J -> list N) (says : J -> A -> Prop) (l : list J) (m : list (list N * A)) : Prop :=
  List.NoDup (map fst m) /\
  forall n x, In (n, x) m <-> exists l1 j l2, l = l1 ++ j :: l2 /\ name j = n /\ ~ In n (map name l2) /\ says j x.

Lemma all_some_iff {A B} (f : A -> option B) l r : all_some (map f l) = Some r <-> Forall2 (fun x y => f x = Some y) l r.
Proof.
  revert r. induction l as [|x l IH]; intros r; cbn [map all_some].
  - split; [intros [= <-]; constructor|intros H; inversion H; reflexivity].
  - destruct (f x) as [y|] eqn:E.
    + destruct (all_some (map f l)) as [r'|].
      * split; [intros [= <-]; constructor; [exact E|apply IH; reflexivity]|]. intros H. inversion H as [|x1 y1 l1 r1 H1 H2]; subst. apply IH in H2. congruence.
      * split; [discriminate|]. intros H. inversion H as [|x1 y1 l1 r1 H1 H2]; subst. apply IH in H2. discriminate.
    + split; [discriminate|]. intros H. inversion H as [|x1 y1 l1 r1 H1 H2]; subst. congruence.
Qed.
Lemma parse_id_iff o id : parse_id o = Some id <-> id_text o id.
Proof.
  unfold parse_id, id_text. destruct o as [s|].
  - assert (Sp : forall d, strip_prefix (txt "0x") s = Some d <-> s = txt "0x" ++ d).
    { intros d. change (txt "0x") with [48; 120]. split; [|intros ->; reflexivity]. destruct s as [|a [|b s]]; cbn [strip_prefix]; try discriminate; [destruct (48 =? a); discriminate|].
      destruct (N.eqb_spec 48 a) as [<-|]; [|discriminate]. destruct (N.eqb_spec 120 b) as [<-|]; [|discriminate]. intros [= <-]. reflexivity. }
    destruct (strip_prefix (txt "0x") s) as [d|].
    + pose proof (proj1 (Sp d) eq_refl) as E. assert (X : forall n, parse_unsigned 16 (2 ^ 32 - 1) d = Some n <-> number_text 16 n d /\ n <= 2 ^ 32 - 1) by (intros; apply parse_unsigned_iff; lia).
      destruct (parse_unsigned 16 (2 ^ 32 - 1) d) as [x|].
      * split.
        -- intros [= <-]. exists d. destruct (proj1 (X x) eq_refl) as [T L]. split; [exact E|]. split; [exact T|lia].
        -- destruct id as [n|]; [|contradiction]. intros (d' & E' & T & L). rewrite E in E'. apply app_inv_head in E'. subst d'. f_equal. apply X. split; [exact T|lia].
      * split; [discriminate|]. destruct id as [n|]; [|contradiction]. intros (d' & E' & T & L). rewrite E in E'. apply app_inv_head in E'. subst d'.
        assert (Q : None = Some n) by (apply X; split; [exact T|lia]). discriminate Q.
    + split; [discriminate|]. destruct id as [n|]; [|contradiction]. intros (d' & E' & _). apply Sp in E'. discriminate.
  - destruct id; [split; [discriminate|contradiction]|split; auto].
Qed.
Lemma read_function_iff v hs j n f : read_function sha256 v hs j = Some (n, f) <-> n = jf_name j /\ function_says v hs j f.
Proof.
  unfold read_function, function_says. split.
  - destruct (all_some (map of_json (jf_inputs j))) as [ins|] eqn:A; [|discriminate]. destruct (all_some (map of_json (jf_outputs j))) as [outs|] eqn:B; [|discriminate].
    destruct (parse_id (jf_id j)) as [id|] eqn:C; [|discriminate]. intros [= <- <-]. split; [reflexivity|].
    exists (types_of ins), (types_of outs), id, (function_text v (jf_name j) hs (types_of ins) (types_of outs)).
    split; [exists ins; split; [apply all_some_iff, A|reflexivity]|]. split; [exists outs; split; [apply all_some_iff, B|reflexivity]|]. split; [apply parse_id_iff, C|].
    split; [apply C73_signature_text; reflexivity|]. destruct id; reflexivity.
  - intros (-> & ins & outs & id & s & (li & Hi & ->) & (lo & Ho & ->) & Hid & Hs & ->). apply all_some_iff in Hi, Ho. apply parse_id_iff in Hid. apply C73_signature_text in Hs.
    rewrite Hi, Ho, Hid. subst s. destruct id; reflexivity.
Qed.
Lemma read_event_iff v j n e : read_event sha256 v j = Some (n, e) <-> n = je_name j /\ event_says v j e.
Proof.
  unfold read_event, event_says. split.
  - destruct (all_some (map of_json (je_inputs j))) as [ins|] eqn:A; [|discriminate]. destruct (parse_id (je_id j)) as [id|] eqn:C; [|discriminate]. intros [= <- <-]. split; [reflexivity|].
    exists (types_of ins), id, (event_text v (je_name j) (types_of ins)). split; [exists ins; split; [apply all_some_iff, A|reflexivity]|]. split; [apply parse_id_iff, C|].
    split; [apply C73_event_text; reflexivity|]. destruct id; reflexivity.
  - intros (-> & ins & id & s & (li & Hi & ->) & Hid & Hs & ->). apply all_some_iff in Hi. apply parse_id_iff in Hid. apply C73_event_text in Hs. rewrite Hi, Hid. subst s. destruct id; reflexivity.
Qed.
Lemma read_datum_iff d n x : read_datum d = Some (n, x) <-> exists t, of_json (snd d) = Some (n, t) /\ x = (fst d, t).
Proof.
  unfold read_datum. destruct (of_json (snd d)) as [[m t]|].
  - split; [intros [= <- <-]; eauto|]. intros (t' & [= -> ->] & ->). reflexivity.
  - split; [discriminate|]. intros (t' & H & _). discriminate.
Qed.
(** Maps: the last entry with a name counts *)
Lemma remove_in {A} n (m : list (list N * A)) e : In e (field_remove n m) <-> In e m /\ fst e <> n.
Proof.
  unfold field_remove. rewrite List.filter_In. unfold named. split; intros [H1 H2]; (split; [exact H1|]).
  - intros E. rewrite bool_decide_eq_true_2 in H2 by auto. discriminate.
  - rewrite bool_decide_eq_false_2 by auto. reflexivity.
Qed.
Lemma collect_snoc {A} (l : list (list N * A)) e : collect_map (l ++ [e]) = field_remove (fst e) (collect_map l) ++ [e].
Proof. unfold collect_map. rewrite fold_left_app. reflexivity. Qed.
Lemma collect_nodup {A} (l : list (list N * A)) : List.NoDup (map fst (collect_map l)).
Proof.
  induction l as [|e l IH] using rev_ind; [constructor|]. rewrite collect_snoc, map_app. cbn [map].
  assert (H : List.NoDup (map fst (field_remove (fst e) (collect_map l)))).
  { clear - IH. unfold field_remove. induction (collect_map l) as [|x m IHm]; [constructor|]. cbn [map] in IH. inversion IH as [|y z H1 H2]; subst. cbn [List.filter]. destruct (negb _); [|exact (IHm H2)].
    cbn [map]. constructor; [|exact (IHm H2)]. intros H. apply H1. apply in_map_iff in H. destruct H as (q & <- & Hq). apply List.filter_In in Hq. apply in_map, Hq. }
  apply (List.NoDup_Add (a := fst e) (l := map fst (field_remove (fst e) (collect_map l)))).
  - pose proof (Add_app (fst e) (map fst (field_remove (fst e) (collect_map l))) []) as Q. rewrite app_nil_r in Q. exact Q.
  - split; [exact H|]. intros I. apply in_map_iff in I. destruct I as (q & E & Hq). apply remove_in in Hq. destruct Hq. congruence.
Qed.
Lemma collect_in {A} (l : list (list N * A)) e : In e (collect_map l) <-> exists l1 l2, l = l1 ++ e :: l2 /\ ~ In (fst e) (map fst l2).
Proof.
  revert e. induction l as [|x l IH] using rev_ind; intros e.
  - split; [intros []|]. intros (l1 & l2 & E & _). destruct l1; discriminate.
  - rewrite collect_snoc, in_app_iff, remove_in, IH. split.
    + intros [[(l1 & l2 & -> & H) Hx]|[<-|[]]].
      * exists l1, (l2 ++ [x]). split; [rewrite <- app_assoc; reflexivity|]. rewrite map_app, in_app_iff. cbn. intros [I|[I|[]]]; [contradiction|congruence].
      * exists l, []. split; [reflexivity|]. intros [].
    + intros (l1 & l2 & E & H). destruct l2 as [|y l2 _] using rev_ind.
      * apply app_inj_tail in E. destruct E as [-> ->]. right. left. reflexivity.
      * assert (E' : l ++ [x] = (l1 ++ e :: l2) ++ [y]) by (rewrite E, <- app_assoc; reflexivity). apply app_inj_tail in E'. destruct E' as [-> ->]. left.
        rewrite map_app, in_app_iff in H. cbn in H. split; [exists l1, l2; split; [reflexivity|tauto]|]. intros I. apply H. right. left. congruence.
Qed.
Lemma collect_last {J A} (read : J -> option (list N * A)) (name : J -> list N) (says : J -> A -> Prop) l r :
  (forall j n x, read j = Some (n, x) <-> n = name j /\ says j x) -> all_some (map read l) = Some r -> last_of name says l (collect_map r).
Proof.
  intros R H. apply all_some_iff in H. split; [apply collect_nodup|]. intros n x. rewrite collect_in. cbn [fst].
  assert (Nm : forall a b, Forall2 (fun j e => read j = Some e) a b -> map fst b = map name a).
  { clear - R. induction 1 as [|j [m y] a b Hj _ IH]; [reflexivity|]. cbn [map fst]. apply R in Hj. destruct Hj as [-> _]. f_equal. exact IH. }
  split.
  - intros (r1 & r2 & -> & Hn). apply List.Forall2_app_inv_r in H. destruct H as (l1 & l2' & H1 & H2 & ->). inversion H2 as [|j e l2 r2' Hj H3]; subst.
    apply R in Hj. destruct Hj as [-> Hx]. exists l1, j, l2. repeat split; try assumption. rewrite <- (Nm _ _ H3). exact Hn.
  - intros (l1 & j & l2 & -> & Hn & Hl & Hx). apply List.Forall2_app_inv_l in H. destruct H as (r1 & r2' & H1 & H2 & ->). inversion H2 as [|j' e l2' r2 Hj H3]; subst.
    rewrite (proj2 (R j (name j) x) (conj eq_refl Hx)) in Hj. injection Hj as <-. exists r1, r2. split; [reflexivity|]. cbn [fst]. rewrite (Nm _ _ H3). exact Hl.
Qed.
(** The name of an item of initial data. *)
Definition datum_name (d : N * json) : list N := match snd d with Json name _ _ => name end.
Lemma of_json_name j n t : of_json j = Some (n, t) -> match j with Json name _ _ => name end = n.
Proof.
  destruct j as [name ty cs]. cbn [of_json]. destruct (from_simple_str ty) as [u|]; [|discriminate]. destruct (has_components u), cs as [l|]; try discriminate.
  - destruct (all_some _); [|discriminate]. intros [= <- _]. reflexivity.
  - intros [= <- _]. reflexivity.
Qed.
(** A contract says what its JSON says; of items with the same name the last counts. *)
Theorem C73_contract c k : read_contract sha256 c = Some k ->
  (match jc_version c with Some s => parse_version s = Some (nc_version k) | None => jc_abi c = Some (v_major (nc_version k)) /\ v_minor (nc_version k) = 0 end) /\
  Forall2 (fun s h => argument_text s (inl h)) (jc_header c) (nc_headers k) /\
  last_of jf_name (function_says (nc_version k) (nc_headers k)) (jc_functions c) (nc_functions k) /\
  last_of je_name (event_says (nc_version k)) (jc_events c) (nc_events k) /\
  last_of datum_name (fun d x => fst x = fst d /\ of_json (snd d) = Some (datum_name d, snd x)) (jc_data c) (nc_init k) /\
  Forall2 (fun j f => of_json j = Some f) (jc_fields c) (nc_fields k).
Proof.
  unfold read_contract. destruct (read_version c) as [v|] eqn:Ev; [|discriminate]. destruct (all_some (map parse_header (jc_header c))) as [hs|] eqn:Eh; [|discriminate].
  destruct (all_some (map (read_function sha256 v hs) (jc_functions c))) as [fs|] eqn:Ef; [|discriminate]. destruct (all_some (map (read_event sha256 v) (jc_events c))) as [es|] eqn:Ee; [|discriminate].
  destruct (all_some (map read_datum (jc_data c))) as [ds|] eqn:Ed; [|discriminate]. destruct (all_some (map of_json (jc_fields c))) as [fields|] eqn:Ex; [|discriminate]. intros [= <-].
  cbn [nc_version nc_headers nc_functions nc_events nc_init nc_fields]. split; [|split; [|split; [|split; [|split]]]].
  - unfold read_version in Ev. destruct (jc_version c); [exact Ev|]. destruct (jc_abi c); [|discriminate]. injection Ev as <-. split; reflexivity.
  - apply all_some_iff in Eh. clear - Eh. induction Eh as [|s h l r H _ IH]; constructor; [apply C73_header, H|exact IH].
  - apply (collect_last (read_function sha256 v hs)); [apply read_function_iff|exact Ef].
  - apply (collect_last (read_event sha256 v)); [apply read_event_iff|exact Ee].
  - apply (collect_last read_datum); [|exact Ed]. intros d n x. rewrite read_datum_iff. split.
    + intros (t & Hj & ->). pose proof (of_json_name _ _ _ Hj) as Nm. split; [symmetry; exact Nm|]. split; [reflexivity|]. unfold datum_name. rewrite Nm. exact Hj.
    + intros (-> & H1 & H2). exists (snd x). split; [exact H2|]. rewrite <- H1. destruct x; reflexivity.
  - apply all_some_iff, Ex.
Qed.
(** A contract with several functions of the same name is accepted, and all but the last are lost. *)
Theorem C73_same_name_refuted : ~ (forall c k, read_contract sha256 c = Some k ->
  forall j, In j (jc_functions c) -> exists f, In (jf_name j, f) (nc_functions k) /\ function_says (nc_version k) (nc_headers k) j f).
Proof.
  intros H.
  set (a := JFunction (txt "f") [Json (txt "x") (txt "uint8") None] [] (Some (txt "0x1"))). set (b := JFunction (txt "f") [] [] (Some (txt "0x2"))).
  set (c := JContract (Some 2) None [] [a; b] [] [] []).
  destruct (H c (NContract (Version 2 0) [] [(txt "f", Func (Version 2 0) [] [] [] 2 2)] [] [] []) ltac:(vm_compute; reflexivity) a ltac:(left; reflexivity)) as (f & [E|[]] & Hf).
  cbn [nc_version nc_headers] in Hf. pose proof (proj2 (read_function_iff (Version 2 0) [] a (txt "f") f) (conj eq_refl Hf)) as R. vm_compute in R. injection E as E. rewrite <- E in R. discriminate R.
Qed.
(** A contract that is read. *)
Example C73_contract_case : exists c k, read_contract sha256 c = Some k /\ length (nc_functions k) = 2%nat /\ length (nc_headers k) = 2%nat /\ length (nc_init k) = 1%nat.
Proof.
  eexists (JContract (Some 2) (Some (txt "2.3")) [txt "time"; txt "expire"]
    [JFunction (txt "f") [Json (txt "x") (txt "tuple[]") (Some [Json (txt "a") (txt "uint8") None; Json (txt "b") (txt "map(address,cell)") None])] [] None;
     JFunction (txt "g") [] [Json (txt "y") (txt "optional(bytes)") None] (Some (txt "0x1f"))]
    [JEvent (txt "e") [Json (txt "z") (txt "bool") None] None] [(1, Json (txt "owner") (txt "uint256") None)] [Json (txt "o") (txt "ref(int8[4])") None]), _.
  split; [cbv - [from_be N.land N.lor function_text event_text]; reflexivity|]. split; [reflexivity|]. split; reflexivity.
Qed.
End Contracts.
Print Assumptions C73_contract.
Print Assumptions C73_same_name_refuted.
(** A type with all kinds of parts, its text, its JSON. *)
Definition nested : nty :=
  NTuple [(txt "a", NMap (PUint 256) (NArray (NTuple [(txt "x", NBase (BVarUint 16)); (txt "y", NFixedArray (NBase BToken) 3)]))); (txt "b", NOpt (NRef (NBase (BFixedBytes 32)))); (txt "c", NTuple [])].
Example C73_case : fits nested /\ show_aty (unnamed nested) = txt "(map(uint256,(varuint16,gram[3])[]),optional(ref(fixedbytes32)),())" /\
  show_simple nested = txt "tuple" /\ of_json (to_json (txt "n", nested)) = Some (txt "n", nested) /\
  function_text (Version 2 3) (txt "f") [HTime] [unnamed nested; TBool] [TInt 8] = txt "f((map(uint256,(varuint16,gram[3])[]),optional(ref(fixedbytes32)),()),bool)(int8)v2".
Proof. split; [vm_compute; repeat split; discriminate|]. repeat split; vm_compute; reflexivity. Qed.
