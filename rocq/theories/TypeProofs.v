(** * Proofs about the texts of ABI types *)
From Coq Require Import String.
From Verif Require Import Err NumSpec NumProps IntModel TextModel TextSpec TextProofs TextProofs2 Var248Proofs2 CellModel AbiModel AbiProofs CallModel CallProofs InitModel TypeModel TypeSpec.
Local Open Scope N_scope.

(** ** Decimal notation *)
Lemma digits_val_pos ds : Forall (fun d => d < 10) ds -> ds <> [] -> hd 0 ds <> 0 -> 0 < digits_val 10 ds.
Proof.
  induction ds as [|x l IH] using rev_ind; [congruence|]. intros F _ H. rewrite digits_val_app. change (digits_val 10 [x]) with x. cbn [length]. change (10 ^ N.of_nat 1) with 10.
  apply Forall_app in F. destruct F as [F Fx]. destruct l as [|y l]; [cbn in *; lia|]. assert (0 < digits_val 10 (y :: l)) by (apply IH; [exact F|congruence|exact H]). lia.
Qed.
Lemma digits_unique a : forall b, Forall (fun d => d < 10) a -> Forall (fun d => d < 10) b -> a <> [] -> b <> [] ->
  (hd 0 a = 0 -> length a = 1%nat) -> (hd 0 b = 0 -> length b = 1%nat) -> digits_val 10 a = digits_val 10 b -> a = b.
Proof.
  induction a as [|x a IH] using rev_ind; [congruence|]. intros b. destruct b as [|y b _] using rev_ind; [congruence|].
  intros Fa Fb _ _ Ha Hb. rewrite !digits_val_app. change (digits_val 10 [x]) with x. change (digits_val 10 [y]) with y. cbn [length]. change (10 ^ N.of_nat 1) with 10. intros E.
  apply Forall_app in Fa, Fb. destruct Fa as [Fa Fx], Fb as [Fb Fy]. apply Forall_inv in Fx, Fy.
  assert (D : digits_val 10 a = digits_val 10 b /\ x = y) by lia. destruct D as [D ->]. f_equal.
  rewrite app_length in Ha, Hb. cbn [length] in Ha, Hb.
  assert (Pa : a <> [] -> hd 0 a <> 0) by (intros Na Z; destruct a as [|q a]; [congruence|]; cbn in Z, Ha; specialize (Ha Z); lia).
  assert (Pb : b <> [] -> hd 0 b <> 0) by (intros Na Z; destruct b as [|q b]; [congruence|]; cbn in Z, Hb; specialize (Hb Z); lia).
  destruct a as [|p a], b as [|q b]; [reflexivity|..].
  - pose proof (digits_val_pos (q :: b) Fb ltac:(congruence) (Pb ltac:(congruence))). change (digits_val 10 []) with 0 in D. lia.
  - pose proof (digits_val_pos (p :: a) Fa ltac:(congruence) (Pa ltac:(congruence))). change (digits_val 10 []) with 0 in D. lia.
  - apply IH; try assumption; try congruence; intros Z; exfalso; [apply Pa in Z|apply Pb in Z]; congruence.
Qed.
Lemma decimal_iff v s : decimal v s <-> s = show_dec v.
Proof.
  split; [|intros ->; apply show_dec_decimal]. intros (a & A1 & A2 & A3 & A4 & A5). destruct (show_dec_decimal v) as (b & B1 & B2 & B3 & B4 & B5).
  rewrite A5, B5. f_equal. apply digits_unique; try assumption. congruence.
Qed.
Definition alnum (c : N) : Prop := 48 <= c <= 57 \/ 97 <= c <= 122.
Lemma dec_alnum n : Forall alnum (show_dec n).
Proof.
  destruct (show_dec_decimal n) as (ds & _ & F & _ & _ & ->). clear - F. induction F as [|d ds H F IH]; constructor; [|exact IH]. unfold alnum. lia.
Qed.
Lemma dec_nonempty n : show_dec n <> [].
Proof. destruct (show_dec_decimal n) as (ds & H & _ & _ & _ & ->). destruct ds; [congruence|discriminate]. Qed.
Lemma dec_inj n m : show_dec n = show_dec m -> n = m.
Proof.
  intros E. pose proof (show_dec_parse (N.max n m) n ltac:(lia)) as A. rewrite E, (show_dec_parse (N.max n m) m ltac:(lia)) in A. congruence.
Qed.
Local Opaque show_dec.
Definition brk (q : list N) : Prop := match q with [] => True | c :: _ => ~ alnum c end.
Lemma words a : forall b q q', Forall alnum a -> Forall alnum b -> brk q -> brk q' -> a ++ q = b ++ q' -> a = b /\ q = q'.
Proof.
  induction a as [|x a IH]; intros [|y b] q q' Fa Fb Hq Hq' E; cbn [app] in E.
  - split; [reflexivity|exact E].
  - subst q. apply Forall_inv in Fb. exfalso. apply Hq, Fb.
  - subst q'. apply Forall_inv in Fa. exfalso. apply Hq', Fa.
  - injection E as <- E. apply Forall_inv_tail in Fa, Fb. destruct (IH _ _ _ Fa Fb Hq Hq' E) as [-> ->]. split; reflexivity.
Qed.
Ltac alpha := repeat (apply List.Forall_cons; [unfold alnum; lia|]); apply List.Forall_nil.
Lemma w_uint : txt "uint" = [117; 105; 110; 116]. Proof. reflexivity. Qed.
Lemma w_int : txt "int" = [105; 110; 116]. Proof. reflexivity. Qed.
Lemma w_varuint : txt "varuint" = [118; 97; 114; 117; 105; 110; 116]. Proof. reflexivity. Qed.
Lemma w_varint : txt "varint" = [118; 97; 114; 105; 110; 116]. Proof. reflexivity. Qed.
Lemma w_fixedbytes : txt "fixedbytes" = [102; 105; 120; 101; 100; 98; 121; 116; 101; 115]. Proof. reflexivity. Qed.
Lemma w_map : txt "map(" = [109; 97; 112; 40]. Proof. reflexivity. Qed.
Lemma w_optional : txt "optional(" = [111; 112; 116; 105; 111; 110; 97; 108; 40]. Proof. reflexivity. Qed.
Lemma w_ref : txt "ref(" = [114; 101; 102; 40]. Proof. reflexivity. Qed.
Lemma w_bool : txt "bool" = [98; 111; 111; 108]. Proof. reflexivity. Qed.
Lemma w_cell : txt "cell" = [99; 101; 108; 108]. Proof. reflexivity. Qed.
Lemma w_address : txt "address" = [97; 100; 100; 114; 101; 115; 115]. Proof. reflexivity. Qed.
Lemma w_bytes : txt "bytes" = [98; 121; 116; 101; 115]. Proof. reflexivity. Qed.
Lemma w_string : txt "string" = [115; 116; 114; 105; 110; 103]. Proof. reflexivity. Qed.
Lemma w_gram : txt "gram" = [103; 114; 97; 109]. Proof. reflexivity. Qed.
Lemma w_token : txt "token" = [116; 111; 107; 101; 110]. Proof. reflexivity. Qed.
Lemma w_tuple : txt "tuple" = [116; 117; 112; 108; 101]. Proof. reflexivity. Qed.
Lemma w_time : txt "time" = [116; 105; 109; 101]. Proof. reflexivity. Qed.
Lemma w_expire : txt "expire" = [101; 120; 112; 105; 114; 101]. Proof. reflexivity. Qed.
Lemma w_pubkey : txt "pubkey" = [112; 117; 98; 107; 101; 121]. Proof. reflexivity. Qed.
Ltac wtxt := rewrite ?w_uint, ?w_int, ?w_varuint, ?w_varint, ?w_fixedbytes, ?w_map, ?w_optional, ?w_ref, ?w_bool, ?w_cell, ?w_address, ?w_bytes, ?w_string, ?w_gram, ?w_token, ?w_tuple, ?w_time, ?w_expire, ?w_pubkey in *.

(** ** Items separated by commas *)
Definition stop (r : list N) : Prop := match r with [] => True | c :: _ => c = COMMA \/ c = CLOSE end.
Definition starts (s : list N) : Prop := match s with [] => False | c :: _ => c <> COMMA /\ c <> CLOSE end.
Section Items.
Context {A : Type} (f : A -> list N).
Definition reads (x : A) : Prop := forall y r r', stop r -> stop r' -> f x ++ r = f y ++ r' -> x = y /\ r = r'.
Hypothesis St : forall x, starts (f x).
Definition rest (l : list A) : list N := concat (map (fun y => COMMA :: y) (map f l)).
Lemma rest_stop l q : stop (rest l ++ CLOSE :: q).
Proof. destruct l; cbn; [right; reflexivity|left; reflexivity]. Qed.
Lemma rest_reads l : Forall reads l -> forall l' q q', rest l ++ CLOSE :: q = rest l' ++ CLOSE :: q' -> l = l' /\ q = q'.
Proof.
  induction 1 as [|x l Hx _ IH]; intros [|y l'] q q' E.
  - injection E as ->. split; reflexivity.
  - discriminate E.
  - discriminate E.
  - unfold rest in E. cbn [map concat] in E. fold (rest l) (rest l') in E. cbn [app] in E. injection E as E. rewrite <- !app_assoc in E.
    destruct (Hx y _ _ (rest_stop l q) (rest_stop l' q') E) as [-> E']. destruct (IH _ _ _ E') as [-> ->]. split; reflexivity.
Qed.
Lemma items_reads l : Forall reads l -> forall l' q q', join (map f l) ++ CLOSE :: q = join (map f l') ++ CLOSE :: q' -> l = l' /\ q = q'.
Proof.
  intros F [|y l'] q q' E.
  - destruct l as [|x l]; [injection E as ->; split; reflexivity|]. cbn [join map app] in E. pose proof (St x) as H. destruct (f x) as [|c s]; [contradiction|]. injection E as E _. destruct H as [_ H]. congruence.
  - destruct F as [|x l Hx F].
    + cbn [join map app] in E. pose proof (St y) as H. destruct (f y) as [|c s]; [contradiction|]. injection E as E _. destruct H as [_ H]. congruence.
    + cbn [join map] in E. fold (rest l) (rest l') in E. rewrite <- !app_assoc in E. destruct (Hx y _ _ (rest_stop l q) (rest_stop l' q') E) as [-> E'].
      destruct (rest_reads l F l' q q' E') as [-> ->]. split; reflexivity.
Qed.
Lemma items_iff (R : list N -> A -> Prop) l : Forall (fun x => forall s, R s x <-> s = f x) l -> forall s, items R s l <-> s = join (map f l).
Proof.
  induction 1 as [|x l Hx F IH]; intros s.
  - split; [intros I; inversion I; reflexivity|intros ->; constructor].
  - destruct l as [|y l].
    + split; [intros I; inversion I; subst|intros ->; constructor; apply Hx; cbn; apply app_nil_r]. cbn. rewrite app_nil_r. apply Hx. assumption.
    + change (join (map f (x :: y :: l))) with (f x ++ COMMA :: join (map f (y :: l))). split.
      * intros I. inversion I as [| |s1 x1 s2 y1 l1 H1 H2]; subst. apply Hx in H1. apply IH in H2. subst. reflexivity.
      * intros ->. change (f x ++ COMMA :: join (map f (y :: l))) with (f x ++ txt "," ++ join (map f (y :: l))). constructor; [apply Hx; reflexivity|apply IH; reflexivity].
Qed.
End Items.

(** ** The text of a type is read in one way *)
Definition suf (o : option nat) : list N := match o with None => [LEFT; RIGHT] | Some n => LEFT :: show_dec (N.of_nat n) ++ [RIGHT] end.
Definition sufs (l : list (option nat)) : list N := concat (map suf l).
Definition arr (t : aty) (o : option nat) : aty := match o with None => TArray t | Some n => TFixedArray t n end.
Definition arrs (t : aty) (l : list (option nat)) : aty := fold_left arr l t.
Definition core (t : aty) : bool := match t with TArray _ | TFixedArray _ _ => false | _ => true end.
Lemma arrs_text l : forall t, show_aty (arrs t l) = show_aty t ++ sufs l.
Proof.
  induction l as [|o l IH]; intros t; [symmetry; apply app_nil_r|]. unfold arrs, sufs. cbn [fold_left map concat]. fold (arrs (arr t o) l) (sufs l). rewrite IH, app_assoc. f_equal.
  destruct o; reflexivity.
Qed.
Lemma decompose t : exists c l, core c = true /\ t = arrs c l.
Proof.
  induction t as [| | | | | | | | | | | |t (c & l & C & ->)|t (c & l & C & ->) n| | |];
    try (eexists _, []; split; [|reflexivity]; reflexivity).
  - exists c, (l ++ [None]). split; [exact C|]. unfold arrs. rewrite fold_left_app. reflexivity.
  - exists c, (l ++ [Some n]). split; [exact C|]. unfold arrs. rewrite fold_left_app. reflexivity.
Qed.
Lemma right_brk r : brk (RIGHT :: r). Proof. unfold brk, alnum, RIGHT. lia. Qed.
Lemma sufs_brk l r : stop r -> brk (sufs l ++ r).
Proof.
  destruct l as [|[n|] l]; cbn.
  - destruct r as [|c r]; [trivial|]. unfold stop, brk, alnum, COMMA, CLOSE. lia.
  - unfold alnum, LEFT. lia.
  - unfold alnum, LEFT. lia.
Qed.
Lemma sufs_reads l : forall l' r r', stop r -> stop r' -> sufs l ++ r = sufs l' ++ r' -> l = l' /\ r = r'.
Proof.
  induction l as [|o l IH]; intros [|o' l'] r r' Hr Hr' E.
  - split; [reflexivity|exact E].
  - exfalso. cbn in E. subst r. destruct o'; cbn in Hr; unfold LEFT, COMMA, CLOSE in Hr; lia.
  - exfalso. cbn in E. subst r'. destruct o; cbn in Hr'; unfold LEFT, COMMA, CLOSE in Hr'; lia.
  - unfold sufs in E. cbn [map concat] in E. fold (sufs l) (sufs l') in E. rewrite <- !app_assoc in E.
    assert (W : o = o' /\ sufs l ++ r = sufs l' ++ r').
    { destruct o as [n|], o' as [m|]; cbn [suf app] in E; injection E as E.
      - rewrite <- !app_assoc in E. destruct (words _ _ _ _ (dec_alnum _) (dec_alnum _) (right_brk _) (right_brk _) E) as [W E']. apply dec_inj, Nat2N.inj in W. injection E' as E'. subst m. split; [reflexivity|exact E'].
      - rewrite <- app_assoc in E. destruct (words (show_dec (N.of_nat n)) [] _ _ (dec_alnum _) (List.Forall_nil _) (right_brk _) (right_brk _) E) as [W _]. apply dec_nonempty in W. contradiction.
      - rewrite <- app_assoc in E. destruct (words [] (show_dec (N.of_nat m)) _ _ (List.Forall_nil _) (dec_alnum _) (right_brk _) (right_brk _) E) as [W _]. symmetry in W. apply dec_nonempty in W. contradiction.
      - split; [reflexivity|exact E]. }
    destruct W as [<- W]. destruct (IH _ _ _ Hr Hr' W) as [-> ->]. split; reflexivity.
Qed.
Lemma pty_word k : Forall alnum (show_pty k).
Proof. destruct k; cbn [show_pty]; wtxt; [apply Forall_app; split; [alpha|apply dec_alnum]..|alpha|alpha]. Qed.
Lemma pty_inj k k' : show_pty k = show_pty k' -> k = k'.
Proof.
  destruct k, k'; cbn [show_pty]; wtxt; intros E; try discriminate E; try reflexivity; apply app_inv_head in E; apply dec_inj in E; congruence.
Qed.
(** The letters and digits in front, and what follows. *)
Definition word (t : aty) : list N :=
  match t with
  | TTuple _ => []
  | TMap _ _ => [109; 97; 112]
  | TOpt _ => [111; 112; 116; 105; 111; 110; 97; 108]
  | TRef _ => [114; 101; 102]
  | t => show_aty t
  end.
Definition tail_of (t : aty) : list N :=
  match t with
  | TTuple ts => OPEN :: join (map show_aty ts) ++ [CLOSE]
  | TMap k t => OPEN :: show_pty k ++ COMMA :: show_aty t ++ [CLOSE]
  | TOpt t | TRef t => OPEN :: show_aty t ++ [CLOSE]
  | _ => []
  end.
Lemma core_text t : core t = true -> show_aty t = word t ++ tail_of t /\ Forall alnum (word t).
Proof.
  destruct t; cbn [core]; intros C; try discriminate C; clear C; cbn [word tail_of show_aty]; wtxt; rewrite ?app_nil_r; (split; [first [exact (eq_refl _)|cbn [app]; exact (eq_refl _)]|]);
    (lazymatch goal with |- Forall _ (_ ++ _) => apply Forall_app; split; [|apply dec_alnum] | |- _ => idtac end); alpha.
Qed.
Lemma tail_brk t r : brk r -> brk (tail_of t ++ r).
Proof. intros H. destruct t; cbn [tail_of app]; try exact H; unfold brk, alnum, OPEN; lia. Qed.
Lemma comma_stop r : stop (COMMA :: r). Proof. left. reflexivity. Qed.
Lemma close_stop r : stop (CLOSE :: r). Proof. right. reflexivity. Qed.
Lemma comma_brk r : brk (COMMA :: r). Proof. unfold brk, alnum, COMMA. lia. Qed.
Lemma show_starts t : starts (show_aty t).
Proof.
  destruct (decompose t) as (c & l & C & ->). rewrite arrs_text. destruct c; try discriminate C; cbn [show_aty]; wtxt; cbn; unfold OPEN, COMMA, CLOSE; lia.
Qed.
Definition reads_from (t : aty) : Prop :=
  forall l u l' r r', core u = true -> stop r -> stop r' -> show_aty t ++ sufs l ++ r = show_aty u ++ sufs l' ++ r' -> arrs t l = arrs u l' /\ r = r'.
Lemma reads_of t : reads_from t -> reads show_aty t.
Proof.
  intros H u r r' Hr Hr' E. destruct (decompose u) as (c & l & C & ->). rewrite arrs_text, <- app_assoc in E. exact (H [] c l r r' C Hr Hr' E).
Qed.
Lemma aty_reads_from t : reads_from t.
Proof.
  induction t as [| | | | | | | | | | |ts IH|t IH|t n IH|k t IH|t IH|t IH] using aty_nest; intros l u l' r r' Cu Hr Hr' E;
    [..|exact (IH (None :: l) u l' r r' Cu Hr Hr' ltac:(revert E; unfold sufs; cbn [show_aty map concat suf]; rewrite <- !app_assoc; exact (fun e => e)))
       |exact (IH (Some n :: l) u l' r r' Cu Hr Hr' ltac:(revert E; unfold sufs; cbn [show_aty map concat suf]; rewrite <- !app_assoc; cbn [app]; rewrite <- !app_assoc; exact (fun e => e)))| | |].
  all: match type of E with show_aty ?t ++ _ = _ => destruct (core_text t eq_refl) as [Et Ft] end;
    destruct (core_text u Cu) as [Eu Fu]; rewrite Et, Eu, <- !app_assoc in E;
    destruct (words _ _ _ _ Ft Fu (tail_brk _ _ (sufs_brk l r Hr)) (tail_brk _ _ (sufs_brk l' r' Hr')) E) as [W T]; clear E Et Eu Ft Fu;
    destruct u; try discriminate Cu; cbn [word show_aty] in W; wtxt; try discriminate W; cbn [tail_of app] in T;
    try (apply app_inv_head, dec_inj in W); try apply Nat2N.inj in W; subst;
    try (destruct (sufs_reads _ _ _ _ Hr Hr' T) as [-> ->]; split; reflexivity).
  all: injection T as T; rewrite <- ?app_assoc in T; cbn [app] in T; rewrite <- ?app_assoc in T; cbn [app] in T.
  - destruct (items_reads show_aty show_starts ts) with (l' := ts0) (q := sufs l ++ r) (q' := sufs l' ++ r') as [-> T']; [|exact T|].
    { clear - IH. induction IH as [|x ts Hx _ IHt]; constructor; [apply reads_of, Hx|exact IHt]. }
    destruct (sufs_reads _ _ _ _ Hr Hr' T') as [-> ->]. split; reflexivity.
  - destruct (words _ _ _ _ (pty_word _) (pty_word _) (comma_brk _) (comma_brk _) T) as [K T']. apply pty_inj in K. subst. injection T' as T'.
    destruct (reads_of _ IH _ _ _ (close_stop _) (close_stop _) T') as [-> T'']. injection T'' as T''.
    destruct (sufs_reads _ _ _ _ Hr Hr' T'') as [-> ->]. split; reflexivity.
  - destruct (reads_of _ IH _ _ _ (close_stop _) (close_stop _) T) as [-> T'']. injection T'' as T''.
    destruct (sufs_reads _ _ _ _ Hr Hr' T'') as [-> ->]. split; reflexivity.
  - destruct (reads_of _ IH _ _ _ (close_stop _) (close_stop _) T) as [-> T'']. injection T'' as T''.
    destruct (sufs_reads _ _ _ _ Hr Hr' T'') as [-> ->]. split; reflexivity.
Qed.
Lemma aty_reads t : reads show_aty t.
Proof. apply reads_of, aty_reads_from. Qed.
Lemma aty_text_iff t : forall s, type_text s t <-> s = show_aty t.
Proof.
  assert (K : forall k s, key_text s k <-> s = show_pty k).
  { intros k s. split; [intros H; destruct H as [n d H|n d H| |]; try apply decimal_iff in H; subst; reflexivity|].
    intros ->. destruct k; cbn [show_pty]; constructor; apply show_dec_decimal. }
  induction t as [| | | | | | | | | | |ts IH|t IH|t n IH|k t IH|t IH|t IH] using aty_nest; intros s;
    (split; [intros H; inversion H; subst; try match goal with D : decimal _ _ |- _ => apply decimal_iff in D; subst end; try reflexivity|intros ->; cbn [show_aty]; try (constructor; apply show_dec_decimal); try solve [constructor]]).
  - match goal with I : items _ _ _ |- _ => apply (items_iff show_aty) in I; [subst; reflexivity|exact IH] end.
  - change (OPEN :: join (map show_aty ts) ++ [CLOSE]) with (txt "(" ++ join (map show_aty ts) ++ txt ")"). constructor. apply (items_iff show_aty); [exact IH|reflexivity].
  - match goal with I : type_text _ _ |- _ => apply IH in I; subst; reflexivity end.
  - change [LEFT; RIGHT] with (txt "[]"). constructor. apply IH. reflexivity.
  - match goal with I : type_text _ _ |- _ => apply IH in I; subst; reflexivity end.
  - change (LEFT :: show_dec (N.of_nat n) ++ [RIGHT]) with (txt "[" ++ show_dec (N.of_nat n) ++ txt "]"). constructor; [apply IH; reflexivity|apply show_dec_decimal].
  - match goal with I : type_text _ _, J : key_text _ _ |- _ => apply IH in I; apply K in J; subst; reflexivity end.
  - change (COMMA :: show_aty t ++ [CLOSE]) with (txt "," ++ show_aty t ++ txt ")"). constructor; [apply K; reflexivity|apply IH; reflexivity].
  - match goal with I : type_text _ _ |- _ => apply IH in I; subst; reflexivity end.
  - change [CLOSE] with (txt ")"). constructor. apply IH. reflexivity.
  - match goal with I : type_text _ _ |- _ => apply IH in I; subst; reflexivity end.
  - change [CLOSE] with (txt ")"). constructor. apply IH. reflexivity.
Qed.
