(** * Invariants of usage trees. *)
From Verif Require Import Err HashModel UsageModel UsageSpec.
Local Open Scope nat_scope.

Definition child_ok (ns : list fcell) (n i : nat) (ch : option nat) : Prop :=
  exists c, ns !! n = Some c /\ match ch with None => f_refs c !! i = None | Some k => exists c', f_refs c !! i = Some c' /\ ns !! k = Some c' end.
Definition seen (ns : list fcell) (v : gset (list N)) (n : nat) : Prop := exists c, ns !! n = Some c /\ hash_of c ∈ v.
Definition pc_ok (m : mode) (ns : list fcell) (v : gset (list N)) (sl : gmap (nat * nat) slot) (p : pc) : Prop :=
  match p with
  | Idle => True
  | Track0 _ => m = OnLoad
  | Track1 c => m = OnLoad -> hash_of c ∈ v
  | Data0 n | Ref0 n _ => n < length ns
  | Data1 n => n < length ns /\ m = OnDataAccess
  | Data2 n => seen ns v n /\ m = OnDataAccess
  | Data3 n => n < length ns /\ (m = OnDataAccess -> seen ns v n)
  | Ref1 n i => n < length ns /\ i < 4
  | Ref2 n i ch sh => child_ok ns n i ch /\ i < 4 /\ (sh = true -> m = OnLoad)
  | Ref3 n i ch sh => child_ok ns n i ch /\ i < 4 /\ (sh = true -> m = OnLoad)
  | Ref4 n i ch => n < length ns /\ if i <? 4 then child_ok ns n i ch else ch = None
  end.
Definition runs (p : pc) : option (nat * nat) := match p with Ref1 n i | Ref2 n i _ _ => Some (n, i) | _ => None end.
(** The node that a thread still has to insert. *)
Definition owes (p : pc) : option nat := match p with Ref2 _ _ (Some k) true | Ref3 _ _ (Some k) true => Some k | _ => None end.
(** The cell that a call in progress has inserted. *)
Definition holding (m : mode) (ns : list fcell) (p : pc) (c : fcell) : Prop :=
  match m, p with
  | OnLoad, Track1 c' => c' = c
  | OnLoad, Ref4 _ _ (Some k) => ns !! k = Some c
  | OnDataAccess, Data2 n | OnDataAccess, Data3 n => ns !! n = Some c
  | _, _ => False
  end.
Definition event_ok (m : mode) (ns : list fcell) (v : gset (list N)) (e : event) : Prop :=
  match e with
  | Tracked c n => ns !! n = Some c
  | GotData n d => exists c, ns !! n = Some c /\ d = f_data c /\ (m = OnDataAccess -> hash_of c ∈ v)
  | GotRef n i r => n < length ns /\ if i <? 4 then child_ok ns n i r else r = None
  end.
Record ok (m : mode) (s : state) : Prop := {
  ok_mode : tmode s = m;
  ok_pc : forall t p, pcs s !! t = Some p -> pc_ok m (nodes s) (visited s) (slots s) p;
  ok_runs : forall t p x, pcs s !! t = Some p -> runs p = Some x -> slots s !! x = Some Running;
  ok_once : forall t t' p p' x, pcs s !! t = Some p -> pcs s !! t' = Some p' -> runs p = Some x -> runs p' = Some x -> t = t';
  ok_runner : forall x, slots s !! x = Some Running -> exists t p, pcs s !! t = Some p /\ runs p = Some x;
  ok_slots : forall n i ch, slots s !! (n, i) = Some (Done ch) -> child_ok (nodes s) n i ch /\ i < 4;
  ok_flags : forall n, m = OnDataAccess -> n ∈ inserted s -> seen (nodes s) (visited s) n;
  ok_log : forall e, In e (log s) -> event_ok m (nodes s) (visited s) e;
  ok_above : forall h, h ∈ visited s -> exists c, hash_of c = h /\ (used m s c \/ exists t p, pcs s !! t = Some p /\ holding m (nodes s) p c);
  ok_below : m = OnLoad -> forall k c, nodes s !! k = Some c -> hash_of c ∈ visited s \/ exists t p, pcs s !! t = Some p /\ owes p = Some k
}.

Lemma child_ok_ext ns ns' n i ch : child_ok ns n i ch -> child_ok (ns ++ ns') n i ch.
Proof.
  intros (c & E & X). exists c. split; [apply lookup_app_l_Some; exact E|]. destruct ch as [k|]; [|exact X].
  destruct X as (c' & A & B). exists c'. split; [exact A|apply lookup_app_l_Some; exact B].
Qed.
Lemma seen_ext ns ns' v v' n : seen ns v n -> v ⊆ v' -> seen (ns ++ ns') v' n.
Proof. intros (c & E & X) S. exists c. split; [apply lookup_app_l_Some; exact E|set_solver]. Qed.
Lemma pc_ok_ext m ns ns' v v' sl sl' p : pc_ok m ns v sl p -> v ⊆ v' -> pc_ok m (ns ++ ns') v' sl' p.
Proof.
  intros P S. destruct p; cbn [pc_ok] in *; rewrite ?app_length; auto; try lia.
  - destruct P as (P1 & P2). split; [lia|exact P2].
  - destruct P as (P1 & P2). split; [eapply seen_ext; eassumption|exact P2].
  - destruct P as (P1 & P2). split; [lia|]. intros M. eapply seen_ext; [apply P2, M|exact S].
  - destruct P as (P1 & P2). split; [apply child_ok_ext, P1|exact P2].
  - destruct P as (P1 & P2). split; [apply child_ok_ext, P1|exact P2].
  - destruct P as (P1 & P2). split; [lia|]. destruct (_ <? _); [apply child_ok_ext, P2|exact P2].
Qed.
Lemma event_ok_ext m ns ns' v v' e : event_ok m ns v e -> v ⊆ v' -> event_ok m (ns ++ ns') v' e.
Proof.
  intros P S. destruct e; cbn [event_ok] in *.
  - apply lookup_app_l_Some; exact P.
  - destruct P as (c & E & D & V). exists c. split; [apply lookup_app_l_Some; exact E|]. split; [exact D|]. intros M. apply S, V, M.
  - rewrite app_length. destruct P as (P1 & P2). split; [lia|]. destruct (_ <? _); [apply child_ok_ext, P2|exact P2].
Qed.
Lemma holding_ext m ns ns' p c : holding m ns p c -> holding m (ns ++ ns') p c.
Proof. destruct m, p; cbn; auto; try (apply lookup_app_l_Some). destruct child; auto. apply lookup_app_l_Some. Qed.
Lemma used_ext m s s' c : used m s c -> (exists l, nodes s' = nodes s ++ l) -> (exists l, log s' = log s ++ l) -> used m s' c.
Proof.
  intros U (ln & EN) (ll & EL). destruct m; cbn in *.
  - destruct U as (e & I & X). exists e. split; [rewrite EL; apply in_or_app; auto|]. rewrite EN.
    destruct e as [| |? ? [k|]]; auto. apply lookup_app_l_Some. exact X.
  - destruct U as (n & d & I & X). exists n, d. split; [rewrite EL; apply in_or_app; auto|]. rewrite EN. apply lookup_app_l_Some. exact X.
Qed.

Lemma insert_look (l : list pc) t p0 p' j p : l !! t = Some p0 -> <[t := p']> l !! j = Some p -> (j = t /\ p = p') \/ (j <> t /\ l !! j = Some p).
Proof.
  intros E0 E. destruct (decide (j = t)) as [->|D].
  - rewrite list_lookup_insert in E by (eapply lookup_lt_Some; eassumption). injection E as <-. auto.
  - rewrite list_lookup_insert_ne in E by congruence. auto.
Qed.

(** A step of thread [t]. *)
Lemma ok_step m s t p p' sl ins v ns ev : ok m s -> pcs s !! t = Some p ->
  visited s ⊆ v ->
  pc_ok m (nodes s ++ ns) v sl p' ->
  (* slots *)
  (forall x, runs p' = Some x -> sl !! x = Some Running /\ (runs p = Some x \/ slots s !! x = None)) ->
  (forall x, runs p = Some x -> runs p' = Some x \/ exists ch, sl !! x = Some (Done ch)) ->
  (forall x, sl !! x = slots s !! x \/ (runs p' = Some x /\ sl !! x = Some Running) \/ (runs p = Some x /\ exists n i ch, x = (n, i) /\ sl !! x = Some (Done ch) /\ child_ok (nodes s ++ ns) n i ch /\ i < 4)) ->
  (forall n, m = OnDataAccess -> n ∈ ins -> n ∈ inserted s \/ seen (nodes s ++ ns) v n) ->
  (forall e, In e ev -> event_ok m (nodes s ++ ns) v e) ->
  let s' := mkS (tmode s) (nodes s ++ ns) sl ins v (<[t := p']> (pcs s)) (log s ++ ev) in
  (forall h, h ∈ v -> h ∈ visited s \/ exists c, hash_of c = h /\ (used m s' c \/ holding m (nodes s ++ ns) p' c)) ->
  (forall c, holding m (nodes s) p c -> used m s' c \/ holding m (nodes s ++ ns) p' c) ->
  (m = OnLoad -> forall k c, (nodes s ++ ns) !! k = Some c -> hash_of c ∈ v \/ owes p' = Some k \/ (nodes s !! k = Some c /\ owes p <> Some k)) ->
  ok m s'.
Proof.
  intros [O1 O2 O3 O4 O4' O5 O6 O7 O8 O9] Et SV PC R1 R2 SL IN EV s' AB HO BE.
  assert (LT : <[t := p']> (pcs s) !! t = Some p') by (apply list_lookup_insert; eapply lookup_lt_Some; eassumption).
  assert (LN : forall j q, j <> t -> pcs s !! j = Some q -> <[t := p']> (pcs s) !! j = Some q) by (intros j q D E; rewrite list_lookup_insert_ne by congruence; exact E).
  assert (US : forall c, used m s c -> used m s' c) by (intros c U; eapply used_ext; [exact U|eexists; reflexivity|eexists; reflexivity]).
  split; cbn [s' tmode nodes slots inserted visited pcs log].
  - exact O1.
  - intros j q Ej. destruct (insert_look _ _ _ _ _ _ Et Ej) as [(-> & ->)|(D & Ej')]; [exact PC|]. eapply pc_ok_ext; [apply (O2 j q Ej')|exact SV].
  - intros j q x Ej Rq. destruct (insert_look _ _ _ _ _ _ Et Ej) as [(-> & ->)|(D & Ej')]; [apply R1; exact Rq|].
    pose proof (O3 j q x Ej' Rq) as X. destruct (SL x) as [-> |[(_ & Y)|(Rp & n & i & ch & _)]]; [exact X|exact Y|].
    exfalso. apply D. eapply (O4 j t q p x); eassumption.
  - intros j j' q q' x Ej Ej' Rq Rq'.
    destruct (insert_look _ _ _ _ _ _ Et Ej) as [(-> & ->)|(D & Ej0)], (insert_look _ _ _ _ _ _ Et Ej') as [(-> & ->)|(D' & Ej0')]; auto.
    + destruct (R1 x Rq) as (_ & [Rp|NS]); [eapply (O4 t j' p q' x); eassumption|]. rewrite (O3 j' q' x Ej0' Rq') in NS. discriminate.
    + destruct (R1 x Rq') as (_ & [Rp|NS]); [eapply (O4 j t q p x); eassumption|]. rewrite (O3 j q x Ej0 Rq) in NS. discriminate.
    + eapply (O4 j j' q q' x); eassumption.
  - intros x X. destruct (SL x) as [E|[(Rp & _)|(_ & n & i & ch & _ & E & _)]]; [|exists t, p'; auto|congruence].
    rewrite E in X. destruct (O4' x X) as (j & q & Ej & Rq). destruct (decide (j = t)) as [->|D]; [|exists j, q; auto].
    rewrite Et in Ej. injection Ej as <-. destruct (R2 x Rq) as [Rp|(ch & Y)]; [exists t, p'; auto|]. rewrite E, X in Y. discriminate.
  - intros n i ch X. destruct (SL (n, i)) as [E|[(_ & E)|(_ & n' & i' & ch' & EX & E & C & L)]]; [|congruence|].
    + rewrite E in X. destruct (O5 n i ch X) as (C & L). split; [apply child_ok_ext, C|exact L].
    + rewrite E in X. injection X as <-. injection EX as <- <-. auto.
  - intros n M I. destruct (IN n M I) as [I'|S]; [|exact S]. eapply seen_ext; [apply (O6 n M I')|exact SV].
  - intros e I. apply in_app_or in I. destruct I as [I|I]; [|apply EV; exact I]. eapply event_ok_ext; [apply O7, I|exact SV].
  - intros h Hh. destruct (AB h Hh) as [H|(c & E & [U|H])]; [|exists c; auto|exists c; split; [exact E|right; exists t, p'; auto]].
    destruct (O8 h H) as (c & E & [U|(j & q & Ej & HH)]); exists c; (split; [exact E|]); [left; apply US, U|].
    destruct (decide (j = t)) as [->|D].
    + rewrite Et in Ej. injection Ej as <-. destruct (HO c HH) as [U|H']; [auto|]. right. exists t, p'. auto.
    + right. exists j, q. split; [apply LN; assumption|]. apply holding_ext, HH.
  - intros M k c E. destruct (BE M k c E) as [H|[H|(E' & NO)]]; [auto|right; exists t, p'; auto|].
    destruct (O9 M k c E') as [H|(j & q & Ej & HH)]; [left; apply SV, H|]. destruct (decide (j = t)) as [->|D].
    + rewrite Et in Ej. injection Ej as <-. congruence.
    + right. exists j, q. auto.
Qed.

Lemma start_ok m k : ok m (start m k).
Proof.
  assert (P : forall t p, pcs (start m k) !! t = Some p -> p = Idle) by (intros t p E; apply lookup_replicate in E; tauto).
  split.
  - reflexivity.
  - intros t p E. rewrite (P t p E). exact I.
  - intros t p x E. rewrite (P t p E). discriminate.
  - intros t t' p p' x E _. rewrite (P t p E). discriminate.
  - cbn. intros x E. rewrite lookup_empty in E. discriminate.
  - cbn. intros n i ch E. rewrite lookup_empty in E. discriminate.
  - cbn. set_solver.
  - intros e [].
  - cbn. set_solver.
  - cbn. intros M k0 c E. discriminate.
Qed.
Lemma state_eta s t p : mkS (tmode s) (nodes s) (slots s) (inserted s) (visited s) (<[t := p]> (pcs s)) (log s)
  = mkS (tmode s) (nodes s ++ []) (slots s) (inserted s) (visited s) (<[t := p]> (pcs s)) (log s ++ []).
Proof. rewrite !app_nil_r. reflexivity. Qed.

Lemma invoke_ok m t o s s' : ok m s -> invoke t o s = Some s' -> ok m s'.
Proof.
  intros O E. unfold invoke in E. destruct (pcs s !! t) as [p|] eqn:Et; [|discriminate]. destruct p; try discriminate.
  pose proof (ok_mode _ _ O) as EM.
  assert (G : forall p', runs p' = None -> owes p' = None -> pc_ok m (nodes s) (visited s) (slots s) p' -> 
    ok m (mkS (tmode s) (nodes s) (slots s) (inserted s) (visited s) (<[t := p']> (pcs s)) (log s))).
  { intros p' R W P. rewrite state_eta. apply ok_step with (p := Idle); auto.
    - rewrite app_nil_r. exact P.
    - intros x X. congruence.
    - intros x X. discriminate.
    - intros e [].
    - intros c H. destruct m; destruct H.
    - intros M k c H. rewrite app_nil_r in H. right. right. split; [exact H|discriminate]. }
  destruct o as [c|n|n i].
  - injection E as <-. apply G; rewrite EM; destruct m; cbn; congruence || reflexivity || auto.
  - destruct (Nat.ltb_spec n (length (nodes s))); [|discriminate]. injection E as <-. apply G; auto.
  - destruct (Nat.ltb_spec n (length (nodes s))); [|discriminate]. injection E as <-. apply G; auto.
Qed.

Lemma step_ok m t s s' : ok m s -> step t s = Some s' -> ok m s'.
Proof.
  intros O E. unfold step in E. destruct (pcs s !! t) as [p|] eqn:Et; [|discriminate].
  pose proof (ok_mode _ _ O) as EM. pose proof (ok_pc _ _ O t p Et) as PC.
  (* only the state of the thread changes *)
  assert (G : forall p', runs p = None -> runs p' = None -> owes p = None -> pc_ok m (nodes s) (visited s) (slots s) p' ->
    (forall c, holding m (nodes s) p c -> holding m (nodes s) p' c) ->
    ok m (mkS (tmode s) (nodes s) (slots s) (inserted s) (visited s) (<[t := p']> (pcs s)) (log s))).
  { intros p' R R' W P H. rewrite state_eta. apply ok_step with (p := p); auto; rewrite ?app_nil_r; auto.
    - intros x X. congruence.
    - intros x X. congruence.
    - intros e [].
    - intros M k c K. right. right. split; [exact K|congruence]. }
  (* an insertion *)
  assert (GI : forall c p', runs p = None -> runs p' = None -> pc_ok m (nodes s) ({[hash_of c]} ∪ visited s) (slots s) p' ->
    (forall c, holding m (nodes s) p c -> False) -> holding m (nodes s) p' c ->
    (forall k, owes p = Some k -> nodes s !! k = Some c) ->
    ok m (mkS (tmode s) (nodes s) (slots s) (inserted s) ({[hash_of c]} ∪ visited s) (<[t := p']> (pcs s)) (log s))).
  { intros c p' R R' P H H' W. rewrite <- (app_nil_r (nodes s)) at 1. rewrite <- (app_nil_r (log s)). apply ok_step with (p := p); auto; rewrite ?app_nil_r; auto.
    - set_solver.
    - intros x X. congruence.
    - intros x X. congruence.
    - intros e [].
    - intros h Hh. apply elem_of_union in Hh. destruct Hh as [Hh|Hh]; [|auto]. right. exists c. split; [set_solver|auto].
    - intros c' X. destruct (H c' X).
    - intros M k c' K. destruct (owes p) as [k'|] eqn:EW; [|right; right; split; [exact K|discriminate]].
      destruct (decide (k' = k)) as [->|D]; [|right; right; split; [exact K|congruence]]. specialize (W k eq_refl). left. set_solver. }
  (* a return *)
  assert (GR : forall e, runs p = None -> owes p = None -> event_ok m (nodes s) (visited s) e ->
    (forall c, holding m (nodes s) p c -> match m, e with OnLoad, GotRef _ _ (Some k) => nodes s !! k = Some c | OnDataAccess, GotData n _ => nodes s !! n = Some c | _, _ => False end) ->
    ok m (mkS (tmode s) (nodes s) (slots s) (inserted s) (visited s) (<[t := Idle]> (pcs s)) (log s ++ [e]))).
  { intros e R W P H. rewrite <- (app_nil_r (nodes s)). apply ok_step with (p := p); auto; rewrite ?app_nil_r; auto.
    - exact I.
    - intros x X. discriminate.
    - intros x X. congruence.
    - intros e' [<-|[]]. exact P.
    - intros c X. specialize (H c X). left. destruct m; cbn [used] in *.
      + exists e. split; [apply in_or_app; right; left; reflexivity|]. cbn [nodes]. destruct e as [|?|? ? [k|]]; try contradiction. exact H.
      + destruct e as [|n d|]; try contradiction. exists n, d. split; [apply in_or_app; right; left; reflexivity|]. exact H.
    - intros M k c K. right. right. split; [exact K|congruence]. }
  destruct p as [|c|c|n|n|n|n|n i|n i|n i ch sh|n i ch sh|n i ch]; cbn [pc_ok] in PC.
  - discriminate.
  - injection E as <-. cbn [tmode nodes slots inserted visited pcs log]. subst m. apply GI; auto; try (intros; discriminate).
    + cbn. set_solver.
    + rewrite PC. cbn. auto.
    + rewrite PC. reflexivity.
  - injection E as <-. apply ok_step with (p := Track1 c); auto.
    + exact I.
    + intros x X. discriminate.
    + intros e [<-|[]]. cbn. apply list_lookup_middle. reflexivity.
    + intros c' X. destruct m; [|destruct X]. left. exists (Tracked c (length (nodes s))). split; [apply in_or_app; right; left; reflexivity|]. exact X.
    + intros M k c' K. apply lookup_app_Some in K. destruct K as [K|(L & K)]; [right; right; split; [exact K|discriminate]|].
      apply list_lookup_singleton_Some in K. destruct K as (_ & <-). left. apply PC, M.
  - injection E as <-.
    assert (X : if should_insert s n then m = OnDataAccess else m = OnDataAccess -> seen (nodes s) (visited s) n).
    { unfold should_insert. rewrite EM. destruct m; [discriminate|]. destruct (bool_decide (n ∉ inserted s)) eqn:D; [reflexivity|].
      apply bool_decide_eq_false in D. intros _. apply (ok_flags _ _ O n eq_refl). destruct (decide (n ∈ inserted s)); [assumption|contradiction]. }
    destruct (should_insert s n); apply G; auto; try (cbn; split; auto; fail); intros c H; destruct m; destruct H.
  - destruct PC as (L & M). destruct (nodes s !! n) as [c|] eqn:En; [|discriminate]. injection E as <-. cbn [tmode nodes slots inserted visited pcs log].
    apply GI; auto; try (intros; discriminate).
    + cbn. split; [|exact M]. exists c. split; [exact En|set_solver].
    + subst m. rewrite M. cbn. auto.
    + subst m. rewrite M. cbn. exact En.
  - destruct PC as (S & M). injection E as <-. rewrite <- (app_nil_r (nodes s)). rewrite <- (app_nil_r (log s)). apply ok_step with (p := Data2 n); auto; rewrite ?app_nil_r; auto.
    + cbn. split; [|auto]. destruct S as (c & En & _). eapply lookup_lt_Some; eassumption.
    + intros x X. discriminate.
    + intros n' _ I'. apply elem_of_union in I'. destruct I' as [I'|I']; [|auto]. right. replace n' with n by set_solver. exact S.
    + intros e [].
  - destruct PC as (L & S). destruct (nodes s !! n) as [c|] eqn:En; [|discriminate]. injection E as <-. apply GR; auto.
    + cbn. exists c. split; [exact En|]. split; [reflexivity|]. intros M. destruct (S M) as (c' & En' & V). congruence.
  - destruct (Nat.ltb_spec i 4) as [Li|Li].
    + destruct (slots s !! (n, i)) as [[|ch]|] eqn:ES; [discriminate| |].
      * injection E as <-. destruct (ok_slots _ _ O n i ch ES) as (C & _). apply G; auto.
        -- cbn. split; [exact C|]. split; [exact Li|discriminate].
      * injection E as <-. rewrite <- (app_nil_r (nodes s)). rewrite <- (app_nil_r (log s)). apply ok_step with (p := Ref0 n i); auto; rewrite ?app_nil_r; auto.
        -- cbn. auto.
        -- intros x X. injection X as <-. rewrite lookup_insert. auto.
        -- intros x X. discriminate.
        -- intros x. destruct (decide (x = (n, i))) as [->|D]; [right; left; rewrite lookup_insert; auto|left; rewrite lookup_insert_ne by congruence; reflexivity].
        -- intros e [].
    + injection E as <-. apply G; auto.
      * cbn [pc_ok]. split; [exact PC|]. destruct (Nat.ltb_spec i 4); [lia|reflexivity].
  - destruct PC as (L & Li). destruct (nodes s !! n) as [c|] eqn:En; [|discriminate]. destruct (f_refs c !! i) as [ch|] eqn:Ei; injection E as <-.
    + rewrite <- (app_nil_r (log s)). apply ok_step with (p := Ref1 n i); auto.
      * cbn [pc_ok]. rewrite EM. split; [|split; [exact Li|destruct m; [auto|discriminate]]]. exists c. split; [apply lookup_app_l_Some; exact En|].
        exists ch. split; [exact Ei|]. apply list_lookup_middle. reflexivity.
      * intros x X. injection X as <-. split; [|auto]. apply (ok_runs _ _ O t _ (n, i) Et eq_refl).
      * intros e [].
      * intros M k c' K. rewrite EM, M. cbn [owes]. apply lookup_app_Some in K. destruct K as [K|(Lk & K)]; [right; right; split; [exact K|discriminate]|].
        apply list_lookup_singleton_Some in K. destruct K as (Z & <-). right. left. f_equal. lia.
    + rewrite state_eta. apply ok_step with (p := Ref1 n i); auto; rewrite ?app_nil_r; auto.
      * cbn [pc_ok]. split; [|split; [exact Li|discriminate]]. exists c. auto.
      * intros x X. injection X as <-. split; [|auto]. apply (ok_runs _ _ O t _ (n, i) Et eq_refl).
      * intros e [].
  - injection E as <-. rewrite <- (app_nil_r (nodes s)). rewrite <- (app_nil_r (log s)). apply ok_step with (p := Ref2 n i ch sh); auto; rewrite ?app_nil_r; auto.
    + intros x X. discriminate.
    + intros x X. injection X as <-. right. exists ch. apply lookup_insert.
    + intros x. destruct (decide (x = (n, i))) as [->|D].
      * right. right. split; [reflexivity|]. exists n, i, ch. split; [reflexivity|]. split; [apply lookup_insert|]. tauto.
      * left. rewrite lookup_insert_ne by congruence. reflexivity.
    + intros e [].
    + intros M k c' K. destruct (decide (owes (Ref2 n i ch sh) = Some k)) as [D|D]; [right; left; exact D|auto].
  - destruct PC as (C & Li & M). pose proof C as C0. destruct C as (c & En & C).
    assert (Ln : n < length (nodes s)) by (eapply lookup_lt_Some; eassumption).
    assert (LI : (i <? 4) = true) by (apply Nat.ltb_lt; exact Li).
    assert (NB : forall c0, holding m (nodes s) (Ref3 n i ch sh) c0 -> False) by (intros c0 H; destruct m; destruct H).
    destruct sh; [destruct (ch ≫= (nodes s !!.)) as [c'|] eqn:Ec|].
    + destruct ch as [k|]; [|discriminate]. cbn in Ec. injection E as <-. cbn [tmode nodes slots inserted visited pcs log]. apply GI; auto.
      * cbn [pc_ok]. rewrite LI. auto.
      * rewrite M by reflexivity. exact Ec.
      * intros k' W. cbn in W. injection W as <-. exact Ec.
    + destruct ch as [k|]; [destruct C as (c' & _ & E'); cbn in Ec; congruence|]. injection E as <-. apply G; auto; cbn [pc_ok]; rewrite LI; auto.
    + injection E as <-. apply G; auto; [destruct ch; reflexivity|cbn [pc_ok]; rewrite LI; auto|intros c0 H; destruct (NB c0 H)].
  - injection E as <-. apply GR; auto.
Qed.
Lemma reached_ok m s : reached m s -> ok m s.
Proof. induction 1 as [k|s s' R IH M]; [apply start_ok|]. inversion M; subst; [eapply invoke_ok|eapply step_ok]; eassumption. Qed.
