(** * C78: typed dictionaries are maps from keys to values *)
From Coq Require Import Sorting.Sorted.
From Verif Require Import Err BitsProofs IntModel NumModel AddrModel AddrSpec CellModel DictModel DictSpec DictTree DictProofs DictProps IterModel IterProps ChunkModel TypedModel TypedSpec TypedProofs TypedProofs2.
Local Open Scope nat_scope.

(** ** Keys *)
(** Every key type has its own bits for every key, and reads a key exactly from its bits: booleans,
    numbers of whole bytes, arrays of bytes, pairs, shards, small numbers, addresses. *)
Theorem C78_keys :
  good_key bool_key (fun _ => True) /\
  (forall n, n <= 127 -> good_key (uint_key n) (fun x => (x < 2 ^ N.of_nat (8 * n))%N)) /\
  (forall n, 1 <= n <= 127 -> good_key (int_key n) (AddrSpec.in_int (Z.of_nat (8 * n)))) /\
  (forall n, n <= 127 -> good_key (bytes_key n) (fun x => length x = n /\ Forall byte_ok x)) /\
  good_key pair_key (fun x => (fst x < 2 ^ 64)%N /\ (snd x < 2 ^ 32)%N) /\
  good_key shard_key (fun x => AddrSpec.in_int 32 (fst x) /\ (snd x < 2 ^ 64)%N) /\
  (forall n, 1 <= n <= 16 -> good_key (small_key n) (fun x => (x < 2 ^ N.of_nat n)%N)) /\
  good_key addr_key (fun a => sa_anycast a = None /\ exists x, std_tlb a x).
Proof.
  split; [exact bool_good|]. split; [exact uint_good|]. split; [exact int_good|]. split; [exact bytes_good|].
  split; [exact pair_good|]. split; [exact shard_good|]. split; [exact small_good|exact addr_good].
Qed.
(** Unsigned numbers are ordered as unsigned keys, signed numbers as signed keys. *)
Theorem C78_numbers :
  (forall n, n <= 127 -> number_key (uint_key n) (fun x => (x < 2 ^ N.of_nat (8 * n))%N) false Z.of_N) /\
  (forall n, 1 <= n <= 127 -> number_key (int_key n) (AddrSpec.in_int (Z.of_nat (8 * n))) true (fun z => z)) /\
  (forall n, 1 <= n <= 16 -> number_key (small_key n) (fun x => (x < 2 ^ N.of_nat n)%N) false Z.of_N).
Proof. split; [exact uint_number|]. split; [exact int_number|exact small_number]. Qed.
Theorem C78_order {K} (kd : key_kind K) ok signed num k k' : good_key kd ok -> number_key kd ok signed num -> ok k -> ok k' ->
  (key_before kd signed false k k' <-> (num k < num k')%Z) /\ (key_before kd signed true k k' <-> (num k' < num k)%Z).
Proof.
  intros G N Hk Hk'. destruct (good_store kd ok G k Hk) as (b & Hb & _). destruct (good_store kd ok G k' Hk') as (b' & Hb' & _).
  unfold key_before, before. rewrite <- (N k b Hk Hb), <- (N k' b' Hk' Hb'). split; split.
  - intros (x & y & E1 & E2 & L). congruence.
  - intros L. eauto.
  - intros (x & y & E1 & E2 & L). congruence.
  - intros L. eauto.
Qed.
(** The bits of keys that are no numbers. *)
Theorem C78_bits : (forall b, k_store bool_key b = Ok [b]) /\
  (forall x, length x <= 127 -> k_store (bytes_key (length x)) x = Ok (bytes_bits x)) /\
  (forall a b, k_store pair_key (a, b) = Ok (nbits 64 a ++ nbits 32 b)) /\
  (forall wc p, k_store shard_key (wc, p) = Ok (int_bits 32 wc ++ nbits 64 p)) /\
  (forall n x, (2 ^ N.of_nat n <= x)%N -> k_store (small_key n) x = Err IntOverflow).
Proof.
  split; [reflexivity|]. split; [intros x H; apply put_nil; rewrite length_bytes_bits; lia|]. split.
  { intros a b. cbn [k_store pair_key fst snd]. rewrite (put_nbits 64) by (cbn [length]; lia). cbn [rbind app]. apply (put_nbits 32). rewrite length_nbits. lia. }
  split.
  { intros a b. cbn [k_store shard_key fst snd]. rewrite (put_nbits 32) by (cbn [length]; lia). cbn [rbind app]. rewrite <- CodecProofs.as_unsigned_bits. apply (put_nbits 64). rewrite length_nbits. lia. }
  intros n x H. cbn [k_store small_key]. destruct (N.ltb_spec x (2 ^ N.of_nat n)); [lia|reflexivity].
Qed.
Print Assumptions C78_keys.
Print Assumptions C78_numbers.
Print Assumptions C78_order.
Print Assumptions C78_bits.

Section Map.
Context {K V : Type} (E : EqDecision K) (kd : key_kind K) (ok : K -> Prop) (G : good_key kd ok).
Context (enc : V -> chunk) (load : chunk -> res (V * chunk)) (fin : list bool -> list cell -> res unit).
Notation typed_history := (typed_history E kd ok enc load fin).

(** ** Lookups and updates *)
(** After any updates a lookup gives what the same updates of a partial function give. *)
Theorem C78_get d f k : typed_history d f -> ok k ->
  typed_get kd load d k = Ok (f k) /\ typed_contains kd d k = Ok (match f k with Some _ => true | None => false end).
Proof.
  intros H Hk. destruct (typed_rep E kd ok G enc load fin d f H) as (m & Hm & R). destruct (good_store kd ok G k Hk) as (b & Hb & Lb).
  unfold typed_get, typed_contains. rewrite Hb. cbn [rbind]. rewrite (proj1 (C20_lookup fin _ d m b (proj1 G) Hm Lb)). cbn [rbind].
  rewrite (rep_lookup kd ok G enc load f m k b R Hk Hb). destruct (f k) as [v|] eqn:F; cbn [option_map]; [|auto].
  destruct (proj2 R k v F) as [_ [rest ->]]. cbn. auto.
Qed.
(** An update says whether it has changed the dictionary; removing gives what was there. *)
Theorem C78_update d f k v d' : typed_history d f -> ok k ->
  (forall flag, typed_set kd enc fin d k v = Ok (flag, d') -> flag = true) /\
  (forall flag, typed_replace kd enc fin d k v = Ok (flag, d') -> flag = (match f k with Some _ => true | None => false end) /\ (flag = false -> d' = d)) /\
  (forall flag, typed_add kd enc fin d k v = Ok (flag, d') -> flag = (match f k with Some _ => false | None => true end) /\ (flag = false -> d' = d)) /\
  (forall o, typed_remove kd load fin d k = Ok (o, d') -> o = f k /\ (o = None -> d' = d)).
Proof.
  intros H Hk. destruct (typed_rep E kd ok G enc load fin d f H) as (m & Hm & R). destruct (good_store kd ok G k Hk) as (b & Hb & Lb).
  unfold typed_set, typed_replace, typed_add, typed_insert, typed_remove. rewrite Hb. cbn [rbind].
  pose proof (rep_present kd ok G enc load f m k b R Hk Hb) as P. pose proof (fun mode => C21_modes fin _ d m b (enc v) mode (proj1 G) Hm Lb) as C.
  assert (Q : known f k = match f k with Some _ => true | None => false end) by reflexivity.
  split; [|split; [|split]].
  - intros flag X. specialize (C MSet). rewrite X in C. exact (proj1 C).
  - intros flag X. specialize (C MReplace). rewrite X, P, Q in C. split; [exact (proj1 C)|exact (proj1 (proj2 C))].
  - intros flag X. specialize (C MAdd). rewrite X, P, Q in C. destruct C as (C1 & C2 & _). split; [|exact C2]. rewrite C1. cbn [stores]. destruct (f k); reflexivity.
  - intros o X. destruct (dict_remove_owned fin d b (k_bits kd) false) as [[p d2]|] eqn:D; [|discriminate]. cbn [rbind] in X.
    destruct (C22_remove fin _ d m b p d2 (proj1 G) Hm D) as (C1 & _ & C2 & _). rewrite (rep_lookup kd ok G enc load f m k b R Hk Hb) in C1, C2.
    destruct p as [[r c]|], (f k) as [w|] eqn:F; try discriminate C1.
    + cbn in C1. injection C1 as C1. rewrite C1 in X. destruct (proj2 R k w F) as [_ [rest L]]. rewrite L in X. cbn [rbind] in X. injection X as <- <-. split; [reflexivity|discriminate].
    + injection X as <- <-. split; [reflexivity|]. intros _. apply C2. reflexivity.
Qed.
(** Updates succeed when the values fit into leaves and cells can be built. *)
Theorem C78_succeeds d f k v mode : (forall b r, length b <= 1023 -> length r <= 4 -> fin b r = Ok tt) ->
  typed_history d f -> (forall k' v', f k' = Some v' -> fits (k_bits kd) (enc v')) -> ok k -> fits (k_bits kd) (enc v) ->
  (exists flag d', typed_insert kd enc fin d k v mode = Ok (flag, d')) /\ (exists o d', typed_remove kd load fin d k = Ok (o, d')).
Proof.
  intros HF H FT Hk Fv. destruct (typed_rep E kd ok G enc load fin d f H) as (m & Hm & R). destruct (good_store kd ok G k Hk) as (b & Hb & Lb).
  unfold typed_insert, typed_remove. rewrite Hb. cbn [rbind].
  assert (FM : forall k' v', m !! k' = Some v' -> fits (k_bits kd) v'). { intros b' c M. apply R in M as (k' & v' & _ & _ & F & ->). apply (FT k' v' F). }
  destruct (C20_updates_succeed fin _ d m b (enc v) mode HF (proj1 G) Hm FM Lb Fv) as [[d1 I] (p & d2 & D)].
  split; [eauto|]. rewrite D. cbn [rbind]. destruct (C22_remove fin _ d m b p d2 (proj1 G) Hm D) as (C1 & _). rewrite (rep_lookup kd ok G enc load f m k b R Hk Hb) in C1.
  destruct p as [[r c]|]; [|eauto]. destruct (f k) as [w|] eqn:F; [|discriminate C1]. cbn in C1. injection C1 as ->. destruct (proj2 R k w F) as [_ [rest ->]]. cbn. eauto.
Qed.

(** ** Iteration, bounds and neighbours *)
(** An iterator gives every entry once, by its key, and then nothing. *)
Theorem C78_iteration d f rev signed : typed_history d f -> exists order,
  StronglySorted (fun a b => key_before kd signed rev (fst a) (fst b)) order /\
  (forall k v, In (k, v) order <-> f k = Some v) /\
  forall i, calls (typed_iter_next kd load) i (typed_iter kd d rev signed) = yields i order.
Proof. apply (typed_iteration E kd ok G enc load fin). Qed.
Lemma typed_bound_ok d f bound signed : typed_history d f -> exists o, typed_bound kd load d bound signed = Ok o /\ is_first kd f signed bound o.
Proof.
  intros H. destruct (typed_dict E kd ok G enc load fin d f H) as (m & es & Hm & R & D & M). pose proof (C25_bounds _ d es bound signed (proj1 G) D) as C.
  unfold typed_bound. destruct d as [c|].
  - destruct C as ([b x] & _ & _ & (X1 & X2) & -> & _). cbn [rbind]. rewrite M in X1, X2. cbn [fst snd] in X1, X2.
    destruct (rep_entry kd ok G enc load f m b x R X1) as (k & v & rest & Hk & Hb & F & Hr & Hc & Hl). rewrite Hr, Hl. cbn [rbind]. exists (Some (k, v)). split; [reflexivity|].
    split; [exact F|]. intros k' v' F'. destruct (rep_load kd ok G enc load f m k' v' R F') as (b' & _ & Hk' & Hb' & _ & M' & _).
    destruct (X2 b' _ M') as [->|B]; [left; eapply store_inj; eassumption|right; exists b, b'; auto].
  - destruct C as [-> _]. exists None. split; [reflexivity|]. intros k. destruct (f k) as [v|] eqn:F; [|reflexivity]. exfalso.
    destruct (rep_load kd ok G enc load f m k v R F) as (b & _ & _ & _ & _ & Mb & _). cbn [is_dict] in D. subst es m. discriminate Mb.
Qed.
Theorem C78_bounds d f signed : typed_history d f ->
  (exists o, typed_min kd load d signed = Ok o /\ is_first kd f signed false o) /\
  (exists o, typed_max kd load d signed = Ok o /\ is_first kd f signed true o).
Proof. intros H. split; apply typed_bound_ok, H. Qed.
Lemma typed_find_ok d f k towards inclusive signed : typed_history d f -> ok k ->
  exists o, typed_find kd load d k towards inclusive signed = Ok o /\ is_nearest kd f signed (negb towards) inclusive k o.
Proof.
  intros H Hk. destruct (typed_dict E kd ok G enc load fin d f H) as (m & es & Hm & R & D & M). destruct (good_store kd ok G k Hk) as (b & Hb & Lb).
  destruct (C25_neighbours _ d es b towards inclusive signed (proj1 G) D Lb) as (o & C1 & C2). rewrite M in C2.
  assert (NK : forall P : Prop, (P -> m !! b = None) -> P -> f k = None).
  { intros P X p. specialize (X p). rewrite (rep_lookup kd ok G enc load f m k b R Hk Hb) in X. destruct (f k); [discriminate|reflexivity]. }
  assert (B : forall k' b', ok k' -> k_store kd k' = Ok b' -> key_before kd signed (negb towards) k k' <-> before signed (negb towards) b b').
  { intros k' b' _ Hb'. split; [intros (x & y & E1 & E2 & L); congruence|]. intros L. exists b, b'. auto. }
  unfold typed_find. rewrite Hb. cbn [rbind]. rewrite C1. cbn [rbind]. destruct o as [[key [r c]]|].
  - assert (Mk : m !! key = Some (r_apply r c)). { destruct C2 as [(_ & -> & X)|(_ & X & _)]; exact X. }
    destruct (rep_entry kd ok G enc load f m key _ R Mk) as (k1 & v1 & rest & Hk1 & Hb1 & F1 & Hr & Hc & Hl). rewrite Hr, Hl. cbn [rbind]. exists (Some (k1, v1)). split; [reflexivity|].
    split; [exact F1|]. destruct C2 as [(I & -> & _)|(I & _ & N1 & N2)]; [left; split; [exact I|eapply store_inj; eassumption]|right].
    split; [exact (NK _ I)|]. split; [apply (B k1 key Hk1 Hb1), N1|]. intros k' v' F' Bk. destruct (rep_load kd ok G enc load f m k' v' R F') as (b' & _ & Hk' & Hb' & _ & M' & _).
    destruct (N2 b' _ M') as [->|L]; [apply (B k' b' Hk' Hb'), Bk|left; eapply store_inj; eassumption|right]. exists key, b'. auto.
  - exists None. split; [reflexivity|]. destruct C2 as [I N]. split; [exact (NK _ I)|]. intros k' v' F' Bk. destruct (rep_load kd ok G enc load f m k' v' R F') as (b' & _ & Hk' & Hb' & _ & M' & _).
    apply (N b' _ M'). apply (B k' b' Hk' Hb'), Bk.
Qed.
Theorem C78_neighbours d f k signed : typed_history d f -> ok k ->
  (exists o, typed_next kd load d k signed = Ok o /\ is_nearest kd f signed false false k o) /\
  (exists o, typed_prev kd load d k signed = Ok o /\ is_nearest kd f signed true false k o) /\
  (exists o, typed_or_next kd load d k signed = Ok o /\ is_nearest kd f signed false true k o) /\
  (exists o, typed_or_prev kd load d k signed = Ok o /\ is_nearest kd f signed true true k o).
Proof.
  intros H Hk. split; [exact (typed_find_ok d f k true false signed H Hk)|]. split; [exact (typed_find_ok d f k false false signed H Hk)|].
  split; [exact (typed_find_ok d f k true true signed H Hk)|exact (typed_find_ok d f k false true signed H Hk)].
Qed.
(** An iterator ends with an error at the first value that cannot be loaded, and gives nothing after it. *)
Theorem C78_stops it key s it' k e i : iter_next it = (Some (Ok (key, s)), it') -> k_load kd (raw key) = Some k -> load (s_chunk s) = Err e ->
  calls (typed_iter_next kd load) (S i) it = Some (Err e) :: replicate i None.
Proof.
  intros N Hk L. cbn [calls]. unfold typed_iter_next at 1. rewrite N, Hk, L. f_equal.
  assert (X : forall j x, calls (typed_iter_next kd load) j (set_status x StBroken) = replicate j None).
  { induction j as [|j IH]; intros x; [reflexivity|]. cbn [calls replicate]. unfold typed_iter_next at 1. cbn. f_equal. exact (IH x). }
  apply X.
Qed.

(** ** Roots and serde *)
(** The root is a function of the entries: equal functions have equal dictionaries and conversely. *)
Theorem C78_root d f d' f' : typed_history d f -> typed_history d' f' -> d = d' <-> forall k, f k = f' k.
Proof.
  intros H H'. split; [|apply (typed_unique E kd ok G enc load fin d f d' f' H H')]. intros <- k.
  assert (X : forall f f', typed_history d f -> typed_history d f' -> forall v, f k = Some v -> f' k = Some v).
  { intros g g' Hg Hg' v F. destruct (typed_rep E kd ok G enc load fin d g Hg) as (m & _ & R). destruct (proj2 R k v F) as [Hk _].
    pose proof (proj1 (C78_get d g k Hg Hk)) as A. pose proof (proj1 (C78_get d g' k Hg' Hk)) as B. congruence. }
  destruct (f k) as [v|] eqn:F; [symmetry; exact (X f f' H H' v F)|]. destruct (f' k) as [v|] eqn:F'; [|reflexivity]. rewrite (X f' f H' H v F') in F. discriminate.
Qed.
(** A readable format is given every entry once; setting these, in whatever order, gives the
    dictionary back, and succeeds when the values fit into leaves and cells can be built. *)
Theorem C78_serde d f : typed_history d f -> exists order,
  NoDup (map fst order) /\ (forall k v, In (k, v) order <-> f k = Some v) /\
  (forall i, length order < i -> typed_entries kd load i (typed_iter kd d false false) = Ok order) /\
  (forall l d', Permutation l order -> typed_collect kd enc fin None l = Ok d' -> d' = d) /\
  ((forall b r, length b <= 1023 -> length r <= 4 -> fin b r = Ok tt) -> (forall k v, f k = Some v -> fits (k_bits kd) (enc v)) ->
   forall l, Permutation l order -> typed_collect kd enc fin None l = Ok d).
Proof.
  intros H. destruct (C78_iteration d f false false H) as (order & S & I & C). exists order. pose proof (sorted_keys kd false false order S) as N.
  split; [exact N|]. split; [exact I|]. split; [intros i L; apply entries_calls; [apply C|exact L]|].
  destruct (typed_rep E kd ok G enc load fin d f H) as (m & _ & R).
  assert (A : forall l, Permutation l order -> (forall k v, In (k, v) l -> f k = Some v) /\ NoDup (map fst l)).
  { intros l P. split; [|rewrite P; exact N]. intros k v X. apply I. apply elem_of_list_In in X. rewrite P in X. apply elem_of_list_In, X. }
  assert (B : forall l d', Permutation l order -> typed_collect kd enc fin None l = Ok d' -> d' = d).
  { intros l d' P X. destruct (A l P) as [A1 A2].
    destruct (collect_map E kd ok enc load fin l None (fun _ => None) d' (th_new _ _ _ _ _ _)) as (f' & Hf & F1 & F2); [intros k v Y; exact (proj2 R k v (A1 k v Y))|exact A2|exact X|].
    apply (proj2 (C78_root d' f' d f Hf H)). intros k. destruct (f k) as [v|] eqn:F.
    - apply F1. apply elem_of_list_In. rewrite P. apply elem_of_list_In, I, F.
    - rewrite F2; [reflexivity|]. intros Y. apply in_map_iff in Y as ([k' v'] & <- & Y). apply A1 in Y. cbn [fst] in F. congruence. }
  split; [exact B|]. intros HF HT l P.
  assert (T : forall l d1 f1, typed_history d1 f1 -> (forall k v, f1 k = Some v -> fits (k_bits kd) (enc v)) -> (forall k v, In (k, v) l -> f k = Some v) -> exists d', typed_collect kd enc fin d1 l = Ok d').
  { clear l P B. induction l as [|[k v] l IH]; intros d1 f1 H1 W Q; cbn [typed_collect]; [eauto|]. pose proof (Q k v (or_introl eq_refl)) as F. destruct (proj2 R k v F) as [Hk Hv].
    destruct (C78_succeeds d1 f1 k v MSet HF H1 W Hk (HT k v F)) as [(flag & d2 & X) _]. unfold typed_set. rewrite X. cbn [rbind].
    pose proof (th_insert E kd ok enc load fin d1 f1 k v MSet flag d2 H1 Hk Hv X) as H2. cbn [stores] in H2.
    apply (IH d2 _ H2); [|intros k' v' Y; apply Q; right; exact Y]. intros k' v'. unfold updated. destruct (decide (k' = k)); [intros [= <-]; apply (HT k v F)|apply W]. }
  destruct (T l None _ (th_new _ _ _ _ _ _)) as (d' & X); [discriminate|apply (A l P)|]. rewrite X. f_equal. apply (B l d' P X).
Qed.
(** What is written is what the iterator gives until it ends; an error of the iterator is an error. *)
Theorem C78_written i : forall it,
  match typed_entries kd load i it with
  | Ok l => length l <= i /\ (length l < i -> calls (typed_iter_next kd load) (S (length l)) it = map (fun x => Some (Ok x)) l ++ [None])
  | Err e => exists l, length l < i /\ calls (typed_iter_next kd load) (S (length l)) it = map (fun x => Some (Ok x)) l ++ [Some (Err e)]
  end.
Proof.
  induction i as [|i IH]; intros it; cbn [typed_entries]; [split; [reflexivity|cbn; lia]|].
  destruct (typed_iter_next kd load it) as [[[x|e]|] it'] eqn:N.
  - specialize (IH it'). destruct (typed_entries kd load i it') as [l|e]; cbn [rbind].
    + destruct IH as [L IH]. cbn [length]. split; [lia|]. intros Q. cbn [calls map app]. rewrite N. f_equal. apply IH. lia.
    + destruct IH as (l & L & IH). exists (x :: l). cbn [length]. split; [lia|]. cbn [calls map app]. rewrite N. f_equal. exact IH.
  - exists []. cbn [length calls map app]. rewrite N. split; [lia|reflexivity].
  - cbn [length calls map app]. rewrite N. split; [lia|reflexivity].
Qed.
(** Keys that cannot be stored, and keys and values that cannot be loaded, are errors and not absent. *)
Theorem C78_errors d k v mode towards inclusive signed :
  (forall e, k_store kd k = Err e -> typed_get kd load d k = Err e /\ typed_contains kd d k = Err e /\ typed_insert kd enc fin d k v mode = Err e /\
     typed_remove kd load fin d k = Err e /\ typed_find kd load d k towards inclusive signed = Err e) /\
  (forall b c e, k_store kd k = Ok b -> dict_get d (k_bits kd) b = Ok (Some c) -> load c = Err e -> typed_get kd load d k = Err e /\ typed_contains kd d k = Ok true) /\
  (forall b r c d' e, k_store kd k = Ok b -> dict_remove_owned fin d b (k_bits kd) false = Ok (Some (r, c), d') -> load (r_apply r c) = Err e -> typed_remove kd load fin d k = Err e) /\
  (forall bound b c, dict_find_bound d (k_bits kd) bound signed = Ok (Some (b, c)) ->
     (k_load kd (raw b) = None -> typed_bound kd load d bound signed = Err CellUnderflow) /\
     (forall k' e, k_load kd (raw b) = Some k' -> load c = Err e -> typed_bound kd load d bound signed = Err e)) /\
  (forall b b' r c, k_store kd k = Ok b -> dict_find_owned d (k_bits kd) b towards inclusive signed = Ok (Some (b', (r, c))) ->
     (k_load kd (raw b') = None -> typed_find kd load d k towards inclusive signed = Err CellUnderflow) /\
     (forall k' e, k_load kd (raw b') = Some k' -> load (r_apply r c) = Err e -> typed_find kd load d k towards inclusive signed = Err e)) /\
  (forall it it' b s i, iter_next it = (Some (Ok (b, s)), it') -> k_load kd (raw b) = None ->
     calls (typed_iter_next kd load) (S i) it = Some (Err CellUnderflow) :: replicate i None).
Proof.
  unfold typed_get, typed_contains, typed_insert, typed_remove, typed_find, typed_bound. split; [|split; [|split; [|split; [|split]]]].
  - intros e ->. cbn [rbind]. auto.
  - intros b c e -> X L. cbn [rbind]. rewrite X. cbn [rbind]. rewrite L. auto.
  - intros b r c d' e -> X L. cbn [rbind]. rewrite X. cbn [rbind]. rewrite L. reflexivity.
  - intros bound b c ->. cbn [rbind]. split; [intros ->; reflexivity|intros k' e -> ->; reflexivity].
  - intros b b' r c -> X. cbn [rbind]. rewrite X. cbn [rbind]. split; [intros ->; reflexivity|intros k' e -> ->; reflexivity].
  - intros it it' b s i N L. cbn [calls]. unfold typed_iter_next at 1. rewrite N, L. f_equal.
    assert (X : forall j x, calls (typed_iter_next kd load) j (set_status x StBroken) = replicate j None).
    { induction j as [|j IH]; intros x; [reflexivity|]. cbn [calls replicate]. unfold typed_iter_next at 1. cbn. f_equal. exact (IH x). }
    apply X.
Qed.
End Map.
Print Assumptions C78_get.
Print Assumptions C78_update.
Print Assumptions C78_succeeds.
Print Assumptions C78_iteration.
Print Assumptions C78_bounds.
Print Assumptions C78_neighbours.
Print Assumptions C78_stops.
Print Assumptions C78_root.
Print Assumptions C78_serde.
Print Assumptions C78_written.
Print Assumptions C78_errors.

(** ** The hypotheses can be met *)
Definition no_error : list bool -> list cell -> res unit := fun _ _ => Ok tt.
Definition byte_chunk (v : N) : chunk := (nbits 8 v, []).
Definition ex_d (d : option cell) (k : Z) (v : N) : option cell := match typed_set (int_key 4) byte_chunk no_error d k v with Ok (_, d') => d' | Err _ => None end.
Definition ex3 : option cell := ex_d (ex_d (ex_d None (-5) 1) 7 2) 1000000 3.
(** A dictionary from i32 to u8 with three entries, in the order of signed numbers. *)
Example C78_case : exists f, typed_history _ (int_key 4) (AddrSpec.in_int 32) byte_chunk (load_un 8) no_error ex3 f /\ f (-5)%Z = Some 1%N /\ f 0%Z = None /\
  calls (typed_iter_next (int_key 4) (load_un 8)) 4 (typed_iter (int_key 4) ex3 false true) = yields 4 [((-5)%Z, 1%N); (7%Z, 2%N); (1000000%Z, 3%N)] /\
  typed_next (int_key 4) (load_un 8) ex3 (-5)%Z true = Ok (Some (7%Z, 2%N)) /\ typed_max (int_key 4) (load_un 8) ex3 true = Ok (Some (1000000%Z, 3%N)).
Proof.
  assert (I : forall k, (-10 <= k <= 1000000)%Z -> AddrSpec.in_int 32 k) by (unfold AddrSpec.in_int; intros; lia).
  assert (S : forall d f k v d', typed_history Z.eq_dec (int_key 4) (AddrSpec.in_int 32) byte_chunk (load_un 8) no_error d f -> (-10 <= k <= 1000000)%Z -> (exists rest, load_un 8 (byte_chunk v) = Ok (v, rest)) ->
    typed_insert (int_key 4) byte_chunk no_error d k v MSet = Ok (true, d') -> typed_history Z.eq_dec (int_key 4) (AddrSpec.in_int 32) byte_chunk (load_un 8) no_error d' (updated Z.eq_dec f k (Some v))).
  { intros d f k v d' H Hk Hv X. exact (th_insert _ _ _ _ _ _ d f k v MSet true d' H (I k Hk) Hv X). }
  eexists. split; [|split; [|split; [|split; [|split]]]].
  - eapply (S (ex_d (ex_d None (-5) 1) 7 2) _ 1000000%Z 3%N); [|lia|eexists; vm_compute; reflexivity|vm_compute; reflexivity].
    eapply (S (ex_d None (-5) 1) _ 7%Z 2%N); [|lia|eexists; vm_compute; reflexivity|vm_compute; reflexivity].
    eapply (S None _ (-5)%Z 1%N); [apply th_new|lia|eexists; vm_compute; reflexivity|vm_compute; reflexivity].
  - reflexivity.
  - reflexivity.
  - vm_compute. reflexivity.
  - vm_compute. reflexivity.
  - vm_compute. reflexivity.
Qed.
