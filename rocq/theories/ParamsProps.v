(** * C61: parameters with codecs written by hand, validators and sets of them *)
From Coq Require Import Sorting.Sorted.
From Verif Require Import Err BitsProofs IntModel NumModel CellModel DictModel DictSpec DictProofs DictOrder IterModel IterProofs DictProps IterProps BuildProps CurrencyModel CurrencyProofs
  ChunkModel ChunkSpec ChunkProofs AbiModel AbiProofs3 FeesModel VsetModel VsetSpec
  DeriveModel DeriveSpec StructsModel StructsSpec StructsProofs DeriveProps CasesSpec CasesProofs TxModel TxProofs ParamsModel ParamsSpec ParamsProofs ParamsProofs2.
Local Open Scope N_scope.

(** ** Layouts: the newest is written, older ones are read as well *)
Theorem C61_layouts : lawful catchain_k catchain_w /\ lawful consensus_k consensus_w /\ lawful gas_k gas_w /\ lawful format_k format_w /\ lawful workchain_k workchain_w.
Proof. split_and!; [apply lawful_catchain|apply lawful_consensus|apply lawful_gas|apply lawful_format|apply lawful_workchain]. Qed.
Print Assumptions C61_layouts.
Theorem C61_round_trip :
  (forall c, w_ok catchain_w c -> exists x, store_catchain c ([], []) = Ok x /\ forall rest, load_catchain (capp x rest) = Ok (c, rest)) /\
  (forall c, w_ok consensus_w c -> exists x, store_consensus c ([], []) = Ok x /\ forall rest, load_consensus (capp x rest) = Ok (c, rest)) /\
  (forall g, w_ok gas_w g -> exists x, store_gas g ([], []) = Ok x /\ forall rest, load_gas (capp x rest) = Ok (g, rest)) /\
  (forall w, w_ok workchain_w w -> exists x, store_workchain w ([], []) = Ok x /\ forall rest, load_workchain (capp x rest) = Ok (w, rest)).
Proof.
  split_and!; intros c O.
  - destruct (C58_round_trip _ _ c lawful_catchain O) as (x & _ & S & L & _); [vm_compute; lia|vm_compute; lia|eauto].
  - destruct (C58_round_trip _ _ c lawful_consensus O) as (x & _ & S & L & _); [vm_compute; lia|vm_compute; lia|eauto].
  - destruct (C58_round_trip _ _ c lawful_gas O) as (x & _ & S & L & _); [vm_compute; lia|vm_compute; lia|eauto].
  - destruct (C58_round_trip _ _ c lawful_workchain O) as (x & _ & S & L & _); [vm_compute; lia|vm_compute; lia|eauto].
Qed.
Print Assumptions C61_round_trip.

(** ** Addresses of a workchain: of the least or the greatest length, or some steps above the least *)
Theorem C61_address_lengths f n : check_addr_len f n = true <->
  fst f <= n /\ n <= fst (snd f) /\ (n = fst (snd f) \/ exists k, n = fst f + k * fst (snd (snd f))).
Proof.
  destruct f as [lo [hi [step rest]]]. unfold check_addr_len. cbn [fst snd]. rewrite !andb_true_iff, !orb_true_iff, !N.leb_le, !N.eqb_eq. split.
  - intros [[A B] C]. split; [exact A|]. split; [exact B|]. destruct C as [[->| ->]|C]; [right; exists 0; lia|left; reflexivity|]. right.
    destruct (N.eqb_spec step 0); [discriminate|]. apply N.eqb_eq in C. apply N.mod_divide in C; [|assumption]. destruct C as (k & C). exists k. lia.
  - intros (A & B & C). split; [auto|]. destruct C as [->|(k & ->)]; [auto|]. destruct (N.eqb_spec step 0) as [->|Z]; [left; left; lia|]. right.
    replace (lo + k * step - lo) with (k * step) by lia. rewrite N.mod_mul by exact Z. reflexivity.
Qed.
Print Assumptions C61_address_lengths.

(** ** Validators *)
(** Exactly the three layouts are read. *)
Theorem C61_descr_read b d r : load_descr b = Ok (d, r) <-> exists x, descr_c d x /\ b = capp x r.
Proof. apply reads_descr. Qed.
Print Assumptions C61_descr_read.
(** What was stored is read, but for the sum of the weights before it ... *)
Theorem C61_descr_round_trip d : descr_ok d -> exists x, store_descr d ([], []) = Ok x /\ forall rest, load_descr (capp x rest) = Ok (kept d, rest).
Proof.
  intros O. destruct (store_descr_ok d O) as (x & A & C & L & R). exists x. split; [apply appends_empty; assumption|]. intros rest. apply (reads_back _ _ _ _ _ reads_descr C).
Qed.
Print Assumptions C61_descr_round_trip.
(** ... and for the address of a validator with a sequence number: zeros are stored instead. *)
Theorem C61_adnl_lost key w adnl s prev x : descr_ok (Descr key w (Some adnl) s prev) -> s <> 0 -> store_descr (Descr key w (Some adnl) s prev) ([], []) = Ok x ->
  load_descr x = Ok (Descr key w (Some (repeat 0 32)) s 0, ([], [])).
Proof.
  intros O S E. destruct (C61_descr_round_trip _ O) as (x' & E' & L). rewrite E in E'. injection E' as <-. specialize (L ([], [])). rewrite capp_nil in L. rewrite L. unfold kept. cbn [d_seqno d_key d_weight].
  destruct (N.eqb_spec s 0); [contradiction|reflexivity].
Qed.
Print Assumptions C61_adnl_lost.

(** ** Sets of validators *)
(** A set is read from a dictionary of whatever shape exactly if its first entries (as many as the
    header says, or all of them if they are fewer) have the numbers 0, 1, ..., describe validators
    and have together the declared weight. *)
Theorem C61_set_read fin since until total main weight d es order x rest v r : is_dict any_dict 16 d es -> ordered false false es order ->
  w_read vset_head_w (since, (until, (total, (main, (weight, (d, tt)))))) x ->
  (load_vset fin (capp x rest) = Ok (v, r) <->
   r = rest /\ main <= total /\ exists l, l <> [] /\ describe 0 l (take (N.to_nat total) order) /\ total_weight l = weight /\ v = Vset since until main weight (with_sums 0 l)).
Proof. apply vset_read. Qed.
Print Assumptions C61_set_read.
(** Every set that is read, from whatever data, is one that the choice of subsets relies on (C56):
    the sums of the weights and the total are right and do not overflow, and there is a validator. *)
Theorem C61_loaded_set fin b v r : load_vset fin b = Ok (v, r) -> vset_ok v /\ vs_list v <> [] /\ 0 < vs_main v < 2 ^ 16 /\ vs_since v < 2 ^ 32 /\ vs_until v < 2 ^ 32.
Proof. apply loaded_set. Qed.
Print Assumptions C61_loaded_set.

(** The fields are in the ranges of their types. *)
Definition in_range (v : vset) : Prop := vs_since v < 2 ^ 32 /\ vs_until v < 2 ^ 32 /\ 0 < vs_main v < 2 ^ 16 /\ vs_total v < 2 ^ 64 /\ Forall descr_ok (vs_list v).
Lemma describe_fun i l l' es : describe i l es -> describe i l' es -> l = l'.
Proof.
  revert i l' es. induction l as [|d l IH]; intros i [|d' l'] [|e es]; cbn [describe]; try contradiction; [auto|].
  intros (_ & (x & r & X & E) & D) (_ & (x' & r' & X' & E') & D'). rewrite (IH _ _ _ D D'). f_equal.
  pose proof (reads_back _ _ _ _ r reads_descr X) as L. rewrite <- E, E', (reads_back _ _ _ _ r' reads_descr X') in L. congruence.
Qed.
Lemma describe_length i l es : describe i l es -> length l = length es.
Proof. revert i es. induction l as [|d l IH]; intros i [|e es]; cbn [describe]; try contradiction; [auto|]. intros (_ & _ & D). cbn. f_equal. eapply IH, D. Qed.
Lemma total_kept l : total_weight (map kept l) = total_weight l.
Proof. induction l as [|d l IH]; [reflexivity|]. cbn [map]. rewrite !total_cons, IH. reflexivity. Qed.
(** A set in range with fewer than 2^16 validators is always written; a longer one never is.  It
    is read back exactly if it has a validator, no more main validators than validators, and the
    right total weight. *)
Theorem C61_set_written fin v : (forall b r, (length b <= 1023)%nat -> (length r <= 4)%nat -> fin b r = Ok tt) -> in_range v ->
  if N.of_nat (length (vs_list v)) <? 2 ^ 16 then
    exists x, appends (store_vset fin v) x /\ (length (fst x) = 169)%nat /\ (length (snd x) <= 1)%nat /\
      forall rest v' r, load_vset fin (capp x rest) = Ok (v', r) <->
        (vs_list v <> [] /\ vs_main v <= N.of_nat (length (vs_list v)) /\ vs_total v = total_weight (vs_list v)) /\
        r = rest /\ v' = Vset (vs_since v) (vs_until v) (vs_main v) (vs_total v) (with_sums 0 (map kept (vs_list v)))
  else forall b, store_vset fin v b = Err IntOverflow.
Proof.
  intros Hfin. destruct v as [since until main total l]. unfold in_range. cbn [vs_since vs_until vs_main vs_total vs_list]. intros (R1 & R2 & R3 & R4 & F). unfold store_vset. cbn [vs_since vs_until vs_main vs_total vs_list].
  destruct (N.ltb_spec (N.of_nat (length l)) (2 ^ 16)) as [Hl|Hl]; cbn [negb]; [|reflexivity].
  destruct (descr_dict_ok fin Hfin l F 0 None ∅ (h_empty fin 16)) as (d & es & -> & I & K & De); [intros k v E; rewrite lookup_empty in E; discriminate|]. cbn [rbind].
  assert (S : StronglySorted by_key es) by (apply sorted_by_key; rewrite K; apply idx16_sorted; lia).
  pose proof (by_key_nodup _ S) as ND. pose proof (insert_all_history fin 16 MSet es None ∅ d (h_empty fin 16) I) as H. rewrite (fold_set es ND), (right_id_L ∅ (∪)) in H.
  destruct (history_dict fin 16 d _ ltac:(lia) H) as (es' & D & M).
  assert (D' : is_dict any_dict 16 d es').
  { destruct d as [c|]; cbn [is_dict] in *; [|exact D]. eapply hashmap_any; [|exact D]. intros n' bits l0 rest (e & -> & X & _). exists e. auto. }
  assert (P : Permutation es' es) by (apply list_to_map_inj; [eapply dict_nodup; exact D|exact ND|exact M]).
  assert (O : ordered false false es' es) by (split; [symmetry; exact P|split; [exact ND|exact S]]).
  set (n := N.of_nat (length l)) in *. set (hd := match d with Some c => ([true], [c]) | None => ([false], []) end).
  exists (capp (nbits 8 0x12, []) (capp (nbits 32 since, []) (capp (nbits 32 until, []) (capp (nbits 16 n, []) (capp (nbits 16 main, []) (capp (nbits 64 total, []) hd)))))).
  assert (Dc : w_read dict_w d hd) by (destruct d as [c|]; [change hd with (capp ([true], []) ([], [c])); constructor; constructor|constructor]). split_and!.
  - apply appends_bind; [apply appends_prefix; reflexivity|]. repeat (apply appends_bind; [apply appends_prefix; [reflexivity|assumption || lia]|]). exact (law_store _ _ lawful_dict _ _ Dc).
  - cbn [capp fst]. rewrite !app_length, !length_nbits. destruct d; reflexivity.
  - cbn [capp snd app]. destruct d; cbn; lia.
  - intros rest v' r. rewrite (vset_read fin since until n main total d es' es _ rest v' r D' O).
    2: { rewrite <- (capp_nil hd). eexists. split; [reflexivity|]. repeat (eexists _, _; split; [reflexivity|]; split; [cbn; first [exact Dc | split; [lia|]; constructor; lia | constructor; assumption]|]). reflexivity. }
    assert (Te : take (N.to_nat n) es = es).
    { apply take_ge. apply describe_length in De. rewrite map_length in De. unfold n. lia. }
    rewrite Te. split.
    + intros (-> & Hm & l0 & Hl0 & D0 & Ht & ->). pose proof (describe_fun _ _ _ _ De D0) as <-. rewrite total_kept in Ht. split; [|auto]. split; [intros ->; apply Hl0; reflexivity|auto].
    + intros ((Hl0 & Hm & Ht) & -> & ->). split; [reflexivity|]. split; [exact Hm|]. exists (map kept l). split; [destruct l; [contradiction|discriminate]|]. split; [exact De|]. rewrite total_kept. auto.
Qed.
Print Assumptions C61_set_written.
(** In short: a set that is in order is read as it was, as far as validators are kept. *)
Theorem C61_set_round_trip fin v : (forall b r, (length b <= 1023)%nat -> (length r <= 4)%nat -> fin b r = Ok tt) -> in_range v -> vset_ok v ->
  vs_main v <= N.of_nat (length (vs_list v)) -> N.of_nat (length (vs_list v)) < 2 ^ 16 -> Forall (fun d => d_seqno d = 0) (vs_list v) ->
  exists x, store_vset fin v ([], []) = Ok x /\ forall rest, load_vset fin (capp x rest) = Ok (v, rest).
Proof.
  intros Hfin R (Sm & T & _) M L Q. pose proof (C61_set_written fin v Hfin R) as H. rewrite (proj2 (N.ltb_lt _ _) L) in H. destruct H as (x & A & L1 & L2 & H). exists x. split.
  - rewrite A by (split; cbn; lia). cbn [fst snd length Nat.add]. rewrite L1. destruct (4 <? length (snd x))%nat eqn:E; [apply Nat.ltb_lt in E; lia|]. cbn. destruct x; reflexivity.
  - intros rest. apply H. split; [|split; [reflexivity|]].
    + split; [|auto]. destruct R as (_ & _ & R & _). intros E. rewrite E in M. cbn in M. lia.
    + destruct v as [since until main total l]. cbn [vs_since vs_until vs_main vs_total vs_list] in *. f_equal. clear -Sm Q. revert Sm. generalize 0 as t. induction Q as [|d l Qd Q IH]; intros t; [reflexivity|]. cbn [sums_from map with_sums]. intros [P S].
      rewrite <- IH by exact S. destruct d as [k w a s p]. unfold kept. cbn in Qd, P |- *. subst s p. reflexivity.
Qed.
Print Assumptions C61_set_round_trip.

(** ** Findings *)
Definition zero_key : list N := repeat 7 32.
Definition one_validator : chunk := match store_descr (Descr zero_key 5 None 0 0) ([], []) with Ok x => x | Err _ => ([], []) end.
(** The dictionary may have fewer entries than the header says: then there are more main validators
    than validators. *)
Theorem C61_main_exceeds : exists b v, load_vset ok_fin b = Ok (v, ([], [])) /\ N.of_nat (length (vs_list v)) < vs_main v.
Proof.
  destruct (dict_insert ok_fin None (nbits 16 0) 16 one_validator MSet) as [[f [c|]]|] eqn:E; [|vm_compute in E; discriminate|vm_compute in E; discriminate].
  exists (nbits 8 0x12 ++ nbits 32 1 ++ nbits 32 2 ++ nbits 16 9 ++ nbits 16 9 ++ nbits 64 5 ++ [true], [c]). eexists. split; [vm_compute in E; injection E as <- <-; vm_compute; reflexivity|vm_compute; reflexivity].
Qed.
Print Assumptions C61_main_exceeds.
(** Only the low eight bits of the number of candidates are stored: more than 255 of them are
    changed silently, and a multiple of 256 makes the parameters unreadable. *)
Definition with_candidates (c : consensus) (n : N) : consensus :=
  Consensus (co_new_ids c) n (co_delay c) (co_timeout c) (co_attempts c) (co_duration c) (co_deps c) (co_block c) (co_collated c).
Lemma nil_capp x : capp ([], []) x = x.
Proof. destruct x; reflexivity. Qed.
Theorem C61_candidates c n x rest : w_ok consensus_w c -> store_consensus (with_candidates c n) ([], []) = Ok x ->
  load_consensus (capp x rest) = if n mod 256 =? 0 then Err InvalidData else Ok (with_candidates c (n mod 256), rest).
Proof.
  intros O E. assert (E' : store_consensus (with_candidates c (n mod 256)) ([], []) = Ok x).
  { rewrite <- E. unfold store_consensus, with_candidates. cbn. unfold w8. rewrite N.mod_mod by lia. reflexivity. }
  assert (Hn : n mod 256 < 256) by (apply N.mod_lt; lia). clear E. revert E' Hn. generalize (n mod 256). clear n. intros n E Hn.
  destruct (N.eqb_spec n 0) as [->|NZ].
  - destruct c as [ids cands d t a du de bl co]. cbn in O. unfold with_candidates in E. cbn [co_new_ids co_candidates co_delay co_timeout co_attempts co_duration co_deps co_block co_collated] in *.
    destruct O as (_ & _ & O1 & O2 & O3 & O4 & O5 & O6 & O7 & _).
    assert (A : appends (store_consensus (Consensus ids 0 d t a du de bl co))
      (capp (nbits 8 0xd7, []) (capp (nbits 8 (b2n ids), []) (capp (nbits 8 0, []) (capp (nbits 32 d, []) (capp (nbits 32 t, []) (capp (nbits 32 a, []) (capp (nbits 32 du, []) (capp (nbits 32 de, []) (capp (nbits 32 bl, []) (nbits 32 co, []))))))))))).
    { repeat (apply appends_bind; [apply appends_prefix; [reflexivity|first [assumption | destruct ids; reflexivity | reflexivity]]|]). apply appends_prefix; [reflexivity|assumption]. }
    set (tl := capp (nbits 32 d, []) _) in A. assert (Lt : length (fst tl) = 224%nat) by (unfold tl; cbn [capp fst]; rewrite !app_length, !length_nbits; reflexivity). assert (Rt : snd tl = []) by reflexivity. clearbody tl.
    rewrite (A ([], [])) in E by (split; cbn; lia).
    cbn [fst snd capp app] in E. rewrite !app_length, !length_nbits, Lt, Rt in E. cbn [length Nat.add] in E. cbv [Nat.ltb Nat.leb orb] in E. injection E as <-.
    rewrite <- !capp_assoc. rewrite nil_capp.
    unfold load_consensus. rewrite (reads_back _ _ _ _ _ (reads_un 8) (uint_intro 8 0xd7 ltac:(reflexivity))). cbn [rbind N.eqb Pos.eqb].
    rewrite (reads_back _ _ _ _ _ (reads_un 8) (uint_intro 8 (b2n ids) ltac:(destruct ids; reflexivity))). cbn [rbind].
    destruct ids; cbn [b2n negb N.shiftr N.eqb]; cbn [nonzero_k c_load]; rewrite (reads_back _ _ _ _ _ (reads_un 8) (uint_intro 8 0 ltac:(reflexivity))); reflexivity.
  - assert (O' : w_ok consensus_w (with_candidates c n)).
    { destruct c as [ids cands d t a du de bl co]. cbn in O |- *. destruct O as (O0 & _ & O). split; [exact O0|]. split; [|exact O]. lia. }
    destruct (proj1 (proj2 C61_round_trip) _ O') as (x' & E' & L). rewrite E in E'. injection E' as <-. apply L.
Qed.
Print Assumptions C61_candidates.
(** Split depths are checked when a workchain is stored, and are not when it is loaded. *)
Theorem C61_split_depths : exists b w, load_workchain b = Ok (w, ([], [])) /\ (forall b', store_workchain w b' = Err InvalidData).
Proof.
  exists (nbits 8 0xa6 ++ nbits 32 1 ++ nbits 8 0 ++ nbits 8 5 ++ nbits 8 2 ++ nbits 16 0xe000 ++ nbits 256 3 ++ nbits 256 4 ++ nbits 32 0 ++ nbits 4 1 ++ nbits 96 0, []). eexists. split; [vm_compute; reflexivity|reflexivity].
Qed.
Print Assumptions C61_split_depths.
(** A prefix with the flat gas may be repeated: the last one counts. *)
Lemma flat_step fuel fl fp fl' fp' x r : w_read flat_w (fl', (fp', tt)) x -> load_gas_loop (S fuel) fl fp (capp x r) = load_gas_loop fuel fl' fp' r.
Proof.
  intros (y & -> & y1 & ? & -> & Y1 & y2 & ? & -> & Y2 & ->). cbn [load_gas_loop fst snd] in *. rewrite <- !capp_assoc.
  rewrite (reads_back _ _ _ _ _ (reads_un 8) (uint_intro 8 0xd1 ltac:(reflexivity))). cbn [rbind N.eqb Pos.eqb].
  rewrite (reads_back _ _ _ _ _ (reads_un 64) Y1). cbn [rbind]. rewrite (reads_back _ _ _ _ _ (reads_un 64) Y2). cbn [rbind]. destruct r; reflexivity.
Qed.
Theorem C61_repeated_prefix a b x y r g r' : w_read flat_w a x -> w_read flat_w b y -> load_gas (capp y r) = Ok (g, r') -> load_gas (capp x (capp y r)) = Ok (g, r').
Proof.
  destruct a as [fl [fp []]], b as [fl' [fp' []]]. intros X Y. unfold load_gas. rewrite (flat_step _ _ _ _ _ _ _ Y), (flat_step _ _ _ _ _ _ _ X).
  assert (Lx : (0 < length (fst x))%nat) by (destruct X as (z & -> & _); cbn [capp fst]; rewrite app_length, length_nbits; lia). assert (Ly : (0 < length (fst y))%nat) by (destruct Y as (z & -> & _); cbn [capp fst]; rewrite app_length, length_nbits; lia).
  destruct x as [xb xr], y as [yb yr], r as [rb rr]. cbn [fst capp] in *. rewrite !app_length. destruct (length xb + (length yb + length rb))%nat as [|n] eqn:E; [lia|].
  change (xr ++ yr ++ rr) with (xr ++ (yr ++ rr)). pose proof (flat_step n fl fp fl' fp' (yb, yr) (rb, rr) Y) as F. cbn [capp fst snd] in F. cbn [snd]. rewrite F.
  intros H. apply (reads_gas_loop _ fl' fp') in H; [|cbn [fst]; lia]. apply (reads_gas_loop _ fl' fp'); [cbn [fst]; lia|exact H].
Qed.
Print Assumptions C61_repeated_prefix.

(** ** A case *)
Definition case_set : vset := Vset 100 200 1 12 [Descr zero_key 5 None 0 0; Descr (repeat 9 32) 7 (Some (repeat 1 32)) 0 5].
Example C61_case : exists x y, in_range case_set /\ vset_ok case_set /\ store_vset ok_fin case_set ([], []) = Ok x /\ load_vset ok_fin x = Ok (case_set, ([], [])) /\
  w_ok workchain_w (Workchain 1 0 0 60 true true zero_key zero_key 0 (Basic ((-1)%Z, (0, tt)))) /\
  store_workchain (Workchain 1 0 0 60 true true zero_key zero_key 0 (Basic ((-1)%Z, (0, tt)))) ([], []) = Ok y /\ length (fst y) = 724%nat.
Proof.
  eexists _, _. split; [|split; [|split; [vm_compute; reflexivity|split; [vm_compute; reflexivity|split; [|split; [vm_compute; reflexivity|reflexivity]]]]]].
  - unfold in_range, case_set. cbn [vs_since vs_until vs_main vs_total vs_list]. split_and!; try lia. repeat constructor; cbn; try lia; repeat (apply Forall_cons; split; [reflexivity|]); try constructor.
  - repeat split; vm_compute; reflexivity.
  - split; [|cbn; lia]. cbn. split_and!; repeat constructor; try lia.
Qed.
