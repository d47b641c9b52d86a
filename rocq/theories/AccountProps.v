(** * C54: accounts are stored in their layout and read back from it; storage statistics *)
From Verif Require Import Err BitsProofs IntModel NumModel NumSpec NumProofs AddrModel AddrSpec CellModel DictModel ChunkModel ChunkSpec ChunkProofs CurrencyModel CurrencySpec MessageModel MessageSpec LayoutProofs MessageProofs MessageProofs2 MessageProps LazyModel LazySpec LazyProofs StatSpec StatProps AccountModel AccountSpec AccountProofs.
Local Open Scope N_scope.

(** ** Layouts *)
(** An account (or its absence), an entry of the shard's accounts, a status and a library are
    appended to whatever the builder holds, exactly as TL-B lays them out; they are refused
    only if they do not fit. *)
Theorem C54_store_account a x : optional_c var_uint_bits a x -> appends (store_optional a) x.
Proof. apply appends_optional. Qed.
Print Assumptions C54_store_account.
Theorem C54_store_entry a x : shard_account_c a x -> appends (store_shard_account a) x.
Proof. apply appends_shard_account. Qed.
Print Assumptions C54_store_entry.
Theorem C54_store_status s x : status_c s x -> appends (store_status s) x.
Proof. apply appends_status. Qed.
Print Assumptions C54_store_status.
Theorem C54_store_lib l x : lib_c l x -> appends (store_lib l) x.
Proof. apply appends_lib. Qed.
Print Assumptions C54_store_lib.
(** Loading accepts exactly the layouts, with any notation of the amounts that fits. *)
Theorem C54_load_account : reads_layout load_optional (optional_c loose_var_uint_bits).
Proof. apply reads_optional. Qed.
Print Assumptions C54_load_account.
Theorem C54_load_entry : reads_layout load_shard_account shard_account_c.
Proof. apply reads_shard_account. Qed.
Print Assumptions C54_load_entry.
Theorem C54_load_status : reads_layout load_status status_c.
Proof. apply reads_status. Qed.
Print Assumptions C54_load_status.
Theorem C54_load_lib : reads_layout load_lib lib_c.
Proof. apply reads_lib. Qed.
Print Assumptions C54_load_lib.

(** What an account that was read tells about itself: the status says whether it is there at
    all (the first bit) and which state it is in; one that is missing has nothing. *)
Theorem C54_views b a r : load_optional b = Ok (a, r) ->
  (optional_status a = SNotExists <-> take 1 (fst b) = [false]) /\
  (a = None -> optional_lt a = 0 /\ optional_balance a = Currency 0 None /\ optional_state a = None) /\
  forall ac, a = Some ac -> optional_lt a = ac_lt ac /\ optional_balance a = ac_balance ac /\ optional_state a = Some (ac_state ac) /\
    (optional_status a = SUninit <-> ac_state ac = Uninit) /\ (optional_status a = SActive <-> exists s, ac_state ac = Active s) /\ (optional_status a = SFrozen <-> exists h, ac_state ac = Frozen h).
Proof.
  intros E. split; [|split].
  - unfold load_optional, load_opt_c, from_bits in E. destruct b as [[|[] bs] rs]; cbn [fst load_bit rbind] in E; [discriminate| |].
    + destruct (load_account (bs, snd (true :: bs, rs))) as [[x c]|]; cbn [rbind] in E; [|discriminate]. injection E as <- <-. cbn [fst take optional_status]. split; [|discriminate]. destruct (ac_state x); discriminate.
    + injection E as <- <-. split; reflexivity.
  - intros ->. repeat split.
  - intros ac ->. cbn [optional_lt optional_balance optional_state optional_status]. do 3 (split; [reflexivity|]).
    destruct (ac_state ac); cbn [state_status]; repeat split; try discriminate; try reflexivity; eauto; intros (q & Q); discriminate Q.
Qed.
Print Assumptions C54_views.
Lemma vk56_loose v x : bits_only (var_uint_bits 3) v x -> bits_only (loose_var_uint_bits 3) v x.
Proof. apply (vk_loose VarUint56). Qed.
Lemma used_loose u x : used_c var_uint_bits u x -> used_c loose_var_uint_bits u x.
Proof. intros H. destruct H. constructor; apply vk56_loose; assumption. Qed.
Lemma maybe_mono {A} (L L' : A -> chunk -> Prop) o x : (forall a y, L a y -> L' a y) -> maybe_c L o x -> maybe_c L' o x.
Proof. intros H [|a y Hy]; constructor. apply H, Hy. Qed.
Lemma storage_loose s x : storage_c var_uint_bits s x -> storage_c loose_var_uint_bits s x.
Proof. intros H. destruct H. constructor; try assumption; [apply used_loose; assumption|]. eapply maybe_mono; [|eassumption]. intros. apply (vk_loose Tokens); assumption. Qed.
Lemma account_loose a x : account_c var_uint_bits a x -> account_c loose_var_uint_bits a x.
Proof. intros [ad xa t xt l v s xs H1 H2 H3]. constructor; [assumption|apply storage_loose; assumption|]. destruct H3. constructor; try assumption. apply cc_loose; assumption. Qed.
(** An account that was put into a cell of its own is loaded from it. *)
Theorem C54_round_trip fin a x : optional_c var_uint_bits a x -> fits x -> fin (fst x) (snd x) = Ok tt ->
  exists c, lazy_new fin false (store_optional a) = Ok c /\ forall h lt, shard_load_account (ShardAccount c h lt) = Ok a.
Proof.
  intros H F N. destruct (build_from_ok fin (optional_c var_uint_bits) a x (store_optional a) (appends_optional a x H) H F N) as (c & E & Hc). exists c. split; [exact E|]. intros h lt.
  apply (parse_iff load_optional (optional_c loose_var_uint_bits) c a reads_optional). destruct Hc as [a y t Hy _]. apply holds_value_intro; [|exact Logic.I]. eapply maybe_mono; [apply account_loose|exact Hy].
Qed.
Print Assumptions C54_round_trip.
(** The account of an entry loads if and only if its cell is an ordinary one with an account
    in front. *)
Theorem C54_entry_account e a : shard_load_account e = Ok a <-> holds_value any_tail (optional_c loose_var_uint_bits) a (sh_account e).
Proof. apply parse_iff, reads_optional. Qed.
Print Assumptions C54_entry_account.
(** ** Storage statistics *)
(** [compute] fails for every account that exists in practice: whatever is counted, it answers
    only if there are too many cells for the answer to be valid. *)
Theorem C54_compute_only_invalid fin stats a lim u : compute_used fin stats a lim = Ok u -> 2 ^ 56 <= us_cells u /\ us_bits u < 2 ^ 56.
Proof.
  unfold compute_used. destruct (store_un _ _ _) as [c|]; [|discriminate]. cbn [rbind]. destruct (store_cc _ _) as [c2|]; [|discriminate]. cbn [rbind]. destruct (store_state _ _) as [c3|]; [|discriminate]. cbn [rbind].
  destruct (build fin c3) as [x|]; [|discriminate]. cbn [rbind]. destruct (stats x lim) as [[b n]|]; [|discriminate].
  unfold vk_valid. change (vk_max VarUint56) with (2 ^ 56 - 1). destruct (N.leb_spec n (2 ^ 56 - 1)); [discriminate|]. destruct (N.leb_spec b (2 ^ 56 - 1)); [|discriminate]. cbn [orb negb]. intros [= <-]. cbn [us_cells us_bits]. lia.
Qed.
Print Assumptions C54_compute_only_invalid.
(** So the answer for an account whose cells can be counted within the limit is an error. *)
Theorem C54_compute_refuted fin stats a lim x l : counts stats -> 0 < lim ->
  storage_part_c var_uint_bits (ac_lt a) (ac_balance a) (ac_state a) x -> fits x -> fin (fst x) (snd x) = Ok tt ->
  distinct [Cell false (fst x) (snd x)] l -> N.of_nat (length l) <= lim -> N.of_nat (length l) < 2 ^ 56 ->
  compute_used fin stats a lim = Err IntOverflow.
Proof.
  intros C Z H F N D Hl Hc. assert (E : (let? c := store_un 64 (ac_lt a) ([], []) in let? c := store_cc (ac_balance a) c in store_state (ac_state a) c) = Ok x).
  { apply (appends_empty (fun c => let? c := store_un 64 (ac_lt a) c in let? c := store_cc (ac_balance a) c in store_state (ac_state a) c)); [|exact F]. destruct H. stores. }
  unfold compute_used. destruct (store_un _ _ _) as [c|]; [|discriminate]. cbn [rbind] in *. destruct (store_cc _ _) as [c2|]; [|discriminate]. cbn [rbind] in *. rewrite E. cbn [rbind].
  unfold build. rewrite N. cbn [rbind]. rewrite (C _ lim l Z D). destruct (N.leb_spec (N.of_nat (length l)) lim); [|lia].
  unfold vk_valid. change (vk_max VarUint56) with (2 ^ 56 - 1). destruct (N.leb_spec (N.of_nat (length l)) (2 ^ 56 - 1)); [reflexivity|lia].
Qed.
Print Assumptions C54_compute_refuted.
(** Beyond the limit, it is [Cancelled]. *)
Theorem C54_compute_limit fin stats a lim x l : counts stats -> 0 < lim ->
  storage_part_c var_uint_bits (ac_lt a) (ac_balance a) (ac_state a) x -> fits x -> fin (fst x) (snd x) = Ok tt ->
  distinct [Cell false (fst x) (snd x)] l -> lim < N.of_nat (length l) -> compute_used fin stats a lim = Err Cancelled.
Proof.
  intros C Z H F N D Hl. assert (E : (let? c := store_un 64 (ac_lt a) ([], []) in let? c := store_cc (ac_balance a) c in store_state (ac_state a) c) = Ok x).
  { apply (appends_empty (fun c => let? c := store_un 64 (ac_lt a) c in let? c := store_cc (ac_balance a) c in store_state (ac_state a) c)); [|exact F]. destruct H. stores. }
  unfold compute_used. destruct (store_un _ _ _) as [c|]; [|discriminate]. cbn [rbind] in *. destruct (store_cc _ _) as [c2|]; [|discriminate]. cbn [rbind] in *. rewrite E. cbn [rbind].
  unfold build. rewrite N. cbn [rbind]. rewrite (C _ lim l Z D). destruct (N.leb_spec (N.of_nat (length l)) lim); [lia|reflexivity].
Qed.
Print Assumptions C54_compute_limit.

(** ** Cases *)
(** There is a way to count. *)
Definition count_cells (c : cell) (lim : N) : option (N * N) :=
  let l := nodup cell_dec (cells_of c) in if N.of_nat (length l) <=? lim then Some (total_bits l, N.of_nat (length l)) else None.
Lemma total_bits_perm l l' : Permutation l l' -> total_bits l = total_bits l'.
Proof. intros H. unfold total_bits. induction H; cbn [fold_right]; lia. Qed.
Lemma count_cells_counts : counts count_cells.
Proof.
  intros c lim l _ [D1 D2]. unfold count_cells. assert (P : Permutation (nodup cell_dec (cells_of c)) l).
  { apply NoDup_Permutation; [apply NoDup_ListNoDup, List.NoDup_nodup|exact D1|]. intros x. rewrite !elem_of_list_In, nodup_In, cells_of_reach, D2. split; [intros R; exists c; split; [left; reflexivity|exact R]|intros (r & [<-|[]] & R); exact R]. }
  rewrite (Permutation_length P), (total_bits_perm _ _ P). reflexivity.
Qed.
Definition some_account : account :=
  Account zero_addr (StorageInfo (Used 1 100) (DictHash (replicate 32 7)) 5 None) 77 (Currency 0 None) (Active (StateInit None None (Some (Cell false [true] [])) None None)).
Definition some_part : chunk := (nbits 64 77 ++ nbits 4 0 ++ [false] ++ [true] ++ [false; false; true; false; false], [Cell false [true] []]).
Lemma some_part_c : storage_part_c var_uint_bits (ac_lt some_account) (ac_balance some_account) (ac_state some_account) some_part.
Proof.
  refine (eq_rect (cat [(nbits 64 77, []); capp (nbits 4 0, []) ([false], []); cat [([true], []); cat [([false], []); ([false], []); ([true], [Cell false [true] []]); ([false], []); ([false], [])]]]) _ _ _ eq_refl).
  constructor; [constructor; reflexivity| |].
  - constructor; [apply zero_tokens_c|constructor].
  - constructor. constructor; try constructor. exact (maybe_some _ _ _ (cell_intro _)).
Qed.
Definition some_chunk : chunk := capp ([true], []) (cat [([true; false] ++ [false] ++ replicate 264 false, []);
  cat [cat [(nbits 3 1 ++ nbits 8 1, []); (nbits 3 1 ++ nbits 8 100, [])]; cat [([false; false; true], []); (bytes_bits (replicate 32 7), [])]; (nbits 32 5, []); ([false], [])]; some_part]).
Lemma one_byte v : 0 < v < 256 -> bits_only (var_uint_bits 3) v (nbits 3 1 ++ nbits 8 v, []).
Proof.
  intros H. constructor. exists 1. split; [split; [change (256 ^ 1) with 256; lia|]|split; [vm_compute; reflexivity|reflexivity]].
  intros m Hm. destruct (N.eq_dec m 0) as [->|]; [change (256 ^ 0) with 1 in Hm|]; lia.
Qed.
Lemma some_chunk_c : optional_c var_uint_bits (Some some_account) some_chunk.
Proof.
  apply maybe_some. constructor; [apply zero_addr_c| |apply some_part_c]. constructor.
  - constructor; apply one_byte; lia.
  - constructor. constructor; [|reflexivity]. apply Forall_replicate. vm_compute. reflexivity.
  - constructor. reflexivity.
  - constructor.
Qed.
(** An active account: it is put into a cell and loaded again; its storage consists of two
    cells, which are within the limit of ten, yet they are not counted. *)
Example C54_case : optional_c var_uint_bits (Some some_account) some_chunk /\ fits some_chunk
  /\ (exists c, lazy_new yes false (store_optional (Some some_account)) = Ok c /\ shard_load_account (ShardAccount c (replicate 32 0) 9) = Ok (Some some_account))
  /\ counts count_cells /\ storage_part_c var_uint_bits (ac_lt some_account) (ac_balance some_account) (ac_state some_account) some_part /\ fits some_part
  /\ count_cells (Cell false (fst some_part) (snd some_part)) 10 = Some (76, 2) /\ compute_used yes count_cells some_account 10 = Err IntOverflow.
Proof.
  split; [apply some_chunk_c|]. split; [apply fits_small; vm_compute; split; congruence|]. split.
  - eexists. split; [vm_compute; reflexivity|vm_compute; reflexivity].
  - split; [apply count_cells_counts|]. split; [apply some_part_c|]. split; [apply fits_small; vm_compute; split; congruence|]. split; vm_compute; reflexivity.
Qed.
