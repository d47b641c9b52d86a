(** * Parameters with codecs written by hand: src/models/config/params.rs

    The types of fields are those of StructsModel, the records those of FeesModel and VsetModel.
    [fin] is the outcome of [finalize_cell] as in DictModel (the loader uses the empty context). *)
From Verif Require Import Err IntModel NumModel CellModel DictModel IterModel CurrencyModel ChunkModel FeesModel VsetModel DeriveModel StructsModel TxModel.
Local Open Scope N_scope.

(** ** Catchain parameters: 606-617 [store_into], 619-643 [load_from] *)
Definition store_catchain (c : catchain) (b : chunk) : res chunk :=
  let flags := N.lor (N.shiftl (b2n (cc_isolate c)) 1) (b2n (cc_shuffle c)) in
  let? b := store_un 8 0xc2 b in
  let? b := store_un 8 flags b in
  let? b := store_un 32 (cc_mc_lifetime c) b in
  let? b := store_un 32 (cc_shard_lifetime c) b in
  let? b := store_un 32 (cc_vals_lifetime c) b in
  store_un 32 (cc_vals_num c) b.
Definition load_catchain (b : chunk) : res (catchain * chunk) :=
  let? (t, b) := load_un 8 b in
  let? (flags, b) := (if t =? 0xc1 then Ok (0, b) else if t =? 0xc2 then load_un 8 b else Err InvalidTag) in
  if negb (N.shiftr flags 2 =? 0) then Err InvalidData
  else
    let? (mc, b) := load_un 32 b in
    let? (sh, b) := load_un 32 b in
    let? (vl, b) := load_un 32 b in
    let? (n, b) := load_un 32 b in
    Ok (Catchain (has flags 2) (has flags 1) mc sh vl n, b).
Definition catchain_k := Codec store_catchain load_catchain.

(** ** Consensus parameters: 983-1007; 1016-1030 [store_into], 1032-1060 [load_from] *)
Record consensus := Consensus { co_new_ids : bool; co_candidates : N; co_delay : N; co_timeout : N; co_attempts : N; co_duration : N; co_deps : N; co_block : N; co_collated : N }.
(** [round_candidates.get() as u8] keeps the low eight bits *)
Definition store_consensus (c : consensus) (b : chunk) : res chunk :=
  let? b := store_un 8 0xd7 b in
  let? b := store_un 8 (b2n (co_new_ids c)) b in
  let? b := store_un 8 (w8 (co_candidates c)) b in
  let? b := store_un 32 (co_delay c) b in
  let? b := store_un 32 (co_timeout c) b in
  let? b := store_un 32 (co_attempts c) b in
  let? b := store_un 32 (co_duration c) b in
  let? b := store_un 32 (co_deps c) b in
  let? b := store_un 32 (co_block c) b in
  store_un 32 (co_collated c) b.
Definition load_consensus (b : chunk) : res (consensus * chunk) :=
  let? (t, b) := load_un 8 b in
  let? (p, b) :=
    (if t =? 0xd6 then let? (n, b) := c_load (nonzero_k 32) b in Ok ((0, n), b)
     else if t =? 0xd7 then
       let? (flags, b) := load_un 8 b in
       if negb (N.shiftr flags 1 =? 0) then Err InvalidData
       else let? (n, b) := c_load (nonzero_k 8) b in Ok ((flags, n), b)
     else Err InvalidTag) in
  let? (delay, b) := load_un 32 b in
  let? (timeout, b) := load_un 32 b in
  let? (attempts, b) := load_un 32 b in
  let? (duration, b) := load_un 32 b in
  let? (deps, b) := load_un 32 b in
  let? (block, b) := load_un 32 b in
  let? (collated, b) := load_un 32 b in
  Ok (Consensus (has (fst p) 1) (snd p) delay timeout attempts duration deps block collated, b).
Definition consensus_k := Codec store_consensus load_consensus.

(** ** Gas limits and prices: 455-469 [store_into], 471-503 [load_from] *)
Definition store_gas (g : gas_prices) (b : chunk) : res chunk :=
  let? b := store_un 8 0xd1 b in
  let? b := store_un 64 (gp_flat_limit g) b in
  let? b := store_un 64 (gp_flat_price g) b in
  let? b := store_un 8 0xde b in
  let? b := store_un 64 (gp_price g) b in
  let? b := store_un 64 (gp_limit g) b in
  let? b := store_un 64 (gp_special g) b in
  let? b := store_un 64 (gp_credit g) b in
  let? b := store_un 64 (gp_block g) b in
  let? b := store_un 64 (gp_freeze g) b in
  store_un 64 (gp_delete g) b.
(** The loop; [fl] and [fp] are the fields that were read so far.  Every turn takes at least eight
    bits, so that the number of bits is enough fuel. *)
Fixpoint load_gas_loop (fuel : nat) (fl fp : N) (b : chunk) : res (gas_prices * chunk) :=
  match fuel with
  | O => Err OutOfFuel
  | S fuel =>
    let? (t, b) := load_un 8 b in
    if t =? 0xd1 then
      let? (fl, b) := load_un 64 b in
      let? (fp, b) := load_un 64 b in
      load_gas_loop fuel fl fp b
    else if t =? 0xde then
      let? (price, b) := load_un 64 b in
      let? (limit, b) := load_un 64 b in
      let? (special, b) := load_un 64 b in
      let? (credit, b) := load_un 64 b in
      let? (block, b) := load_un 64 b in
      let? (freeze, b) := load_un 64 b in
      let? (delete, b) := load_un 64 b in
      Ok (GasPrices price limit special credit block freeze delete fl fp, b)
    else if t =? 0xdd then
      let? (price, b) := load_un 64 b in
      let? (limit, b) := load_un 64 b in
      let? (credit, b) := load_un 64 b in
      let? (block, b) := load_un 64 b in
      let? (freeze, b) := load_un 64 b in
      let? (delete, b) := load_un 64 b in
      Ok (GasPrices price limit 0 credit block freeze delete fl fp, b)
    else Err InvalidTag
  end.
Definition load_gas (b : chunk) : res (gas_prices * chunk) := load_gas_loop (S (length (fst b))) 0 0 b.
Definition gas_k := Codec store_gas load_gas.

(** ** Workchains: 111-135; 214-221 [WorkchainFormat], 242-258 [store_into], 260-268 [load_from] *)
Inductive format := Basic (f : vals (s_fields workchain_format_basic)) | Extended (f : vals (s_fields workchain_format_extended)).
Definition store_format (f : format) (b : chunk) : res chunk :=
  match f with
  | Basic f => let? b := store_un 4 1 b in c_store (derived workchain_format_basic) f b
  | Extended f => let? b := store_un 4 0 b in c_store (derived workchain_format_extended) f b
  end.
Definition load_format (b : chunk) : res (format * chunk) :=
  let? (t, b) := load_un 4 b in
  if t =? 1 then let? (f, b) := c_load (derived workchain_format_basic) b in Ok (Basic f, b)
  else if t =? 0 then let? (f, b) := c_load (derived workchain_format_extended) b in Ok (Extended f, b)
  else Err InvalidTag.
Definition format_k := Codec store_format load_format.
(** 237-239 [is_basic], 225-230 [is_valid] *)
Definition is_basic (f : format) : bool := match f with Basic _ => true | Extended _ => false end.
Definition format_valid (f : format) : bool := match f with Basic _ => true | Extended f => s_valid workchain_format_extended f end.
Record workchain := Workchain { wc_since : N; wc_actual : N; wc_min : N; wc_max : N; wc_active : bool; wc_accept : bool; wc_root : list N; wc_file : list N; wc_version : N; wc_format : format }.
(** 141-145 [is_valid]; [MAX_SPLIT_DEPTH] is 60 *)
Definition wc_valid (w : workchain) : bool := (wc_min w <=? wc_max w) && (wc_max w <=? 60) && format_valid (wc_format w).
(** 148-173 [store_into] *)
Definition store_workchain (w : workchain) (b : chunk) : res chunk :=
  if negb (wc_valid w) then Err InvalidData
  else
    let flags := N.lor (N.lor (N.shiftl (b2n (is_basic (wc_format w))) 15) (N.shiftl (b2n (wc_active w)) 14)) (N.shiftl (b2n (wc_accept w)) 13) in
    let? b := store_un 8 0xa6 b in
    let? b := store_un 32 (wc_since w) b in
    let? b := store_un 8 (wc_actual w) b in
    let? b := store_un 8 (wc_min w) b in
    let? b := store_un 8 (wc_max w) b in
    let? b := store_un 16 flags b in
    let? b := store_bs (wc_root w) b in
    let? b := store_bs (wc_file w) b in
    let? b := store_un 32 (wc_version w) b in
    store_format (wc_format w) b.
(** 175-210 [load_from]; [flags << 3] is a [u16] *)
Definition load_workchain (b : chunk) : res (workchain * chunk) :=
  let? (t, b) := load_un 8 b in
  if t =? 0xa6 then
    let? (since, b) := load_un 32 b in
    let? (actual, b) := load_un 8 b in
    let? (lo, b) := load_un 8 b in
    let? (hi, b) := load_un 8 b in
    let? (flags, b) := load_un 16 b in
    if negb (w16 (N.shiftl flags 3) =? 0) then Err InvalidData
    else
      let? (root, b) := load_bs 32 b in
      let? (file, b) := load_bs 32 b in
      let? (version, b) := load_un 32 b in
      let? (f, b) := load_format b in
      if negb (Bool.eqb (has flags 0x8000) (is_basic f)) then Err InvalidData
      else Ok (Workchain since actual lo hi (has flags 0x4000) (has flags 0x2000) root file version f, b)
  else Err InvalidTag.
Definition workchain_k := Codec store_workchain load_workchain.
(** 305-321 [check_addr_len]; the subtraction is not reached below [min_addr_len] *)
Definition check_addr_len (f : vals (s_fields workchain_format_extended)) (n : N) : bool :=
  let '(lo, (hi, (step, _))) := f in
  (lo <=? n) && (n <=? hi) && ((n =? lo) || (n =? hi) || (if step =? 0 then false else (n - lo) mod step =? 0)).

(** ** Validators: 1416-1447 [store_into], 1450-1481 [load_from] *)
Definition store_descr (d : descr) (b : chunk) : res chunk :=
  let with_seqno := negb (d_seqno d =? 0) in
  let tag := if with_seqno then 0x93 else match d_adnl d with Some _ => 0x73 | None => 0x53 end in
  let? b := store_un 8 tag b in
  let? b := store_un 32 0x8e81278a b in
  let? b := store_bs (d_key d) b in
  let? b := store_un 64 (d_weight d) b in
  let adnl := if with_seqno then Some (repeat 0 32) else d_adnl d in
  let? b := (match adnl with Some a => store_bs a b | None => Ok b end) in
  if with_seqno then store_un 32 (d_seqno d) b else Ok b.
Definition load_descr (b : chunk) : res (descr * chunk) :=
  let? (t, b) := load_un 8 b in
  let? (p, b) :=
    (if t =? 0x53 then Ok ((false, false), b) else if t =? 0x73 then Ok ((true, false), b) else if t =? 0x93 then Ok ((true, true), b) else Err InvalidTag) in
  let? (kt, b) := load_un 32 b in
  if kt =? 0x8e81278a then
    let? (key, b) := load_bs 32 b in
    let? (w, b) := load_un 64 b in
    let? (adnl, b) := (if fst p then let? (a, b) := load_bs 32 b in Ok (Some a, b) else Ok (None, b)) in
    let? (s, b) := (if snd p then load_un 32 b else Ok (0, b)) in
    Ok (Descr key w adnl s 0, b)
  else Err InvalidTag.
Definition descr_k := Codec store_descr load_descr.

(** ** Sets of validators *)
Section Fin.
Context (fin : list bool -> list cell -> res unit).
(** 1249-1252: the dictionary of the validators.  Simplified as in CurrencyModel: the value is
    stored into an empty builder first. *)
Fixpoint descr_dict (l : list descr) (i : N) (d : option cell) : res (option cell) :=
  match l with
  | [] => Ok d
  | x :: l =>
    let? v := store_descr x ([], []) in
    let? (_, d) := dict_insert fin d (nbits 16 i) 16 v MSet in
    descr_dict l (i + 1) d
  end.
(** 1239-1263 [store_into] *)
Definition store_vset (v : vset) (b : chunk) : res chunk :=
  if negb (N.of_nat (length (vs_list v)) <? 2 ^ 16) then Err IntOverflow
  else
    let? d := descr_dict (vs_list v) 0 None in
    let? b := store_un 8 0x12 b in
    let? b := store_un 32 (vs_since v) b in
    let? b := store_un 32 (vs_until v) b in
    let? b := store_un 16 (N.of_nat (length (vs_list v))) b in
    let? b := store_un 16 (vs_main v) b in
    let? b := store_un 64 (vs_total v) b in
    store_dict d b.
(** 1297-1311: the loop; [i] entries were read, the weight of them is [sum] *)
Fixpoint load_descrs (fuel : nat) (left : N) (i sum : N) (it : raw_iter) : res (list descr * N) :=
  match fuel with
  | O => Err OutOfFuel
  | S fuel =>
    if left =? 0 then Ok ([], sum)
    else match iter_next it with
         | (None, _) => Ok ([], sum)
         | (Some (Err e), _) => Err e
         | (Some (Ok (k, s)), it) =>
           let? (d, _) := load_descr (s_chunk s) in
           if negb (bval k =? i) then Err InvalidData
           else if negb (sum + d_weight d <? 2 ^ 64) then Err InvalidData
           else
             let? (l, total) := load_descrs fuel (left - 1) (i + 1) (sum + d_weight d) it in
             Ok (Descr (d_key d) (d_weight d) (d_adnl d) (d_seqno d) sum :: l, total)
         end
  end.
(** 1265-1339 [load_from] *)
Definition load_vset (b : chunk) : res (vset * chunk) :=
  let? (t, b) := load_un 8 b in
  let? with_total := (if t =? 0x11 then Ok false else if t =? 0x12 then Ok true else Err InvalidTag) in
  let? (since, b) := load_un 32 b in
  let? (until, b) := load_un 32 b in
  let? (total, b) := load_un 16 b in
  let? (main, b) := c_load (nonzero_k 16) b in
  if total <? main then Err InvalidData
  else
    let? (p, b) :=
      (if with_total : bool then
         let? (w, b) := load_un 64 b in
         let? (d, b) := load_dict b in
         Ok ((w, d), b)
       else
         let? (c, b) := dict_load_from_root fin b 16 in
         Ok ((0, Some c), b)) in
    let? (l, w) := load_descrs (S (match snd p with Some c => csize c | None => 0 end)) total 0 0 (iter_new (snd p) 16 false false) in
    match l with
    | [] => Err InvalidData
    | _ => if with_total && negb (fst p =? w) then Err InvalidData else Ok (Vset since until main w l, b)
    end.
Definition vset_k := Codec store_vset load_vset.
End Fin.
