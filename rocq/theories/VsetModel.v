(** * Validator sets and their subsets: src/models/config/params.rs

    Additions and subtractions that would overflow, and failed debug assertions, are
    [Panic].  [sha512] is the hash function. *)
From Verif Require Import Err IntModel CellModel BocModel Crc32c ShardModel.
Local Open Scope N_scope.

(** 1378-1397 [ValidatorDescription] *)
Record descr := Descr { d_key : list N; d_weight : N; d_adnl : option (list N); d_seqno : N; d_prev : N }.
(** 1053-1066 [ValidatorSet] *)
Record vset := Vset { vs_since : N; vs_until : N; vs_main : N; vs_total : N; vs_list : list descr }.
(** 577-592 [CatchainConfig] *)
Record catchain := Catchain { cc_isolate : bool; cc_shuffle : bool; cc_mc_lifetime : N; cc_shard_lifetime : N; cc_vals_lifetime : N; cc_vals_num : N }.

Definition add64p (a b : N) : res N := if a + b <? 2 ^ 64 then Ok (a + b) else Err Panic.
Definition sub64p (a b : N) : res N := if b <=? a then Ok (a - b) else Err Panic.
(** [slice::partition_point] on a slice that is partitioned *)
Fixpoint partition_point {A} (f : A -> bool) (l : list A) : nat :=
  match l with [] => 0 | x :: l => if f x then S (partition_point f l) else 0 end.

Section Prng.
Context (sha512 : list N -> list N).
(** 1490-1494 [ValidatorSetPRNG] *)
Record prng := Prng { g_context : list N; g_bag : list N }.
(** 1504-1518 [with_seed], 1498-1501 [new] *)
Definition prng_with_seed (s : shard) (cc_seqno : N) (seed : list N) : prng :=
  Prng (seed ++ to_be 8 (sh_prefix s) ++ to_be 4 (Z.to_N (sh_wc s mod 2 ^ 32)) ++ to_be 4 cc_seqno) (8 :: replicate 7 0).
Definition prng_new (s : shard) (cc_seqno : N) : prng := prng_with_seed s cc_seqno (replicate 32 0).
(** 1542-1547: the seed, a number of 32 bytes, is incremented, the last byte first *)
Fixpoint bump (rev_bytes : list N) : list N :=
  match rev_bytes with
  | [] => []
  | b :: bs => let b := w8 (b + 1) in if negb (b =? 0) then b :: bs else b :: bump bs
  end.
(** eight words of eight bytes, each big-endian *)
Definition words (h : list N) : list N := map (fun i => from_be (take 8 (drop (8 * i) h))) (seq 0 8).
(** 1536-1563 [reset] *)
Definition prng_reset (g : prng) : N * prng :=
  let h := sha512 (g_context g) in
  let ctx := rev (bump (rev (take 32 (g_context g)))) ++ drop 32 (g_context g) in
  let bag := words h in
  (nth 0 bag 0, Prng ctx (0 :: tl bag)).
(** 1521-1529 [next_u64], 1566-1568 [cursor] *)
Definition next_u64 (g : prng) : N * prng :=
  let cursor := nth 0 (g_bag g) 0 in
  if cursor <? 7 then (nth (1 + N.to_nat cursor) (g_bag g) 0, Prng (g_context g) ((cursor + 1) :: tl (g_bag g)))
  else prng_reset g.
(** 1532-1535 [next_ranged] *)
Definition next_ranged (range : N) (g : prng) : N * prng :=
  let (v, g) := next_u64 g in (N.shiftr (range * v) 64, g).

(** 1221-1243 [compute_subset_hash_short] *)
Definition hash_short (subset : list descr) (cc_seqno : N) : N :=
  let h := crc32c_append 0 (to_le 4 0x901660ED) in
  let h := crc32c_append h (to_le 4 cc_seqno) in
  let h := crc32c_append h (to_le 4 (w32 (N.of_nat (length subset)))) in
  fold_left (fun h n =>
    let h := crc32c_append h (d_key n) in
    let h := crc32c_append h (to_le 8 (d_weight n)) in
    crc32c_append h (default (replicate 32 0) (d_adnl n))) subset h.

(** 1204-1209: the loop of [compute_mc_subset] over the indices, which start as zeros *)
Fixpoint shuffle_loop (n i : nat) (indices : list nat) (g : prng) : res (list nat * prng) :=
  match n with
  | O => Ok (indices, g)
  | S n =>
    let (j, g) := next_ranged (N.of_nat i + 1) g in
    let j := N.to_nat j in
    if negb (j <=? i)%nat then Err Panic
    else
      match indices !! j with
      | None => Err Panic
      | Some x => if (i <? length indices)%nat then shuffle_loop n (S i) (<[j := i]> (<[i := x]> indices)) g else Err Panic
      end
  end.
Fixpoint collect {A} (l : list A) (is : list nat) : res (list A) :=
  match is with
  | [] => Ok []
  | i :: is => match l !! i with None => Err Panic | Some x => let? r := collect l is in Ok (x :: r) end
  end.
(** 1183-1218 [compute_mc_subset]; [MASTERCHAIN] is the full shard of workchain -1 *)
Definition mc_subset (v : vset) (cc_seqno : N) (shuffle : bool) : res (list descr * N) :=
  let count := Nat.min (length (vs_list v)) (N.to_nat (vs_main v)) in
  let? s := if negb shuffle then Ok (take count (vs_list v))
    else
      let? (indices, _) := shuffle_loop count 0 (replicate count 0%nat) (prng_new (shard_full (-1)) cc_seqno) in
      collect (vs_list v) (take count indices) in
  Ok (s, hash_short s cc_seqno).

(** 1245-1254 [at_weight] *)
Definition at_weight (v : vset) (p : N) : res descr :=
  if negb (p <? vs_total v) then Err Panic
  else
    let i := partition_point (fun d => d_prev d <=? p) (vs_list v) in
    if (i =? 0)%nat then Err Panic else match vs_list v !! (i - 1)%nat with Some d => Ok d | None => Err Panic end.
(** 1104-1108: the sums of the weights in front *)
Fixpoint renumber (total : N) (l : list descr) : res (list descr * N) :=
  match l with
  | [] => Ok ([], total)
  | d :: l =>
    let? t := add64p total (d_weight d) in
    let? (l, r) := renumber t l in
    Ok (Descr (d_key d) (d_weight d) (d_adnl d) (d_seqno d) total :: l, r)
  end.
(** 1137-1142 *)
Fixpoint skip_holes (p : N) (holes : list (N * N)) : res N :=
  match holes with
  | [] => Ok p
  | (prev, w) :: hs => if p <? prev then Ok p else let? p := add64p p w in skip_holes p hs
  end.
(** the order of pairs *)
Definition pair_le (a b : N * N) : bool := (fst a <? fst b) || (fst a =? fst b) && (snd a <=? snd b).
Definition pair_lt (a b : N * N) : bool := pair_le a b && negb ((fst a =? fst b) && (snd a =? snd b)).
(** 1131-1163: the loop of [compute_subset] *)
Fixpoint subset_loop (n : nat) (v : vset) (total_wt : N) (holes : list (N * N)) (g : prng) : res (list descr) :=
  match n with
  | O => Ok []
  | S n =>
    if negb (0 <? total_wt) then Err Panic
    else
      let (p, g) := next_ranged total_wt g in
      let? p := skip_holes p holes in
      let? e := at_weight v p in
      if negb (d_weight e <=? total_wt) then Err Panic
      else
        let hole := (d_prev e, d_weight e) in
        let i := partition_point (fun x => pair_le x hole) holes in
        if negb ((i =? 0)%nat || match holes !! (i - 1)%nat with Some x => pair_lt x hole | None => false end) then Err Panic
        else
          let? r := subset_loop n v (total_wt - d_weight e) (take i holes ++ hole :: drop i holes) g in
          Ok (Descr (d_key e) 1 (d_adnl e) 0 0 :: r)
  end.
(** 1080-1177 [compute_subset] *)
Definition subset (v : vset) (s : shard) (cc : catchain) (cc_seqno : N) : res (option (list descr * N)) :=
  if is_masterchain s then let? r := mc_subset v cc_seqno (cc_shuffle cc) in Ok (Some r)
  else
    let total := length (vs_list v) in
    let main := N.to_nat (vs_main v) in
    let g := prng_new s cc_seqno in
    if cc_isolate cc && (total <=? main)%nat then Ok None
    else
      let? w := if cc_isolate cc then
          let? (l, t) := renumber 0 (drop main (vs_list v)) in Ok (Vset (vs_since v) (vs_until v) (vs_main v) t l)
        else Ok v in
      let count := Nat.min (length (vs_list w)) (N.to_nat (cc_vals_num cc)) in
      let? nodes := subset_loop count w (vs_total w) [] g in
      Ok (Some (nodes, hash_short nodes cc_seqno)).
End Prng.
