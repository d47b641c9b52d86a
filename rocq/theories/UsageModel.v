(** * Usage trees: src/cell/usage_tree.rs, the thread-safe version (303-437).

    Any number of threads use the same tracked cells.  A tracked cell ([UsageCell], 362-370)
    is a number; [nodes] has the cell it wraps, [slots] the state of [reference_states] and
    [reference_data] (a missing entry is a fresh [Once]), [inserted] the flags that were set.
    While a [Once] runs, only the thread that runs it can reach the data of the slot, so the
    data appears in [slots] when the [Once] completes.  Each step is one access to something
    that threads share; atomics, the concurrent set ([scc::HashSet]) and [Once] are
    linearizable.  The tree lives as long as it is observed, so [Weak::upgrade] succeeds.
    Wrapped cells are ordinary cells, not tracked by another tree. *)
From stdpp Require Export gmap.
From Verif Require Import Err HashModel.
Local Open Scope nat_scope.

(** 10-15 [UsageTreeMode] *)
Inductive mode := OnLoad | OnDataAccess.
Inductive slot := Running | Done (child : option nat).
(** The calls: [UsageTree::track], [data] and [reference]/[reference_cloned] of tracked cells. *)
Inductive op := Track (c : fcell) | Data (n : nat) | Ref (n i : nat).
Inductive event := Tracked (c : fcell) (n : nat) | GotData (n : nat) (d : list N) | GotRef (n i : nat) (r : option nat).
Inductive pc :=
| Idle
| Track0 (c : fcell)            (* 40-42: before the insertion *)
| Track1 (c : fcell)            (* 43 *)
| Data0 (n : nat)               (* 122: before [should_insert] *)
| Data1 (n : nat)               (* 124: before the insertion *)
| Data2 (n : nat)               (* 126: before [set_inserted] *)
| Data3 (n : nat)               (* 128 *)
| Ref0 (n i : nat)              (* 401-403: before [call_once_force] *)
| Ref1 (n i : nat)              (* 404: inside the closure *)
| Ref2 (n i : nat) (child : option nat) (should_insert : bool)  (* 417: the closure is done, the [Once] is not *)
| Ref3 (n i : nat) (child : option nat) (should_insert : bool)  (* 423 *)
| Ref4 (n i : nat) (child : option nat).                        (* 431 *)
Record state := mkS { tmode : mode; nodes : list fcell; slots : gmap (nat * nat) slot; inserted : gset nat; visited : gset (list N);
                      pcs : list pc; log : list event }.
(** 322-327 [UsageTreeState::new], with [k] threads *)
Definition start (m : mode) (k : nat) : state := mkS m [] ∅ ∅ ∅ (replicate k Idle) [].

(** [repr_hash]; it never fails for cells that the crate made (C13). *)
Definition hash_of (c : fcell) : list N := match f_repr_hash c with Ok h => h | Err _ => [] end.
(** 392-394 [should_insert]; 380: the flag starts set in the mode [OnLoad] *)
Definition should_insert (s : state) (n : nat) : bool :=
  match tmode s with OnLoad => false | OnDataAccess => bool_decide (n ∉ inserted s) end.

(** Thread [t] starts a call.  It can use any tracked cell that exists. *)
Definition invoke (t : nat) (o : op) (s : state) : option state :=
  match pcs s !! t with
  | Some Idle =>
    let go p := Some (mkS (tmode s) (nodes s) (slots s) (inserted s) (visited s) (<[t := p]> (pcs s)) (log s)) in
    match o with
    | Track c => go (match tmode s with OnLoad => Track0 c | OnDataAccess => Track1 c end)  (* 40 *)
    | Data n => if n <? length (nodes s) then go (Data0 n) else None
    | Ref n i => if n <? length (nodes s) then go (Ref0 n i) else None
    end
  | _ => None
  end.
(** The next action of thread [t]. *)
Definition step (t : nat) (s : state) : option state :=
  match pcs s !! t with
  | None => None
  | Some p =>
    let go p' := mkS (tmode s) (nodes s) (slots s) (inserted s) (visited s) (<[t := p']> (pcs s)) (log s) in
    let insert c s' := mkS (tmode s') (nodes s') (slots s') (inserted s') ({[hash_of c]} ∪ visited s') (pcs s') (log s') in
    let return_ e := mkS (tmode s) (nodes s) (slots s) (inserted s) (visited s) (<[t := Idle]> (pcs s)) (log s ++ [e]) in
    match p with
    | Idle => None
    | Track0 c => Some (insert c (go (Track1 c)))
    | Track1 c => let n := length (nodes s) in                                                  (* 336-340 [wrap] *)
        Some (mkS (tmode s) (nodes s ++ [c]) (slots s) (inserted s) (visited s) (<[t := Idle]> (pcs s)) (log s ++ [Tracked c n]))
    | Data0 n => Some (go (if should_insert s n then Data1 n else Data3 n))
    | Data1 n => match nodes s !! n with Some c => Some (insert c (go (Data2 n))) | None => None end
    | Data2 n => Some (mkS (tmode s) (nodes s) (slots s) ({[n]} ∪ inserted s) (visited s) (<[t := Data3 n]> (pcs s)) (log s))
    | Data3 n => match nodes s !! n with Some c => Some (return_ (GotData n (f_data c))) | None => None end
    | Ref0 n i =>
      if i <? 4 then
        match slots s !! (n, i) with
        | None => Some (mkS (tmode s) (nodes s) (<[(n, i) := Running]> (slots s)) (inserted s) (visited s) (<[t := Ref1 n i]> (pcs s)) (log s))
        | Some Running => None
        | Some (Done ch) => Some (go (Ref3 n i ch false))
        end
      else Some (go (Ref4 n i None))                                                            (* 433 *)
    | Ref1 n i =>
      match nodes s !! n with
      | None => None
      | Some c =>
        match f_refs c !! i with
        | None => Some (go (Ref2 n i None false))                                               (* 404-407 *)
        | Some ch => let k := length (nodes s) in                                               (* 409-418 *)
            Some (mkS (tmode s) (nodes s ++ [ch]) (slots s) (inserted s) (visited s)
                      (<[t := Ref2 n i (Some k) (match tmode s with OnLoad => true | OnDataAccess => false end)]> (pcs s)) (log s))
        end
      end
    | Ref2 n i ch sh => Some (mkS (tmode s) (nodes s) (<[(n, i) := Done ch]> (slots s)) (inserted s) (visited s) (<[t := Ref3 n i ch sh]> (pcs s)) (log s))
    | Ref3 n i ch sh =>
      match sh, ch ≫= (nodes s !!.) with                                                        (* 423-429 *)
      | true, Some c => Some (insert c (go (Ref4 n i ch)))
      | _, _ => Some (go (Ref4 n i ch))
      end
    | Ref4 n i ch => Some (return_ (GotRef n i ch))
    end
  end.
