(** * Capabilities: src/models/global_version.rs

    A capability is its bit offset (the number of its mask [1 << offset]); a set of capabilities
    is the 64-bit number that it wraps. *)
From Coq Require Import String.
From Verif Require Import Err.
Local Open Scope N_scope.

(** 50-240 [GlobalCapability]: names and offsets *)
Definition cap_table : list (string * N) := [
  ("CapIhrEnabled", 0); ("CapCreateStatsEnabled", 1); ("CapBounceMsgBody", 2); ("CapReportVersion", 3); ("CapSplitMergeTransactions", 4);
  ("CapShortDequeue", 5); ("CapMbppEnabled", 6); ("CapFastStorageStat", 7); ("CapInitCodeHash", 8); ("CapOffHypercube", 9); ("CapMyCode", 10);
  ("CapSetLibCode", 11); ("CapFixTupleIndexBug", 12); ("CapRemp", 13); ("CapDelections", 14); ("CapFullBodyInBounced", 16); ("CapStorageFeeToTvm", 17);
  ("CapCopyleft", 18); ("CapIndexAccounts", 19); ("CapDiff", 20); ("CapsTvmBugfixes2022", 21); ("CapWorkchains", 22); ("CapStcontNewFormat", 23);
  ("CapFastStorageStatBugfix", 24); ("CapResolveMerkleCell", 25); ("CapSignatureWithId", 26); ("CapBounceAfterFailedAction", 27); ("CapGroth16", 28);
  ("CapFeeInGasUnits", 29); ("CapBigCells", 30); ("CapSuspendedList", 31); ("CapFastFinality", 32)]%string.
(** 19-26 [from_bit_offset] *)
Definition from_bit_offset (o : N) : option N := if existsb (fun p => snd p =? o) cap_table then Some o else None.
(** 29-34 [fmt] of Display *)
Definition cap_name (c : N) : option string := option_map fst (find (fun p => snd p =? c) cap_table).
(** 36-45 [from_str]; [None] is UnknownCapability *)
Definition cap_from_str (s : string) : option N := option_map snd (find (fun p => String.eqb (fst p) s) cap_table).
(** 14-17: the value of a capability as a number *)
Definition cap_mask (c : N) : N := N.shiftl 1 c.

(** 64-bit complement *)
Definition not64 (x : N) : N := 2 ^ 64 - 1 - x.
(** [u64::count_ones], [u64::trailing_zeros] *)
Fixpoint ones_pos (p : positive) : N := match p with xH => 1 | xO p => ones_pos p | xI p => N.succ (ones_pos p) end.
Definition count_ones (x : N) : N := match x with 0 => 0 | Npos p => ones_pos p end.
Fixpoint zeros_pos (p : positive) : N := match p with xO p => N.succ (zeros_pos p) | _ => 0 end.
Definition trailing_zeros (x : N) : N := match x with 0 => 64 | Npos p => zeros_pos p end.

(** 304-331 [is_empty], [len], [contains]; 242-300 the operators [|] *)
Definition caps_is_empty (x : N) : bool := x =? 0.
Definition caps_len (x : N) : N := count_ones x.
Definition caps_contains (x c : N) : bool := negb (N.land x (cap_mask c) =? 0).
Definition caps_insert (x c : N) : N := N.lor x (cap_mask c).
(** 371-390 [from_iter], [from] an array *)
Definition caps_from_iter (l : list N) : N := fold_left caps_insert l 0.
(** 453-470 [GlobalCapabilitiesIter::next]; the loop ends, each turn clears a bit: at most 64 turns *)
Fixpoint caps_loop (fuel : nat) (x : N) : option N * N :=
  match fuel with
  | O => (None, x)
  | S fuel =>
    if x =? 0 then (None, x)
    else let mask := N.land x (not64 (x - 1)) in
      let x := N.land x (not64 mask) in
      match from_bit_offset (trailing_zeros mask) with
      | Some c => (Some c, x)
      | None => caps_loop fuel x
      end
  end.
Definition caps_next (x : N) : option N * N := caps_loop 64 x.
(** 472-475 [size_hint] *)
Definition caps_hint (x : N) : N * N := (count_ones x, count_ones x).
