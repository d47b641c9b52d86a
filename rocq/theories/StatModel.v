(** * Storage statistics: src/cell/mod.rs:1607-1718 [StorageStat]

    The set of visited hashes is a finite set; the stack of iterators over references
    holds the references that are left.  Counters are [u64]: an addition out of range is
    [Panic] (it wraps around in release builds). *)
From stdpp Require Export gmap.
From Verif Require Import Err HashModel.
Local Open Scope N_scope.

(** 1609-1614 [StorageStat] *)
Record stat := mkStat { visited : gset (list N); stack : list (list fcell); bit_count : N; cell_count : N; limit : N }.
(** 1648-1656 [with_limit] *)
Definition with_limit (l : N) : stat := mkStat ∅ [] 0 0 l.
(** 1658-1661 [unlimited]: [usize::MAX] *)
Definition unlimited : stat := with_limit (2 ^ 64 - 1).
Definition add64 (a b : N) : res N := if a + b <? 2 ^ 64 then Ok (a + b) else Err Panic.

(** 1694-1718 [reduce_stack]: the answer and the state.  Every round of the [while] or of
    the [for] loop uses one unit of fuel. *)
Fixpoint reduce_stack (fuel : nat) (s : stat) : res (bool * stat) :=
  match fuel with
  | O => Err OutOfFuel
  | S f =>
    match stack s with
    | [] => Ok (true, s)
    | [] :: st => reduce_stack f (mkStat (visited s) st (bit_count s) (cell_count s) (limit s))
    | (c :: item) :: st =>
      let? h := f_repr_hash c in
      if decide (h ∈ visited s) then reduce_stack f (mkStat (visited s) (item :: st) (bit_count s) (cell_count s) (limit s))
      else
        let v := {[h]} ∪ visited s in
        if limit s <=? cell_count s then Ok (false, mkStat v (item :: st) (bit_count s) (cell_count s) (limit s))
        else
          let? b := add64 (bit_count s) (f_bit_len c) in
          let? n := add64 (cell_count s) 1 in
          let next := f_refs c in
          reduce_stack f (mkStat v (if (0 <? length next)%nat then next :: item :: st else item :: st) b n (limit s))
    end
  end.

(** Enough fuel for a stack. *)
Fixpoint tree_size (c : fcell) : nat := let '(FCell _ _ _ _ refs _) := c in S (S (list_sum (map tree_size refs))).
Definition stack_size (st : list (list fcell)) : nat := list_sum (map (fun it => S (list_sum (map tree_size it))) st).
Definition reduce (s : stat) : res (bool * stat) := reduce_stack (S (stack_size (stack s))) s.

(** 1670-1682 [add_cell] *)
Definition add_cell (c : fcell) (s : stat) : res (bool * stat) :=
  let? h := f_repr_hash c in
  if decide (h ∈ visited s) then Ok (true, s)
  else
    let? b := add64 (bit_count s) (f_bit_len c) in
    let? n := add64 (cell_count s) 1 in
    reduce (mkStat ({[h]} ∪ visited s) [f_refs c] b n (limit s)).
(** 1687-1692 [add_slice]: a slice is given by its [size_bits] and its remaining references. *)
Definition add_slice (size_bits : N) (refs : list fcell) (s : stat) : res (bool * stat) :=
  let? b := add64 (bit_count s) size_bits in
  reduce (mkStat (visited s) [refs] b (cell_count s) (limit s)).

(** 1623-1633 [compute_for_slice], 1638-1645 [compute_for_cell]: bits and cells *)
Definition compute_for_slice (size_bits : N) (refs : list fcell) (l : N) : res (option (N * N)) :=
  let? p := add_slice size_bits refs (with_limit l) in let '(ok, s) := p in
  Ok (if ok then Some (bit_count s, cell_count s) else None).
Definition compute_for_cell (c : fcell) (l : N) : res (option (N * N)) :=
  let? p := add_cell c (with_limit l) in let '(ok, s) := p in
  Ok (if ok then Some (bit_count s, cell_count s) else None).

(** A sequence of calls; it stops at the first one that answers [false]. *)
Inductive stat_op := AddCell (c : fcell) | AddSlice (size_bits : N) (refs : list fcell).
Definition stat_step (o : stat_op) (s : stat) : res (bool * stat) :=
  match o with AddCell c => add_cell c s | AddSlice n refs => add_slice n refs s end.
Fixpoint stat_run (ops : list stat_op) (s : stat) : res (bool * stat) :=
  match ops with
  | [] => Ok (true, s)
  | o :: ops' => let? p := stat_step o s in let '(ok, s') := p in if ok then stat_run ops' s' else Ok (false, s')
  end.
