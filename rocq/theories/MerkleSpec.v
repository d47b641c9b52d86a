(** * What pruned branches and Merkle proofs are, on plain trees.

    Only the type [action] (the answers of a filter) is taken from the model. *)
From Verif Require Import Err CellModel HashSpec MerkleModel.
Local Open Scope nat_scope.

(** 1 for cells below which the levels are shifted (Merkle proofs and updates). *)
Definition c_merkle (c : cell) : nat := k_merkle (kind_of (c_exotic c) (c_bits c)).

(** Two trees that cannot be told apart below Merkle depth [d]: the same mask bits below [d],
    the same hashes and depths at the levels up to [d]. *)
Definition same_upto (d : nat) (i j : info) : Prop :=
  (forall n, n < d -> N.testbit (i_mask i) (N.of_nat n) = N.testbit (i_mask j) (N.of_nat n)) /\
  (forall l, l <= d -> i_hash i l = i_hash j l /\ i_depth i l = i_depth j l).

(** [occurs d x c]: [x] is a proper descendant of [c] with [d] Merkle cells above it,
    counted from [c] on. *)
Inductive occurs : nat -> cell -> cell -> Prop :=
| occurs_child x c : In x (c_refs c) -> occurs (c_merkle c) x c
| occurs_deep d x y c : In y (c_refs c) -> occurs d x y -> occurs (c_merkle c + d) x c.

Section Sha.
Context (sha : list N -> list N).

(** ** Pruned branches
    The levels up to [d] that have their own hash, and the cell that stores them. *)
Definition own_levels (m : N) (d : nat) : list nat :=
  filter (fun l => l = 0 \/ N.testbit m (N.of_nat (l - 1)) = true) (seq 0 (S d)).
Definition pruned_tree (d : nat) (c : cell) : cell :=
  let i := info_of sha c in
  let levels := own_levels (i_mask i) d in
  Cell true (bytes_bits ([1; N.lor (i_mask i) (2 ^ N.of_nat d)]%N ++ concat (map (i_hash i) levels)
                         ++ concat (map (fun l => to_be 2 (i_depth i l)) levels))) [].
(** A cell can be pruned at depth [d] if it has no level above [d + 1]. *)
Definition prunable (d : nat) (c : cell) : Prop := d <= 2 /\ (i_mask (info_of sha c) < 2 ^ N.of_nat (S d))%N.

(** ** Proof trees *)
Section Filter.
Context (check : list N -> action) (big : bool).

(** What happens to a cell below the root: cells the filter skips are cut, unless a pruned
    branch would not save anything. *)
Inductive treatment := Cut | Keep | Whole.
Definition treat (c : cell) : treatment :=
  match check (t_hash sha c) with
  | IncludeSubtree => Whole
  | Include => Keep
  | Skip => match c_refs c with
            | [] => if big && (288 <? length (c_bits c)) then Cut else Keep
            | _ => Cut
            end
  end.
(** A kept cell; [d] is the Merkle depth of its children. *)
Fixpoint keep (d : nat) (c : cell) : cell :=
  let '(Cell e bits refs) := c in
  Cell e bits (map (fun x => match treat x with
                             | Whole => x
                             | Cut => pruned_tree d x
                             | Keep => keep (d + c_merkle x) x
                             end) refs).
Definition proof_tree (c : cell) : cell := keep (c_merkle c) c.
(** [visible d x c]: [x] is reached from [c] through kept cells only, with [d] Merkle cells above it. *)
Inductive visible : nat -> cell -> cell -> Prop :=
| visible_child x c : In x (c_refs c) -> visible (c_merkle c) x c
| visible_deep d x y c : In y (c_refs c) -> treat y = Keep -> visible d x y -> visible (c_merkle c + d) x c.
(** Every cut can be made: the cells that are cut have no level above the one of their depth. *)
Definition cuts_ok (b : nat) (c : cell) : Prop := forall d x, visible d x c -> treat x = Cut -> prunable (b + d) x.
(** The hashes of the cells that are cut. *)
Fixpoint cuts (c : cell) : list (list N) :=
  let '(Cell _ _ refs) := c in
  concat (map (fun x => match treat x with Whole => [] | Cut => [t_hash sha x] | Keep => cuts x end) refs).
End Filter.

(** ** What a proof shows of a tree
    A tree that is the other one with some subtrees replaced by pruned branches that have the
    hash and the depth of what they replace. *)
Inductive shows : cell -> cell -> Prop :=
| shows_cut m e bits refs t : kind_of e bits = KPruned m ->
    i_hash (info_of sha (Cell e bits refs)) 0 = t_hash sha t -> i_depth (info_of sha (Cell e bits refs)) 0 = t_depth sha t ->
    shows (Cell e bits refs) t
| shows_cell e bits qs ts : Forall2 shows qs ts -> shows (Cell e bits qs) (Cell e bits ts).

(** ** Hypotheses *)
(** No two different strings hashed for the tree have the same hash. *)
Definition no_collision (c : cell) : Prop :=
  forall x y, In x (hashed sha c) -> In y (hashed sha c) -> sha x = sha y -> x = y.
End Sha.
(** No cell with references occurs at two Merkle depths. *)
Definition one_depth (c : cell) : Prop :=
  forall d d' x, occurs d x c -> occurs d' x c -> c_refs x <> [] -> d = d'.
(** No Merkle cells at all. *)
Inductive merkle_free : cell -> Prop :=
| merkle_free_cell c : c_merkle c = 0 -> Forall merkle_free (c_refs c) -> merkle_free c.

(** The cell at the end of a path of reference indices. *)
Fixpoint at_path (c : cell) (path : list nat) : option cell :=
  match path with
  | [] => Some c
  | i :: path' => match c_refs c !! i with Some x => at_path x path' | None => None end
  end.
