(** * Searching augmented dictionaries by their extras: src/dict/ops/find.rs:337-463,
    src/dict/mod.rs:191-231, src/dict/aug.rs:285-310 *)
From Verif Require Import Err CellModel LabelModel DictModel AugModel.
Local Open Scope nat_scope.

Section Search.
Context {A : Type} (a_load : chunk -> res (A * chunk)).
(** mod.rs:192-201 [SearchByExtra]: the state of the search, the test of leaves and the choice at
    forks ([None] is [ControlFlow::Break]). *)
Context {S : Type} (on_leaf : S -> A -> bool) (on_edge : S -> A -> A -> option bool * S).

(** find.rs:346-377 [Leaf], [Edge], [Next], [prefix], [extra] *)
Inductive node :=
| NLeaf (prefix : list bool) (extra : A) (value : chunk)
| NEdge (prefix : list bool) (key_bit_len : nat) (extra : A) (left right : cell).
Definition node_prefix (x : node) : list bool := match x with NLeaf p _ _ => p | NEdge p _ _ _ _ => p end.
Definition node_extra (x : node) : A := match x with NLeaf _ a _ => a | NEdge _ _ a _ _ => a end.
(** 379-418 [preload_branch] *)
Definition preload_branch (data : cell) (n : nat) : res node :=
  let? s := as_slice data in
  let? (prefix, rest) := read_label n (s_bits s) in
  if n <? length prefix then Err CellUnderflow
  else if n =? length prefix then
    let? (extra, value) := a_load (rest, s_refs s) in
    Ok (NLeaf prefix extra value)
  else
    match s_refs s with
    | lc :: rc :: refs =>
      let? (extra, _) := a_load (rest, refs) in
      Ok (NEdge prefix (n - length prefix - 1) extra lc rc)
    | _ => Err CellUnderflow
    end.
(** 430-461: the loop *)
Fixpoint search_loop (fuel : nat) (flow : S) (next : node) (key : list bool) : res (option (list bool * A * chunk)) :=
  match fuel with
  | O => Err OutOfFuel
  | Datatypes.S fuel =>
    let? key := put (node_prefix next) key in
    match next with
    | NLeaf _ extra value => Ok (if on_leaf flow extra then Some (key, extra, value) else None)
    | NEdge _ n _ lc rc =>
      let? l := preload_branch lc n in
      let? r := preload_branch rc n in
      match on_edge flow (node_extra l) (node_extra r) with
      | (None, _) => Ok None
      | (Some bit, flow) =>
        let? key := put [bit] key in
        search_loop fuel flow (if bit : bool then r else l) key
      end
    end
  end.
(** 337-344, 420-429 [aug_dict_find_by_extra] *)
Definition find_by_extra (dict : option cell) (n : nat) (flow : S) : res (option (list bool * A * chunk)) :=
  match dict with
  | None => Ok None
  | Some data =>
    let? next := preload_branch data n in
    search_loop (Datatypes.S n) flow next []
  end.
End Search.
Arguments node A : clear implicits.

(** mod.rs:215-220: always to one side; 222-231: to the left if the comparison says so. *)
Definition branch_edge {A} (side : bool) (_ _ : A) : option bool * bool := (Some side, side).
Definition order_edge {A} (cmp : A -> A -> comparison) (wanted : comparison) (left right : A) : option bool * comparison :=
  (Some (negb (match wanted, cmp left right with Lt, Lt | Eq, Eq | Gt, Gt => true | _, _ => false end)), wanted).
(** mod.rs:194-197: leaves are accepted by default. *)
Definition any_leaf {A S} (_ : S) (_ : A) : bool := true.
