(** * What releasing a handle should do. *)
From stdpp Require Export gmap.
From Verif Require Import Err DropModel.
Local Open Scope nat_scope.

(** The number of references to [x] inside the heap. *)
Definition refs_to (h : heap) (x : nat) : nat := list_sum (map (fun p => count_occ Nat.eq_dec (slots (snd p)) x) (map_to_list h)).
(** A heap as users see it, with [ext x] handles to the cell [x] outside of it: strong counts
    are exact, references lead to cells, no cell reaches itself. *)
Record good_heap (h : heap) (ext : nat -> nat) : Prop := {
  gh_count : forall x nd, h !! x = Some nd -> strong nd = ext x + refs_to h x /\ 0 < strong nd;
  gh_refs : forall x nd y, h !! x = Some nd -> In y (slots nd) -> is_Some (h !! y);
  gh_ext : forall x, 0 < ext x -> is_Some (h !! x);
  gh_plain : forall x nd, h !! x = Some nd -> without_first nd = false;
  gh_acyclic : exists rank : nat -> nat, forall x nd y, h !! x = Some nd -> In y (slots nd) -> rank y < rank x
}.
Definition no_weak (h : heap) : Prop := forall x nd, h !! x = Some nd -> weak nd = false.

(** Cells that a handle outside of the heap can reach. *)
Inductive reachable (h : heap) (ext : nat -> nat) : nat -> Prop :=
| reachable_handle x : 0 < ext x -> reachable h ext x
| reachable_ref x nd y : reachable h ext x -> h !! x = Some nd -> In y (slots nd) -> reachable h ext y.
(** One handle to [x] less. *)
Definition without (x : nat) (ext : nat -> nat) : nat -> nat := fun y => if y =? x then ext y - 1 else ext y.
