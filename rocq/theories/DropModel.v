(** * Releasing cells: src/cell/cell_impl/mod.rs:215-388

    Cells live on a heap; a handle is the number of a cell.  A cell has its strong count,
    whether weak handles to it exist, its slots for references (as many as the descriptor
    says) and the flag [without_first].  Cells without references (other kinds of leaves
    too) have no slots.  Nobody else changes handles during the release (one thread).
    [released] lists the cells whose strong count has reached 0, in order.

    Dropping a handle is a call that can be nested: [depth] is the number of nested
    destructors that the stack allows, [TooDeep] is the overflow. *)
From stdpp Require Export gmap.
From Verif Require Import Err.
Local Open Scope nat_scope.

Record node := mkNode { strong : nat; weak : bool; slots : list nat; without_first : bool }.
Notation heap := (gmap nat node).
Inductive drop_err := Dangling | TooDeep | NoFuel.
Inductive dres (A : Type) := Fine (a : A) | Fail (e : drop_err).
Arguments Fine {A}. Arguments Fail {A}.
Definition dbind {A B} (a : dres A) (f : A -> dres B) : dres B := match a with Fine x => f x | Fail e => Fail e end.
Notation "'do' x := a 'in' b" := (dbind a (fun x => b)) (at level 200, x name, a at level 100, b at level 200).
Definition st : Type := heap * list nat.
Definition get (s : st) (x : nat) : dres node := match fst s !! x with Some nd => Fine nd | None => Fail Dangling end.
Definition put (s : st) (x : nat) (nd : node) : st := (<[x := nd]> (fst s), snd s).

(** sync.rs:149-154 [try_as_mut], [Arc::get_mut]: one strong handle and no weak one *)
Definition unique (nd : node) : bool := (strong nd =? 1) && negb (weak nd).
(** 257-265 [take_first_child] *)
Definition take_first_child (nd : node) : option (nat * node) :=
  match slots nd, without_first nd with
  | c :: _, false => Some (c, mkNode (strong nd) (weak nd) (slots nd) true)
  | _, _ => None
  end.
(** 267-278 [replace_first_child_with_parent] *)
Definition replace_first_child (nd : node) (parent : nat) : option (nat * node) :=
  match slots nd, without_first nd with
  | c :: cs, false => Some (c, mkNode (strong nd) (weak nd) (parent :: cs) false)
  | _, _ => None
  end.
(** 280-289 [take_next_child]: the last one, down to the second *)
Definition take_next_child (nd : node) : option (nat * node) :=
  match slots nd with
  | c :: c' :: cs => Some (List.last (c' :: cs) 0, mkNode (strong nd) (weak nd) (c :: removelast (c' :: cs)) (without_first nd))
  | _ => None
  end.

Section Inner.
(** [drop] of a handle inside the destructor; fuel for the loops. *)
Context (drop : nat -> st -> dres st) (fuel : nat).

(** 297-316 [take_ancestor_next_child]; [ancestor] is dropped at the end unless it is returned. *)
Fixpoint take_ancestor_next_child (f : nat) (ancestor : nat) (s : st) : dres (option (nat * nat) * st) :=
  match f with
  | O => Fail NoFuel
  | S f' =>
    do nd := get s ancestor in
    if unique nd then
      match take_next_child nd with
      | Some (next, nd') => Fine (Some (ancestor, next), put s ancestor nd')
      | None =>
        match take_first_child nd with
        | Some (grand, nd') => do s1 := drop ancestor (put s ancestor nd') in take_ancestor_next_child f' grand s1
        | None => do s1 := drop ancestor s in Fine (None, s1)
        end
      end
    else do s1 := drop ancestor s in Fine (None, s1)
  end.
(** 329-356: the loop of [main_deep_safe_drop]; an old [current] that was not moved out is
    dropped when a new one is assigned, or at the end. *)
Fixpoint main_loop (f : nat) (parent current : nat) (s : st) : dres st :=
  match f with
  | O => Fail NoFuel
  | S f' =>
    do nd := get s current in
    if unique nd then
      match replace_first_child nd parent with
      | Some (first, nd') => main_loop f' current first (put s current nd')
      | None =>
        do s1 := drop current s in
        do r := take_ancestor_next_child fuel parent s1 in
        match r with
        | (Some (ancestor, child), s2) => main_loop f' ancestor child s2
        | (None, s2) => Fine s2
        end
      end
    else
      do r := take_ancestor_next_child fuel parent s in
      match r with
      | (Some (ancestor, child), s2) => do s3 := drop current s2 in main_loop f' ancestor child s3
      | (None, s2) => drop current s2
      end
  end.
(** 318-327 [main_deep_safe_drop] *)
Definition main_deep_safe_drop (parent : nat) (s : st) : dres st :=
  do nd := get s parent in
  match (if unique nd then take_first_child nd else None) with
  | Some (first, nd') => main_loop fuel parent first (put s parent nd')
  | None => drop parent s
  end.
(** 359-371 [deep_drop_impl]: the [while] loop runs at most three times. *)
Fixpoint drop_next (k : nat) (x : nat) (s : st) : dres st :=
  match k with
  | O => Fine s
  | S k' =>
    do nd := get s x in
    match take_next_child nd with
    | Some (next, nd') => do s1 := main_deep_safe_drop next (put s x nd') in drop_next k' x s1
    | None => Fine s
    end
  end.
Definition deep_drop_impl (x : nat) (s : st) : dres st :=
  do nd := get s x in
  if unique nd then
    match take_first_child nd with
    | Some (first, nd') => do s1 := main_deep_safe_drop first (put s x nd') in drop_next (length (slots nd)) x s1
    | None => Fine s
    end
  else Fine s.
(** 376-387: the references of a cell that is being destroyed *)
Fixpoint drop_fields (l : list nat) (s : st) : dres st :=
  match l with
  | [] => Fine s
  | x :: l' => do s1 := deep_drop_impl x s in do s2 := drop x s1 in drop_fields l' s2
  end.
Definition owned (nd : node) : list nat := if without_first nd then tail (slots nd) else slots nd.
End Inner.

(** Dropping a handle: [Arc] decreases the strong count and runs the destructor when it
    reaches 0. *)
Fixpoint drop_handle (depth fuel : nat) (x : nat) (s : st) : dres st :=
  do nd := get s x in
  if strong nd =? 1 then
    match depth with
    | O => Fail TooDeep
    | S d => drop_fields (drop_handle d fuel) fuel (owned nd) (delete x (fst s), snd s ++ [x])
    end
  else Fine (put s x (mkNode (strong nd - 1) (weak nd) (slots nd) (without_first nd))).

(** Enough for every loop. *)
Definition slot_count (h : heap) : nat := list_sum (map (fun p => length (slots (snd p))) (map_to_list h)).
(** The whole release; two nested destructors. *)
Definition release (x : nat) (h : heap) : dres st := drop_handle 2 (S (S (slot_count h))) x (h, []).
