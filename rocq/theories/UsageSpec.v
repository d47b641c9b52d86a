(** * What a usage tree should contain. *)
From Verif Require Import Err HashModel UsageModel.
Local Open Scope nat_scope.

(** One action of some thread, in any order. *)
Inductive moves : state -> state -> Prop :=
| moves_invoke t o s s' : invoke t o s = Some s' -> moves s s'
| moves_step t s s' : step t s = Some s' -> moves s s'.
Inductive reached (m : mode) : state -> Prop :=
| reached_start k : reached m (start m k)
| reached_move s s' : reached m s -> moves s s' -> reached m s'.
(** No call is in progress. *)
Definition at_rest (s : state) : Prop := Forall (fun p => p = Idle) (pcs s).

(** [loaded s c]: a finished call gave a handle to the tracked cell [c]. *)
Definition loaded (s : state) (c : fcell) : Prop :=
  exists e, In e (log s) /\
    match e with
    | Tracked c' _ => c' = c
    | GotRef _ _ (Some k) => nodes s !! k = Some c
    | _ => False
    end.
(** [read s c]: a finished call read the data of [c]. *)
Definition read (s : state) (c : fcell) : Prop := exists n d, In (GotData n d) (log s) /\ nodes s !! n = Some c.
Definition used (m : mode) : state -> fcell -> Prop := match m with OnLoad => loaded | OnDataAccess => read end.
