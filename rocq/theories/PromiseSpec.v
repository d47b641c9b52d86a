(** * Executions of threads that share a promise. *)
From Verif Require Import Err PromiseModel.
Local Open Scope nat_scope.

Section Value.
Context {T : Type}.

(** One action of some thread, in any order. *)
Inductive moves : state T -> state T -> Prop :=
| moves_step i s s' : step i s = Some s' -> moves s s'
| moves_spurious i s s' : spurious i s = Some s' -> moves s s'.
(** Executions, with their number of actions. *)
Inductive execution : nat -> state T -> state T -> Prop :=
| execution_nil s : execution 0 s s
| execution_cons n s s' s'' : moves s s' -> execution n s' s'' -> execution (S n) s s''.
Definition reached (s : state T) : Prop := exists programs n, execution n (start programs) s.

(** The last value that the events publish. *)
Fixpoint last_published (l : list (event T)) : option T :=
  match l with
  | [] => None
  | e :: l' => match last_published l' with Some v => Some v | None => match e with Published v => Some v | Returned _ _ => None end end
  end.
(** No thread can do anything, except by a wake-up without notification. *)
Definition quiet (s : state T) : Prop := forall i, step i s = None.
End Value.
