(** * Promises: src/merkle/promise.rs

    A promise is a mutex around an optional value and a condition variable, shared by all
    its clones ([Arc], 3-7).  Any number of threads call [set] and [wait_cloned] on it; a
    thread runs a list of calls.  Each step below is one atomic action of one thread; the
    mutex makes the accesses to the value sequentially consistent.  Threads do not panic
    while they hold the lock, so it is never poisoned, and [clone] returns an equal value.
    The condition variable follows the documentation of [std::sync::Condvar]: [wait] gives
    the lock back and sleeps in one action, [notify_all] wakes every sleeping thread, and a
    thread may wake up for no reason. *)
From Verif Require Import Err.
Local Open Scope nat_scope.

Section Value.
Context {T : Type}.

Inductive call := Set_ (v : T) | Wait.
(** Where a thread is inside a call. *)
Inductive pc :=
| Idle
| SetLocked (v : T)     (* 26: before the assignment *)
| SetStored             (* 27: before [notify_all] *)
| SetNotified           (* 28: before the guard is dropped *)
| Check                 (* 37: holds the lock, looks at the value *)
| Asleep                (* 38: inside [Condvar::wait] *)
| Woken                 (* 38: woken up, needs the lock again *)
| Cloned (v : T).       (* 39: before the guard is dropped *)
(** A call is published at line 26 and returned at the end of [wait_cloned]. *)
Inductive event := Published (v : T) | Returned (i : nat) (v : T).
Record thread := mkT { t_pc : pc; t_todo : list call }.
Record state := mkS { lock : option nat; slot : option T; threads : list thread; log : list event }.

(** 17-21 [new] and the threads that hold clones of the promise. *)
Definition start (programs : list (list call)) : state := mkS None None (map (mkT Idle) programs) [].

Definition wake (t : thread) : thread := match t_pc t with Asleep => mkT Woken (t_todo t) | _ => t end.

(** The next action of thread [i]; [None] if it has to wait or has finished. *)
Definition step (i : nat) (s : state) : option state :=
  match threads s !! i with
  | None => None
  | Some (mkT p todo) =>
    let put p' todo' := <[i := mkT p' todo']> (threads s) in
    match p with
    | Idle =>
      match todo, lock s with
      | Set_ v :: todo', None => Some (mkS (Some i) (slot s) (put (SetLocked v) todo') (log s))  (* 24-25 *)
      | Wait :: todo', None => Some (mkS (Some i) (slot s) (put Check todo') (log s))            (* 34-35 *)
      | _, _ => None
      end
    | SetLocked v => Some (mkS (lock s) (Some v) (put SetStored todo) (log s ++ [Published v]))  (* 26 *)
    | SetStored => Some (mkS (lock s) (slot s) (map wake (put SetNotified todo)) (log s))        (* 27 *)
    | SetNotified => Some (mkS None (slot s) (put Idle todo) (log s))                            (* 28 *)
    | Check =>
      match slot s with
      | None => Some (mkS None None (put Asleep todo) (log s))                                   (* 38 *)
      | Some v => Some (mkS (lock s) (Some v) (put (Cloned v) todo) (log s))                     (* 39 *)
      end
    | Asleep => None
    | Woken => match lock s with None => Some (mkS (Some i) (slot s) (put Check todo) (log s)) | Some _ => None end  (* 38 *)
    | Cloned v => Some (mkS None (slot s) (put Idle todo) (log s ++ [Returned i v]))             (* 39-42 *)
    end
  end.
(** A thread that wakes up without a notification. *)
Definition spurious (i : nat) (s : state) : option state :=
  match threads s !! i with
  | Some (mkT Asleep todo) => Some (mkS (lock s) (slot s) (<[i := mkT Woken todo]> (threads s)) (log s))
  | _ => None
  end.

Definition finished (t : thread) : Prop := t_pc t = Idle /\ t_todo t = [].
End Value.
Arguments call : clear implicits.
Arguments event : clear implicits.
Arguments thread : clear implicits.
Arguments state : clear implicits.
