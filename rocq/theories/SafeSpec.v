(** * Orderly results: a value or one of the errors of the library, never a panic, a memory
    error or an exhausted loop bound of the model. *)
From Verif Require Import Err.

Definition orderly {A} (r : res A) : Prop :=
  match r with Err Panic | Err UB | Err OutOfFuel => False | _ => True end.
