(** * What building and changing in bulk is compared with. *)
From Verif Require Import Err CellModel DictModel DictSpec TypedModel TypedSpec.
Local Open Scope nat_scope.

(** Keys are compared as their bits are. *)
Definition bit_order {K} (kd : key_kind K) (ok : K -> Prop) (cmp : K -> K -> comparison) : Prop :=
  forall k k' b b', ok k -> ok k' -> k_store kd k = Ok b -> k_store kd k' = Ok b' -> cmp k k' = (key_num false b ?= key_num false b')%Z.

Section Bulk.
Context {K V : Type} (E : EqDecision K) (kd : key_kind K).
Context (enc : V -> chunk) (load : chunk -> res (V * chunk)) (fin : list bool -> list cell -> res unit).
(** The value listed for [k], the first if there are several. *)
Fixpoint listed (l : list (K * V)) (k : K) : option V :=
  match l with
  | [] => None
  | (k', v) :: l => if decide (k = k') then Some v else listed l k
  end.
(** The function after the changes. *)
Fixpoint changed (f : K -> option V) (l : list (K * option V)) : K -> option V :=
  match l with
  | [] => f
  | (k, o) :: l => changed (updated E f k o) l
  end.
(** The changes one by one, by [set] and [remove]. *)
Fixpoint one_by_one (d : option cell) (l : list (K * option V)) : res (option cell) :=
  match l with
  | [] => Ok d
  | (k, Some v) :: l => let? (_, d) := typed_set kd enc fin d k v in one_by_one d l
  | (k, None) :: l => let? (_, d) := typed_remove kd load fin d k in one_by_one d l
  end.
End Bulk.
