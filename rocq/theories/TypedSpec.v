(** * What a typed dictionary is: a partial function from keys to values. *)
From Verif Require Import Err IntModel NumModel AddrModel AddrSpec CellModel DictModel DictSpec DictProps TypedModel.
Local Open Scope nat_scope.

(** [kd] is the key type whose values are [ok]: each has its own bits, as many as said, and a buffer
    is read as a key exactly if it starts with the bits of this key. *)
Definition good_key {K} (kd : key_kind K) (ok : K -> Prop) : Prop :=
  k_bits kd <= 1023 /\
  (forall k, ok k -> exists b, k_store kd k = Ok b /\ length b = k_bits kd) /\
  (forall data k, length data = 128 -> Forall byte_ok data ->
    (k_load kd data = Some k <-> ok k /\ k_store kd k = Ok (take (k_bits kd) (bytes_bits data)))).
(** The keys of number types are ordered as these numbers. *)
Definition number_key {K} (kd : key_kind K) (ok : K -> Prop) (signed : bool) (num : K -> Z) : Prop :=
  forall k b, ok k -> k_store kd k = Ok b -> key_num signed b = num k.

Section Map.
Context {K V : Type} (E : EqDecision K) (kd : key_kind K) (ok : K -> Prop).
Context (enc : V -> chunk) (load : chunk -> res (V * chunk)) (fin : list bool -> list cell -> res unit).
(** The values that are loaded from what they store. *)
Definition value_ok (v : V) : Prop := exists rest, load (enc v) = Ok (v, rest).

Definition known (f : K -> option V) (k : K) : bool := match f k with Some _ => true | None => false end.
Definition updated (f : K -> option V) (k : K) (o : option V) : K -> option V := fun k' => if decide (k' = k) then o else f k'.
(** Some sequence of successful updates of a new dictionary leads to [d], and the same updates of a
    partial function lead to [f]. *)
Inductive typed_history : option cell -> (K -> option V) -> Prop :=
| th_new : typed_history None (fun _ => None)
| th_insert d f k v mode flag d' : typed_history d f -> ok k -> value_ok v -> typed_insert kd enc fin d k v mode = Ok (flag, d') ->
    typed_history d' (if stores mode (known f k) then updated f k (Some v) else f)
| th_remove d f k o d' : typed_history d f -> ok k -> typed_remove kd load fin d k = Ok (o, d') ->
    typed_history d' (updated f k None).

(** The key of [k] comes before the key of [k'], in the order of an iteration. *)
Definition key_before (signed rev : bool) (k k' : K) : Prop :=
  exists b b', k_store kd k = Ok b /\ k_store kd k' = Ok b' /\ before signed rev b b'.
End Map.

(** ** Queries *)
Section Queries.
Context {K V : Type} (kd : key_kind K) (f : K -> option V).
(** The first entry of the order, or none. *)
Definition is_first (signed rev : bool) (o : option (K * V)) : Prop :=
  match o with
  | Some (k, v) => f k = Some v /\ forall k' v', f k' = Some v' -> k' = k \/ key_before kd signed rev k k'
  | None => forall k, f k = None
  end.
(** The nearest entry that comes after [k] in the order; when [inclusive], [k] itself if it is there. *)
Definition is_nearest (signed rev inclusive : bool) (k : K) (o : option (K * V)) : Prop :=
  match o with
  | Some (k1, v1) => f k1 = Some v1 /\
    ((inclusive = true /\ k1 = k) \/
     ((inclusive = true -> f k = None) /\ key_before kd signed rev k k1 /\
      forall k' v', f k' = Some v' -> key_before kd signed rev k k' -> k' = k1 \/ key_before kd signed rev k1 k'))
  | None => (inclusive = true -> f k = None) /\ forall k' v', f k' = Some v' -> ~ key_before kd signed rev k k'
  end.
End Queries.
