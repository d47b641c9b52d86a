(** * Taking entries out of typed dictionaries, and their keys (src/dict/typed.rs). *)
From Verif Require Import Err CellModel DictModel IterModel TypedModel.
Local Open Scope nat_scope.

Section Dict.
Context {K : Type} (kd : key_kind K) (fin : list bool -> list cell -> res unit).
(** typed.rs:362-371 [remove_bound_raw], 769-792 [remove_bound_raw_ext]; when the key cannot be loaded
    the entry is gone nevertheless, which is not told here.  The value is the content of the slice
    parts. *)
Definition typed_remove_bound (d : option cell) (bound signed : bool) : res (option (K * chunk) * option cell) :=
  let? (o, d') := dict_remove_bound_owned fin d (k_bits kd) bound signed in
  match o with
  | Some (key, (r, c)) => match k_load kd (raw key) with Some k => Ok (Some (k, r_apply r c), d') | None => Err CellUnderflow end
  | None => Ok (None, d')
  end.
(** 336-341 [remove_min_raw], 349-354 [remove_max_raw] *)
Definition typed_remove_min d := typed_remove_bound d false.
Definition typed_remove_max d := typed_remove_bound d true.
(** 1195-1216 [Keys::new], [reversed], [signed]; 1217-1232 [next] *)
Definition typed_keys (d : option cell) (rev signed : bool) : raw_iter := iter_new d (k_bits kd) rev signed.
Definition typed_keys_next (it : raw_iter) : option (res K) * raw_iter :=
  match iter_next it with
  | (None, it) => (None, it)
  | (Some (Err e), it) => (Some (Err e), it)
  | (Some (Ok (key, _)), it) =>
    match k_load kd (raw key) with Some k => (Some (Ok k), it) | None => (Some (Err CellUnderflow), set_status it StBroken) end
  end.
End Dict.
