(** * Storing and loading on chunks (bits and references): the building blocks of the derived
    and hand-written [Store] and [Load] implementations.

    A builder or a slice is a pair of bits and references; the functions on bits alone are
    those of CellModel, NumModel and AddrModel. *)
From Verif Require Import Err IntModel NumModel AddrModel CellModel.
Local Open Scope N_scope.

(** Functions on the bits only. *)
Definition on_bits (f : list bool -> res (list bool)) (c : chunk) : res chunk := let? b := f (fst c) in Ok (b, snd c).
Definition from_bits {A} (f : list bool -> res (A * list bool)) (c : chunk) : res (A * chunk) := let? (a, b) := f (fst c) in Ok (a, (b, snd c)).
(** builder.rs:557-569 [store_reference]; slice.rs:1281-1292 [load_reference_cloned] *)
Definition store_ref (x : cell) (c : chunk) : res chunk := let? r := putr [x] (snd c) in Ok (fst c, r).
Definition load_ref (c : chunk) : res (cell * chunk) :=
  match snd c with [] => Err CellUnderflow | x :: r => Ok (x, (fst c, r)) end.
(** builder.rs:110-125, slice.rs:109-121 [Option<T>] *)
Definition store_opt_c {A} (s : A -> chunk -> res chunk) (o : option A) (c : chunk) : res chunk :=
  match o with
  | Some a => let? c := on_bits (put [true]) c in s a c
  | None => on_bits (put [false]) c
  end.
Definition load_opt_c {A} (l : chunk -> res (A * chunk)) (c : chunk) : res (option A * chunk) :=
  let? (f, c) := from_bits load_bit c in
  if f : bool then let? (a, c) := l c in Ok (Some a, c) else Ok (None, c).
(** dict/typed.rs:36-56 [Dict]: an optional reference *)
Definition store_dict (d : option cell) (c : chunk) : res chunk := store_opt_c store_ref d c.
Definition load_dict (c : chunk) : res (option cell * chunk) := load_opt_c load_ref c.
(** builder.rs:300-420 [store_u8] ... [store_u64], [store_bit], [store_small_uint],
    [store_u256]; slice.rs likewise (C02, C03). *)
Definition store_bool (b : bool) (c : chunk) : res chunk := on_bits (put [b]) c.
Definition load_bool (c : chunk) : res (bool * chunk) := from_bits load_bit c.
Definition store_un (w : nat) (v : N) (c : chunk) : res chunk := on_bits (put (nbits w v)) c.
Definition load_un (w : nat) (c : chunk) : res (N * chunk) := from_bits (load_uint w) c.
Definition store_bs (bs : list N) (c : chunk) : res chunk := on_bits (put (bytes_bits bs)) c.
Definition load_bs (n : nat) (c : chunk) : res (list N * chunk) := from_bits (fun b => let? (x, b) := load_uint (8 * n) b in Ok (to_be n x, b)) c.
