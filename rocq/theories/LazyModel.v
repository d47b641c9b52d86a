(** * Lazily loaded values: src/cell/lazy.rs [Lazy<T, EXOTIC>], and [parse] of a cell

    A lazy value is the cell that holds it. *)
From Verif Require Import Err CellModel DictModel ChunkModel.
Local Open Scope N_scope.

Section Lazy.
Context (fin : list bool -> list cell -> res unit).
(** lazy.rs:86-101 [from_raw] *)
Definition lazy_from_raw (exotic : bool) (c : cell) : res cell :=
  if negb (Bool.eqb (c_exotic c) exotic) then Err (if exotic then UnexpectedOrdinaryCell else UnexpectedExoticCell) else Ok c.
(** cell/builder.rs:294-313 [build_from], lazy.rs:177-180 [new]; [s] is the value's
    [store_into].  [set] (183-186) is [new]. *)
Definition build_from (s : chunk -> res chunk) : res cell := let? b := s ([], []) in build fin b.
Definition lazy_new (exotic : bool) (s : chunk -> res chunk) : res cell := let? c := build_from s in lazy_from_raw exotic c.
(** cell/mod.rs:351-353 [parse], lazy.rs:189-194 [load]; [l] is the type's [load_from] *)
Definition parse {A} (l : chunk -> res (A * chunk)) (c : cell) : res A :=
  let? s := as_slice c in
  let? (a, _) := l (s_chunk s) in Ok a.
Definition lazy_load {A} (l : chunk -> res (A * chunk)) (c : cell) : res A := parse l c.
(** lazy.rs:203-207 [store_into], 209-216 [load_from] *)
Definition store_lazy (c : cell) : chunk -> res chunk := store_ref c.
Definition load_lazy (exotic : bool) (c : chunk) : res (cell * chunk) :=
  let? (x, c) := load_ref c in
  let? x := lazy_from_raw exotic x in Ok (x, c).
End Lazy.
