(** * Layouts of structures: which bits and references a value is written as

    A layout relates values and chunks (bits and references). *)
From Verif Require Import Err CellModel.
Local Open Scope N_scope.

(** Bits and references, one after another. *)
Definition capp (x y : chunk) : chunk := (fst x ++ fst y, snd x ++ snd y).
(** A layout made of bits only. *)
Inductive bits_only {A} (L : A -> list bool -> Prop) : A -> chunk -> Prop :=
| bits_only_intro a x : L a x -> bits_only L a (x, []).
(** TL-B [Maybe X]: nothing$0, just$1. *)
Inductive maybe_c {A} (L : A -> chunk -> Prop) : option A -> chunk -> Prop :=
| maybe_none : maybe_c L None ([false], [])
| maybe_some a x : L a x -> maybe_c L (Some a) (capp ([true], []) x).
(** [w]-bit unsigned numbers. *)
Inductive uint_c (w : nat) : N -> chunk -> Prop :=
| uint_intro v : v < 2 ^ N.of_nat w -> uint_c w v (nbits w v, []).
Inductive bool_c : bool -> chunk -> Prop :=
| bool_intro b : bool_c b ([b], []).
(** Byte strings of a fixed length. *)
Inductive bytes_c (n : nat) : list N -> chunk -> Prop :=
| bytes_intro bs : Forall byte_ok bs -> length bs = n -> bytes_c n bs (bytes_bits bs, []).
(** A cell in a reference. *)
Inductive cell_c : cell -> chunk -> Prop :=
| cell_intro c : cell_c c ([], [c]).
(** A dictionary that may be empty: HashmapE. *)
Definition dict_c : option cell -> chunk -> Prop := maybe_c cell_c.

(** What a builder may hold. *)
Definition builder_ok (b : chunk) : Prop := (length (fst b) <= 1023)%nat /\ (length (snd b) <= 4)%nat.
(** [s] appends [x] to whatever the builder holds already, all of it or nothing for lack of
    room. *)
Definition appends (s : chunk -> res chunk) (x : chunk) : Prop :=
  forall b, builder_ok b -> s b = if (1023 <? length (fst b) + length (fst x))%nat || (4 <? length (snd b) + length (snd x))%nat then Err CellOverflow else Ok (capp b x).
(** [l] reads exactly the layouts [L]: the value, and what is left behind it. *)
Definition reads_layout {A} (l : chunk -> res (A * chunk)) (L : A -> chunk -> Prop) : Prop :=
  forall b a r, l b = Ok (a, r) <-> exists x, L a x /\ b = capp x r.
(** The size of a chunk. *)
Definition chunk_size (x : chunk) : N * N := (N.of_nat (length (fst x)), N.of_nat (length (snd x))).
