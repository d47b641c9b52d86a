(** * What a lazy value is *)
From Verif Require Import Err CellModel ChunkSpec.

(** ^X of an ordinary (or an exotic) cell. *)
Inductive lazy_c (exotic : bool) : cell -> chunk -> Prop :=
| lazy_intro c : c_exotic c = exotic -> lazy_c exotic c ([], [c]).
(** The ordinary cell [c] holds the value [a] laid out as [L] says; [tail] is what may be left
    behind it. *)
Inductive holds_value {A} (tail : chunk -> Prop) (L : A -> chunk -> Prop) : A -> cell -> Prop :=
| holds_value_intro a x t : L a x -> tail t -> holds_value tail L a (Cell false (fst x ++ fst t) (snd x ++ snd t)).
