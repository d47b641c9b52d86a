(** * Parts of a dictionary by key prefix. *)
From Verif Require Import CellModel DictSpec.

(** The entries of [m] whose keys start with [p]. *)
Definition part (p : list bool) (m : gmap (list bool) chunk) : gmap (list bool) chunk :=
  filter (fun kv => p `prefix_of` fst kv) m.
