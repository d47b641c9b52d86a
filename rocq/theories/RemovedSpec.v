(** * A store of cells that counts references. *)
From Verif Require Import Err CellModel StatSpec.
Local Open Scope nat_scope.

Definition cell_dec : forall a b : cell, {a = b} + {a <> b}.
Proof.
  fix IH 1. intros [e1 b1 r1] [e2 b2 r2]. destruct (Bool.bool_dec e1 e2) as [->|N]; [|right; congruence].
  destruct (List.list_eq_dec Bool.bool_dec b1 b2) as [->|N]; [|right; congruence].
  destruct (List.list_eq_dec IH r1 r2) as [->|N]; [left; reflexivity|right; congruence].
Defined.

(** The number of references from [y] to [x]. *)
Definition links (y x : cell) : nat := count_occ cell_dec (c_refs y) x.
(** The counter of [x] in a store that holds the cells [cells] under the roots [roots]: every
    stored cell counts its references once, every root is one more reference. *)
Definition counter (roots cells : list cell) (x : cell) : nat := count_occ cell_dec roots x + list_sum (map (fun y => links y x) cells).
