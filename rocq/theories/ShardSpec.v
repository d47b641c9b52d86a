(** * Shards as nodes of a binary tree.

    A shard of a workchain is a node of the binary tree of account prefixes: the path to it
    is a bit string of at most 60 bits. *)
From Verif Require Import Err CellModel ShardModel.
Local Open Scope N_scope.

(** The 64-bit form of a path: the path, a one bit, zeros. *)
Definition path_prefix (path : list bool) : N := bval (path ++ [true] ++ zeros (63 - length path)).
(** The identifier of the shard at a path. *)
Definition shard_at (wc : Z) (path : list bool) : shard := Shard wc (path_prefix path).
Definition is_path (path : list bool) : Prop := (length path <= 60)%nat.
(** An identifier of some shard: any workchain may be split except the masterchain. *)
Definition valid_shard (s : shard) : Prop :=
  exists path, is_path path /\ sh_prefix s = path_prefix path /\ (- 2 ^ 31 <= sh_wc s < 2 ^ 31)%Z /\ (sh_wc s = (-1)%Z -> path = []).
