(** * Reading the cells of the hashing model as trees. *)
From Verif Require Import Err BuilderModel BuilderSpec CellModel HashSpec HashModel.
Local Open Scope nat_scope.

(** The tree a cell stands for: what [descriptor().is_exotic()], [bit_len], [data] and
    [references] show. *)
Fixpoint tree_of (c : fcell) : cell :=
  let '(FCell d1 _ bit_len data refs _) := c in
  Cell (d_exotic d1) (take (N.to_nat bit_len) (bytes_bits data)) (map tree_of refs).

(** Cells as every constructor of the crate leaves them: data completed by a tag, descriptor
    bytes that match (the flag for stored hashes is not used for pruned branches), hashes as
    computed.  C14 and C15 show that builders and the decoder of
    bags of cells produce such cells. *)
Inductive finalized (sha : list N -> list N) : fcell -> Prop :=
| finalized_cell d1 bits refs hashes :
    Forall (finalized sha) refs -> length refs <= 4 -> length bits <= 1023 ->
    (d1 < 256)%N -> d_refs d1 = N.of_nat (length refs) ->
    (d_store_hashes d1 = true -> d_type d1 <> PrunedBranch) ->
    compute_hashes sha d1 (compute_d2 (N.of_nat (length bits))) (N.of_nat (length bits)) (children_mask refs) refs (data_bytes bits) = Ok hashes ->
    finalized sha (FCell d1 (compute_d2 (N.of_nat (length bits))) (N.of_nat (length bits)) (data_bytes bits) refs hashes).

(** What is assumed of SHA-256: 32 bytes, and the value of the constant in the code. *)
Definition sha_like (sha : list N -> list N) : Prop :=
  (forall x, length (sha x) = 32 /\ Forall byte_ok (sha x)) /\ sha [0; 0]%N = EMPTY_CELL_HASH.

(** A builder within the limits of a cell (C02), with [bits] appended to it. *)
Definition holds_bits (b : bld) (bits : list bool) : Prop :=
  length (bd b) = 128 /\ Forall byte_ok (bd b) /\ (bl b <= 1023)%N /\ data_bits b = bits.
