(** * What a bag of cells is.

    Written from the description of the format ("serialized_boc" of the TVM documentation) on
    plain trees of cells; nothing here refers to the model of the implementation. *)
From Verif Require Import Err CellModel HashSpec.
Local Open Scope nat_scope.

(** ** Trees below a list of roots *)
Inductive subtree (roots : list cell) : cell -> Prop :=
| sub_root t : In t roots -> subtree roots t
| sub_child e b ks k : subtree roots (Cell e b ks) -> In k ks -> subtree roots k.
(** No two different cells below the roots have the same representation hash. *)
Definition distinct_hashes (sha : list N -> list N) (roots : list cell) : Prop :=
  forall a b, subtree roots a -> subtree roots b -> t_hash sha a = t_hash sha b -> a = b.
(** There are less than 2^32 different cells below the roots. *)
Definition countable_cells (roots : list cell) : Prop :=
  forall l, NoDup l -> Forall (subtree roots) l -> (N.of_nat (length l) < 2 ^ 32)%N.

(** ** The table of cells of a bag *)
(** A cell, whether its hashes and depths are stored with it, and where its references are. *)
Record entry := Entry { e_tree : cell; e_stored : bool; e_next : list nat }.
Definition points (table : list entry) (i : nat) (t : cell) : Prop :=
  exists e, table !! i = Some e /\ e_tree e = t.
(** References lead to later entries. *)
Definition linked (table : list entry) : Prop :=
  forall i e, table !! i = Some e -> Forall2 (fun j t => i < j /\ points table j t) (e_next e) (c_refs (e_tree e)).
(** Every cell below the roots is there once, and nothing else. *)
Definition table_of (roots : list cell) (table : list entry) (root_indices : list nat) : Prop :=
  NoDup (map e_tree table) /\ linked table /\ Forall2 (points table) root_indices roots /\
  forall t, In t (map e_tree table) <-> subtree roots t.

(** ** Bytes *)
Definition le_bytes (n : nat) (v : N) : list N := rev (to_be n v).
(** The levels of a mask with a hash of their own. *)
Definition own_levels (mask : N) : list nat :=
  0 :: concat (map (fun l => if N.testbit mask (N.of_nat l) then [S l] else []) [0; 1; 2]).

(** The sizes of indices and offsets, and the options of a bag. *)
Record format := Format { fm_index : bool; fm_cache : bool; fm_crc : bool; fm_ref : nat; fm_off : nat }.

Section Sha.
Context (sha : list N -> list N).
(** Descriptor bytes, stored hashes and depths, data, references. *)
Definition cell_bytes (ref_size : nat) (e : entry) : list N :=
  let '(Cell exotic bits refs) := e_tree e in
  let i := info_of sha (e_tree e) in
  [(32 * i_mask i + 16 * N.b2n (e_stored e) + 8 * N.b2n exotic + N.of_nat (length refs))%N;
   N.of_nat (length bits / 8 + (length bits + 7) / 8)]
  ++ (if e_stored e then concat (map (i_hash i) (own_levels (i_mask i))) ++ concat (map (fun l => to_be 2 (i_depth i l)) (own_levels (i_mask i))) else [])
  ++ data_bytes bits
  ++ concat (map (fun j => to_be ref_size (N.of_nat j)) (e_next e)).
Definition cells_bytes (ref_size : nat) (table : list entry) : list N := concat (map (cell_bytes ref_size) table).

(** Everything before the checksum. *)
Definition boc_body (fm : format) (table : list entry) (roots : list nat) (index : list N) : list N :=
  [0xb5; 0xee; 0x9c; 0x72]%N
  ++ [(128 * N.b2n (fm_index fm) + 64 * N.b2n (fm_crc fm) + 32 * N.b2n (fm_cache fm) + N.of_nat (fm_ref fm))%N; N.of_nat (fm_off fm)]
  ++ to_be (fm_ref fm) (N.of_nat (length table))
  ++ to_be (fm_ref fm) (N.of_nat (length roots))
  ++ to_be (fm_ref fm) 0
  ++ to_be (fm_off fm) (N.of_nat (length (cells_bytes (fm_ref fm) table)))
  ++ concat (map (fun j => to_be (fm_ref fm) (N.of_nat j)) roots)
  ++ index
  ++ cells_bytes (fm_ref fm) table.
Definition boc_bytes (crc : list N -> N) (fm : format) (table : list entry) (roots : list nat) (index : list N) : list N :=
  let body := boc_body fm table roots index in
  body ++ (if fm_crc fm then le_bytes 4 (crc body) else []).

(** What a table must satisfy to be written in a format. *)
Definition fits (fm : format) (table : list entry) (roots : list nat) (index : list N) : Prop :=
  1 <= fm_ref fm <= 4 /\ 1 <= fm_off fm <= 8 /\
  (N.of_nat (length table) < 256 ^ N.of_nat (fm_ref fm))%N /\
  (N.of_nat (length (cells_bytes (fm_ref fm) table)) < 256 ^ N.of_nat (fm_off fm))%N /\
  (fm_cache fm = true -> fm_index fm = true) /\
  length index = (if fm_index fm then fm_off fm * length table else 0).
(** Cells that may be stored: the layouts of HashSpec.v, depths that fit into 16 bits, no stored
    hashes for pruned branches. *)
Definition storable (e : entry) : Prop :=
  valid_tree (e_tree e) /\ (forall l, (i_depth (info_of sha (e_tree e)) l <= 65535)%N) /\
  (e_stored e = true -> forall m, kind_of (c_exotic (e_tree e)) (c_bits (e_tree e)) <> KPruned m).
(** Every cell is a root or referenced. *)
Definition all_used (table : list entry) (roots : list nat) : Prop :=
  forall i, i < length table -> In i roots \/ exists e, In e table /\ In i (e_next e).

(** ** What a decoder that trusts nothing accepts *)
(** The bytes of a cell, with any bytes where its hashes and depths are stored. *)
Definition cell_slot (ref_size : nat) (e : entry) (bytes : list N) : Prop :=
  let '(Cell exotic bits refs) := e_tree e in
  let m := i_mask (info_of sha (e_tree e)) in
  exists stored, length stored = (if e_stored e then 34 * length (own_levels m) else 0) /\
  bytes = [(32 * m + 16 * N.b2n (e_stored e) + 8 * N.b2n exotic + N.of_nat (length refs))%N;
           N.of_nat (length bits / 8 + (length bits + 7) / 8)]
          ++ stored ++ data_bytes bits ++ concat (map (fun j => to_be ref_size (N.of_nat j)) (e_next e)).
(** The three magics: what follows them, whether there is an index, a checksum, a list of roots. *)
Inductive bag_magic : list N -> nat -> bool -> bool -> bool -> Prop :=
| magic_indexed rs : bag_magic [0x68; 0xff; 0x65; 0xf3; N.of_nat rs]%N rs true false false
| magic_indexed_crc rs : bag_magic [0xac; 0xc3; 0xa7; 0x28; N.of_nat rs]%N rs true true false
| magic_generic (index crc cache : bool) (unused : N) rs : (unused < 4)%N -> (cache = true -> index = true) ->
    bag_magic [0xb5; 0xee; 0x9c; 0x72; 128 * N.b2n index + 64 * N.b2n crc + 32 * N.b2n cache + 8 * unused + N.of_nat rs]%N rs index crc true.
(** [data] is a bag with this table of cells and these roots, and something behind it. *)
Definition bag (crc : list N -> N) (data : list N) (table : list entry) (roots : list nat) : Prop :=
  exists magic rs os has_index has_crc multi index cells rest,
  bag_magic magic rs has_index has_crc multi /\ 1 <= rs <= 4 /\ 1 <= os <= 8 /\
  Forall2 (cell_slot rs) table cells /\
  (N.of_nat (length table) < 256 ^ N.of_nat rs)%N /\ (N.of_nat (length (concat cells)) < 256 ^ N.of_nat os)%N /\
  length index = (if has_index then os * length table else 0) /\ (multi = false -> roots = [0]) /\
  let body := magic ++ [N.of_nat os] ++ to_be rs (N.of_nat (length table)) ++ to_be rs (N.of_nat (length roots)) ++ to_be rs 0
    ++ to_be os (N.of_nat (length (concat cells))) ++ (if multi then concat (map (fun j => to_be rs (N.of_nat j)) roots) else [])
    ++ index ++ concat cells in
  data = body ++ (if has_crc then le_bytes 4 (crc body) else []) ++ rest.
End Sha.
