(** * Which ABI values there are, and which of them are read back (C57)

    Nothing here is about how a value is laid out in cells. *)
From Coq Require Import Sorting.Sorted.
From Verif Require Import Err BigIntSpec CellModel AddrModel AddrSpec DictSpec AbiModel.
Local Open Scope N_scope.

Definition all {A} (P : A -> Prop) (l : list A) : Prop := fold_right (fun x r => P x /\ r) True l.

(** A key as the bits of a dictionary key. *)
Inductive key_layout : pval -> pty -> list bool -> Prop :=
| key_uint n x : x < 2 ^ n -> key_layout (KUint n x) (PUint n) (nbits (N.to_nat n) x)
| key_int n x : fits_in x n true -> key_layout (KInt n x) (PInt n) (zbits (N.to_nat n) x)
| key_bool b : key_layout (KBool b) PBool [b]
| key_addr a bits : int_tlb a bits -> length bits = 267%nat -> key_layout (KAddr a) PAddr bits.

(** The values a program can have: numbers that memory can hold, addresses that exist, elements
    of the declared types, different keys of the declared type.  A map is listed by increasing keys
    (as the bits they are stored as); this is how the same map is the same list. *)
Section Values.
Context (utf8 : list N -> bool).
Fixpoint value_ok (x : aval) : Prop :=
  match x with
  | VUint _ x => x < 2 ^ 65000
  | VInt _ x => (Z.abs x < 2 ^ 65000)%Z
  | VVarUint n _ | VVarInt n _ => 1 <= n <= 255
  | VBool _ | VCell _ => True
  | VToken x => x < 2 ^ 128
  | VAddr a => exists bits, int_tlb a bits
  | VBytes bs | VFixedBytes bs => Forall byte_ok bs
  | VString bs => Forall byte_ok bs /\ utf8 bs = true
  | VTuple l => all value_ok l
  | VArray t l | VFixedArray t l => N.of_nat (length l) < 2 ^ 32 /\ all (fun y => value_ok y /\ type_of y = t) l
  | VMap k t l =>
    all (fun e => let '(_, y) := e in value_ok y /\ type_of y = t) l /\
    exists keys, Forall2 (fun e b => key_layout (fst e) k b) l keys /\ StronglySorted (before false false) keys
  | VOpt t o => match o with Some y => value_ok y /\ type_of y = t | None => True end
  | VRef y => value_ok y
  end.
End Values.

(** How many arrays of a fixed length stand in the type itself. *)
Fixpoint fixed_arrays (t : aty) : N :=
  match t with
  | TFixedArray _ _ => 1
  | TTuple ts => fold_right (fun t n => fixed_arrays t + n) 0 ts
  | _ => 0
  end.

(** What is left out (see the refutations C57_*_refuted):
    - integers of no bits and empty tuples,
    - numbers of variable length that may take more than a cell, and positive [varint]s whose
      first byte has its highest bit set,
    - before version 2.2, empty maps, and maps with keys of more than 1011 bits,
    - optional values of a type that fills a cell but for a bit and has arrays of a fixed
      length. *)
Section Supported.
Context (v : version).
Fixpoint supported (x : aval) : Prop :=
  match x with
  | VUint n _ | VInt n _ => 0 < n
  | VVarUint n _ => n <= 128
  | VVarInt n x => n <= 128 /\ ((x <= 0)%Z \/ N.size (Z.abs_N x) mod 8 <> 0)
  | VBool _ | VCell _ | VToken _ | VAddr _ | VBytes _ | VFixedBytes _ | VString _ => True
  | VTuple l => l <> [] /\ all supported l
  | VArray _ l | VFixedArray _ l => all supported l
  | VMap k _ l => key_width k <= 1011 /\ (use_max v = true \/ l <> []) /\ all (fun e => let '(_, y) := e in supported y) l
  | VOpt t o => (z_bits (max_size t) + fixed_arrays t <= 1023 \/ small (max_size t) = false) /\
    match o with Some y => supported y | None => True end
  | VRef y => supported y
  end.
End Supported.
