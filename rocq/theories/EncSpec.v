(** * Which ABI values can be encoded (C74)

    Nothing here is about how a value is laid out in cells. *)
From Verif Require Import Err BigIntSpec CellModel AddrModel AddrSpec AbiModel AbiSpec.
Local Open Scope N_scope.

(** Every number is one its type has, every element has the declared type.  Left out:
    - integers of more than 1023 bits and numbers of variable length that may take more than a
      cell (C57_long_varuint_refuted),
    - arrays of a fixed length, for which a bit too few is reckoned (C57_full_cell_refuted),
    - before version 2.2, negative [varint]s of a whole number of bytes (C74_negative_refuted), and
      empty maps,
    - maps with keys of more than 1011 bits. *)
Section Encodable.
Context (v : version).
Fixpoint encodable (x : aval) : Prop :=
  match x with
  | VUint n x => n <= 1023 /\ x < 2 ^ n
  | VInt n x => n <= 1023 /\ fits_in x n true
  | VVarUint n x => 2 <= n <= 128 /\ x < 2 ^ (8 * (n - 1))
  | VVarInt n x =>
    2 <= n <= 128 /\ fits_in x (8 * (n - 1)) true /\
    (use_max v = true \/ (0 <= x)%Z \/ N.size (Z.abs_N x) mod 8 <> 0)
  | VBool _ | VCell _ | VBytes _ | VFixedBytes _ | VString _ => True
  | VToken x => x < 2 ^ 120
  | VAddr a => exists bits, int_tlb a bits
  | VTuple l => all encodable l
  | VArray t l => all (fun y => encodable y /\ type_of y = t) l
  | VFixedArray _ _ => False
  | VMap k t l =>
    key_width k <= 1011 /\ (use_max v = true \/ l <> []) /\
    all (fun e => let '(key, y) := e in (exists b, key_layout key k b) /\ encodable y /\ type_of y = t) l
  | VOpt t o => match o with Some y => encodable y /\ type_of y = t | None => True end
  | VRef y => encodable y
  end.
End Encodable.
