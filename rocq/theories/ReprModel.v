(** * Objects as bags of cells (src/boc/mod.rs [BocRepr], serde forms of cells).

    An object is what it stores into a builder and what is loaded from a slice; the cells of these
    are trees.  A Rust builder holds references that are cells already; here they are built from
    their trees, the lowest first (C12: a tree has one hash). *)
From Verif Require Import Err CellModel BuilderModel HashModel FcellSpec HashSpec DictModel BocModel TextModel HashTextModel.
Local Open Scope nat_scope.

(** A builder with these bits; the rest of its buffer is zero. *)
Definition holding (bits : list bool) : bld := mkB (pack (bits ++ zeros (1024 - length bits))) (N.of_nat (length bits)).

(** mod.rs:549-556 [BocReprError] *)
Inductive rres (A : Type) := ROk (a : A) | InvalidBoc (e : boc_err) | InvalidObject (e : err).
Arguments ROk {A}. Arguments InvalidBoc {A}. Arguments InvalidObject {A}.

Section Repr.
Context (crc : N -> list N -> N) (sha : list N -> list N).
(** builder.rs:494-571 [build_ext] for every cell of a tree; a builder refuses more than 1023 bits or
    4 references before (C02) *)
Fixpoint realize (t : cell) : res fcell :=
  let '(Cell e bits refs) := t in
  let? rs := (fix all l := match l with [] => Ok [] | x :: l => let? y := realize x in let? ys := all l in Ok (y :: ys) end) refs in
  if (1023 <? length bits) || (4 <? length rs) then Err CellOverflow else build_ext sha e (holding bits) rs.
(** what the models of Store implementations take for a build that succeeds *)
Definition real_fin (bits : list bool) (refs : list cell) : res unit := let? _ := realize (Cell false bits refs) in Ok tt.

(** mod.rs:449-463 [encode_ext], 326-344 [encode_hex], [encode_base64] *)
Definition repr_cell (store : chunk -> res chunk) : res fcell := let? b := store ([], []) in realize (Cell false (fst b) (snd b)).
Definition repr_encode (store : chunk -> res chunk) : res (list N) := let? c := repr_cell store in boc_encode crc c.
Definition repr_encode_hex (store : chunk -> res chunk) : res (list N) := let? b := repr_encode store in Ok (hex_encode HEX_LOWER b).
Definition repr_encode_base64 (store : chunk -> res chunk) : res (list N) := let? b := repr_encode store in Ok (encode_base64 b).
(** cell/mod.rs:351-353 [parse] *)
Definition parse_object {A} (load : chunk -> res (A * chunk)) (c : fcell) : rres A :=
  match as_slice (tree_of c) with
  | Ok s => match load (s_chunk s) with Ok (a, _) => ROk a | Err e => InvalidObject e end
  | Err e => InvalidObject e
  end.
(** mod.rs:487-500 [decode_ext], 394-434 [decode_hex], [decode_base64] *)
Definition repr_decode {A} (load : chunk -> res (A * chunk)) (data : list N) : rres A :=
  match decode crc sha data with BOk c => parse_object load c | BErr e => InvalidBoc e end.
Definition repr_decode_hex {A} (load : chunk -> res (A * chunk)) (s : list N) : rres A :=
  match hex_decode s with Some data => repr_decode load data | None => InvalidBoc UnknownBocTag end.
Definition repr_decode_base64 {A} (load : chunk -> res (A * chunk)) (s : list N) : rres A :=
  match decode_base64 s with Some data => repr_decode load data | None => InvalidBoc UnknownBocTag end.

(** cell/mod.rs:389-398 [serialize], boc/serde.rs:198-220 [deserialize_as_boc]: what is given to and
    by the format; mod.rs:505-525 [BocRepr::serialize], 530-543 [BocRepr::deserialize].  The errors of
    the format are not told apart. *)
Definition serde_cell (readable : bool) (c : fcell) : res (list N) :=
  let? b := boc_encode crc c in Ok (if readable then encode_base64 b else b).
Definition unserde_cell (readable : bool) (x : list N) : option fcell :=
  match (if readable then decode_base64 x else Some x) with
  | Some data => match decode crc sha data with BOk c => Some c | BErr _ => None end
  | None => None
  end.
Definition serde_object (readable : bool) (store : chunk -> res chunk) : res (list N) := let? c := repr_cell store in serde_cell readable c.
Definition unserde_object {A} (readable : bool) (load : chunk -> res (A * chunk)) (x : list N) : option A :=
  match unserde_cell readable x with
  | Some c => match parse_object load c with ROk a => Some a | _ => None end
  | None => None
  end.
End Repr.
