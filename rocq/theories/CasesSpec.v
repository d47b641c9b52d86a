(** * Layouts of enumerations and of values in cells of their own *)
From Verif Require Import Err CellModel ChunkSpec DeriveSpec StructsSpec.
Local Open Scope N_scope.

(** A case of an enumeration: a prefix of bits and a value with its layout. *)
Record branch := Branch { br_ty : Type; br_prefix : list bool; br_layout : layout br_ty; br_value : br_ty }.
Arguments Branch {br_ty}.
Definition cases_w {A} (f : A -> branch) (bits refs : nat) : layout A :=
  Layout (fun a => w_ok (br_layout (f a)) (br_value (f a)))
    (fun a x => exists y, x = capp (br_prefix (f a), []) y /\ w_write (br_layout (f a)) (br_value (f a)) y)
    (fun a x => exists y, x = capp (br_prefix (f a), []) y /\ w_read (br_layout (f a)) (br_value (f a)) y)
    bits refs.
(** A value seen as another one, such as a record as the tuple of its fields. *)
Definition as_w {A B} (f : A -> B) (l : layout B) : layout A :=
  Layout (fun a => w_ok l (f a)) (fun a => w_write l (f a)) (fun a => w_read l (f a)) (w_bits l) (w_refs l).
(** A value in a cell of its own: TL-B [^X].  Written, there is nothing else in it; read, more
    may follow. *)
Definition in_cell_w {A} (fin : list bool -> list cell -> res unit) (l : layout A) : layout A :=
  Layout (fun a => w_ok l a /\ forall y, w_write l a y -> fin (fst y) (snd y) = Ok tt)
    (fun a x => exists y, x = ([], [Cell false (fst y) (snd y)]) /\ w_write l a y /\ fin (fst y) (snd y) = Ok tt)
    (fun a x => exists y rest, x = ([], [Cell false (fst (capp y rest)) (snd (capp y rest))]) /\ w_read l a y)
    0 1.
