(** * Results, machine-integer wrap-around and checked memory access.

    [err] lists the variants of [Error] in /repo/src/error.rs:5-49.  Two extra
    values make failures of the host language explicit:
    - [Panic]: the Rust code would panic (failed index, [unwrap] on [None], ...);
    - [UB]: an [unsafe] block would read or write outside of its buffer.
    A theorem that returns [Ok] or a proper [err] therefore also says that neither
    happens. *)
From stdpp Require Export base list numbers.
From Coq Require Export NArith ZArith Lia ZifyBool ZifyNat ZifyN.
From Verif Require Export Bits.
Open Scope N_scope.

Inductive err :=
| CellUnderflow | CellOverflow | UnexpectedExoticCell | UnexpectedOrdinaryCell
| InvalidCell | InvalidData | InvalidTag | EmptyProof | DepthOverflow
| InvalidSignature | InvalidPublicKey | IntOverflow | Cancelled | Unbalanced
| Panic | UB | OutOfFuel.

Inductive res (A : Type) := Ok (a : A) | Err (e : err).
Arguments Ok {A} a.
Arguments Err {A} e.

Definition rbind {A B} (x : res A) (f : A -> res B) : res B :=
  match x with Ok a => f a | Err e => Err e end.
Notation "'let?' x := a 'in' b" := (rbind a (fun x => b))
  (at level 200, x pattern, a at level 100, b at level 200).

Definition of_opt {A} (e : err) (o : option A) : res A :=
  match o with Some a => Ok a | None => Err e end.

Definition is_ok {A} (x : res A) : bool := match x with Ok _ => true | Err _ => false end.

(** Wrapping of unsigned machine arithmetic (release builds). *)
Definition w8  (x : N) : N := x mod 256.
Definition w16 (x : N) : N := x mod 65536.
Definition w32 (x : N) : N := x mod 2 ^ 32.
Definition w64 (x : N) : N := x mod 2 ^ 64.
(** [v << k] on a [w]-bit unsigned integer. *)
Definition shl (w : N) (v k : N) : N := N.shiftl v k mod 2 ^ w.

(** Checked buffer access: [None] is an out-of-bounds access. *)
Definition rd (d : list N) (q : nat) : option N := d !! q.
Definition wr (d : list N) (q : nat) (v : N) : option (list N) :=
  match d !! q with Some _ => Some (<[q := v]> d) | None => None end.
Definition or_at (d : list N) (q : nat) (v : N) : option (list N) :=
  match d !! q with Some b => Some (<[q := N.lor b v]> d) | None => None end.
Definition and_at (d : list N) (q : nat) (v : N) : option (list N) :=
  match d !! q with Some b => Some (<[q := N.land b v]> d) | None => None end.
(** [ptr::copy_nonoverlapping(bs, d + q, bs.len())]. *)
Definition cpy (d : list N) (q : nat) (bs : list N) : option (list N) :=
  if (q + length bs <=? length d)%nat
  then Some (take q d ++ bs ++ drop (q + length bs) d) else None.
(** Read [n] bytes starting at [q]. *)
Definition rdn (d : list N) (q n : nat) : option (list N) :=
  if (q + n <=? length d)%nat then Some (take n (drop q d)) else None.
