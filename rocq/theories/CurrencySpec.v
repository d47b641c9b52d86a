(** * What a currency collection holds *)
From stdpp Require Import gmap.
From Verif Require Import Err CellModel NumSpec DictSpec ChunkSpec CurrencyModel.
Local Open Scope N_scope.

(** The value [v] of the dictionary is the amount [a]: a var-uint, possibly followed by
    something else; the second form has nothing else. *)
Definition amount_in (v : chunk) (a : N) : Prop := exists bits rest, fst v = bits ++ rest /\ loose_var_uint_bits 5 a bits.
Definition amount_only (v : chunk) (a : N) : Prop := loose_var_uint_bits 5 a (fst v) /\ snd v = [].
(** In the third form it is written with as few bytes as possible. *)
Definition amount_exact (v : chunk) (a : N) : Prop := var_uint_bits 5 a (fst v) /\ snd v = [].
(** The collection [d] holds the amounts [m], by currency id. *)
Definition entry_of (V : chunk -> N -> Prop) (e : entry) (p : N * N) : Prop :=
  fst e = nbits 32 (fst p) /\ fst p < 2 ^ 32 /\ V (snd e) (snd p).
Definition holds (R : rules) (V : chunk -> N -> Prop) (d : option cell) (m : gmap N N) : Prop :=
  exists es ps, is_dict R 32 d es /\ Forall2 (entry_of V) es ps /\ m = list_to_map ps.

(** The amount of one currency: zero when it is missing. *)
Definition amount (m : gmap N N) (id : N) : N := match m !! id with Some a => a | None => 0 end.

(** The dictionaries that updates are applied to, and a case in which updates cannot fail: all
    labels are canonical, the values are nothing but amounts, and [finalize_cell] accepts every
    cell within the size limits. *)
Definition updatable (fin : list bool -> list cell -> res unit) (R : rules) : Prop := R = plain_dict \/ R = canonical_dict fin.
Definition amounts (V : chunk -> N -> Prop) : Prop := V = amount_in \/ V = amount_only \/ V = amount_exact.
Definition sturdy (fin : list bool -> list cell -> res unit) (R : rules) (V : chunk -> N -> Prop) : Prop :=
  R = canonical_dict fin /\ (V = amount_only \/ V = amount_exact) /\ forall b r, (length b <= 1023)%nat -> (length r <= 4)%nat -> fin b r = Ok tt.

(** TL-B: currencies$_ grams:Tokens other:ExtraCurrencyCollection = CurrencyCollection;
    extra_currencies$_ dict:(HashmapE 32 (VarUInteger 32)); Tokens is VarUInteger 16.  [U] is
    the notation of numbers of variable length. *)
Definition tokens_c (U : nat -> N -> list bool -> Prop) : N -> chunk -> Prop := bits_only (U 4%nat).
Inductive currency_c (U : nat -> N -> list bool -> Prop) : currency -> chunk -> Prop :=
| currencies t d x y : tokens_c U t x -> dict_c d y -> currency_c U (Currency t d) (capp x y).
