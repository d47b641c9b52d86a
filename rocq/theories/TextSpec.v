(** * What textual forms mean, without reference to the parsers and printers. *)
From Verif Require Import Err TextModel.
Local Open Scope N_scope.

(** [c] is the hexadecimal digit of value [v]: a character of "0123456789abcdef" or of
    "0123456789ABCDEF". *)
Definition hexdigit (c v : N) : Prop := HEX_LOWER !! N.to_nat v = Some c \/ HEX_UPPER !! N.to_nat v = Some c.
(** The digits of [s] are the bits, four per digit. *)
Inductive spells : list N -> list bool -> Prop :=
| spells_nil : spells [] []
| spells_cons c v s b : hexdigit c v -> spells s b -> spells (c :: s) (nbits 4 v ++ b).
(** The bit string denoted by a text: the digits, or, with a final underscore, the digits
    without the completion tag: the last one bit and the zeros that follow it. *)
Inductive denotes : list N -> list bool -> Prop :=
| den_plain s b : spells s b -> denotes s b
| den_tag s b k : spells s (b ++ [true] ++ zeros k) -> denotes (s ++ [95]) b
| den_zeros s k : spells s (zeros k) -> denotes (s ++ [95]) [].
