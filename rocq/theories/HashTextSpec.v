(** * What texts of hashes mean, without reference to the parsers and printers. *)
From Verif Require Import Err BitsProofs TextSpec AddrSpec.
Local Open Scope N_scope.

(** Base64 with padding (RFC 4648, section 4): the bytes are filled up with zeros to a whole number
    of groups, and the characters of the filling (['A'], 65) are replaced by ['='] (61). *)
Definition padded (bytes s : list N) : Prop :=
  exists k t, (k < 3)%nat /\ b64_text false (bytes ++ replicate k 0) (t ++ replicate k 65) /\ s = t ++ replicate k 61.
(** The texts that are read as a hash: 64 digits, two characters and 64 digits, base64 of 32 bytes,
    base64 of the 31 bytes before a zero. *)
Inductive hash_text (h : list N) : list N -> Prop :=
| text_digits s : spells s (bytes_bits h) -> hash_text h s
| text_prefixed x y s : spells s (bytes_bits h) -> hash_text h (x :: y :: s)
| text_base64 s : padded h s -> hash_text h s
| text_short h' s : h = h' ++ [0] -> padded h' s -> hash_text h s.
