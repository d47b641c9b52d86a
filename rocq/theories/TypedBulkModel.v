(** * Typed dictionaries built and changed in bulk (src/dict/typed.rs:422-500). *)
From Verif Require Import Err AddrModel CellModel DictModel BuildModel ModifyModel TypedModel.
Local Open Scope nat_scope.

(** ** The [Ord] of key types *)
(** The [Ord] of core for arrays of bytes (the keys of dict/mod.rs:159-178) *)
Fixpoint lex_compare (a b : list N) : comparison :=
  match a, b with
  | [], [] => Eq
  | [], _ => Lt
  | _, [] => Gt
  | x :: a, y :: b => match (x ?= y)%N with Eq => lex_compare a b | c => c end
  end.
(** The [Ord] of core for pairs (the key of dict/mod.rs:179-188) *)
Definition pair_compare (a b : N * N) : comparison :=
  match (fst a ?= fst b)%N with Eq => (snd a ?= snd b)%N | c => c end.
(** The [Ord] of core for bool (the key of dict/mod.rs:104-108) *)
Definition bool_compare (a b : bool) : comparison :=
  match a, b with false, true => Lt | true, false => Gt | _, _ => Eq end.
(** models/message/address.rs:236-245 [StdAddr], derived: the anycast is compared first; keys have
    none, so it is left out *)
Definition addr_compare (a b : std_addr) : comparison :=
  match (sa_wc a ?= sa_wc b)%Z with Eq => lex_compare (sa_addr a) (sa_addr b) | c => c end.

Section Bulk.
Context {K V : Type} (kd : key_kind K) (cmp : K -> K -> comparison).
Context (enc : V -> chunk) (fin : list bool -> list cell -> res unit).

(** [key.cmp(prev_key)] (build.rs:27, modify.rs:65) of the keys that have these bits *)
Definition bits_compare (a b : list bool) : comparison :=
  match k_load kd (raw a), k_load kd (raw b) with Some x, Some y => cmp x y | _, _ => Eq end.
(** build.rs:37-38, modify.rs:76-77: the bits of the keys.  The code stores a key when it gets to it,
    here all are stored first: if both a key cannot be stored and the order is wrong, it may be the
    other error that is returned. *)
Fixpoint store_all {A B} (g : A -> B) (l : list (K * A)) : res (list (list bool * B)) :=
  match l with
  | [] => Ok []
  | (k, a) :: l => let? b := k_store kd k in let? r := store_all g l in Ok ((b, g a) :: r)
  end.
(** typed.rs:428-443 [try_from_btree], 446-461 [try_from_sorted_slice] *)
Definition typed_build (l : list (K * V)) : res (option cell) :=
  let? es := store_all enc l in build_dict fin bits_compare (k_bits kd) es.
(** 467-479 [modify_with_sorted_iter], 485-499 [modify_with_sorted_iter_ext] with values that are there *)
Definition typed_modify (d : option cell) (l : list (K * option V)) : res (bool * option cell) :=
  let? es := store_all (fun o => Ok (option_map enc o)) l in dict_modify fin bits_compare (k_bits kd) d es.
End Bulk.
