(** * What the initial data of a contract is *)
From Verif Require Import Err CellModel DictSpec ChunkModel ChunkSpec AbiModel AbiSpec.
Local Open Scope N_scope.

(** The cell starts with a dictionary with keys of 64 bits whose entries are [m].  [R] are the rules
    for the dictionary: [plain_dict] for any one, [canonical_dict] for one made by the library. *)
Definition init_data (R : rules) (c : cell) (m : gmap N chunk) : Prop :=
  c_exotic c = false /\ (forall key, 2 ^ 64 <= key -> m !! key = None) /\
  exists d x rest es, dict_c d x /\ (c_bits c, c_refs c) = capp x rest /\ is_dict R 64 d es /\ forall key, key < 2 ^ 64 -> dmap es !! nbits 64 key = m !! key.

(** The value given for a name: the last one. *)
Fixpoint given {A} (name : list N) (l : list (list N * A)) : option A :=
  match l with
  | [] => None
  | (n, x) :: l => match given name l with Some y => Some y | None => if decide (n = name) then Some x else None end
  end.

(** Declarations of fields: names and keys are not repeated, and 0 is the key of the public key. *)
Definition fields_ok (l : list (list N * (N * aty))) : Prop :=
  NoDup (map fst l) /\ NoDup (map (fun e => fst (snd e)) l) /\ forall name key t, (name, (key, t)) ∈ l -> 0 < key < 2 ^ 64.

(** Types a default value of which is a value. *)
Fixpoint type_ok (t : aty) : Prop :=
  match t with
  | TVarUint n | TVarInt n => 1 <= n <= 255
  | TTuple ts => all type_ok ts
  | TFixedArray t len => N.of_nat len < 2 ^ 32 /\ type_ok t
  | TRef t => type_ok t
  | _ => True
  end.
