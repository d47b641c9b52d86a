(** * Which Rust values there are, and which of them can be sent (C75) *)
From Coq Require Import Sorting.Sorted.
From Verif Require Import Err BigIntSpec CellModel AddrModel AddrSpec DictSpec AbiModel AbiSpec RustModel.
Local Open Scope N_scope.

(** The values of the Rust types: machine integers and small integers in their ranges, hashes of 32
    bytes, amounts that the types of [src/num] hold, strings in UTF-8, addresses that exist, arrays
    of the declared length, maps with different keys. *)
Definition key_ok (k : kty) : rust_key k -> Prop :=
  match k return rust_key k -> Prop with
  | KTUint w => fun x => x < 2 ^ wbits w
  | KTInt w => fun x => AddrSpec.in_int (Z.of_N (wbits w)) x
  | KTHash => fun bs => length bs = 32%nat /\ Forall byte_ok bs
  | KTSplit => fun x => 1 <= x <= 255
  | KTSmall s => fun x => x < 2 ^ sbits s
  | KTBool => fun _ => True
  | KTIntAddr => fun a => exists bits, int_tlb a bits
  | KTStdAddr => fun a => exists bits, std_tlb a bits
  | KTVarAddr => fun a => exists bits, var_tlb a bits
  end.
Section Values.
Context (utf8 : list N -> bool).
Fixpoint rust_ok (t : rty) : rust t -> Prop :=
  match t return rust t -> Prop with
  | RKey k => key_ok k
  | RVarUint24 => fun x => x < 2 ^ 24
  | RVarUint56 => fun x => x < 2 ^ 56
  | RTokens => fun x => x < 2 ^ 120
  | RCell => fun _ => True
  | RBytes => fun bs => Forall byte_ok bs
  | RString => fun bs => Forall byte_ok bs /\ utf8 bs = true
  | RBox t => rust_ok t
  | ROpt t => fun o => match o with Some r => rust_ok t r | None => True end
  | RVec t => fun l => all (rust_ok t) l
  | RFixed t n => fun l => length l = n /\ all (rust_ok t) l
  | RMap k t => fun l => all (fun e => key_ok k (fst e) /\ rust_ok t (snd e)) l /\ NoDup (map fst l)
  | RTuple ts => (fix go (ts : list rty) : rusts ts -> Prop :=
      match ts return rusts ts -> Prop with [] => fun _ => True | t :: ts => fun r => rust_ok t (fst r) /\ go ts (snd r) end) ts
  end.
End Values.

(** Types with a conversion from ABI values (the trait [FromAbi]; keys: [FromPlainAbi]). *)
Definition readable_key (k : kty) : bool := match k with KTSplit | KTSmall _ => false | _ => true end.
Fixpoint readable (t : rty) : bool :=
  match t with
  | RKey k => readable_key k
  | RVarUint24 | RVarUint56 | RTokens | RCell | RBytes | RString => true
  | RBox t | ROpt t | RVec t => readable t
  | RFixed _ _ => false
  | RMap k t => readable_key k && readable t
  | RTuple ts => forallb readable ts
  end.
(** Types without [StdAddr] and [VarAddr], which are only some of the addresses. *)
Definition any_key (k : kty) : bool := match k with KTStdAddr | KTVarAddr => false | _ => true end.
Fixpoint any_address (t : rty) : bool :=
  match t with
  | RKey k => any_key k
  | RBox t | ROpt t | RVec t | RFixed t _ => any_address t
  | RMap k t => any_key k && any_address t
  | RTuple ts => forallb any_address ts
  | _ => true
  end.

(** What is left out of encoding (C57_*_refuted, C75_split_depth_refuted): types with arrays of a
    fixed length (other than of bytes) or empty tuples ... *)
Fixpoint sendable_type (t : rty) : bool :=
  match t with
  | RBox t | ROpt t | RVec t | RMap _ t => sendable_type t
  | RFixed t _ => is_u8 t
  | RTuple [] => false
  | RTuple ts => forallb sendable_type ts
  | _ => true
  end.
(** ... split depths above 31, 2^32 elements, keys that do not have the length of a key, and before
    version 2.2 empty maps.  As in C57 a map is listed by the bits of its keys. *)
Section Sendable.
Context (v : version).
Definition sendable_key (k : kty) : rust_key k -> Prop := match k return rust_key k -> Prop with KTSplit => fun x => x < 32 | _ => fun _ => True end.
Fixpoint sendable (t : rty) : rust t -> Prop :=
  match t return rust t -> Prop with
  | RKey k => sendable_key k
  | RBox t => sendable t
  | ROpt t => fun o => match o with Some r => sendable t r | None => True end
  | RVec t => fun l => N.of_nat (length l) < 2 ^ 32 /\ all (sendable t) l
  | RMap k t => fun l =>
    (use_max v = true \/ l <> []) /\ all (fun e => sendable t (snd e)) l /\
    exists keys, Forall2 (fun e b => key_layout (into_plain k (fst e)) (plain_type k) b) l keys /\ StronglySorted (before false false) keys
  | RTuple ts => (fix go (ts : list rty) : rusts ts -> Prop :=
      match ts return rusts ts -> Prop with [] => fun _ => True | t :: ts => fun r => sendable t (fst r) /\ go ts (snd r) end) ts
  | _ => fun _ => True
  end.
End Sendable.
