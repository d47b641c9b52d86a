(** * Rust values as ABI values: src/abi/traits.rs

    Left out: the types that have an ABI type but no conversion ([VarUint248], [Lazy<T>]); [AbiValue]
    and [PlainAbiValue] as Rust types (the conversions are the identity); references and [Rc]/[Arc],
    which behave as [Box].  [as_abi] and [into_abi] differ only in what they consume.  Names of tuple
    components are left out, as in AbiModel.  Every [AbiError] is [InvalidData]. *)
From Verif Require Import Err IntModel NumModel AddrModel BigIntModel BigIntSpec CellModel AbiModel.
Local Open Scope N_scope.

(** Widths of machine integers. *)
Inductive width := W8 | W16 | W32 | W64 | W128.
Definition wbits (w : width) : N := match w with W8 => 8 | W16 => 16 | W32 => 32 | W64 => 64 | W128 => 128 end.
(** [Uint9], [Uint12], [Uint15] *)
Inductive small_int := S9 | S12 | S15.
Definition sbits (s : small_int) : N := match s with S9 => 9 | S12 => 12 | S15 => 15 end.

(** The Rust types that can be keys of maps (traits.rs:357-380 [impl_with_plain_abi_type]). *)
Inductive kty := KTUint (w : width) | KTInt (w : width) | KTHash | KTSplit | KTSmall (s : small_int) | KTBool | KTIntAddr | KTStdAddr | KTVarAddr.
(** The Rust types with conversions.  [RBox] is [Box<T>]; [RMap] is [BTreeMap<K, V>] or [HashMap<K, V>]. *)
Inductive rty :=
| RKey (k : kty) | RVarUint24 | RVarUint56 | RTokens | RCell | RBytes | RString
| RBox (t : rty) | ROpt (t : rty) | RVec (t : rty) | RFixed (t : rty) (n : nat) | RMap (k : kty) (t : rty) | RTuple (ts : list rty).

(** The values of these types.  Machine integers, token amounts and small integers are numbers,
    [HashBytes] and byte strings are bytes; a map is its entries. *)
Definition rust_key (k : kty) : Type :=
  match k with
  | KTUint _ | KTSplit | KTSmall _ => N
  | KTInt _ => Z
  | KTHash => list N
  | KTBool => bool
  | KTIntAddr => int_addr
  | KTStdAddr => std_addr
  | KTVarAddr => var_addr
  end.
Fixpoint rust (t : rty) : Type :=
  match t with
  | RKey k => rust_key k
  | RVarUint24 | RVarUint56 | RTokens => N
  | RCell => cell
  | RBytes | RString => list N
  | RBox t => rust t
  | ROpt t => option (rust t)
  | RVec t | RFixed t _ => list (rust t)
  | RMap k t => list (rust_key k * rust t)
  | RTuple ts => fold_right (fun t R => (rust t * R)%type) unit ts
  end.
Definition rusts (ts : list rty) : Type := fold_right (fun t R => (rust t * R)%type) unit ts.

#[global] Instance anycast_eq_dec : EqDecision anycast. Proof. solve_decision. Defined.
#[global] Instance std_addr_eq_dec : EqDecision std_addr. Proof. solve_decision. Defined.
#[global] Instance var_addr_eq_dec : EqDecision var_addr. Proof. solve_decision. Defined.
#[global] Instance int_addr_eq_dec : EqDecision int_addr. Proof. solve_decision. Defined.
#[global] Instance rust_key_eq_dec k : EqDecision (rust_key k). Proof. destruct k; apply _. Defined.

(** [typeid::of::<T>() == typeid::of::<u8>()] *)
Definition is_u8 (t : rty) : bool := match t with RKey (KTUint W8) => true | _ => false end.

(** ** Types: traits.rs:341-380 [plain_abi_type], 177-339 [abi_type] *)
Definition plain_type (k : kty) : pty :=
  match k with
  | KTUint w => PUint (wbits w)
  | KTInt w => PInt (wbits w)
  | KTHash => PUint 256
  | KTSplit => PUint 5
  | KTSmall s => PUint (sbits s)
  | KTBool => PBool
  | KTIntAddr | KTStdAddr | KTVarAddr => PAddr
  end.
Definition key_type (k : kty) : aty :=
  match k with
  | KTUint w => TUint (wbits w)
  | KTInt w => TInt (wbits w)
  | KTHash => TUint 256
  | KTSplit => TUint 5
  | KTSmall s => TUint (sbits s)
  | KTBool => TBool
  | KTIntAddr | KTStdAddr | KTVarAddr => TAddr
  end.
Fixpoint abi_type (t : rty) : aty :=
  match t with
  | RKey k => key_type k
  | RVarUint24 => TVarUint 4
  | RVarUint56 => TVarUint 8
  | RTokens => TToken
  | RCell => TCell
  | RBytes => TBytes
  | RString => TString
  | RBox t => abi_type t
  | ROpt t => TOpt (abi_type t)
  | RVec t => if is_u8 t then TBytes else TArray (abi_type t)
  | RFixed t n => if is_u8 t then TFixedBytes n else TFixedArray (abi_type t) n
  | RMap k t => TMap (plain_type k) (abi_type t)
  | RTuple ts => TTuple (map abi_type ts)
  end.

(** ** Into ABI values: traits.rs:382-498 [into_plain_abi], 500-850 [into_abi].  [BigUint::from] and
    [BigInt::from] keep the number, [from_bytes_be] is [from_be]. *)
Definition into_plain (k : kty) : rust_key k -> pval :=
  match k with
  | KTUint w => fun x => KUint (wbits w) x
  | KTInt w => fun x => KInt (wbits w) x
  | KTHash => fun bs => KUint 256 (from_be bs)
  | KTSplit => fun x => KUint 5 x
  | KTSmall s => fun x => KUint (sbits s) x
  | KTBool => fun b => KBool b
  | KTIntAddr => fun a => KAddr a
  | KTStdAddr => fun a => KAddr (IStd a)
  | KTVarAddr => fun a => KAddr (IVar a)
  end.
Definition into_key (k : kty) : rust_key k -> aval :=
  match k with
  | KTUint w => fun x => VUint (wbits w) x
  | KTInt w => fun x => VInt (wbits w) x
  | KTHash => fun bs => VUint 256 (from_be bs)
  | KTSplit => fun x => VUint 5 x
  | KTSmall s => fun x => VUint (sbits s) x
  | KTBool => fun b => VBool b
  | KTIntAddr => fun a => VAddr a
  | KTStdAddr => fun a => VAddr (IStd a)
  | KTVarAddr => fun a => VAddr (IVar a)
  end.
(** 654-720: a slice of [u8] as bytes; for other types it is not used. *)
Definition as_bytes (t : rty) : list (rust t) -> list N :=
  match t with RKey (KTUint W8) => fun l => l | _ => fun _ => [] end.
Fixpoint into_abi (t : rty) : rust t -> aval :=
  match t with
  | RKey k => into_key k
  | RVarUint24 => fun x => VVarUint 4 x
  | RVarUint56 => fun x => VVarUint 8 x
  | RTokens => fun x => VToken x
  | RCell => fun c => VCell c
  | RBytes => fun bs => VBytes bs
  | RString => fun bs => VString bs
  | RBox t => into_abi t
  | ROpt t => fun o => VOpt (abi_type t) (option_map (into_abi t) o)
  | RVec t => fun l => if is_u8 t then VBytes (as_bytes t l) else VArray (abi_type t) (map (into_abi t) l)
  | RFixed t n => fun l => if is_u8 t then VFixedBytes (as_bytes t l) else VFixedArray (abi_type t) (map (into_abi t) l)
  | RMap k t => fun l => VMap (plain_type k) (abi_type t) (map (fun e => (into_plain k (fst e), into_abi t (snd e))) l)
  | RTuple ts => fun r => VTuple ((fix go (ts : list rty) : rusts ts -> list aval :=
      match ts with [] => fun _ => [] | t :: ts => fun r => into_abi t (fst r) :: go ts (snd r) end) ts r)
  end.
Fixpoint into_abis (ts : list rty) : rusts ts -> list aval :=
  match ts with [] => fun _ => [] | t :: ts => fun r => into_abi t (fst r) :: into_abis ts (snd r) end.

(** ** From ABI values: traits.rs:878-918 [impl_from_abi_for_int], 920-1234.  There is no conversion
    into [SplitDepth], [Uint9], [Uint12], [Uint15] and [[T; N]] ([readable]). *)
(** num-traits [ToPrimitive] *)
Definition to_unsigned (w : width) (x : N) : res N := if x <? 2 ^ wbits w then Ok x else Err IntOverflow.
Definition to_signed (w : width) (x : Z) : res Z :=
  if ((- 2 ^ (Z.of_N (wbits w) - 1) <=? x) && (x <? 2 ^ (Z.of_N (wbits w) - 1)))%Z then Ok x else Err IntOverflow.
(** 982-1020: the low 32 bytes of [to_bytes_be], after zeros *)
Definition to_hash (x : N) : list N :=
  let bytes := rev (to_bytes_le x) in
  if (32 <? length bytes)%nat then drop (length bytes - 32) bytes else replicate (32 - length bytes) 0 ++ bytes.
Definition from_plain (k : kty) (x : pval) : res (rust_key k) :=
  match k return res (rust_key k) with
  | KTUint w => match x with KUint n x => if n =? wbits w then to_unsigned w x else Err InvalidData | _ => Err InvalidData end
  | KTInt w => match x with KInt n x => if n =? wbits w then to_signed w x else Err InvalidData | _ => Err InvalidData end
  | KTHash => match x with KUint n x => if n =? 256 then Ok (to_hash x) else Err InvalidData | _ => Err InvalidData end
  | KTSplit | KTSmall _ => Err InvalidData
  | KTBool => match x with KBool b => Ok b | _ => Err InvalidData end
  | KTIntAddr => match x with KAddr a => Ok a | _ => Err InvalidData end
  | KTStdAddr => match x with KAddr (IStd a) => Ok a | _ => Err InvalidData end
  | KTVarAddr => match x with KAddr (IVar a) => Ok a | _ => Err InvalidData end
  end.
Definition from_key (k : kty) (x : aval) : res (rust_key k) :=
  match k return res (rust_key k) with
  | KTUint w => match x with VUint n x => if n =? wbits w then to_unsigned w x else Err InvalidData | _ => Err InvalidData end
  | KTInt w => match x with VInt n x => if n =? wbits w then to_signed w x else Err InvalidData | _ => Err InvalidData end
  | KTHash => match x with VUint n x => if n =? 256 then Ok (to_hash x) else Err InvalidData | _ => Err InvalidData end
  | KTSplit | KTSmall _ => Err InvalidData
  | KTBool => match x with VBool b => Ok b | _ => Err InvalidData end
  | KTIntAddr => match x with VAddr a => Ok a | _ => Err InvalidData end
  | KTStdAddr => match x with VAddr (IStd a) => Ok a | _ => Err InvalidData end
  | KTVarAddr => match x with VAddr (IVar a) => Ok a | _ => Err InvalidData end
  end.
(** 1111-1122: bytes as a vector of [u8]; for other types it is not used. *)
Definition of_bytes (t : rty) : list N -> res (list (rust t)) :=
  match t with RKey (KTUint W8) => fun l => Ok l | _ => fun _ => Err InvalidData end.
(** 1111-1134: [for item in items { result.push(ok!(T::from_abi(item))) }] *)
Fixpoint collect {A B} (f : A -> res B) (l : list A) : res (list B) :=
  match l with [] => Ok [] | x :: l => let? y := f x in let? ys := collect f l in Ok (y :: ys) end.
(** 1136-1166: [BTreeMap::insert], [HashMap::insert]: a later value replaces an earlier one of the same key *)
Fixpoint insert_entry {K V} `{EqDecision K} (k : K) (y : V) (m : list (K * V)) : list (K * V) :=
  match m with
  | [] => [(k, y)]
  | (k', y') :: m => if decide (k = k') then (k', y) :: m else (k', y') :: insert_entry k y m
  end.
Fixpoint collect_map {A B K V} `{EqDecision K} (f : A -> res K) (g : B -> res V) (l : list (A * B)) (m : list (K * V)) : res (list (K * V)) :=
  match l with
  | [] => Ok m
  | (a, b) :: l => let? k := f a in let? y := g b in collect_map f g l (insert_entry k y m)
  end.
Fixpoint from_abi (t : rty) (x : aval) {struct t} : res (rust t) :=
  match t return res (rust t) with
  | RKey k => from_key k x
  | RVarUint24 => match x with VVarUint n x => if n =? 4 then to_unsigned W32 x else Err InvalidData | _ => Err InvalidData end
  | RVarUint56 => match x with VVarUint n x => if n =? 8 then to_unsigned W64 x else Err InvalidData | _ => Err InvalidData end
  | RTokens =>
    match x with
    | VVarUint n x => if n =? 16 then to_unsigned W128 x else Err InvalidData
    | VToken x => Ok x
    | _ => Err InvalidData
    end
  | RCell => match x with VCell c => Ok c | _ => Err InvalidData end
  | RBytes => match x with VBytes bs | VFixedBytes bs => Ok bs | _ => Err InvalidData end
  | RString => match x with VString bs => Ok bs | _ => Err InvalidData end
  | RBox t => from_abi t x
  | ROpt t => match x with VOpt _ (Some y) => let? y := from_abi t y in Ok (Some y) | VOpt _ None => Ok None | _ => Err InvalidData end
  | RVec t =>
    if is_u8 t then match x with VBytes bs | VFixedBytes bs => of_bytes t bs | _ => Err InvalidData end
    else match x with VArray _ l | VFixedArray _ l => collect (from_abi t) l | _ => Err InvalidData end
  | RFixed _ _ => Err InvalidData
  | RMap k t => match x with VMap _ _ l => collect_map (from_plain k) (from_abi t) l [] | _ => Err InvalidData end
  | RTuple ts =>
    match x with
    | VTuple l =>
      if (length l =? length ts)%nat then
        (fix go (ts : list rty) (l : list aval) : res (rusts ts) :=
           match ts return res (rusts ts) with
           | [] => Ok tt
           | t :: ts =>
             match l with
             | y :: l => let? r := from_abi t y in let? rs := go ts l in Ok (r, rs)
             | [] => Err Panic
             end
           end) ts l
      else Err InvalidData
    | _ => Err InvalidData
    end
  end.
Fixpoint from_abis (ts : list rty) (l : list aval) : res (rusts ts) :=
  match ts return res (rusts ts) with
  | [] => Ok tt
  | t :: ts =>
    match l with
    | y :: l => let? r := from_abi t y in let? rs := from_abis ts l in Ok (r, rs)
    | [] => Err Panic
    end
  end.
