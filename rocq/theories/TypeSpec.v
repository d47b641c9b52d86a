(** * What the text of an ABI type says *)
From Coq Require Import String.
From Verif Require Import Err NumSpec AbiModel CallModel TypeModel.
Local Open Scope N_scope.

(** Texts separated by commas, one for each item. *)
Inductive items {A : Type} (R : list N -> A -> Prop) : list N -> list A -> Prop :=
| items_none : items R [] []
| items_one s x : R s x -> items R s [x]
| items_more s x s' y l : R s x -> items R s' (y :: l) -> items R (s ++ txt "," ++ s') (x :: y :: l).
Inductive key_text : list N -> pty -> Prop :=
| key_uint n d : decimal n d -> key_text (txt "uint" ++ d) (PUint n)
| key_int n d : decimal n d -> key_text (txt "int" ++ d) (PInt n)
| key_bool : key_text (txt "bool") PBool
| key_address : key_text (txt "address") PAddr.
(** The text of a type in a signature. *)
Inductive type_text : list N -> aty -> Prop :=
| text_uint n d : decimal n d -> type_text (txt "uint" ++ d) (TUint n)
| text_int n d : decimal n d -> type_text (txt "int" ++ d) (TInt n)
| text_varuint n d : decimal n d -> type_text (txt "varuint" ++ d) (TVarUint n)
| text_varint n d : decimal n d -> type_text (txt "varint" ++ d) (TVarInt n)
| text_bool : type_text (txt "bool") TBool
| text_cell : type_text (txt "cell") TCell
| text_address : type_text (txt "address") TAddr
| text_bytes : type_text (txt "bytes") TBytes
| text_fixed_bytes n d : decimal (N.of_nat n) d -> type_text (txt "fixedbytes" ++ d) (TFixedBytes n)
| text_string : type_text (txt "string") TString
| text_gram : type_text (txt "gram") TToken
| text_tuple s ts : items type_text s ts -> type_text (txt "(" ++ s ++ txt ")") (TTuple ts)
| text_array s t : type_text s t -> type_text (s ++ txt "[]") (TArray t)
| text_fixed_array s t n d : type_text s t -> decimal (N.of_nat n) d -> type_text (s ++ txt "[" ++ d ++ txt "]") (TFixedArray t n)
| text_map s k s' t : key_text s k -> type_text s' t -> type_text (txt "map(" ++ s ++ txt "," ++ s' ++ txt ")") (TMap k t)
| text_optional s t : type_text s t -> type_text (txt "optional(" ++ s ++ txt ")") (TOpt t)
| text_ref s t : type_text s t -> type_text (txt "ref(" ++ s ++ txt ")") (TRef t).
(** The arguments of a function: the headers, in version 1 only, and the types. *)
Inductive argument_text : list N -> htype + aty -> Prop :=
| text_time : argument_text (txt "time") (inl HTime)
| text_expire : argument_text (txt "expire") (inl HExpire)
| text_pubkey : argument_text (txt "pubkey") (inl HPubkey)
| text_type s t : type_text s t -> argument_text s (inr t).
Definition arguments (v : version) (headers : list htype) (inputs : list aty) : list (htype + aty) :=
  (if v_major v =? 1 then map inl headers else []) ++ map inr inputs.
Definition signature_of_function (s : list N) (v : version) (name : list N) (headers : list htype) (inputs outputs : list aty) : Prop :=
  exists i o d, items argument_text i (arguments v headers inputs) /\ items type_text o outputs /\ decimal (v_major v) d /\
    s = name ++ txt "(" ++ i ++ txt ")(" ++ o ++ txt ")v" ++ d.
Definition signature_of_event (s : list N) (v : version) (name : list N) (inputs : list aty) : Prop :=
  exists i d, items type_text i inputs /\ decimal (v_major v) d /\ s = name ++ txt "(" ++ i ++ txt ")v" ++ d.

(** The numbers of types fit into the fields of [AbiType]. *)
Definition key_fits (k : pty) : Prop := match k with PUint n | PInt n => n < 2 ^ 16 | PBool | PAddr => True end.
Definition base_fits (b : base) : Prop :=
  match b with
  | BUint n | BInt n => n < 2 ^ 16
  | BVarUint n | BVarInt n => 1 <= n /\ n < 2 ^ 8
  | BFixedBytes n => N.of_nat n < 2 ^ 64
  | _ => True
  end.
Fixpoint fits (t : nty) : Prop :=
  match t with
  | NBase b => base_fits b
  | NTuple l => (fix all (l : list (list N * nty)) : Prop := match l with [] => True | (_, t) :: l => fits t /\ all l end) l
  | NArray t | NOpt t | NRef t => fits t
  | NFixedArray t n => fits t /\ N.of_nat n < 2 ^ 64
  | NMap k t => key_fits k /\ fits t
  end.
