(** * Initial data and storage fields of contracts: src/abi/contract.rs:22-222

    Names of fields are their bytes.  A [HashMap] is the list of its entries in the order its iterator
    happens to take, without repeated keys.  Every [AbiError] is [InvalidData]; public keys are their
    bytes. *)
From Verif Require Import Err IntModel NumModel AddrModel BigIntModel CellModel ChunkModel DictModel CurrencyModel AbiModel CallModel.
Local Open Scope N_scope.

(** contract.rs:22-46 [Contract]; names of functions, events and storage fields are left out *)
Definition field : Type := list N * (N * aty).
Record contract := Contract { k_version : version; k_functions : list func; k_events : list event; k_init : list field; k_fields : list aty }.

(** contract.rs:50-54 [find_function_by_id]; 57-59 [find_event_by_id] *)
Definition find_function_by_id (k : contract) (id : N) (input : bool) : option func :=
  List.find (fun f => input && (f_input_id f =? id) || negb input && (f_output_id f =? id)) (k_functions k).
Definition find_event_by_id (k : contract) (id : N) : option event := List.find (fun e => e_id e =? id) (k_events k).

(** value/mod.rs:404-437 [make_default_value]; address.rs:26-31, 236 [Default] *)
Fixpoint default_value (t : aty) : aval :=
  match t with
  | TUint n => VUint n 0 | TInt n => VInt n 0 | TVarUint n => VVarUint n 0 | TVarInt n => VVarInt n 0
  | TBool => VBool false | TCell => VCell (Cell false [] []) | TAddr => VAddr (IStd (StdAddr None 0 (replicate 32 0)))
  | TBytes => VBytes [] | TFixedBytes len => VFixedBytes (replicate len 0) | TString => VString [] | TToken => VToken 0
  | TTuple ts => VTuple (map default_value ts)
  | TArray t => VArray t []
  | TFixedArray t len => VFixedArray t (replicate len (default_value t))
  | TMap k t => VMap k t []
  | TOpt t => VOpt t None
  | TRef t => VRef (default_value t)
  end.

(** [HashMap::get], [HashMap::remove] *)
Definition named {A} (name : list N) (e : list N * A) : bool := bool_decide (fst e = name).
Definition field_get {A} (name : list N) (l : list (list N * A)) : option A := option_map snd (List.find (named name) l).
Definition field_remove {A} (name : list N) (l : list (list N * A)) : list (list N * A) := List.filter (fun e => negb (named name e)) l.

Section Init.
Context (fin : list bool -> list cell -> res unit) (utf8 : list N -> bool).
Context (sorted : forall A : Type, list (pval * A) -> list (pval * A)).

(** contract.rs:87-93, 139-145, 154-162: the value of a field under the key of the field; 97-104,
    168-174: the public key under the key 0.  [check_type]: value/mod.rs:56-66. *)
Definition set_field (v : version) (key : N) (x : aval) (d : option cell) : res (option cell) :=
  let? b := make_builder fin sorted v x in
  let? (_, d) := dict_insert fin d (nbits 64 key) 64 b MSet in Ok d.
Definition set_pubkey (pubkey : list N) (d : option cell) : res (option cell) :=
  let? (_, d) := dict_insert fin d (nbits 64 0) 64 (bytes_bits pubkey, []) MSet in Ok d.
Definition check_type (x : aval) (t : aty) : res unit := if has_type x t then Ok tt else Err InvalidData.
(** [CellBuilder::build_from_ext] of the dictionary; [parse::<RawDict<64>>] *)
Definition dict_cell (d : option cell) : res cell := let? b := store_dict d empty_b in build fin b.
Definition parse_dict (c : cell) : res (option cell) := let? s := as_slice c in let? (d, _) := sl_dict s in Ok d.

(** contract.rs:65-108 [update_init_data] *)
Fixpoint update_fields (k : contract) (tokens : list (list N * aval)) (d : option cell) : res (option cell) :=
  match tokens with
  | [] => Ok d
  | (name, x) :: tokens =>
    match field_get name (k_init k) with
    | None => Err InvalidData
    | Some (key, t) =>
      let? _ := check_type x t in
      let? d := set_field (k_version k) key x d in
      update_fields k tokens d
    end
  end.
Definition update_init_data (k : contract) (pubkey : option (list N)) (tokens : list (list N * aval)) (data : cell) : res cell :=
  let? d := parse_dict data in
  match pubkey, tokens with
  | None, [] => Ok data
  | _, _ =>
    let? d := update_fields k tokens d in
    let? d := (match pubkey with Some p => set_pubkey p d | None => Ok d end) in
    dict_cell d
  end.

(** contract.rs:114-178 [encode_init_data].  [shuffle]: the order of the second hash map. *)
Section Encode.
Context (shuffle : list field -> list field).
Fixpoint write_given (v : version) (todo : list field) (tokens : list (list N * aval)) (d : option cell) : res (list field * option cell) :=
  match tokens with
  | [] => Ok (todo, d)
  | (name, x) :: tokens =>
    match field_get name todo with
    | None => Err InvalidData
    | Some (key, t) =>
      let? _ := check_type x t in
      let? d := set_field v key x d in
      write_given v (field_remove name todo) tokens d
    end
  end.
Fixpoint write_defaults (v : version) (todo : list field) (d : option cell) : res (option cell) :=
  match todo with
  | [] => Ok d
  | (_, (key, t)) :: todo =>
    let? d := set_field v key (default_value t) d in
    write_defaults v todo d
  end.
Definition encode_init_data (k : contract) (pubkey : list N) (tokens : list (list N * aval)) : res cell :=
  let? (todo, d) := write_given (k_version k) (k_init k) tokens None in
  let? d := write_defaults (k_version k) (shuffle todo) d in
  let? d := set_pubkey pubkey d in
  dict_cell d.
End Encode.

(** contract.rs:181-196 [decode_init_data].  [leaf]: the cell an entry lies in, which is looked at in
    version 1 only. *)
Section Decode.
Context (leaf : chunk -> cell).
Definition read_field (v : version) (d : option cell) (key : N) (t : aty) : res aval :=
  let? o := dict_get d 64 (nbits 64 key) in
  match o with
  | None => Err InvalidData
  | Some b => whole false (load utf8 v t true false) (Sl (leaf b) (fst b) (snd b))
  end.
Fixpoint read_fields (v : version) (d : option cell) (l : list field) : res (list (list N * aval)) :=
  match l with
  | [] => Ok []
  | (name, (key, t)) :: l =>
    let? x := read_field v d key t in
    let? r := read_fields v d l in
    Ok ((name, x) :: r)
  end.
Definition decode_init_data (k : contract) (data : cell) : res (list (list N * aval)) :=
  let? d := parse_dict data in read_fields (k_version k) d (k_init k).
End Decode.

(** contract.rs:199-202 [encode_fields]; 205-222 [decode_fields], [decode_fields_ext] *)
Definition encode_fields (k : contract) (tokens : list aval) : res chunk :=
  let? _ := check_types tokens (k_fields k) in tuple_to_builder fin sorted (k_version k) tokens.
Definition decode_fields (k : contract) (partial : bool) (s : sl) : res (list aval) :=
  let? (l, s) := load_all utf8 (k_version k) (k_fields k) true partial s in
  let? _ := check_remaining partial s in Ok l.
End Init.
