(** * ABI types, versions and signatures as text: src/abi/ty.rs, src/abi/mod.rs, and the parsing of
    contracts in src/abi/contract.rs

    Text is a list of bytes (TextModel).  Simplified: the kinds of parse errors are not told apart
    ([None]).  JSON is the tree of the fields that are asked for: what [serde] makes of it. *)
From Coq Require Import String Ascii.
From Verif Require Import Err IntModel TextModel CellModel AbiModel CallModel InitModel.
Local Open Scope N_scope.

(** ** The standard library: literals and [str] *)
Definition txt (s : string) : list N := map N_of_ascii (list_ascii_of_string s).
(** [strip_prefix] of a text, [strip_suffix] of a character, [split_once], [rsplit_once] *)
Fixpoint strip_prefix (p s : list N) : option (list N) :=
  match p, s with
  | [], _ => Some s
  | x :: p, y :: s => if x =? y then strip_prefix p s else None
  | _, [] => None
  end.
Definition strip_suffix (c : N) (s : list N) : option (list N) :=
  match rev s with
  | x :: r => if x =? c then Some (rev r) else None
  | [] => None
  end.
Fixpoint split_once (c : N) (s : list N) : option (list N * list N) :=
  match s with
  | [] => None
  | x :: s =>
    if x =? c then Some ([], s)
    else match split_once c s with Some (a, b) => Some (x :: a, b) | None => None end
  end.
Definition rsplit_once (c : N) (s : list N) : option (list N * list N) :=
  match split_once c (rev s) with Some (a, b) => Some (rev b, rev a) | None => None end.
Definition COMMA : N := 44. Definition OPEN : N := 40. Definition CLOSE : N := 41. Definition LEFT : N := 91. Definition RIGHT : N := 93. Definition DOT : N := 46.
(** The loops that write a comma in front of every item but the first *)
Definition join (l : list (list N)) : list N :=
  match l with [] => [] | x :: l => x ++ concat (map (fun y => COMMA :: y) l) end.

(** ** Types as text *)
(** ty.rs:857-867 [Display] of [PlainAbiType]; 833-855 [from_str] *)
Definition show_pty (k : pty) : list N :=
  match k with
  | PUint n => txt "uint" ++ show_dec n
  | PInt n => txt "int" ++ show_dec n
  | PBool => txt "bool"
  | PAddr => txt "address"
  end.
Definition parse_u16 (s : list N) : option N := parse_unsigned 10 65535 s.
Definition parse_pty (s : list N) : option pty :=
  if bool_decide (s = txt "bool") then Some PBool
  else if bool_decide (s = txt "address") then Some PAddr
  else match strip_prefix (txt "uint") s with
       | Some s => option_map PUint (parse_u16 s)
       | None =>
         match strip_prefix (txt "int") s with
         | Some s => option_map PInt (parse_u16 s)
         | None => None
         end
       end.
(** ty.rs:641-678 [Display] of [AbiType]: what signatures are made of *)
Fixpoint show_aty (t : aty) : list N :=
  match t with
  | TUint n => txt "uint" ++ show_dec n
  | TInt n => txt "int" ++ show_dec n
  | TVarUint n => txt "varuint" ++ show_dec n
  | TVarInt n => txt "varint" ++ show_dec n
  | TBool => txt "bool"
  | TCell => txt "cell"
  | TAddr => txt "address"
  | TBytes => txt "bytes"
  | TFixedBytes n => txt "fixedbytes" ++ show_dec (N.of_nat n)
  | TString => txt "string"
  | TToken => txt "gram"
  | TTuple ts => OPEN :: join (map show_aty ts) ++ [CLOSE]
  | TArray t => show_aty t ++ [LEFT; RIGHT]
  | TFixedArray t n => show_aty t ++ LEFT :: show_dec (N.of_nat n) ++ [RIGHT]
  | TMap k t => txt "map(" ++ show_pty k ++ COMMA :: show_aty t ++ [CLOSE]
  | TOpt t => txt "optional(" ++ show_aty t ++ [CLOSE]
  | TRef t => txt "ref(" ++ show_aty t ++ [CLOSE]
  end.

(** ** Types with the names of their components (ty.rs:16-22 [NamedAbiType], 288-335 [AbiType]) *)
Inductive base :=
| BUint (n : N) | BInt (n : N) | BVarUint (n : N) | BVarInt (n : N) | BBool | BCell | BAddr
| BBytes | BFixedBytes (len : nat) | BString | BToken.
Inductive nty :=
| NBase (b : base) | NTuple (l : list (list N * nty)) | NArray (t : nty) | NFixedArray (t : nty) (len : nat)
| NMap (k : pty) (t : nty) | NOpt (t : nty) | NRef (t : nty).
(** mod.rs:90-107 [WithoutName]: without the names *)
Definition unbase (b : base) : aty :=
  match b with
  | BUint n => TUint n | BInt n => TInt n | BVarUint n => TVarUint n | BVarInt n => TVarInt n
  | BBool => TBool | BCell => TCell | BAddr => TAddr | BBytes => TBytes | BFixedBytes len => TFixedBytes len
  | BString => TString | BToken => TToken
  end.
Fixpoint unnamed (t : nty) : aty :=
  match t with
  | NBase b => unbase b
  | NTuple l => TTuple (map (fun p => match p with (_, t) => unnamed t end) l)
  | NArray t => TArray (unnamed t)
  | NFixedArray t n => TFixedArray (unnamed t) n
  | NMap k t => TMap k (unnamed t)
  | NOpt t => TOpt (unnamed t)
  | NRef t => TRef (unnamed t)
  end.

(** ty.rs:680-698 [DisplayAbiTypeSimple] *)
Fixpoint show_simple (t : nty) : list N :=
  match t with
  | NBase b => show_aty (unbase b)
  | NTuple _ => txt "tuple"
  | NArray t => show_simple t ++ [LEFT; RIGHT]
  | NFixedArray t n => show_simple t ++ LEFT :: show_dec (N.of_nat n) ++ [RIGHT]
  | NMap k t => txt "map(" ++ show_pty k ++ COMMA :: show_simple t ++ [CLOSE]
  | NOpt t => txt "optional(" ++ show_simple t ++ [CLOSE]
  | NRef t => txt "ref(" ++ show_simple t ++ [CLOSE]
  end.
(** [parse::<usize>], [parse::<NonZeroU8>] *)
Definition parse_usize (s : list N) : option nat := option_map N.to_nat (parse_unsigned 10 (2 ^ 64 - 1) s).
Definition parse_nz8 (s : list N) : option N :=
  match parse_unsigned 10 255 s with Some n => if n =? 0 then None else Some n | None => None end.
(** ty.rs:569-575: the names without parentheses *)
Definition parse_base (s : list N) : option base :=
  if bool_decide (s = txt "bool") then Some BBool
  else if bool_decide (s = txt "cell") then Some BCell
  else if bool_decide (s = txt "address") then Some BAddr
  else if bool_decide (s = txt "bytes") then Some BBytes
  else if bool_decide (s = txt "string") then Some BString
  else if bool_decide (s = txt "gram") || bool_decide (s = txt "token") then Some BToken
  else None.
(** ty.rs:548-627 [from_simple_str]; the text of every call is shorter *)
Fixpoint parse_simple (fuel : nat) (s : list N) : option nty :=
  match fuel with
  | O => None
  | S fuel =>
    match strip_suffix RIGHT s with
    | Some arr =>
      match rsplit_once LEFT arr with
      | None => None
      | Some (ty, len) =>
        match len with
        | [] => option_map NArray (parse_simple fuel ty)
        | _ =>
          match parse_usize len with
          | None => None
          | Some len => option_map (fun t => NFixedArray t len) (parse_simple fuel ty)
          end
        end
      end
    | None =>
      match parse_base s with
      | Some b => Some (NBase b)
      | None =>
        if bool_decide (s = txt "tuple") then Some (NTuple [])
        else match strip_prefix (txt "uint") s with
        | Some s => option_map (fun n => NBase (BUint n)) (parse_u16 s)
        | None => match strip_prefix (txt "int") s with
        | Some s => option_map (fun n => NBase (BInt n)) (parse_u16 s)
        | None => match strip_prefix (txt "varuint") s with
        | Some s => option_map (fun n => NBase (BVarUint n)) (parse_nz8 s)
        | None => match strip_prefix (txt "varint") s with
        | Some s => option_map (fun n => NBase (BVarInt n)) (parse_nz8 s)
        | None => match strip_prefix (txt "fixedbytes") s with
        | Some s => option_map (fun n => NBase (BFixedBytes n)) (parse_usize s)
        | None => match strip_prefix (txt "map(") s with
        | Some s =>
          match strip_suffix CLOSE s with
          | None => None
          | Some s =>
            match split_once COMMA s with
            | None => None
            | Some (k, v) =>
              match parse_pty k with
              | None => None
              | Some k => option_map (NMap k) (parse_simple fuel v)
              end
            end
          end
        | None => match strip_prefix (txt "optional(") s with
        | Some s => match strip_suffix CLOSE s with None => None | Some s => option_map NOpt (parse_simple fuel s) end
        | None => match strip_prefix (txt "ref(") s with
        | Some s => match strip_suffix CLOSE s with None => None | Some s => option_map NRef (parse_simple fuel s) end
        | None => None
        end end end end end end end end
      end
    end
  end.
Definition from_simple_str (s : list N) : option nty := parse_simple (S (length s)) s.

(** ** JSON of a named type: ty.rs:71-92 [Serialize], 94-154 [Deserialize] *)
Inductive json := Json (name ty : list N) (components : option (list json)).
(** ty.rs:424-434 [components], for every component its JSON *)
Fixpoint json_components (t : nty) : option (list json) :=
  match t with
  | NTuple l => Some (map (fun p => match p with (name, t) => Json name (show_simple t) (json_components t) end) l)
  | NArray t | NFixedArray t _ | NMap _ t | NOpt t | NRef t => json_components t
  | NBase _ => None
  end.
Definition to_json (p : list N * nty) : json := Json (fst p) (show_simple (snd p)) (json_components (snd p)).
(** ty.rs:436-446 [components_mut]: is there a tuple, and with other components *)
Fixpoint has_components (t : nty) : bool :=
  match t with
  | NTuple _ => true
  | NArray t | NFixedArray t _ | NMap _ t | NOpt t | NRef t => has_components t
  | NBase _ => false
  end.
Fixpoint set_components (l : list (list N * nty)) (t : nty) : nty :=
  match t with
  | NTuple _ => NTuple l
  | NArray t => NArray (set_components l t)
  | NFixedArray t n => NFixedArray (set_components l t) n
  | NMap k t => NMap k (set_components l t)
  | NOpt t => NOpt (set_components l t)
  | NRef t => NRef (set_components l t)
  | NBase b => NBase b
  end.
Fixpoint all_some {A} (l : list (option A)) : option (list A) :=
  match l with
  | [] => Some []
  | Some x :: l => match all_some l with Some r => Some (x :: r) | None => None end
  | None :: _ => None
  end.
Fixpoint of_json (j : json) : option (list N * nty) :=
  match j with
  | Json name ty components =>
    match from_simple_str ty with
    | None => None
    | Some t =>
      match has_components t, components with
      | true, Some cs => match all_some (map of_json cs) with Some l => Some (name, set_components l t) | None => None end
      | false, None => Some (name, t)
      | _, _ => None
      end
    end
  end.

(** ** Versions: mod.rs:65-82 [from_str], 84-88 [Display] *)
Definition show_version (v : version) : list N := show_dec (v_major v) ++ DOT :: show_dec (v_minor v).
Definition parse_version (s : list N) : option version :=
  match split_once DOT s with
  | None => None
  | Some (a, b) =>
    match parse_unsigned 10 255 a, parse_unsigned 10 255 b with
    | Some x, Some y => Some (Version x y)
    | _, _ => None
    end
  end.
(** ty.rs:241-262 [AbiHeaderType] *)
Definition show_header (h : htype) : list N := match h with HTime => txt "time" | HExpire => txt "expire" | HPubkey => txt "pubkey" end.
Definition parse_header (s : list N) : option htype :=
  if bool_decide (s = txt "time") then Some HTime
  else if bool_decide (s = txt "expire") then Some HExpire
  else if bool_decide (s = txt "pubkey") then Some HPubkey
  else None.

(** ** Signatures: contract.rs:1224-1268 [FunctionSignatureRaw], 1270-1296 [EventSignatureRaw] *)
Definition function_text (v : version) (name : list N) (headers : list htype) (inputs outputs : list aty) : list N :=
  name ++ OPEN :: join ((if v_major v =? 1 then map show_header headers else []) ++ map show_aty inputs)
  ++ CLOSE :: OPEN :: join (map show_aty outputs) ++ CLOSE :: txt "v" ++ show_dec (v_major v).
Definition event_text (v : version) (name : list N) (inputs : list aty) : list N :=
  name ++ OPEN :: join (map show_aty inputs) ++ CLOSE :: txt "v" ++ show_dec (v_major v).

Section Ids.
Context (sha256 : list N -> list N).
(** contract.rs:403-423 [compute_function_id], 940-954 [compute_event_id] *)
Definition compute_function_id v name headers inputs outputs : N := from_be (take 4 (sha256 (function_text v name headers inputs outputs))).
Definition compute_event_id v name inputs : N := from_be (take 4 (sha256 (event_text v name inputs))).

(** ** Contracts: contract.rs:224-374 [Deserialize] *)
Record json_function := JFunction { jf_name : list N; jf_inputs : list json; jf_outputs : list json; jf_id : option (list N) }.
Record json_event := JEvent { je_name : list N; je_inputs : list json; je_id : option (list N) }.
Record json_contract := JContract {
  jc_abi : option N; jc_version : option (list N); jc_header : list (list N); jc_functions : list json_function;
  jc_events : list json_event; jc_data : list (N * json); jc_fields : list json
}.
(** What is kept; the names of arguments are left out *)
Record named_contract := NContract {
  nc_version : version; nc_headers : list htype; nc_functions : list (list N * func); nc_events : list (list N * event);
  nc_init : list (list N * (N * nty)); nc_fields : list (list N * nty)
}.
(** 231-247: hexadecimal identifiers *)
Definition parse_id (s : option (list N)) : option (option N) :=
  match s with
  | None => Some None
  | Some s =>
    match strip_prefix (txt "0x") s with
    | None => None
    | Some s => match parse_unsigned 16 (2 ^ 32 - 1) s with Some x => Some (Some x) | None => None end
    end
  end.
(** [collect] into a [HashMap]: a later entry replaces an earlier one with its key *)
Definition collect_map {A} (l : list (list N * A)) : list (list N * A) :=
  fold_left (fun m e => field_remove (fst e) m ++ [e]) l [].
Definition types_of (l : list (list N * nty)) : list aty := map (fun p => unnamed (snd p)) l.
Definition read_function (v : version) (headers : list htype) (f : json_function) : option (list N * func) :=
  match all_some (map of_json (jf_inputs f)), all_some (map of_json (jf_outputs f)), parse_id (jf_id f) with
  | Some ins, Some outs, Some id =>
    Some (jf_name f, func_build v headers (types_of ins) (types_of outs) id (compute_function_id v (jf_name f) headers (types_of ins) (types_of outs)))
  | _, _, _ => None
  end.
Definition read_event (v : version) (e : json_event) : option (list N * event) :=
  match all_some (map of_json (je_inputs e)), parse_id (je_id e) with
  | Some ins, Some id => Some (je_name e, event_build v (types_of ins) id (compute_event_id v (je_name e) (types_of ins)))
  | _, _ => None
  end.
Definition read_datum (d : N * json) : option (list N * (N * nty)) :=
  match of_json (snd d) with Some (name, t) => Some (name, (fst d, t)) | None => None end.
Definition read_version (c : json_contract) : option version :=
  match jc_version c, jc_abi c with
  | Some s, _ => parse_version s
  | None, Some major => Some (Version major 0)
  | None, None => None
  end.
Definition read_contract (c : json_contract) : option named_contract :=
  match read_version c, all_some (map parse_header (jc_header c)) with
  | Some v, Some headers =>
    match all_some (map (read_function v headers) (jc_functions c)), all_some (map (read_event v) (jc_events c)),
          all_some (map read_datum (jc_data c)), all_some (map of_json (jc_fields c)) with
    | Some fs, Some es, Some ds, Some fields => Some (NContract v headers (collect_map fs) (collect_map es) (collect_map ds) fields)
    | _, _, _, _ => None
    end
  | _, _ => None
  end.
End Ids.
