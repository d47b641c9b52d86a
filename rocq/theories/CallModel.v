(** * Calls of contract functions: src/abi/contract.rs, src/abi/signature.rs, and the headers of
    src/abi/value/{ser,de}.rs

    Values, serializer and loader are those of AbiModel.  Simplified: names are left out (they are
    not stored, and types are compared without the names of arguments); every [AbiError] is
    [InvalidData]; the first four bytes of the hash of a signature text and the clock are arguments;
    in place of the hash to sign there is the cell that is hashed; public keys and signatures are
    their bytes. *)
From Verif Require Import Err IntModel NumModel AddrModel BigIntModel CellModel ChunkModel DictModel CurrencyModel AbiModel.
Local Open Scope N_scope.

(** src/abi/mod.rs:40-64: [abi_version >= AbiVersion::V2_3] *)
Definition from_2_3 (v : version) : bool := (2 <? v_major v) || (v_major v =? 2) && (3 <=? v_minor v).

(** ** Types of values (value/mod.rs:30-45 [check_types], [have_types]; 191-214 [has_type]; the
    derived [Eq] of ty.rs:286-331, 660-680) *)
Definition pty_eqb (a b : pty) : bool :=
  match a, b with
  | PUint n, PUint m | PInt n, PInt m => n =? m
  | PBool, PBool | PAddr, PAddr => true
  | _, _ => false
  end.
Definition all2 {A B} (f : A -> B -> bool) : list A -> list B -> bool :=
  fix go l r := match l, r with [], [] => true | x :: l, y :: r => f x y && go l r | _, _ => false end.
Fixpoint aty_eqb (a b : aty) {struct a} : bool :=
  match a, b with
  | TUint n, TUint m | TInt n, TInt m | TVarUint n, TVarUint m | TVarInt n, TVarInt m => n =? m
  | TBool, TBool | TCell, TCell | TAddr, TAddr | TBytes, TBytes | TString, TString | TToken, TToken => true
  | TFixedBytes n, TFixedBytes m => (n =? m)%nat
  | TTuple l, TTuple r => all2 aty_eqb l r
  | TArray s, TArray t | TOpt s, TOpt t | TRef s, TRef t => aty_eqb s t
  | TFixedArray s n, TFixedArray t m => aty_eqb s t && (n =? m)%nat
  | TMap k s, TMap l t => pty_eqb k l && aty_eqb s t
  | _, _ => false
  end.
Fixpoint has_type (x : aval) (t : aty) {struct x} : bool :=
  match x, t with
  | VUint n _, TUint m | VInt n _, TInt m | VVarUint n _, TVarUint m | VVarInt n _, TVarInt m => n =? m
  | VFixedBytes bs, TFixedBytes len => (length bs =? len)%nat
  | VTuple l, TTuple ts => all2 has_type l ts
  | VArray s _, TArray t => aty_eqb s t
  | VFixedArray s l, TFixedArray t len => (length l =? len)%nat && aty_eqb s t
  | VMap k s _, TMap l t => pty_eqb k l && aty_eqb s t
  | VOpt s _, TOpt t => aty_eqb s t
  | VRef x, TRef t => has_type x t
  | VBool _, TBool | VCell _, TCell | VAddr _, TAddr | VBytes _, TBytes | VString _, TString | VToken _, TToken => true
  | _, _ => false
  end.
Definition check_types (l : list aval) (ts : list aty) : res unit := if all2 has_type l ts then Ok tt else Err InvalidData.

(** ** Headers (ty.rs [AbiHeaderType], value/mod.rs:526-535 [AbiHeader]) *)
Inductive htype := HTime | HExpire | HPubkey.
Inductive hval := WTime (t : N) | WExpire (t : N) | WPubkey (k : option (list N)).

(** ** Functions and events (contract.rs:376-397, 926-937) *)
Record func := Func { f_version : version; f_headers : list htype; f_inputs : list aty; f_outputs : list aty; f_input_id : N; f_output_id : N }.
Record event := Event { e_version : version; e_inputs : list aty; e_id : N }.
(** contract.rs:401 *)
Definition INPUT_ID_MASK : N := 0x7fffffff.
(** contract.rs:848-871 [FunctionBuilder::build], 1026-1041 [EventBuilder::build]; [hash]: what
    [compute_function_id] or [compute_event_id] returns *)
Definition func_build (v : version) (headers : list htype) (inputs outputs : list aty) (id : option N) (hash : N) : func :=
  match id with
  | Some id => Func v headers inputs outputs id id
  | None => Func v headers inputs outputs (N.land hash INPUT_ID_MASK) (N.lor hash 0x80000000)
  end.
Definition event_build (v : version) (inputs : list aty) (id : option N) (hash : N) : event :=
  Event v inputs (match id with Some id => id | None => N.land hash INPUT_ID_MASK end).

Section Calls.
Context (fin : list bool -> list cell -> res unit).
Context (utf8 : list N -> bool) (sorted : forall A : Type, list (pval * A) -> list (pval * A)).
(** [VerifyingKey::from_bytes] *)
Context (valid_key : list N -> bool).

(** contract.rs:426-445 [encode_internal_msg_body] *)
Definition encode_body (v : version) (id : N) (tokens : list aval) : res chunk :=
  let s := fold_left (fun s x => reserve v x s) tokens (reserve v (VUint 32 id) ser_new) in
  let? s := write fin sorted v (VUint 32 id) s in
  let? s := foldm (write fin sorted v) tokens s in
  finalize fin s.
(** contract.rs:556-575, 591-610, 974-993: an id, arguments, and nothing else *)
Definition decode_body (v : version) (id : N) (ts : list aty) (partial : bool) (s : sl) : res (list aval) :=
  let? (x, s) := sl_bits (load_uint 32) s in
  if negb (x =? id) then Err InvalidData
  else
    let? (l, s) := load_all utf8 v ts true partial s in
    let? _ := check_remaining partial s in
    Ok l.
(** contract.rs:518-521 [encode_internal_input], 578-581 [encode_output], 961-964 *)
Definition encode_internal_input (f : func) (tokens : list aval) : res chunk :=
  let? _ := check_types tokens (f_inputs f) in encode_body (f_version f) (f_input_id f) tokens.
Definition encode_output (f : func) (tokens : list aval) : res chunk :=
  let? _ := check_types tokens (f_outputs f) in encode_body (f_version f) (f_output_id f) tokens.
Definition encode_event (e : event) (tokens : list aval) : res chunk :=
  let? _ := check_types tokens (e_inputs e) in encode_body (e_version e) (e_id e) tokens.
Definition decode_internal_input (f : func) (partial : bool) (s : sl) : res (list aval) := decode_body (f_version f) (f_input_id f) (f_inputs f) partial s.
Definition decode_output (f : func) (partial : bool) (s : sl) : res (list aval) := decode_body (f_version f) (f_output_id f) (f_outputs f) partial s.
Definition decode_event (e : event) (partial : bool) (s : sl) : res (list aval) := decode_body (e_version e) (e_id e) (e_inputs e) partial s.

(** ** External messages *)
(** ser.rs:251-265 [reserve_headers], 326-352 [write_header_value] *)
Definition key_bits (v : version) (has_key : bool) : N := 1 + (if use_max v || has_key then 256 else 0).
Definition header_bits (v : version) (has_key : bool) (h : htype) : N :=
  match h with HTime => 64 | HExpire => 32 | HPubkey => key_bits v has_key end.
Definition reserve_header (v : version) (has_key : bool) (s : ser) (h : htype) : ser :=
  Ser (r_cur s) (sadd (r_left s) (Size (header_bits v has_key h) 0)) (r_stack s).
Definition write_header (v : version) (h : hval) (s : ser) : res ser :=
  match h with
  | WTime t => emit v (Size 64 0) (store_un 64 t) s
  | WExpire t => emit v (Size 32 0) (store_un 32 t) s
  | WPubkey k =>
    emit v (Size (key_bits v (match k with Some _ => true | None => false end)) 0)
      (fun b => match k with
                | None => store_bool false b
                | Some k => let? b := store_bool true b in store_bs k b
                end) s
  end.
(** contract.rs:623-633 [ExternalInput] *)
Record call := Call { x_tokens : list aval; x_time : option N; x_expire : option N; x_pubkey : option (list N); x_address : option std_addr }.
(** contract.rs:743-746; in a debug build the addition panics when it overflows *)
Definition DEFAULT_TIMEOUT_SEC : N := 60.
Definition call_time (x : call) (now : N) : N := match x_time x with Some t => t | None => now end.
Definition call_expire (x : call) (now : N) : N :=
  match x_expire x with Some t => t | None => w32 (w32 (call_time x now / 1000) + DEFAULT_TIMEOUT_SEC) end.
Definition header_value (x : call) (now : N) (h : htype) : hval :=
  match h with HTime => WTime (call_time x now) | HExpire => WExpire (call_expire x now) | HPubkey => WPubkey (x_pubkey x) end.
(** contract.rs:709-721: what is kept free for a signature or an address *)
Definition offset (v : version) : size :=
  if v_major v =? 1 then Size 0 1 else if from_2_3 v then Size INT_BITS_MAX 0 else Size (1 + 512) 0.
(** contract.rs:694-767 [build_payload] *)
Definition build_payload (f : func) (x : call) (now : N) (reserve_signature : bool) : res (N * cell) :=
  let? _ := check_types (x_tokens x) (f_inputs f) in
  let v := f_version f in
  let s := Ser (offset v) zero_size [] in
  let has_key := match x_pubkey x with Some _ => true | None => false end in
  let s := fold_left (reserve_header v has_key) (f_headers f) s in
  let s := reserve v (VUint 32 (f_input_id f)) s in
  let s := fold_left (fun s y => reserve v y s) (x_tokens x) s in
  let? s := (if reserve_signature then Ok s
             else
               let y := if v_major v =? 1 then VCell (Cell false [] []) else VBool false in
               write fin sorted v y (reserve v y s)) in
  let? s := foldm (fun h => write_header v (header_value x now h)) (f_headers f) s in
  let? s := write fin sorted v (VUint 32 (f_input_id f)) s in
  let? s := foldm (write fin sorted v) (x_tokens x) s in
  let? b := finalize fin s in
  let? c := build fin b in
  Ok (call_expire x now, c).
(** contract.rs:1152-1163 [UnsignedBody]; [ub_signed] is the cell whose hash is signed *)
Record unsigned := Unsigned { ub_version : version; ub_payload : cell; ub_signed : cell; ub_expire : N }.
(** contract.rs:665-687 [build_input_ext]; 661-663 [build_input], 637-639 [build_message] *)
Definition build_input_ext (f : func) (x : call) (now : N) (address : option std_addr) : res unsigned :=
  let? (expire, payload) := build_payload f x now true in
  let? signed :=
    (if from_2_3 (f_version f) then
       let? b := (match address with
                  | Some a => on_bits (store_std a) empty_b
                  | None => Err InvalidData
                  end) in
       let? s := as_slice payload in
       let? b := putc (s_chunk s) b in
       build fin b
     else Ok payload) in
  Ok (Unsigned (f_version f) payload signed expire).
Definition build_input (f : func) (x : call) (now : N) : res unsigned := build_input_ext f x now (x_address x).
(** contract.rs:690-692 *)
Definition build_input_without_signature (f : func) (x : call) (now : N) : res (N * cell) := build_payload f x now false.
(** contract.rs:1198-1221 [fill_signature] *)
Definition fill_signature (u : unsigned) (signature : option (list N)) : res cell :=
  let? b :=
    (if v_major (ub_version u) =? 1 then
       let? c := (match signature with
                  | Some sig => let? b := store_bs sig empty_b in build fin b
                  | None => Ok (Cell false [] [])
                  end) in
       store_ref c empty_b
     else
       let? b := (match signature with
                  | Some sig => let? b := store_bool true empty_b in store_bs sig b
                  | None => store_bool false empty_b
                  end) in
       let? s := as_slice (ub_payload u) in
       putc (s_chunk s) b) in
  build fin b.

(** slice.rs [skip_first] of bits *)
Definition skip_bits (n : nat) (s : sl) : res sl :=
  if (length (s_bits s) <? n)%nat then Err CellUnderflow else Ok (Sl (s_cell s) (drop n (s_bits s)) (s_refs s)).
(** de.rs:253-282 [skip_all], [skip] *)
Definition skip_header (h : htype) (s : sl) : res sl :=
  match h with
  | HTime => let? s := preload 64 s in skip_bits 64 s
  | HExpire => let? s := preload 32 s in skip_bits 32 s
  | HPubkey =>
    let? s := preload 1 s in
    let? (f, s) := sl_bits load_bit s in
    if f : bool then let? s := preload 256 s in skip_bits 256 s else Ok s
  end.
(** de.rs:284-310 [load]; a sequence of them *)
Definition load_header (h : htype) (s : sl) : res (hval * sl) :=
  match h with
  | HTime => let? s := preload 64 s in let? (t, s) := sl_bits (load_uint 64) s in Ok (WTime t, s)
  | HExpire => let? s := preload 32 s in let? (t, s) := sl_bits (load_uint 32) s in Ok (WExpire t, s)
  | HPubkey =>
    let? s := preload 1 s in
    let? (f, s) := sl_bits load_bit s in
    if f : bool then
      let? s := preload 256 s in
      let? (k, s) := sl_bits (load_uint 256) s in
      if negb (valid_key (to_be 32 k)) then Err InvalidData else Ok (WPubkey (Some (to_be 32 k)), s)
    else Ok (WPubkey None, s)
  end.
Definition load_headers : list htype -> sl -> res (list hval * sl) :=
  fix go hs s :=
    match hs with
    | [] => Ok ([], s)
    | h :: hs => let? (x, s) := load_header h s in let? (l, s) := go hs s in Ok (x :: l, s)
    end.
(** contract.rs:484-490 *)
Definition skip_signature (s : sl) : res sl :=
  let? (f, s) := sl_bits load_bit s in
  if f : bool then skip_bits 512 s else Ok s.
(** contract.rs:474-516 [decode_external_input_ext] *)
Definition decode_external_input (f : func) (partial : bool) (s : sl) : res (list aval) :=
  let? (id, s) :=
    (if v_major (f_version f) =? 1 then
       let? (id, s) := sl_bits (load_uint 32) s in
       let? (_, s) := sl_ref s in
       let? s := foldm skip_header (f_headers f) s in
       Ok (id, s)
     else
       let? s := skip_signature s in
       let? s := foldm skip_header (f_headers f) s in
       sl_bits (load_uint 32) s) in
  if negb (id =? f_input_id f) then Err InvalidData
  else
    let? (l, s) := load_all utf8 (f_version f) (f_inputs f) true partial s in
    let? _ := check_remaining partial s in
    Ok l.

(** signature.rs:16-26 [extend_signature_with_id] *)
Definition extend_with_id (data : list N) (id : option Z) : list N :=
  match id with Some id => to_be 4 (as_unsigned 32 id) ++ data | None => data end.
End Calls.
