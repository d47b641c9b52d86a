(** * ABI values in cells: src/abi/value/ser.rs, src/abi/value/de.rs, src/abi/ty.rs,
    src/abi/value/mod.rs

    Bits and references only (C01-C08).  Simplified: names of tuple components are left out (they are
    not stored); every [AbiError] is [InvalidData]; sizes are unbounded numbers (the fields of
    [Size] are u16 and u8: only [compute_varuint_size] of a number of more than 65535 bits would
    differ, and [write_varint] refuses such a number). *)
From Verif Require Import Err IntModel NumModel AddrModel BigIntModel BigIntSpec CellModel ChunkModel DictModel IterModel CurrencyModel.
Local Open Scope N_scope.

(** ** Types (ty.rs:286-331 [AbiType], 660-680 [PlainAbiType]) and values (value/mod.rs:98-140
    [AbiValue], 470-482 [PlainAbiValue]).  Byte strings and strings are their bytes. *)
Inductive pty := PUint (n : N) | PInt (n : N) | PBool | PAddr.
Inductive aty :=
| TUint (n : N) | TInt (n : N) | TVarUint (n : N) | TVarInt (n : N) | TBool | TCell | TAddr
| TBytes | TFixedBytes (len : nat) | TString | TToken
| TTuple (ts : list aty) | TArray (t : aty) | TFixedArray (t : aty) (len : nat)
| TMap (k : pty) (t : aty) | TOpt (t : aty) | TRef (t : aty).
Inductive pval := KUint (n : N) (x : N) | KInt (n : N) (x : Z) | KBool (b : bool) | KAddr (a : int_addr).
(** The [BTreeMap] of a map is a list of entries. *)
Inductive aval :=
| VUint (n : N) (x : N) | VInt (n : N) (x : Z) | VVarUint (n : N) (x : N) | VVarInt (n : N) (x : Z)
| VBool (b : bool) | VCell (c : cell) | VAddr (a : int_addr)
| VBytes (bs : list N) | VFixedBytes (bs : list N) | VString (bs : list N) | VToken (x : N)
| VTuple (l : list aval) | VArray (t : aty) (l : list aval) | VFixedArray (t : aty) (l : list aval)
| VMap (k : pty) (t : aty) (l : list (pval * aval)) | VOpt (t : aty) (o : option aval) | VRef (x : aval).

(** value/mod.rs:217-242 [get_type] *)
Fixpoint type_of (x : aval) : aty :=
  match x with
  | VUint n _ => TUint n | VInt n _ => TInt n | VVarUint n _ => TVarUint n | VVarInt n _ => TVarInt n
  | VBool _ => TBool | VCell _ => TCell | VAddr _ => TAddr
  | VBytes _ => TBytes | VFixedBytes bs => TFixedBytes (length bs) | VString _ => TString | VToken _ => TToken
  | VTuple l => TTuple (map type_of l) | VArray t _ => TArray t | VFixedArray t l => TFixedArray t (length l)
  | VMap k t _ => TMap k t | VOpt t _ => TOpt t | VRef x => TRef (type_of x)
  end.

(** src/abi/mod.rs:40-45 [AbiVersion]: compared by major, then minor *)
Record version := Version { v_major : N; v_minor : N }.
(** ser.rs:722-726 [use_max_size]: at least 2.2 *)
Definition use_max (v : version) : bool := (2 <? v_major v) || (v_major v =? 2) && (2 <=? v_minor v).

(** ** Sizes: cell/mod.rs:1409-1530 [Size], cell/mod.rs [CellTreeStats]; subtraction from a
    [CellTreeStats] saturates *)
Record size := Size { z_bits : N; z_refs : N }.
Definition zero_size : size := Size 0 0.
Definition sadd (a b : size) : size := Size (z_bits a + z_bits b) (z_refs a + z_refs b).
Definition ssub (a b : size) : size := Size (z_bits a - z_bits b) (z_refs a - z_refs b).
Definition ssum (l : list size) : size := fold_right sadd zero_size l.
(** cell/mod.rs:1441-1446 [saturating_add] *)
Definition sat_add (a b : size) : size := Size (N.min 65535 (z_bits a + z_bits b)) (N.min 255 (z_refs a + z_refs b)).
Definition sat_sum (l : list size) : size := fold_left sat_add l zero_size.

(** address.rs:35, 747, 994 [IntAddr::BITS_MAX]; ty.rs [PlainAbiType::key_bits] *)
Definition INT_BITS_MAX : N := 1 + (2 + 1 + (5 + 30) + 9 + 32 + 511).
Definition key_width (k : pty) : N := match k with PUint n | PInt n => n | PBool => 1 | PAddr => BITS_WITHOUT_ANYCAST end.
(** [(8 - value_bytes.leading_zeros())] of the u8 [n - 1] *)
Definition len_bits (n : N) : N := 8 - lz 8 (n - 1).
Definition var_max (n : N) : N := len_bits n + (n - 1) * 8.
(** [bit_count < MAX_BIT_LEN && cell_count < MAX_REF_COUNT] *)
Definition small (z : size) : bool := (z_bits z <? 1023) && (z_refs z <? 4).
(** ty.rs:355-411 [max_size] *)
Fixpoint max_size (t : aty) : size :=
  match t with
  | TUint n | TInt n => Size n 0
  | TVarUint n | TVarInt n => Size (var_max n) 0
  | TBool => Size 1 0
  | TCell | TBytes | TFixedBytes _ | TString | TRef _ => Size 0 1
  | TAddr => Size INT_BITS_MAX 0
  | TToken => Size (vk_max_bits Tokens) 0
  | TArray _ => Size 33 1
  | TFixedArray _ _ | TMap _ _ => Size 1 1
  | TOpt t => let z := max_size t in if small z then sadd (Size 1 0) z else Size 1 1
  | TTuple ts => ssum (map max_size ts)
  end.

(** ser.rs:114-123 [compute_varuint_size] of a number of [bits] bits *)
Definition var_exact (n bits : N) : N := len_bits n + N.max 8 (8 * ((bits + 7) / 8)).
Definition one_if {A} (l : list A) : N := match l with [] => 0 | _ => 1 end.
(** ser.rs:113-176 [compute_exact_size_short] *)
Fixpoint exact_short (x : aval) : size :=
  match x with
  | VUint n _ | VInt n _ => Size n 0
  | VVarUint n x => Size (var_exact n (N.size x)) 0
  | VVarInt n x => Size (var_exact n (N.size (Z.abs_N x))) 0
  | VBool _ => Size 1 0
  | VCell _ | VBytes _ | VFixedBytes _ | VString _ | VRef _ => Size 0 1
  | VAddr a => Size (int_bit_len a) 0
  | VToken x => Size (vk_unwrap_bit_len Tokens x) 0
  | VArray _ l => Size 33 (one_if l)
  | VFixedArray _ l => Size 1 (one_if l)
  | VMap _ _ l => Size 1 (one_if l)
  | VOpt t (Some y) => if small (max_size t) then sadd (Size 1 0) (exact_short y) else Size 1 1
  | VOpt _ None => Size 1 0
  | VTuple l => sat_sum (map exact_short l)
  end.
(** ser.rs:178-222 [compute_max_size_short] *)
Fixpoint max_short (x : aval) : size :=
  match x with
  | VUint n _ | VInt n _ => Size n 0
  | VVarUint n _ | VVarInt n _ => Size (var_max n) 0
  | VBool _ => Size 1 0
  | VCell _ | VBytes _ | VFixedBytes _ | VString _ | VRef _ => Size 0 1
  | VAddr _ => Size INT_BITS_MAX 0
  | VToken _ => Size (vk_max_bits Tokens) 0
  | VArray _ _ => Size 33 1
  | VFixedArray _ _ | VMap _ _ _ => Size 1 1
  | VOpt t _ => if small (max_size t) then Size (1 + z_bits (max_size t)) (z_refs (max_size t)) else Size 1 1
  | VTuple l => sat_sum (map max_short l)
  end.
(** ser.rs:83-111 [compute_size_full], [compute_max_size_full], [compute_exact_size_full] *)
Fixpoint size_full (v : version) (x : aval) : size :=
  match x with
  | VTuple l => ssum (map (size_full v) l)
  | _ => if use_max v then max_short x else exact_short x
  end.

(** ** Numbers *)
(** [store_bigint] and [store_biguint] as bits: C09_store_bigint, C09_store_biguint *)
Definition store_big (n : N) (x : Z) (b : list bool) : res (list bool) :=
  if n <? bitsize x true then Err IntOverflow else put (zbits (N.to_nat n) x) b.
Definition store_ubig (n : N) (x : N) (b : list bool) : res (list bool) :=
  if n <? ubitsize x false then Err IntOverflow else put (nbits (N.to_nat n) x) b.
(** de.rs:343-385 [load_uint_plain], [load_int_plain]: the same code as slice.rs:1566-1635
    [load_biguint], [load_bigint] (C09_load_biguint, C09_load_bigint) *)
Definition load_ubig (n : N) (b : list bool) : res (N * list bool) := load_uint (N.to_nat n) b.
Definition load_big (n : N) (b : list bool) : res (Z * list bool) :=
  let? (x, b) := load_uint (N.to_nat n) b in
  Ok (if n =? 0 then 0%Z else if x <? 2 ^ (n - 1) then Z.of_N x else (Z.of_N x - 2 ^ Z.of_N n)%Z, b).

(** ser.rs:651-687 [to_signed_bytes_be] and its helpers, on bytes in little-endian order *)
Fixpoint twos_le (carry : bool) (l : list N) : list N :=
  match l with
  | [] => []
  | d :: l =>
    let d := 255 - d in
    if carry then w8 (d + 1) :: twos_le (256 <=? d + 1) l else d :: twos_le false l
  end.
Definition neg_bytes (x : N) : list N :=
  let bytes := to_bytes_le x in
  let last := match list.last bytes with Some b => b | None => 0 end in
  let bytes := if (127 <? last) && negb ((last =? 128) && forallb (fun b => b =? 0) (tail (rev bytes))) then bytes ++ [0] else bytes in
  rev (twos_le true bytes).
Definition var_bytes (neg : bool) (x : N) : list N := if neg then neg_bytes x else rev (to_bytes_le x).

Section Abi.
Context (fin : list bool -> list cell -> res unit).
(** [String::from_utf8]; the order in which a [BTreeMap] with such keys is walked *)
Context (utf8 : list N -> bool) (sorted : forall A : Type, list (pval * A) -> list (pval * A)).
Context (v : version).

(** ** Serializer (ser.rs:225-324); the head of the stack is the last builder *)
Record ser := Ser { r_cur : size; r_left : size; r_stack : list chunk }.
Definition empty_b : chunk := ([], []).
(** 234-241 [new], 292-294 [begin_child], 247-249 [reserve_value] *)
Definition ser_new : ser := Ser zero_size zero_size [].
Definition reserve (x : aval) (s : ser) : ser := Ser (r_cur s) (sadd (r_left s) (size_full v x)) (r_stack s).
(** 296-324 [require_builder]; [Size::MAX - current] overflows when more than a cell is taken *)
Definition require (z : size) (s : ser) : res ser :=
  let stack := match r_stack s with [] => [empty_b] | l => l end in
  let left := ssub (r_left s) z in
  let cur := r_cur s in
  if (1023 <? z_bits cur) || (4 <? z_refs cur) then Err Panic
  else
    let rem := Size (1023 - z_bits cur) (4 - z_refs cur) in
    let inline :=
      if (z_bits rem <? z_bits z) || (z_refs rem <? z_refs z) then false
      else if (0 <? z_refs z) && (z_refs z =? z_refs rem) then
        negb (v_major v =? 1) && (z_refs left =? 0) && (z_bits left + z_bits z <=? z_bits rem)
      else true in
    Ok (if inline then Ser (sadd cur z) left stack else Ser z left (empty_b :: stack)).
(** [self.require_builder(z)] and a [store_*] into it *)
Definition emit (z : size) (f : chunk -> res chunk) (s : ser) : res ser :=
  let? s := require z s in
  match r_stack s with
  | b :: r => let? b := f b in Ok (Ser (r_cur s) (r_left s) (b :: r))
  | [] => Err UB
  end.
(** 267-290 [finalize], [take_finalize]; the assertion is a debug assertion *)
Fixpoint join (b : chunk) (rest : list chunk) : res chunk :=
  match rest with
  | [] => Ok b
  | p :: rest =>
    let? c := build fin b in
    let? p := store_ref c p in
    join p rest
  end.
Definition finalize (s : ser) : res chunk :=
  if negb ((z_bits (r_left s) =? 0) && (z_refs (r_left s) =? 0)) then Err Panic
  else match r_stack s with [] => Ok empty_b | b :: rest => join b rest end.

(** ser.rs:459-490 [write_bytes]: the loop, from the last bytes to the first *)
Fixpoint bytes_loop (fuel : nat) (data : list N) (per : nat) (b : chunk) : res chunk :=
  match fuel with
  | O => Err OutOfFuel
  | S fuel =>
    match data with
    | [] => Ok b
    | _ =>
      let len := (length data - per)%nat in
      let? b := (match fst b with
                 | [] => Ok b
                 | _ => let? c := build fin b in store_ref c empty_b
                 end) in
      let? b := store_bs (drop len data) b in
      bytes_loop fuel (take len data) (Nat.min 127 len) b
    end
  end.
Definition bytes_cell (data : list N) : res cell :=
  let len := length data in
  let per := if 1 <? v_major v then (match len mod 127 with O => 127 | x => x end)%nat else Nat.min 127 len in
  let? b := bytes_loop (S len) data per empty_b in
  build fin b.

(** ser.rs:689-695 [fits_into_dict_leaf]; 697-709 [InlineOrRef]; ser.rs:711-720 [Store for
    PlainAbiValue] *)
Definition fits_leaf (key_bits value_bits : N) : bool := 12 + key_bits + value_bits <=? 1023.
Definition leaf_value (inline : bool) (b : chunk) : res chunk :=
  if inline then Ok b else let? c := build fin b in Ok ([], [c]).
Definition key_chunk (k : pval) : res (list bool) :=
  match k with
  | KUint n x => store_ubig n x []
  | KInt n x => store_big n x []
  | KBool b => put [b] []
  | KAddr a => store_int a []
  end.
(** ser.rs:499-521: the elements of an array *)
Fixpoint array_dict (inline : bool) (l : list (res chunk)) (i : N) (d : option cell) : res (option cell) :=
  match l with
  | [] => Ok d
  | b :: l =>
    let? b := b in
    let? e := leaf_value inline b in
    let? (_, d) := dict_insert fin d (nbits 32 i) 32 e MSet in
    array_dict inline l (i + 1) d
  end.
(** ser.rs:545-575: the entries of a map *)
Fixpoint map_dict (inline : bool) (n : nat) (l : list (pval * res chunk)) (d : option cell) : res (option cell) :=
  match l with
  | [] => Ok d
  | (k, b) :: l =>
    let? k := key_chunk k in
    let? b := b in
    let? e := leaf_value inline b in
    let? (_, d) := dict_insert fin d k n e MSet in
    map_dict inline n l d
  end.
(** Sequences *)
Definition foldm {A S : Type} (f : A -> S -> res S) : list A -> S -> res S :=
  fix go l s := match l with [] => Ok s | x :: l => let? s := f x s in go l s end.
(** A value in a serializer of its own: [reserve_value], [write_value], [finalize] *)
Definition child (w : aval -> ser -> res ser) (x : aval) : res chunk :=
  let? s := w x (reserve x ser_new) in finalize s.
Definition max_or (m e : N) : N := if use_max v then m else e.

(** ser.rs:400-423 [write_varint] *)
Definition write_var (n : N) (neg : bool) (x : N) (s : ser) : res ser :=
  let bytes := var_bytes neg x in
  if n - 1 <? N.of_nat (length bytes) then Err IntOverflow
  else
    let value_bits := 8 * N.of_nat (length bytes) in
    emit (Size (max_or (var_max n) (len_bits n + value_bits)) 0)
      (on_bits (fun b =>
        let? b := put_uint (N.of_nat (length bytes)) (len_bits n) b in
        store_raw_bits bytes value_bits b)) s.

(** ser.rs:354-398, 425-457, 492-648 [write_value] and the functions it calls *)
Fixpoint write (x : aval) (s : ser) {struct x} : res ser :=
  match x with
  | VUint n x => emit (Size n 0) (on_bits (store_ubig n x)) s
  | VInt n x => emit (Size n 0) (on_bits (store_big n x)) s
  | VVarUint n x => write_var n false x s
  | VVarInt n x => write_var n (x <? 0)%Z (Z.abs_N x) s
  | VBool b => emit (Size 1 0) (store_bool b) s
  | VCell c => emit (Size 0 1) (store_ref c) s
  | VAddr a => emit (Size (max_or INT_BITS_MAX (int_bit_len a)) 0) (on_bits (store_int a)) s
  | VBytes bs | VFixedBytes bs | VString bs => let? c := bytes_cell bs in emit (Size 0 1) (store_ref c) s
  | VToken x => emit (Size (max_or (vk_max_bits Tokens) (vk_unwrap_bit_len Tokens x)) 0) (on_bits (store_vk Tokens x)) s
  | VTuple l => foldm write l s
  | VArray t l =>
    let? d := array_dict (fits_leaf 32 (z_bits (max_size t))) (map (child write) l) 0 None in
    emit (Size 33 (max_or 1 (one_if l))) (fun b => let? b := store_un 32 (w32 (N.of_nat (length l))) b in store_dict d b) s
  | VFixedArray t l =>
    let? d := array_dict (fits_leaf 32 (z_bits (max_size t))) (map (child write) l) 0 None in
    emit (Size 2 (max_or 1 (one_if l))) (store_dict d) s
  | VMap k t l =>
    let? d := map_dict (fits_leaf (key_width k) (z_bits (max_size t))) (N.to_nat (key_width k))
                (sorted (res chunk) (map (fun e => let '(k, y) := e in (k, child write y)) l)) None in
    emit (Size 1 1) (store_dict d) s
  | VOpt t o =>
    let inline := small (max_size t) in
    let z := if inline then sadd (Size 1 0) (max_size t) else Size 1 1 in
    match o with
    | Some y =>
      let? b := child write y in
      let? c := (if inline then Ok b else let? c := build fin b in Ok ([], [c])) in
      emit (if use_max v then z
            else if inline then Size (1 + N.of_nat (length (fst b))) (N.of_nat (length (snd b))) else Size 1 1)
        (fun t => let? t := store_bool true t in putc c t) s
    | None => emit (if use_max v then z else Size 1 0) (store_bool false) s
    end
  | VRef y =>
    let? b := child write y in
    let? c := build fin b in
    emit (Size 0 1) (store_ref c) s
  end.
(** ser.rs:52-81 [tuple_to_builder], [tuple_to_cell], [make_builder], [make_cell] *)
Definition tuple_to_builder (l : list aval) : res chunk :=
  let s := fold_left (fun s x => reserve x s) l ser_new in
  let? s := foldm write l s in
  finalize s.
Definition tuple_to_cell (l : list aval) : res cell := let? b := tuple_to_builder l in build fin b.
Definition make_builder (x : aval) : res chunk := child write x.
Definition make_cell (x : aval) : res cell := let? b := make_builder x in build fin b.

(** ** Loading (de.rs) *)
(** Functions on the bits of a slice; slice.rs:1281-1292 [load_reference_cloned], 1262-1275
    [load_reference_as_slice] *)
Definition sl_bits {A} (f : list bool -> res (A * list bool)) (s : sl) : res (A * sl) :=
  let? (a, b) := f (s_bits s) in Ok (a, Sl (s_cell s) b (s_refs s)).
Definition sl_ref (s : sl) : res (cell * sl) :=
  match s_refs s with [] => Err CellUnderflow | c :: r => Ok (c, Sl (s_cell s) (s_bits s) r) end.
Definition sl_ref_slice (s : sl) : res (sl * sl) :=
  let? (c, s) := sl_ref s in let? x := as_slice c in Ok (x, s).
(** de.rs:313-331 [preload_bits] *)
Definition preload (n : N) (s : sl) : res sl :=
  if n =? 0 then Ok s
  else match s_bits s with
       | [] =>
         let? (x, s) := sl_ref_slice s in
         match s_refs s with [] => Ok x | _ => Err InvalidData end
       | _ => if N.of_nat (length (s_bits s)) <? n then Err CellUnderflow else Ok s
       end.
(** de.rs:110-116 [check_remaining] *)
Definition check_remaining (partial : bool) (s : sl) : res unit :=
  match partial, s_bits s, s_refs s with
  | true, _, _ | false, [], [] => Ok tt
  | _, _, _ => Err InvalidData
  end.
(** de.rs:399-415 [load_varuint_raw], in big-endian order; 387-397 [load_varuint], [load_varint] *)
Definition load_var_raw (n : N) (s : sl) : res (list N * sl) :=
  let? s := preload (len_bits n) s in
  let? (k, s) := sl_bits (load_uint (N.to_nat (len_bits n))) s in
  let? s := preload (k * 8) s in
  sl_bits (load_raw_bits (k * 8)) s.
(** de.rs:417-425 [load_cell] *)
Definition load_cell (last : bool) (s : sl) : res (cell * sl) :=
  let hop :=
    (length (s_refs s) =? 1)%nat &&
    ((v_major v =? 1) && (length (c_refs (s_cell s)) =? 4)%nat ||
     (1 <? v_major v) && negb last && match s_bits s with [] => true | _ => false end) in
  let? s := (if hop then let? (x, _) := sl_ref_slice s in Ok x else Ok s) in
  sl_ref s.
(** de.rs:427-441 [load_bytes_raw]: the loop over the cells *)
Fixpoint cell_bytes (c : cell) : res (list N) :=
  match c with
  | Cell _ bits refs =>
    if negb (length bits mod 8 =? 0)%nat then Err InvalidData
    else match refs with
         | [] => Ok (pack bits)
         | c :: _ => let? bs := cell_bytes c in Ok (pack bits ++ bs)
         end
  end.
Definition load_bytes (last : bool) (s : sl) : res (list N * sl) :=
  let? (c, s) := load_cell last s in
  let? bs := cell_bytes c in
  Ok (bs, s).
(** de.rs:239-251 [PlainAbiValue::load] *)
Definition load_key (k : pty) (b : list bool) : res pval :=
  match k with
  | PUint n => let? (x, _) := load_ubig n b in Ok (KUint n x)
  | PInt n => let? (x, _) := load_big n b in Ok (KInt n x)
  | PBool => let? (x, _) := load_bit b in Ok (KBool x)
  | PAddr => let? (x, _) := load_int b in Ok (KAddr x)
  end.
(** de.rs:480-486: [for value in dict.values().take(left)]; the fuel is the number of cells of
    the dictionary *)
Fixpoint each_value (f : sl -> res aval) (fuel : nat) (left : N) (it : raw_values) : res (list aval) :=
  match fuel with
  | O => Err OutOfFuel
  | S fuel =>
    if left =? 0 then Ok []
    else match values_next it with
         | (None, _) => Ok []
         | (Some (Err e), _) => Err e
         | (Some (Ok s), it) => let? x := f s in let? l := each_value f fuel (left - 1) it in Ok (x :: l)
         end
  end.
(** de.rs:528-540: [for entry in RawIter::new(..)]; the keys come in increasing order, so that
    the entries are those of the [BTreeMap] in this order *)
Fixpoint each_entry (f : list bool -> sl -> res (pval * aval)) (fuel : nat) (it : raw_iter) : res (list (pval * aval)) :=
  match fuel with
  | O => Err OutOfFuel
  | S fuel =>
    match iter_next it with
    | (None, _) => Ok []
    | (Some (Err e), _) => Err e
    | (Some (Ok (k, s)), it) => let? x := f k s in let? l := each_entry f fuel it in Ok (x :: l)
    end
  end.
Definition dict_fuel (d : option cell) : nat := S (match d with Some c => csize c | None => 0 end).
(** [Option<Cell>::load_from] *)
Definition sl_dict (s : sl) : res (option cell * sl) :=
  let? (f, s) := sl_bits load_bit s in
  if f : bool then let? (c, s) := sl_ref s in Ok (Some c, s) else Ok (None, s).
(** de.rs:469-488 [load_array_raw] *)
Definition array_raw (f : sl -> res aval) (len : N) (s : sl) : res (list aval * sl) :=
  let? s := preload 1 s in
  let? (d, s) := sl_dict s in
  let? l := each_value f (dict_fuel d) len (values_new d 32 false false) in
  Ok (l, s).
(** A value that must fill its slice *)
Definition whole (partial : bool) (f : sl -> res (aval * sl)) (s : sl) : res aval :=
  let? (x, s) := f s in
  let? _ := check_remaining partial s in
  Ok x.

(** de.rs:143-160 [load_tuple_ext] *)
Definition load_seq (f : aty -> bool -> sl -> res (aval * sl)) (last : bool) : list aty -> sl -> res (list aval * sl) :=
  fix go ts s :=
    match ts with
    | [] => Ok ([], s)
    | t :: ts =>
      let? (x, s) := f t (last && match ts with [] => true | _ => false end) s in
      let? (l, s) := go ts s in
      Ok (x :: l, s)
    end.

(** de.rs:176-235 [load_ext] *)
Fixpoint load (t : aty) (last partial : bool) (s : sl) {struct t} : res (aval * sl) :=
  match t with
  | TUint n => let? s := preload n s in let? (x, s) := sl_bits (load_ubig n) s in Ok (VUint n x, s)
  | TInt n => let? s := preload n s in let? (x, s) := sl_bits (load_big n) s in Ok (VInt n x, s)
  | TVarUint n => let? (bs, s) := load_var_raw n s in Ok (VVarUint n (from_be bs), s)
  | TVarInt n => let? (bs, s) := load_var_raw n s in Ok (VVarInt n (from_signed_bytes_be bs), s)
  | TBool => let? s := preload 1 s in let? (b, s) := sl_bits load_bit s in Ok (VBool b, s)
  | TCell => let? (c, s) := load_cell last s in Ok (VCell c, s)
  | TAddr => let? s := preload 1 s in let? (a, s) := sl_bits load_int s in Ok (VAddr a, s)
  | TBytes => let? (bs, s) := load_bytes last s in Ok (VBytes bs, s)
  | TFixedBytes len =>
    let? (bs, s) := load_bytes last s in
    if negb (length bs =? len)%nat then Err InvalidData else Ok (VFixedBytes bs, s)
  | TString =>
    let? (bs, s) := load_bytes last s in
    if negb (utf8 bs) then Err InvalidData else Ok (VString bs, s)
  | TToken => let? s := preload 1 s in let? (x, s) := sl_bits (load_vk Tokens) s in Ok (VToken x, s)
  | TTuple ts => let? (l, s) := load_seq (fun t last => load t last partial) last ts s in Ok (VTuple l, s)
  | TArray t =>
    let? s := preload 32 s in
    let? (n, s) := sl_bits (load_uint 32) s in
    let? (l, s) := array_raw (whole partial (load t true partial)) n s in
    Ok (VArray t l, s)
  | TFixedArray t len =>
    let? (l, s) := array_raw (whole partial (load t true partial)) (N.of_nat len) s in
    if negb (length l =? len)%nat then Err InvalidData else Ok (VFixedArray t l, s)
  | TMap k t =>
    let? s := preload 1 s in
    let? (d, s) := sl_dict s in
    let? l := each_entry (fun kb e => let? key := load_key k kb in let? (x, _) := load t true partial e in Ok (key, x))
                (dict_fuel d) (iter_new d (N.to_nat (key_width k)) false false) in
    Ok (VMap k t l, s)
  | TOpt t =>
    let? s := preload 1 s in
    let? (f, s) := sl_bits load_bit s in
    if negb f then Ok (VOpt t None, s)
    else if small (max_size t) then
      let? (x, s) := load t last partial s in Ok (VOpt t (Some x), s)
    else
      let? (c, s) := load_cell last s in
      let? e := as_slice c in
      let? x := whole partial (load t true partial) e in
      Ok (VOpt t (Some x), s)
  | TRef t =>
    let? (c, s) := load_cell last s in
    let? e := as_slice c in
    let? x := whole partial (load t true partial) e in
    Ok (VRef x, s)
  end.
Definition load_all (ts : list aty) (last partial : bool) (s : sl) : res (list aval * sl) :=
  load_seq (fun t last => load t last partial) last ts s.
(** de.rs:162-167 [load], 121-130 [load_tuple], on the slice of a whole cell *)
Definition load_value (t : aty) (c : cell) : res aval := let? s := as_slice c in whole false (load t true false) s.
Definition load_tuple (ts : list aty) (c : cell) : res (list aval) :=
  let? s := as_slice c in
  let? (l, s) := load_all ts true false s in
  let? _ := check_remaining false s in
  Ok l.
End Abi.
