(** * Typed dictionaries (src/dict/typed.rs, the keys of src/dict/mod.rs).

    A key type is its number of bits, what it stores into an empty [CellDataBuilder] and what it
    loads from the 128 bytes of one. *)
From Verif Require Import Err IntModel NumModel AddrModel CellModel DictModel IterModel.
Local Open Scope nat_scope.

Record key_kind (K : Type) := KeyKind { k_bits : nat; k_store : K -> res (list bool); k_load : list N -> option K }.
Arguments KeyKind {K}. Arguments k_bits {K}. Arguments k_store {K}. Arguments k_load {K}.

(** ** Keys *)
(** dict/mod.rs:104-108 *)
Definition bool_key : key_kind bool := KeyKind 1 (fun x => put [x] []) (fun d => Some (negb (N.land (nth 0 d 0%N) 128 =? 0)%N)).
(** 109-113, 119-123, 129-133, 139-143, 149-153: u8, u16, u32, u64, u128 as numbers of [n] bytes *)
Definition uint_key (n : nat) : key_kind N :=
  KeyKind (8 * n) (fun x => put_uint x (N.of_nat (8 * n)) []) (fun d => Some (from_be (take n d))).
(** 114-118, 124-128, 134-138, 144-148, 154-158: i8, i16, i32, i64, i128 *)
Definition int_key (n : nat) : key_kind Z :=
  KeyKind (8 * n) (fun x => put_uint (as_unsigned (N.of_nat (8 * n)) x) (N.of_nat (8 * n)) [])
    (fun d => Some (as_signed (N.of_nat (8 * n)) (from_be (take n d)))).
(** 159-178: [u8; 16], [u8; 20], [u8; 32] and HashBytes *)
Definition bytes_key (n : nat) : key_kind (list N) :=
  KeyKind (8 * n) (fun x => put (bytes_bits x) []) (fun d => Some (take n d)).
(** 179-188: (u64, u32) *)
Definition pair_key : key_kind (N * N) :=
  KeyKind 96 (fun x => let? b := put_uint (fst x) 64 [] in put_uint (snd x) 32 b)
    (fun d => Some (from_be (take 8 d), from_be (take 4 (drop 8 d)))).
(** models/block/block_extra.rs:318-336: ShardIdentFull *)
Definition shard_key : key_kind (Z * N) :=
  KeyKind 96 (fun x => let? b := put_uint (as_unsigned 32 (fst x)) 32 [] in put_uint (snd x) 64 b)
    (fun d => Some (as_signed 32 (from_be (take 4 d)), from_be (take 8 (drop 4 d)))).
(** num/mod.rs:845-865: Uint9, Uint12, Uint15 *)
Definition small_key (n : nat) : key_kind N :=
  KeyKind n (fun x => if (x <? 2 ^ N.of_nat n)%N then put_uint x (N.of_nat n) [] else Err IntOverflow)
    (fun d => Some (N.shiftr (from_be (take 2 d)) (16 - N.of_nat n))).
(** models/message/address.rs:473-533: StdAddr *)
Definition addr_key : key_kind std_addr := KeyKind 267 (fun x => std_store_key x []) std_load_key.

(** ** Dictionaries *)
(** the buffer of a builder with these bits; the key types look at no others *)
Definition raw (b : list bool) : list N := pack (b ++ zeros (1024 - length b)).

Section Dict.
Context {K V : Type} (kd : key_kind K).
(** what a value stores into an empty builder, and its [Load] *)
Context (enc : V -> chunk) (load : chunk -> res (V * chunk)) (fin : list bool -> list cell -> res unit).
Notation n := (k_bits kd).

(** typed.rs:184-203 [contains_key] *)
Definition typed_contains (d : option cell) (k : K) : res bool :=
  let? b := k_store kd k in let? o := dict_get d n b in Ok (match o with Some _ => true | None => false end).
(** 212-245 [get] *)
Definition typed_get (d : option cell) (k : K) : res (option V) :=
  let? b := k_store kd k in
  let? o := dict_get d n b in
  match o with Some c => let? (v, _) := load c in Ok (Some v) | None => Ok None end.
(** 506-540 [set], [replace], [add], 940-957 [insert_impl] *)
Definition typed_insert (d : option cell) (k : K) (v : V) (mode : set_mode) : res (bool * option cell) :=
  let? b := k_store kd k in dict_insert fin d b n (enc v) mode.
Definition typed_set d k v := typed_insert d k v MSet.
Definition typed_replace d k v := typed_insert d k v MReplace.
Definition typed_add d k v := typed_insert d k v MAdd.
(** 305-318 [remove], 804-825 [remove_raw_ext]; when the value cannot be loaded the entry is gone
    nevertheless, which is not told here *)
Definition typed_remove (d : option cell) (k : K) : res (option V * option cell) :=
  let? b := k_store kd k in
  let? (o, d') := dict_remove_owned fin d b n false in
  match o with Some (r, c) => let? (v, _) := load (r_apply r c) in Ok (Some v, d') | None => Ok (None, d') end.
(** 649-698 [find_ext] *)
Definition typed_find (d : option cell) (k : K) (towards inclusive signed : bool) : res (option (K * V)) :=
  let? b := k_store kd k in
  let? o := dict_find_owned d n b towards inclusive signed in
  match o with
  | None => Ok None
  | Some (key, (r, c)) =>
    match k_load kd (raw key) with Some k => let? (v, _) := load (r_apply r c) in Ok (Some (k, v)) | None => Err CellUnderflow end
  end.
(** 603-646 *)
Definition typed_next d k := typed_find d k true false.
Definition typed_prev d k := typed_find d k false false.
Definition typed_or_next d k := typed_find d k true true.
Definition typed_or_prev d k := typed_find d k false true.
(** 742-762 [get_bound_raw], 718-739 [get_min], [get_max] *)
Definition typed_bound (d : option cell) (bound signed : bool) : res (option (K * V)) :=
  let? o := dict_find_bound d n bound signed in
  match o with
  | None => Ok None
  | Some (key, x) => match k_load kd (raw key) with Some k => let? (v, _) := load x in Ok (Some (k, v)) | None => Err CellUnderflow end
  end.
Definition typed_min d := typed_bound d false.
Definition typed_max d := typed_bound d true.
(** 1042-1063 [Iter::new], [reversed], [signed]; 1072-1090 [next] *)
Definition typed_iter (d : option cell) (rev signed : bool) : raw_iter := iter_new d n rev signed.
Definition typed_iter_next (it : raw_iter) : option (res (K * V)) * raw_iter :=
  match iter_next it with
  | (None, it) => (None, it)
  | (Some (Err e), it) => (Some (Err e), it)
  | (Some (Ok (key, s)), it) =>
    match k_load kd (raw key) with
    | Some k => match load (s_chunk s) with Ok (v, _) => (Some (Ok (k, v)), it) | Err e => (Some (Err e), set_status it StBroken) end
    | None => (Some (Err CellUnderflow), set_status it StBroken)
    end
  end.
(** 966-985 [Serialize]: the entries given to a readable format, for at most [i] steps; 994-1015
    [Deserialize]: the entries of a hash map, in whatever order, are set one by one *)
Fixpoint typed_entries (i : nat) (it : raw_iter) : res (list (K * V)) :=
  match i with
  | 0 => Ok []
  | S i =>
    match typed_iter_next it with
    | (None, _) => Ok []
    | (Some (Err e), _) => Err e
    | (Some (Ok x), it) => let? l := typed_entries i it in Ok (x :: l)
    end
  end.
Fixpoint typed_collect (d : option cell) (l : list (K * V)) : res (option cell) :=
  match l with
  | [] => Ok d
  | (k, v) :: l => let? (_, d) := typed_set d k v in typed_collect d l
  end.
End Dict.
