(** * Shard identifiers and block identifiers: src/models/block/block_id.rs *)
From Verif Require Import Err IntModel CellModel TextModel.
Local Open Scope N_scope.

(** block_id.rs:188-192 [ShardIdent]: an [i32] and a [u64]. *)
Record shard := Shard { sh_wc : Z; sh_prefix : N }.
(** 214-229 *)
Definition PREFIX_FULL : N := 0x8000000000000000.
Definition MAX_SPLIT_DEPTH : N := 60.
Definition MAX64 : N := 2 ^ 64 - 1.
Definition UNUSED_BITS_MASK : N := N.shiftr MAX64 (MAX_SPLIT_DEPTH + 1).
(** [!x] and [x + 1] on [u64]; the sum overflows (a panic in debug builds) only for [!0 + 1],
    that is for the prefix zero, which no valid identifier has. *)
Definition not64 (x : N) : N := N.lxor x MAX64.
Definition neg64 (x : N) : N := w64 (not64 x + 1).

(** 232-240 [new], 243-248 [new_full] *)
Definition shard_new (wc : Z) (prefix : N) : option shard :=
  if (prefix =? 0) || negb (N.land prefix UNUSED_BITS_MASK =? 0) || ((wc =? -1)%Z && negb (prefix =? PREFIX_FULL))
  then None else Some (Shard wc prefix).
Definition shard_full (wc : Z) : shard := Shard wc PREFIX_FULL.
(** 462-470 [prefix_tag], [prefix_tag_mask] *)
Definition tag_mask (s : shard) : N := neg64 (sh_prefix s).
Definition prefix_tag (s : shard) : N := N.land (sh_prefix s) (tag_mask s).
(** 281-283 [is_masterchain], 291-293 [is_full], 298-307 [is_left_child], [is_right_child] *)
Definition is_masterchain (s : shard) : bool := (sh_wc s =? -1)%Z.
Definition is_full (s : shard) : bool := sh_prefix s =? PREFIX_FULL.
Definition is_right_child (s : shard) : bool := negb (N.land (sh_prefix s) (shl 64 (prefix_tag s) 1) =? 0).
Definition is_left_child (s : shard) : bool := negb (is_right_child s).
(** 311-320 [is_ancestor_of] *)
Definition is_ancestor_of (a s : shard) : bool :=
  if negb (sh_wc a =? sh_wc s)%Z then false
  else (prefix_tag s <=? prefix_tag a)
       && (N.land (N.lxor (sh_prefix a) (sh_prefix s)) (shl 64 (tag_mask a) 1) =? 0).
(** 323-331 [is_parent_of], 334-336 [is_child_of] *)
Definition parent_prefix (c : shard) : N :=
  let tag := prefix_tag c in N.lor (sh_prefix c - tag) (shl 64 tag 1).
Definition is_parent_of (p c : shard) : bool :=
  if negb (sh_wc p =? sh_wc c)%Z || is_full c then false else parent_prefix c =? sh_prefix p.
Definition is_child_of (c p : shard) : bool := is_parent_of p c.
(** 339-357 [intersects] *)
Definition intersects (a b : shard) : bool :=
  if negb (sh_wc a =? sh_wc b)%Z then false
  else
    let longest := if prefix_tag a <? prefix_tag b then prefix_tag b else prefix_tag a in
    let bits := shl 64 (neg64 longest) 1 in
    N.land (N.lxor (sh_prefix a) (sh_prefix b)) bits =? 0.
(** 361-371 [merge] *)
Definition merge (s : shard) : option shard :=
  if is_full s then None else Some (Shard (sh_wc s) (parent_prefix s)).
(** 376-391 [split] *)
Definition split (s : shard) : option (shard * shard) :=
  if negb (N.land (sh_prefix s) (shl 64 UNUSED_BITS_MASK 1 + 1) =? 0) then None
  else
    let tag := N.shiftr (prefix_tag s) 1 in
    Some (Shard (sh_wc s) (sh_prefix s - tag), Shard (sh_wc s) (w64 (sh_prefix s + tag))).
(** 396-406 [opposite] *)
Definition opposite (s : shard) : option shard :=
  if is_full s then None else Some (Shard (sh_wc s) (N.lxor (sh_prefix s) (shl 64 (prefix_tag s) 1))).
(** [u64::trailing_zeros] of a number that is not zero *)
Fixpoint tz_pos (p : positive) : N := match p with xO p' => N.succ (tz_pos p') | _ => 0 end.
Definition trailing_zeros64 (x : N) : N := match x with N0 => 64 | Npos p => tz_pos p end.
(** 409-414 [prefix_len], 417-419 [can_split] *)
Definition prefix_len (s : shard) : N :=
  if sh_prefix s =? 0 then 64 else 63 - trailing_zeros64 (sh_prefix s).
Definition can_split (s : shard) : bool := prefix_len s <? MAX_SPLIT_DEPTH.
(** 432-460 [contains_account_prefix]; the two lists are the bytes not looked at yet. *)
Fixpoint contains_loop (bits : N) (prefix account : list N) : res bool :=
  if bits =? 0 then Ok true
  else
    match prefix, account with
    | [], _ => Ok true
    | p :: prefix', a :: account' =>
      if 8 <=? bits then
        if negb (p =? a) then Ok false else contains_loop (bits - 8) prefix' account'
      else
        let mask := shl 8 255 (8 - bits) in
        Ok (N.land (N.lxor p a) mask =? 0)
    | _ :: _, [] => Err Panic
    end.
Definition contains_prefix (s : shard) (account : list N) : res bool :=
  contains_loop (prefix_len s) (to_be 8 (sh_prefix s)) account.
(** 422-425 [contains_address] of an address with a workchain and a 64-bit prefix *)
Definition contains_address (s : shard) (wc : Z) (prefix : N) : res bool :=
  if (sh_wc s =? wc)%Z then contains_prefix s (to_be 8 prefix) else Ok false.
(** 428-430 [contains_account]; [first_chunk] is the first eight bytes. *)
Definition contains_account (s : shard) (account : list N) : res bool := contains_prefix s (take 8 account).

(** ** In cells: 473-498.  Bits are appended to and taken from bit strings. *)
Definition store_shard (s : shard) (b : list bool) : res (list bool) :=
  let? b := put (nbits 8 (w8 (prefix_len s))) b in
  let? b := put (nbits 32 (as_unsigned 32 (sh_wc s))) b in
  put (nbits 64 (sh_prefix s - prefix_tag s)) b.
Definition load_shard (b : list bool) : res (shard * list bool) :=
  let? (len, b) := load_uint 8 b in
  if MAX_SPLIT_DEPTH <? len then Err IntOverflow
  else
    let? (wc, b) := load_uint 32 b in
    let? (p, b) := load_uint 64 b in
    let tag := shl 64 1 (63 - len) in
    Ok (Shard (as_signed 32 wc) (N.lor (N.land p (neg64 tag)) tag), b).

(** ** As text *)
Definition COLON : N := 58.
(** 202-206 [Display] *)
Definition show_shard (s : shard) : list N := show_int (sh_wc s) ++ [COLON] ++ show_hex 16 HEX_LOWER (sh_prefix s).
Inductive id_err := IdEmpty | IdShard | IdSeqno | IdRootHash | IdFileHash | IdUnexpected.
Inductive ires (A : Type) := IOk (a : A) | IErr (e : id_err).
Arguments IOk {A} a.
Arguments IErr {A} e.
(** 54-64 and 513-522: the prefix part *)
Definition parse_prefix (wc : Z) (part : option (list N)) : ires shard :=
  match part with
  | None => IErr IdShard
  | Some p =>
    match parse_unsigned 16 MAX64 p with
    | None => IErr IdShard
    | Some prefix => match shard_new wc prefix with Some s => IOk s | None => IErr IdShard end
    end
  end.
(** 500-526 [FromStr for ShardIdent]; [split] always gives a first part. *)
Definition parse_shard (s : list N) : ires shard :=
  match split_at COLON s with
  | [] => IErr IdEmpty
  | wc :: parts =>
    match parse_signed 32 wc with
    | None => IErr IdShard
    | Some wc => parse_prefix wc (head parts)
    end
  end.

(** ** Block identifiers *)
(** 8-19 [BlockId] *)
Record block_id := BlockId { bi_shard : shard; bi_seqno : N; bi_root : list N; bi_file : list N }.
(** 111-119 [Display]; [HashBytes] are printed in lower-case hexadecimal. *)
Definition show_block_id (b : block_id) : list N :=
  show_shard (bi_shard b) ++ [COLON] ++ show_dec (bi_seqno b) ++ [COLON]
  ++ hex_encode HEX_LOWER (bi_root b) ++ [COLON] ++ hex_encode HEX_LOWER (bi_file b).
(** 42-107 [FromStr] *)
Definition parse_block_id (s : list N) : ires block_id :=
  match s with
  | [] => IErr IdEmpty
  | _ =>
    match split_at COLON s with
    | [] => IErr IdEmpty
    | wc :: parts =>
      match parse_signed 32 wc with
      | None => IErr IdShard
      | Some wc =>
        match parse_prefix wc (head parts) with
        | IErr e => IErr e
        | IOk shard =>
          match (match parts !! 1%nat with Some p => parse_unsigned 10 (2 ^ 32 - 1) p | None => None end) with
          | None => IErr IdSeqno
          | Some seqno =>
            match (match parts !! 2%nat with Some p => hex_decode_to 32 p | None => None end) with
            | None => IErr IdRootHash
            | Some root =>
              match (match parts !! 3%nat with Some p => hex_decode_to 32 p | None => None end) with
              | None => IErr IdFileHash
              | Some file =>
                match parts !! 4%nat with
                | None => IOk (BlockId shard seqno root file)
                | Some _ => IErr IdUnexpected
                end
              end
            end
          end
        end
      end
    end
  end.
(** 7 (derived [Store], [Load]): the fields in order. *)
Definition store_block_id (x : block_id) (b : list bool) : res (list bool) :=
  let? b := store_shard (bi_shard x) b in
  let? b := put (nbits 32 (bi_seqno x)) b in
  let? b := put (bytes_bits (bi_root x)) b in
  put (bytes_bits (bi_file x)) b.
Definition load_block_id (b : list bool) : res (block_id * list bool) :=
  let? (s, b) := load_shard b in
  let? (seqno, b) := load_uint 32 b in
  let? (root, b) := load_uint 256 b in
  let? (file, b) := load_uint 256 b in
  Ok (BlockId s seqno (to_be 32 root) (to_be 32 file), b).
