(** * Finalized cells: descriptors, level masks, hashes and depths.

    src/cell/mod.rs (descriptors and masks), src/cell/cell_context.rs ([compute_hashes]),
    src/cell/builder.rs ([build_ext]), src/cell/cell_impl ([make_cell] and the accessors).
    SHA-256 is a parameter of the hashing functions.  Simplified: the [stats] feature is off;
    Rust's reference counting is not visible in the values. *)
From Verif Require Import Err BuilderModel.
Local Open Scope N_scope.

(** ** Level masks: mod.rs:1238-1392 *)
(** 1250-1252 [LevelMask::new] *)
Definition lm_new (m : N) : N := N.land m 7.
(** 1275-1282 [from_level] *)
Definition lm_from_level (level : N) : N :=
  if level =? 0 then 0 else if level =? 1 then 1 else if level =? 2 then 3 else 7.
(** 1285-1287 [level] *)
Definition lm_level (m : N) : N := N.land m 1 + N.land (N.shiftr m 1) 1 + N.land (N.shiftr m 2) 1.
(** 1290-1292 [hash_index] *)
Definition lm_hash_index (m level : N) : N := lm_level (N.land m (lm_from_level level)).
(** 1295-1297 [contains]; [1 << (level - 1)] is a shift of [u8]. *)
Definition lm_contains (m level : N) : bool := (level =? 0) || negb (N.land m (shl 8 1 (level - 1)) =? 0).
(** 1302-1304 [virtualize] *)
Definition lm_virtualize (m offset : N) : N := N.shiftr m offset.
(** 1313-1322 [into_iter], 1384-1399 [LevelMaskIter::next]: the state and the next level. *)
Definition lm_iter_init (m : N) : N := N.lor 1 (shl 8 m 1).
Definition not8 (x : N) : N := N.lxor (x mod 256) 255.
Definition lm_next (x : N) : option (N * N) :=
  if x =? 0 then None
  else
    let mask := N.land x (not8 (x - 1)) in
    Some (N.log2 mask, N.land x (not8 mask)).
(** All the items of the iterator. *)
Fixpoint lm_items (fuel : nat) (x : N) : list N :=
  match fuel with
  | O => []
  | S f => match lm_next x with None => [] | Some (l, x') => l :: lm_items f x' end
  end.
Definition lm_levels (m : N) : list N := lm_items 8 (lm_iter_init m).

(** ** Cell types and descriptors: mod.rs:983-1236 *)
Inductive cell_type := Ordinary | PrunedBranch | LibraryReference | MerkleProof | MerkleUpdate.
(** 1004-1006 [is_merkle] *)
Definition is_merkle (t : cell_type) : bool := match t with MerkleProof | MerkleUpdate => true | _ => false end.
Definition is_pruned (t : cell_type) : bool := match t with PrunedBranch => true | _ => false end.
(** 1028-1036 [to_byte] *)
Definition type_byte (t : cell_type) : N :=
  match t with Ordinary => 255 | PrunedBranch => 1 | LibraryReference => 2 | MerkleProof => 3 | MerkleUpdate => 4 end.
(** 1053-1061 [from_byte_exotic] *)
Definition from_byte_exotic (b : N) : option cell_type :=
  if b =? 1 then Some PrunedBranch else if b =? 2 then Some LibraryReference
  else if b =? 3 then Some MerkleProof else if b =? 4 then Some MerkleUpdate else None.

(** 1114-1116 [compute_d1] *)
Definition compute_d1 (mask : N) (exotic : bool) (refs : N) : N :=
  N.lor (N.lor (shl 8 mask 5) (shl 8 (N.b2n exotic) 3)) (N.land refs 7).
(** 1120-1122 [compute_d2] *)
Definition compute_d2 (bit_len : N) : N :=
  N.lor (N.land (w8 (N.shiftr bit_len 2)) 254) (N.b2n (negb (bit_len mod 8 =? 0))).
(** 1135-1139 [virtualize] *)
Definition d_virtualize (d1 offset : N) : N := N.lor (N.land (N.shiftr d1 offset) 224) (N.land d1 31).
(** 1163-1165 [reference_count] *)
Definition d_refs (d1 : N) : N := N.land d1 7.
(** 1184-1186 [is_exotic] *)
Definition d_exotic (d1 : N) : bool := negb (N.land d1 8 =? 0).
(** 1208-1210 [is_absent] *)
Definition d_absent (d1 : N) : bool := d1 =? 15.
(** 1214-1216 [store_hashes] *)
Definition d_store_hashes (d1 : N) : bool := negb (N.land d1 16 =? 0).
(** 1220-1223 [level_mask] *)
Definition d_mask (d1 : N) : N := N.shiftr d1 5.
(** 1227-1229 [is_aligned] *)
Definition d_aligned (d2 : N) : bool := N.land d2 1 =? 0.
(** 1233-1235 [byte_len] *)
Definition d_byte_len (d2 : N) : N := N.land d2 1 + N.shiftr d2 1.
(** 1142-1159 [cell_type] *)
Definition d_type (d1 : N) : cell_type :=
  if negb (d_exotic d1) then Ordinary
  else if d_refs d1 =? 0 then (if N.land d1 224 =? 0 then LibraryReference else PrunedBranch)
  else if d_refs d1 =? 1 then MerkleProof else MerkleUpdate.
(** 1171-1178 [hash_count] *)
Definition d_hash_count (d1 : N) : N :=
  let level := lm_level (d_mask d1) in
  if d_exotic d1 && (d_refs d1 =? 0) && (0 <? level) then 1 else level + 1.

(** ** Cells *)
(** cell_impl/mod.rs:228-236 [OrdinaryCellHeader], 455-459 [LibraryReference],
    526-530 [PrunedBranchHeader]: descriptor bytes, length in bits, data bytes, references,
    computed hashes (a pruned branch and a library reference have one). *)
Inductive fcell := FCell (d1 d2 : N) (bit_len : N) (data : list N) (refs : list fcell) (hashes : list (list N * N)).
Definition f_d1 (c : fcell) : N := let '(FCell d _ _ _ _ _) := c in d.
Definition f_d2 (c : fcell) : N := let '(FCell _ d _ _ _ _) := c in d.
Definition f_bit_len (c : fcell) : N := let '(FCell _ _ b _ _ _) := c in b.
Definition f_data (c : fcell) : list N := let '(FCell _ _ _ d _ _) := c in d.
Definition f_refs (c : fcell) : list fcell := let '(FCell _ _ _ _ r _) := c in r.
Definition f_hashes (c : fcell) : list (list N * N) := let '(FCell _ _ _ _ _ h) := c in h.
Definition f_mask (c : fcell) : N := d_mask (f_d1 c).

(** cell_impl/mod.rs:239-245 [level_descr]: an unchecked access. *)
Definition level_descr (c : fcell) (level : N) : res (list N * N) :=
  of_opt UB (f_hashes c !! N.to_nat (lm_hash_index (f_mask c) level)).
(** The hash at a level: cell_impl/mod.rs:73, 160, 429-431, 495-497, 572-585. *)
Definition f_hash (c : fcell) (level : N) : res (list N) :=
  match d_type (f_d1 c) with
  | PrunedBranch =>
    let i := lm_hash_index (f_mask c) level in
    if i =? lm_level (f_mask c) then let? h := of_opt UB (f_hashes c !! 0%nat) in Ok (fst h)
    else of_opt UB (rdn (f_data c) (N.to_nat (2 + i * 32)) 32)
  | LibraryReference => let? h := of_opt UB (f_hashes c !! 0%nat) in Ok (fst h)
  | _ => let? h := level_descr c level in Ok (fst h)
  end.
(** The depth at a level: cell_impl/mod.rs:77, 164, 433-435, 499-501, 587-600. *)
Definition f_depth (c : fcell) (level : N) : res N :=
  match d_type (f_d1 c) with
  | PrunedBranch =>
    let i := lm_hash_index (f_mask c) level in
    if i =? lm_level (f_mask c) then Ok 0
    else let? b := of_opt UB (rdn (f_data c) (N.to_nat (2 + lm_level (f_mask c) * 32 + i * 2)) 2) in Ok (from_be b)
  | LibraryReference => Ok 0
  | _ => let? h := level_descr c level in Ok (snd h)
  end.
(** mod.rs:217-225 [repr_hash], [repr_depth]: the highest level. *)
Definition f_repr_hash (c : fcell) : res (list N) := f_hash c 3.
Definition f_repr_depth (c : fcell) : res N := f_depth c 3.

(** ** Hashing: cell_context.rs:80-209 *)
(** The bitwise OR of the children's masks (builder.rs:504-512, boc/de.rs:437-443). *)
Definition children_mask (refs : list fcell) : N := fold_left (fun m c => N.lor m (f_mask c)) refs 0.

(** cell_context.rs:93-151: the type and the mask of the cell. *)
Definition check_type (d1 : N) (bit_len : N) (cmask : N) (refs : list fcell) (data : list N) : res (cell_type * N) :=
  let level := lm_level (d_mask d1) in
  let n_refs := N.of_nat (length refs) in
  if d_exotic d1 then
    match data with
    | [] => Err InvalidCell
    | first :: _ =>
      match from_byte_exotic first with
      | Some PrunedBranch =>
        if level =? 0 then Err InvalidCell
        else if negb (bit_len =? 16 + level * 272) || negb (n_refs =? 0) then Err InvalidCell
        else if negb (d_mask d1 =? nth 1 data 0) then Err InvalidCell
        else Ok (PrunedBranch, d_mask d1)
      | Some MerkleProof =>
        if negb (bit_len =? 280) || negb (n_refs =? 1) then Err InvalidCell
        else Ok (MerkleProof, lm_virtualize cmask 1)
      | Some MerkleUpdate =>
        if negb (bit_len =? 552) || negb (n_refs =? 2) then Err InvalidCell
        else Ok (MerkleUpdate, lm_virtualize cmask 1)
      | Some LibraryReference =>
        if negb (bit_len =? 264) || negb (n_refs =? 0) then Err InvalidCell
        else Ok (LibraryReference, 0)
      | _ => Err InvalidCell
      end
    end
  else Ok (Ordinary, cmask).

(** 179-190: the depth of the cell and the depth bytes that are hashed. *)
Fixpoint hash_depths (refs : list fcell) (level : N) (depth : N) : res (N * list N) :=
  match refs with
  | [] => Ok (depth, [])
  | c :: refs' =>
    let? d := f_depth c level in
    if 65535 <=? d then Err DepthOverflow
    else
      let? (depth, bytes) := hash_depths refs' level (N.max depth (d + 1)) in
      Ok (depth, to_be 2 d ++ bytes)
  end.
(** 192-195: the hash bytes of the children. *)
Fixpoint hash_hashes (refs : list fcell) (level : N) : res (list N) :=
  match refs with
  | [] => Ok []
  | c :: refs' => let? h := f_hash c level in let? rest := hash_hashes refs' level in Ok (h ++ rest)
  end.
(** 171-173: the first descriptor byte as hashed at a level. *)
Definition level_d1 (d1 mask : N) : N := N.lor (N.land d1 15) (shl 8 mask 5).

Section Hash.
Context (sha : list N -> list N).

(** 155-199: the loop over the levels. *)
Fixpoint hash_levels (levels : list N) (ty : cell_type) (d1 d2 mask : N) (refs : list fcell) (data : list N)
    (hashes : list (list N * N)) : res (list (list N * N)) :=
  match levels with
  | [] => Ok hashes
  | level :: levels' =>
    if negb (level =? 0) && (is_pruned ty || negb (lm_contains mask level)) then
      hash_levels levels' ty d1 d2 mask refs data hashes
    else
      let m := if is_pruned ty then mask else lm_from_level level in
      let child_level := level + (if is_merkle ty then 1 else 0) in
      let? body := (if level =? 0 then Ok data else let? h := of_opt UB (list.last hashes) in Ok (fst h)) in
      let? (depth, depth_bytes) := hash_depths refs child_level 0 in
      let? hash_bytes := hash_hashes refs child_level in
      let h := sha ([level_d1 d1 m; d2] ++ body ++ depth_bytes ++ hash_bytes) in
      hash_levels levels' ty d1 d2 mask refs data (hashes ++ [(h, depth)])
  end.
(** 80-202 [compute_hashes] *)
Definition compute_hashes (d1 d2 bit_len cmask : N) (refs : list fcell) (data : list N) : res (list (list N * N)) :=
  let? (ty, mask) := check_type d1 bit_len cmask refs data in
  if negb (mask =? d_mask d1) then Err InvalidCell
  else hash_levels [0; 1; 2; 3] ty d1 d2 mask refs data [].

(** mod.rs:977-981 [EMPTY_CELL_HASH] *)
Definition EMPTY_CELL_HASH : list N :=
  [0x96; 0xa2; 0x96; 0xd2; 0x24; 0xf2; 0x85; 0xc6; 0x7b; 0xee; 0x93; 0xc3; 0x0f; 0x8a; 0x30; 0x91;
   0x57; 0xf0; 0xda; 0xa3; 0x5d; 0xc5; 0xb8; 0x7e; 0x41; 0x0b; 0x78; 0x63; 0x0a; 0x09; 0xcf; 0xc7].

(** sync.rs:167-172 [EmptyCellContext::finalize_cell], 190-235 [make_cell]: the empty ordinary
    cell is replaced by a static one. *)
Definition finalize_cell (d1 d2 bit_len cmask : N) (refs : list fcell) (data : list N) : res fcell :=
  let? hashes := compute_hashes d1 d2 bit_len cmask refs data in
  if (d1 =? 0) && (d2 =? 0) then Ok (FCell 0 0 0 [] [] [(EMPTY_CELL_HASH, 0)])
  else Ok (FCell d1 d2 bit_len data refs hashes).

(** builder.rs:514-530: the mask put into the descriptor. *)
Definition builder_mask (exotic : bool) (b : bld) (cmask : N) : N :=
  if exotic && (8 <=? bl b) then
    match from_byte_exotic (nth 0 (bd b) 0) with
    | Some PrunedBranch => lm_new (nth 1 (bd b) 0)
    | Some MerkleProof | Some MerkleUpdate => lm_virtualize cmask 1
    | Some LibraryReference => 0
    | _ => cmask
    end
  else cmask.
(** builder.rs:535-555: the completion tag and the data bytes. *)
Definition tag_data (b : bld) : res (list N) :=
  let rem := bl b mod 8 in
  let last := N.to_nat (bl b / 8) in
  let? buf :=
    (if 0 <? rem then
       let tag_mask := shl 8 1 (7 - rem) in
       let data_mask := not8 (tag_mask - 1) in
       match rd (bd b) last with
       | None => Err UB
       | Some x => of_opt UB (wr (bd b) last (N.lor (N.land x data_mask) tag_mask))
       end
     else Ok (bd b)) in
  let n := N.to_nat (N.min ((bl b + 7) / 8) 128) in
  if (length buf <? n)%nat then Err Panic else Ok (take n buf).
(** builder.rs:494-571 [build_ext] with the empty context. *)
Definition build_ext (exotic : bool) (b : bld) (refs : list fcell) : res fcell :=
  let cmask := children_mask refs in
  let d1 := compute_d1 (builder_mask exotic b cmask) exotic (N.of_nat (length refs)) in
  let d2 := compute_d2 (bl b) in
  let? data := tag_data b in
  finalize_cell d1 d2 (bl b) cmask refs data.

End Hash.
