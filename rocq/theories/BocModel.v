(** * Bags of cells: src/boc/de.rs, src/boc/ser.rs and the entry points of src/boc/mod.rs.

    SHA-256 and CRC-32C are parameters.  Simplified: sizes are unbounded numbers where the
    sums stay far below 2^64 (the comments in the code say why); the hash map of the encoder is
    an association list; [reserve] and [try_reserve_exact] succeed. *)
From Verif Require Import Err HashModel.
Local Open Scope N_scope.

(** ** Errors of the decoder: de.rs:546-599 *)
Inductive boc_err :=
| UnexpectedEof | UnknownBocTag | InvalidHeader | InvalidRefSize | InvalidOffsetSize | RootCellNotFound
| UnexpectedMultipleRoots | TooManyRootCells | AbsentCellsNotSupported | TooFewRootCells | InvalidTotalSize
| RootOutOfBounds | InvalidRef | UnnormalizedCell | InvalidRefOrder | BInvalidCell | InvalidChecksum
(* not in the code: a read outside of the input, a failed index *)
| OutOfBounds | BPanic.
Inductive bres (A : Type) := BOk (a : A) | BErr (e : boc_err).
Arguments BOk {A} a.
Arguments BErr {A} e.
Definition bbind {A B} (x : bres A) (f : A -> bres B) : bres B :=
  match x with BOk a => f a | BErr e => BErr e end.
Notation "'let!' x := a 'in' b" := (bbind a (fun x => b))
  (at level 200, x pattern, a at level 100, b at level 200).
Definition b_opt {A} (e : boc_err) (o : option A) : bres A :=
  match o with Some a => BOk a | None => BErr e end.
Definition fail_if (b : bool) (e : boc_err) : bres unit := if b then BErr e else BOk tt.

(** mod.rs:30-53 [BocTag] *)
Inductive boc_tag := TIndexed | TIndexedCrc | TGeneric.
Definition tag_bytes (t : boc_tag) : list N :=
  match t with
  | TIndexed => [0x68; 0xff; 0x65; 0xf3]
  | TIndexedCrc => [0xac; 0xc3; 0xa7; 0x28]
  | TGeneric => [0xb5; 0xee; 0x9c; 0x72]
  end.
Fixpoint bytes_eqb (a b : list N) : bool :=
  match a, b with
  | [], [] => true
  | x :: a', y :: b' => (x =? y) && bytes_eqb a' b'
  | _, _ => false
  end.
Definition tag_from_bytes (b : list N) : option boc_tag :=
  if bytes_eqb b (tag_bytes TGeneric) then Some TGeneric
  else if bytes_eqb b (tag_bytes TIndexedCrc) then Some TIndexedCrc
  else if bytes_eqb b (tag_bytes TIndexed) then Some TIndexed else None.

(** util.rs:80-115 [read_be_u32_fast], [read_be_u64_fast]: unchecked reads. *)
Definition read_uint (data : list N) (off size : nat) : bres N :=
  let! b := b_opt OutOfBounds (rdn data off size) in BOk (from_be b).
(** de.rs:322-324 [require] *)
Definition require (data : list N) (off : nat) (n : N) : bool := N.of_nat off + n <=? N.of_nat (length data).

(** ** One cell: de.rs:485-536 [read_raw_cell_from_ptr]: the length of the first cell in [bytes]. *)
Definition read_raw (bytes : list N) (ref_size : nat) : bres nat :=
  let! _ := fail_if (length bytes <? 2)%nat UnexpectedEof in
  let! d1 := b_opt OutOfBounds (rd bytes 0) in
  let! d2 := b_opt OutOfBounds (rd bytes 1) in
  let! _ := fail_if (d_absent d1) AbsentCellsNotSupported in
  let data_len := N.to_nat (d_byte_len d2) in
  let refs := N.to_nat (d_refs d1) in
  let! _ := fail_if (4 <? refs)%nat InvalidRef in
  let level := lm_level (d_mask d1) in
  let! data_offset :=
    (if d_store_hashes d1 then
       if d_exotic d1 && (refs =? 0)%nat && (0 <? level) then BErr UnnormalizedCell
       else BOk (34 * (N.to_nat level + 1))%nat
     else BOk 0%nat) in
  let total_len := (2 + data_offset + data_len + refs * ref_size)%nat in
  let! _ := fail_if (length bytes <? total_len)%nat UnexpectedEof in
  if (0 <? data_len)%nat && negb (d_aligned d2) then
    let! tag := b_opt OutOfBounds (rd bytes (2 + data_offset + data_len - 1)) in
    if N.land tag 127 =? 0 then BErr UnnormalizedCell else BOk total_len
  else BOk total_len.

(** [u8::trailing_zeros] *)
Definition trailing_zeros8 (x : N) : N :=
  if N.testbit x 0 then 0 else if N.testbit x 1 then 1 else if N.testbit x 2 then 2 else if N.testbit x 3 then 3
  else if N.testbit x 4 then 4 else if N.testbit x 5 then 5 else if N.testbit x 6 then 6 else if N.testbit x 7 then 7 else 8.

(** de.rs:436-458: the references; [cells] are the cells built so far. *)
Fixpoint read_refs (n : nat) (raw : list N) (off ref_size : nat) (cell_count : N) (cells : list fcell) : bres (list fcell) :=
  match n with
  | O => BOk []
  | S n' =>
    let! child := read_uint raw off ref_size in
    let! _ := fail_if (cell_count <=? child) InvalidRef in
    let! c := b_opt InvalidRefOrder (cells !! N.to_nat (cell_count - child - 1)) in
    let! rest := read_refs n' raw (off + ref_size) ref_size cell_count cells in
    BOk (c :: rest)
  end.

(** ** The header: de.rs:39-251 *)
Record boc_options := Options { o_min : option N; o_max : option N }.
Definition MAX_ROOTS : N := 32.
Record boc_parsed := Parsed { p_ref_size : nat; p_cells : list (list N); p_roots : list N }.

(** 182-189: the list of roots. *)
Fixpoint read_roots (n : nat) (data : list N) (off ref_size : nat) (cell_count : N) : bres (list N) :=
  match n with
  | O => BOk []
  | S n' =>
    let! r := read_uint data off ref_size in
    let! _ := fail_if (cell_count <=? r) RootOutOfBounds in
    let! rest := read_roots n' data (off + ref_size) ref_size cell_count in
    BOk (r :: rest)
  end.
(** 211-224: the slices of the cells, and the offset after the last one. *)
Fixpoint read_cells (n : nat) (data : list N) (off ref_size : nat) : bres (list (list N) * nat) :=
  match n with
  | O => BOk ([], off)
  | S n' =>
    let! _ := fail_if (length data <? off)%nat OutOfBounds in
    let! len := read_raw (drop off data) ref_size in
    let! (cells, off') := read_cells n' data (off + len) ref_size in
    BOk (take len (drop off data) :: cells, off')
  end.
(** [u32::from_le_bytes] and [to_le_bytes] *)
Definition from_le (b : list N) : N := from_be (rev b).
Definition to_le (n : nat) (v : N) : list N := rev (to_be n v).

Section Crc.
(** crc32c::crc32c_append; [crc32c x] is [crc32c_append 0 x]. *)
Context (crc : N -> list N -> N).

(** 366-376 [check_crc] *)
Definition check_crc (data : list N) (off : nat) : bres bool :=
  let! b := b_opt OutOfBounds (rdn data off 4) in
  BOk (from_le b =? crc 0 (take off data)).

Definition decode_header (o : boc_options) (data : list N) : bres boc_parsed :=
  let! _ := fail_if (negb (require data 0 6)) UnexpectedEof in
  let! flags := b_opt OutOfBounds (rd data 4) in
  let! offset_byte := b_opt OutOfBounds (rd data 5) in
  let! tag := b_opt OutOfBounds (rdn data 0 4) in
  let! (has_index, has_crc, has_cache_bits, ref_byte, multi) :=
    match tag_from_bytes tag with
    | Some TIndexed => BOk (true, false, false, flags, false)
    | Some TIndexedCrc => BOk (true, true, false, flags, false)
    | Some TGeneric =>
      BOk (negb (N.land flags 128 =? 0), negb (N.land flags 64 =? 0), negb (N.land flags 32 =? 0), N.land flags 7, true)
    | None => BErr UnknownBocTag
    end in
  let! _ := fail_if (has_cache_bits && negb has_index) InvalidHeader in
  let! _ := fail_if ((ref_byte =? 0) || (4 <? ref_byte)) InvalidRefSize in
  let! _ := fail_if ((offset_byte =? 0) || (8 <? offset_byte)) InvalidOffsetSize in
  let ref_size := N.to_nat ref_byte in
  let offset_size := N.to_nat offset_byte in
  let! _ := fail_if (negb (require data 6 (3 * ref_byte + offset_byte))) InvalidHeader in
  let! cell_count := read_uint data 6 ref_size in
  let! root_count := read_uint data (6 + ref_size) ref_size in
  let! absent_count := read_uint data (6 + 2 * ref_size) ref_size in
  let! _ := fail_if (root_count =? 0) RootCellNotFound in
  let! _ := fail_if (negb multi && (1 <? root_count)) UnexpectedMultipleRoots in
  let! _ := fail_if (cell_count <? root_count + absent_count) TooManyRootCells in
  let! _ := fail_if (0 <? absent_count) AbsentCellsNotSupported in
  let! _ := fail_if (match o_min o with Some m => root_count <? m | None => false end) TooFewRootCells in
  let! _ := fail_if (match o_max o with Some m => m | None => MAX_ROOTS end <? root_count) TooManyRootCells in
  let off := (6 + 3 * ref_size)%nat in
  let! total := read_uint data off offset_size in
  let! _ := fail_if (total <? cell_count * (2 + ref_byte) - root_count * ref_byte) InvalidTotalSize in
  let! _ := fail_if (cell_count * (2 + 4 * (2 + 32) + 128 + 4 * ref_byte) <? total) InvalidTotalSize in
  let off := (off + offset_size)%nat in
  let! _ := fail_if (negb (require data off (root_count * ref_byte))) UnexpectedEof in
  let! (roots, off) :=
    (if multi then
       let! roots := read_roots (N.to_nat root_count) data off ref_size cell_count in
       BOk (roots, (off + N.to_nat root_count * ref_size)%nat)
     else BOk ([0], off)) in
  let index_size := if has_index then cell_count * offset_byte else 0 in
  let! _ := fail_if (negb (require data off (index_size + total + (if has_crc then 4 else 0)))) UnexpectedEof in
  let start := (off + N.to_nat index_size)%nat in
  let! (cells, off) := read_cells (N.to_nat cell_count) data start ref_size in
  let! _ := fail_if (negb (N.of_nat start + total =? N.of_nat off)) InvalidTotalSize in
  let! _ :=
    (if has_crc then
       let! _ := fail_if (negb (require data off 4)) UnexpectedEof in
       let! ok := check_crc data off in
       fail_if (negb ok) InvalidChecksum
     else BOk tt) in
  BOk (Parsed ref_size cells roots).

Section Sha.
Context (sha : list N -> list N).

(** ** Building the cells: de.rs:397-470 [from_raw_cell] and the call of [finalize_cell] *)
Definition build_raw (raw : list N) (cells : list fcell) (cell_count : N) (ref_size : nat) : bres fcell :=
  let! d1 := b_opt OutOfBounds (rd raw 0) in
  let! d2 := b_opt OutOfBounds (rd raw 1) in
  let data_len := N.to_nat (d_byte_len d2) in
  let off := (2 + if d_store_hashes d1 then 34 * (N.to_nat (lm_level (d_mask d1)) + 1) else 0)%nat in
  let! data := b_opt OutOfBounds (rdn raw off data_len) in
  let bit_len :=
    if d_aligned d2 then 8 * N.of_nat data_len
    else match list.last data with Some x => 8 * N.of_nat data_len - trailing_zeros8 x - 1 | None => 0 end in
  let! refs := read_refs (N.to_nat (d_refs d1)) raw (off + data_len) ref_size cell_count cells in
  match finalize_cell sha d1 d2 bit_len (children_mask refs) refs data with
  | Ok c => BOk c
  | Err _ => BErr BInvalidCell
  end.
(** de.rs:264-277: the loop over the reversed list of slices; [cells] are the cells built so far. *)
Fixpoint build_cells (raws : list (list N)) (cells : list fcell) (cell_count : N) (ref_size : nat) : bres (list fcell) :=
  match raws with
  | [] => BOk cells
  | raw :: raws' =>
    let! c := build_raw raw cells cell_count ref_size in
    build_cells raws' (cells ++ [c]) cell_count ref_size
  end.
(** de.rs:254-280 [finalize] *)
Definition finalize (p : boc_parsed) : bres (list fcell) :=
  build_cells (rev (p_cells p)) [] (N.of_nat (length (p_cells p))) (p_ref_size p).
(** de.rs:303-305 [ProcessedCells::get] *)
Definition processed_get (cells : list fcell) (index : N) : bres fcell :=
  let n := N.of_nat (length cells) in
  if n <? index + 1 then BErr BPanic else b_opt RootCellNotFound (cells !! N.to_nat (n - index - 1)).
Fixpoint get_all (cells : list fcell) (roots : list N) : bres (list fcell) :=
  match roots with
  | [] => BOk []
  | r :: rs => let! c := processed_get cells r in let! cs := get_all cells rs in BOk (c :: cs)
  end.
(** All the roots, as in the documentation of [de::BocHeader]: decode, finalize, get. *)
Definition decode_all (o : boc_options) (data : list N) : bres (list fcell) :=
  let! p := decode_header o data in
  let! cells := finalize p in
  get_all cells (p_roots p).
(** mod.rs:257-273 [decode_ext] *)
Definition decode (data : list N) : bres fcell :=
  let! p := decode_header (Options (Some 1) (Some 1)) data in
  match p_roots p with
  | root :: _ => let! cells := finalize p in processed_get cells root
  | [] => BErr RootCellNotFound
  end.
(** mod.rs:276-295 [decode_pair_ext] *)
Definition decode_pair (data : list N) : bres (fcell * fcell) :=
  let! p := decode_header (Options (Some 2) (Some 2)) data in
  match p_roots p with
  | r1 :: r2 :: _ =>
    let! cells := finalize p in
    let! c1 := processed_get cells r1 in
    let! c2 := processed_get cells r2 in
    BOk (c1, c2)
  | _ => BErr RootCellNotFound
  end.
End Sha.
End Crc.

(** ** The encoder: ser.rs *)
(** ser.rs:44-53 [BocHeader] *)
Record boc_ser := Ser {
  sr_roots : list N;              (* root_rev_indices *)
  sr_map : list (list N * N);     (* rev_indices *)
  sr_cells : list fcell;          (* rev_cells *)
  sr_data : N;                    (* total_data_size *)
  sr_refs : N;                    (* reference_count *)
  sr_count : N;                   (* cell_count *)
  sr_without_hashes : bool;
  sr_crc : bool }.
(** 55-69, 84-96 [default], [with_capacity] *)
Definition ser_new : boc_ser := Ser [] [] [] 0 0 0 false false.
(** 165-172 [clear]; the two flags stay. *)
Definition ser_clear (s : boc_ser) : boc_ser := Ser [] [] [] 0 0 0 (sr_without_hashes s) (sr_crc s).
(** 182-194 [with_crc], [without_hashes] *)
Definition with_crc (b : bool) (s : boc_ser) : boc_ser :=
  Ser (sr_roots s) (sr_map s) (sr_cells s) (sr_data s) (sr_refs s) (sr_count s) (sr_without_hashes s) b.
Definition without_hashes (b : bool) (s : boc_ser) : boc_ser :=
  Ser (sr_roots s) (sr_map s) (sr_cells s) (sr_data s) (sr_refs s) (sr_count s) b (sr_crc s).

Fixpoint map_get (m : list (list N * N)) (h : list N) : option N :=
  match m with
  | [] => None
  | (k, v) :: m' => if bytes_eqb k h then Some v else map_get m' h
  end.
(** 466-472 [byte_len_full] *)
Definition byte_len_full (without : bool) (d1 d2 : N) : N :=
  d_byte_len d2 + (if negb without && d_store_hashes d1 then (lm_level (d_mask d1) + 1) * 34 else 0).
(** 427-433 and 451-457 *)
Definition ser_push (c : fcell) (s : boc_ser) : res boc_ser :=
  let? h := f_repr_hash c in
  Ok (Ser (sr_roots s) ((h, sr_count s) :: sr_map s) (sr_cells s ++ [c])
        (sr_data s + byte_len_full (sr_without_hashes s) (f_d1 c) (f_d2 c)) (sr_refs s + d_refs (f_d1 c)) (w32 (sr_count s + 1))
        (sr_without_hashes s) (sr_crc s)).
(** 420-434 [fill_recursive] *)
Fixpoint fill_rec (c : fcell) (s : boc_ser) {struct c} : res boc_ser :=
  let '(FCell d1 d2 n data refs hashes) := c in
  let? s :=
    (fix go (cs : list fcell) (s : boc_ser) : res boc_ser :=
       match cs with
       | [] => Ok s
       | x :: cs' =>
         let? h := f_repr_hash x in
         let? s := (match map_get (sr_map s) h with Some _ => Ok s | None => fill_rec x s end) in
         go cs' s
       end) refs s in
  ser_push (FCell d1 d2 n data refs hashes) s.
(** 437-462 [fill_deep]: a stack of cells with the references still to visit. *)
Fixpoint fill_loop (fuel : nat) (stack : list (fcell * list fcell)) (s : boc_ser) : res boc_ser :=
  match stack with
  | [] => Ok s
  | (c, children) :: rest =>
    match fuel with
    | O => Err OutOfFuel
    | S f =>
      match children with
      | x :: children' =>
        let? h := f_repr_hash x in
        match map_get (sr_map s) h with
        | None => fill_loop f ((x, f_refs x) :: (c, children') :: rest) s
        | Some _ => fill_loop f ((c, children') :: rest) s
        end
      | [] => let? s := ser_push c s in fill_loop f rest s
      end
    end
  end.
(** Enough steps for the loop: each cell of the tree is entered and left once. *)
Fixpoint f_size (c : fcell) : nat := let '(FCell _ _ _ _ refs _) := c in S (fold_right (fun x n => f_size x + n)%nat 0%nat refs).
Definition fill_deep (c : fcell) (s : boc_ser) : res boc_ser := fill_loop (2 * f_size c) [(c, f_refs c)] s.
(** 402-418 [fill] *)
Definition SAFE_DEPTH : N := 128.
Definition fill (c : fcell) (s : boc_ser) : res (boc_ser * N) :=
  let? h := f_repr_hash c in
  match map_get (sr_map s) h with
  | Some i => Ok (s, i)
  | None =>
    let? depth := f_repr_depth c in
    let? s := (if depth <=? SAFE_DEPTH then fill_rec c s else fill_deep c s) in
    Ok (s, sr_count s - 1)
  end.
(** 175-178 [add_root] *)
Definition add_root (c : fcell) (s : boc_ser) : res boc_ser :=
  let? (s, i) := fill c s in
  Ok (Ser (sr_roots s ++ [i]) (sr_map s) (sr_cells s) (sr_data s) (sr_refs s) (sr_count s) (sr_without_hashes s) (sr_crc s)).
Fixpoint add_roots (cs : list fcell) (s : boc_ser) : res boc_ser :=
  match cs with [] => Ok s | c :: cs' => let? s := add_root c s in add_roots cs' s end.

(** 493-495 [number_of_bytes_to_fit] *)
Definition bytes_to_fit (l : N) : nat := N.to_nat (8 - (64 - N.size l) / 8).
(** 477-491 [BocHeaderStats], 294-327 [compute_stats] *)
Record boc_stats := Stats { st_offset_size : nat; st_ref_size : nat; st_cells_size : N; st_total : N }.
Definition compute_stats (s : boc_ser) : boc_stats :=
  let ref_size := bytes_to_fit (sr_count s) in
  let cells_size := sr_data s + sr_count s * 2 + N.of_nat ref_size * sr_refs s in
  let offset_size := bytes_to_fit cells_size in
  Stats offset_size ref_size cells_size
    (4 + 2 + N.of_nat ref_size * (3 + N.of_nat (length (sr_roots s))) + N.of_nat offset_size + cells_size
     + (if sr_crc s then 4 else 0)).
(** [x.to_be_bytes()[4 - n..]] of an unsigned integer of [w] bytes; the index must not underflow. *)
Definition be_tail (w n : nat) (v : N) : res (list N) :=
  if (w <? n)%nat then Err Panic else Ok (drop (w - n) (to_be w v)).
(** 354-357 *)
Fixpoint encode_roots (rev_indices : list N) (count : N) (ref_size : nat) : res (list N) :=
  match rev_indices with
  | [] => Ok []
  | i :: l =>
    let? b := (if count <? i + 1 then Err Panic else be_tail 4 ref_size (count - i - 1)) in
    let? rest := encode_roots l count ref_size in
    Ok (b ++ rest)
  end.
(** 330-360 [encode_header] *)
Definition encode_header (s : boc_ser) : res (list N) :=
  let st := compute_stats s in
  let rs := st_ref_size st in
  let flags := N.lor (w8 (N.of_nat rs)) (if sr_crc s then 64 else 0) in
  let? count := be_tail 4 rs (sr_count s) in
  let? roots := be_tail 4 rs (w32 (N.of_nat (length (sr_roots s)))) in
  let? absent := be_tail 4 rs 0 in
  let? size := be_tail 8 (st_offset_size st) (st_cells_size st) in
  let? indices := encode_roots (sr_roots s) (sr_count s) rs in
  Ok (tag_bytes TGeneric ++ [flags; w8 (N.of_nat (st_offset_size st))] ++ count ++ roots ++ absent ++ size ++ indices).
(** 372-377: the stored hashes and depths. *)
Fixpoint encode_hashes (c : fcell) (levels : list N) : res (list N) :=
  match levels with
  | [] => Ok []
  | l :: ls => let? h := f_hash c l in let? rest := encode_hashes c ls in Ok (h ++ rest)
  end.
Fixpoint encode_depths (c : fcell) (levels : list N) : res (list N) :=
  match levels with
  | [] => Ok []
  | l :: ls => let? d := f_depth c l in let? rest := encode_depths c ls in Ok (to_be 2 d ++ rest)
  end.
(** 380-387: the references; a child that is not in the map is skipped. *)
Fixpoint encode_refs (s : boc_ser) (ref_size : nat) (refs : list fcell) : res (list N) :=
  match refs with
  | [] => Ok []
  | x :: xs =>
    let? h := f_repr_hash x in
    let? b :=
      match map_get (sr_map s) h with
      | Some i => if sr_count s <? i + 1 then Err Panic else be_tail 4 ref_size (sr_count s - i - 1)
      | None => Ok []
      end in
    let? rest := encode_refs s ref_size xs in
    Ok (b ++ rest)
  end.
(** 366-388: the body of the loop. *)
Definition encode_cell (s : boc_ser) (ref_size : nat) (c : fcell) : res (list N) :=
  let d1 := N.land (f_d1 c) (not8 (if sr_without_hashes s then 16 else 0)) in
  let? stored :=
    (if d_store_hashes d1 then
       let? hs := encode_hashes c (lm_levels (d_mask d1)) in
       let? ds := encode_depths c (lm_levels (d_mask d1)) in
       Ok (hs ++ ds)
     else Ok []) in
  let? refs := encode_refs s ref_size (f_refs c) in
  Ok ([d1; f_d2 c] ++ stored ++ f_data c ++ refs).
Fixpoint encode_list (s : boc_ser) (ref_size : nat) (cells : list fcell) : res (list N) :=
  match cells with
  | [] => Ok []
  | c :: cs => let? b := encode_cell s ref_size c in let? rest := encode_list s ref_size cs in Ok (b ++ rest)
  end.
(** 363-389 [encode_cells_chunk]: in reverse order. *)
Definition encode_chunk (s : boc_ser) (ref_size : nat) (chunk : list fcell) : res (list N) := encode_list s ref_size (rev chunk).

(** [slice::rchunks]: chunks of [n] elements from the end; the last one may be shorter. *)
Fixpoint rchunks_fuel {A} (fuel : nat) (n : nat) (l : list A) : list (list A) :=
  match fuel with
  | O => []
  | S f => match l with
           | [] => []
           | _ => drop (length l - n) l :: rchunks_fuel f n (take (length l - n) l)
           end
  end.
Definition rchunks {A} (n : nat) (l : list A) : list (list A) := rchunks_fuel (length l) n l.
Fixpoint res_all {A} (l : list (res A)) : res (list A) :=
  match l with
  | [] => Ok []
  | x :: xs => let? a := x in let? r := res_all xs in Ok (a :: r)
  end.

Section EncCrc.
Context (crc : N -> list N -> N).
(** 392-400 [encode_crc] on what was written since [target_len_before]. *)
Definition append_crc (s : boc_ser) (written : list N) : list N :=
  if sr_crc s then written ++ to_le 4 (crc 0 written) else written.
(** 197-207 [encode]: what is appended to the target. *)
Definition encode (s : boc_ser) : res (list N) :=
  let? header := encode_header s in
  let? cells := encode_chunk s (st_ref_size (compute_stats s)) (sr_cells s) in
  Ok (append_crc s (header ++ cells)).
(** 235-240: each chunk is written and added to the checksum. *)
Fixpoint write_chunks (s : boc_ser) (ref_size : nat) (chunks : list (list fcell)) (written : list N) (c : N) : res (list N * N) :=
  match chunks with
  | [] => Ok (written, c)
  | x :: xs =>
    let? b := encode_chunk s ref_size x in
    write_chunks s ref_size xs (written ++ b) (if sr_crc s then crc c b else c)
  end.
(** 212-250 [encode_to_writer] with chunks of [n] cells (1000 in the code) and a writer that
    accepts everything. *)
Definition encode_to_writer (n : nat) (s : boc_ser) : res (list N) :=
  let? header := encode_header s in
  let? (written, c) := write_chunks s (st_ref_size (compute_stats s)) (rchunks n (sr_cells s)) header (if sr_crc s then crc 0 header else 0) in
  Ok (if sr_crc s then written ++ to_le 4 c else written).
(** 255-291 [encode_rayon] with chunks of [n] cells (5000 in the code).  The thread pool encodes
    the chunks in any [order]; [collect_into_vec] puts the result of chunk [i] into slot [i]. *)
Fixpoint run_slots (s : boc_ser) (ref_size : nat) (chunks : list (list fcell)) (order : list nat) (slots : list (res (list N))) : list (res (list N)) :=
  match order with
  | [] => slots
  | i :: order' =>
    match chunks !! i with
    | Some chunk => run_slots s ref_size chunks order' (<[i := encode_chunk s ref_size chunk]> slots)
    | None => run_slots s ref_size chunks order' slots
    end
  end.
Definition encode_rayon (n : nat) (order : list nat) (s : boc_ser) : res (list N) :=
  let rs := st_ref_size (compute_stats s) in
  let? header := encode_header s in
  let? cells :=
    (if (length (sr_cells s) <? n * 2)%nat then encode_chunk s rs (sr_cells s)
     else
       let chunks := rchunks n (sr_cells s) in
       let? parts := res_all (run_slots s rs chunks order (map (fun _ => Err Panic) chunks)) in
       Ok (concat parts)) in
  Ok (append_crc s (header ++ cells)).

(** mod.rs:134-143 [Boc::encode], 186-200 [Boc::encode_pair], 175-184 [Boc::encode_rayon] *)
Definition boc_encode (c : fcell) : res (list N) := let? s := add_root c ser_new in encode s.
Definition boc_encode_pair (c1 c2 : fcell) : res (list N) := let? s := add_root c1 ser_new in let? s := add_root c2 s in encode s.
Definition boc_encode_rayon (n : nat) (order : list nat) (c : fcell) : res (list N) := let? s := add_root c ser_new in encode_rayon n order s.
End EncCrc.
