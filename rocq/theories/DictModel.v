(** * Dictionary operations on cell trees (src/dict/mod.rs, src/dict/ops/).

    Everything is parametrised by [fin], the outcome of [CellContext::finalize_cell] on an
    ordinary cell (it may reject a cell, for example when the tree gets too deep); the
    theorems hold for every [fin].  Cells are loaded as by [EmptyCellContext]
    (cell_impl/sync.rs:176-196): [load_cell] / [load_dyn_cell] return the cell itself.
    Keys are lists of bits, values are chunks appended to the leaf.
    A dictionary passed as [&mut Option<Cell>] is returned as a new value; on [Err] the Rust
    code has not assigned it, so it keeps its value. *)
From Verif Require Import Err CellModel LabelModel.
Local Open Scope nat_scope.

(** src/dict/mod.rs:236-259 [SetMode]. *)
Inductive set_mode := MSet | MReplace | MAdd.
Definition mode_bits (m : set_mode) : N := match m with MSet => 3 | MReplace => 1 | MAdd => 2 end.
Definition can_replace (m : set_mode) : bool := negb (N.land (mode_bits m) 1 =? 0)%N.
Definition can_add (m : set_mode) : bool := negb (N.land (mode_bits m) 2 =? 0)%N.

(** src/dict/mod.rs:527-533 [Segment]; [Branch::Left = false], [Branch::Right = true]. *)
Record seg := Seg { g_data : cell; g_branch : bool; g_len : nat }.

Section Dict.
Context (fin : list bool -> list cell -> res unit).

(** builder.rs:494-571 [build_ext] for an ordinary cell. *)
Definition build (b : chunk) : res cell :=
  let? _ := fin (fst b) (snd b) in Ok (Cell false (fst b) (snd b)).

(** mod.rs:272-282 [make_leaf]. *)
Definition make_leaf (key : list bool) (n : nat) (v : chunk) : res cell :=
  let? b := write_label key n [] in
  let? ch := putc v (b, []) in
  build ch.

(** A fork cell: label, two references ([store_reference] twice), no more data. *)
Definition make_fork (lcp : list bool) (n : nat) (left right : cell) : res cell :=
  let? b := write_label lcp n [] in
  let? r := putr [left] [] in
  let? r := putr [right] r in
  build (b, r).

(** mod.rs:300-333 [split_edge]; [lcp] is given by its bits. *)
Definition split_edge (data : chunk) (prefix lcp key : list bool) (v : chunk) : res cell :=
  let n := length key in
  let? key := skip_bits (length lcp + 1) key in
  let prefix := match skip_bits (length lcp) prefix with Ok p => p | Err _ => prefix end in
  let? (old_to_right, prefix) := load_bit prefix in
  let? lf := make_leaf prefix (length key) data in
  let? rt := make_leaf key (length key) v in
  let '(lc, rc) := if old_to_right then (rt, lf) else (lf, rt) in
  make_fork lcp n lc rc.

(** mod.rs:447-474 [rebuild_dict_from_stack]; the head of the list is the top of the stack. *)
Fixpoint rebuild (stack : list seg) (leaf : cell) : res cell :=
  match stack with
  | [] => Ok leaf
  | last :: stack' =>
    let? (lc, rc) :=
      (if g_branch last
       then let? c := ref_at false (g_data last) in Ok (c, leaf)
       else let? c := ref_at true (g_data last) in Ok (leaf, c)) in
    let? b := put (c_bits (g_data last)) [] in
    let? r := putr [lc] [] in
    let? r := putr [rc] r in
    let? leaf := build (b, r) in
    rebuild stack' leaf
  end.

(** ** Lookup: ops/get.rs:6-56 [dict_get]. *)
Fixpoint get_loop (fuel : nat) (data : sl) (key : list bool) : res (option sl) :=
  match fuel with
  | 0 => Err OutOfFuel
  | S f =>
    let? (prefix, rest) := read_label (length key) (s_bits data) in
    let data := Sl (s_cell data) rest (s_refs data) in
    match strip prefix key with
    | Some [] => Ok (Some data)
    | Some k =>
      if length (s_refs data) <? 2 then Ok None
      else
        let? (b, k) := load_bit k in
        let? c := ref_at b (s_cell data) in
        let? d := as_slice c in
        get_loop f d k
    | None => Ok (if length key =? 0 then Some data else None)
    end
  end.
Definition dict_get (dict : option cell) (n : nat) (key : list bool) : res (option chunk) :=
  if negb (length key =? n) then Err CellUnderflow
  else match dict with
       | None => Ok None
       | Some root =>
         let? d := as_slice root in
         let? o := get_loop (S (length key)) d key in
         Ok (option_map s_chunk o)
       end.

(** ops/get.rs:59-126 [dict_get_owned]: the value as a range of an owned cell. *)
Fixpoint get_owned_loop (fuel : nat) (data : sl) (prev : option (cell * bool)) (key : list bool)
    : res (option (sl * option (cell * bool))) :=
  match fuel with
  | 0 => Err OutOfFuel
  | S f =>
    let? (prefix, rest) := read_label (length key) (s_bits data) in
    let data := Sl (s_cell data) rest (s_refs data) in
    match strip prefix key with
    | Some [] => Ok (Some (data, prev))
    | Some k =>
      if length (s_refs data) <? 2 then Ok None
      else
        let? (b, k) := load_bit k in
        let? c := ref_at b (s_cell data) in
        let? d := as_slice c in
        get_owned_loop f d (Some (s_cell data, b)) k
    | None => Ok (if length key =? 0 then Some (data, prev) else None)
    end
  end.
(** [match prev { Some((prev, i)) => prev.reference_cloned(i), None => root }]. *)
Definition owner (root : cell) (prev : option (cell * bool)) : res cell :=
  match prev with Some (p, b) => ref_at b p | None => Ok root end.
Definition dict_get_owned (dict : option cell) (n : nat) (key : list bool)
    : res (option (range * cell)) :=
  if negb (length key =? n) then Err CellUnderflow
  else match dict with
       | None => Ok None
       | Some root =>
         let? d := as_slice root in
         let? o := get_owned_loop (S (length key)) d None key in
         match o with
         | None => Ok None
         | Some (data, prev) => let? c := owner root prev in Ok (Some (s_range data, c))
         end
       end.

(** ** Insertion: ops/insert.rs:10-109 [dict_insert]. *)
Fixpoint insert_loop (fuel : nat) (data : cell) (key : list bool) (v : chunk) (mode : set_mode)
    (stack : list seg) : res (option (cell * list seg)) :=
  match fuel with
  | 0 => Err OutOfFuel
  | S f =>
    let? rd := as_slice data in
    let? (prefix, rest) := read_label (length key) (s_bits rd) in
    let lcp := cpfx key prefix in
    if length lcp =? length key then
      if negb (can_replace mode) then Ok None
      else let? leaf := make_leaf prefix (length key) v in Ok (Some (leaf, stack))
    else if length lcp <? length prefix then
      if negb (can_add mode) then Ok None
      else let? leaf := split_edge (rest, s_refs rd) prefix lcp key v in Ok (Some (leaf, stack))
    else if length (c_refs data) <? 2 then Err CellUnderflow
    else
      let? k := skip_bits (length lcp) key in
      let? (b, k) := load_bit k in
      let? child := ref_at b data in
      insert_loop f child k v mode (Seg data b (length key) :: stack)
  end.
(** The flag and the new value of [*dict]. *)
Definition dict_insert (dict : option cell) (key : list bool) (n : nat) (v : chunk) (mode : set_mode)
    : res (bool * option cell) :=
  if negb (length key =? n) then Err CellUnderflow
  else match dict with
       | None =>
         if can_add mode then let? c := make_leaf key n v in Ok (true, Some c)
         else Ok (false, None)
       | Some root =>
         let? o := insert_loop (S (length key)) root key v mode [] in
         match o with
         | None => Ok (false, dict)
         | Some (leaf, stack) => let? c := rebuild stack leaf in Ok (true, Some c)
         end
       end.

(** ops/insert.rs:243-257: the cell that owns the current node. *)
Definition last_owner (root : cell) (stack : list seg) : res cell :=
  match stack with
  | s :: _ => ref_at (g_branch s) (g_data s)
  | [] => Ok root
  end.
(** ops/insert.rs:237-377 [dict_insert_owned]: outcome of the search. *)
Inductive ins_out :=
| InsRefused (prev : option range)
| InsLeaf (leaf : cell) (prev : option range).
Fixpoint insert_owned_loop (fuel : nat) (data : cell) (key : list bool) (v : chunk) (mode : set_mode)
    (stack : list seg) : res (ins_out * list seg) :=
  match fuel with
  | 0 => Err OutOfFuel
  | S f =>
    let? rd := as_slice data in
    let? (prefix, rest) := read_label (length key) (s_bits rd) in
    let lcp := cpfx key prefix in
    if length lcp =? length key then
      if negb (can_replace mode) then
        Ok (InsRefused (Some (s_range (Sl data rest (s_refs rd)))), stack)
      else
        let? leaf := make_leaf prefix (length key) v in
        Ok (InsLeaf leaf (Some (s_range (Sl data rest (s_refs rd)))), stack)
    else if length lcp <? length prefix then
      if negb (can_add mode) then Ok (InsRefused None, stack)
      else
        let? leaf := split_edge (rest, s_refs rd) prefix lcp key v in
        Ok (InsLeaf leaf None, stack)
    else if length (c_refs data) <? 2 then Err CellUnderflow
    else
      let? k := skip_bits (length lcp) key in
      let? (b, k) := load_bit k in
      let? child := ref_at b data in
      insert_owned_loop f child k v mode (Seg data b (length key) :: stack)
  end.
(** The flag, the previous value (range and owner) and the new value of [*dict]. *)
Definition dict_insert_owned (dict : option cell) (key : list bool) (n : nat) (v : chunk)
    (mode : set_mode) : res (bool * option (range * cell) * option cell) :=
  if negb (length key =? n) then Err CellUnderflow
  else match dict with
       | None =>
         if can_add mode then let? c := make_leaf key n v in Ok (true, None, Some c)
         else Ok (false, None, None)
       | Some root =>
         let? (o, stack) := insert_owned_loop (S (length key)) root key v mode [] in
         match o with
         | InsRefused None => Ok (false, None, dict)
         | InsRefused (Some r) => let? c := last_owner root stack in Ok (false, Some (r, c), dict)
         | InsLeaf leaf (Some r) =>
           let? o := last_owner root stack in
           let? c := rebuild stack leaf in
           Ok (true, Some (r, o), Some c)
         | InsLeaf leaf None => let? c := rebuild stack leaf in Ok (true, None, Some c)
         end
       end.

(** ** Removal: ops/remove.rs:85-147 [dict_find_value_to_remove]: the stack, the range of the
    value, the previous key length and the rest of the key. *)
Fixpoint find_remove_loop (fuel : nat) (data : cell) (key : list bool) (prev_len : nat)
    (stack : list seg) : res (option (list seg * range * nat * list bool)) :=
  match fuel with
  | 0 => Err OutOfFuel
  | S f =>
    let? rd := as_slice data in
    let? (prefix, rest) := read_label (length key) (s_bits rd) in
    let lcp := cpfx key prefix in
    if length lcp =? length key then
      Ok (Some (stack, s_range (Sl data rest (s_refs rd)), prev_len, key))
    else if length lcp <? length prefix then Ok None
    else if length (c_refs data) <? 2 then Err CellUnderflow
    else
      let prev_len := length key in
      let? k := skip_bits (length lcp) key in
      let? (b, k) := load_bit k in
      let? child := ref_at b data in
      find_remove_loop f child k prev_len (Seg data b prev_len :: stack)
  end.

(** mod.rs:536-581 [Segment::rebuild_as_removed] (also inlined in remove.rs:212-251):
    the merged edge and the removed leaf; [klen] is the key length below the fork. *)
Definition rebuild_as_removed (s : seg) (klen prev_len : nat) : res (cell * cell) :=
  let? value := ref_at (g_branch s) (g_data s) in
  let? (pfx, _) := read_label prev_len (s_bits (as_slice_allow_exotic (g_data s))) in
  let? opp := ref_at (negb (g_branch s)) (g_data s) in
  let? opposite := as_slice opp in
  let? (rem, rest) := read_label klen (s_bits opposite) in
  let? b := write_label_parts pfx (negb (g_branch s)) rem prev_len [] in
  let? ch := putc (rest, s_refs opposite) (b, []) in
  let? leaf := build ch in
  Ok (leaf, value).

(** ops/remove.rs:10-42 [dict_remove_owned]: the removed value and the new [*dict]. *)
Definition dict_remove_owned (dict : option cell) (key : list bool) (n : nat) (allow_subtree : bool)
    : res (option (range * cell) * option cell) :=
  if negb allow_subtree && negb (length key =? n) then Err CellUnderflow
  else match dict with
       | None => Ok (None, None)
       | Some root =>
         let? o := find_remove_loop (S (length key)) root key (length key) [] in
         match o with
         | None => Ok (None, dict)
         | Some ([], removed, _, _) => Ok (Some (removed, root), None)
         | Some (last :: stack, removed, prev_len, key') =>
           let? (leaf, value) := rebuild_as_removed last (length key') prev_len in
           let? c := rebuild stack leaf in
           Ok (Some (removed, value), Some c)
         end
       end.

(** ** Bounds: mod.rs:393-421 [DictBound::update_direction]; [Min = false], [Max = true]. *)
Definition update_direction (bound : bool) (prefix : list bool) (signed : bool) (dir : option bool)
    : bool * option bool :=
  match dir with
  | None => ((if signed && (length prefix =? 0) then negb bound else bound), Some bound)
  | Some d => (d, Some d)
  end.

(** ops/remove.rs:150-258 [dict_remove_bound_owned], the search. *)
Fixpoint remove_bound_loop (fuel : nat) (data : cell) (n : nat) (key : list bool) (bound signed : bool)
    (dir : option bool) (prev_len : nat) (stack : list seg)
    : res (list seg * range * nat * nat * list bool) :=
  match fuel with
  | 0 => Err OutOfFuel
  | S f =>
    let? rd := as_slice data in
    let? (prefix, rest) := read_label n (s_bits rd) in
    let? key := (if length prefix =? 0 then Ok key else put prefix key) in
    if n <? length prefix then Err CellUnderflow
    else if n - length prefix =? 0 then
      Ok (stack, s_range (Sl data rest (s_refs rd)), prev_len, n, key)
    else if length (s_refs rd) <? 2 then Err CellUnderflow
    else
      let prev_len := n in
      let n := n - length prefix - 1 in
      let '(b, dir) := update_direction bound prefix signed dir in
      let? key := put [b] key in
      let? child := ref_at b data in
      remove_bound_loop f child n key bound signed dir prev_len (Seg data b 0 :: stack)
  end.
Definition dict_remove_bound_owned (dict : option cell) (n : nat) (bound signed : bool)
    : res (option (list bool * (range * cell)) * option cell) :=
  match dict with
  | None => Ok (None, None)
  | Some root =>
    let? (stack, removed, prev_len, n', key) :=
      remove_bound_loop (S n) root n [] bound signed None n [] in
    match stack with
    | [] => Ok (Some (key, (removed, root)), None)
    | last :: stack =>
      let? (leaf, value) := rebuild_as_removed last n' prev_len in
      let? c := rebuild stack leaf in
      Ok (Some (key, (removed, value)), Some c)
    end
  end.

(** ops/find.rs:216-266 [dict_find_bound]. *)
Fixpoint find_bound_loop (fuel : nat) (data : sl) (n : nat) (key : list bool) (bound signed : bool)
    (dir : option bool) (prev : option (cell * bool))
    : res (list bool * sl * option (cell * bool)) :=
  match fuel with
  | 0 => Err OutOfFuel
  | S f =>
    let? (prefix, rest) := read_label n (s_bits data) in
    let data := Sl (s_cell data) rest (s_refs data) in
    let? key := (if length prefix =? 0 then Ok key else put prefix key) in
    if n <? length prefix then Err CellUnderflow
    else if n - length prefix =? 0 then Ok (key, data, prev)
    else if length (s_refs data) <? 2 then Err CellUnderflow
    else
      let n := n - length prefix - 1 in
      let '(b, dir) := update_direction bound prefix signed dir in
      let? key := put [b] key in
      let? c := ref_at b (s_cell data) in
      let? d := as_slice c in
      find_bound_loop f d n key bound signed dir (Some (s_cell data, b))
  end.
Definition dict_find_bound (dict : option cell) (n : nat) (bound signed : bool)
    : res (option (list bool * chunk)) :=
  match dict with
  | None => Ok None
  | Some root =>
    let? d := as_slice root in
    let? (key, data, _) := find_bound_loop (S n) d n [] bound signed None None in
    Ok (Some (key, s_chunk data))
  end.
(** ops/find.rs:269-334 [dict_find_bound_owned]: the same walk, keeping the parent. *)
Definition dict_find_bound_owned (dict : option cell) (n : nat) (bound signed : bool)
    : res (option (list bool * (range * cell))) :=
  match dict with
  | None => Ok None
  | Some root =>
    let? d := as_slice root in
    let? (key, data, prev) := find_bound_loop (S n) d n [] bound signed None None in
    let? c := owner root prev in
    Ok (Some (key, (s_range data, c)))
  end.

(** ** Neighbours: ops/find.rs:8-213 [dict_find_owned]. *)
(** The first walk: where it stops ([Leaf::Value] or [Leaf::Divergence]), with the current
    cell, the rest of the key, the stack and [prev]. *)
Inductive find_leaf := FValue (r : range) | FDiverge (b : bool).
Fixpoint find_loop (fuel : nat) (data : cell) (key : list bool) (signed : bool) (stack : list seg)
    (prev : option (cell * bool))
    : res (find_leaf * cell * list bool * list seg * option (cell * bool)) :=
  match fuel with
  | 0 => Err OutOfFuel
  | S f =>
    let? rd := as_slice data in
    let? (prefix, rest) := read_label (length key) (s_bits rd) in
    let lcp := cpfx key prefix in
    if length lcp =? length key then
      Ok (FValue (s_range (Sl data rest (s_refs rd))), data, key, stack, prev)
    else if length lcp <? length prefix then
      let? b := of_opt CellUnderflow (key !! length lcp) in
      let b := if signed && (length stack =? 0) && (length lcp =? 0) then negb b else b in
      Ok (FDiverge b, data, key, stack, prev)
    else if length (c_refs data) <? 2 then Err CellUnderflow
    else
      let? k := skip_bits (length lcp) key in
      let? (b, k) := load_bit k in
      let? child := ref_at b data in
      find_loop f child k signed (Seg data b (length k) :: stack) (Some (data, b))
  end.
(** find.rs:121-143: pop until the first segment that can be turned the other way. *)
Fixpoint find_rewind (stack : list seg) (n : nat) (signed rev : bool)
    : option (cell * nat * bool * nat * bool) :=
  match stack with
  | [] => None
  | s :: stack' =>
    let prefix_len := n - g_len s in
    let signed_root := signed && (prefix_len =? 1) in
    if signed_root && negb (Bool.eqb (g_branch s) rev) then
      Some (g_data s, g_len s, rev, prefix_len - 1, g_branch s)
    else if negb signed_root && Bool.eqb (g_branch s) rev then
      Some (g_data s, g_len s, negb rev, prefix_len - 1, g_branch s)
    else find_rewind stack' n signed rev
  end.
(** find.rs:166-199: the final walk, always towards [rev]. *)
Fixpoint find_down (fuel : nat) (data : cell) (n : nat) (key : list bool) (rev : bool)
    (prev : option (cell * bool)) : res (list bool * range * option (cell * bool)) :=
  match fuel with
  | 0 => Err OutOfFuel
  | S f =>
    let? rd := as_slice data in
    let? (prefix, rest) := read_label n (s_bits rd) in
    let? key := (if length prefix =? 0 then Ok key else put prefix key) in
    if n <? length prefix then Err CellUnderflow
    else if n - length prefix =? 0 then Ok (key, s_range (Sl data rest (s_refs rd)), prev)
    else if length (s_refs rd) <? 2 then Err CellUnderflow
    else
      let n := n - length prefix - 1 in
      let? key := put [rev] key in
      let? child := ref_at rev data in
      find_down f child n key rev (Some (data, rev))
  end.
(** [towards]: [Min = false], [Max = true]. *)
Definition dict_find_owned (dict : option cell) (n : nat) (key : list bool) (towards inclusive signed : bool)
    : res (option (list bool * (range * cell))) :=
  if negb (length key =? n) then Err CellUnderflow
  else match dict with
  | None => Ok None
  | Some root =>
    let? (leaf, data, k, stack, prev) := find_loop (S n) root key signed [] None in
    let finish (data : cell) (n' : nat) (rkey : list bool) (prev : option (cell * bool)) :=
      let? (rkey, r, prev) := find_down (S n') data n' rkey (negb towards) prev in
      let? c := owner root prev in
      Ok (Some (rkey, (r, c))) in
    let rewind :=
      match find_rewind stack n signed (negb towards) with
      | None => Ok None
      | Some (d, n', b, plen, _) =>
        let? rkey := put (take plen key) [] in
        let? rkey := put [b] rkey in
        let? child := ref_at b d in
        finish child n' rkey (Some (d, b))
      end in
    match leaf with
    | FValue r =>
      if inclusive then
        let? c := last_owner root stack in
        let? rkey := put key [] in
        Ok (Some (rkey, (r, c)))
      else rewind
    | FDiverge b =>
      if Bool.eqb b (negb towards) then
        let? rkey := put (take (n - length k) key) [] in
        finish data (length k) rkey prev
      else rewind
    end
  end.

(** ** Splitting and merging: ops/split_merge.rs:6-68 [dict_split_by_prefix]. *)
Definition rebuild_branch (key_prefix : list bool) (n sub : nat) (refs : list cell) (bit : bool)
    : res (cell * list cell) :=
  match refs with
  | [] => Err CellUnderflow
  | r :: refs' =>
    let? branch := as_slice r in
    let? (label, rest) := read_label sub (s_bits branch) in
    let? k := put key_prefix [] in
    let? k := put [bit] k in
    let? k := put label k in
    let? b := write_label k n [] in
    let? ch := putc (rest, s_refs branch) (b, []) in
    let? c := build ch in
    Ok (c, refs')
  end.
Definition dict_split_by_prefix (dict : option cell) (n : nat) (key_prefix : list bool)
    : res (option cell * option cell) :=
  if n =? 0 then Ok (None, None)
  else match dict with
  | None => Ok (None, None)
  | Some root =>
    let? rd := as_slice root in
    let? (label, rest) := read_label n (s_bits rd) in
    match strip key_prefix label with
    | Some [] =>
      if n <? length label + 1 then Err CellUnderflow
      else
        let sub := n - (length label + 1) in
        let? (l, refs) := rebuild_branch key_prefix n sub (s_refs rd) false in
        let? (r, refs) := rebuild_branch key_prefix n sub refs true in
        Ok (Some l, Some r)
    | Some (b :: _) => Ok (if b then (None, dict) else (dict, None))
    | None => Err CellUnderflow
    end
  end.

(** ops/split_merge.rs:71-124 [dict_split_raw]: remaining key length and the raw branches. *)
Definition dict_split_raw (dict : option cell) (n : nat) : res (nat * option cell * option cell) :=
  if n =? 0 then Ok (0, None, None)
  else match dict with
  | None => Ok (n, None, None)
  | Some root =>
    let? rd := as_slice root in
    let? (label, rest) := read_label n (s_bits rd) in
    match label with
    | [] =>
      match s_refs rd with
      | l :: r :: _ => Ok (n - 1, Some l, Some r)
      | _ => Err CellUnderflow
      end
    | b :: _ => Ok (if b then (n, None, dict) else (n, dict, None))
    end
  end.

(** ops/split_merge.rs:219-285 [dict_merge_sibling_roots] without a comparator. *)
Definition merge_sibling_roots (n : nat) (left right : cell) : res cell :=
  let? ls := as_slice left in
  let? (ll, lrest) := read_label n (s_bits ls) in
  let? rs := as_slice right in
  let? (rl, rrest) := read_label n (s_bits rs) in
  let m := Nat.min (length ll) (length rl) in
  if m =? 0 then Err InvalidData
  else
    let lcp := cpfx ll rl in
    if (m <=? length lcp) || (n <? length lcp + 1) then Err InvalidData
    else
      let? ll := skip_bits (length lcp) ll in
      let? rl := skip_bits (length lcp) rl in
      let? (lb, ll) := load_bit ll in
      let? (rb, rl) := load_bit rl in
      if lb || negb rb then Err InvalidData
      else
        let k := n - 1 - length lcp in
        let? lf := make_leaf ll k (lrest, s_refs ls) in
        let? rt := make_leaf rl k (rrest, s_refs rs) in
        make_fork lcp n lf rt.
(** ops/split_merge.rs:179-193 [dict_merge_siblings]. *)
Definition dict_merge_siblings (left right : option cell) (n : nat) : res (option cell) :=
  match left, right with
  | None, None => Ok None
  | Some l, None => Ok (Some l)
  | None, Some r => Ok (Some r)
  | Some l, Some r => let? c := merge_sibling_roots n l r in Ok (Some c)
  end.

(** mod.rs:425-445 [dict_load_from_root]: the dictionary whose root is the given slice (bits
    and references), and what remains of the slice. *)
Definition dict_load_from_root (s : chunk) (n : nat) : res (cell * chunk) :=
  let? (label, rest) := read_label n (fst s) in
  if negb (length label =? n) then
    let? refs := skip_refs 2 (snd s) in
    let root := (take (length (fst s) - length rest) (fst s), take (length (snd s) - length refs) (snd s)) in
    let? ch := putc root ([], []) in
    let? c := build ch in
    Ok (c, (rest, refs))
  else
    let? ch := putc s ([], []) in
    let? c := build ch in
    Ok (c, ([], [])).

End Dict.
