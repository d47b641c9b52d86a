(** * Augmented dictionaries (src/dict/aug.rs, src/dict/mod.rs, src/dict/ops/).

    [fin] is the outcome of [finalize_cell] as in DictModel.v.  [comb l r] is the comparator
    [AugDictFn] / [AugDictExtra::comp_add]: it reads the two slices and appends its result to
    the builder; here it returns the chunk it appends (on an error the builder is dropped). *)
From Verif Require Import Err CellModel LabelModel DictModel.
Local Open Scope nat_scope.

Section Aug.
Context (fin : list bool -> list cell -> res unit) (comb : chunk -> chunk -> res chunk).

(** mod.rs:517-525 [skip_label_full] on a slice given by its bits and references. *)
Definition skip_label_full (s : chunk) (n : nat) : res chunk :=
  let? (label, rest) := read_label n (fst s) in
  if length label <? n then
    let? refs := skip_refs 2 (snd s) in Ok (rest, refs)
  else Ok (rest, snd s).
(** [cell.as_slice()] as bits and references. *)
Definition slice_of (c : cell) : res chunk := let? s := as_slice c in Ok (s_chunk s).

(** mod.rs:284-297 [make_leaf_with_extra].  [extra] is what the extra stores, which may fail. *)
Definition make_leaf_with_extra (key : list bool) (n : nat) (extra : res chunk) (v : chunk) : res cell :=
  let? b := write_label key n [] in
  let? ex := extra in
  let? ch := putc ex (b, []) in
  let? ch := putc v ch in
  build fin ch.

(** The end of [split_aug_edge] and of each step of [rebuild_aug_dict_from_stack]:
    label, two references, the combined extra. *)
Definition aug_fork (lcp : list bool) (n : nat) (lc rc : cell) (ls rs : chunk) : res cell :=
  let? b := write_label lcp n [] in
  let? r := putr [lc] [] in
  let? r := putr [rc] r in
  let? x := comb ls rs in
  let? ch := putc x (b, r) in
  build fin ch.

(** mod.rs:335-380 [split_aug_edge]. *)
Definition split_aug_edge (data : chunk) (prefix lcp key : list bool) (extra : res chunk) (v : chunk) : res cell :=
  let n := length key in
  let? key := skip_bits (length lcp + 1) key in
  let prefix := match skip_bits (length lcp) prefix with Ok p => p | Err _ => prefix end in
  let? (old_to_right, prefix) := load_bit prefix in
  let? lf := make_leaf fin prefix (length key) data in
  let? rt := make_leaf_with_extra key (length key) extra v in
  let '(lc, rc) := if old_to_right then (rt, lf) else (lf, rt) in
  let? ls := slice_of lc in
  let? rs := slice_of rc in
  let? ls := skip_label_full ls (length key) in
  let? rs := skip_label_full rs (length key) in
  aug_fork lcp n lc rc ls rs.

(** mod.rs:476-515 [rebuild_aug_dict_from_stack]; the head of the list is the top. *)
Fixpoint aug_rebuild (stack : list seg) (leaf : cell) : res cell :=
  match stack with
  | [] => Ok leaf
  | last :: stack' =>
    let? (lc, rc) :=
      (if g_branch last
       then let? c := ref_at false (g_data last) in Ok (c, leaf)
       else let? c := ref_at true (g_data last) in Ok (leaf, c)) in
    let? ds := slice_of (g_data last) in
    let? (label, _) := read_label (g_len last) (fst ds) in
    (* u16 subtractions; they cannot be negative for a fork *)
    if g_len last <? length label + 1 then Err Panic else
    let child := g_len last - length label - 1 in
    let? ls := slice_of lc in
    let? rs := slice_of rc in
    let? ls := skip_label_full ls child in
    let? rs := skip_label_full rs child in
    let? leaf := aug_fork label (g_len last) lc rc ls rs in
    aug_rebuild stack' leaf
  end.

(** ops/insert.rs:149-224: the walk of [aug_dict_insert]. *)
Fixpoint aug_insert_loop (fuel : nat) (data : cell) (key : list bool) (extra : res chunk) (v : chunk) (mode : set_mode)
    (stack : list seg) : res (option (cell * list seg)) :=
  match fuel with
  | 0 => Err OutOfFuel
  | S f =>
    let? rd := as_slice data in
    let? (prefix, rest) := read_label (length key) (s_bits rd) in
    let lcp := cpfx key prefix in
    if length lcp =? length key then
      if negb (can_replace mode) then Ok None
      else let? leaf := make_leaf_with_extra prefix (length key) extra v in Ok (Some (leaf, stack))
    else if length lcp <? length prefix then
      if negb (can_add mode) then Ok None
      else let? leaf := split_aug_edge (rest, s_refs rd) prefix lcp key extra v in Ok (Some (leaf, stack))
    else if length (c_refs data) <? 2 then Err CellUnderflow
    else
      let? k := skip_bits (length lcp) key in
      let? (b, k) := load_bit k in
      let? child := ref_at b data in
      aug_insert_loop f child k extra v mode (Seg data b (length key) :: stack)
  end.
(** ops/insert.rs:111-231 [aug_dict_insert]: the flag and the new value of [*dict]. *)
Definition aug_dict_insert (dict : option cell) (key : list bool) (n : nat) (extra : res chunk) (v : chunk) (mode : set_mode)
    : res (bool * option cell) :=
  if negb (length key =? n) then Err CellUnderflow
  else match dict with
       | None =>
         if can_add mode then let? c := make_leaf_with_extra key n extra v in Ok (true, Some c)
         else Ok (false, None)
       | Some root =>
         let? o := aug_insert_loop (S (length key)) root key extra v mode [] in
         match o with
         | None => Ok (false, dict)
         | Some (leaf, stack) => let? c := aug_rebuild stack leaf in Ok (true, Some c)
         end
       end.

(** ops/remove.rs:47-83 [aug_dict_remove_owned]. *)
Definition aug_dict_remove_owned (dict : option cell) (key : list bool) (n : nat) (allow_subtree : bool)
    : res (option (range * cell) * option cell) :=
  if negb allow_subtree && negb (length key =? n) then Err CellUnderflow
  else match dict with
       | None => Ok (None, None)
       | Some root =>
         let? o := find_remove_loop (S (length key)) root key (length key) [] in
         match o with
         | None => Ok (None, dict)
         | Some ([], removed, _, _) => Ok (Some (removed, root), None)
         | Some (last :: stack, removed, prev_len, key') =>
           let? (leaf, value) := rebuild_as_removed fin last (length key') prev_len in
           let? c := aug_rebuild stack leaf in
           Ok (Some (removed, value), Some c)
         end
       end.

(** ops/split_merge.rs:219-285 [dict_merge_sibling_roots] with a comparator. *)
Definition aug_merge_sibling_roots (n : nat) (left right : cell) : res cell :=
  let? ls := as_slice left in
  let? (ll, lrest) := read_label n (s_bits ls) in
  let? rs := as_slice right in
  let? (rl, rrest) := read_label n (s_bits rs) in
  let m := Nat.min (length ll) (length rl) in
  if m =? 0 then Err InvalidData
  else
    let lcp := cpfx ll rl in
    if (m <=? length lcp) || (n <? length lcp + 1) then Err InvalidData
    else
      let? ll := skip_bits (length lcp) ll in
      let? rl := skip_bits (length lcp) rl in
      let? (lb, ll) := load_bit ll in
      let? (rb, rl) := load_bit rl in
      if lb || negb rb then Err InvalidData
      else
        let k := n - 1 - length lcp in
        let? lf := make_leaf fin ll k (lrest, s_refs ls) in
        let? rt := make_leaf fin rl k (rrest, s_refs rs) in
        let? b := write_label lcp n [] in
        let? r := putr [lf] [] in
        let? r := putr [rt] r in
        let? lrefs := (if length ll <? k then skip_refs 2 (s_refs ls) else Ok (s_refs ls)) in
        let? rrefs := (if length rl <? k then skip_refs 2 (s_refs rs) else Ok (s_refs rs)) in
        let? x := comb (lrest, lrefs) (rrest, rrefs) in
        let? ch := putc x (b, r) in
        build fin ch.
(** ops/split_merge.rs:196-217 [aug_dict_merge_siblings]. *)
Definition aug_dict_merge_siblings (left right : option cell) (n : nat) : res (option cell) :=
  match left, right with
  | None, None => Ok None
  | Some l, None => Ok (Some l)
  | None, Some r => Ok (Some r)
  | Some l, Some r => let? c := aug_merge_sibling_roots n l r in Ok (Some c)
  end.

(** ** The typed dictionary [AugDict<K, A, V>] (aug.rs:49-54): a root and the extra of the root.

    [A] by its [Store] and [Load]: [a_load] reads an extra from the front of a slice.  Keys are
    their bits, values the chunks they store.  Every update takes the state and returns the
    new one also when it fails, as the Rust methods do with [&mut self]. *)
Context {A : Type} (a_store : A -> res chunk) (a_load : chunk -> res (A * chunk)) (a_default : A).
Record aug_dict := AugDict { ad_root : option cell; ad_extra : A }.

(** aug.rs:16-34 [AugDictExtra::comp_add].  All its implementations in the crate have this form:
    models/currency.rs:141-152, models/shard/shard_accounts.rs:29-44,
    models/shard/shard_extra.rs:263-278, models/block/block_extra.rs:378-393,
    models/message/in_message.rs:20-39. *)
Definition comp_add (a_add : A -> A -> res A) (l r : chunk) : res chunk :=
  let? (a, _) := a_load l in
  let? (b, _) := a_load r in
  let? c := a_add a b in
  a_store c.

(** aug.rs:119-128 [new]. *)
Definition aug_new : aug_dict := AugDict None a_default.

(** aug.rs:186-202 [update_root_extra]: the new extra. *)
Definition root_extra_of (root : option cell) (n : nat) : res A :=
  match root with
  | None => Ok a_default
  | Some c =>
    let? s := slice_of c in
    let? (label, rest) := read_label n (fst s) in
    let? refs := (if negb (length label =? n) then skip_refs 2 (snd s) else Ok (snd s)) in
    let? (a, _) := a_load (rest, refs) in
    Ok a
  end.
(** [ok!(self.update_root_extra())] after [self.dict.root] was assigned. *)
Definition set_root {B} (d : aug_dict) (root : option cell) (n : nat) (b : B) : aug_dict * res B :=
  match root_extra_of root n with
  | Ok a => (AugDict root a, Ok b)
  | Err e => (AugDict root (ad_extra d), Err e)
  end.

(** aug.rs:572-598 [insert_impl]; [set], [replace] and [add] (aug.rs:424-531) are its modes.
    Simplified: the extra is stored into an empty builder, then appended to the leaf; a lack of
    room for it is CellOverflow in both cases. *)
Definition aug_insert (d : aug_dict) (key : list bool) (n : nat) (a : A) (v : chunk) (mode : set_mode)
    : aug_dict * res bool :=
  match aug_dict_insert (ad_root d) key n (a_store a) v mode with
  | Err e => (d, Err e)
  | Ok (true, root) => set_root d root n true
  | Ok (false, root) => (AugDict root (ad_extra d), Ok false)
  end.
(** aug.rs:600-621 [remove_impl]. *)
Definition aug_remove (d : aug_dict) (key : list bool) (n : nat) : aug_dict * res (option (range * cell)) :=
  match aug_dict_remove_owned (ad_root d) key n false with
  | Err e => (d, Err e)
  | Ok (Some r, root) => set_root d root n (Some r)
  | Ok (None, root) => (AugDict root (ad_extra d), Ok None)
  end.
(** aug.rs:267-280 [get]: the extra and the slice the value is loaded from (the [Load] of a pair). *)
Definition aug_get (d : aug_dict) (key : list bool) (n : nat) : res (option (A * chunk)) :=
  let? o := dict_get (ad_root d) n key in
  match o with
  | None => Ok None
  | Some ch => let? (a, rest) := a_load ch in Ok (Some (a, rest))
  end.
(** aug.rs:639-663 [split_by_prefix_ext]. *)
Definition aug_split_by_prefix (d : aug_dict) (n : nat) (key_prefix : list bool) : res (aug_dict * aug_dict) :=
  let? (l, r) := dict_split_by_prefix fin (ad_root d) n key_prefix in
  let? xl := root_extra_of l n in
  let? xr := root_extra_of r n in
  Ok (AugDict l xl, AugDict r xr).
(** aug.rs:672-697 [merge_with_right_sibling_ext]. *)
Definition aug_merge_with_right (d r : aug_dict) (n : nat) : res aug_dict :=
  let? root := aug_dict_merge_siblings (ad_root d) (ad_root r) n in
  let? x := root_extra_of root n in
  Ok (AugDict root x).
End Aug.
