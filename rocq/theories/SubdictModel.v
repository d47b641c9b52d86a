(** * Merging dictionaries and subdictionaries: src/dict/ops/split_merge.rs:142-178,
    src/dict/ops/get.rs:128-198 *)
From Verif Require Import Err CellModel LabelModel DictModel IterModel CurrencyModel.
Local Open Scope nat_scope.

Section Sub.
Context (fin : list bool -> list cell -> res unit).

(** split_merge.rs:163-176: the loop; anything but an item ends it.  The dictionary that is left is
    returned also with an error. *)
Fixpoint merge_loop (fuel : nat) (it : raw_iter) (dict : option cell) : option cell * res unit :=
  match fuel with
  | 0 => (dict, Err OutOfFuel)
  | S fuel =>
    match iter_next it with
    | (Some (Ok (key, value)), it) =>
      match dict_insert fin dict key (length key) (s_chunk value) MSet with
      | Ok (_, dict) => merge_loop fuel it dict
      | Err e => (dict, Err e)
      end
    | _ => (dict, Ok tt)
    end
  end.
(** 145-161 [dict_merge]; a dictionary has fewer entries than cells. *)
Definition dict_merge (dict other : option cell) (n : nat) : option cell * res unit :=
  match dict, other with
  | _, None => (dict, Ok tt)
  | None, Some _ => (other, Ok tt)
  | Some lc, Some rc =>
    let bit_len := length (c_bits lc) in
    if negb (bit_len =? length (c_bits rc)) && negb (bit_len =? n) then (dict, Err InvalidCell)
    else merge_loop (S (csize rc)) (iter_new other n false false) dict
  end.

(** get.rs:152-193: the loop.  The value of a split edge is a reference to an empty cell. *)
Fixpoint subdict_loop (fuel : nat) (data : cell) (prefix : list bool) : res cell :=
  match fuel with
  | 0 => Err OutOfFuel
  | S fuel =>
    let? rd := as_slice data in
    let? (label, rest) := read_label (length prefix) (s_bits rd) in
    let lcp := cpfx prefix label in
    if length lcp =? length prefix then make_leaf fin label (length lcp) (rest, s_refs rd)
    else if length lcp <? length label then
      let? value := build fin ([], []) in
      split_edge fin (rest, s_refs rd) label lcp prefix ([], [value])
    else if length (c_refs data) <? 2 then Err CellUnderflow
    else
      let? prefix := skip_bits (length lcp) prefix in
      let? (b, prefix) := load_bit prefix in
      let? child := ref_at b data in
      subdict_loop fuel child prefix
  end.
(** 130-150 [dict_get_subdict] *)
Definition get_subdict (dict : option cell) (n : nat) (prefix : list bool) : res (option cell) :=
  match dict with
  | None => Ok None
  | Some c =>
    if (length prefix =? 0) || (n <? length prefix) then Ok (Some c)
    else let? s := subdict_loop (S (length prefix)) c prefix in Ok (Some s)
  end.
End Sub.
