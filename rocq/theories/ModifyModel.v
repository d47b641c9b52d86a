(** * Bulk modification of dictionaries (src/dict/ops/modify.rs).

    The code is generic over the mode of the merge stack ([MergeStackItemMode]); here the
    operations of the stack are the parameters of the section, given in BuildModel.v (plain mode).
    Both stacks are lists whose head is the top.  [n] is [K::BITS]; keys are the bits they store,
    [ord] is the [Ord] of the key type.  An entry carries the outcome of [extract_value].
    [Panic] stands for [unwrap] of a missing item and for a negative [u16] difference. *)
From Verif Require Import Err CellModel LabelModel DictModel BuildModel.
Local Open Scope nat_scope.

(** modify.rs:345-364 [IterStackItem]; the label is kept as its bits. *)
Record iitem := IItem {
  i_prefix : list bool; i_cell : cell; i_label : list bool; i_state : Z; i_flatten : bool;
  i_offset : nat; i_rem : nat }.
(** modify.rs:367-368. *)
Definition STATE_UNUSED : Z := (-1)%Z.
Definition STATE_USED_FULL : Z := 2%Z.
Definition i_set_state (s : Z) (i : iitem) : iitem :=
  IItem (i_prefix i) (i_cell i) (i_label i) s (i_flatten i) (i_offset i) (i_rem i).
Definition i_set_flatten (f : bool) (i : iitem) : iitem :=
  IItem (i_prefix i) (i_cell i) (i_label i) (i_state i) f (i_offset i) (i_rem i).

(** modify.rs:375-387 [load]. *)
Definition i_load (prefix : list bool) (kbl : nat) (c : cell) : res iitem :=
  let? s := as_slice c in
  let? (label, rest) := read_label kbl (s_bits s) in
  let? rem := sub16 kbl (length label) in
  Ok (IItem prefix c label STATE_UNUSED false (length (s_bits s) - length rest) rem).

(** modify.rs:608-611 [SeekState]. *)
Inductive seek := NotFound (remaining_key : list bool) | Found.

Section Modify.
Context {I V : Type}.
(** [MergeStackItem::reduce] and the three ways to make an item (the last argument is
    [prev_lcp_len]); [mk_node] includes [M::read_node_extra]. *)
Context (reduce : list I -> list bool -> nat -> res (nat * list I)).
Context (mk_leaf : list bool -> V -> nat -> I).
Context (mk_denorm : list bool -> cell -> nat -> bool -> nat -> I).
Context (mk_node : list bool -> nat -> cell -> nat -> res I).

(** modify.rs:613-639 [add_value]. *)
Definition add_value (key : list bool) (v : V) (st : list I) : res (list I) :=
  let? (l, st) := reduce st key (length key) in
  Ok (mk_leaf key v l :: st).
(** modify.rs:641-670 [add_raw_leaf]. *)
Definition add_raw_leaf (prefix : list bool) (c : cell) (offset : nat) (st : list I) : res (list I) :=
  let? (l, st) := reduce st prefix (length prefix) in
  Ok (mk_denorm prefix c offset true l :: st).
(** modify.rs:672-712 [add_flattened_subtree]. *)
Definition add_flattened_subtree (prefix : list bool) (kbl : nat) (c : cell) (st : list I) : res (list I) :=
  let? s := as_slice c in
  let? (label, rest) := read_label kbl (s_bits s) in
  let? p := put label prefix in
  let? (l, st) := reduce st p (length prefix + kbl) in
  Ok (mk_denorm p c (length (s_bits s) - length rest) (length label =? kbl) l :: st).
(** modify.rs:714-745 [add_subtree]. *)
Definition add_subtree (prefix : list bool) (kbl : nat) (c : cell) (st : list I) : res (list I) :=
  let? (l, st) := reduce st prefix (length prefix + kbl) in
  let? i := mk_node prefix kbl c l in
  Ok (i :: st).

(** modify.rs:409-440: the loop of [add_subtrees] over the child indices in [is]. *)
Fixpoint add_children (it : iitem) (flatten : bool) (kbl : nat) (is : list bool) (st : list I) : res (list I) :=
  match is with
  | [] => Ok st
  | i :: is' =>
    let? value := ref_at i (i_cell it) in
    let? p := put (i_label it) (i_prefix it) in
    let? p := put [i] p in
    let? st :=
      (if flatten || i_flatten it then add_flattened_subtree p kbl value st
       else add_subtree p kbl value st) in
    add_children it flatten kbl is' st
  end.
(** The child indices in [(state + 1)..=until]; [until] is at most 1 and the state at least -1. *)
Definition indices (state until : Z) : list bool :=
  (if (state <? 0)%Z && (0 <=? until)%Z then [false] else []) ++
  (if (state <? 1)%Z && (1 <=? until)%Z then [true] else []).
(** modify.rs:389-442 [add_subtrees]. *)
Definition add_subtrees (it : iitem) (until : Z) (flatten : bool) (st : list I) : res (list I) :=
  if i_rem it =? 0 then
    let? p := put (i_label it) (i_prefix it) in
    add_raw_leaf p (i_cell it) (i_offset it) st
  else
    let? kbl := sub16 (i_rem it) 1 in
    add_children it flatten kbl (indices (i_state it) until) st.

(** modify.rs:549-605 [do_seek]. *)
Fixpoint do_seek (fuel : nat) (stack : list iitem) (key : list bool) (before_remove : bool) (st : list I)
    : res (seek * list iitem * list I) :=
  match fuel with
  | 0 => Err OutOfFuel
  | S f =>
    match stack with
    | [] => Err Panic
    | item :: rest =>
      match strip (i_label item) key with
      | None => Ok (NotFound key, stack, st)
      | Some [] => Ok (Found, stack, st)
      | Some key =>
        let? (b, key) := load_bit key in
        let? child := ref_at b (i_cell item) in
        let? st := add_subtrees item (if b then 0 else -1)%Z before_remove st in
        let item := i_set_state (if b then 1 else 0)%Z item in
        let? p := put (i_label item) (i_prefix item) in
        let? p := put [b] p in
        let? it := i_load p (length key) child in
        do_seek f (it :: item :: rest) key before_remove st
      end
    end
  end.

(** modify.rs:451-468 [seek_first]. *)
Definition seek_first (root : cell) (key : list bool) (before_remove : bool) (st : list I)
    : res (seek * list iitem * list I) :=
  let? it := i_load [] (length key) root in
  do_seek (S (length key)) [it] key before_remove st.

(** modify.rs:495-519: the loop of [seek_next]; [flatten] is its local variable. *)
Fixpoint unwind (common : nat) (flatten : bool) (stack : list iitem) (key : list bool) (st : list I)
    : res (list iitem * list bool * list I) :=
  match stack with
  | [] => Ok ([], key, st)
  | item :: rest =>
    if common <? length (i_prefix item) then
      let flatten := flatten || i_flatten item in
      let? st := (if Z.eqb (i_state item) STATE_USED_FULL then Ok st else add_subtrees item 1 flatten st) in
      unwind common flatten rest key st
    else
      let? key := skip_bits (length (i_prefix item)) key in
      Ok (i_set_flatten (i_flatten item || flatten) item :: rest, key, st)
  end.
(** modify.rs:470-523 [seek_next]. *)
Definition seek_next (stack : list iitem) (prev_key key : list bool) (before_remove : bool) (st : list I)
    : res (seek * list iitem * list I) :=
  if match stack with [last] => Z.eqb (i_state last) STATE_USED_FULL | _ => false end then Ok (NotFound key, stack, st)
  else
    let? (stack, rkey, st) := unwind (length (cpfx prev_key key)) before_remove stack key st in
    do_seek (S (length key)) stack rkey before_remove st.

(** modify.rs:525-542 [seek_end]. *)
Fixpoint seek_end (flatten : bool) (stack : list iitem) (st : list I) : res (list I) :=
  match stack with
  | [] => Ok st
  | item :: rest =>
    let flatten := flatten || i_flatten item in
    let? st := (if Z.eqb (i_state item) STATE_USED_FULL then Ok st else add_subtrees item 1 flatten st) in
    seek_end flatten rest st
  end.

(** modify.rs:109-150: what is done with one value after the seek. *)
Definition apply_value (s : seek) (stack : list iitem) (key : list bool) (value : option V) (st : list I)
    : res (list iitem * list I) :=
  match stack with
  | [] => Err Panic
  | iter :: rest =>
    match s with
    | NotFound remaining_key =>
      let gt := match lexcmp remaining_key (i_label iter) with Gt => true | _ => false end in
      let? (iter, st) :=
        (if gt && negb (Z.eqb (i_state iter) STATE_USED_FULL) then
           let? st := add_subtrees iter 1 false st in Ok (i_set_state STATE_USED_FULL iter, st)
         else Ok (iter, st)) in
      let? st := (match value with Some v => add_value key v st | None => Ok st end) in
      Ok (iter :: rest, st)
    | Found =>
      let iter := i_set_state STATE_USED_FULL iter in
      match value with
      | Some v => let? st := add_value key v st in Ok (iter :: rest, st)
      | None => Ok (i_set_flatten true iter :: rest, st)
      end
    end
  end.

(** modify.rs:60-151: the loop over the entries. *)
Fixpoint modify_loop (ord : list bool -> list bool -> comparison) (root : cell)
    (entries : list (list bool * res (option V))) (prev_key : option (list bool))
    (stack : list iitem) (st : list I) : res (option (list bool) * list iitem * list I) :=
  match entries with
  | [] => Ok (prev_key, stack, st)
  | (key, value) :: entries' =>
    match (match prev_key with Some p => ord key p | None => Gt end) with
    | Eq => modify_loop ord root entries' prev_key stack st
    | Lt => Err InvalidData
    | Gt =>
      let? value := value in
      let before_remove := match value with None => true | Some _ => false end in
      let? (s, stack, st) :=
        (match prev_key with
         | None => seek_first root key before_remove st
         | Some p => seek_next stack p key before_remove st
         end) in
      let? (stack, st) := apply_value s stack key value st in
      modify_loop ord root entries' (Some key) stack st
    end
  end.

End Modify.

(** The entries the closure of modify.rs:31-44 lets through, and the error it keeps. *)
Fixpoint inserts {V} (entries : list (list bool * res (option V))) : list (list bool * V) * option err :=
  match entries with
  | [] => ([], None)
  | (key, value) :: entries' =>
    match value with
    | Ok (Some v) => let (es, e) := inserts entries' in ((key, v) :: es, e)
    | Ok None => inserts entries'
    | Err e => ([], Some e)
    end
  end.

(** modify.rs:10-172 [dict_modify_from_sorted_iter]: the flag and the new value of [*dict]. *)
Definition dict_modify (fin : list bool -> list cell -> res unit) (ord : list bool -> list bool -> comparison) (n : nat)
    (dict : option cell) (entries : list (list bool * res (option chunk))) : res (bool * option cell) :=
  match dict with
  | None =>
    let (es, e) := inserts entries in
    let? st := build_loop fin ord n es None [] in
    match e with
    | Some e => Err e
    | None =>
      let? d := m_finalize fin st n in
      Ok (match d with Some _ => true | None => false end, d)
    end
  | Some root =>
    let? (prev_key, stack, st) :=
      modify_loop (m_reduce fin) MLeaf (fun p c off _ l => MDenorm p c off l) (fun p _ c l => Ok (MNode p c l))
        ord root entries None [] [] in
    match prev_key with
    | None => Ok (false, dict)
    | Some _ =>
      let? st := seek_end (m_reduce fin) (fun p c off _ l => MDenorm p c off l) (fun p _ c l => Ok (MNode p c l)) false stack st in
      let? d := m_finalize fin st n in
      Ok (true, d)
    end
  end.
