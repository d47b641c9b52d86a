(** * Bulk building of dictionaries (src/dict/ops/build.rs), plain mode.

    Simplified: [MergeStackItem] with [SimpleMergeStackItemMode] (its extras are all [()]);
    the stack is a list whose head is the top.  Values are the chunks they store.
    [u16] subtractions that would be negative are [Panic] (debug builds; release builds wrap). *)
From Verif Require Import Err CellModel LabelModel DictModel.
Local Open Scope nat_scope.

(** build.rs:270-298 [MergeStackItem]. *)
Inductive mitem :=
| MLeaf (prefix : list bool) (v : chunk) (prev : nat)
| MNode (prefix : list bool) (c : cell) (prev : nat)
| MDenorm (prefix : list bool) (c : cell) (offset : nat) (prev : nat).
(** build.rs:339-353 [prefix_slice], [prev_lcp_len]. *)
Definition m_prefix (i : mitem) : list bool := match i with MLeaf p _ _ | MNode p _ _ | MDenorm p _ _ _ => p end.
Definition m_prev (i : mitem) : nat := match i with MLeaf _ _ q | MNode _ _ q | MDenorm _ _ _ q => q end.

Definition sub16 (a b : nat) : res nat := if a <? b then Err Panic else Ok (a - b).

Section Build.
Context (fin : list bool -> list cell -> res unit).

(** The three ways a child cell is made in build.rs:402-535 [merge]; [split] is [split_at]. *)
Definition m_child (i : mitem) (split leaf_kbl : nat) : res cell :=
  match i with
  | MLeaf p v _ =>
    let? k := skip_bits (split + 1) p in
    make_leaf fin k leaf_kbl v
  | MNode _ c _ => Ok c
  | MDenorm p c off _ =>
    let? k := skip_bits (split + 1) p in
    let? b := write_label k leaf_kbl [] in
    let? s := as_slice c in
    let? d := skip_bits off (s_bits s) in
    let? ch := putc (d, s_refs s) (b, []) in
    build fin ch
  end.

(** build.rs:386-558 [merge]; [lf] is [self], the right cell is made first. *)
Definition m_merge (lf right : mitem) (key_offset n : nat) : res mitem :=
  let split := m_prev right in
  let? label_len := sub16 split key_offset in
  let? leaf_kbl := sub16 n split in
  let? leaf_kbl := sub16 leaf_kbl 1 in
  let? kbl := sub16 n key_offset in
  let? common := skip_bits key_offset (m_prefix right) in
  let? b := write_label (take label_len common) kbl [] in
  let? rc := m_child right split leaf_kbl in
  let? lc := m_child lf split leaf_kbl in
  let? r := putr [lc] [] in
  let? r := putr [rc] r in
  let? c := build fin (b, r) in
  Ok (MNode (m_prefix right) c (m_prev lf)).

(** build.rs:317-331: the loop of [reduce]; [right] is already taken from the stack. *)
Fixpoint m_reduce_loop (right : mitem) (stack : list mitem) (lcp n : nat) : res (list mitem) :=
  match stack with
  | [] => Ok [right]
  | lf :: stack' =>
    if m_prev right <=? lcp then Ok (right :: stack)
    else
      let off := Nat.max (match stack' with [] => 1 | _ => m_prev lf + 1 end) (lcp + 1) in
      let? right := m_merge lf right off n in
      m_reduce_loop right stack' lcp n
  end.
(** build.rs:301-337 [reduce]. *)
Definition m_reduce (stack : list mitem) (key : list bool) (n : nat) : res (nat * list mitem) :=
  match stack with
  | [] => Ok (0, [])
  | last :: stack' =>
    let lcp := length (cpfx (m_prefix last) key) in
    if lcp <=? m_prev last then
      let? st := m_reduce_loop last stack' lcp n in Ok (lcp, st)
    else Ok (lcp, stack)
  end.

(** build.rs:355-384 [build]. *)
Definition m_build (i : mitem) (n : nat) : res cell :=
  match i with
  | MLeaf p v _ => make_leaf fin p n v
  | MNode _ c _ => Ok c
  | MDenorm p c off _ =>
    let? s := as_slice c in
    let? d := skip_bits off (s_bits s) in
    make_leaf fin p n (d, s_refs s)
  end.

(** build.rs:560-580 [finalize]. *)
Fixpoint m_finalize_loop (result : mitem) (stack : list mitem) (n : nat) : res mitem :=
  match stack with
  | [] => Ok result
  | lf :: stack' =>
    let off := match stack' with [] => 0 | _ => m_prev lf + 1 end in
    let? result := m_merge lf result off n in
    m_finalize_loop result stack' n
  end.
Definition m_finalize (stack : list mitem) (n : nat) : res (option cell) :=
  match stack with
  | [] => Ok None
  | result :: stack' =>
    let? i := m_finalize_loop result stack' n in
    let? c := m_build i n in
    Ok (Some c)
  end.

(** build.rs:13-58 [build_dict_from_sorted_iter]; [ord] is the [Ord] of the key type on the
    stored bits of the keys, [n] is [K::BITS]. *)
Fixpoint build_loop (ord : list bool -> list bool -> comparison) (n : nat)
    (entries : list (list bool * chunk)) (prev_key : option (list bool)) (stack : list mitem)
    : res (list mitem) :=
  match entries with
  | [] => Ok stack
  | (key, value) :: entries' =>
    match (match prev_key with Some p => ord key p | None => Gt end) with
    | Eq => build_loop ord n entries' prev_key stack
    | Lt => Err InvalidData
    | Gt =>
      let? (lcp, stack) := m_reduce stack key n in
      build_loop ord n entries' (Some key) (MLeaf key value lcp :: stack)
    end
  end.
Definition build_dict (ord : list bool -> list bool -> comparison) (n : nat)
    (entries : list (list bool * chunk)) : res (option cell) :=
  let? stack := build_loop ord n entries None [] in
  m_finalize stack n.

End Build.
