(** * Dictionaries without a cell of their own: the root lies in the data of another structure
    (src/dict/mod.rs, src/dict/aug.rs, src/models/).

    [fin] is the outcome of [finalize_cell]; [dict_load_from_root] is in DictModel. *)
From Verif Require Import Err IntModel CurrencyModel CellModel LabelModel DictModel ChunkModel LazyModel DeriveModel StructsModel AugModel.
Local Open Scope nat_scope.

Section Inline.
Context (fin : list bool -> list cell -> res unit).

(** dict/aug.rs:204-234 [load_from_root]; 163-179 [AugDict::load_from_root_ext].  [a_load] loads
    an extra, [v_load] a value. *)
Definition aug_load_from_root {A V} (a_load : chunk -> res (A * chunk)) (v_load : chunk -> res (V * chunk)) (s : chunk) (n : nat) : res (@aug_dict A * chunk) :=
  let? (label, b) := read_label n (fst s) in
  let? (extra, r) :=
    (if negb (length label =? n) then
       let? refs := skip_refs 2 (snd s) in
       a_load (b, refs)
     else
       let? (extra, r) := a_load (b, snd s) in
       let? (_, r) := v_load r in
       Ok (extra, r)) in
  let root := (take (length (fst s) - length (fst r)) (fst s), take (length (snd s) - length (snd r)) (snd s)) in
  let? ch := putc root ([], []) in
  let? c := build fin ch in
  Ok (AugDict (Some c) extra, r).

(** [builder.store_slice(root.as_slice()?)] *)
Definition store_root (root : option cell) (b : chunk) : res chunk :=
  match root with
  | Some c => let? s := as_slice c in putc (s_chunk s) b
  | None => Err InvalidData
  end.

(** models/config/mod.rs:702-723 [NonEmptyDict]: [Load], [Store] for keys of [n] bits *)
Definition store_non_empty (d : option cell) (b : chunk) : res chunk := store_root d b.
Definition load_non_empty (n : nat) (b : chunk) : res (option cell * chunk) :=
  let? (c, b) := dict_load_from_root fin b n in Ok (Some c, b).

(** models/shard/mod.rs:360-391 [LibDescr]; the root is read with [as_slice_allow_exotic] *)
Record lib_descr := LibDescr { ld_lib : cell; ld_publishers : option cell }.
Definition store_lib_descr (l : lib_descr) (b : chunk) : res chunk :=
  let? b := store_un 2 0 b in
  let? b := store_ref (ld_lib l) b in
  match ld_publishers l with
  | Some root => putc (c_bits root, c_refs root) b
  | None => Err InvalidData
  end.
Definition load_lib_descr (b : chunk) : res (lib_descr * chunk) :=
  let? (t, b) := load_un 2 b in
  if negb (t =? 0)%N then Err InvalidTag
  else
    let? (lib, b) := load_ref b in
    let? (c, b) := dict_load_from_root fin b 256 in
    Ok (LibDescr lib (Some c), b).

(** models/block/block_extra.rs:150-199 [AccountBlock]: the account, the transactions, the update *)
Record account_block := AccountBlock { ab_account : list N; ab_transactions : @aug_dict currency; ab_update : cell }.
Definition store_account_block (a : account_block) (b : chunk) : res chunk :=
  match ad_root (ab_transactions a) with
  | None => Err InvalidData
  | Some root =>
    let? s := as_slice root in
    let? b := store_un 4 5 b in
    let? b := store_bs (ab_account a) b in
    let? b := putc (s_chunk s) b in
    store_lazy (ab_update a) b
  end.
Definition load_account_block (b : chunk) : res (account_block * chunk) :=
  let? (t, b) := load_un 4 b in
  if negb (t =? 5)%N then Err InvalidTag
  else
    let? (account, b) := load_bs 32 b in
    let? (d, b) := aug_load_from_root load_cc (load_lazy false) b 64 in
    let? (u, b) := load_lazy false b in
    Ok (AccountBlock account d u, b).
End Inline.
