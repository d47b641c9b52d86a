(** * Currency collections: src/models/currency.rs, over the typed dictionary of
    src/dict/typed.rs

    An [ExtraCurrencyCollection] is its dictionary root: [Dict<u32, VarUint248>].  [fin] is the
    outcome of [finalize_cell] as in DictModel (the code uses the empty context). *)
From Verif Require Import Err IntModel DictModel IterModel BuildModel Var248Model NumModel CellModel ChunkModel.
Local Open Scope N_scope.

(** The number of cells of a tree, each one counted for every path to it: enough fuel for an
    iteration over a dictionary. *)
Fixpoint csize (c : cell) : nat := let '(Cell _ _ refs) := c in S (fold_right (fun x n => csize x + n)%nat 0%nat refs).

(** src/dict/mod.rs:129-133: the dictionary key of a [u32]. *)
Definition u32_key (id : N) : list bool := nbits 32 id.

Section Currency.
Context (fin : list bool -> list cell -> res unit).

(** typed.rs:212-245 [Dict::get] *)
Definition cur_get (d : option cell) (id : N) : res (option v248) :=
  let? o := dict_get d 32 (u32_key id) in
  match o with
  | None => Ok None
  | Some v => let? (a, _) := load_v248 (fst v) in Ok (Some a)
  end.
(** typed.rs:506-514, 897-909, 940-961 [Dict::set].  Simplified: the value is stored into an
    empty builder first and then appended to the leaf; storing it fails only for numbers out of
    range or for lack of room, with [CellOverflow] in both cases. *)
Definition v248_chunk (a : v248) : res chunk := let? b := store_v248 a [] in Ok (b, []).
Definition cur_set (d : option cell) (id : N) (a : v248) : res (option cell) :=
  let? v := v248_chunk a in
  let? (_, d') := dict_insert fin d (u32_key id) 32 v MSet in
  Ok d'.
(** typed.rs:323-331, 804-833 [Dict::remove_raw] *)
Definition cur_remove_raw (d : option cell) (id : N) : res (option cell) :=
  let? (_, d') := dict_remove_owned fin d (u32_key id) 32 false in
  Ok d'.
(** typed.rs:305-318 [Dict::remove]: the removed value is loaded. *)
Definition cur_remove (d : option cell) (id : N) : res (option cell) :=
  let? (o, d') := dict_remove_owned fin d (u32_key id) 32 false in
  match o with
  | Some (r, c) => let? _ := load_v248 (fst (r_apply r c)) in Ok d'
  | None => Ok d'
  end.
(** [for entry in dict.iter()] with [ok!(entry)]: typed.rs:1065-1091 [Iter::next] *)
Fixpoint cur_loop (fuel : nat) (it : raw_iter) (f : N -> v248 -> option cell -> res (option cell))
    (acc : option cell) : res (option cell) :=
  match fuel with
  | O => Err OutOfFuel
  | S fuel =>
    match iter_next it with
    | (None, _) => Ok acc
    | (Some (Err e), _) => Err e
    | (Some (Ok (k, s)), it) =>
      let? (a, _) := load_v248 (s_bits s) in
      let? acc := f (bval k) a acc in
      cur_loop fuel it f acc
    end
  end.
Definition cur_iter (d : option cell) (f : N -> v248 -> option cell -> res (option cell)) (acc : option cell) : res (option cell) :=
  cur_loop (S (match d with Some c => csize c | None => 0 end)) (iter_new d 32 false false) f acc.

(** ** [ExtraCurrencyCollection] *)
(** currency.rs:203-210 [try_from_iter]; [sort] is [sort_unstable_by_key].
    typed.rs:446-461 [try_from_sorted_slice] *)
Fixpoint v248_entries (l : list (N * v248)) : res (list (list bool * chunk)) :=
  match l with
  | [] => Ok []
  | (id, a) :: l =>
    let? v := v248_chunk a in
    let? es := v248_entries l in
    Ok ((u32_key id, v) :: es)
  end.
Definition extra_from_iter (sort : list (N * v248) -> list (N * v248)) (l : list (N * v248)) : res (option cell) :=
  let? es := v248_entries (sort l) in
  build_dict fin (fun a b => bval a ?= bval b) 32 es.
(** 237-246 [normalized] *)
Definition extra_normalized (d : option cell) : res (option cell) :=
  cur_iter d (fun id a r => if v248_is_zero a then cur_remove r id else Ok r) d.
(** 264-283 [checked_add], 288-307 [checked_sub] *)
Definition extra_step (op : v248 -> v248 -> option v248) (id : N) (other : v248) (r : option cell) : res (option cell) :=
  let? o := cur_get r id in
  let existing := match o with Some a => a | None => v248_zero end in
  match op existing other with
  | Some value => if v248_is_zero value then cur_remove r id else cur_set r id value
  | None => Err IntOverflow
  end.
Definition extra_checked_add (self other : option cell) : res (option cell) := cur_iter other (extra_step v248_checked_add) self.
Definition extra_checked_sub (self other : option cell) : res (option cell) := cur_iter other (extra_step v248_checked_sub) self.
(** 310-335 [checked_clamp] *)
Definition extra_checked_clamp (self other : option cell) : res (option cell) :=
  cur_iter self (fun id balance r =>
    let? o := cur_get other id in
    match o with
    | Some other_balance =>
      match v248_cmp balance other_balance with Gt => cur_set r id other_balance | _ => Ok r end
    | None => if negb (v248_is_zero balance) then cur_remove_raw r id else Ok r
    end) self.

(** ** [CurrencyCollection] *)
Record currency := Currency { cc_tokens : N; cc_other : option cell }.
(** 30-35 [ZERO], 46-48 [is_zero] *)
Definition cc_zero : currency := Currency 0 None.
Definition cc_is_zero (c : currency) : bool := (cc_tokens c =? 0) && match cc_other c with None => true | Some _ => false end.
(** 51-53 [bit_len] *)
Definition cc_bit_len (c : currency) : N := vk_unwrap_bit_len Tokens (cc_tokens c) + 1.
(** 58-66 [checked_add], 71-79 [checked_sub] *)
Definition cc_checked_add (a b : currency) : res currency :=
  match vk_checked_add Tokens (cc_tokens a) (cc_tokens b) with
  | Some t => let? d := extra_checked_add (cc_other a) (cc_other b) in Ok (Currency t d)
  | None => Err IntOverflow
  end.
Definition cc_checked_sub (a b : currency) : res currency :=
  match vk_checked_sub Tokens (cc_tokens a) (cc_tokens b) with
  | Some t => let? d := extra_checked_sub (cc_other a) (cc_other b) in Ok (Currency t d)
  | None => Err IntOverflow
  end.
(** 116-121 [checked_clamp] *)
Definition cc_checked_clamp (a b : currency) : res currency :=
  let? d := extra_checked_clamp (cc_other a) (cc_other b) in
  Ok (Currency (N.min (cc_tokens a) (cc_tokens b)) d).
(** 103-106 [try_add_assign], 109-112 [try_sub_assign]: the new value of [self] *)
Definition cc_try_add_assign (self other : currency) : res unit * currency :=
  match cc_checked_add self other with Ok r => (Ok tt, r) | Err e => (Err e, self) end.
Definition cc_try_sub_assign (self other : currency) : res unit * currency :=
  match cc_checked_sub self other with Ok r => (Ok tt, r) | Err e => (Err e, self) end.

(** ** Storage: derived [Store] / [Load] (12), the fields in order *)
Definition store_cc (a : currency) (c : chunk) : res chunk :=
  let? c := on_bits (store_vk Tokens (cc_tokens a)) c in
  store_dict (cc_other a) c.
Definition load_cc (c : chunk) : res (currency * chunk) :=
  let? (t, c) := from_bits (load_vk Tokens) c in
  let? (d, c) := load_dict c in
  Ok (Currency t d, c).
(** 136-141 [exact_size], typed.rs:25-33: bits and references *)
Definition cc_exact_size (a : currency) : N * N :=
  (vk_exact_size Tokens (cc_tokens a) + 1, match cc_other a with Some _ => 1 | None => 0 end).

End Currency.
