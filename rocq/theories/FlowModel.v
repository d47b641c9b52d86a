(** * What checks a block: src/models/block/mod.rs, block_extra.rs

    [fin] is the outcome of [finalize_cell] as in DictModel.  [same] is the comparison of cells
    (cell/mod.rs:381-386), which compares representation hashes. *)
From Verif Require Import Err IntModel CurrencyModel CellModel DictModel IterModel DeriveModel StructsModel VsetModel BlockModel.
Local Open Scope N_scope.

Section Flow.
Context (fin : list bool -> list cell -> res unit) (same : cell -> cell -> bool).
(** typed.rs:76-84 [Dict::eq]; currency.rs:14-20, 170 (derived) *)
Definition dict_eq (a b : option cell) : bool :=
  match a, b with Some x, Some y => same x y | None, None => true | _, _ => false end.
Definition cc_eq (a b : currency) : bool := (cc_tokens a =? cc_tokens b) && dict_eq (cc_other a) (cc_other b).
(** block/mod.rs:619-637 [ValueFlow::validate] *)
Definition validate (f : value_flow) : res bool :=
  let? i := cc_checked_add fin (vf_from_prev f) (vf_imported f) in
  let? i := cc_checked_add fin i (vf_fees_imported f) in
  let? i := cc_checked_add fin i (vf_created f) in
  let? i := cc_checked_add fin i (vf_minted f) in
  let? i := cc_checked_add fin i (vf_recovered f) in
  let? o := cc_checked_add fin (vf_to_next f) (vf_exported f) in
  let? o := cc_checked_add fin o (vf_fees_collected f) in
  let? o := cc_checked_add fin o (vf_burned f) in
  Ok (cc_eq i o).
End Flow.

(** ** Signatures: block_extra.rs:408-440 [check_signatures]

    [short_id] is the hash of the TL representation of a public key, [verify key data signature]
    is [ValidatorDescription::verify_signature].  The sum of the weights is that of a release
    build: it wraps. *)
Section Signatures.
Context (short_id : list N -> list N) (verify : list N -> list N -> list N -> bool).
(** 412-423: the entries of the map, a later one replaces an earlier one *)
Definition node_of (nodes : list descr) (id : list N) : option descr :=
  fold_left (fun o n => if bool_decide (short_id (d_key n) = id) then Some n else o) nodes None.
(** 425-437; typed.rs [Values::next]: the value is read from the front of the leaf *)
Fixpoint sig_loop (fuel : nat) (nodes : list descr) (data : list N) (weight : N) (it : raw_values) : res N :=
  match fuel with
  | O => Err OutOfFuel
  | S fuel =>
    match values_next it with
    | (None, _) => Ok weight
    | (Some (Err e), _) => Err e
    | (Some (Ok s), it) =>
      let? (v, _) := c_load (derived block_signature) (s_chunk s) in
      let '(id, ((sg, _), _)) := v in
      match node_of nodes id with
      | Some n => if verify (d_key n) data sg then sig_loop fuel nodes data ((weight + d_weight n) mod 2 ^ 64) it else Err InvalidSignature
      | None => sig_loop fuel nodes data weight it
      end
    end
  end.
Definition check_signatures (d : option cell) (nodes : list descr) (data : list N) : res N :=
  sig_loop (S (match d with Some c => csize c | None => 0 end)) nodes data 0 (values_new d 16 false false).
End Signatures.
