(** * Output actions: src/models/vm/out_actions.rs

    The flags are the bytes they hold ([from_bits_retain] keeps all bits).  The types of fields
    are those of StructsModel; a lazy message is a cell. *)
From Verif Require Import Err IntModel CurrencyModel CellModel ChunkModel LazyModel DeriveModel StructsModel BlockModel.
Local Open Scope N_scope.

(** 176-183 [LibRef]; 207-237 [OutAction] *)
Inductive lib_ref := LibHash (h : list N) | LibCell (c : cell).
Inductive out_action := SendMsg (mode : N) (msg : cell) | SetCode (code : cell) | ReserveCurrency (mode : N) (value : currency) | ChangeLibrary (mode : N) (lib : lib_ref).
(** 239-248, 250-285 [store_into]; a shift of a byte loses the bits that do not fit *)
Definition store_action_out (a : out_action) (b : chunk) : res chunk :=
  match a with
  | SendMsg mode msg => let? b := store_un 32 0x0ec3c86d b in let? b := store_un 8 mode b in store_ref msg b
  | SetCode code => let? b := store_un 32 0xad4de08e b in store_ref code b
  | ReserveCurrency mode v => let? b := store_un 32 0x36e6b809 b in let? b := store_un 8 mode b in store_cc v b
  | ChangeLibrary mode (LibHash h) => let? b := store_un 32 0x26fa1dd4 b in let? b := store_un 8 (w8 (N.shiftl mode 1)) b in store_bs h b
  | ChangeLibrary mode (LibCell c) => let? b := store_un 32 0x26fa1dd4 b in let? b := store_un 8 (N.lor (w8 (N.shiftl mode 1)) 1) b in store_ref c b
  end.
(** 287-319 [load_from] *)
Definition load_action_out (b : chunk) : res (out_action * chunk) :=
  let? (t, b) := load_un 32 b in
  if t =? 0x0ec3c86d then let? (mode, b) := load_un 8 b in let? (m, b) := load_lazy false b in Ok (SendMsg mode m, b)
  else if t =? 0xad4de08e then let? (c, b) := load_ref b in Ok (SetCode c, b)
  else if t =? 0x36e6b809 then let? (mode, b) := load_un 8 b in let? (v, b) := load_cc b in Ok (ReserveCurrency mode v, b)
  else if t =? 0x26fa1dd4 then
    let? (flags, b) := load_un 8 b in
    if N.land flags 1 =? 0 then let? (h, b) := load_bs 32 b in Ok (ChangeLibrary (N.shiftr flags 1) (LibHash h), b)
    else let? (c, b) := load_ref b in Ok (ChangeLibrary (N.shiftr flags 1) (LibCell c), b)
  else Err InvalidTag.
Definition out_action_k := Codec store_action_out load_action_out.

(** 21-45 [OutActionsRevIter::next].  Simplified: when the action cannot be read, the slice is the
    one in front of the action; how much a failed reading takes is not modelled. *)
Definition actions_next (s : chunk) : option (res out_action) * chunk :=
  match load_ref s with
  | Err _ => (if match fst s, snd s with [], [] => true | _, _ => false end then None else Some (Err InvalidData), s)
  | Ok (prev, s) =>
    match load_action_out s with
    | Err e => (Some (Err e), s)
    | Ok (a, s) =>
      match as_slice prev with
      | Err e => (Some (Err e), s)
      | Ok p => (Some (Ok a), s_chunk p)
      end
    end
  end.
