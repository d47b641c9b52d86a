(** * Dictionary iterators (src/dict/raw.rs).

    Iterator state is explicit; [next] returns the new state.  Slices are windows of their
    cell ([sl]); [offset_refs] / [offset_bits] are computed from the window.
    Loops take fuel; running out is the error [OutOfFuel], excluded by the theorems. *)
From Verif Require Import Err CellModel LabelModel.
Local Open Scope nat_scope.

Definition offset_refs (s : sl) : nat := length (c_refs (s_cell s)) - length (s_refs s).
Definition offset_bits (s : sl) : nat := length (c_bits (s_cell s)) - length (s_bits s).
(** slice.rs [skip_first(0, 1).ok()]: unchanged when there is nothing to skip. *)
Definition skip_ref (s : sl) : sl :=
  match s_refs s with [] => s | _ :: r => Sl (s_cell s) (s_bits s) r end.
(** mod.rs:200-205 [get_reference_as_slice] (index 0 or 1). *)
Definition ref_slice (b : bool) (c : cell) : res sl := let? x := ref_at b c in as_slice x.
(** builder.rs:865-895 [rewind_bits]. *)
Definition rewind (k : nat) (b : list bool) : res (list bool) :=
  if k =? 0 then Ok b
  else if length b <? k then Err CellUnderflow else Ok (take (length b - k) b).

(** raw.rs [IterStatus]. *)
Inductive iter_status := StValid | StUnexpected | StBroken.

(** raw.rs:929-933 [IterSegment]. *)
Record iseg := ISeg { i_data : sl; i_rem : nat; i_prefix : option (list bool) }.
(** raw.rs:694-700 [RawIter]; the head of [it_segs] is the last element of the vector.
    [it_fuel] bounds the depth of one descent: the key length the iterator was created with. *)
Record raw_iter := RawIter { it_segs : list iseg; it_status : iter_status; it_builder : list bool;
  it_rev : bool; it_signed : bool; it_fuel : nat }.

(** raw.rs:710-740 [RawIter::new_ext]. *)
Definition iter_new (root : option cell) (n : nat) (rev signed : bool) : raw_iter :=
  match root with
  | None => RawIter [] StValid [] rev signed n
  | Some c =>
    match as_slice c with
    | Err _ => RawIter [] StUnexpected [] rev signed n
    | Ok d => RawIter [ISeg d n None] StValid [] rev signed n
    end
  end.

(** raw.rs:838-882: the inner loop; the segment to process is on top of the result. *)
Fixpoint iter_pop (rev signed : bool) (segs : list iseg) (to_rewind : nat) (b : list bool)
    : res (option (list iseg * list bool)) :=
  match segs with
  | [] => Ok None
  | g :: rest =>
    match i_prefix g with
    | None => Ok (Some (segs, b))
    | Some prefix =>
      let off := offset_refs (i_data g) in
      if off <? 2 then
        let bit := xorb (xorb (negb (off =? 0)) rev)
                     (signed && (length segs =? 1) && (length prefix =? 0)) in
        let? d := ref_slice bit (s_cell (i_data g)) in
        let g' := ISeg (skip_ref (i_data g)) (i_rem g) (Some prefix) in
        let? b := rewind to_rewind b in
        let? b := put [bit] b in
        Ok (Some (ISeg d (i_rem g) None :: g' :: rest, b))
      else
        let tr := to_rewind + length prefix in
        iter_pop rev signed rest (tr + (if rest then 0 else 1)) b
    end
  end.

(** raw.rs:829-922 [next_impl]. *)
Fixpoint iter_loop (fuel : nat) (rev signed : bool) (segs : list iseg) (b : list bool)
    : res (option (list bool * sl) * list iseg * list bool) :=
  match fuel with
  | 0 => Err OutOfFuel
  | S f =>
    let? o := iter_pop rev signed segs 0 b in
    match o with
    | None => Ok (None, [], b)
    | Some ([], b) => Ok (None, [], b) (* not reachable: the result is never empty *)
    | Some (g :: rest, b) =>
      let? (prefix, rb) := read_label (i_rem g) (s_bits (i_data g)) in
      let data := Sl (s_cell (i_data g)) rb (s_refs (i_data g)) in
      if i_rem g <? length prefix then Err CellUnderflow
      else if i_rem g - length prefix =? 0 then
        let? key := put prefix b in
        let? b := rewind (if rest then 0 else 1) b in
        Ok (Some (key, data), rest, b)
      else if length (s_refs data) <? 2 then Err CellUnderflow
      else
        let? b := put prefix b in
        iter_loop f rev signed
          (ISeg data (i_rem g - length prefix - 1) (Some prefix) :: rest) b
    end
  end.

(** raw.rs:813-925 [RawIter::next]. *)
Definition iter_next (it : raw_iter) : option (res (list bool * sl)) * raw_iter :=
  match it_status it with
  | StUnexpected =>
    (Some (Err UnexpectedExoticCell), RawIter (it_segs it) StBroken (it_builder it) (it_rev it) (it_signed it) (it_fuel it))
  | StBroken => (None, it)
  | StValid =>
    match iter_loop (S (S (it_fuel it))) (it_rev it) (it_signed it) (it_segs it) (it_builder it) with
    | Ok (o, segs, b) =>
      (option_map Ok o, RawIter segs StValid b (it_rev it) (it_signed it) (it_fuel it))
    | Err e =>
      (Some (Err e), RawIter (it_segs it) StBroken (it_builder it) (it_rev it) (it_signed it) (it_fuel it))
    end
  end.

(** raw.rs:769-805 [next_owned]: the value as a range of the cell it is stored in. *)
Definition iter_next_owned (root : option cell) (it : raw_iter)
    : option (res (list bool * (range * cell))) * raw_iter :=
  match iter_next it with
  | (None, it') => (None, it')
  | (Some (Err e), it') => (Some (Err e), it')
  | (Some (Ok (key, slice)), it') =>
    let broken := RawIter (it_segs it') StBroken (it_builder it') (it_rev it') (it_signed it') (it_fuel it') in
    match it_segs it' with
    | g :: rest =>
      let off := offset_refs (i_data g) in
      match i_prefix g with
      | None => (Some (Err Panic), broken) (* [segment.prefix.unwrap()] *)
      | Some prefix =>
        let bit := xorb (xorb (negb (off =? 1)) (it_rev it'))
                     (it_signed it' && (length (it_segs it') =? 1) && (length prefix =? 0)) in
        match ref_at bit (s_cell (i_data g)) with
        | Ok c => (Some (Ok (key, (s_range slice, c))), it')
        | Err e => (Some (Err e), broken)
        end
      end
    | [] =>
      match root with
      | Some c => (Some (Ok (key, (s_range slice, c))), it')
      | None => (Some (Err Panic), broken) (* [unreachable_unchecked] *)
      end
    end
  end.

(** ** Values: raw.rs:1282-1459 [RawValues]: an own walk without keys. *)
Record vseg := VSeg { v_data : sl; v_rem : nat }.
Record raw_values := RawValues { vl_segs : list vseg; vl_status : iter_status;
  vl_rev : bool; vl_signed : bool; vl_fuel : nat }.
Definition values_new (root : option cell) (n : nat) (rev signed : bool) : raw_values :=
  match root with
  | None => RawValues [] StValid rev signed n
  | Some c =>
    match as_slice c with
    | Err _ => RawValues [] StUnexpected rev signed n
    | Ok d => RawValues [VSeg d n] StValid rev signed n
    end
  end.
(** raw.rs:1393-1423; note [is_data_empty] of the rest of the segment, not of its label. *)
Fixpoint values_pop (rev signed : bool) (segs : list vseg) : res (list vseg) :=
  match segs with
  | [] => Ok []
  | g :: rest =>
    if offset_bits (v_data g) =? 0 then Ok segs
    else
      let off := offset_refs (v_data g) in
      if off <? 2 then
        let bit := xorb (xorb (negb (off =? 0)) rev)
                     (signed && (length segs =? 1) && (length (s_bits (v_data g)) =? 0)) in
        let? d := ref_slice bit (s_cell (v_data g)) in
        Ok (VSeg d (v_rem g) :: VSeg (skip_ref (v_data g)) (v_rem g) :: rest)
      else values_pop rev signed rest
  end.
Fixpoint values_loop (fuel : nat) (rev signed : bool) (segs : list vseg) : res (option sl * list vseg) :=
  match fuel with
  | 0 => Err OutOfFuel
  | S f =>
    let? segs := values_pop rev signed segs in
    match segs with
    | [] => Ok (None, [])
    | g :: rest =>
      let? (prefix, rb) := read_label (v_rem g) (s_bits (v_data g)) in
      let data := Sl (s_cell (v_data g)) rb (s_refs (v_data g)) in
      if v_rem g <? length prefix then Err CellUnderflow
      else if v_rem g - length prefix =? 0 then Ok (Some data, rest)
      else if length (s_refs data) <? 2 then Err CellUnderflow
      else values_loop f rev signed (VSeg data (v_rem g - length prefix - 1) :: rest)
    end
  end.
Definition values_next (it : raw_values) : option (res sl) * raw_values :=
  match vl_status it with
  | StUnexpected =>
    (Some (Err UnexpectedExoticCell), RawValues (vl_segs it) StBroken (vl_rev it) (vl_signed it) (vl_fuel it))
  | StBroken => (None, it)
  | StValid =>
    match values_loop (S (S (vl_fuel it))) (vl_rev it) (vl_signed it) (vl_segs it) with
    | Ok (o, segs) => (option_map Ok o, RawValues segs StValid (vl_rev it) (vl_signed it) (vl_fuel it))
    | Err e => (Some (Err e), RawValues (vl_segs it) StBroken (vl_rev it) (vl_signed it) (vl_fuel it))
    end
  end.
(** raw.rs:1257-1286 [RawOwnedValues::next]; the parent is [reference_cloned(refs_offset - 1)]. *)
Definition values_next_owned (root : option cell) (it : raw_values)
    : option (res (range * cell)) * raw_values :=
  match values_next it with
  | (None, it') => (None, it')
  | (Some (Err e), it') => (Some (Err e), it')
  | (Some (Ok slice), it') =>
    let broken := RawValues (vl_segs it') StBroken (vl_rev it') (vl_signed it') (vl_fuel it') in
    match vl_segs it' with
    | g :: _ =>
      match c_refs (s_cell (v_data g)) !! (offset_refs (v_data g) - 1) with
      | Some c => (Some (Ok (s_range slice, c)), it')
      | None => (Some (Err CellUnderflow), broken)
      end
    | [] =>
      match root with
      | Some c => (Some (Ok (s_range slice, c)), it')
      | None => (Some (Err Panic), broken)
      end
    end
  end.

(** ** Two dictionaries at once: raw.rs:944-1130 [UnionRawIter]. *)
Record union_iter := UnionIter {
  un_left : raw_iter; un_lpeek : option (list bool * sl); un_lfin : bool;
  un_right : raw_iter; un_rpeek : option (list bool * sl); un_rfin : bool }.
Definition union_new (l r : option cell) (n : nat) (rev signed : bool) : union_iter :=
  UnionIter (iter_new l n rev signed) None false (iter_new r n rev signed) None false.
Definition set_status (it : raw_iter) (s : iter_status) : raw_iter :=
  RawIter (it_segs it) s (it_builder it) (it_rev it) (it_signed it) (it_fuel it).
Definition is_valid (it : raw_iter) : bool := match it_status it with StValid => true | _ => false end.
Definition is_unexpected (it : raw_iter) : bool := match it_status it with StUnexpected => true | _ => false end.
(** raw.rs:1006-1025 [peek]: the error or the peeked item, with the new iterator and flag. *)
Definition union_peek (it : raw_iter) (fin : bool) (pk : option (list bool * sl))
    : res (option (list bool * sl)) * raw_iter * bool :=
  match fin, pk with
  | false, None =>
    match iter_next it with
    | (Some (Ok x), it') => (Ok (Some x), it', false)
    | (Some (Err e), it') => (Err e, it', true)
    | (None, it') => (Ok None, it', true)
    end
  | _, _ => (Ok pk, it, fin)
  end.
(** raw.rs:1090-1106: the comparison of the peeked keys. *)
Definition union_cmp (rev signed : bool) (lk rk : list bool) : comparison :=
  let rev := if signed then xorb rev (xorb (nth 0 lk false) (nth 0 rk false)) else rev in
  let c := lexcmp lk rk in
  if rev then CompOpp c else c.
Definition union_next (u : union_iter)
    : option (res (list bool * option sl * option sl)) * union_iter :=
  let broken (l : raw_iter) (lp : option (list bool * sl)) (lf : bool)
             (r : raw_iter) (rp : option (list bool * sl)) (rf : bool) :=
    UnionIter (set_status l StBroken) lp lf (set_status r StBroken) rp rf in
  if negb (is_valid (un_left u)) || negb (is_valid (un_right u)) then
    if negb (is_unexpected (un_left u)) && negb (is_unexpected (un_right u)) then (None, u)
    else (Some (Err UnexpectedExoticCell),
          broken (un_left u) (un_lpeek u) (un_lfin u) (un_right u) (un_rpeek u) (un_rfin u))
  else
    let rev := it_rev (un_left u) in
    let signed := it_signed (un_left u) in
    match union_peek (un_left u) (un_lfin u) (un_lpeek u) with
    | (Err e, l, lf) =>
      (Some (Err e), broken l (un_lpeek u) lf (un_right u) (un_rpeek u) (un_rfin u))
    | (Ok lp, l, lf) =>
      match union_peek (un_right u) (un_rfin u) (un_rpeek u) with
      | (Err e, r, rf) => (Some (Err e), broken l lp lf r (un_rpeek u) rf)
      | (Ok rp, r, rf) =>
        match lp, rp with
        | None, None => (None, UnionIter l None lf r None rf)
        | Some (lk, lv), None => (Some (Ok (lk, Some lv, None)), UnionIter l None lf r None rf)
        | None, Some (rk, rv) => (Some (Ok (rk, None, Some rv)), UnionIter l None lf r None rf)
        | Some (lk, lv), Some (rk, rv) =>
          match union_cmp rev signed lk rk with
          | Lt => (Some (Ok (lk, Some lv, None)), UnionIter l None lf r rp rf)
          | Gt => (Some (Ok (rk, None, Some rv)), UnionIter l lp lf r None rf)
          | Eq => (Some (Ok (lk, Some lv, Some rv)), UnionIter l None lf r None rf)
          end
        end
      end
    end.

(** The results of the first [i] calls of [next]. *)
Fixpoint calls {S A : Type} (next : S -> option A * S) (i : nat) (s : S) : list (option A) :=
  match i with
  | 0 => []
  | Datatypes.S i => let '(o, s) := next s in o :: calls next i s
  end.
