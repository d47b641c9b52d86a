(** * Messages (src/models/message/mod.rs) and the state of an account to be deployed
    (src/models/account/mod.rs)

    Builders and slices are chunks (bits and references), see ChunkModel.  A message is
    generic in its info and its body, as in the code. *)
From Verif Require Import Err IntModel NumModel AddrModel CellModel DictModel ChunkModel CurrencyModel.
Local Open Scope N_scope.

(** account/mod.rs:486-516 [SpecialFlags] *)
Record special := Special { sp_tick : bool; sp_tock : bool }.
Definition store_special (s : special) (c : chunk) : res chunk :=
  store_un 2 (N.lor (N.shiftl (N.b2n (sp_tick s)) 1) (N.b2n (sp_tock s))) c.
Definition load_special (c : chunk) : res (special * chunk) :=
  let? (d, c) := load_un 2 c in
  Ok (Special (negb (N.land d 2 =? 0)) (negb (N.land d 1 =? 0)), c).

(** account/mod.rs:388-405 [StateInit], derived [Store] and [Load]: the fields in order *)
Record state_init := StateInit { si_depth : option N; si_special : option special; si_code : option cell; si_data : option cell; si_libs : option cell }.
Definition store_si (s : state_init) (c : chunk) : res chunk :=
  let? c := store_opt_c (fun d => on_bits (store_sd d)) (si_depth s) c in
  let? c := store_opt_c store_special (si_special s) c in
  let? c := store_opt_c store_ref (si_code s) c in
  let? c := store_opt_c store_ref (si_data s) c in
  store_dict (si_libs s) c.
Definition load_si (c : chunk) : res (state_init * chunk) :=
  let? (d, c) := load_opt_c (from_bits load_sd) c in
  let? (s, c) := load_opt_c load_special c in
  let? (k, c) := load_opt_c load_ref c in
  let? (t, c) := load_opt_c load_ref c in
  let? (l, c) := load_dict c in
  Ok (StateInit d s k t l, c).
Definition some_n {A} (o : option A) : N := match o with Some _ => 1 | None => 0 end.
(** 407-428 [exact_size_const], [bit_len], [reference_count] *)
Definition si_size (s : state_init) : N * N :=
  ((1 + some_n (si_depth s) * 5) + (1 + some_n (si_special s) * 2) + 3, some_n (si_code s) + some_n (si_data s) + some_n (si_libs s)).

(** message/mod.rs:810-836 [IntMsgInfo] and 920-946 [RelaxedIntMsgInfo], which differ in the
    type of the source address *)
Record int_info (A : Type) := IntInfo { ii_ihr_disabled : bool; ii_bounce : bool; ii_bounced : bool; ii_src : A; ii_dst : int_addr;
  ii_value : currency; ii_ihr_fee : N; ii_fwd_fee : N; ii_lt : N; ii_at : N }.
Arguments IntInfo {A}. Arguments ii_ihr_disabled {A}. Arguments ii_bounce {A}. Arguments ii_bounced {A}. Arguments ii_src {A}. Arguments ii_dst {A}.
Arguments ii_value {A}. Arguments ii_ihr_fee {A}. Arguments ii_fwd_fee {A}. Arguments ii_lt {A}. Arguments ii_at {A}.
(** 855-865, 967-977 [bit_len] *)
Definition int_info_bits {A} (src_bits : A -> N) (i : int_info A) : N :=
  3 + src_bits (ii_src i) + int_bit_len (ii_dst i) + cc_bit_len (ii_value i) + vk_unwrap_bit_len Tokens (ii_ihr_fee i)
  + vk_unwrap_bit_len Tokens (ii_fwd_fee i) + 64 + 32.
(** 868-884, 980-996 [store_into] *)
Definition int_flags {A} (i : int_info A) : N :=
  N.lor (N.lor (N.shiftl (N.b2n (ii_ihr_disabled i)) 2) (N.shiftl (N.b2n (ii_bounce i)) 1)) (N.b2n (ii_bounced i)).
Definition store_int_info {A} (store_src : A -> list bool -> res (list bool)) (i : int_info A) (c : chunk) : res chunk :=
  let? c := store_un 3 (int_flags i) c in
  let? c := on_bits (store_src (ii_src i)) c in
  let? c := on_bits (store_int (ii_dst i)) c in
  let? c := store_cc (ii_value i) c in
  let? c := on_bits (store_vk Tokens (ii_ihr_fee i)) c in
  let? c := on_bits (store_vk Tokens (ii_fwd_fee i)) c in
  let? c := store_un 64 (ii_lt i) c in
  store_un 32 (ii_at i) c.
(** 887-903, 999-1015 [load_from] *)
Definition load_int_info {A} (load_src : list bool -> res (A * list bool)) (c : chunk) : res (int_info A * chunk) :=
  let? (f, c) := load_un 3 c in
  let? (s, c) := from_bits load_src c in
  let? (d, c) := from_bits load_int c in
  let? (v, c) := load_cc c in
  let? (i, c) := from_bits (load_vk Tokens) c in
  let? (w, c) := from_bits (load_vk Tokens) c in
  let? (l, c) := load_un 64 c in
  let? (a, c) := load_un 32 c in
  Ok (IntInfo (negb (N.land f 4 =? 0)) (negb (N.land f 2 =? 0)) (negb (N.land f 1 =? 0)) s d v i w l a, c).

(** 1018-1034 [ExtInMsgInfo], 1036-1043 [bit_len] *)
Record ext_in := ExtIn { ei_src : option ext_addr; ei_dst : int_addr; ei_fee : N }.
Definition ext_in_bits (i : ext_in) : N :=
  2 + opt_ext_bit_len (ei_src i) + int_bit_len (ei_dst i) + vk_unwrap_bit_len Tokens (ei_fee i).
(** 1045-1061 [store_into] *)
Definition store_ext_in (i : ext_in) (c : chunk) : res chunk :=
  if negb (vk_valid Tokens (ei_fee i)) then Err InvalidData
  else if negb (has_capacity (fst c) (ext_in_bits i)) then Err CellOverflow
  else
    let? c := on_bits (store_ext (ei_src i)) c in
    let? c := on_bits (store_int (ei_dst i)) c in
    on_bits (store_vk Tokens (ei_fee i)) c.
(** 1063-1071 [load_from] *)
Definition load_ext_in (c : chunk) : res (ext_in * chunk) :=
  let? (s, c) := from_bits load_ext c in
  let? (d, c) := from_bits load_int c in
  let? (f, c) := from_bits (load_vk Tokens) c in
  Ok (ExtIn s d f, c).

(** 1073-1090 [ExtOutMsgInfo] and 1132-1149 [RelaxedExtOutMsgInfo] *)
Record ext_out (A : Type) := ExtOut { eo_src : A; eo_dst : option ext_addr; eo_lt : N; eo_at : N }.
Arguments ExtOut {A}. Arguments eo_src {A}. Arguments eo_dst {A}. Arguments eo_lt {A}. Arguments eo_at {A}.
(** 1092-1097, 1151-1156 [bit_len] *)
Definition ext_out_bits {A} (src_bits : A -> N) (i : ext_out A) : N := 2 + src_bits (eo_src i) + opt_ext_bit_len (eo_dst i) + 64 + 32.
(** 1158-1170 [store_into] of the relaxed form *)
Definition store_ext_out_any {A} (store_src : A -> list bool -> res (list bool)) (i : ext_out A) (c : chunk) : res chunk :=
  let? c := on_bits (store_src (eo_src i)) c in
  let? c := on_bits (store_ext (eo_dst i)) c in
  let? c := store_un 64 (eo_lt i) c in
  store_un 32 (eo_at i) c.
(** 1099-1113 [store_into] of the strict form *)
Definition store_ext_out (i : ext_out int_addr) (c : chunk) : res chunk :=
  if negb (has_capacity (fst c) (ext_out_bits int_bit_len i)) then Err CellOverflow
  else store_ext_out_any store_int i c.
(** 1115-1124, 1172-1181 [load_from] *)
Definition load_ext_out {A} (load_src : list bool -> res (A * list bool)) (c : chunk) : res (ext_out A * chunk) :=
  let? (s, c) := from_bits load_src c in
  let? (d, c) := from_bits load_ext c in
  let? (l, c) := load_un 64 c in
  let? (a, c) := load_un 32 c in
  Ok (ExtOut s d l a, c).

(** 640-688 [MsgType] *)
Inductive msg_type := TInt | TExtIn | TExtOut.
Definition store_msg_type (t : msg_type) (c : chunk) : res chunk :=
  match t with TInt => store_bool false c | TExtIn => store_un 2 2 c | TExtOut => store_un 2 3 c end.
Definition load_msg_type (c : chunk) : res (msg_type * chunk) :=
  let? (x, c) := load_bool c in
  if negb x then Ok (TInt, c)
  else
    let? (y, c) := load_bool c in
    if negb y then Ok (TExtIn, c) else Ok (TExtOut, c).

(** 690-702 [MsgInfo] *)
Inductive msg_info := MInt (i : int_info int_addr) | MExtIn (i : ext_in) | MExtOut (i : ext_out int_addr).
(** 704-712 [ty] *)
Definition info_type (m : msg_info) : msg_type := match m with MInt _ => TInt | MExtIn _ => TExtIn | MExtOut _ => TExtOut end.
(** 729-751 [exact_size_const], [bit_len], [has_references] *)
Definition info_size (m : msg_info) : N * N :=
  match m with
  | MInt i => (int_info_bits int_bit_len i, some_n (cc_other (ii_value i)))
  | MExtIn i => (ext_in_bits i, 0)
  | MExtOut i => (ext_out_bits int_bit_len i, 0)
  end.
(** 760-782 [store_into] *)
Definition store_info (m : msg_info) (c : chunk) : res chunk :=
  match m with
  | MInt i => let? c := store_bool false c in store_int_info store_int i c
  | MExtIn i => let? c := store_un 2 2 c in store_ext_in i c
  | MExtOut i => let? c := store_un 2 3 c in store_ext_out i c
  end.
(** 784-804 [load_from] *)
Definition load_info (c : chunk) : res (msg_info * chunk) :=
  let? (t, c) := load_bool c in
  if negb t then let? (i, c) := load_int_info load_int c in Ok (MInt i, c)
  else
    let? (t, c) := load_bool c in
    if negb t then let? (i, c) := load_ext_in c in Ok (MExtIn i, c)
    else let? (i, c) := load_ext_out load_int c in Ok (MExtOut i, c).

(** 516-553 [RelaxedMsgInfo] *)
Inductive relaxed_info := RInt (i : int_info (option int_addr)) | RExtOut (i : ext_out (option int_addr)).
Definition relaxed_size (m : relaxed_info) : N * N :=
  match m with
  | RInt i => (int_info_bits opt_int_bit_len i, some_n (cc_other (ii_value i)))
  | RExtOut i => (ext_out_bits opt_int_bit_len i, 0)
  end.
(** 606-622 [store_into], 624-638 [load_from] *)
Definition store_relaxed (m : relaxed_info) (c : chunk) : res chunk :=
  match m with
  | RInt i => let? c := store_bool false c in store_int_info store_opt_int i c
  | RExtOut i => let? c := store_un 2 3 c in store_ext_out_any store_opt_int i c
  end.
Definition load_relaxed (c : chunk) : res (relaxed_info * chunk) :=
  let? (t, c) := load_bool c in
  if negb t then let? (i, c) := load_int_info load_opt_int c in Ok (RInt i, c)
  else
    let? (t, c) := load_bool c in
    if t : bool then let? (i, c) := load_ext_out load_opt_int c in Ok (RExtOut i, c)
    else Err InvalidTag.
(** 570-596 [From<IntMsgInfo>], [From<ExtOutMsgInfo>] *)
Definition relax_int (i : int_info int_addr) : relaxed_info :=
  RInt (IntInfo (ii_ihr_disabled i) (ii_bounce i) (ii_bounced i) (Some (ii_src i)) (ii_dst i) (ii_value i) (ii_ihr_fee i) (ii_fwd_fee i) (ii_lt i) (ii_at i)).
Definition relax_ext_out (i : ext_out int_addr) : relaxed_info := RExtOut (ExtOut (Some (eo_src i)) (eo_dst i) (eo_lt i) (eo_at i)).

(** 381-391 [MessageLayout] *)
Record layout := Layout { init_to_cell : bool; body_to_cell : bool }.
(** 494-514 [DetailedMessageLayout::compute]: the sizes of the info, the init, the body *)
Definition detailed (info : N * N) (init : option state_init) (body : N * N) : (N * N) * (N * N) * (N * N) :=
  let info := (fst info + 2, snd info) in
  match init with
  | Some i => ((fst info + 1, snd info), si_size i, body)
  | None => (info, (0, 0), body)
  end.
(** 404-431 [compute_full_size] *)
Definition full_size (l : layout) (info : N * N) (init : option state_init) (body : N * N) : N * N :=
  let '(total, i, b) := detailed info init body in
  let total := if init_to_cell l then (fst total, snd total + 1) else (fst total + fst i, snd total + snd i) in
  if body_to_cell l then (fst total, snd total + 1) else (fst total + fst b, snd total + snd b).
(** 435-491 [compute] *)
Definition compute_layout (info : N * N) (init : option state_init) (body : N * N) : layout * (N * N) :=
  let '(n, i, b) := detailed info init body in
  let bits := fst n + fst i + fst b in
  let refs := snd n + snd i + snd b in
  if (bits <=? 1023) && (refs <=? 4) then (Layout false false, (bits, refs))
  else
    let bits := fst n + fst i in
    let refs := snd n + snd i in
    if (bits <=? 1023) && (refs <? 4) then (Layout false true, (bits, refs + 1))
    else
      let bits := fst n + fst b in
      let refs := snd n + snd b in
      if (bits <=? 1023) && (refs <? 4) then (Layout true false, (bits, refs + 1))
      else (Layout true true, (fst n, snd n + 2)).

Section Msg.
Context (fin : list bool -> list cell -> res unit).

(** 330-347 [store_only_value_into] of [SliceOrCell], 349-358 [store_into] *)
Definition store_value (to_cell : bool) (s : chunk -> res chunk) (c : chunk) : res chunk :=
  if to_cell then
    let? x := s ([], []) in
    let? x := build fin x in
    store_ref x c
  else s c.
Definition store_slice_or_cell (to_cell : bool) (s : chunk -> res chunk) (c : chunk) : res chunk :=
  let? c := store_bool to_cell c in store_value to_cell s c.
(** 360-379 [load_from]: what is left of a referenced cell is dropped *)
Definition load_slice_or_cell {A} (l : chunk -> res (A * chunk)) (c : chunk) : res ((bool * A) * chunk) :=
  let? (to_cell, c) := load_bool c in
  if to_cell : bool then
    let? (x, c) := load_ref c in
    let? s := as_slice x in
    let? (a, _) := l (s_chunk s) in Ok ((true, a), c)
  else let? (a, c) := l c in Ok ((false, a), c).

(** 262-277 and 305-313: a [CellSlice] as a body, given by what it holds *)
Definition slice_size (b : chunk) : N * N := (N.of_nat (length (fst b)), N.of_nat (length (snd b))).
Definition store_slice_body (to_cell : bool) (b : chunk) (c : chunk) : res chunk := store_value to_cell (putc b) c.
Definition load_slice_body (from_cell : bool) (c : chunk) : res (chunk * chunk) :=
  if from_cell then
    let? (x, c) := load_ref c in
    let? s := as_slice x in Ok (s_chunk s, c)
  else Ok (c, ([], [])).

(** cell/slice.rs:233-240 [CellSliceRange], 223 [CellSliceParts]: a cell and two windows *)
Record parts := Parts { pt_bs : nat; pt_be : nat; pt_rs : nat; pt_re : nat; pt_cell : cell }.
(** slice.rs:255-266 [full], 318-333 [size], 473-482 [is_full] *)
Definition full_parts (c : cell) : parts := Parts 0 (length (c_bits c)) 0 (length (c_refs c)) c.
Definition parts_size (p : parts) : N * N := (N.of_nat (pt_be p - pt_bs p), N.of_nat (pt_re p - pt_rs p)).
Definition is_full (p : parts) : bool :=
  (pt_bs p =? 0)%nat && (pt_rs p =? 0)%nat && (pt_be p =? length (c_bits (pt_cell p)))%nat && (pt_re p =? length (c_refs (pt_cell p)))%nat.
(** slice.rs:273-296 [apply]: the windows are cut to the bounds of the cell *)
Definition window {A} (s e : nat) (l : list A) : list A :=
  let e := Nat.min e (length l) in let s := Nat.min s e in take (e - s) (drop s l).
Definition apply_parts (p : parts) : res chunk :=
  if c_exotic (pt_cell p) then Err UnexpectedExoticCell
  else Ok (window (pt_bs p) (pt_be p) (c_bits (pt_cell p)), window (pt_rs p) (pt_re p) (c_refs (pt_cell p))).
(** message/mod.rs:279-299 [store_body], 315-328 [load_body] *)
Definition store_parts_body (to_cell : bool) (b : parts) (c : chunk) : res chunk :=
  if to_cell && is_full b then store_ref (pt_cell b) c
  else let? x := apply_parts b in store_value to_cell (putc x) c.
Definition load_parts_body (from_cell : bool) (c : chunk) : res (parts * chunk) :=
  if from_cell then let? (x, c) := load_ref c in Ok (full_parts x, c)
  else
    let? x := putc c ([], []) in
    let? x := build fin x in Ok (full_parts x, ([], [])).

(** 31-47 [BaseMessage] *)
Record message (I B : Type) := Message { m_info : I; m_init : option state_init; m_body : B; m_layout : option layout }.
Arguments Message {I B}. Arguments m_info {I B}. Arguments m_init {I B}. Arguments m_body {I B}. Arguments m_layout {I B}.
Section Base.
Context {I B : Type} (isize : I -> N * N) (istore : I -> chunk -> res chunk) (iload : chunk -> res (I * chunk))
  (bsize : B -> N * N) (bstore : bool -> B -> chunk -> res chunk) (bload : bool -> chunk -> res (B * chunk)).
(** [has_capacity(bits, refs)], builder.rs:193-197 *)
Definition has_room (c : chunk) (size : N * N) : bool :=
  (N.of_nat (length (fst c)) + fst size <=? 1023) && (N.of_nat (length (snd c)) + snd size <=? 4).
(** 178-223 [store_into] *)
Definition store_message (m : message I B) (c : chunk) : res chunk :=
  let info_size := isize (m_info m) in
  let body_size := bsize (m_body m) in
  let '(l, size) :=
    match m_layout m with
    | Some l => (l, full_size l info_size (m_init m) body_size)
    | None => compute_layout info_size (m_init m) body_size
    end in
  if negb (has_room c size) then Err CellOverflow
  else
    let? c := istore (m_info m) c in
    let? c :=
      match m_init m with
      | Some v => let? c := store_bool true c in store_slice_or_cell (init_to_cell l) (store_si v) c
      | None => store_bool false c
      end in
    let? c := store_bool (body_to_cell l) c in
    bstore (body_to_cell l) (m_body m) c.
(** 225-256 [load_from] *)
Definition load_message (c : chunk) : res (message I B * chunk) :=
  let? (info, c) := iload c in
  let? (init, c) := load_opt_c (load_slice_or_cell load_si) c in
  let? (bc, c) := load_bool c in
  let? (body, c) := bload bc c in
  let '(init, ic) := match init with Some (t, v) => (Some v, t) | None => (None, false) end in
  Ok (Message info init body (Some (Layout ic bc)), c).
End Base.

(** 21-29: [Message], [OwnedMessage], [RelaxedMessage], [OwnedRelaxedMessage] *)
Definition store_msg : message msg_info chunk -> chunk -> res chunk := store_message info_size store_info slice_size store_slice_body.
Definition load_msg : chunk -> res (message msg_info chunk * chunk) := load_message load_info load_slice_body.
Definition store_owned : message msg_info parts -> chunk -> res chunk := store_message info_size store_info parts_size store_parts_body.
Definition load_owned : chunk -> res (message msg_info parts * chunk) := load_message load_info load_parts_body.
Definition store_relaxed_msg : message relaxed_info chunk -> chunk -> res chunk := store_message relaxed_size store_relaxed slice_size store_slice_body.
Definition load_relaxed_msg : chunk -> res (message relaxed_info chunk * chunk) := load_message load_relaxed load_slice_body.
End Msg.
Arguments Message {I B}. Arguments m_info {I B}. Arguments m_init {I B}. Arguments m_body {I B}. Arguments m_layout {I B}.
