(** * Envelopes, inbound and outbound messages: src/models/message/envelope.rs, in_message.rs,
    out_message.rs

    The types of fields and the derived structures are those of StructsModel; lazy messages,
    envelopes and transactions are cells. *)
From Verif Require Import Err IntModel NumModel CurrencyModel AddrModel CellModel ChunkModel LazyModel DeriveModel StructsModel TxModel MessageModel.
Local Open Scope N_scope.

(** ** Next-hop addresses *)
(** envelope.rs:12-19 *)
Inductive hop := Regular (a : vals (s_fields intermediate_regular)) | Simple (a : vals (s_fields intermediate_simple)) | Far (a : vals (s_fields intermediate_ext)).
(** envelope.rs:79-96, 98-113 *)
Definition store_hop (a : hop) (b : chunk) : res chunk :=
  match a with
  | Regular a => let? b := store_bool false b in c_store (derived intermediate_regular) a b
  | Simple a => let? b := store_un 2 2 b in c_store (derived intermediate_simple) a b
  | Far a => let? b := store_un 2 3 b in c_store (derived intermediate_ext) a b
  end.
Definition load_hop (b : chunk) : res (hop * chunk) :=
  let? (f, b) := load_bool b in
  if f : bool then
    let? (f, b) := load_bool b in
    if f : bool then let? (a, b) := c_load (derived intermediate_ext) b in Ok (Far a, b)
    else let? (a, b) := c_load (derived intermediate_simple) b in Ok (Simple a, b)
  else let? (a, b) := c_load (derived intermediate_regular) b in Ok (Regular a, b).
Definition hop_k := Codec store_hop load_hop.
(** envelope.rs:39-45 [workchain], 49-55 [address_prefix] *)
Definition hop_workchain (a : hop) : option Z := match a with Regular _ => None | Simple a => Some (fst a) | Far a => Some (fst a) end.
Definition hop_prefix (a : hop) : option N := match a with Regular _ => None | Simple a => Some (fst (snd a)) | Far a => Some (fst (snd a)) end.
(** envelope.rs:134-136 [with_dest_bits], 139-143 [with_src_bits], 146-148, 151-153 *)
Definition with_dest_bits (n : N) : option (vals (s_fields intermediate_regular)) := if n <=? 96 then Some (n, tt) else None.
Definition with_src_bits (n : N) : option (vals (s_fields intermediate_regular)) := if n <=? 96 then Some (96 - n, tt) else None.
Definition use_dest_bits (a : vals (s_fields intermediate_regular)) : N := fst a.
Definition use_src_bits (a : vals (s_fields intermediate_regular)) : res N := if fst a <=? 96 then Ok (96 - fst a) else Err Panic.

(** ** Envelopes *)
(** envelope.rs:185-198 *)
Definition msg_envelope := struct_of (hex 1 0x4) [plain hop_k; plain hop_k; tokens; lazy].
Definition envelope := vals (s_fields msg_envelope).
Definition env_cur (e : envelope) : hop := fst e.
Definition env_next (e : envelope) : hop := fst (snd e).
Definition env_fee (e : envelope) : N := fst (snd (snd e)).
Definition env_message (e : envelope) : cell := fst (snd (snd (snd e))).
(** cell/lazy.rs:188-190 [load] *)
Definition load_envelope (c : cell) : res envelope := from_cell (c_load (derived msg_envelope)) c.
(** Info of an internal message, or InvalidData *)
Definition int_info_of (c : cell) : res (int_info int_addr) :=
  let? m := from_cell load_info c in
  match m with MInt i => Ok i | _ => Err InvalidData end.
(** envelope.rs:202-208 [load_message_info] *)
Definition load_message_info (e : envelope) : res (int_info int_addr) := int_info_of (env_message e).
(** envelope.rs:226-234 [collect_fee] *)
Definition collect_fee (e : envelope) (fee : N) : bool * envelope :=
  match vk_checked_sub Tokens (env_fee e) fee with
  | Some remaining => (true, (env_cur e, (env_next e, (remaining, (env_message e, tt)))))
  | None => (false, e)
  end.
(** in_message.rs:311-319 [load_in_msg_info], out_message.rs [load_out_msg_info]: the message is
    the first reference of the envelope *)
Definition envelope_ref (c : cell) : res cell := let? s := as_slice c in let? (m, _) := load_ref (s_chunk s) in Ok m.
Definition info_by_ref (c : cell) : res (int_info int_addr) := let? m := envelope_ref c in int_info_of m.
(** out_message.rs:20-26 [EnqueuedMsg::load_created_lt], 29-32 [load_out_msg_info] *)
Definition load_created_lt (q : vals (s_fields enqueued_msg)) : res N :=
  let? m := envelope_ref (fst (snd q)) in
  let? i := from_cell load_info m in
  match i with MInt i => Ok (ii_lt i) | MExtOut i => Ok (eo_lt i) | MExtIn _ => Err InvalidData end.

(** ** Inbound messages *)
(** in_message.rs:45-54 *)
Inductive in_msg :=
| InExternal (m : vals (s_fields in_msg_external)) | InImmediate (m : vals (s_fields in_msg_final))
| InFinal (m : vals (s_fields in_msg_final)) | InTransit (m : vals (s_fields in_msg_transit)).
(** in_message.rs:57-60, 209-230, 232-242 *)
Definition store_in_msg (m : in_msg) (b : chunk) : res chunk :=
  match m with
  | InExternal m => let? b := store_un 3 0 b in c_store (derived in_msg_external) m b
  | InImmediate m => let? b := store_un 3 3 b in c_store (derived in_msg_final) m b
  | InFinal m => let? b := store_un 3 4 b in c_store (derived in_msg_final) m b
  | InTransit m => let? b := store_un 3 5 b in c_store (derived in_msg_transit) m b
  end.
Definition load_in_msg (b : chunk) : res (in_msg * chunk) :=
  let? (t, b) := load_un 3 b in
  if t =? 0 then let? (m, b) := c_load (derived in_msg_external) b in Ok (InExternal m, b)
  else if t =? 3 then let? (m, b) := c_load (derived in_msg_final) b in Ok (InImmediate m, b)
  else if t =? 4 then let? (m, b) := c_load (derived in_msg_final) b in Ok (InFinal m, b)
  else if t =? 5 then let? (m, b) := c_load (derived in_msg_transit) b in Ok (InTransit m, b)
  else Err InvalidTag.
Definition in_msg_k := Codec store_in_msg load_in_msg.
(** models/currency.rs:83-91 [try_add_assign_tokens] *)
Definition add_tokens (c : currency) (t : N) : res currency :=
  match vk_checked_add Tokens (cc_tokens c) t with Some v => Ok (Currency v (cc_other c)) | None => Err IntOverflow end.
(** in_message.rs:163-206 [compute_fees] *)
Record import := Import { im_fees : N; im_value : currency }.
Definition carried (i : int_info int_addr) (fee : N) : res currency :=
  let? v := add_tokens (ii_value i) (ii_ihr_fee i) in add_tokens v fee.
Definition compute_fees (m : in_msg) : res import :=
  match m with
  | InExternal _ => Ok (Import 0 cc_zero)
  | InImmediate m => let? i := info_by_ref (fst m) in Ok (Import (ii_fwd_fee i) cc_zero)
  | InFinal m =>
    let? e := load_envelope (fst m) in
    if negb (fst (snd (snd m)) =? env_fee e) then Err InvalidData
    else
      let? i := load_message_info e in
      let? v := carried i (env_fee e) in Ok (Import (env_fee e) v)
  | InTransit m =>
    let? e := load_envelope (fst m) in
    if env_fee e <? fst (snd (snd m)) then Err InvalidData
    else
      let? i := load_message_info e in
      let? v := carried i (env_fee e) in Ok (Import (fst (snd (snd m))) v)
  end.

(** ** Outbound messages *)
(** out_message.rs:51-64 *)
Inductive out_msg :=
| OutExternal (m : vals (s_fields out_msg_external)) | OutNew (m : vals (s_fields out_msg_new)) | OutImmediate (m : vals (s_fields out_msg_immediate))
| OutDequeueImmediate (m : vals (s_fields out_msg_dequeue_immediate)) | OutDequeueShort (m : vals (s_fields out_msg_dequeue_short)).
(** out_message.rs:67-73, 177-202, 204-219 *)
Definition store_out_msg (m : out_msg) (b : chunk) : res chunk :=
  match m with
  | OutExternal m => let? b := store_un 3 0 b in c_store (derived out_msg_external) m b
  | OutImmediate m => let? b := store_un 3 2 b in c_store (derived out_msg_immediate) m b
  | OutNew m => let? b := store_un 3 1 b in c_store (derived out_msg_new) m b
  | OutDequeueShort m => let? b := store_un 4 13 b in c_store (derived out_msg_dequeue_short) m b
  | OutDequeueImmediate m => let? b := store_un 3 4 b in c_store (derived out_msg_dequeue_immediate) m b
  end.
Definition load_out_msg (b : chunk) : res (out_msg * chunk) :=
  let? (t, b) := load_un 3 b in
  if t =? 0 then let? (m, b) := c_load (derived out_msg_external) b in Ok (OutExternal m, b)
  else if t =? 1 then let? (m, b) := c_load (derived out_msg_new) b in Ok (OutNew m, b)
  else if t =? 2 then let? (m, b) := c_load (derived out_msg_immediate) b in Ok (OutImmediate m, b)
  else if t =? 4 then let? (m, b) := c_load (derived out_msg_dequeue_immediate) b in Ok (OutDequeueImmediate m, b)
  else if t =? 6 then
    let? (f, b) := load_bool b in
    if f : bool then let? (m, b) := c_load (derived out_msg_dequeue_short) b in Ok (OutDequeueShort m, b) else Err InvalidTag
  else Err InvalidTag.
Definition out_msg_k := Codec store_out_msg load_out_msg.
(** out_message.rs:160-172 [compute_exported_value] *)
Definition compute_exported_value (m : out_msg) : res currency :=
  match m with
  | OutNew m =>
    let? e := load_envelope (fst m) in
    let? i := load_message_info e in
    carried i (env_fee e)
  | _ => Ok cc_zero
  end.
