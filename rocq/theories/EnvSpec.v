(** * Layouts of envelopes and of inbound and outbound messages; the value they carry *)
From Verif Require Import Err CellModel NumSpec AddrSpec CurrencyModel MessageModel MessageSpec ChunkSpec DeriveModel DeriveSpec StructsModel StructsSpec CasesSpec EnvModel.
Local Open Scope N_scope.

(** interm_addr_regular$0, interm_addr_simple$10, interm_addr_ext$11 *)
Definition hop_w : layout hop :=
  cases_w (fun a => match a with Regular a => Branch [false] intermediate_regular_w a | Simple a => Branch [true; false] intermediate_simple_w a
                    | Far a => Branch [true; true] intermediate_ext_w a end) 98 0.
(** msg_envelope#4 cur_addr:IntermediateAddress next_addr:IntermediateAddress
    fwd_fee_remaining:Grams msg:^(Message Any) *)
Definition envelope_w := tag_w 4 0x4 w[hop_w, hop_w, tokens_w, lazy_w].
(** msg_import_ext$000, msg_import_imm$011, msg_import_fin$100, msg_import_tr$101 *)
Definition in_msg_w : layout in_msg :=
  cases_w (fun m => match m with InExternal m => Branch [false; false; false] two_refs_w m | InImmediate m => Branch [false; true; true] with_fee_w m
                    | InFinal m => Branch [true; false; false] with_fee_w m | InTransit m => Branch [true; false; true] with_fee_w m end) 127 2.
(** msg_export_ext$000, msg_export_new$001, msg_export_imm$010, msg_export_deq_imm$100,
    msg_export_deq_short$1101 *)
Definition out_msg_w : layout out_msg :=
  cases_w (fun m => match m with OutExternal m => Branch [false; false; false] two_refs_w m | OutNew m => Branch [false; false; true] two_refs_w m
                    | OutImmediate m => Branch [false; true; false] three_refs_w m | OutDequeueImmediate m => Branch [true; false; false] two_refs_w m
                    | OutDequeueShort m => Branch [true; true; false; true] out_msg_dequeue_short_w m end) 420 3.

(** The cell [c] starts with the representation [L] of a value. *)
Definition begins {A} (L : A -> chunk -> Prop) (c : cell) (a : A) : Prop :=
  c_exotic c = false /\ exists x rest, L a x /\ (c_bits c, c_refs c) = capp x rest.
(** An envelope around an internal message. *)
Definition carries (c : cell) (e : envelope) (i : int_info AddrModel.int_addr) : Prop :=
  begins (w_read envelope_w) c e /\ begins (info_c loose_var_uint_bits) (env_message e) (MInt i).
(** The tokens that go with it: the value of the message and the fees that are not paid yet. *)
Definition tokens_carried (e : envelope) (i : int_info AddrModel.int_addr) : N := cc_tokens (ii_value i) + ii_ihr_fee i + env_fee e.
