(** * The layouts of parameters with codecs written by hand *)
From Verif Require Import Err CellModel NumSpec ChunkSpec CurrencySpec FeesModel VsetModel VsetSpec DictSpec DeriveModel DeriveSpec StructsModel StructsSpec CasesSpec ParamsModel.
Local Open Scope N_scope.

(** Values are written in one layout, and read from another one as well: an older one, say. *)
Definition or_w {A} (l : layout A) (old : A -> chunk -> Prop) : layout A :=
  Layout (w_ok l) (w_write l) (fun a x => w_read l a x \/ old a x) (w_bits l) (w_refs l).
Definition u32_w := uint_w 32.
Definition u64_w := uint_w 64.

(** catchain_config#c1 mc_catchain_lifetime:uint32 shard_catchain_lifetime:uint32
    shard_validators_lifetime:uint32 shard_validators_num:uint32
    catchain_config_new#c2 flags:(## 6) {flags = 0} isolate_mc_validators:Bool
    shuffle_mc_validators:Bool ... *)
Definition catchain_numbers (c : catchain) := (cc_mc_lifetime c, (cc_shard_lifetime c, (cc_vals_lifetime c, (cc_vals_num c, tt)))).
Definition catchain_v1_w := tag_w 8 0xc1 w[u32_w, u32_w, u32_w, u32_w].
Definition catchain_v2_w := tag_w 8 0xc2 (tag_w 6 0 w[bool_w, bool_w, u32_w, u32_w, u32_w, u32_w]).
Definition catchain_w : layout catchain :=
  or_w (as_w (fun c => (cc_isolate c, (cc_shuffle c, catchain_numbers c))) catchain_v2_w)
    (fun c x => cc_isolate c = false /\ cc_shuffle c = false /\ w_read catchain_v1_w (catchain_numbers c) x).

(** consensus_config#d6 round_candidates:# { round_candidates >= 1 } next_candidate_delay_ms:uint32
    consensus_timeout_ms:uint32 fast_attempts:uint32 attempt_duration:uint32 catchain_max_deps:uint32
    max_block_bytes:uint32 max_collated_bytes:uint32
    consensus_config_new#d7 flags:(## 7) { flags = 0 } new_catchain_ids:Bool
    round_candidates:(## 8) { round_candidates >= 1 } ... *)
Definition seven_w := w[u32_w, u32_w, u32_w, u32_w, u32_w, u32_w, u32_w].
Definition consensus_numbers (c : consensus) := (co_delay c, (co_timeout c, (co_attempts c, (co_duration c, (co_deps c, (co_block c, (co_collated c, tt))))))).
Definition consensus_v1_w := tag_w 8 0xd6 (seq_w (nonzero_w 32) seven_w).
Definition consensus_v2_w := tag_w 8 0xd7 (tag_w 7 0 (seq_w bool_w (seq_w (nonzero_w 8) seven_w))).
Definition consensus_w : layout consensus :=
  or_w (as_w (fun c => (co_new_ids c, (co_candidates c, consensus_numbers c))) consensus_v2_w)
    (fun c x => co_new_ids c = false /\ w_read consensus_v1_w (co_candidates c, consensus_numbers c) x).

(** gas_flat_pfx#d1 flat_gas_limit:uint64 flat_gas_price:uint64 other:GasLimitsPrices
    gas_prices_ext#de gas_price:uint64 gas_limit:uint64 special_gas_limit:uint64 gas_credit:uint64
    block_gas_limit:uint64 freeze_due_limit:uint64 delete_due_limit:uint64
    gas_prices#dd gas_price:uint64 gas_limit:uint64 gas_credit:uint64 ... *)
Definition flat_w := tag_w 8 0xd1 w[u64_w, u64_w].
Definition gas_ext_w := tag_w 8 0xde w[u64_w, u64_w, u64_w, u64_w, u64_w, u64_w, u64_w].
Definition gas_base_w := tag_w 8 0xdd w[u64_w, u64_w, u64_w, u64_w, u64_w, u64_w].
Definition gas_numbers (g : gas_prices) := (gp_price g, (gp_limit g, (gp_special g, (gp_credit g, (gp_block g, (gp_freeze g, (gp_delete g, tt))))))).
(** Prefixes may be repeated, the last one counts; without one the flat limit and price are
    [fl] and [fp]. *)
Inductive gas_c (fl fp : N) : gas_prices -> chunk -> Prop :=
| gas_ext price limit special credit block freeze delete x :
    w_read gas_ext_w (price, (limit, (special, (credit, (block, (freeze, (delete, tt))))))) x -> gas_c fl fp (GasPrices price limit special credit block freeze delete fl fp) x
| gas_base price limit credit block freeze delete x :
    w_read gas_base_w (price, (limit, (credit, (block, (freeze, (delete, tt)))))) x -> gas_c fl fp (GasPrices price limit 0 credit block freeze delete fl fp) x
| gas_flat fl' fp' g x y : w_read flat_w (fl', (fp', tt)) x -> gas_c fl' fp' g y -> gas_c fl fp g (capp x y).
Definition gas_ext_view (g : gas_prices) := ((gp_flat_limit g, (gp_flat_price g, tt)), (gas_numbers g, tt)).
Definition gas_w : layout gas_prices := or_w (as_w gas_ext_view w[flat_w, gas_ext_w]) (gas_c 0 0).

(** wfmt_basic#1 vm_version:int32 vm_mode:uint64; wfmt_ext#0 ... *)
Definition format_w : layout format :=
  cases_w (fun f => match f with Basic f => Branch [false; false; false; true] workchain_format_basic_w f | Extended f => Branch [false; false; false; false] workchain_format_extended_w f end) 100 0.
(** workchain#a6 enabled_since:uint32 actual_min_split:(## 8) min_split:(## 8) max_split:(## 8)
    basic:(## 1) active:Bool accept_msgs:Bool flags:(## 13) { flags = 0 } zerostate_root_hash:bits256
    zerostate_file_hash:bits256 version:uint32 format:(WorkchainFormat basic);
    written only if the split depths are in order and not above 60 *)
Definition zeros_w (n : nat) : layout unit := Layout (fun _ => True) (fun _ x => x = (nbits n 0, [])) (fun _ x => x = (nbits n 0, [])) n 0.
Definition workchain_view (w : workchain) :=
  (wc_since w, (wc_actual w, (wc_min w, (wc_max w, (is_basic (wc_format w), (wc_active w, (wc_accept w, (tt, (wc_root w, (wc_file w, (wc_version w, (wc_format w, tt)))))))))))).
Definition workchain_any_w : layout workchain :=
  as_w workchain_view (tag_w 8 0xa6 w[u32_w, uint_w 8, uint_w 8, uint_w 8, bool_w, bool_w, bool_w, zeros_w 13, hash_w, hash_w, u32_w, format_w]).
(** Only values with [P] are written. *)
Definition write_if {A} (P : A -> Prop) (l : layout A) : layout A :=
  Layout (fun a => w_ok l a /\ P a) (fun a x => P a /\ w_write l a x) (w_read l) (w_bits l) (w_refs l).
Definition workchain_w : layout workchain := write_if (fun w => wc_min w <= wc_max w /\ wc_max w <= 60) workchain_any_w.

(** validator#53 public_key:SigPubKey weight:uint64
    validator_addr#73 public_key:SigPubKey weight:uint64 adnl_addr:bits256
    validator_with_seqno#93 public_key:SigPubKey weight:uint64 adnl_addr:bits256 mc_seqno_since:uint32
    ed25519_pubkey#8e81278a pubkey:bits256 = SigPubKey *)
Definition pubkey_w := tag_w 32 0x8e81278a hash_w.
Inductive descr_c : descr -> chunk -> Prop :=
| descr_basic key w x : w_read (tag_w 8 0x53 w[pubkey_w, u64_w]) (key, (w, tt)) x -> descr_c (Descr key w None 0 0) x
| descr_adnl key w adnl x : w_read (tag_w 8 0x73 w[pubkey_w, u64_w, hash_w]) (key, (w, (adnl, tt))) x -> descr_c (Descr key w (Some adnl) 0 0) x
| descr_seqno key w adnl s x : w_read (tag_w 8 0x93 w[pubkey_w, u64_w, hash_w, u32_w]) (key, (w, (adnl, (s, tt)))) x -> descr_c (Descr key w (Some adnl) s 0) x.
(** What is kept of a validator: the sum of the weights before it is not stored, and with a
    sequence number the address is lost. *)
Definition kept (d : descr) : descr := Descr (d_key d) (d_weight d) (if d_seqno d =? 0 then d_adnl d else Some (repeat 0 32)) (d_seqno d) 0.
Definition descr_ok (d : descr) : Prop :=
  w_ok hash_w (d_key d) /\ d_weight d < 2 ^ 64 /\ match d_adnl d with Some a => w_ok hash_w a | None => True end /\ d_seqno d < 2 ^ 32.

(** ** Sets of validators *)
(** The list with the sums of the weights as they are. *)
Fixpoint with_sums (t : N) (l : list descr) : list descr :=
  match l with [] => [] | d :: l => Descr (d_key d) (d_weight d) (d_adnl d) (d_seqno d) t :: with_sums (t + d_weight d) l end.
(** validators_ext#12 utime_since:uint32 utime_until:uint32 total:(## 16) main:(## 16)
    { main <= total } { main >= 1 } total_weight:uint64 list:(HashmapE 16 ValidatorDescr) *)
Definition vset_head_w := tag_w 8 0x12 w[u32_w, u32_w, uint_w 16, nonzero_w 16, u64_w, dict_w].
(** The entries of a dictionary describe the validators [l], which have the numbers from [i] on. *)
Fixpoint describe (i : N) (l : list descr) (es : list entry) : Prop :=
  match l, es with
  | [], [] => True
  | d :: l, e :: es => fst e = nbits 16 i /\ (exists x rest, descr_c d x /\ snd e = capp x rest) /\ describe (i + 1) l es
  | _, _ => False
  end.
