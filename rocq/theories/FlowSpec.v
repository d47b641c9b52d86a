(** * What checks a block: specification *)
From stdpp Require Import gmap.
From Verif Require Import Err BitsProofs IntModel NumSpec Var248Model CellModel ChunkModel ChunkSpec CurrencyModel CurrencySpec DictModel DictSpec DeriveModel StructsModel VsetModel BlockModel.
Local Open Scope N_scope.

(** ** Value flow *)
(** The largest number of tokens and the largest amount of an extra currency. *)
Definition max_tokens : N := 2 ^ 120 - 1.
Definition max_amount : N := 2 ^ 248 - 1.
(** The collection [c] holds the amounts [m] of extra currencies, and not more tokens than fit. *)
Definition collection (R : rules) (V : chunk -> N -> Prop) (c : currency) (m : gmap N N) : Prop :=
  cc_tokens c <= max_tokens /\ holds R V (cc_other c) m.
(** What comes in and what goes out. *)
Definition inflow (f : value_flow) : list currency := [vf_from_prev f; vf_imported f; vf_fees_imported f; vf_created f; vf_minted f; vf_recovered f].
Definition outflow (f : value_flow) : list currency := [vf_to_next f; vf_exported f; vf_fees_collected f; vf_burned f].
Definition total (l : list N) : N := fold_right N.add 0 l.
Definition tokens_of (l : list currency) : N := total (map cc_tokens l).
Definition amount_of (id : N) (l : list (gmap N N)) : N := total (map (fun m => amount m id) l).
Definition balanced (f : value_flow) (ins outs : list (gmap N N)) : Prop :=
  tokens_of (inflow f) = tokens_of (outflow f) /\ forall id, amount_of id ins = amount_of id outs.
Definition in_range (l : list currency) (ms : list (gmap N N)) : Prop :=
  tokens_of l <= max_tokens /\ forall id, amount_of id ms <= max_amount.
Definition flow_holds (R : rules) (V : chunk -> N -> Prop) (f : value_flow) (ins outs : list (gmap N N)) : Prop :=
  Forall2 (collection R V) (inflow f) ins /\ Forall2 (collection R V) (outflow f) outs.
(** The first collection has no currency with a zero amount. *)
Definition no_zeros (ms : list (gmap N N)) : Prop := forall m id, head ms = Some m -> m !! id <> Some 0.

(** ** Signatures *)
(** The value of an entry begins with a signature: TL-B sig_pair$_ node_id_short:bits256
    sign:CryptoSignature; ed25519_signature#5 R:bits256 s:bits256. *)
Definition signed_by (v : chunk) (id sg : list N) : Prop :=
  length id = 32%nat /\ Forall byte_ok id /\ length sg = 64%nat /\ Forall byte_ok sg /\
  exists rest, fst v = bytes_bits id ++ nbits 4 5 ++ bytes_bits sg ++ rest.
(** The description that counts for a short id: the last one with a key that has this id. *)
Definition listed (short_id : list N -> list N) (nodes : list descr) (id : list N) : option descr :=
  last (filter (fun n => short_id (d_key n) = id) nodes).
