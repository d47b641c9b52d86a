(** * The grammar of the text of shard and block identifiers *)
From Verif Require Import Err TextModel TextSpec AddrSpec NumSpec ShardModel ShardSpec.
Local Open Scope N_scope.

(** workchain:prefix, a decimal number and a hexadecimal one *)
Definition shard_text (wc prefix : list N) (s : shard) : Prop :=
  valid_shard s /\ int_text (sh_wc s) wc /\ number_text 16 (sh_prefix s) prefix.
(** Hexadecimal bytes. *)
Definition bytes_text (n : nat) (s : list N) (x : list N) : Prop := Forall byte_ok x /\ length x = n /\ spells s (bytes_bits x).
(** workchain:prefix:seqno:root:file *)
Definition block_text (s : list N) (x : block_id) : Prop :=
  exists wc prefix seqno root file, s = wc ++ [58] ++ prefix ++ [58] ++ seqno ++ [58] ++ root ++ [58] ++ file /\
    shard_text wc prefix (bi_shard x) /\ number_text 10 (bi_seqno x) seqno /\ bi_seqno x < 2 ^ 32 /\ bytes_text 32 root (bi_root x) /\ bytes_text 32 file (bi_file x).
