(** * What a call looks like in a message (C71) *)
From Verif Require Import Err IntModel AddrModel AddrSpec CellModel AbiModel AbiSpec CallModel.
Local Open Scope N_scope.

(** The values of the headers, as bits. *)
Definition header_layout (h : hval) : list bool :=
  match h with
  | WTime t => nbits 64 t
  | WExpire t => nbits 32 t
  | WPubkey None => [false]
  | WPubkey (Some k) => true :: bytes_bits k
  end.
(** An optional signature. *)
Definition signature_layout (sig : option (list N)) : list bool :=
  match sig with None => [false] | Some s => true :: bytes_bits s end.

(** What a program can pass: machine integers, keys of 32 bytes, signatures of 64 bytes. *)
Definition call_ok (x : call) (now : N) : Prop :=
  now < 2 ^ 64 /\ (forall t, x_time x = Some t -> t < 2 ^ 64) /\ (forall t, x_expire x = Some t -> t < 2 ^ 32) /\
  (forall k, x_pubkey x = Some k -> Forall byte_ok k /\ length k = 32%nat).
Definition signature_ok (sig : option (list N)) : Prop := forall s, sig = Some s -> Forall byte_ok s /\ length s = 64%nat.
(** Arguments that C57 reads back. *)
Definition args_ok (utf8 : list N -> bool) (v : version) (l : list aval) : Prop := forall x, x ∈ l -> value_ok utf8 x /\ supported v x.
(** The slice of a whole cell. *)
Definition whole_slice (c : cell) : sl := Sl c (c_bits c) (c_refs c).
