(** * Drawing from a set of validators *)
From Verif Require Import Err CellModel ShardModel VsetModel.
Local Open Scope N_scope.

(** The hash function gives 64 bytes. *)
Definition sha512_like (f : list N -> list N) : Prop := forall x, length (f x) = 64%nat /\ Forall byte_ok (f x).

(** ** The generator: an infinite sequence of 64-bit words *)
(** The hashed text of the block number [b] of eight words. *)
Definition prng_text (s : shard) (cc_seqno seed b : N) : list N :=
  to_be 32 ((seed + b) mod 2 ^ 256) ++ to_be 8 (sh_prefix s) ++ to_be 4 (Z.to_N (sh_wc s mod 2 ^ 32)) ++ to_be 4 cc_seqno.
(** The word number [k]. *)
Definition prng_word (f : list N -> list N) (s : shard) (cc_seqno seed : N) (k : nat) : N :=
  from_be (take 8 (drop (8 * (k mod 8)) (f (prng_text s cc_seqno seed (N.of_nat (k / 8)))))).
(** The first [n] words of a generator. *)
Fixpoint first_words (f : list N -> list N) (n : nat) (g : prng) : list N :=
  match n with O => [] | S n => let (v, g) := next_u64 f g in v :: first_words f n g end.

(** ** Drawing without replacement, with a probability proportional to the weight *)
Definition weight_of {A} (l : list (A * N)) : N := fold_right (fun x n => snd x + n) 0 l.
(** Every word [v] of the sequence picks a number below the weight that is left, namely
    [v / 2^64] of it; the number picks the item whose share of the weight it falls in, and the
    item is taken out. *)
Inductive drawn {A} : list (A * N) -> list N -> list A -> Prop :=
| drawn_none rest : drawn rest [] []
| drawn_next before x w after v vs xs :
    let p := (weight_of (before ++ (x, w) :: after) * v) / 2 ^ 64 in
    weight_of before <= p < weight_of before + w -> drawn (before ++ after) vs xs ->
    drawn (before ++ (x, w) :: after) (v :: vs) (x :: xs).

(** ** Sets of validators as they are meant to be *)
(** The sums of the weights in front are right, and the total is a 64-bit number. *)
Fixpoint sums_from (t : N) (l : list descr) : Prop :=
  match l with [] => True | d :: l => d_prev d = t /\ sums_from (t + d_weight d) l end.
Definition total_weight (l : list descr) : N := fold_right (fun d n => d_weight d + n) 0 l.
Definition vset_ok (v : vset) : Prop := sums_from 0 (vs_list v) /\ vs_total v = total_weight (vs_list v) /\ vs_total v < 2 ^ 64.
Definition positive (l : list descr) : Prop := Forall (fun d => 0 < d_weight d) l.
(** A validator in a subset: only the key and the address are kept. *)
Definition as_node (d : descr) : descr := Descr (d_key d) 1 (d_adnl d) 0 0.
(** The positions and their weights. *)
Definition numbered (l : list descr) : list (nat * N) := imap (fun i d => (i, d_weight d)) l.
(** [n] is the validator at the position [i], as a node. *)
Definition node_at (l : list descr) (i : nat) (n : descr) : Prop := exists d, l !! i = Some d /\ n = as_node d.

(** ** Shuffling *)
(** [js] are choices: the i-th one is a number up to i. *)
Definition choices (js : list nat) : Prop := forall i j, js !! i = Some j -> (j <= i)%nat.
(** The choices the words make. *)
Definition choices_of (vs : list N) : list nat := imap (fun i v => N.to_nat ((N.of_nat i + 1) * v / 2 ^ 64)) vs.
(** The i-th choice puts the item i into the place chosen; the item that was there goes to the
    end. *)
Fixpoint shuffled (js : list nat) (acc : list nat) : list nat :=
  match js with
  | [] => acc
  | j :: js => let i := length acc in
    shuffled js (match acc !! j with Some x => <[j := i]> acc ++ [x] | None => acc ++ [i] end)
  end.

(** The bytes that are hashed for the short hash. *)
Definition hash_text (subset : list descr) (cc_seqno : N) : list N :=
  [0xED; 0x60; 0x16; 0x90] ++ rev (to_be 4 cc_seqno) ++ rev (to_be 4 (N.of_nat (length subset)))
  ++ concat (map (fun d => d_key d ++ rev (to_be 8 (d_weight d)) ++ default (replicate 32 0) (d_adnl d)) subset).
