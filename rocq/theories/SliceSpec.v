(** * What a slice means: bits and references of a window, and operations on bit lists.

    Nothing here mentions bytes masks, shifts or word loops: a slice is read as the
    list of bits between its two positions. *)
From Verif Require Import Err SliceModel.
Local Open Scope nat_scope.

Section S.
Context {R : Type}.

(** Cells as they are produced by the library: enough bytes for the bit length. *)
Definition cv_ok (c : cellv R) : Prop :=
  Forall byte_ok (cv_data c) /\ (cv_bits c <= 1023)%N /\
  (cv_bits c <= 8 * N.of_nat (length (cv_data c)))%N /\ length (cv_refs c) <= 4.
Definition s_ok (s : slice R) : Prop :=
  cv_ok (sc s) /\ (bs (sr s) <= be (sr s) <= cv_bits (sc s))%N /\
  (rs (sr s) <= re (sr s) <= N.of_nat (length (cv_refs (sc s))))%N.

(** The bits / references seen through the window. *)
Definition sbits (s : slice R) : list bool :=
  take (N.to_nat (be (sr s) - bs (sr s))) (drop (N.to_nat (bs (sr s))) (bytes_bits (cv_data (sc s)))).
Definition srefs (s : slice R) : list R :=
  take (N.to_nat (re (sr s) - rs (sr s))) (drop (N.to_nat (rs (sr s))) (cv_refs (sc s))).

(** Window operations on plain lists: cut at the front or the back. *)
Definition window := (list bool * list R)%type.
Definition enough (w : window) (bits refs : N) : bool :=
  (N.to_nat bits <=? length (fst w)) && (N.to_nat refs <=? length (snd w)).
Definition spec_wop (o : wop) (w : window) : bool * window :=
  let cut (b r : N) (w' : window) := if enough w b r then (true, w') else (false, w) in
  let '(X, r) := w in
  match o with
  | W_skip_first b n | W_load_prefix b n => cut b n (drop (N.to_nat b) X, drop (N.to_nat n) r)
  | W_only_first b n => cut b n (take (N.to_nat b) X, take (N.to_nat n) r)
  | W_skip_last b n | W_load_suffix b n =>
      cut b n (take (length X - N.to_nat b) X, take (length r - N.to_nat n) r)
  | W_only_last b n => cut b n (drop (length X - N.to_nat b) X, drop (length r - N.to_nat n) r)
  | W_get_prefix b n => (true, (take (N.to_nat b) X, take (N.to_nat n) r))
  | W_load_uint b => if (b <=? 64)%N then cut b 0%N (drop (N.to_nat b) X, r) else (false, w)
  | W_load_reference => cut 0%N 1%N (X, drop 1 r)
  | W_load_remaining => (true, ([], []))
  end.
Fixpoint spec_wops (l : list wop) (w : window) : list bool * window :=
  match l with
  | [] => ([], w)
  | o :: l' =>
    let (r, w1) := spec_wop o w in
    let (rs, w2) := spec_wops l' w1 in
    (r :: rs, w2)
  end.
(** Arguments that do not wrap the 16-bit / 8-bit counters. *)
Definition wop_ok (o : wop) : Prop :=
  match o with
  | W_skip_first b n | W_only_first b n | W_skip_last b n | W_only_last b n
  | W_get_prefix b n | W_load_prefix b n | W_load_suffix b n => (b <= 64000 /\ n <= 250)%N
  | _ => True
  end.

End S.

(** ** Lexicographic comparison *)
Fixpoint lexc (a b : list bool) : comparison :=
  match a, b with
  | [], [] => Eq
  | [], _ => Lt
  | _, [] => Gt
  | x :: a', y :: b' => if Bool.eqb x y then lexc a' b' else if y then Lt else Gt
  end.

(** ** Common prefixes *)
Fixpoint lcp (a b : list bool) : nat :=
  match a, b with
  | x :: a', y :: b' => if Bool.eqb x y then S (lcp a' b') else 0
  | _, _ => 0
  end.

(** [n] is the length of the maximal run of [b] at the start of [l]. *)
Definition is_run (b : bool) (l : list bool) (n : nat) : Prop :=
  n <= length l /\ take n l = replicate n b /\ (forall x, l !! n = Some x -> x = negb b).

(** [n] is the length of the longest common prefix of [a] and [b]. *)
Definition is_lcp (a b : list bool) (n : nat) : Prop :=
  n <= length a /\ n <= length b /\ take n a = take n b /\
  (forall x y, a !! n = Some x -> b !! n = Some y -> x <> y).
