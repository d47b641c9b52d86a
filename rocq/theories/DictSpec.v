(** * What a dictionary is: the TL-B type [Hashmap n X] and its finite map.

<<
    hm_edge#_ {n:#} {X:Type} {l:#} {m:#} label:(HmLabel ~l n) {n = (~m) + l}
              node:(HashmapNode m X) = Hashmap n X;
    hmn_leaf#_ {X:Type} value:X = HashmapNode 0 X;
    hmn_fork#_ {n:#} {X:Type} left:^(Hashmap n X) right:^(Hashmap n X) = HashmapNode (n + 1) X;
>>
    An augmented dictionary ([HashmapAug]) also stores some extra data in its forks, after the
    label and after the two references.  Keys are bit strings of length [n]; a value is any
    chunk of bits and references. *)
From stdpp Require Export gmap.
From Verif Require Import Err CellModel LabelSpec.
Local Open Scope nat_scope.

Definition entry := (list bool * chunk)%type.
(** The same entries with [p] in front of every key. *)
Definition under (p : list bool) (es : list entry) : list entry :=
  map (fun e => (p ++ fst e, snd e)) es.

(** Which label encodings, fork data and cells a dictionary may use. *)
Record rules := Rules {
  r_label : nat -> list bool -> list bool -> list bool -> Prop;
    (* [r_label n bits l rest]: [bits] is an encoding of the label [l] for width [n],
       followed by [rest] *)
  r_extra : chunk -> Prop;  (* data allowed in forks *)
  r_cell : list bool -> list cell -> Prop (* bits and references allowed in one cell *)
}.

(** [hashmap R n c es]: the cell [c] is the root of a dictionary with [n]-bit keys and the
    entries [es], from left to right. *)
Inductive hashmap (R : rules) : nat -> cell -> list entry -> Prop :=
| hm_leaf n bits l v :
    r_label R n bits l (fst v) -> length l = n -> r_cell R bits (snd v) ->
    hashmap R n (Cell false bits (snd v)) [(l, v)]
| hm_fork n m bits l x cl cr el er :
    r_label R n bits l (fst x) -> n = length l + S m -> r_extra R x ->
    r_cell R bits (cl :: cr :: snd x) ->
    hashmap R m cl el -> hashmap R m cr er ->
    hashmap R n (Cell false bits (cl :: cr :: snd x))
      (under (l ++ [false]) el ++ under (l ++ [true]) er).

(** An optional root; no root means no entries. *)
Definition is_dict (R : rules) (n : nat) (d : option cell) (es : list entry) : Prop :=
  match d with None => es = [] | Some c => hashmap R n c es end.

(** The finite map of a list of entries. *)
Definition dmap (es : list entry) : gmap (list bool) chunk := list_to_map es.

(** ** Kinds of dictionaries *)
Definition any_label (n : nat) (bits l rest : list bool) : Prop :=
  exists e, bits = e ++ rest /\ hml n e l.
Definition canonical_label (n : nat) (bits l rest : list bool) : Prop :=
  exists e, bits = e ++ rest /\ hml_canonical n e l.

(** Any valid dictionary, plain or augmented. *)
Definition any_dict : rules := Rules any_label (fun _ => True) (fun _ _ => True).
(** Any valid plain dictionary. *)
Definition plain_dict : rules := Rules any_label (fun x => x = ([], [])) (fun _ _ => True).
(** Plain dictionaries with canonical labels made of cells that can be built. *)
Definition canonical_dict (fin : list bool -> list cell -> res unit) : rules :=
  Rules canonical_label (fun x => x = ([], []))
    (fun bits refs => length bits <= 1023 /\ length refs <= 4 /\ fin bits refs = Ok tt).

(** ** Key order *)
(** A key as an unsigned or a two's complement integer. *)
Definition key_num (signed : bool) (k : list bool) : Z :=
  match k with
  | [] => 0
  | b :: r => ((if b then (if signed then -1 else 1) * 2 ^ Z.of_nat (length r) else 0) + Z.of_N (bval r))%Z
  end.
(** [k1] comes strictly before [k2] (after it when [rev]). *)
Definition before (signed rev : bool) (k1 k2 : list bool) : Prop :=
  if rev then (key_num signed k2 < key_num signed k1)%Z else (key_num signed k1 < key_num signed k2)%Z.
