(** * Augmented dictionaries: the TL-B type [HashmapAug n X Y].

<<
    ahm_edge#_ {n:#} {X:Type} {Y:Type} {l:#} {m:#} label:(HmLabel ~l n) {n = (~m) + l}
               node:(HashmapAugNode m X Y) = HashmapAug n X Y;
    ahmn_leaf#_ {X:Type} {Y:Type} extra:Y value:X = HashmapAugNode 0 X Y;
    ahmn_fork#_ {n:#} {X:Type} {Y:Type} left:^(HashmapAug n X Y) right:^(HashmapAug n X Y)
                extra:Y = HashmapAugNode (n + 1) X Y;
>>
    [comb l r] is how two subtrees are combined: [l] and [r] are what their root nodes hold
    after the label and the children (extra and value of a leaf, extra of a fork), the result
    is the extra of the fork above them. *)
From Verif Require Import Err CellModel LabelSpec DictSpec ChunkSpec.
Local Open Scope nat_scope.

(** [aug_hashmap comb R n c x es]: [c] is the root of an augmented dictionary with [n]-bit keys
    and the entries [es]; [x] is what its root node holds; the extra of every fork is the
    combination of its children's. *)
Inductive aug_hashmap (comb : chunk -> chunk -> res chunk) (R : rules) : nat -> cell -> chunk -> list entry -> Prop :=
| ahm_leaf n bits l v :
    r_label R n bits l (fst v) -> length l = n -> r_cell R bits (snd v) ->
    aug_hashmap comb R n (Cell false bits (snd v)) v [(l, v)]
| ahm_fork n m bits l x cl cr xl xr el er :
    r_label R n bits l (fst x) -> n = length l + S m ->
    comb xl xr = Ok x ->
    r_cell R bits (cl :: cr :: snd x) ->
    aug_hashmap comb R m cl xl el -> aug_hashmap comb R m cr xr er ->
    aug_hashmap comb R n (Cell false bits (cl :: cr :: snd x)) x
      (under (l ++ [false]) el ++ under (l ++ [true]) er).

(** An optional root. *)
Definition is_aug_dict (comb : chunk -> chunk -> res chunk) (R : rules) (n : nat) (d : option cell) (es : list entry) : Prop :=
  match d with None => es = [] | Some c => exists x, aug_hashmap comb R n c x es end.
(** With its root node, if there is one. *)
Definition is_aug_root (comb : chunk -> chunk -> res chunk) (R : rules) (n : nat) (d : option cell) (o : option chunk) (es : list entry) : Prop :=
  match d, o with
  | None, None => es = []
  | Some c, Some x => aug_hashmap comb R n c x es
  | _, _ => False
  end.

(** ** Typed extras *)
Section Typed.
Context {A : Type} (a_store : A -> res chunk) (a_load : chunk -> res (A * chunk)) (a_add : A -> A -> res A) (a_default : A).
(** An entry of an augmented dictionary: key, extra, and what the value stores. *)
Definition aentry := (list bool * (A * chunk))%type.

(** What is stored can be loaded, whatever follows it. *)
Definition loads_stored : Prop := forall a ch rest, a_store a = Ok ch -> a_load (capp ch rest) = Ok (a, rest).

(** The entry [e] of the cell tree holds the typed entry [p]. *)
Definition aholds (p : aentry) (e : entry) : Prop :=
  fst p = fst e /\ exists ex, a_store (fst (snd p)) = Ok ex /\ snd e = capp ex (snd (snd p)).

(** [agg l a]: [a] combines the extras of the entries [l] along the binary trie of their keys. *)
Definition agg_under (p : list bool) (l : list aentry) : list aentry := map (fun e => (p ++ fst e, snd e)) l.
Inductive agg : list aentry -> A -> Prop :=
| agg_one k a v : agg [(k, (a, v))] a
| agg_fork p l r a b c : agg l a -> agg r b -> a_add a b = Ok c ->
    agg (agg_under (p ++ [false]) l ++ agg_under (p ++ [true]) r) c.

(** [d] and [extra] are the root and the root extra of an augmented dictionary with [n]-bit keys
    that holds the map [m]: the cells form one, its entries hold those of [m], the extra is
    what the root node begins with, or the default if there is no root. *)
Definition aug_state (R : rules) (n : nat) (d : option cell) (extra : A) (m : gmap (list bool) (A * chunk)) : Prop :=
  exists (o : option chunk) (es : list entry) (l : list aentry),
    is_aug_root (fun x y => let? (a, _) := a_load x in let? (b, _) := a_load y in
                            let? c := a_add a b in a_store c) R n d o es /\
    Forall2 aholds l es /\ m = list_to_map l /\
    match o with
    | None => extra = a_default
    | Some x => exists rest, a_load x = Ok (extra, rest)
    end.
End Typed.
