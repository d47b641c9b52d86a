(** * What the parameters of the network are *)
From Verif Require Import Err IntModel CellModel DictSpec ChunkModel ChunkSpec DeriveModel DeriveSpec.
Local Open Scope N_scope.

(** The parameters [m] are the entries of a dictionary with keys of 32 bits: each entry is a
    reference to the cell of the parameter.  [R] are the rules for the dictionary: [plain_dict] for
    any one, [canonical_dict] for one that was made by the library. *)
Definition config (R : rules) (d : option cell) (m : gmap N cell) : Prop :=
  (forall id, 2 ^ 32 <= id -> m !! id = None) /\
  exists es, is_dict R 32 d es /\ forall id, id < 2 ^ 32 -> dmap es !! nbits 32 id = (fun c => ([], [c]) : chunk) <$> m !! id.

(** The parameter [id] says [v]: it is there, its cell is an ordinary one and begins with [v] in
    the layout [L]. *)
Definition says {A} (m : gmap N cell) (id : N) (L : layout A) (v : A) : Prop :=
  exists c x r, m !! id = Some c /\ c_exotic c = false /\ w_read L v x /\ (c_bits c, c_refs c) = capp x r.
(** The parameter [id] says [v], or it is not there and the parameter [other] says [v]. *)
Definition says_or {A} (m : gmap N cell) (id other : N) (L : layout A) (v : A) : Prop :=
  says m id L v \/ m !! id = None /\ says m other L v.

(** A reader that finds what the parameter says, and fails if there is nothing to find. *)
Definition finds {A} (g : res A) (P : A -> Prop) : Prop := forall v, g = Ok v <-> P v.
(** A writer that makes the parameter [id] say [v] and leaves all others as they are. *)
Definition writes_param {A} (R : rules) (m : gmap N cell) (id : N) (L : layout A) (s : A -> res (bool * option cell)) : Prop :=
  forall v f d, w_ok L v -> s v = Ok (f, d) -> f = true /\ exists c, config R d (<[id := c]> m) /\ says (<[id := c]> m) id L v.
(** A writer that does not fail for values that can be written. *)
Definition always_writes {A} (L : layout A) (s : A -> res (bool * option cell)) : Prop := forall v, w_ok L v -> exists d, s v = Ok (true, d).
