(** * What hashes and depths of a tree of cells are.

    Written from the description of cells in the TVM documentation, on plain trees
    ([cell] of CellModel.v: exotic flag, data bits, references); nothing here refers to the
    model of the implementation. *)
From Verif Require Import Err CellModel.
Local Open Scope nat_scope.

(** The data as bytes: bits that do not fill a byte are completed by a one and zeros. *)
Definition pad (bits : list bool) : list bool := if length bits mod 8 =? 0 then bits else bits ++ [true].
Definition data_bytes (bits : list bool) : list N := pack (pad bits).

(** The kinds of cells and their layouts. *)
Inductive kind := KOrdinary | KPruned (mask : N) | KLibrary | KProof | KUpdate.
Definition bits_in (mask : N) (l : nat) : nat := length (filter (fun i => N.testbit mask (N.of_nat i) = true) (seq 0 l)).
Definition byte_at (i : nat) (bits : list bool) : N := bval (take 8 (drop (8 * i) bits)).
Definition layout (exotic : bool) (bits : list bool) (refs : nat) (k : kind) : Prop :=
  match k with
  | KOrdinary => exotic = false
  | KPruned m => exotic = true /\ (0 < m < 8)%N /\ refs = 0 /\ length bits = 16 + 272 * bits_in m 3 /\
                 byte_at 0 bits = 1%N /\ byte_at 1 bits = m
  | KLibrary => exotic = true /\ refs = 0 /\ length bits = 264 /\ byte_at 0 bits = 2%N
  | KProof => exotic = true /\ refs = 1 /\ length bits = 280 /\ byte_at 0 bits = 3%N
  | KUpdate => exotic = true /\ refs = 2 /\ length bits = 552 /\ byte_at 0 bits = 4%N
  end.
(** The kind of a cell whose layout is one of these. *)
Definition kind_of (exotic : bool) (bits : list bool) : kind :=
  if exotic then
    match byte_at 0 bits with
    | 1%N => KPruned (byte_at 1 bits) | 2%N => KLibrary | 3%N => KProof | 4%N => KUpdate | _ => KOrdinary
    end
  else KOrdinary.
Definition k_merkle (k : kind) : nat := match k with KProof | KUpdate => 1 | _ => 0 end.

(** Trees all of whose cells have a layout, at most 1023 bits and at most 4 references. *)
Inductive valid_tree : cell -> Prop :=
| valid_cell exotic bits refs :
    length bits <= 1023 -> length refs <= 4 -> layout exotic bits (length refs) (kind_of exotic bits) ->
    Forall valid_tree refs -> valid_tree (Cell exotic bits refs).

(** Level mask, and hash and depth at each level. *)
Record info := Info { i_mask : N; i_hash : nat -> list N; i_depth : nat -> N }.

Definition or_all (l : list N) : N := fold_right N.lor 0%N l.
Definition max_all (l : list N) : N := fold_right N.max 0%N l.
(** The mask written into the hashed descriptor of level [l]. *)
Definition mask_upto (l : nat) : N := (2 ^ N.of_nat (Nat.min l 3) - 1)%N.

Section Sha.
Context (sha : list N -> list N).

(** The bytes that are hashed: two descriptor bytes, a body, depths and hashes of the children. *)
Definition repr (mask : N) (exotic : bool) (bits : list bool) (body : list N) (depths : list N) (hashes : list (list N)) : list N :=
  [(32 * mask + 8 * N.b2n exotic + N.of_nat (length depths))%N;
   N.of_nat (length bits / 8 + (length bits + 7) / 8)]
  ++ body ++ concat (map (to_be 2) depths) ++ concat hashes.

Definition sub_depths (ch : list info) (l : nat) : list N := map (fun i => i_depth i l) ch.
Definition sub_hashes (ch : list info) (l : nat) : list (list N) := map (fun i => i_hash i l) ch.

(** What is hashed for level [l], given the hash of the level below. *)
Definition level_repr (exotic : bool) (bits : list bool) (k : kind) (ch : list info) (l : nat) (prev : list N) : list N :=
  repr (mask_upto l) exotic bits (if l =? 0 then data_bytes bits else prev)
    (sub_depths ch (l + k_merkle k)) (sub_hashes ch (l + k_merkle k)).
(** A level that is not in the mask has the hash of the level below. *)
Fixpoint level_hash (exotic : bool) (bits : list bool) (k : kind) (ch : list info) (mask : N) (l : nat) : list N :=
  match l with
  | O => sha (level_repr exotic bits k ch 0 [])
  | S l' => if N.testbit mask (N.of_nat l') then sha (level_repr exotic bits k ch l (level_hash exotic bits k ch mask l'))
            else level_hash exotic bits k ch mask l'
  end.
Definition cell_mask (k : kind) (ch : list info) : N :=
  match k with
  | KOrdinary => or_all (map i_mask ch)
  | KPruned m => m
  | KLibrary => 0%N
  | KProof | KUpdate => N.shiftr (or_all (map i_mask ch)) 1
  end.
Definition pruned_repr (bits : list bool) (m : N) : list N := repr m true bits (data_bytes bits) [] [].
Definition cell_info (exotic : bool) (bits : list bool) (ch : list info) : info :=
  let k := kind_of exotic bits in
  match k with
  | KPruned m =>
    (* below its own level a pruned branch has the hashes and depths it stores *)
    let data := data_bytes bits in
    let stored l := bits_in m l <? bits_in m 3 in
    Info m
      (fun l => if stored l then take 32 (drop (2 + 32 * bits_in m l) data) else sha (pruned_repr bits m))
      (fun l => if stored l then from_be (take 2 (drop (2 + 32 * bits_in m 3 + 2 * bits_in m l) data)) else 0%N)
  | _ =>
    let m := cell_mask k ch in
    Info m (level_hash exotic bits k ch m)
      (fun l => max_all (map (fun d => d + 1)%N (sub_depths ch (l + k_merkle k))))
  end.
Fixpoint info_of (c : cell) : info :=
  let '(Cell exotic bits refs) := c in cell_info exotic bits (map info_of refs).

(** The highest level; a mask has three bits. *)
Definition t_hash (c : cell) : list N := i_hash (info_of c) 3.
Definition t_depth (c : cell) : N := i_depth (info_of c) 3.

(** All the strings that are hashed for a tree. *)
Fixpoint hashed (c : cell) : list (list N) :=
  let '(Cell exotic bits refs) := c in
  let k := kind_of exotic bits in
  let ch := map info_of refs in
  let m := cell_mask k ch in
  (match k with
   | KPruned m => [pruned_repr bits m]
   | _ => level_repr exotic bits k ch 0 [] ::
          concat (map (fun l => if N.testbit m (N.of_nat l) then [level_repr exotic bits k ch (S l) (level_hash exotic bits k ch m l)] else []) [0; 1; 2])
   end)
  ++ concat (map hashed refs).
End Sha.

(** The number of edges on a longest path. *)
Fixpoint height (c : cell) : N := let '(Cell _ _ refs) := c in max_all (map (fun x => height x + 1)%N refs).
(** No pruned branches. *)
Inductive complete : cell -> Prop :=
| complete_cell exotic bits refs : (forall m, kind_of exotic bits <> KPruned m) -> Forall complete refs -> complete (Cell exotic bits refs).
