(** * C57: ABI values in cells are read back *)
From Coq Require Import Sorting.Sorted.
From Verif Require Import Err AddrModel AddrSpec AddrProofs BigIntSpec CellModel DictModel DictSpec AbiModel AbiSpec AbiProofs4.
Local Open Scope N_scope.

(** From version 2 on: whatever cell a value is encoded into, decoding it by the type of the
    value gives the value, whatever the sizes, the nesting and the number of cells.  [fin] says
    which cells can be built, [sorted] in which order the entries of a map are visited. *)
Theorem C57_value fin utf8 sorted v x c :
  (forall A l, Permutation (sorted A l) l) -> 2 <= v_major v ->
  value_ok utf8 x -> supported v x ->
  make_cell fin sorted v x = Ok c -> load_value utf8 v (type_of x) c = Ok x.
Proof. intros S V O U E. eapply value_round_trip; eassumption. Qed.
Print Assumptions C57_value.

(** The same for a list of arguments (which may be empty). *)
Theorem C57_tuple fin utf8 sorted v l c :
  (forall A l, Permutation (sorted A l) l) -> 2 <= v_major v ->
  (forall x, x ∈ l -> value_ok utf8 x /\ supported v x) ->
  tuple_to_cell fin sorted v l = Ok c -> load_tuple utf8 v (map type_of l) c = Ok l.
Proof.
  intros S V O E. eapply tuple_round_trip; [eassumption..| | |eassumption].
  - clear E. induction l as [|x l IH]; [exact Logic.I|]. split; [apply (O x); left|apply IH; intros y Hy; apply O; right; exact Hy].
  - clear E. induction l as [|x l IH]; [exact Logic.I|]. split; [apply (O x); left|apply IH; intros y Hy; apply O; right; exact Hy].
Qed.
Print Assumptions C57_tuple.

(** Different arguments of the same types never have the same cell. *)
Theorem C57_injective fin utf8 sorted v l1 l2 c :
  (forall A l, Permutation (sorted A l) l) -> 2 <= v_major v ->
  (forall x, x ∈ l1 -> value_ok utf8 x /\ supported v x) -> (forall x, x ∈ l2 -> value_ok utf8 x /\ supported v x) ->
  map type_of l1 = map type_of l2 ->
  tuple_to_cell fin sorted v l1 = Ok c -> tuple_to_cell fin sorted v l2 = Ok c -> l1 = l2.
Proof.
  intros S V O1 O2 T E1 E2. pose proof (C57_tuple fin utf8 sorted v l1 c S V O1 E1) as D1. pose proof (C57_tuple fin utf8 sorted v l2 c S V O2 E2) as D2.
  rewrite T, D2 in D1. injection D1 as <-. reflexivity.
Qed.
Print Assumptions C57_injective.

(** ** A case *)
Definition yes (b : list bool) (r : list cell) : res unit := Ok tt.
Definition any_text (_ : list N) : bool := true.
Definition keep (A : Type) (l : list (pval * A)) : list (pval * A) := l.
Definition v2_0 : version := Version 2 0.
Definition v2_3 : version := Version 2 3.
Definition byte_cell (n : N) : cell := Cell false (nbits 8 n) [].
Definition std_zero : int_addr := IStd (StdAddr None 0%Z (replicate 32 0)).
Definition some_args : list aval :=
  [VUint 256 77; VInt 8 (-5); VVarUint 16 1000; VVarInt 32 (-129); VBool true; VAddr std_zero; VToken 5000000000;
   VBytes (replicate 300 7); VString [65; 66]; VCell (byte_cell 1); VCell (byte_cell 2); VFixedBytes [1; 2; 3]; VRef (VUint 64 3);
   VArray (TTuple [TUint 1000; TCell]) [VTuple [VUint 1000 1; VCell (byte_cell 3)]; VTuple [VUint 1000 2; VCell (byte_cell 4)]];
   VFixedArray TBool [VBool true; VBool false]; VMap (PInt 8) TString [(KInt 8 1, VString [67]); (KInt 8 (-1), VString [68])];
   VOpt (TTuple [TUint 500; TCell]) (Some (VTuple [VUint 500 9; VCell (byte_cell 5)])); VOpt (TUint 1023) (Some (VUint 1023 5)); VOpt TCell None].
Example C57_case : forall v, v = v2_0 \/ v = v2_3 ->
  (forall x, x ∈ some_args -> value_ok any_text x /\ supported v x) /\
  exists c, tuple_to_cell yes keep v some_args = Ok c /\ load_tuple any_text v (map type_of some_args) c = Ok some_args.
Proof.
  intros v Hv. assert (Hm : 2 <= v_major v) by (destruct Hv; subst v; vm_compute; discriminate).
  assert (O : forall x, x ∈ some_args -> value_ok any_text x /\ supported v x).
  { intros x Hx. unfold some_args in Hx. repeat (apply elem_of_cons in Hx; destruct Hx as [->|Hx]); [..|apply elem_of_nil in Hx; destruct Hx]; split; cbn [value_ok supported all fold_right]; try (vm_compute; intuition (reflexivity || discriminate)).
    - destruct (proj1 (load_int_addr_iff ([true; false; false] ++ replicate 264 false) std_zero []) ltac:(vm_compute; reflexivity)) as (b & Hb & _). exists b. exact Hb.
    - apply Forall_replicate. unfold byte_ok. lia.
    - split; [|reflexivity]. repeat (constructor; [unfold byte_ok; lia|]). constructor.
    - repeat (constructor; [unfold byte_ok; lia|]). constructor.
    - split.
      + repeat split; repeat (constructor; [unfold byte_ok; lia|]); constructor.
      + exists [nbits 8 1; nbits 8 255]. split.
        * constructor; [exact (key_int 8 1 ltac:(vm_compute; intuition discriminate))|]. constructor; [exact (key_int 8 (-1) ltac:(vm_compute; intuition discriminate))|constructor].
        * constructor; [constructor; [constructor|constructor]|constructor; [vm_compute; reflexivity|constructor]]. }
  split; [exact O|].
  assert (E : exists c, tuple_to_cell yes keep v some_args = Ok c) by (destruct Hv; subst v; eexists; vm_compute; reflexivity).
  destruct E as (c & E). exists c. split; [exact E|]. exact (C57_tuple yes any_text keep v some_args c (fun A l => Permutation_refl l) Hm O E).
Qed.

(** ** What goes wrong without the restrictions *)
Definition reload (v : version) (x : aval) : res aval := let? c := make_cell yes keep v x in load_value any_text v (type_of x) c.

(** A positive [varint] is stored without a sign bit (ser.rs:400-423: [to_bytes_be] of its
    magnitude) but read as a signed number (de.rs:392-397): 128 comes back as -128. *)
Theorem C57_varint_refuted : exists x v, 2 <= v_major v /\ value_ok any_text x /\ reload v x = Ok (VVarInt 16 (-128)) /\ x = VVarInt 16 128.
Proof. exists (VVarInt 16 128), v2_3. repeat split; try (vm_compute; discriminate); vm_compute; reflexivity. Qed.
Print Assumptions C57_varint_refuted.

(** Before version 2.2 an empty map takes no reference of the size reckoned beforehand, but one of
    the size it is written with (ser.rs:577): the last of four cells behind it is put into a cell
    of its own, which the decoder takes for the value. *)
Theorem C57_empty_map_refuted : exists args wrong c, 
  args = [VMap (PUint 8) TBool []; VCell (byte_cell 1); VCell (byte_cell 2); VCell (byte_cell 3); VCell (byte_cell 4)] /\
  tuple_to_cell yes keep v2_0 args = Ok c /\ load_tuple any_text v2_0 (map type_of args) c = Ok wrong /\ 
  wrong = [VMap (PUint 8) TBool []; VCell (byte_cell 1); VCell (byte_cell 2); VCell (byte_cell 3); VCell (Cell false [] [byte_cell 4])].
Proof. do 3 eexists. split; [reflexivity|]. split; [vm_compute; reflexivity|]. split; vm_compute; reflexivity. Qed.
Print Assumptions C57_empty_map_refuted.

(** Values that take no room: the decoder no longer knows that a cell in front is the last one
    and follows it. *)
Theorem C57_empty_refuted :
  (exists c, make_cell yes keep v2_3 (VTuple [VCell (byte_cell 1); VTuple []]) = Ok c) /\ reload v2_3 (VTuple [VCell (byte_cell 1); VTuple []]) = Err CellUnderflow /\
  (exists c, make_cell yes keep v2_3 (VTuple [VCell (byte_cell 1); VUint 0 0]) = Ok c) /\ reload v2_3 (VTuple [VCell (byte_cell 1); VUint 0 0]) = Err CellUnderflow.
Proof. split; [eexists; vm_compute; reflexivity|]. split; [vm_compute; reflexivity|]. split; [eexists; vm_compute; reflexivity|vm_compute; reflexivity]. Qed.
Print Assumptions C57_empty_refuted.

(** From version 2.2 on the size of a [varuint] of more than 128 bytes is more than a cell:
    a value behind it makes [Size::MAX - current] overflow (ser.rs:303), and an array of such
    numbers is written but not read. *)
Theorem C57_long_varuint_refuted :
  make_cell yes keep v2_3 (VTuple [VVarUint 200 1; VBool true]) = Err Panic /\
  (exists c, make_cell yes keep v2_3 (VArray (TVarUint 200) [VVarUint 200 1]) = Ok c) /\ reload v2_3 (VArray (TVarUint 200) [VVarUint 200 1]) = Err CellUnderflow.
Proof. split; [vm_compute; reflexivity|]. split; [eexists; vm_compute; reflexivity|vm_compute; reflexivity]. Qed.
Print Assumptions C57_long_varuint_refuted.

(** An array of a fixed length is written as two bits (ser.rs:523) although it takes one: a
    cell that would be exactly full is refused. *)
Theorem C57_full_cell_refuted :
  tuple_to_cell yes keep v2_3 [VCell (byte_cell 1); VCell (byte_cell 2); VCell (byte_cell 3); VFixedArray TBool [VBool true]; VUint 1022 5] = Err CellOverflow /\
  (exists c, tuple_to_cell yes keep v2_3 [VCell (byte_cell 1); VCell (byte_cell 2); VCell (byte_cell 3); VMap (PUint 8) TBool [(KUint 8 0, VBool true)]; VUint 1022 5] = Ok c).
Proof. split; [vm_compute; reflexivity|eexists; vm_compute; reflexivity]. Qed.
Print Assumptions C57_full_cell_refuted.
(** For the same reason an optional value that fills a cell stops a debug build. *)
Theorem C57_full_optional_refuted :
  make_cell yes keep v2_0 (VOpt (TTuple [TFixedArray TBool 1; TFixedArray TBool 1; TUint 1020]) (Some (VTuple [VFixedArray TBool [VBool true]; VFixedArray TBool [VBool true]; VUint 1020 1]))) = Err Panic.
Proof. vm_compute. reflexivity. Qed.
Print Assumptions C57_full_optional_refuted.

(** With keys of more than 1011 bits a value without bits is put behind a reference that the
    decoder does not follow. *)
Theorem C57_long_key_refuted :
  reload v2_3 (VMap (PUint 1015) TCell [(KUint 1015 0, VCell (byte_cell 7))]) = Ok (VMap (PUint 1015) TCell [(KUint 1015 0, VCell (Cell false [] [byte_cell 7]))]).
Proof. vm_compute. reflexivity. Qed.
Print Assumptions C57_long_key_refuted.

(** Version 1: an array of values that start with a cell and do not fit into its leaves is
    written but not read, and a cell behind an empty map is not found. *)
Theorem C57_version_1_refuted :
  (exists c, make_cell yes keep (Version 1 0) (VArray (TTuple [TCell; TUint 1000]) [VTuple [VCell (byte_cell 1); VUint 1000 1]]) = Ok c) /\
  reload (Version 1 0) (VArray (TTuple [TCell; TUint 1000]) [VTuple [VCell (byte_cell 1); VUint 1000 1]]) = Err CellUnderflow /\
  reload (Version 1 0) (VTuple [VCell (byte_cell 1); VCell (byte_cell 2); VMap (PUint 8) TBool []; VCell (byte_cell 3)]) =
    Ok (VTuple [VCell (byte_cell 1); VCell (byte_cell 2); VMap (PUint 8) TBool []; VCell (Cell false [] [byte_cell 3])]).
Proof. split; [eexists; vm_compute; reflexivity|]. split; vm_compute; reflexivity. Qed.
Print Assumptions C57_version_1_refuted.
