(** * C74: values of the declared types can be encoded *)
From Verif Require Import Err AddrModel AddrSpec AddrProofs BigIntSpec CellModel AbiModel AbiSpec AbiProofs AbiProofs4 AbiProps CallModel CallSpec EncSpec EncProofs EncProofs2 EncProofs3 EncProofs4.
Local Open Scope N_scope.

(** [fin] says which cells can be built: here all of up to 1023 bits and 4 references (so depth,
    which [finalize_cell] bounds as well, is left out). *)
Definition builds_cells (fin : list bool -> list cell -> res unit) : Prop :=
  forall b r, (length b <= 1023)%nat -> (length r <= 4)%nat -> fin b r = Ok tt.
Definition all_encodable (v : version) (l : list aval) : Prop := forall x, x ∈ l -> encodable v x.
Lemma all_encodable_all v l : all_encodable v l -> all (encodable v) l.
Proof. intros O. induction l as [|x l IH]; [exact Logic.I|]. split; [apply (O x); left|apply IH; intros y Hy; apply O; right; exact Hy]. Qed.

(** Any number of arguments of any sizes and nesting can be encoded, in any version of the ABI:
    they are spread over as many cells as needed, and no cell overflows. *)
Theorem C74_arguments fin sorted v l :
  (forall A l, Permutation (sorted A l) l) -> builds_cells fin -> all_encodable v l ->
  exists b c, tuple_to_builder fin sorted v l = Ok b /\ tuple_to_cell fin sorted v l = Ok c.
Proof. intros S F E. apply encode_tuple; [exact S|exact F|apply all_encodable_all, E]. Qed.
Print Assumptions C74_arguments.
(** The same for one value. *)
Theorem C74_value fin sorted v x :
  (forall A l, Permutation (sorted A l) l) -> builds_cells fin -> encodable v x ->
  exists b c, make_builder fin sorted v x = Ok b /\ make_cell fin sorted v x = Ok c.
Proof. intros S F E. apply encode_value; assumption. Qed.
Print Assumptions C74_value.
(** With C57: encoding and decoding gives the arguments. *)
Theorem C74_round_trip fin utf8 sorted v l :
  (forall A l, Permutation (sorted A l) l) -> builds_cells fin -> 2 <= v_major v -> all_encodable v l ->
  (forall x, x ∈ l -> value_ok utf8 x /\ supported v x) ->
  exists c, tuple_to_cell fin sorted v l = Ok c /\ load_tuple utf8 v (map type_of l) c = Ok l.
Proof.
  intros S F V E O. destruct (C74_arguments fin sorted v l S F E) as (_ & c & _ & C). exists c. split; [exact C|]. eapply C57_tuple; eassumption.
Qed.
Print Assumptions C74_round_trip.

(** Bodies of internal messages, results and events. *)
Theorem C74_bodies fin sorted f e l :
  (forall A l, Permutation (sorted A l) l) -> builds_cells fin -> 
  (f_input_id f < 2 ^ 32 -> all_encodable (f_version f) l -> map type_of l = f_inputs f -> exists b, encode_internal_input fin sorted f l = Ok b) /\
  (f_output_id f < 2 ^ 32 -> all_encodable (f_version f) l -> map type_of l = f_outputs f -> exists b, encode_output fin sorted f l = Ok b) /\
  (e_id e < 2 ^ 32 -> all_encodable (e_version e) l -> map type_of l = e_inputs e -> exists b, encode_event fin sorted e l = Ok b).
Proof.
  intros S F. unfold encode_internal_input, encode_output, encode_event.
  split; [|split]; intros Hi E T; apply CallProofs.check_types_iff in T; rewrite T; cbn [rbind]; apply body_total; auto using all_encodable_all.
Qed.
Print Assumptions C74_bodies.

(** Calls: the body of an external message can be built, with the address that is signed from
    version 2.3 on, and there is room for the signature afterwards, whatever the headers and the
    arguments. *)
Theorem C74_external fin sorted f x now address :
  (forall A l, Permutation (sorted A l) l) -> builds_cells fin -> 2 <= v_major (f_version f) -> f_input_id f < 2 ^ 32 -> call_ok x now ->
  map type_of (x_tokens x) = f_inputs f -> all_encodable (f_version f) (x_tokens x) ->
  (from_2_3 (f_version f) = true -> exists a bits, address = Some a /\ std_tlb a bits) ->
  exists u, build_input_ext fin sorted f x now address = Ok u /\ forall sig, signature_ok sig -> exists c, fill_signature fin u sig = Ok c.
Proof. intros S F V Hi C T E Ha. eapply input_total; eauto using all_encodable_all. Qed.
Print Assumptions C74_external.
Theorem C74_unsigned fin sorted f x now :
  (forall A l, Permutation (sorted A l) l) -> builds_cells fin -> f_input_id f < 2 ^ 32 -> call_ok x now ->
  map type_of (x_tokens x) = f_inputs f -> all_encodable (f_version f) (x_tokens x) ->
  exists c, build_input_without_signature fin sorted f x now = Ok (call_expire x now, c).
Proof.
  intros S F Hi C T E. destruct (payload_total fin sorted S F (f_version f) f x now false eq_refl Hi C T (all_encodable_all _ _ E)) as (b & P & _). eauto.
Qed.
Print Assumptions C74_unsigned.

(** ** A case: more references than a cell has, full cells, dictionaries with long values *)
Definition four_refs : list aval := [VCell (byte_cell 1); VCell (byte_cell 2); VCell (byte_cell 3); VCell (byte_cell 4)].
Definition many_args : list aval :=
  [VUint 1023 7; VInt 8 (-128); VVarUint 16 1000; VVarInt 32 (-300); VVarInt 2 127; VBool true; VAddr std_zero; VToken (2 ^ 120 - 1); VBytes (replicate 300 7); VString [65; 66]]
  ++ four_refs ++
  [VFixedBytes [1; 2; 3]; VRef (VTuple four_refs); VArray (TTuple [TUint 1000; TCell]) [VTuple [VUint 1000 1; VCell (byte_cell 3)]; VTuple [VUint 1000 2; VCell (byte_cell 4)]];
   VMap (PInt 8) TString [(KInt 8 1, VString [67]); (KInt 8 (-1), VString [68])];
   VOpt (TTuple [TUint 500; TCell]) (Some (VTuple [VUint 500 9; VCell (byte_cell 5)])); VOpt (TUint 1023) (Some (VUint 1023 5)); VOpt TCell None; VTuple []].
Example C74_case : forall v, v = Version 1 0 \/ v = v2_0 \/ v = v2_3 -> all_encodable v many_args /\ exists b c, tuple_to_builder yes keep v many_args = Ok b /\ tuple_to_cell yes keep v many_args = Ok c.
Proof.
  intros v Hv. assert (E : all_encodable v many_args).
  { intros x Hx. unfold many_args, four_refs in Hx. cbn [app] in Hx. repeat (apply elem_of_cons in Hx; destruct Hx as [->|Hx]); [..|apply elem_of_nil in Hx; destruct Hx]; cbn [encodable all fold_right]; try (vm_compute; intuition (reflexivity || discriminate)).
    - destruct (proj1 (load_int_addr_iff ([true; false; false] ++ replicate 264 false) std_zero []) ltac:(vm_compute; reflexivity)) as (b & Hb & _). exists b. exact Hb.
    - split; [vm_compute; discriminate|]. split; [right; discriminate|].
      split; [split; [exists (zbits 8 1); exact (key_int 8 1 ltac:(vm_compute; intuition discriminate))|split; [exact Logic.I|reflexivity]]|].
      split; [split; [exists (zbits 8 (-1)); exact (key_int 8 (-1) ltac:(vm_compute; intuition discriminate))|split; [exact Logic.I|reflexivity]]|exact Logic.I]. }
  split; [exact E|]. apply C74_arguments; [intros A l; reflexivity|intros b r _ _; reflexivity|exact E].
Qed.

(** ** What goes wrong without the restrictions *)
(** Before version 2.2 a byte too few is reckoned for some negative [varint]s (ser.rs:114-123
    [compute_varuint_size] counts the bits of the absolute value, ser.rs:651-687 adds a byte for
    the sign): arguments that fill a cell are refused. *)
Theorem C74_negative_refuted :
  tuple_to_cell yes keep v2_0 (VVarInt 16 (-200) :: four_refs ++ [VUint 1004 0]) = Err CellOverflow /\
  (exists c, tuple_to_cell yes keep v2_0 (VVarInt 16 (-100) :: four_refs ++ [VUint 1004 0]) = Ok c) /\
  (exists c, tuple_to_cell yes keep v2_3 (VVarInt 16 (-200) :: four_refs ++ [VUint 1004 0]) = Ok c).
Proof. split; [vm_compute; reflexivity|]. split; eexists; vm_compute; reflexivity. Qed.
Print Assumptions C74_negative_refuted.
