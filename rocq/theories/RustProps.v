(** * C75: Rust values become ABI values of their types and come back *)
From Coq Require Import Sorting.Sorted.
From Verif Require Import Err AddrModel AddrSpec AddrProofs BigIntModel BigIntSpec CellModel DictSpec AbiModel AbiSpec AbiProofs AbiProps CallModel CallSpec CallProofs EncSpec EncProps RustModel RustSpec RustProofs RustProofs2 RustProofs3.
Local Open Scope N_scope.

(** The ABI value of a Rust value has the ABI type of its Rust type, and so has each key. *)
Theorem C75_type utf8 t r : rust_ok utf8 t r -> type_of (into_abi t r) = abi_type t /\ has_type (into_abi t r) (abi_type t) = true.
Proof. intros O. pose proof (into_type utf8 t r O) as T. split; [exact T|]. apply has_type_iff. exact T. Qed.
Print Assumptions C75_type.
(** Converting into an ABI value and back gives the value. *)
Theorem C75_round_trip utf8 t r : readable t = true -> rust_ok utf8 t r -> from_abi t (into_abi t r) = Ok r.
Proof. intros R O. eapply round_trip; eassumption. Qed.
Print Assumptions C75_round_trip.
(** Converting an ABI value of the type (whose numbers are numbers of their types) is exact: what
    is read is a value of the Rust type, and nothing of the ABI value is lost. *)
Theorem C75_read utf8 v t x r :
  readable t = true -> type_of x = abi_type t -> value_ok utf8 x -> encodable v x -> from_abi t x = Ok r -> rust_ok utf8 t r /\ into_abi t r = x.
Proof. intros R T V E F. destruct (from_facts utf8 v t R x T V E) as [A _]. destruct (A r F). auto. Qed.
Print Assumptions C75_read.
(** It can fail only for an address of the other kind. *)
Theorem C75_read_total utf8 v t x :
  readable t = true -> any_address t = true -> type_of x = abi_type t -> value_ok utf8 x -> encodable v x -> exists r, from_abi t x = Ok r.
Proof. intros R A T V E. destruct (from_facts utf8 v t R x T V E) as [_ B]. exact (B A). Qed.
Print Assumptions C75_read_total.
(** Rust values can be sent: the arguments of a call are encoded, and from the cells the same
    arguments are read (with C57 and C74). *)
Theorem C75_arguments fin utf8 sorted v ts (r : rust (RTuple ts)) :
  (forall A l, Permutation (sorted A l) l) -> builds_cells fin -> 2 <= v_major v ->
  readable (RTuple ts) = true -> forallb sendable_type ts = true -> rust_ok utf8 (RTuple ts) r -> sendable v (RTuple ts) r ->
  exists l c l', into_abi (RTuple ts) r = VTuple l /\ check_types l (map abi_type ts) = Ok tt /\ tuple_to_cell fin sorted v l = Ok c /\
    load_tuple utf8 v (map abi_type ts) c = Ok l' /\ from_abi (RTuple ts) (VTuple l') = Ok r.
Proof.
  intros S F V R St O Sn. pose proof (can_send_list utf8 v ts St r O Sn) as X. pose proof (into_type utf8 _ r O) as T.
  rewrite into_tuple in *. cbn [type_of abi_type] in T. assert (T' : map type_of (into_abis ts r) = map abi_type ts) by congruence.
  destruct (C74_round_trip fin utf8 sorted v (into_abis ts r) S F V) as (c & E & D); [intros x Hx; apply X, Hx|intros x Hx; split; apply X, Hx|].
  exists (into_abis ts r), c, (into_abis ts r). split; [reflexivity|]. split; [apply check_types_iff, T'|]. split; [exact E|]. rewrite <- T'. split; [exact D|].
  rewrite <- into_tuple. apply (round_trip utf8); assumption.
Qed.
Print Assumptions C75_arguments.
(** The same for one value. *)
Theorem C75_value fin utf8 sorted v t r :
  (forall A l, Permutation (sorted A l) l) -> builds_cells fin -> sendable_type t = true -> rust_ok utf8 t r -> sendable v t r ->
  exists b c, make_builder fin sorted v (into_abi t r) = Ok b /\ make_cell fin sorted v (into_abi t r) = Ok c.
Proof. intros S F St O Sn. apply C74_value; [exact S|exact F|]. apply (can_send utf8 v t St r O Sn). Qed.
Print Assumptions C75_value.

(** ** A case: integers at their bounds, bytes, nested tuples, options and a map *)
Definition case_types : list rty :=
  [RKey (KTUint W8); RKey (KTInt W64); RKey KTHash; RKey KTBool; RKey KTIntAddr; RTokens; RVarUint56; RVec (RKey (KTUint W8)); RVec (RBox (RKey (KTUint W8)));
   ROpt (RTuple [RKey (KTUint W128); RString]); RMap (KTInt W8) (RVec (RKey KTBool)); RBytes].
Definition case_value : rust (RTuple case_types) :=
  (255, ((-2 ^ 63)%Z, (replicate 31 0 ++ [7], (true, (std_zero, (2 ^ 120 - 1, (2 ^ 56 - 1, ([1; 2; 3], ([1; 2; 3],
  (Some (2 ^ 128 - 1, ([65; 66], tt)), ([(5%Z, [true; false]); ((-5)%Z, [])], ([9], tt)))))))))))).
Definition ascii (bs : list N) : bool := forallb (fun b => b <? 128) bs.
Example C75_case :
  into_abi (RTuple case_types) case_value = VTuple [VUint 8 255; VInt 64 (-2 ^ 63); VUint 256 7; VBool true; VAddr std_zero; VToken (2 ^ 120 - 1); VVarUint 8 (2 ^ 56 - 1);
    VBytes [1; 2; 3]; VArray (TUint 8) [VUint 8 1; VUint 8 2; VUint 8 3]; VOpt (TTuple [TUint 128; TString]) (Some (VTuple [VUint 128 (2 ^ 128 - 1); VString [65; 66]]));
    VMap (PInt 8) (TArray TBool) [(KInt 8 5, VArray TBool [VBool true; VBool false]); (KInt 8 (-5), VArray TBool [])]; VBytes [9]] /\
  readable (RTuple case_types) = true /\ forallb sendable_type case_types = true /\ rust_ok ascii (RTuple case_types) case_value /\ sendable v2_3 (RTuple case_types) case_value.
Proof.
  split; [vm_compute; reflexivity|]. split; [reflexivity|]. split; [reflexivity|]. split.
  - cbn [rust_ok case_types case_value fst snd all fold_right key_ok wbits map]. repeat split; try (vm_compute; congruence); try (repeat constructor; fail).
    + destruct (proj1 (load_int_addr_iff ([true; false; false] ++ replicate 264 false) std_zero []) ltac:(vm_compute; reflexivity)) as (b & Hb & _). exists b. exact Hb.
    + apply NoDup_cons. split; [intros C; apply elem_of_list_singleton in C; discriminate|]. apply NoDup_singleton.
  - cbn [sendable case_types case_value fst snd all fold_right sendable_key]. repeat split; try (vm_compute; congruence).
    + left. reflexivity.
    + exists [zbits 8 5; zbits 8 (-5)]. split.
      * constructor; [exact (key_int 8 5 ltac:(vm_compute; intuition discriminate))|]. constructor; [exact (key_int 8 (-5) ltac:(vm_compute; intuition discriminate))|constructor].
      * repeat constructor.
Qed.

(** ** What goes wrong with numbers beyond their types *)
(** [AbiValue::Uint] can hold any number.  As an [u64] it is refused, as a hash the high bytes are
    dropped (traits.rs:982-1000). *)
Theorem C75_hash_refuted :
  from_abi (RKey KTHash) (VUint 256 (2 ^ 256 + 7)) = Ok (replicate 31 0 ++ [7]) /\ from_abi (RKey (KTUint W64)) (VUint 64 (2 ^ 64 + 7)) = Err IntOverflow.
Proof. split; vm_compute; reflexivity. Qed.
Print Assumptions C75_hash_refuted.
(** A [varuint4], [varuint8] or [varuint16] becomes an amount that its type cannot hold
    (traits.rs:945-980 ask for 32, 64 and 128 bits, the types have 24, 56 and 120). *)
Theorem C75_amount_refuted utf8 :
  (exists r, from_abi RVarUint24 (VVarUint 4 (2 ^ 24)) = Ok r /\ ~ rust_ok utf8 RVarUint24 r) /\
  (exists r, from_abi RVarUint56 (VVarUint 8 (2 ^ 56)) = Ok r /\ ~ rust_ok utf8 RVarUint56 r) /\
  (exists r, from_abi RTokens (VVarUint 16 (2 ^ 120)) = Ok r /\ ~ rust_ok utf8 RTokens r).
Proof. split; [|split]; (eexists; split; [vm_compute; reflexivity|cbn [rust_ok]; vm_compute; discriminate]). Qed.
Print Assumptions C75_amount_refuted.
(** A [SplitDepth] can be up to 255 and is given the type [uint5], of which it is no value. *)
Theorem C75_split_depth_refuted :
  key_ok KTSplit 40 /\ into_abi (RKey KTSplit) 40 = VUint 5 40 /\ abi_type (RKey KTSplit) = TUint 5 /\ tuple_to_cell yes keep v2_3 [VUint 5 40] = Err IntOverflow.
Proof. split; [vm_compute; intuition discriminate|]. split; [reflexivity|]. split; [reflexivity|]. vm_compute. reflexivity. Qed.
Print Assumptions C75_split_depth_refuted.
