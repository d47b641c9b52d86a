(** * C72: initial data and storage fields of contracts are read back as they were given *)
From Verif Require Import Err BitsProofs IntModel NumModel AddrModel AddrSpec CellModel DictModel DictSpec DictProofs DictProps ChunkModel ChunkSpec AbiModel AbiSpec AbiProofs AbiProofs4 AbiProps CallModel CallProofs ConfigProofs InitModel InitSpec InitProofs.
Local Open Scope N_scope.

(** Values that can be read back (C57). *)
Definition tokens_ok (utf8 : list N -> bool) (v : version) (tokens : list (list N * aval)) : Prop :=
  forall name x, (name, x) ∈ tokens -> value_ok utf8 x /\ supported v x.

(** ** Encoding: every field has the value given for it, or else the default of its type; the public key
    is under 0; there is nothing else.  The fields are those declared, without repetition. *)
Theorem C72_encode fin utf8 sorted shuffle leaf k pubkey tokens c :
  (forall A l, Permutation (sorted A l) l) -> (forall l, Permutation (shuffle l) l) -> 2 <= v_major (k_version k) -> fields_ok (k_init k) ->
  tokens_ok utf8 (k_version k) tokens ->
  (forall name key t, (name, (key, t)) ∈ k_init k -> given name tokens = None -> value_ok utf8 (default_value t) /\ supported (k_version k) (default_value t)) ->
  encode_init_data fin sorted shuffle k pubkey tokens = Ok c ->
  decode_init_data utf8 leaf k c = Ok (map (fun '(name, (_, t)) => (name, match given name tokens with Some x => x | None => default_value t end)) (k_init k)) /\
  exists m, init_data (canonical_dict fin) c m /\ m !! 0 = Some (bytes_bits pubkey, []) /\
    forall key, is_Some (m !! key) <-> key = 0 \/ key ∈ map (fun e => fst (snd e)) (k_init k).
Proof.
  intros S Sh V Fo T Df E. pose proof Fo as (Nn & Nk & Hk).
  destruct (encode_eq fin (fun _ => true) sorted k shuffle pubkey tokens c Sh Nn E) as (_ & all & d & d' & U & P & C & G & _).
  destruct (update_fields_ok fin sorted k (canonical_dict fin) (canonical_ok fin) Fo all None d ∅ (stored_empty _) U) as (m & St & M1 & M2).
  pose proof (set_pubkey_inv fin pubkey d d' _ m (canonical_ok fin) St P) as St'.
  destruct (dict_cell_init fin _ d' _ c St' C) as [I Pc]. split.
  - unfold decode_init_data. rewrite Pc. cbn [rbind]. rewrite (read_fields_map utf8 leaf (k_version k) d' (k_init k) (fun name t => match given name tokens with Some x => x | None => default_value t end)).
    + f_equal. apply map_ext. intros [name [key t]]. reflexivity.
    + intros name key t H. destruct (M2 name key t _ H (G name key t H)) as (Ty & b & Eb & Em). rewrite <- Ty at 1.
      assert (Ok2 : value_ok utf8 (match given name tokens with Some x => x | None => default_value t end) /\ supported (k_version k) (match given name tokens with Some x => x | None => default_value t end)).
      { destruct (given name tokens) as [x|] eqn:Gx; [eapply T, given_in, Gx|eapply Df; eassumption]. }
      eapply (read_field_ok fin utf8 sorted leaf S k); [apply canonical_ok|exact V|exact St'|apply (Hk _ _ _ H)|apply Ok2|apply Ok2|exact Eb|]. rewrite lookup_insert_ne; [exact Em|]. pose proof (Hk _ _ _ H). lia.
  - exists (<[0 := (bytes_bits pubkey, [])]> m). split; [exact I|]. split; [apply lookup_insert|]. intros key. destruct (decide (key = 0)) as [->|Ne].
    + rewrite lookup_insert. split; [auto|eauto].
    + rewrite lookup_insert_ne by congruence. split.
      * intros [b B]. right. destruct (decide (key ∈ map (fun e : field => fst (snd e)) (k_init k))) as [X|X]; [exact X|]. rewrite M1, lookup_empty in B; [discriminate|].
        intros name t H. exfalso. apply X. apply elem_of_list_In, in_map_iff. exists (name, (key, t)). split; [reflexivity|apply elem_of_list_In, H].
      * intros [X|X]; [contradiction|]. apply elem_of_list_In, in_map_iff in X. destruct X as ([name [key' t]] & <- & H). apply elem_of_list_In in H. cbn [fst snd].
        destruct (M2 name key' t _ H (G name key' t H)) as (_ & b & _ & Em). eauto.
Qed.
Print Assumptions C72_encode.
(** Values for unknown fields, of other types, or for the same field again are never encoded. *)
Theorem C72_encode_refuses fin sorted shuffle k pubkey tokens c :
  (forall l, Permutation (shuffle l) l) -> NoDup (map fst (k_init k)) -> encode_init_data fin sorted shuffle k pubkey tokens = Ok c ->
  NoDup (map fst tokens) /\ forall name x, (name, x) ∈ tokens -> exists key, (name, (key, type_of x)) ∈ k_init k.
Proof. intros Sh Nn E. destruct (encode_eq fin (fun _ => true) sorted k shuffle pubkey tokens c Sh Nn E) as (N & all & d & d' & _ & _ & _ & _ & K). auto. Qed.
Print Assumptions C72_encode_refuses.

(** ** Updating: the fields given have the value given last, all other entries are untouched, also those
    that are no fields. *)
Definition one_field (k : contract) (f : field) : contract := Contract (k_version k) (k_functions k) (k_events k) [f] (k_fields k).
Theorem C72_update fin utf8 sorted leaf R k pubkey tokens data m c :
  R = plain_dict \/ R = canonical_dict fin ->
  (forall A l, Permutation (sorted A l) l) -> 2 <= v_major (k_version k) -> fields_ok (k_init k) -> tokens_ok utf8 (k_version k) tokens ->
  init_data R data m -> update_init_data fin sorted k pubkey tokens data = Ok c ->
  (forall l, decode_init_data utf8 leaf k data = Ok l -> decode_init_data utf8 leaf k c = Ok (map (fun '(name, x) => (name, match given name tokens with Some y => y | None => x end)) l)) /\
  (forall name key t x, (name, (key, t)) ∈ k_init k -> given name tokens = Some x -> decode_init_data utf8 leaf (one_field k (name, (key, t))) c = Ok [(name, x)]) /\
  exists m', init_data R c m' /\ (forall p, pubkey = Some p -> m' !! 0 = Some (bytes_bits p, [])) /\
    forall key, (key = 0 -> pubkey = None) -> (forall name t, (name, (key, t)) ∈ k_init k -> given name tokens = None) -> m' !! key = m !! key.
Proof.
  intros HR S V Fo T I E. pose proof Fo as (Nn & Nk & Hk).
  assert (Ro : rules_ok fin R) by (destruct HR as [->| ->]; [apply plain_ok|apply canonical_ok]).
  destruct (parse_init R data m I) as (d & Pd & St). unfold update_init_data in E. rewrite Pd in E. cbn [rbind] in E.
  assert (Cases : (c = data /\ pubkey = None /\ tokens = []) \/
    exists d1 d2, update_fields fin sorted k tokens d = Ok d1 /\ (match pubkey with Some p => set_pubkey fin p d1 | None => Ok d1 end) = Ok d2 /\ dict_cell fin d2 = Ok c).
  { destruct pubkey as [p|].
    - right. destruct (update_fields fin sorted k tokens d) as [d1|]; cbn [rbind] in E; [|discriminate]. destruct (set_pubkey fin p d1) as [d2|] eqn:E2; cbn [rbind] in E; [|discriminate]. eauto.
    - destruct tokens as [|tk tokens]; [left; injection E as <-; auto|right]. destruct (update_fields fin sorted k (tk :: tokens) d) as [d1|]; cbn [rbind] in E; [|discriminate]. eauto. }
  clear E. destruct Cases as [(-> & -> & ->)|(d1 & d2 & U & P & C)].
  - split; [|split; [intros name key t x _ [=]|]].
    + intros l ->. f_equal. clear. induction l as [|[n x] l IH]; [reflexivity|]. cbn [map given] in *. congruence.
    + exists m. split; [exact I|]. split; [intros p [=]|reflexivity].
  - destruct (update_fields_ok fin sorted k R Ro Fo tokens d d1 m St U) as (m1 & St1 & M1 & M2).
    assert (X : exists m2, stored R d2 m2 /\ (forall p, pubkey = Some p -> m2 !! 0 = Some (bytes_bits p, [])) /\ forall key, (key = 0 -> pubkey = None) -> m2 !! key = m1 !! key).
    { destruct pubkey as [p|].
      - exists (<[0 := (bytes_bits p, [])]> m1). split; [eapply set_pubkey_inv; eassumption|]. split; [intros q [= <-]; apply lookup_insert|]. intros key Hz. apply lookup_insert_ne. intros <-. specialize (Hz eq_refl). discriminate.
      - injection P as <-. exists m1. split; [exact St1|]. split; [intros p [=]|reflexivity]. }
    destruct X as (m2 & St2 & Pk & M3). destruct (dict_cell_init fin R d2 m2 c St2 C) as [I2 Pc].
    assert (Rd : forall name key t x, (name, (key, t)) ∈ k_init k -> given name tokens = Some x -> read_field utf8 leaf (k_version k) d2 key t = Ok x).
    { intros name key t x H G. destruct (M2 name key t x H G) as (<- & b & Eb & Em). destruct (T name x (given_in _ _ _ G)) as [T1 T2]. pose proof (Hk _ _ _ H) as Hk'.
      eapply (read_field_ok fin utf8 sorted leaf S k R d2 m2); [exact Ro|exact V|exact St2|apply Hk'|exact T1|exact T2|exact Eb|]. rewrite M3; [exact Em|lia]. }
    split; [|split].
    + intros l. unfold decode_init_data. rewrite Pd, Pc. cbn [rbind]. intros L.
      rewrite (read_fields_after utf8 leaf (k_version k) d d2 tokens (k_init k) l); [f_equal; apply map_ext; intros [n x]; reflexivity|exact Rd| |exact L].
      intros name key t H G. pose proof (Hk _ _ _ H) as Hk'. unfold read_field. rewrite (stored_get fin R d2 m2 key Ro St2) by apply Hk'. rewrite (stored_get fin R d m key Ro St) by apply Hk'.
      rewrite M3 by lia. rewrite M1; [reflexivity|]. intros name' t' H'. destruct (key_unique _ name name' key t t' Nk H H') as [<- _]. exact G.
    + intros name key t x H G. unfold decode_init_data. rewrite Pc. cbn [rbind one_field k_init k_version read_fields]. rewrite (Rd name key t x H G). reflexivity.
    + exists m2. split; [exact I2|]. split; [exact Pk|]. intros key Hz Hn. rewrite M3 by exact Hz. apply M1, Hn.
Qed.
Print Assumptions C72_update.
Theorem C72_update_refuses fin sorted k pubkey tokens data c : update_init_data fin sorted k pubkey tokens data = Ok c ->
  forall name x, (name, x) ∈ tokens -> exists key, (name, (key, type_of x)) ∈ k_init k.
Proof.
  unfold update_init_data. destruct (parse_dict data) as [d|]; cbn [rbind]; [|discriminate]. intros E name x H. destruct tokens as [|tk tokens]; [inversion H|].
  assert (X : exists d1, update_fields fin sorted k (tk :: tokens) d = Ok d1) by (destruct pubkey; destruct (update_fields fin sorted k (tk :: tokens) d) as [d1|]; cbn [rbind] in E; (discriminate || eauto)).
  destruct X as (d1 & U). eapply update_fields_known; eassumption.
Qed.
Print Assumptions C72_update_refuses.

(** ** Decoding gives every declared field, in the order of the declarations, or fails if one is missing. *)
Theorem C72_decode fin utf8 leaf R k data m l : R = plain_dict \/ R = canonical_dict fin -> fields_ok (k_init k) -> init_data R data m -> decode_init_data utf8 leaf k data = Ok l ->
  map fst l = map fst (k_init k) /\ forall name key t, (name, (key, t)) ∈ k_init k -> exists b x, m !! key = Some b /\ (name, x) ∈ l /\ whole false (load utf8 (k_version k) t true false) (Sl (leaf b) (fst b) (snd b)) = Ok x.
Proof.
  intros HR (_ & _ & Hk) I. assert (Ro : rules_ok fin R) by (destruct HR as [->| ->]; [apply plain_ok|apply canonical_ok]).
  destruct (parse_init R data m I) as (d & Pd & St). unfold decode_init_data. rewrite Pd. cbn [rbind]. intros L. destruct (read_fields_all utf8 leaf _ d _ l L) as [A B]. split; [exact A|].
  intros name key t H. destruct (B name key t H) as (x & Rx & Hx). unfold read_field in Rx. rewrite (stored_get fin R d m key Ro St) in Rx by apply (Hk _ _ _ H). cbn [rbind] in Rx.
  destruct (m !! key) as [b|]; [|discriminate]. exists b, x. auto.
Qed.
Print Assumptions C72_decode.

(** ** Default values are values of their types. *)
Theorem C72_default utf8 t : type_of (default_value t) = t /\ (utf8 [] = true -> type_ok t -> value_ok utf8 (default_value t)).
Proof. split; [apply default_type|apply default_ok]. Qed.
Print Assumptions C72_default.

(** ** Storage fields *)
Theorem C72_fields fin utf8 sorted k tokens b c :
  (forall A l, Permutation (sorted A l) l) -> 2 <= v_major (k_version k) -> (forall x, x ∈ tokens -> value_ok utf8 x /\ supported (k_version k) x) ->
  encode_fields fin sorted k tokens = Ok b -> build fin b = Ok c ->
  map type_of tokens = k_fields k /\ decode_fields utf8 k false (Sl c (c_bits c) (c_refs c)) = Ok tokens.
Proof.
  intros S V O. unfold encode_fields. destruct (check_types tokens (k_fields k)) as [[]|] eqn:Ct; cbn [rbind]; [|discriminate]. apply check_types_iff in Ct. intros Eb Ec. split; [exact Ct|].
  pose proof (C57_tuple fin utf8 sorted (k_version k) tokens c S V O) as X. unfold tuple_to_cell in X. rewrite Eb in X. specialize (X Ec).
  unfold load_tuple, as_slice in X. unfold build in Ec. destruct (fin (fst b) (snd b)); cbn [rbind] in Ec; [|discriminate]. injection Ec as <-. cbn [c_exotic rbind c_bits c_refs] in *. rewrite Ct in X. exact X.
Qed.
Print Assumptions C72_fields.
Theorem C72_fields_refuses fin sorted k tokens : map type_of tokens <> k_fields k -> encode_fields fin sorted k tokens = Err InvalidData.
Proof. intros H. unfold encode_fields. rewrite (check_types_no _ _ H). reflexivity. Qed.
Print Assumptions C72_fields_refuses.

(** ** Functions and events by identifiers *)
Theorem C72_find k id :
  (forall f, find_function_by_id k id true = Some f -> f ∈ k_functions k /\ f_input_id f = id) /\
  (forall f, find_function_by_id k id false = Some f -> f ∈ k_functions k /\ f_output_id f = id) /\
  (forall e, find_event_by_id k id = Some e -> e ∈ k_events k /\ e_id e = id) /\
  (find_function_by_id k id true = None <-> forall f, f ∈ k_functions k -> f_input_id f <> id) /\
  (find_function_by_id k id false = None <-> forall f, f ∈ k_functions k -> f_output_id f <> id) /\
  (find_event_by_id k id = None <-> forall e, e ∈ k_events k -> e_id e <> id).
Proof.
  unfold find_function_by_id, find_event_by_id. cbn [negb andb orb].
  assert (X : forall {A} (g : A -> N) l, (forall f, List.find (fun f => g f =? id) l = Some f -> f ∈ l /\ g f = id) /\ (List.find (fun f => g f =? id) l = None <-> forall f, f ∈ l -> g f <> id)).
  { intros A g l. split.
    - intros f E. apply List.find_some in E. rewrite N.eqb_eq in E. rewrite elem_of_list_In. exact E.
    - split; [intros E f H; apply N.eqb_neq; apply (List.find_none _ _ E), elem_of_list_In, H|]. intros H. induction l as [|f l IH]; cbn [List.find]; [reflexivity|].
      destruct (N.eqb_spec (g f) id) as [E|_]; [exfalso; apply (H f); [left|exact E]|]. apply IH. intros f' Hf. apply H. right. exact Hf. }
  assert (Y : forall l, List.find (fun f => (f_input_id f =? id) || false) l = List.find (fun f => f_input_id f =? id) l).
  { induction l as [|f l IH]; cbn [List.find]; [reflexivity|]. rewrite orb_false_r, IH. reflexivity. }
  rewrite Y. split; [apply (X func f_input_id)|]. split; [apply (X func f_output_id)|]. split; [apply (X event e_id)|]. split; [apply (X func f_input_id)|]. split; [apply (X func f_output_id)|apply (X event e_id)].
Qed.
Print Assumptions C72_find.

(** ** A case *)
Definition same {A} (l : list A) : list A := l.
Definition any_leaf (b : chunk) : cell := Cell false [] [].
Definition some_fields : list field := [([97], (1, TUint 32)); ([98], (5, TTuple [TBool; TCell])); ([99], (2 ^ 64 - 1, TMap (PUint 8) TBool)); ([100], (7, TString))].
Definition some_contract : contract := Contract v2_3 [] [] some_fields [TUint 64; TBool; TOpt TCell].
Definition some_tokens : list (list N * aval) := [([100], VString [104; 105]); ([97], VUint 32 77)].
Definition pubkey_9 : list N := replicate 32 9.
Lemma some_fields_ok : fields_ok some_fields.
Proof.
  split; [apply (bool_decide_unpack _); vm_compute; exact Logic.I|]. split; [apply (bool_decide_unpack _); vm_compute; exact Logic.I|].
  intros name key t H. unfold some_fields in H. repeat (apply elem_of_cons in H; destruct H as [H|H]; [injection H as _ -> _; split; reflexivity|]). inversion H.
Qed.
Example C72_case :
  fields_ok some_fields /\ tokens_ok any_text v2_3 some_tokens /\
  (forall name key t, (name, (key, t)) ∈ some_fields -> given name some_tokens = None -> value_ok any_text (default_value t) /\ supported v2_3 (default_value t)) /\
  (exists c, encode_init_data yes keep same some_contract pubkey_9 some_tokens = Ok c /\
    decode_init_data any_text any_leaf some_contract c = Ok [([97], VUint 32 77); ([98], VTuple [VBool false; VCell (Cell false [] [])]); ([99], VMap (PUint 8) TBool []); ([100], VString [104; 105])] /\
    exists c', update_init_data yes keep some_contract None [([97], VUint 32 1); ([98], VTuple [VBool true; VCell (byte_cell 3)]); ([97], VUint 32 2)] c = Ok c' /\
      decode_init_data any_text any_leaf some_contract c' = Ok [([97], VUint 32 2); ([98], VTuple [VBool true; VCell (byte_cell 3)]); ([99], VMap (PUint 8) TBool []); ([100], VString [104; 105])]) /\
  (exists b c, encode_fields yes keep some_contract [VUint 64 5; VBool true; VOpt TCell (Some (VCell (byte_cell 1)))] = Ok b /\ build yes b = Ok c).
Proof.
  split; [exact some_fields_ok|]. split; [|split; [|split]].
  - intros name x H. unfold some_tokens in H. repeat (apply elem_of_cons in H; destruct H as [H|H]; [injection H as _ ->; split; try exact Logic.I; try reflexivity|]); [|inversion H..].
    split; [repeat constructor|reflexivity].
  - intros name key t H _. unfold some_fields in H.
    repeat (apply elem_of_cons in H; destruct H as [H|H]; [injection H as _ _ ->; split; [apply default_ok; [reflexivity|cbn; tauto]|]|]); try inversion H; cbn; repeat split; try reflexivity; try discriminate; auto.
  - eexists. split; [vm_compute; reflexivity|]. split; [vm_compute; reflexivity|]. eexists. split; vm_compute; reflexivity.
  - do 2 eexists. split; vm_compute; reflexivity.
Qed.

(** ** What does not hold *)
(** A field with the key 0 is overwritten by the public key, without an error. *)
Theorem C72_key_0_refuted : exists k c, k = Contract v2_3 [] [] [([97], (0, TUint 256))] [] /\
  encode_init_data yes keep same k pubkey_9 [([97], VUint 256 5)] = Ok c /\ decode_init_data any_text any_leaf k c = Ok [([97], VUint 256 (bval (bytes_bits pubkey_9)))] /\ bval (bytes_bits pubkey_9) <> 5.
Proof. do 2 eexists. split; [reflexivity|]. split; [vm_compute; reflexivity|]. split; [vm_compute; reflexivity|vm_compute; discriminate]. Qed.
Print Assumptions C72_key_0_refuted.
(** Values are put into the dictionary as they are: one that fills its cell, which is stored elsewhere
    behind a reference, is refused. *)
Theorem C72_large_refuted :
  let k := Contract v2_3 [] [] [([97], (1, TTuple [TUint 256; TUint 256; TUint 256; TUint 250]))] [TTuple [TUint 256; TUint 256; TUint 256; TUint 250]] in
  let x := VTuple [VUint 256 1; VUint 256 2; VUint 256 3; VUint 250 4] in
  value_ok any_text x /\ supported v2_3 x /\ encode_init_data yes keep same k pubkey_9 [([97], x)] = Err CellOverflow /\ exists b, encode_fields yes keep k [x] = Ok b.
Proof. cbv zeta. split; [vm_compute; repeat split|]. split; [cbn; repeat split; discriminate|]. split; [vm_compute; reflexivity|eexists; vm_compute; reflexivity]. Qed.
Print Assumptions C72_large_refuted.
