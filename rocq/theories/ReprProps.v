(** * C77: objects come back from bags of cells *)
From Verif Require Import Err BitsProofs NumSpec AddrModel AddrSpec BuilderModel CellModel HashSpec HashModel FcellSpec Sha256 HashProps BocSpec BocModel BocProps Crc32c DictModel ChunkModel ChunkSpec ChunkProofs
  MessageModel MessageSpec MessageProps AccountModel AccountSpec AccountProofs AccountProps TextModel TextSpec TextProofs TextProofs2 HashTextModel HashTextProofs HashTextProofs2 ReprModel ReprSpec ReprProofs.
Local Open Scope nat_scope.

Section Sha.
Context (sha : list N -> list N) (Hsha : sha_like sha) (crc : N -> list N -> N).
(** ** Building *)
(** A tree of cells can be built exactly if its cells have layouts and its depths are within the
    limit; what is built is that tree. *)
Theorem C77_cells t : ((exists c, realize sha t = Ok c) <-> valid_tree t /\ shallow sha t) /\
  (forall c, realize sha t = Ok c -> finalized sha c /\ tree_of c = t).
Proof.
  split.
  - split; [intros (c & E); apply (realize_ok sha Hsha) in E; tauto|]. intros [V S]. apply (realize_exists sha Hsha t V S).
  - intros c E. apply (realize_ok sha Hsha) in E. tauto.
Qed.
(** So this is when a builder with these bits and references can be built. *)
Theorem C77_build bits refs : real_fin sha bits refs = Ok tt <-> valid_tree (Cell false bits refs) /\ shallow sha (Cell false bits refs).
Proof.
  rewrite <- (proj1 (C77_cells (Cell false bits refs))). unfold real_fin. split.
  - destruct (realize sha (Cell false bits refs)) as [c|]; [|discriminate]. intros _. exists c. reflexivity.
  - intros (c & ->). reflexivity.
Qed.

(** ** Objects *)
Lemma bag_of t : baggable sha t -> exists c bytes c', realize sha t = Ok c /\ boc_encode crc c = Ok bytes /\ Forall byte_ok bytes /\ decode crc sha bytes = BOk c' /\ tree_of c' = t.
Proof.
  intros (V & S & D & C). destruct (realize_exists sha Hsha t V S) as (c & E). destruct (realize_ok sha Hsha t c E) as (F & T & _ & _).
  rewrite <- T in D, C. destruct (C15_single sha Hsha crc c F D C) as (bytes & c' & E1 & E2 & E3 & E4).
  exists c, bytes, c'. split; [exact E|]. split; [exact E1|]. split; [apply (boc_encode_ok sha Hsha crc c bytes F D C E1)|]. split; [exact E2|congruence].
Qed.
(** An object that is loaded from what it stores comes back from its bag, from both texts of the
    bag, and from both its serde forms. *)
Theorem C77_object {A} (store : A -> chunk -> res chunk) (load : chunk -> res (A * chunk)) a x rest :
  store a ([], []) = Ok x -> load x = Ok (a, rest) -> baggable sha (Cell false (fst x) (snd x)) ->
  (exists bytes, repr_encode crc sha (store a) = Ok bytes /\ repr_decode crc sha load bytes = ROk a) /\
  (exists hex, repr_encode_hex crc sha (store a) = Ok hex /\ repr_decode_hex crc sha load hex = ROk a) /\
  (exists b64, repr_encode_base64 crc sha (store a) = Ok b64 /\ repr_decode_base64 crc sha load b64 = ROk a) /\
  (forall readable, exists form, serde_object crc sha readable (store a) = Ok form /\ unserde_object crc sha readable load form = Some a).
Proof.
  intros Es El B. destruct (bag_of _ B) as (c & bytes & c' & E1 & E2 & OK & E3 & E4).
  assert (P : parse_object load c' = ROk a). { rewrite (parse_tree load c' _ _ E4). destruct x as [xb xr]. cbn [fst snd]. rewrite El. reflexivity. }
  assert (RC : repr_cell sha (store a) = Ok c) by (unfold repr_cell; rewrite Es; exact E1).
  assert (RE : repr_encode crc sha (store a) = Ok bytes) by (unfold repr_encode; rewrite RC; exact E2).
  assert (RD : repr_decode crc sha load bytes = ROk a) by (unfold repr_decode; rewrite E3; exact P).
  split; [exists bytes; auto|]. split.
  { exists (hex_encode HEX_LOWER bytes). unfold repr_encode_hex, repr_decode_hex. rewrite RE. pose proof (hex_encode_decode false bytes OK) as X. cbn [tab] in X. rewrite X. auto. }
  split. { exists (encode_base64 bytes). unfold repr_encode_base64, repr_decode_base64. rewrite RE, (encode_base64_round bytes OK). auto. }
  intros readable. destruct (cell_object sha crc c bytes c' E2 E3 OK readable) as (form & F1 & F2). exists form. unfold serde_object, unserde_object. rewrite RC. cbn [rbind]. rewrite F2, P. auto.
Qed.
(** Cells themselves come back from their serde forms. *)
Theorem C77_cell_serde c readable : finalized sha c -> distinct_hashes sha [tree_of c] -> countable_cells [tree_of c] ->
  exists form c', serde_cell crc readable c = Ok form /\ unserde_cell crc sha readable form = Some c' /\ tree_of c' = tree_of c /\ finalized sha c'.
Proof.
  intros F D C. destruct (C15_single sha Hsha crc c F D C) as (bytes & c' & E1 & E2 & E3 & E4).
  destruct (cell_object sha crc c bytes c' E1 E2 (boc_encode_ok sha Hsha crc c bytes F D C E1) readable) as (form & F1 & F2). exists form, c'. auto.
Qed.
(** What is read as an object: exactly the bags that decode to an ordinary cell with the object in
    front; whatever follows it in the cell is not looked at. *)
Theorem C77_read {A} (load : chunk -> res (A * chunk)) data a : repr_decode crc sha load data = ROk a <->
  exists c bits refs rest, decode crc sha data = BOk c /\ tree_of c = Cell false bits refs /\ load (bits, refs) = Ok (a, rest).
Proof.
  unfold repr_decode. destruct (decode crc sha data) as [c|e].
  2:{ split; [discriminate|]. intros (c & ? & ? & ? & E & _). discriminate. }
  split.
  - intros H. destruct (tree_of c) as [ex bits refs] eqn:T. destruct ex.
    { unfold parse_object in H. rewrite T in H. discriminate. }
    rewrite (parse_tree load c bits refs T) in H. destruct (load (bits, refs)) as [[a' rest]|] eqn:L; [|discriminate]. injection H as ->.
    exists c, bits, refs, rest. auto.
  - intros (c' & bits & refs & rest & E & T & L). injection E as <-. rewrite (parse_tree load c bits refs T), L. reflexivity.
Qed.
(** An exotic root is never an object. *)
Theorem C77_exotic {A} (load : chunk -> res (A * chunk)) data c : decode crc sha data = BOk c -> c_exotic (tree_of c) = true ->
  repr_decode crc sha load data = InvalidObject UnexpectedExoticCell.
Proof. intros E X. unfold repr_decode, parse_object, as_slice. rewrite E, X. reflexivity. Qed.

(** The texts are those of the bag, and only texts of such bags are read; so for the serde forms. *)
Theorem C77_texts {A} (store : chunk -> res chunk) (load : chunk -> res (A * chunk)) bytes text a : repr_encode crc sha store = Ok bytes ->
  repr_encode_hex crc sha store = Ok (hex_encode HEX_LOWER bytes) /\ repr_encode_base64 crc sha store = Ok (encode_base64 bytes) /\
  serde_object crc sha true store = Ok (encode_base64 bytes) /\ serde_object crc sha false store = Ok bytes /\
  (repr_decode_hex crc sha load text = ROk a <-> exists data, hex_decode text = Some data /\ repr_decode crc sha load data = ROk a) /\
  (repr_decode_base64 crc sha load text = ROk a <-> exists data, decode_base64 text = Some data /\ repr_decode crc sha load data = ROk a) /\
  (unserde_object crc sha true load text = Some a <-> repr_decode_base64 crc sha load text = ROk a) /\
  (unserde_object crc sha false load text = Some a <-> repr_decode crc sha load text = ROk a).
Proof.
  intros E. unfold repr_encode_hex, repr_encode_base64. rewrite E. split; [reflexivity|]. split; [reflexivity|].
  unfold repr_encode in E. unfold serde_object, serde_cell. destruct (repr_cell sha store) as [c|]; [|discriminate]. cbn [rbind] in E |- *. rewrite E.
  split; [reflexivity|]. split; [reflexivity|].
  assert (U : forall x, match match decode crc sha x with BOk c => Some c | BErr _ => None end with Some c => match parse_object load c with ROk b => Some b | _ => None end | None => None end = Some a <-> repr_decode crc sha load x = ROk a).
  { intros x. unfold repr_decode. destruct (decode crc sha x) as [c'|]; [|split; discriminate]. destruct (parse_object load c'); split; congruence. }
  split. { unfold repr_decode_hex. destruct (hex_decode text) as [d|]; [|split; [discriminate|intros (? & ? & _); discriminate]]. split; [eauto|]. intros (? & [= <-] & H). exact H. }
  split. { unfold repr_decode_base64. destruct (decode_base64 text) as [d|]; [|split; [discriminate|intros (? & ? & _); discriminate]]. split; [eauto|]. intros (? & [= <-] & H). exact H. }
  split; [|apply U]. unfold unserde_object, unserde_cell, repr_decode_base64. destruct (decode_base64 text) as [d|]; [apply U|split; discriminate].
Qed.
(** Whatever is encoded was stored without an error into cells that can be built. *)
Theorem C77_encode store bytes : repr_encode crc sha store = Ok bytes ->
  exists x c, store ([], []) = Ok x /\ valid_tree (Cell false (fst x) (snd x)) /\ shallow sha (Cell false (fst x) (snd x)) /\
    finalized sha c /\ tree_of c = Cell false (fst x) (snd x) /\ boc_encode crc c = Ok bytes.
Proof.
  unfold repr_encode, repr_cell. destruct (store ([], [])) as [x|]; [|discriminate]. cbn [rbind]. intros E.
  destruct (realize sha (Cell false (fst x) (snd x))) as [c|] eqn:R; [|discriminate]. cbn [rbind] in E.
  destruct (realize_ok sha Hsha _ c R) as (F & T & V & S). exists x, c. auto 10.
Qed.

(** ** Messages and accounts *)
(** A message that has a layout within the limits of a cell comes back, with its layout. *)
Theorem C77_message m x : message_c no_tail (info_c var_uint_bits) m x -> MessageSpec.accepted (real_fin sha) m -> MessageSpec.fits x ->
  baggable sha (Cell false (fst x) (snd x)) ->
  exists bytes, repr_encode crc sha (store_msg (real_fin sha) m) = Ok bytes /\ repr_decode crc sha load_msg bytes = ROk m.
Proof.
  intros H A [F1 F2] B. assert (E : store_msg (real_fin sha) m ([], []) = Ok x).
  { rewrite (C53_store (real_fin sha) m x H A) by (split; cbn; lia). cbn [fst snd length]. 
    destruct (_ || _) eqn:G; [exfalso|rewrite nil_capp; reflexivity].
    apply orb_true_iff in G as [G|G]; apply Nat.ltb_lt in G; cbn in G; lia. }
  destruct (C53_round_trip (real_fin sha) m x x H A E) as [_ L].
  destruct (C77_object (store_msg (real_fin sha)) load_msg m x ([], []) E L B) as (R & _). exact R.
Qed.
(** So does an account, or its absence. *)
Theorem C77_account a x : optional_c var_uint_bits a x -> MessageSpec.fits x -> baggable sha (Cell false (fst x) (snd x)) ->
  exists bytes, repr_encode crc sha (store_optional a) = Ok bytes /\ repr_decode crc sha load_optional bytes = ROk a.
Proof.
  intros H [F1 F2] B. assert (E : store_optional a ([], []) = Ok x).
  { rewrite (C54_store_account a x H) by (split; cbn; lia).
    destruct (_ || _) eqn:G; [exfalso|rewrite nil_capp; reflexivity].
    apply orb_true_iff in G as [G|G]; apply Nat.ltb_lt in G; cbn in G; lia. }
  assert (L : exists rest, load_optional x = Ok (a, rest)).
  { exists ([], []). apply reads_optional. exists x. split; [|symmetry; apply capp_nil]. eapply maybe_mono; [apply account_loose|exact H]. }
  destruct L as (rest & L). destruct (C77_object store_optional load_optional a x rest E L B) as (R & _). exact R.
Qed.
End Sha.
Print Assumptions C77_cells.
Print Assumptions C77_build.
Print Assumptions C77_object.
Print Assumptions C77_cell_serde.
Print Assumptions C77_read.
Print Assumptions C77_exotic.
Print Assumptions C77_texts.
Print Assumptions C77_encode.
Print Assumptions C77_message.
Print Assumptions C77_account.

(** ** Where the properties fail *)
(** Encoding what was decoded need not give the bag back: a byte is read from a cell with two. *)
Theorem C77_trailing_refuted : exists data, repr_decode crc32c_append sha256 (load_un 8) data = ROk 7%N /\
  repr_encode crc32c_append sha256 (store_un 8 7%N) <> Ok data.
Proof.
  exists [0xb5; 0xee; 0x9c; 0x72; 1; 1; 1; 1; 0; 4; 0; 0; 4; 7; 9]%N. split; vm_compute; [reflexivity|discriminate].
Qed.
Print Assumptions C77_trailing_refuted.

(** ** The hypotheses can be met *)
Lemma baggable_by t c l : realize sha256 t = Ok c -> incl [t] l -> (forall s, In s l -> incl (c_refs s) l) -> nodup_hashes (map (t_hash sha256) l) = true -> length l < 1000 -> baggable sha256 t.
Proof.
  intros E H K N L. destruct (realize_ok sha256 C12_sha256 t c E) as (_ & _ & V & S). destruct (distinct_by [t] l H K N L) as [D C]. split; [exact V|]. split; [exact S|]. split; assumption.
Qed.
Lemma cover_chain (t b e : cell) : c_refs t = [b] -> c_refs b = [e] -> c_refs e = [] -> incl [t] [t; b; e] /\ forall s, In s [t; b; e] -> incl (c_refs s) [t; b; e].
Proof.
  intros E1 E2 E3. split; [intros x [<-|[]]; left; reflexivity|].
  intros s [<-|[<-|[<-|[]]]]; rewrite ?E1, ?E2, ?E3; intros x Hx; cbn [In] in Hx |- *; tauto.
Qed.
Definition ex_body : chunk := (replicate 900 true, [Cell false [] []]).
Definition ex_message : message msg_info chunk := Message (MExtIn (ExtIn (Some (ExtAddr 4 [0x90%N])) zero_addr 0)) None ex_body (Some (Layout false true)).
Definition ex_chunk : chunk := match store_msg (real_fin sha256) ex_message ([], []) with Ok x => x | Err _ => ([], []) end.
(** A message with its body in a cell of its own, and no account. *)
Example C77_case : message_c no_tail (info_c var_uint_bits) ex_message ex_chunk /\ MessageSpec.accepted (real_fin sha256) ex_message /\ MessageSpec.fits ex_chunk /\
  baggable sha256 (Cell false (fst ex_chunk) (snd ex_chunk)) /\ load_msg ex_chunk = Ok (ex_message, ([], [])) /\
  (optional_c var_uint_bits None ([false], []) /\ baggable sha256 (Cell false [false] [])).
Proof.
  assert (A : MessageSpec.accepted (real_fin sha256) ex_message).
  { split; [intros s x X; discriminate|]. split; [vm_compute; reflexivity|]. split; cbn [m_body ex_message ex_body fst snd]; [rewrite replicate_length; lia|cbn [length]; lia]. }
  assert (E : store_msg (real_fin sha256) ex_message ([], []) = Ok ex_chunk) by (vm_compute; reflexivity).
  split; [|split; [exact A|split; [|split; [|split; [vm_compute; reflexivity|split]]]]].
  - assert (H : exists x, message_c no_tail (info_c var_uint_bits) ex_message x).
    { eexists. apply message_intro; [|constructor|constructor]. apply info_ext_in. constructor; [|apply zero_addr_c|apply zero_tokens_c]. constructor. apply (ext_some [true; false; false; true]). reflexivity. }
    destruct H as (x & H). destruct (C53_round_trip (real_fin sha256) ex_message x ex_chunk H A E) as [-> _]. exact H.
  - split; vm_compute; lia.
  - destruct (cover_chain (Cell false (fst ex_chunk) (snd ex_chunk)) (Cell false (fst ex_body) (snd ex_body)) (Cell false [] [])) as (C1 & C2); [vm_compute; reflexivity..|].
    assert (R : exists c, realize sha256 (Cell false (fst ex_chunk) (snd ex_chunk)) = Ok c) by (eexists; vm_compute; reflexivity). destruct R as (c & R).
    apply (baggable_by _ c _ R C1 C2); [vm_compute; reflexivity|cbn [length]; lia].
  - constructor.
  - eapply (baggable_by _ _ [Cell false [false] []]); [vm_compute; reflexivity|intros y Hy; exact Hy|intros s [<-|[]] y []|vm_compute; reflexivity|cbn; lia].
Qed.
