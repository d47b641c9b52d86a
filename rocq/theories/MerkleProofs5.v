(** * Storing and loading Merkle proofs, proofs for one cell, virtual views. *)
From Verif Require Import Err BuilderModel CellBuilderModel SliceModel SliceSpec BuilderSpec CellModel HashSpec HashModel FcellSpec MerkleModel MerkleSpec
  BitsProofs BufProofs BuilderProofs CellBuilderProofs HashProofs HashProofs2 HashProofs3 MerkleProofs MerkleProofs2 MerkleProofs3 MerkleProofs4 BocProofs5.
Local Open Scope nat_scope.

Section Sha.
Context (sha : list N -> list N) (Hsha : sha_like sha).

Lemma build_ext_refs exotic b refs c : build_ext sha exotic b refs = Ok c -> f_refs c = refs \/ f_d1 c = 0%N.
Proof.
  unfold build_ext, finalize_cell. destruct (tag_data b); cbn [rbind]; [|discriminate]. destruct (compute_hashes _ _ _ _ _ _ _); cbn [rbind]; [|discriminate].
  destruct (_ && _); intros E; injection E as <-; auto.
Qed.

(** The bytes of a Merkle proof cell. *)
Definition proof_bytes (h : list N) (d : N) : list N := [3%N] ++ h ++ to_be 2 d.
Definition proof_tree_of (h : list N) (d : N) (x : cell) : cell := Cell true (bytes_bits (proof_bytes h d)) [x].
Lemma proof_bytes_ok h d : Forall byte_ok h -> Forall byte_ok (proof_bytes h d).
Proof. intros H. unfold proof_bytes. constructor; [unfold byte_ok; lia|]. apply Forall_app. split; [exact H|apply to_be_ok]. Qed.
Lemma proof_tree_valid h d x : Forall byte_ok h -> length h = 32 -> valid_tree x -> valid_tree (proof_tree_of h d x) /\ kind_of true (bytes_bits (proof_bytes h d)) = KProof.
Proof.
  intros H L V. pose proof (proof_bytes_ok h d H) as B. assert (LB : length (proof_bytes h d) = 35) by (unfold proof_bytes; rewrite !app_length, to_be_length, L; reflexivity).
  assert (B0 : byte_at 0 (bytes_bits (proof_bytes h d)) = 3%N) by (apply byte_at_bytes; [exact B|reflexivity]).
  assert (K : kind_of true (bytes_bits (proof_bytes h d)) = KProof) by (unfold kind_of; rewrite B0; reflexivity).
  split; [|exact K]. constructor.
  - rewrite length_bytes_bits, LB. lia.
  - cbn. lia.
  - rewrite K. cbn [layout length]. rewrite length_bytes_bits, LB. auto.
  - constructor; [exact V|constructor].
Qed.
Lemma proof_cell_spec p : finalized sha (mp_cell p) -> Forall byte_ok (mp_hash p) -> length (mp_hash p) = 32 -> (mp_depth p < 65536)%N ->
  let t := proof_tree_of (mp_hash p) (mp_depth p) (tree_of (mp_cell p)) in
  (~ too_deep sha t /\ exists c, proof_cell sha p = Ok c /\ finalized sha c /\ tree_of c = t /\ f_refs c = [mp_cell p]) \/
  (too_deep sha t /\ proof_cell sha p = Err DepthOverflow).
Proof.
  intros F H L D. cbn zeta.
  destruct (proof_tree_valid (mp_hash p) (mp_depth p) _ H L (fin_valid sha Hsha _ F)) as (V & K).
  destruct (built_ops sha true [B_u8 (type_byte MerkleProof); B_u256 (mp_hash p); B_u16 (mp_depth p); B_ref (mp_cell p)]
    [(nbits 8 3, []); (bytes_bits (mp_hash p), []); (nbits 16 (mp_depth p), []); ([], [mp_cell p])]) as (b & HB & E).
  - repeat constructor; try assumption; try (vm_compute; reflexivity).
  - repeat constructor.
  - cbn [map concat fst]. rewrite !app_length, !length_nbits, length_bytes_bits, L. cbn. lia.
  - cbn. lia.
  - cbn [map concat fst snd app] in HB, E. unfold proof_cell. rewrite E.
    assert (EB : nbits 8 3 ++ bytes_bits (mp_hash p) ++ nbits 16 (mp_depth p) ++ [] = bytes_bits (proof_bytes (mp_hash p) (mp_depth p))).
    { unfold proof_bytes. rewrite !bytes_bits_app, app_nil_r. rewrite bytes_bits_to_be. reflexivity. }
    cbn [app] in HB. rewrite EB in HB.
    destruct (build_spec sha Hsha true b _ [mp_cell p] HB ltac:(constructor; [exact F|constructor]) ltac:(cbn; lia)) as [(_ & ND & c & Ec & Fc & Tc & _)|[(_ & TD & Ec)|(NV & _)]]; cbn [map] in *.
    + left. split; [exact ND|]. exists c. split; [exact Ec|]. split; [exact Fc|]. split; [exact Tc|].
      destruct (build_ext_refs _ _ _ _ Ec) as [R|R]; [exact R|]. exfalso.
      destruct (fin_facts sha c Fc) as (bits' & T' & _). rewrite T' in Tc. injection Tc as X _ _. rewrite R in X. discriminate X.
    + right. auto.
    + exfalso. apply NV. exact V.
Qed.

Lemma load_proof_ok c h d x : finalized sha c -> Forall byte_ok h -> length h = 32 -> (d < 65536)%N ->
  tree_of c = proof_tree_of h d (tree_of x) -> f_refs c = [x] ->
  f_hash x 0 = Ok h -> f_depth x 0 = Ok d -> load_proof c = Ok (MProof h d x).
Proof.
  intros F H L D T R HH HD. destruct (fin_facts sha c F) as (bits & T' & ED & EL & _). rewrite T' in T. injection T as EX EB _.
  pose proof (proof_bytes_ok h d H) as B. assert (LB : length (proof_bytes h d) = 35) by (unfold proof_bytes; rewrite !app_length, to_be_length, L; reflexivity).
  rewrite EB in ED, EL. rewrite data_bytes_aligned in ED by exact B. rewrite length_bytes_bits, LB in EL.
  unfold load_proof. rewrite EX, EL, R, ED. cbn [negb length]. change (N.of_nat (8 * 35) =? 280)%N with true. change (N.of_nat 1 =? 1)%N with true. cbn [negb orb].
  change (rd (proof_bytes h d) 0) with (Some 3%N). cbn [of_opt rbind]. change (3 =? type_byte MerkleProof)%N with true. cbn [negb].
  rewrite rdn_some by lia. rewrite rdn_some by lia. cbn [of_opt rbind].
  assert (E1 : take 32 (drop 1 (proof_bytes h d)) = h).
  { unfold proof_bytes. cbn [app]. rewrite skipn_cons, drop_0, <- L. apply take_app. }
  assert (E2 : take 2 (drop 33 (proof_bytes h d)) = to_be 2 d).
  { unfold proof_bytes. cbn [app]. rewrite skipn_cons, drop_app_alt by (symmetry; exact L). apply take_ge. rewrite to_be_length. lia. }
  rewrite E1, E2. change ([x] !! 0) with (Some x). cbn [of_opt rbind]. rewrite HH, HD. cbn [rbind].
  rewrite from_be_to_be by (change (2 ^ N.of_nat (8 * 2))%N with 65536%N; exact D).
  rewrite bool_decide_true by reflexivity. rewrite N.eqb_refl. reflexivity.
Qed.
Lemma load_proof_inv c p : finalized sha c -> load_proof c = Ok p ->
  finalized sha (mp_cell p) /\ f_refs c = [mp_cell p] /\ f_hash (mp_cell p) 0 = Ok (mp_hash p) /\ f_depth (mp_cell p) 0 = Ok (mp_depth p) /\
  tree_of c = proof_tree_of (mp_hash p) (mp_depth p) (tree_of (mp_cell p)).
Proof.
  intros F. destruct (fin_facts sha c F) as (bits & T & ED & EL & LB & FR & _). unfold load_proof.
  destruct (d_exotic (f_d1 c)) eqn:X; cbn [negb]; [|discriminate].
  destruct (N.eqb_spec (f_bit_len c) 280) as [BL|]; cbn [negb orb]; [|discriminate].
  destruct (N.eqb_spec (N.of_nat (length (f_refs c))) 1) as [RL|]; cbn [negb]; [|discriminate].
  rewrite ED. assert (LN : length bits = 280) by lia. assert (LD : length (data_bytes bits) = 35) by (rewrite length_data, LN; reflexivity).
  destruct (rd (data_bytes bits) 0) as [tag|] eqn:RD; cbn [of_opt rbind]; [|discriminate].
  destruct (N.eqb_spec tag (type_byte MerkleProof)) as [ET|]; cbn [negb]; [|discriminate].
  rewrite rdn_some by lia. rewrite rdn_some by lia. cbn [of_opt rbind].
  destruct (f_refs c) as [|x [|]] eqn:R; try (cbn [length] in RL; lia). change ([x] !! 0) with (Some x). cbn [of_opt rbind].
  destruct (f_hash x 0) as [h0|] eqn:HH; cbn [rbind]; [|discriminate]. destruct (f_depth x 0) as [d0|] eqn:HD; cbn [rbind]; [|discriminate].
  destruct (bool_decide_reflect (h0 = take 32 (drop 1 (data_bytes bits)))) as [E1|]; cbn [andb]; [|discriminate].
  destruct (N.eqb_spec d0 (from_be (take 2 (drop 33 (data_bytes bits))))) as [E2|]; [|discriminate].
  intros E. injection E as <-. cbn [mp_cell mp_hash mp_depth]. split; [inversion FR; assumption|]. split; [reflexivity|].
  split; [congruence|]. split; [congruence|]. rewrite T. unfold proof_tree_of. cbn [map]. f_equal.
  rewrite <- (data_bits_take bits) at 1. rewrite LN. change 280 with (8 * 35). rewrite <- LD, <- length_bytes_bits, firstn_all. f_equal.
  assert (LT : length (take 2 (drop 33 (data_bytes bits))) = 2) by (rewrite take_length, drop_length, LD; reflexivity).
  assert (EB : to_be 2 (from_be (take 2 (drop 33 (data_bytes bits)))) = take 2 (drop 33 (data_bytes bits))).
  { apply to_be_from_be; [apply Forall_take, Forall_drop, data_bytes_ok|exact LT]. }
  unfold proof_bytes. rewrite EB. destruct (data_bytes bits) as [|b0 rest] eqn:EQ; [discriminate LD|].
  cbn [app]. rewrite skipn_cons, drop_0. unfold rd in RD. cbn in RD. injection RD as ->. rewrite ET. change (type_byte MerkleProof) with 3%N. f_equal.
  rewrite skipn_cons. rewrite <- (take_drop 32 rest) at 1. f_equal. rewrite take_ge; [reflexivity|]. rewrite drop_length. cbn [length] in LD. lia.
Qed.

(** ** Paths *)
Definition in_tree (x c : cell) : Prop := x = c \/ exists d, occurs d x c.
Fixpoint path_cells (c : cell) (path : list nat) : list cell :=
  match path with
  | [] => []
  | i :: path' => match c_refs c !! i with Some x => x :: path_cells x path' | None => [] end
  end.
Lemma at_path_occurs path : forall c x, path <> [] -> at_path c path = Some x -> exists d, occurs d x c.
Proof.
  induction path as [|i path IH]; intros c x NE E; [contradiction|]. cbn [at_path] in E. destruct (c_refs c !! i) as [y|] eqn:L; [|discriminate].
  apply elem_of_list_lookup_2, elem_of_list_In in L. destruct path as [|j path]; [injection E as <-; eexists; constructor; exact L|].
  destruct (IH y x ltac:(discriminate) E) as (d & O). eexists. eapply occurs_deep; eassumption.
Qed.
Lemma occurs_at_path d x c : occurs d x c -> exists path, path <> [] /\ at_path c path = Some x.
Proof.
  induction 1 as [x c I|d x y c I O (path & NE & E)]; apply elem_of_list_In, elem_of_list_lookup_1 in I; destruct I as (i & L).
  - exists [i]. split; [discriminate|]. cbn [at_path]. rewrite L. reflexivity.
  - exists (i :: path). split; [discriminate|]. cbn [at_path]. rewrite L. exact E.
Qed.

(** A path through kept cells. *)
Section Filter.
Context (check : list N -> action) (big : bool).
Lemma keep_path path : forall d c x, at_path c path = Some x -> Forall (fun y => treat sha check big y = Keep) (path_cells c path) ->
  exists d', at_path (keep sha check big d c) path = Some (keep sha check big d' x).
Proof.
  induction path as [|i path IH]; intros d c x E F; [injection E as <-; exists d; reflexivity|].
  cbn [at_path path_cells] in *. destruct (c_refs c !! i) as [y|] eqn:L; [|discriminate]. inversion F as [|? ? K F']; subst.
  rewrite keep_eq. cbn [c_refs]. rewrite list_lookup_fmap, L. cbn [fmap option_fmap option_map]. unfold treated. rewrite K. apply IH; assumption.
Qed.
(** Where a proof tree has a cell, the original tree has one with the same view from below. *)
Lemma keep_path_back path : forall b c q, valid_tree c -> depths_fit sha c -> cuts_ok sha check big b c ->
  at_path (keep sha check big (b + c_merkle c) c) path = Some q ->
  exists x, at_path c path = Some x /\ exists b', b <= b' /\ faithful sha b' x q.
Proof.
  induction path as [|i path IH]; intros b c q V D CO E.
  - injection E as <-. exists c. split; [reflexivity|]. exists b. split; [lia|]. apply keep_faithful; assumption.
  - cbn [at_path] in *. rewrite keep_eq in E. cbn [c_refs] in E. rewrite list_lookup_fmap in E.
    destruct (c_refs c !! i) as [y|] eqn:L; [|discriminate]. cbn [fmap option_fmap option_map] in E.
    apply elem_of_list_lookup_2, elem_of_list_In in L.
    pose proof (valid_child _ _ V L) as Vy. pose proof (depths_fit_child sha _ _ D L) as Dy.
    unfold treated in E. destruct (treat sha check big y) eqn:T.
    + (* cut: a leaf *)
      assert (P : prunable sha (b + c_merkle c) y) by (apply CO; [constructor; exact L|exact T]).
      destruct path as [|j path]; [|discriminate E]. injection E as <-. exists y. split; [reflexivity|]. exists (b + c_merkle c). split; [lia|].
      split; [apply pruned_valid; try assumption; apply Dy|].
      destruct (pruned_info sha Hsha y (b + c_merkle c) Vy P (proj1 Dy)) as (_ & S & A). split; [exact S|].
      intros l. destruct (le_lt_dec l (b + c_merkle c)) as [Q|Q]; [destruct (proj2 S l Q) as (_ & ->); lia|]. destruct (A l Q) as (_ & ->). lia.
    + destruct (IH (b + c_merkle c) y q Vy Dy ltac:(eapply cuts_ok_child; eassumption) E) as (x & E' & b' & Hb & F').
      exists x. split; [exact E'|]. exists b'. split; [lia|exact F'].
    + (* a whole subtree *)
      exists q. split; [exact E|]. exists b. split; [lia|]. split; [|split; [apply same_upto_refl|intros; lia]].
      destruct path as [|j path]; [injection E as <-; exact Vy|]. destruct (at_path_occurs (j :: path) y q ltac:(discriminate) E) as (d & O). eapply occurs_valid; eassumption.
Qed.
End Filter.

(** ** Proofs for one cell *)
Definition find_loop (target : list N) (c : fcell) :=
  fix go (rs : list fcell) : res (option (list fcell)) :=
     match rs with
     | [] => Ok None
     | child :: rs' =>
       let? h := f_repr_hash child in
       if bool_decide (h = target) then Ok (Some [c])
       else
         let? found := find_path target child in
         match found with
         | Some path => Ok (Some (c :: path))
         | None => go rs'
         end
     end.
Lemma find_path_eq target c : find_path target c = find_loop target c (f_refs c).
Proof. destruct c. reflexivity. Qed.
Lemma find_path_spec target c : finalized sha c ->
  (exists cells pi x, find_path target c = Ok (Some cells) /\ Forall (finalized sha) cells /\ pi <> [] /\ at_path (tree_of c) pi = Some x /\ t_hash sha x = target /\
     tree_of c :: path_cells (tree_of c) pi = map tree_of cells ++ [x]) \/
  (find_path target c = Ok None /\ forall d x, occurs d x (tree_of c) -> t_hash sha x <> target).
Proof.
  induction c as [d1 d2 n data refs h0 IH] using fcell_tree_ind. intros F. set (c := FCell d1 d2 n data refs h0) in *.
  destruct (fin_facts sha c F) as (bits & T & _ & _ & _ & FR & _). change (f_refs c) with refs in *. rewrite List.Forall_forall in IH, FR.
  rewrite find_path_eq. change (f_refs c) with refs.
  assert (L : forall rs dn, refs = dn ++ rs -> (forall y, In y dn -> t_hash sha (tree_of y) <> target /\ forall d x, occurs d x (tree_of y) -> t_hash sha x <> target) ->
    (exists cells pi x, find_loop target c rs = Ok (Some cells) /\ Forall (finalized sha) cells /\ pi <> [] /\ at_path (tree_of c) pi = Some x /\ t_hash sha x = target /\
     tree_of c :: path_cells (tree_of c) pi = map tree_of cells ++ [x]) \/
    (find_loop target c rs = Ok None /\ forall d x, occurs d x (tree_of c) -> t_hash sha x <> target)).
  2:{ apply (L refs []); [reflexivity|intros ? []]. }
  induction rs as [|child rs IHrs]; intros dn ER NO.
  - right. split; [reflexivity|]. rewrite app_nil_r in ER. subst dn. intros d x O. rewrite T in O.
    inversion O as [? ? I|? ? y ? I O']; subst; cbn [c_refs] in I; apply in_map_iff in I; destruct I as (z & <- & I).
    + apply NO. exact I.
    + apply (proj2 (NO z I) _ _ O').
  - cbn [find_loop]. assert (I : In child refs) by (rewrite ER; apply in_or_app; right; left; reflexivity). pose proof (FR child I) as Fc.
    assert (LK : c_refs (tree_of c) !! length dn = Some (tree_of child)).
    { rewrite T. cbn [c_refs]. rewrite ER, map_app. rewrite <- (map_length tree_of dn). cbn [map]. apply list_lookup_middle. reflexivity. }
    rewrite (fin_hash sha Hsha child Fc). cbn [rbind]. destruct (bool_decide_reflect (t_hash sha (tree_of child) = target)) as [E|NE].
    + left. exists [c], [length dn], (tree_of child). split; [reflexivity|]. split; [repeat constructor; exact F|]. split; [discriminate|].
      cbn [at_path path_cells map app]. rewrite LK. auto.
    + destruct (IH child I Fc) as [(cells & pi & x & -> & Fcs & _ & P & HT & EP)|(-> & NX)]; cbn [rbind].
      * left. exists (c :: cells), (length dn :: pi), x. split; [reflexivity|]. split; [constructor; assumption|]. split; [discriminate|].
        cbn [at_path path_cells map app]. rewrite LK. rewrite <- EP. auto.
      * apply (IHrs (dn ++ [child])); [rewrite <- app_assoc; exact ER|]. intros y J. apply in_app_or in J. destruct J as [J|[<- |[]]]; [apply NO; exact J|auto].
Qed.
End Sha.
