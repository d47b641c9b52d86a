(** * The encoder (C15, C17, C18): filling the table of cells. *)
From Verif Require Import Err BitsProofs BuilderModel BuilderSpec CellModel HashSpec HashModel FcellSpec HashProofs HashProofs2 BocSpec BocModel BocProofs.
Local Open Scope nat_scope.

Fixpoint t_size (c : cell) : nat := let '(Cell _ _ refs) := c in S (list_sum (map t_size refs)).
Lemma t_size_child e b ks k : In k ks -> t_size k < t_size (Cell e b ks).
Proof.
  intros H. cbn [t_size]. induction ks as [|x ks IH]; [destruct H|]. cbn [map list_sum fold_right].
  destruct H as [->|H]; [lia|]. specialize (IH H). unfold list_sum in IH. lia.
Qed.

(** ** The two ways of visiting a tree do the same. *)
Fixpoint fill_refs (cs : list fcell) (s : boc_ser) : res boc_ser :=
  match cs with
  | [] => Ok s
  | x :: cs' =>
    let? h := f_repr_hash x in
    let? s := (match map_get (sr_map s) h with Some _ => Ok s | None => fill_rec x s end) in
    fill_refs cs' s
  end.
Lemma fill_rec_eq c s : fill_rec c s = let? s := fill_refs (f_refs c) s in ser_push c s.
Proof. destruct c as [d1 d2 n data refs hashes]. reflexivity. Qed.

Definition f_sizes (cs : list fcell) : nat := fold_right (fun x n => f_size x + n) 0 cs.
Lemma fill_loop_refs xs :
  Forall (fun c => forall rest s, exists k, k <= 2 * f_sizes (f_refs c) + 1 /\
    forall f, fill_loop (k + f) ((c, f_refs c) :: rest) s = let? s := fill_rec c s in fill_loop f rest s) xs ->
  forall c rest s, exists k, k <= 2 * f_sizes xs + 1 /\
    forall f, fill_loop (k + f) ((c, xs) :: rest) s = let? s := (let? s := fill_refs xs s in ser_push c s) in fill_loop f rest s.
Proof.
  induction 1 as [|x xs Hx _ IH]; intros c rest s.
  - exists 1. split; [cbn; lia|]. intros f. cbn [Nat.add fill_loop fill_refs rbind]. reflexivity.
  - assert (Sx : f_size x = S (f_sizes (f_refs x))) by (destruct x; reflexivity).
    cbn [f_sizes fold_right]. fold (f_sizes xs).
    destruct (f_repr_hash x) as [h|e] eqn:Eh.
    2:{ exists 1. split; [lia|]. intros f. cbn [Nat.add fill_loop fill_refs]. rewrite Eh. reflexivity. }
    destruct (map_get (sr_map s) h) as [i|] eqn:Em.
    + destruct (IH c rest s) as (k & Hk & E). exists (S k). split; [lia|].
      intros f. cbn [Nat.add fill_loop fill_refs]. rewrite Eh. cbn [rbind]. rewrite Em. cbn [rbind]. apply E.
    + destruct (Hx ((c, xs) :: rest) s) as (k1 & Hk1 & E1).
      destruct (fill_rec x s) as [s1|e] eqn:Es.
      * destruct (IH c rest s1) as (k2 & Hk2 & E2). exists (S (k1 + k2)). split; [lia|].
        intros f. cbn [Nat.add fill_loop fill_refs]. rewrite Eh. cbn [rbind]. rewrite Em. cbn [rbind]. rewrite <- Nat.add_assoc, E1, Es. cbn [rbind]. apply E2.
      * exists (S k1). split; [lia|]. intros f. cbn [Nat.add fill_loop fill_refs]. rewrite Eh. cbn [rbind]. rewrite Em. cbn [rbind]. rewrite E1, Es. reflexivity.
Qed.
Lemma fill_loop_rec c : forall rest s, exists k, k <= 2 * f_sizes (f_refs c) + 1 /\
  forall f, fill_loop (k + f) ((c, f_refs c) :: rest) s = let? s := fill_rec c s in fill_loop f rest s.
Proof.
  induction c as [d1 d2 n data refs hashes IH] using fcell_tree_ind. intros rest s.
  destruct (fill_loop_refs refs IH (FCell d1 d2 n data refs hashes) rest s) as (k & Hk & E).
  exists k. split; [exact Hk|]. intros f. cbn [f_refs]. rewrite E, fill_rec_eq. reflexivity.
Qed.
Lemma fill_deep_rec c s : fill_deep c s = fill_rec c s.
Proof.
  unfold fill_deep. destruct (fill_loop_rec c [] s) as (k & Hk & E).
  assert (Sx : f_size c = S (f_sizes (f_refs c))) by (destruct c; reflexivity).
  replace (2 * f_size c) with (k + (2 * f_size c - k)) by lia. rewrite E.
  destruct (fill_rec c s) as [s'|e]; [|reflexivity]. cbn [rbind].
  destruct (2 * f_size c - k); reflexivity.
Qed.

Section Sha.
Context (sha : list N -> list N) (Hsha : sha_like sha).
Definition hash_of (c : fcell) : list N := t_hash sha (tree_of c).
Lemma repr_hash_of c : finalized sha c -> f_repr_hash c = Ok (hash_of c).
Proof. intros F. destruct (finalized_agrees sha Hsha c F) as (_ & A & _). apply (ag_hash _ _ A 3). Qed.
Lemma repr_depth_of c : finalized sha c -> f_repr_depth c = Ok (t_depth sha (tree_of c)).
Proof. intros F. destruct (finalized_agrees sha Hsha c F) as (_ & A & _). apply (ag_depth _ _ A 3). Qed.
Lemma refs_of c : finalized sha c -> c_refs (tree_of c) = map tree_of (f_refs c) /\ Forall (finalized sha) (f_refs c) /\ length (f_refs c) <= 4.
Proof. intros F. destruct F. cbn [tree_of c_refs f_refs]. auto. Qed.
Lemma finalized_child c x : finalized sha c -> In x (f_refs c) -> finalized sha x.
Proof. intros F H. destruct (refs_of c F) as (_ & G & _). apply (proj1 (List.Forall_forall _ _) G x H). Qed.

Context (R : list cell) (HD : distinct_hashes sha R) (HC : countable_cells R).

Definition present (s : boc_ser) (t : cell) : Prop := exists i c, sr_cells s !! i = Some c /\ tree_of c = t.
Definition sum_data (w : bool) (cs : list fcell) : N := fold_right (fun c n => byte_len_full w (f_d1 c) (f_d2 c) + n)%N 0%N cs.
Definition sum_refs (cs : list fcell) : N := fold_right (fun c n => d_refs (f_d1 c) + n)%N 0%N cs.
Lemma sum_data_app w a b : sum_data w (a ++ b) = (sum_data w a + sum_data w b)%N.
Proof. unfold sum_data in *. induction a as [|x a IH]; [cbn [app fold_right]; lia|]. cbn [app fold_right]. lia. Qed.
Lemma sum_refs_app a b : sum_refs (a ++ b) = (sum_refs a + sum_refs b)%N.
Proof. unfold sum_refs in *. induction a as [|x a IH]; [cbn [app fold_right]; lia|]. cbn [app fold_right]. lia. Qed.

Record inv (s : boc_ser) : Prop := Inv {
  iv_fin : Forall (finalized sha) (sr_cells s);
  iv_sub : Forall (fun c => subtree R (tree_of c)) (sr_cells s);
  iv_nd : NoDup (map tree_of (sr_cells s));
  iv_map : forall h i, map_get (sr_map s) h = Some i <-> exists c, sr_cells s !! N.to_nat i = Some c /\ hash_of c = h;
  iv_link : forall i c, sr_cells s !! i = Some c -> Forall (fun x => exists j c', j < i /\ sr_cells s !! j = Some c' /\ tree_of c' = tree_of x) (f_refs c);
  iv_count : sr_count s = N.of_nat (length (sr_cells s));
  iv_data : sr_data s = sum_data (sr_without_hashes s) (sr_cells s);
  iv_refs : sr_refs s = sum_refs (sr_cells s) }.
Lemma inv_new w c : inv (Ser [] [] [] 0 0 0 w c).
Proof.
  constructor; cbn [sr_cells sr_map sr_count sr_data sr_refs sr_without_hashes]; try (constructor); try reflexivity; try discriminate.
  intros (x & E & _). discriminate.
Qed.
Definition keeps (s s' : boc_ser) : Prop :=
  sr_roots s' = sr_roots s /\ sr_without_hashes s' = sr_without_hashes s /\ sr_crc s' = sr_crc s.
Lemma keeps_trans a b c : keeps a b -> keeps b c -> keeps a c.
Proof. unfold keeps. intuition congruence. Qed.

Lemma known s x : inv s -> finalized sha x -> subtree R (tree_of x) ->
  match map_get (sr_map s) (hash_of x) with Some i => exists c, sr_cells s !! N.to_nat i = Some c /\ tree_of c = tree_of x | None => ~ present s (tree_of x) end.
Proof.
  intros I F S. destruct (map_get (sr_map s) (hash_of x)) as [i|] eqn:E.
  - apply (iv_map _ I) in E as (c & Hc & Hh). exists c. split; [exact Hc|]. apply HD; [|exact S|exact Hh].
    apply (Forall_lookup_1 _ _ _ _ (iv_sub _ I) Hc).
  - intros (i & c & Hc & Ht). assert (M : map_get (sr_map s) (hash_of x) = Some (N.of_nat i)).
    { apply (iv_map _ I). exists c. rewrite Nat2N.id. split; [exact Hc|]. unfold hash_of. rewrite Ht. reflexivity. }
    congruence.
Qed.
Lemma cells_bound s : inv s -> (N.of_nat (length (sr_cells s)) < 2 ^ 32)%N.
Proof.
  intros I. rewrite <- (map_length tree_of). apply HC; [apply (iv_nd _ I)|].
  apply List.Forall_map. apply (iv_sub _ I).
Qed.
Lemma push_inv s c : inv s -> finalized sha c -> subtree R (tree_of c) -> ~ present s (tree_of c) ->
  Forall (fun x => present s (tree_of x)) (f_refs c) ->
  exists s', ser_push c s = Ok s' /\ inv s' /\ sr_cells s' = sr_cells s ++ [c] /\ keeps s s' /\ sr_count s' = (sr_count s + 1)%N.
Proof.
  intros I F S NP PR. unfold ser_push. rewrite (repr_hash_of c F). cbn [rbind].
  assert (ND : NoDup (map tree_of (sr_cells s ++ [c]))).
  { rewrite map_app. apply NoDup_app. split; [apply (iv_nd _ I)|]. split; [|apply NoDup_singleton].
    intros t Ht Hc. apply elem_of_list_singleton in Hc. subst t. apply elem_of_list_fmap in Ht as (x & Ex & Hx).
    apply elem_of_list_lookup in Hx as (i & Hi). apply NP. exists i, x. auto. }
  assert (SB : Forall (fun c => subtree R (tree_of c)) (sr_cells s ++ [c])).
  { apply Forall_app_2; [apply (iv_sub _ I)|]. constructor; [exact S|constructor]. }
  assert (B : (N.of_nat (length (sr_cells s ++ [c])) < 2 ^ 32)%N).
  { rewrite <- (map_length tree_of). apply HC; [exact ND|]. apply List.Forall_map. exact SB. }
  rewrite app_length in B. cbn [length] in B.
  assert (CW : w32 (sr_count s + 1) = (sr_count s + 1)%N).
  { unfold w32. rewrite (iv_count _ I). apply N.mod_small. lia. }
  eexists. split; [reflexivity|]. cbn [sr_cells]. split; [|split; [reflexivity|split; [unfold keeps; auto|exact CW]]].
  constructor; cbn [sr_cells sr_map sr_count sr_data sr_refs sr_without_hashes].
  - apply Forall_app_2; [apply (iv_fin _ I)|]. constructor; [exact F|constructor].
  - exact SB.
  - exact ND.
  - intros h i. cbn [map_get]. destruct (bytes_eqb (hash_of c) h) eqn:E.
    + apply bytes_eqb_eq in E. split.
      * intros Q. injection Q as <-. exists c. rewrite (iv_count _ I), Nat2N.id. split; [apply list_lookup_middle; reflexivity|exact E].
      * intros (x & Hx & Eh). destruct (decide (N.to_nat i < length (sr_cells s))) as [L|L].
        -- rewrite lookup_app_l in Hx by exact L. exfalso. apply NP. exists (N.to_nat i), x. split; [exact Hx|].
           apply HD; [apply (Forall_lookup_1 _ _ _ _ (iv_sub _ I) Hx)|exact S|unfold hash_of in *; congruence].
        -- apply lookup_lt_Some in Hx. rewrite app_length in Hx. cbn [length] in Hx. f_equal. rewrite (iv_count _ I). lia.
    + assert (NE : hash_of c <> h) by (intros Q; apply bytes_eqb_eq in Q; congruence).
      rewrite (iv_map _ I). split; intros (x & Hx & Eh).
      * exists x. split; [rewrite lookup_app_l by (apply lookup_lt_Some in Hx; exact Hx); exact Hx|exact Eh].
      * exists x. split; [|exact Eh]. destruct (decide (N.to_nat i < length (sr_cells s))) as [L|L].
        -- rewrite lookup_app_l in Hx by exact L. exact Hx.
        -- rewrite lookup_app_r in Hx by lia. destruct (N.to_nat i - length (sr_cells s)) as [|q]; cbn in Hx; [injection Hx as <-; congruence|discriminate].
  - intros i x Hx. destruct (decide (i < length (sr_cells s))) as [L|L].
    + rewrite lookup_app_l in Hx by exact L. pose proof (iv_link _ I i x Hx) as G.
      eapply List.Forall_impl; [|exact G]. intros y (j & c' & Hj & Hc' & Ht). exists j, c'.
      split; [exact Hj|]. split; [rewrite lookup_app_l by lia; exact Hc'|exact Ht].
    + assert (Ei : i = length (sr_cells s)) by (apply lookup_lt_Some in Hx; rewrite app_length in Hx; cbn [length] in Hx; lia).
      subst i. rewrite list_lookup_middle in Hx by reflexivity. injection Hx as <-.
      eapply List.Forall_impl; [|exact PR]. intros y (j & c' & Hc' & Ht). exists j, c'.
      pose proof (lookup_lt_Some _ _ _ Hc'). split; [assumption|]. split; [rewrite lookup_app_l by assumption; exact Hc'|exact Ht].
  - rewrite CW, (iv_count _ I), app_length. cbn [length]. lia.
  - rewrite sum_data_app, (iv_data _ I). cbn [sum_data fold_right]. lia.
  - rewrite sum_refs_app, (iv_refs _ I). cbn [sum_refs fold_right]. lia.
Qed.

Definition fills (c : fcell) : Prop := forall s, inv s -> finalized sha c -> subtree R (tree_of c) -> ~ present s (tree_of c) ->
  exists s' new, fill_rec c s = Ok s' /\ inv s' /\ sr_cells s' = sr_cells s ++ new ++ [c] /\
    Forall (fun x => t_size (tree_of x) < t_size (tree_of c)) new /\ keeps s s'.
Lemma present_app s s' t new : sr_cells s' = sr_cells s ++ new -> present s t -> present s' t.
Proof.
  intros E (i & c & Hc & Ht). exists i, c. rewrite E. split; [|exact Ht]. rewrite lookup_app_l; [exact Hc|]. apply lookup_lt_Some in Hc. exact Hc.
Qed.
Lemma fill_refs_inv b cs : Forall fills cs -> Forall (finalized sha) cs -> Forall (fun x => subtree R (tree_of x)) cs ->
  Forall (fun x => t_size (tree_of x) < b) cs -> forall s, inv s ->
  exists s' new, fill_refs cs s = Ok s' /\ inv s' /\ sr_cells s' = sr_cells s ++ new /\
    Forall (fun x => t_size (tree_of x) < b) new /\ keeps s s' /\ Forall (fun x => present s' (tree_of x)) cs.
Proof.
  intros H. induction H as [|x cs Hx _ IH]; intros FF SS BB s I.
  - exists s, []. cbn [fill_refs]. rewrite app_nil_r. unfold keeps. auto 10.
  - inversion FF as [|? ? F1 FF']; subst. inversion SS as [|? ? S1 SS']; subst. inversion BB as [|? ? B1 BB']; subst.
    cbn [fill_refs]. rewrite (repr_hash_of x F1). cbn [rbind].
    pose proof (known s x I F1 S1) as K. destruct (map_get (sr_map s) (hash_of x)) as [i|].
    + destruct K as (c & Hc & Ht). cbn [rbind]. destruct (IH FF' SS' BB' s I) as (s' & new & E & I' & Ec & Bn & Kp & P).
      exists s', new. split; [exact E|]. split; [exact I'|]. split; [exact Ec|]. split; [exact Bn|]. split; [exact Kp|].
      constructor; [|exact P]. apply (present_app s s' _ new Ec). exists (N.to_nat i), c. auto.
    + destruct (Hx s I F1 S1 K) as (s1 & n1 & E1 & I1 & Ec1 & Bn1 & Kp1). rewrite E1. cbn [rbind].
      destruct (IH FF' SS' BB' s1 I1) as (s' & new & E & I' & Ec & Bn & Kp & P).
      exists s', ((n1 ++ [x]) ++ new). split; [exact E|]. split; [exact I'|]. split; [rewrite Ec, Ec1, <- app_assoc; reflexivity|].
      split; [|split; [exact (keeps_trans _ _ _ Kp1 Kp)|]].
      * apply Forall_app_2; [|exact Bn]. apply Forall_app_2; [|constructor; [exact B1|constructor]].
        eapply List.Forall_impl; [|exact Bn1]. cbn beta. lia.
      * constructor; [|exact P]. apply (present_app s1 s' _ new Ec). exists (length (sr_cells s ++ n1)), x.
        rewrite Ec1, app_assoc. split; [apply list_lookup_middle; reflexivity|reflexivity].
Qed.
Lemma fill_rec_inv c : fills c.
Proof.
  induction c as [d1 d2 n data refs hashes IH] using fcell_tree_ind. intros s I F S NP.
  destruct (refs_of _ F) as (ER & FR & _). rewrite fill_rec_eq. set (c := FCell d1 d2 n data refs hashes) in *. cbn [f_refs] in *.
  assert (SC : Forall (fun x => subtree R (tree_of x)) (f_refs c)).
  { apply List.Forall_forall. intros x Hx. destruct (tree_of c) as [e b ks] eqn:ET. apply (sub_child R e b ks); [exact S|].
    cbn [c_refs] in ER. rewrite ER. apply in_map. exact Hx. }
  assert (BC : Forall (fun x => t_size (tree_of x) < t_size (tree_of c)) (f_refs c)).
  { apply List.Forall_forall. intros x Hx. destruct (tree_of c) as [e b ks] eqn:ET. apply t_size_child.
    cbn [c_refs] in ER. rewrite ER. apply in_map. exact Hx. }
  destruct (fill_refs_inv (t_size (tree_of c)) (f_refs c) IH FR SC BC s I) as (s1 & new & E1 & I1 & Ec1 & Bn & Kp & P).
  rewrite E1. cbn [rbind].
  assert (NP1 : ~ present s1 (tree_of c)).
  { intros (i & x & Hx & Ht). rewrite Ec1 in Hx. destruct (decide (i < length (sr_cells s))) as [L|L].
    - rewrite lookup_app_l in Hx by exact L. apply NP. exists i, x. auto.
    - rewrite lookup_app_r in Hx by lia. pose proof (Forall_lookup_1 _ _ _ _ Bn Hx) as Q. cbn beta in Q. rewrite Ht in Q. lia. }
  destruct (push_inv s1 c I1 F S NP1 P) as (s2 & E2 & I2 & Ec2 & Kp2 & _).
  exists s2, new. split; [exact E2|]. split; [exact I2|]. split; [rewrite Ec2, Ec1, <- app_assoc; reflexivity|]. split; [exact Bn|exact (keeps_trans _ _ _ Kp Kp2)].
Qed.

(** ** Adding roots *)
Definition root_at (s : boc_ser) (i : N) (t : cell) : Prop := exists c, sr_cells s !! N.to_nat i = Some c /\ tree_of c = t.
Lemma add_root_inv s c : inv s -> finalized sha c -> subtree R (tree_of c) ->
  exists s' new i, add_root c s = Ok s' /\ inv s' /\ sr_cells s' = sr_cells s ++ new /\ sr_roots s' = sr_roots s ++ [i] /\ root_at s' i (tree_of c) /\
    sr_without_hashes s' = sr_without_hashes s /\ sr_crc s' = sr_crc s.
Proof.
  intros I F S. unfold add_root, fill. rewrite (repr_hash_of c F). cbn [rbind].
  assert (W : forall s' i, inv s' -> inv (Ser (sr_roots s' ++ [i]) (sr_map s') (sr_cells s') (sr_data s') (sr_refs s') (sr_count s') (sr_without_hashes s') (sr_crc s'))).
  { intros s' i [A1 A2 A3 A4 A5 A6 A7 A8]. constructor; assumption. }
  pose proof (known s c I F S) as K. destruct (map_get (sr_map s) (hash_of c)) as [i|].
  - cbn [rbind]. eexists. exists [], i. split; [reflexivity|]. cbn [sr_cells sr_roots sr_without_hashes sr_crc]. rewrite app_nil_r. 
    split; [apply W; exact I|]. split; [reflexivity|]. split; [reflexivity|]. split; [exact K|auto].
  - rewrite (repr_depth_of c F). cbn [rbind]. rewrite fill_deep_rec.
    destruct (fill_rec_inv c s I F S K) as (s' & new & E & I' & Ec & Bn & Kp).
    assert (EE : (if (t_depth sha (tree_of c) <=? SAFE_DEPTH)%N then fill_rec c s else fill_rec c s) = Ok s') by (destruct (_ <=? _)%N; exact E).
    rewrite EE. cbn [rbind]. eexists. exists (new ++ [c]), (sr_count s' - 1)%N. split; [reflexivity|].
    cbn [sr_cells sr_roots sr_without_hashes sr_crc]. destruct Kp as (K1 & K2 & K3).
    split; [apply W; exact I'|]. split; [exact Ec|]. split; [rewrite K1; reflexivity|]. split; [|auto].
    exists c. cbn [sr_cells]. split; [|reflexivity]. rewrite (iv_count _ I'), Ec, app_assoc. apply list_lookup_middle.
    rewrite app_length. cbn [length]. lia.
Qed.
Lemma add_roots_inv cs : Forall (finalized sha) cs -> Forall (fun c => subtree R (tree_of c)) cs -> forall s ts, inv s ->
  Forall2 (root_at s) (sr_roots s) ts ->
  exists s' new, add_roots cs s = Ok s' /\ inv s' /\ sr_cells s' = sr_cells s ++ new /\
    Forall2 (root_at s') (sr_roots s') (ts ++ map tree_of cs) /\
    sr_without_hashes s' = sr_without_hashes s /\ sr_crc s' = sr_crc s.
Proof.
  induction cs as [|c cs IH]; intros FF SS s ts I Q.
  - exists s, []. cbn [add_roots map]. rewrite !app_nil_r. auto 10.
  - inversion FF as [|? ? F1 FF']; subst. inversion SS as [|? ? S1 SS']; subst. cbn [add_roots].
    destruct (add_root_inv s c I F1 S1) as (s1 & n1 & i & E1 & I1 & Ec1 & Er1 & Ra & Kw & Kc). rewrite E1. cbn [rbind].
    destruct (IH FF' SS' s1 (ts ++ [tree_of c]) I1) as (s' & new & E & I' & Ec & Q' & Kw' & Kc').
    { rewrite Er1. apply Forall2_app; [|constructor; [exact Ra|constructor]].
      eapply Forall2_impl; [exact Q|]. intros k t (x & Hx & Ht). exists x. rewrite Ec1. split; [|exact Ht].
      rewrite lookup_app_l; [exact Hx|]. apply lookup_lt_Some in Hx. exact Hx. }
    exists s', (n1 ++ new). split; [exact E|]. split; [exact I'|]. split; [rewrite Ec, Ec1, <- app_assoc; reflexivity|].
    split; [rewrite <- app_assoc in Q'; exact Q'|]. split; congruence.
Qed.
End Sha.
