(** * Every finite map with values that fit is a dictionary. *)
From Verif Require Import Err BitsProofs CellModel LabelModel LabelSpec LabelProofs DictModel DictSpec DictTree DictProofs DictProofs2.
Local Open Scope nat_scope.

Section Exist.
Context (fin : list bool -> list cell -> res unit).
Context (Hfin : forall b r, length b <= 1023 -> length r <= 4 -> fin b r = Ok tt).
Notation CR := (canonical_dict fin).

Fixpoint small (q : nat) (t : pt) : Prop :=
  match t with
  | Leaf _ v => q + length (fst v) <= 1011 /\ length (snd v) <= 4
  | Fork _ _ a b => small q a /\ small q b
  end.

Lemma label_bits_short n s : n <= 1023 -> length s <= n -> length (label_bits n s) <= n + 12.
Proof.
  intros Hn Hs. pose proof (proj2 (label_bits_canonical n s Hs) _ (hml_long n _ s (bits_for_len_width n) Hs)) as H.
  pose proof (bits_for_len_10 n Hn). rewrite !app_length, nbits_len in H. cbn [length] in H. lia.
Qed.
Lemma small_bound q t : small q t -> q <= 1011.
Proof. induction t as [l v|l x a IHa b IHb]; cbn [small]; [lia|]. intros [H _]. auto. Qed.

Lemma rep_exists q n t : wft n t -> plain t -> small q t -> n <= q -> exists c, Rep CR n c t.
Proof.
  revert n. induction t as [l v|l x a IHa b IHb]; intros n; cbn [wft plain small].
  - intros Hl _ [H1 H2] Hq. exists (Cell false (label_bits n l ++ fst v) (snd v)).
    pose proof (label_bits_short n l ltac:(lia) ltac:(lia)) as L.
    assert (B : length (label_bits n l ++ fst v) <= 1023) by (rewrite app_length; lia).
    apply Rep_leaf; [|exact Hl|].
    + exists (label_bits n l). split; [reflexivity|]. apply label_bits_canonical. lia.
    + cbn [r_cell canonical_dict]. auto.
  - intros (m & Hm & Wa & Wb) (-> & Pa & Pb) [Sa Sb] Hq.
    destruct (IHa m Wa Pa Sa ltac:(lia)) as [ca Ha]. destruct (IHb m Wb Pb Sb ltac:(lia)) as [cb Hb].
    pose proof (small_bound _ _ Sa) as Hq2. pose proof (label_bits_short n l ltac:(lia) ltac:(lia)) as L.
    exists (Cell false (label_bits n l) [ca; cb]).
    apply (Rep_fork CR n m (label_bits n l) l ([], [])); [|exact Hm|reflexivity| |exact Ha|exact Hb].
    + exists (label_bits n l). split; [cbn; rewrite app_nil_r; reflexivity|]. apply label_bits_canonical. lia.
    + cbn [r_cell canonical_dict snd]. split; [lia|]. split; [cbn; lia|]. apply Hfin; [lia|cbn; lia].
Qed.

Lemma small_relabel q l t : small q t -> small q (relabel l t).
Proof. destruct t; exact id. Qed.
Lemma plain_relabel l t : plain t -> plain (relabel l t).
Proof. destruct t; exact id. Qed.
Lemma small_split q p t k v : small q t -> q + length (fst v) <= 1011 -> length (snd v) <= 4 -> small q (t_split p t k v).
Proof. intros H1 H2 H3. unfold t_split. destruct (_ !! _) as [[]|]; cbn [small]; auto using small_relabel. Qed.
Lemma plain_split p t k v : plain t -> plain (t_split p t k v).
Proof. intros H1. unfold t_split. destruct (_ !! _) as [[]|]; cbn [plain]; auto using plain_relabel. Qed.
Lemma small_ins q t k v : small q t -> q + length (fst v) <= 1011 -> length (snd v) <= 4 -> small q (t_ins t k v).
Proof.
  intros H H2 H3. revert k. induction t as [l w|l x a IHa b IHb]; intros k; cbn [t_ins].
  - destruct (strip l k); [cbn; auto|]. apply small_split; assumption.
  - destruct (strip l k) as [[|[] r]|]; cbn [small] in *; try tauto.
    + split; [|apply IHb]; tauto.
    + split; [apply IHa|]; tauto.
    + apply small_split; assumption.
Qed.
Lemma plain_ins t k v : plain t -> plain (t_ins t k v).
Proof.
  intros H. revert k. induction t as [l w|l x a IHa b IHb]; intros k; cbn [t_ins].
  - destruct (strip l k); [exact I|]. apply plain_split; assumption.
  - destruct (strip l k) as [[|[] r]|]; cbn [plain] in *; try tauto.
    + split; [|split; [|apply IHb]]; tauto.
    + split; [|split; [apply IHa|]]; tauto.
    + apply plain_split; assumption.
Qed.

Lemma dict_exists (n : nat) (m : gmap (list bool) chunk) :
  (forall k v, m !! k = Some v -> length k = n /\ n + length (fst v) <= 1011 /\ length (snd v) <= 4) ->
  exists d es, is_dict CR n d es /\ dmap es = m.
Proof.
  intros H.
  assert (X : m = ∅ \/ exists t, wft n t /\ plain t /\ small n t /\ dmap (entries t) = m).
  { revert H. induction m as [|k v m E IH] using map_ind; intros H; [left; reflexivity|right].
    destruct (H k v (lookup_insert _ _ _)) as (Hk & H1 & H2).
    destruct IH as [->|(t & W & P & S & D)].
    - intros k' v' E'. apply H. rewrite lookup_insert_ne; [exact E'|intros X; rewrite X in E; exact (eq_ind (Some v') (fun o => match o with Some _ => True | None => False end) I None (eq_trans (eq_sym E') E))].
    - exists (Leaf k v). split; [exact Hk|]. split; [exact I|]. split; [split; assumption|reflexivity].
    - exists (t_ins t k v). split; [apply t_ins_wft; assumption|]. split; [apply plain_ins, P|]. split; [apply small_ins; assumption|].
      rewrite (t_ins_map n) by assumption. rewrite D. reflexivity. }
  destruct X as [->|(t & W & P & S & D)].
  - exists None, []. split; reflexivity.
  - destruct (rep_exists n n t W P S ltac:(lia)) as [c Hc]. exists (Some c), (entries t). split; [|exact D].
    cbn [is_dict]. apply hashmap_rep. exists t. auto.
Qed.
End Exist.
