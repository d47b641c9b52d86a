(** * The bytes of a bag of cells are bytes *)
From Verif Require Import Err BitsProofs CellModel HashSpec HashModel FcellSpec HashProofs BocSpec BocModel BocProps.
Local Open Scope N_scope.

Lemma concat_ok {A} (f : A -> list N) l : Forall (fun x => Forall byte_ok (f x)) l -> Forall byte_ok (concat (map f l)).
Proof. induction 1; cbn [map concat]; [constructor|]. apply Forall_app. auto. Qed.
Lemma concat_all {A} (f : A -> list N) l : (forall x, Forall byte_ok (f x)) -> Forall byte_ok (concat (map f l)).
Proof. intros H. apply concat_ok. apply List.Forall_forall. intros x _. apply H. Qed.

Section Sha.
Context (sha : list N -> list N) (Hsha : sha_like sha).
Lemma cell_bytes_ok rs e : storable sha e -> Forall byte_ok (cell_bytes sha rs e).
Proof.
  intros (V & D & P). unfold cell_bytes. pose proof (info_regular sha (proj1 Hsha) _ V) as R. destruct (e_tree e) as [exotic bits refs]. inversion V as [? ? ? LB LR _ _]; subst.
  apply Forall_app. split.
  { pose proof (rg_mask _ R) as M. constructor; [|constructor; [|constructor]]; unfold byte_ok.
    - destruct (e_stored e), exotic; cbn [N.b2n]; lia.
    - pose proof (Nat.div_mod (length bits) 8 ltac:(lia)). pose proof (Nat.mod_upper_bound (length bits) 8 ltac:(lia)).
      pose proof (Nat.div_mod (length bits + 7) 8 ltac:(lia)). pose proof (Nat.mod_upper_bound (length bits + 7) 8 ltac:(lia)). lia. }
  apply Forall_app. split.
  { destruct (e_stored e); [|constructor]. apply Forall_app. split; [apply concat_all; intros l; apply (rg_bytes _ R)|apply concat_all; intros l; apply to_be_ok]. }
  apply Forall_app. split; [apply pack_ok|]. apply concat_all. intros j. apply to_be_ok.
Qed.
Lemma boc_bytes_ok crc fm table roots : fits sha fm table roots [] -> Forall (storable sha) table -> Forall byte_ok (boc_bytes sha crc fm table roots []).
Proof.
  intros (F1 & F2 & _) S. unfold boc_bytes. apply Forall_app. split.
  2:{ destruct (fm_crc fm); [|constructor]. unfold le_bytes. apply Forall_rev, to_be_ok. }
  unfold boc_body. repeat (apply Forall_app; split); try apply to_be_ok.
  - repeat constructor.
  - constructor; [|constructor; [|constructor]]; unfold byte_ok; [destruct (fm_index fm), (fm_crc fm), (fm_cache fm); cbn [N.b2n]; lia|lia].
  - apply concat_all. intros j. apply to_be_ok.
  - constructor.
  - apply concat_ok. refine (List.Forall_impl _ _ S). intros e He. apply cell_bytes_ok, He.
Qed.
Lemma boc_encode_ok crc c bytes : finalized sha c -> distinct_hashes sha [tree_of c] -> countable_cells [tree_of c] ->
  boc_encode crc c = Ok bytes -> Forall byte_ok bytes.
Proof.
  intros F D C E.
  destruct (C17_table sha Hsha crc [c] ser_new ltac:(constructor; [exact F|constructor]) D C ltac:(exists ser_new; reflexivity) ltac:(discriminate) ltac:(reflexivity))
    as (s & bs & fm & table & indices & E1 & E2 & _ & -> & _ & _ & Fi & S & _).
  unfold boc_encode in E. cbn [add_roots] in E1. destruct (add_root c ser_new); [|discriminate]. cbn [rbind] in *. injection E1 as ->.
  rewrite E in E2. injection E2 as ->. apply boc_bytes_ok; assumption.
Qed.
End Sha.
