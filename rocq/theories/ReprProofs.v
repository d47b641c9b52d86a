(** * Proofs about objects as bags of cells *)
From Verif Require Import Err BitsProofs BuilderModel BuilderSpec CellModel HashSpec HashModel FcellSpec HashProofs HashProofs2 BocSpec BocModel BocProps DictModel TextModel TextProofs TextProofs2
  HashTextModel HashTextProofs HashTextProofs2 ReprModel ReprSpec.
Local Open Scope nat_scope.

Lemma holding_ok bits : length bits <= 1023 -> holds_bits (holding bits) bits.
Proof.
  intros L. unfold holds_bits, holding. cbn [bd bl]. set (l := bits ++ zeros (1024 - length bits)).
  assert (LL : length l = 1024) by (unfold l, zeros; rewrite app_length, replicate_length; lia).
  assert (LP : length (pack l) = 128) by (rewrite length_pack, LL; reflexivity).
  split; [exact LP|]. split; [apply pack_ok|]. split; [lia|].
  unfold data_bits. cbn [bd bl]. rewrite Nat2N.id, bytes_bits_pack, LP, LL. replace (8 * 128 - 1024) with 0 by reflexivity.
  cbn [zeros replicate]. rewrite app_nil_r. unfold l. apply take_app.
Qed.

Section Sha.
Context (sha : list N -> list N) (Hsha : sha_like sha).
Fixpoint realize_all (l : list cell) : res (list fcell) :=
  match l with [] => Ok [] | x :: l => let? y := realize sha x in let? ys := realize_all l in Ok (y :: ys) end.
Lemma realize_eq e bits refs : realize sha (Cell e bits refs) =
  let? rs := realize_all refs in if (1023 <? length bits) || (4 <? length rs) then Err CellOverflow else build_ext sha e (holding bits) rs.
Proof. reflexivity. Qed.
Notation shallow := (shallow sha).
Lemma sub_below e bits refs s : subtree [Cell e bits refs] s -> s = Cell e bits refs \/ exists k, In k refs /\ subtree [k] s.
Proof.
  induction 1 as [t [<-|[]]|e' b' ks k _ IH Hk]; [left; reflexivity|].
  right. destruct IH as [E|(j & Hj & S)].
  - injection E as -> -> ->. exists k. split; [exact Hk|]. apply sub_root. left. reflexivity.
  - exists j. split; [exact Hj|]. apply (sub_child _ _ _ _ _ S Hk).
Qed.
Lemma sub_above e bits refs k s : In k refs -> subtree [k] s -> subtree [Cell e bits refs] s.
Proof.
  intros Hk. induction 1 as [t [<-|[]]|e' b' ks j _ IH Hj].
  - apply (sub_child _ e bits refs); [apply sub_root; left; reflexivity|exact Hk].
  - apply (sub_child _ _ _ _ _ IH Hj).
Qed.
Lemma realize_all_ok refs : Forall (fun t => forall c, realize sha t = Ok c -> finalized sha c /\ tree_of c = t /\ valid_tree t /\ shallow t) refs ->
  forall rs, realize_all refs = Ok rs -> Forall (finalized sha) rs /\ map tree_of rs = refs /\ Forall valid_tree refs /\ Forall shallow refs.
Proof.
  induction 1 as [|x refs H _ IH]; cbn [realize_all]; intros rs E.
  - injection E as <-. repeat split; constructor.
  - destruct (realize sha x) as [y|] eqn:Ex; [|discriminate]. cbn [rbind] in E. destruct (realize_all refs) as [ys|]; [|discriminate]. injection E as <-.
    destruct (H y eq_refl) as (A & B & C & D). destruct (IH ys eq_refl) as (A' & B' & C' & D').
    split; [constructor; assumption|]. split; [cbn [map]; rewrite B, B'; reflexivity|]. split; constructor; assumption.
Qed.
Theorem realize_ok t : forall c, realize sha t = Ok c -> finalized sha c /\ tree_of c = t /\ valid_tree t /\ shallow t.
Proof.
  induction t as [e bits refs IH] using cell_tree_ind. intros c E. rewrite realize_eq in E.
  destruct (realize_all refs) as [rs|] eqn:Er; [|discriminate]. cbn [rbind] in E.
  destruct (realize_all_ok refs IH rs Er) as (F & M & V & S).
  destruct ((1023 <? length bits) || (4 <? length rs)) eqn:G; [discriminate|]. apply orb_false_elim in G as (G1 & G2). apply Nat.ltb_ge in G1, G2.
  destruct (build_spec sha Hsha e (holding bits) bits rs (holding_ok bits G1) F G2) as [(V' & ND & c' & E' & Fc & T & _)|[(_ & _ & E')|(_ & E')]]; rewrite E in E'; try discriminate.
  injection E' as <-. rewrite M in *. split; [exact Fc|]. split; [exact T|]. split; [exact V'|].
  intros s Hs l. destruct (sub_below _ _ _ _ Hs) as [->|(k & Hk & Sk)].
  - destruct (N.le_gt_cases (i_depth (info_of sha (Cell e bits refs)) l) 65535); [assumption|]. exfalso. apply ND. exists l. assumption.
  - apply (proj1 (List.Forall_forall _ _) S k Hk s Sk).
Qed.
Theorem realize_exists t : valid_tree t -> shallow t -> exists c, realize sha t = Ok c.
Proof.
  induction t as [e bits refs IH] using cell_tree_ind. intros V S. rewrite realize_eq.
  inversion V as [? ? ? V1 V2 V3 V4]; subst.
  assert (R : exists rs, realize_all refs = Ok rs).
  { assert (S' : Forall shallow refs). { apply List.Forall_forall. intros k Hk s Hs. apply S, (sub_above _ _ _ k _ Hk Hs). }
    clear V V1 V2 V3 S. induction refs as [|x refs IHr]; [exists []; reflexivity|].
    inversion IH as [|? ? I1 I2]; subst. inversion V4 as [|? ? W1 W2]; subst. inversion S' as [|? ? T1 T2]; subst.
    destruct (I1 W1 T1) as (c & Ec). destruct (IHr I2 W2 T2) as (cs & Ecs). exists (c :: cs). cbn [realize_all]. rewrite Ec. cbn [rbind]. rewrite Ecs. reflexivity. }
  destruct R as (rs & Er). rewrite Er. cbn [rbind].
  destruct (realize_all_ok refs) with (rs := rs) as (F & M & _ & _); [apply List.Forall_forall; intros x _; apply realize_ok|exact Er|].
  assert (L4 : length rs <= 4) by (rewrite <- M, map_length in V2; exact V2).
  destruct (Nat.ltb_spec 1023 (length bits)); [lia|]. destruct (Nat.ltb_spec 4 (length rs)); [lia|]. cbn [orb].
  destruct (build_spec sha Hsha e (holding bits) bits rs (holding_ok bits V1) F L4) as [(_ & _ & c & E & _)|[(_ & (l & TD) & _)|(NV & _)]].
  - exists c. exact E.
  - exfalso. rewrite M in TD. assert (Hr : subtree [Cell e bits refs] (Cell e bits refs)) by (apply sub_root; left; reflexivity). specialize (S _ Hr l). lia.
  - exfalso. rewrite M in NV. contradiction.
Qed.

Context (crc : N -> list N -> N).
Lemma cell_object c bytes c' : boc_encode crc c = Ok bytes -> decode crc sha bytes = BOk c' -> Forall byte_ok bytes ->
  forall readable, exists x, serde_cell crc readable c = Ok x /\ unserde_cell crc sha readable x = Some c'.
Proof.
  intros E D B readable. unfold serde_cell, unserde_cell. rewrite E. cbn [rbind]. eexists. split; [reflexivity|].
  destruct readable; [rewrite (encode_base64_round bytes B)|]; rewrite D; reflexivity.
Qed.
Lemma parse_tree {A} (load : chunk -> res (A * chunk)) c bits refs : tree_of c = Cell false bits refs ->
  parse_object load c = match load (bits, refs) with Ok (a, _) => ROk a | Err e => InvalidObject e end.
Proof. intros E. unfold parse_object. rewrite E. reflexivity. Qed.
End Sha.
