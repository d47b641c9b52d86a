(** * Encoding in chunks (C19). *)
From Verif Require Import Err BitsProofs HashModel BocModel.
Local Open Scope nat_scope.

Lemma encode_list_app s rs a b : encode_list s rs (a ++ b) = let? x := encode_list s rs a in let? y := encode_list s rs b in Ok (x ++ y).
Proof.
  induction a as [|c a IH]; cbn [app encode_list rbind]; [destruct (encode_list s rs b); reflexivity|].
  destruct (encode_cell s rs c) as [x|e]; [|reflexivity]. cbn [rbind]. rewrite IH.
  destruct (encode_list s rs a) as [y|e]; [|reflexivity]. cbn [rbind]. destruct (encode_list s rs b) as [z|e]; [|reflexivity].
  cbn [rbind]. rewrite app_assoc. reflexivity.
Qed.
Lemma rchunks_rev {A} n (l : list A) : 1 <= n -> concat (map (@rev A) (rchunks n l)) = rev l.
Proof.
  intros Hn. unfold rchunks. enough (G : forall f l, length l <= f -> concat (map (@rev A) (rchunks_fuel f n l)) = rev l) by (apply G; lia).
  clear l. intros f. induction f as [|f IH]; intros l H.
  - destruct l; [reflexivity|cbn in H; lia].
  - cbn [rchunks_fuel]. destruct l as [|x l]; [reflexivity|]. set (m := x :: l) in *. cbn [map concat].
    assert (Lm : length m = S (length l)) by reflexivity. rewrite IH by (rewrite take_length; lia).
    rewrite <- rev_app_distr, take_drop. reflexivity.
Qed.
Definition encode_chunks (s : boc_ser) (rs : nat) (chunks : list (list fcell)) : res (list N) := encode_list s rs (concat (map (@rev fcell) chunks)).
Lemma encode_chunks_cons s rs c l : encode_chunks s rs (c :: l) = let? x := encode_chunk s rs c in let? y := encode_chunks s rs l in Ok (x ++ y).
Proof. unfold encode_chunks. cbn [map concat]. apply encode_list_app. Qed.
Lemma encode_rchunks s rs n l : 1 <= n -> encode_chunks s rs (rchunks n l) = encode_chunk s rs l.
Proof. intros H. unfold encode_chunks. rewrite rchunks_rev by exact H. reflexivity. Qed.
Lemma res_all_chunks s rs l : (let? parts := res_all (map (encode_chunk s rs) l) in Ok (concat parts)) = encode_chunks s rs l.
Proof.
  induction l as [|c l IH]; [reflexivity|]. rewrite encode_chunks_cons. cbn [map res_all].
  destruct (encode_chunk s rs c) as [x|e]; [|reflexivity]. cbn [rbind]. rewrite <- IH.
  destruct (res_all (map (encode_chunk s rs) l)) as [p|e]; reflexivity.
Qed.
Lemma run_slots_get s rs chunks order : forall slots, length slots = length chunks ->
  length (run_slots s rs chunks order slots) = length chunks /\
  forall i c, chunks !! i = Some c -> In i order \/ slots !! i = Some (encode_chunk s rs c) -> run_slots s rs chunks order slots !! i = Some (encode_chunk s rs c).
Proof.
  induction order as [|j order IH]; intros slots L; cbn [run_slots].
  - split; [exact L|]. intros i c _ [[]|H]. exact H.
  - destruct (chunks !! j) as [d|] eqn:Ej.
    + destruct (IH (<[j := encode_chunk s rs d]> slots) ltac:(rewrite insert_length; exact L)) as (L' & G). split; [exact L'|].
      intros i c Hc [[->|Hi]|Hs]; apply (G i c Hc).
      * right. replace c with d by congruence. apply list_lookup_insert. rewrite L. apply lookup_lt_Some in Hc. exact Hc.
      * left. exact Hi.
      * right. destruct (decide (j = i)) as [->|NE]; [|rewrite list_lookup_insert_ne by exact NE; exact Hs].
        replace c with d by congruence. apply list_lookup_insert. rewrite L. apply lookup_lt_Some in Hc. exact Hc.
    + destruct (IH slots L) as (L' & G). split; [exact L'|]. intros i c Hc [[->|Hi]|Hs]; [congruence| |]; apply (G i c Hc); auto.
Qed.
Lemma run_slots_all s rs chunks order : (forall i, i < length chunks -> In i order) ->
  run_slots s rs chunks order (map (fun _ => Err Panic) chunks) = map (encode_chunk s rs) chunks.
Proof.
  intros H. destruct (run_slots_get s rs chunks order (map (fun _ => Err Panic) chunks) ltac:(apply map_length)) as (L & G).
  apply list_eq. intros i. change (map (encode_chunk s rs) chunks) with (encode_chunk s rs <$> chunks). rewrite list_lookup_fmap.
  destruct (chunks !! i) as [c|] eqn:E; cbn.
  - apply (G i c E). left. apply H. apply lookup_lt_Some in E. exact E.
  - apply lookup_ge_None in E. apply lookup_ge_None. rewrite L. exact E.
Qed.

Section EncCrc.
Context (crc : N -> list N -> N).
Lemma encode_rayon_eq n order s : 1 <= n -> (forall i, i < length (rchunks n (sr_cells s)) -> In i order) -> encode_rayon crc n order s = encode crc s.
Proof.
  intros Hn HO. unfold encode_rayon, encode. cbn zeta. destruct (encode_header s) as [h|e]; [|reflexivity]. cbn [rbind].
  set (rs := st_ref_size (compute_stats s)).
  destruct (length (sr_cells s) <? n * 2); [reflexivity|].
  rewrite run_slots_all by exact HO. rewrite res_all_chunks, encode_rchunks by exact Hn. reflexivity.
Qed.
Lemma write_chunks_eq s rs (Hc : forall a b, crc (crc 0%N a) b = crc 0%N (a ++ b)) l : forall written,
  write_chunks crc s rs l written (if sr_crc s then crc 0%N written else 0%N) =
  let? x := encode_chunks s rs l in Ok (written ++ x, if sr_crc s then crc 0%N (written ++ x) else 0%N).
Proof.
  induction l as [|c l IH]; intros written; [cbn [write_chunks encode_chunks encode_list map concat rbind]; unfold encode_chunks; cbn [map concat encode_list rbind]; rewrite app_nil_r; reflexivity|].
  rewrite encode_chunks_cons. cbn [write_chunks]. destruct (encode_chunk s rs c) as [x|e]; [|reflexivity]. cbn [rbind].
  replace (if sr_crc s then crc (if sr_crc s then crc 0%N written else 0%N) x else (if sr_crc s then crc 0%N written else 0%N)) with (if sr_crc s then crc 0%N (written ++ x) else 0%N) by (destruct (sr_crc s); [symmetry; apply Hc|reflexivity]).
  rewrite IH. destruct (encode_chunks s rs l) as [y|e]; [|reflexivity]. cbn [rbind]. rewrite !app_assoc. reflexivity.
Qed.
Lemma encode_to_writer_eq n s : 1 <= n -> (forall a b, crc (crc 0%N a) b = crc 0%N (a ++ b)) -> encode_to_writer crc n s = encode crc s.
Proof.
  intros Hn Hc. unfold encode_to_writer, encode. destruct (encode_header s) as [h|e]; [|reflexivity]. cbn [rbind].
  rewrite write_chunks_eq by exact Hc. rewrite encode_rchunks by exact Hn.
  destruct (encode_chunk s (st_ref_size (compute_stats s)) (sr_cells s)) as [x|e]; [|reflexivity]. cbn [rbind]. unfold append_crc. destruct (sr_crc s); reflexivity.
Qed.
End EncCrc.
