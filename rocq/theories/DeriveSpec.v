(** * What a derived codec is expected to do *)
From Verif Require Import Err CellModel ChunkSpec DeriveModel.
Local Open Scope N_scope.

(** A type with the layouts of its values: [w_ok] are the values that can be written, [w_write]
    how they are written, [w_read] what is read as them (which may be more), [w_bits] and [w_refs]
    the room a value takes at most. *)
Record layout (A : Type) := Layout {
  w_ok : A -> Prop;
  w_write : A -> chunk -> Prop;
  w_read : A -> chunk -> Prop;
  w_bits : nat;
  w_refs : nat
}.
Arguments Layout {A}. Arguments w_ok {A}. Arguments w_write {A}. Arguments w_read {A}. Arguments w_bits {A}. Arguments w_refs {A}.

(** A codec does what a layout says. *)
Record lawful {A} (c : codec A) (l : layout A) : Prop := Lawful {
  law_ok : forall a, w_ok l a -> exists x, w_write l a x;
  law_store : forall a x, w_write l a x -> appends (c_store c a) x;
  law_load : reads_layout (c_load c) (w_read l);
  law_same : forall a x, w_write l a x -> w_read l a x;
  law_bits : forall a x, w_write l a x -> (length (fst x) <= w_bits l)%nat;
  law_refs : forall a x, w_write l a x -> (length (snd x) <= w_refs l)%nat
}.

(** The layouts of the fields of a structure. *)
Fixpoint laws (l : list field) : Type := match l with [] => unit | f :: l => (layout (f_ty f) * laws l)%type end.
Fixpoint all_lawful (l : list field) : laws l -> Prop :=
  match l return laws l -> Prop with
  | [] => fun _ => True
  | f :: l => fun w => lawful (f_codec f) (fst w) /\ all_lawful l (snd w)
  end.
(** All fields in range. *)
Fixpoint all_ok (l : list field) : laws l -> vals l -> Prop :=
  match l return laws l -> vals l -> Prop with
  | [] => fun _ _ => True
  | f :: l => fun w v => w_ok (fst w) (fst v) /\ all_ok l (snd w) (snd v)
  end.
(** In version [k] of a structure the fields of later versions are left out: they must have
    their default values. *)
Fixpoint holds (k : nat) (l : list field) : vals l -> Prop :=
  match l return vals l -> Prop with
  | [] => fun _ => True
  | f :: l => fun v =>
    match f_since f with
    | Some s => (k < v_index s)%nat -> fst v = v_default s
    | None => True
    end /\ holds k l (snd v)
  end.
(** The fields one after another, in the layouts that [side] picks. *)
Section Side.
Context (side : forall A, layout A -> A -> chunk -> Prop).
Fixpoint fields_c (k : option nat) (l : list field) : laws l -> vals l -> chunk -> Prop :=
  match l return laws l -> vals l -> chunk -> Prop with
  | [] => fun _ _ x => x = ([], [])
  | f :: l => fun w v x =>
    exists y z, x = capp y z /\ fields_c k l (snd w) (snd v) z /\
      if present k (f_since f) then side _ (fst w) (fst v) y else y = ([], [])
  end.
End Side.
Definition tag_c (t : tag) : chunk := (nbits (t_bits t) (t_value t), []).

(** Written: in the first version that holds the value.  Read: in any version. *)
Definition struct_write (s : struct) (w : laws (s_fields s)) (v : vals (s_fields s)) (x : chunk) : Prop :=
  s_valid s v = true /\
  match s_tags s with
  | NoTag => fields_c (@w_write) None (s_fields s) w v x
  | OneTag t => exists y, x = capp (tag_c t) y /\ fields_c (@w_write) None (s_fields s) w v y
  | ManyTags t ts => exists k tk y, nth_error (t :: ts) k = Some tk /\ holds k (s_fields s) v /\ (forall j, (j < k)%nat -> ~ holds j (s_fields s) v) /\
      x = capp (tag_c tk) y /\ fields_c (@w_write) (Some k) (s_fields s) w v y
  end.
Definition struct_read (s : struct) (w : laws (s_fields s)) (v : vals (s_fields s)) (x : chunk) : Prop :=
  s_valid s v = true /\
  match s_tags s with
  | NoTag => fields_c (@w_read) None (s_fields s) w v x
  | OneTag t => exists y, x = capp (tag_c t) y /\ fields_c (@w_read) None (s_fields s) w v y
  | ManyTags t ts => exists k tk y, nth_error (t :: ts) k = Some tk /\ holds k (s_fields s) v /\
      x = capp (tag_c tk) y /\ fields_c (@w_read) (Some k) (s_fields s) w v y
  end.
Fixpoint sum_bits (l : list field) : laws l -> nat := match l return laws l -> nat with [] => fun _ => O | f :: l => fun w => (w_bits (fst w) + sum_bits l (snd w))%nat end.
Fixpoint sum_refs (l : list field) : laws l -> nat := match l return laws l -> nat with [] => fun _ => O | f :: l => fun w => (w_refs (fst w) + sum_refs l (snd w))%nat end.
Definition tag_bits (t : tags) : nat := match t with NoTag => O | OneTag t | ManyTags t _ => t_bits t end.
Definition struct_layout (s : struct) (w : laws (s_fields s)) : layout (vals (s_fields s)) :=
  Layout (fun v => all_ok (s_fields s) w v /\ s_valid s v = true) (struct_write s w) (struct_read s w)
    (tag_bits (s_tags s) + sum_bits (s_fields s) w) (sum_refs (s_fields s) w).

(** What the compiler accepts: tags of one width and different values that have room in it,
    versions that exist, [==] that is equality. *)
Definition tag_ok (t : tag) : Prop := t_value t < 2 ^ N.of_nat (t_bits t).
Definition since_ok (n : nat) {A} (s : since A) : Prop := (v_index s <= n)%nat /\ forall a, v_same s a (v_default s) = true <-> a = v_default s.
Definition well_formed (s : struct) : Prop :=
  match s_tags s with
  | NoTag => True
  | OneTag t => tag_ok t
  | ManyTags t ts => Forall (fun u => tag_ok u /\ t_bits u = t_bits t) (t :: ts) /\ List.NoDup (map t_value (t :: ts)) /\
      Forall (fun f => match f_since f with Some s => since_ok (length ts) s | None => True end) (s_fields s)
  end.
