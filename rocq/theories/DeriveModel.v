(** * Derived codecs: proc/src/derive_store.rs, proc/src/derive_load.rs

    The procedural macro writes, for a structure with its attributes, the bodies of
    [Store::store_into] and [Load::load_from].  Here the bodies are functions of a description
    of the structure; a value of a structure is the tuple of its fields in their order.

    Simplified: the description has the widths and values of the tags (attr.rs:141-196 reads
    them from texts such as "#01"); what the macro refuses to compile is excluded by [well_formed]
    in DeriveSpec. *)
From Verif Require Import Err IntModel CellModel ChunkModel.
Local Open Scope N_scope.

(** An implementation of [Store] and [Load]. *)
Record codec (A : Type) := Codec { c_store : A -> chunk -> res chunk; c_load : chunk -> res (A * chunk) }.
Arguments Codec {A}. Arguments c_store {A}. Arguments c_load {A}.

(** attr.rs:85-125: [#[tlb(since_tag = i)]]; with it come [Default::default] and [!=] of the type *)
Record since (A : Type) := Since { v_index : nat; v_default : A; v_same : A -> A -> bool }.
Arguments Since {A}. Arguments v_index {A}. Arguments v_default {A}. Arguments v_same {A}.
Record field := Field { f_ty : Type; f_codec : codec f_ty; f_since : option (since f_ty) }.
Fixpoint vals (l : list field) : Type := match l with [] => unit | f :: l => (f_ty f * vals l)%type end.
(** attr.rs:60-83 [TlbTag], [ContainerTag] *)
Record tag := Tag { t_bits : nat; t_value : N }.
Inductive tags := NoTag | OneTag (t : tag) | ManyTags (first : tag) (more : list tag).
Record struct := Struct { s_tags : tags; s_fields : list field; s_valid : vals s_fields -> bool }.

(** derive_store.rs:163-180: the version guards, [max] over the fields that are not default *)
Fixpoint tag_version (l : list field) : vals l -> nat :=
  match l return vals l -> nat with
  | [] => fun _ => O
  | f :: l => fun v =>
    match f_since f with
    | Some s => Nat.max (if v_same s (fst v) (v_default s) then O else v_index s) (tag_version l (snd v))
    | None => tag_version l (snd v)
    end
  end.
(** derive_store.rs:69-86: [if tag_version >= since] *)
Definition present {A} (k : option nat) (s : option (since A)) : bool :=
  match k, s with Some k, Some s => (v_index s <=? k)%nat | _, _ => true end.
(** derive_store.rs:62-90 *)
Fixpoint store_fields (k : option nat) (l : list field) : vals l -> chunk -> res chunk :=
  match l return vals l -> chunk -> res chunk with
  | [] => fun _ b => Ok b
  | f :: l => fun v b =>
    let? b := (if present k (f_since f) then c_store (f_codec f) (fst v) b else Ok b) in
    store_fields k l (snd v) b
  end.
(** derive_store.rs:113-145 [store_tag] *)
Definition store_tag (t : tag) (b : chunk) : res chunk := store_un (t_bits t) (t_value t) b.
(** derive_store.rs:50-111, 182-206 [build_struct], [store_tags_versioned]: the match over the
    used tags, the first tag otherwise *)
Definition has_since (l : list field) : bool := existsb (fun f => match f_since f with Some _ => true | None => false end) l.
Definition store_struct (s : struct) (v : vals (s_fields s)) (b : chunk) : res chunk :=
  if negb (s_valid s v) then Err InvalidData
  else
    match s_tags s with
    | NoTag => store_fields None (s_fields s) v b
    | OneTag t => let? b := store_tag t b in store_fields None (s_fields s) v b
    | ManyTags t ts =>
      if has_since (s_fields s) then
        let k := tag_version (s_fields s) v in
        let? b := store_tag (nth k (t :: ts) t) b in
        store_fields (Some k) (s_fields s) v b
      else
        let? b := store_tag t b in
        store_fields None (s_fields s) v b
    end.

(** derive_load.rs:83-101 *)
Fixpoint load_fields (k : option nat) (l : list field) : chunk -> res (vals l * chunk) :=
  match l return chunk -> res (vals l * chunk) with
  | [] => fun b => Ok (tt, b)
  | f :: l => fun b =>
    let? (a, b) := (match f_since f with
                    | Some s => if present k (Some s) then c_load (f_codec f) b else Ok (v_default s, b)
                    | None => c_load (f_codec f) b
                    end) in
    let? (v, b) := load_fields k l b in
    Ok ((a, v), b)
  end.
(** derive_load.rs:135-146 [load_tag] *)
Definition load_tag (t : tag) (b : chunk) : res (unit * chunk) :=
  let? (x, b) := load_un (t_bits t) b in
  if x =? t_value t then Ok (tt, b) else Err InvalidTag.
(** derive_load.rs:148-196 [load_tags_versioned]: the index of the first tag with the value *)
Fixpoint tag_index (x : N) (l : list tag) (i : nat) : option nat :=
  match l with
  | [] => None
  | t :: l => if x =? t_value t then Some i else tag_index x l (S i)
  end.
Definition load_tags (t : tag) (ts : list tag) (b : chunk) : res (nat * chunk) :=
  let? (x, b) := load_un (t_bits t) b in
  match tag_index x (t :: ts) 0 with Some i => Ok (i, b) | None => Err InvalidTag end.
(** derive_load.rs:66-133 [build_struct] *)
Definition load_struct (s : struct) (b : chunk) : res (vals (s_fields s) * chunk) :=
  let? (v, b) :=
    (match s_tags s with
     | NoTag => load_fields None (s_fields s) b
     | OneTag t => let? (_, b) := load_tag t b in load_fields None (s_fields s) b
     | ManyTags t ts => let? (k, b) := load_tags t ts b in load_fields (Some k) (s_fields s) b
     end) in
  if s_valid s v then Ok (v, b) else Err InvalidData.
Definition derived (s : struct) : codec (vals (s_fields s)) := Codec (store_struct s) (load_struct s).
