(** * The shards of a workchain as a binary tree *)
From Coq Require Import Sorting.Sorted.
From Verif Require Import Err BitsProofs CellModel ShardModel ShardSpec CurrencyModel ChunkSpec DictSpec DeriveModel DeriveSpec StructsModel StructsSpec CasesSpec ParamsSpec HashesModel.
Local Open Scope N_scope.

(** ** Trees *)
(** bt_leaf$0 {X:Type} leaf:X = BinTree X;
    bt_fork$1 {X:Type} left:^(BinTree X) right:^(BinTree X) = BinTree X *)
Inductive tree (A : Type) := Leaf (x : A) | Fork (l r : tree A).
Arguments Leaf {A} x.
Arguments Fork {A} l r.
Inductive bintree : cell -> tree chunk -> Prop :=
| bt_leaf b r : bintree (Cell false (false :: b) r) (Leaf (b, r))
| bt_fork b l r rest tl tr : bintree l tl -> bintree r tr -> bintree (Cell false (true :: b) (l :: r :: rest)) (Fork tl tr).
Fixpoint height {A} (t : tree A) : nat := match t with Leaf _ => 0%nat | Fork l r => S (Nat.max (height l) (height r)) end.
(** The leaves with the paths to them, from left to right. *)
Fixpoint leaves {A} (path : list bool) (t : tree A) : list (list bool * A) :=
  match t with Leaf x => [(path, x)] | Fork l r => leaves (path ++ [false]) l ++ leaves (path ++ [true]) r end.
(** What is said about the shards at the leaves. *)
Definition shards_of {A} (wc : Z) (t : tree A) : list (shard * A) := map (fun p => (shard_at wc (fst p), snd p)) (leaves [] t).

(** The leaves of whatever cell, up to the first error: cells with both kinds of forks and
    leaves, missing references, empty cells and forks below the depth [d] in them. *)
Definition andthen {A} (x y : list A * option err) : list A * option err :=
  match snd x with None => (fst x ++ fst y, snd y) | Some _ => x end.
Fixpoint walk (d : nat) (path : list bool) (c : cell) : list (list bool * chunk) * option err :=
  match c with
  | Cell true _ _ => ([], Some UnexpectedExoticCell)
  | Cell false [] _ => ([], Some CellUnderflow)
  | Cell false (false :: b) r => ([(path, (b, r))], None)
  | Cell false (true :: _) r =>
    match d with
    | O => ([], Some CellUnderflow)
    | S d =>
      match r with
      | [] => ([], Some CellUnderflow)
      | [l] => andthen (walk d (path ++ [false]) l) ([], Some CellUnderflow)
      | l :: r :: _ => andthen (walk d (path ++ [false]) l) (walk d (path ++ [true]) r)
      end
    end
  end.
(** The items an iterator has to return for the tree of a workchain: nothing, not even an error,
    for a root without any bits. *)
Definition tree_items (wc : Z) (c : cell) : list (res (shard * chunk)) :=
  match c with
  | Cell false [] _ => []
  | _ =>
    let '(l, e) := walk 60 [] c in
    map (fun p => Ok (shard_at wc (fst p), snd p)) l ++ match e with Some e => [Err e] | None => [] end
  end.
(** The same for all workchains, given the entries of the dictionary: an error in one tree does
    not end the iteration. *)
Fixpoint all_items (es : list entry) : list (res (shard * chunk)) :=
  match es with
  | [] => []
  | (k, (_, [])) :: _ => [Err CellUnderflow]
  | (k, (_, c :: _)) :: es => tree_items (IntModel.as_signed 32 (bval k)) c ++ all_items es
  end.
(** The results of [i] calls of an iterator that returns the items [l] and then ends. *)
Definition gives {A} (i : nat) (l : list (res A)) : list (option (res A)) := take i (map Some l ++ replicate i None).
(** The items of a raw iterator parsed; a value that is not understood ends the iteration. *)
Fixpoint parse_items {V A} (parse : shard -> V -> res A) (l : list (res (shard * V))) : list (res A) :=
  match l with
  | [] => []
  | Err e :: l => Err e :: parse_items parse l
  | Ok (s, v) :: l => match parse s v with Ok a => Ok a :: parse_items parse l | Err e => [Err e] end
  end.
Definition raw_view (x : res (shard * sl)) : res (shard * chunk) := let? (s, v) := x in Ok (s, s_chunk v).

(** ** Partitions *)
(** Every account belongs to one of the shards, and no account to two of them. *)
Definition partition (l : list shard) : Prop :=
  forall a, Forall byte_ok a -> length a = 32%nat ->
  exists l1 s l2, l = l1 ++ s :: l2 /\ contains_account s a = Ok true /\ Forall (fun s' => contains_account s' a = Ok false) (l1 ++ l2).
(** No two of the shards overlap. *)
Definition disjoint (l : list shard) : Prop := forall l1 a l2, l = l1 ++ a :: l2 -> Forall (fun b => intersects a b = false) (l1 ++ l2).
(** The derived order of identifiers: by workchain, then by prefix. *)
Definition shard_lt (a b : shard) : Prop := (sh_wc a < sh_wc b)%Z \/ (sh_wc a = sh_wc b /\ sh_prefix a < sh_prefix b).
(** The order of iterators: the same for workchains that are not negative, and behind them the
    negative ones. *)
Definition visited_before (a b : shard) : Prop :=
  IntModel.as_unsigned 32 (sh_wc a) < IntModel.as_unsigned 32 (sh_wc b) \/ (sh_wc a = sh_wc b /\ sh_prefix a < sh_prefix b).
(** The shards of a workchain, and the workchains there are. *)
Definition group {A} (wc : Z) (l : list (shard * A)) : list (shard * A) := List.filter (fun p => (sh_wc (fst p) =? wc)%Z) l.
Definition workchains {A} (l : list (shard * A)) (order : list Z) : Prop := List.NoDup order /\ forall wc, In wc order <-> exists p, In p l /\ sh_wc (fst p) = wc.
(** What sorting by identifier does. *)
Definition sorts {A} (sort : list (shard * A) -> list (shard * A)) : Prop :=
  forall l, Permutation l (sort l) /\ StronglySorted (fun a b => ~ shard_lt (fst b) (fst a)) (sort l).

(** ** Descriptions *)
(** fsm_none$0 = FutureSplitMerge; fsm_split$10 split_utime:uint32 interval:uint32;
    fsm_merge$11 merge_utime:uint32 interval:uint32 *)
Definition future_w : layout future :=
  cases_w (fun f => match f with FSplit u i => Branch [false] w[u32_w, u32_w] (u, (i, tt)) | FMerge u i => Branch [true] w[u32_w, u32_w] (u, (i, tt)) end) 65 0.
(** flags:(## 3) { flags = 0 }; read, the first of them is ignored. *)
Definition spare_w : layout unit := Layout (fun _ => True) (fun _ x => x = (nbits 3 0, [])) (fun _ x => exists b, x = ([b; false; false], [])) 3 0.
(** shard_descr#b seq_no:uint32 reg_mc_seqno:uint32 start_lt:uint64 end_lt:uint64 root_hash:bits256
    file_hash:bits256 before_split:Bool before_merge:Bool want_split:Bool want_merge:Bool
    nx_cc_updated:Bool flags:(## 3) { flags = 0 } next_catchain_seqno:uint32
    next_validator_shard:uint64 min_ref_mc_seqno:uint32 gen_utime:uint32
    split_merge_at:FutureSplitMerge fees_collected:CurrencyCollection funds_created:CurrencyCollection
    shard_descr_new#a ... ^[ fees_collected:CurrencyCollection funds_created:CurrencyCollection ] *)
Definition sdescr_head_w := w[u32_w, u32_w, u64_w, u64_w, hash_w, hash_w, w[bool_w, bool_w, bool_w, bool_w, bool_w, spare_w], u32_w, u64_w, u32_w, u32_w, maybe_w future_w].
Definition sdescr_head (d : sdescr) :=
  (sd_seqno d, (sd_reg_mc d, (sd_start_lt d, (sd_end_lt d, (sd_root d, (sd_file d,
  ((sd_before_split d, (sd_before_merge d, (sd_want_split d, (sd_want_merge d, (sd_nx_cc d, (tt, tt)))))),
  (sd_catchain d, (sd_validator_shard d, (sd_min_ref d, (sd_utime d, (sd_at d, tt)))))))))))).
Definition sdescr_view (d : sdescr) := (sdescr_head d, (sd_fees d, (sd_created d, tt))).
Definition sdescr_w (fin : list bool -> list cell -> res unit) : layout sdescr :=
  or_w (as_w sdescr_view (tag_w 4 0xa (seq_w sdescr_head_w (in_cell_w fin w[currency_w, currency_w]))))
    (fun d x => w_read (tag_w 4 0xb (seq_w sdescr_head_w w[currency_w, currency_w])) (sdescr_view d) x).
