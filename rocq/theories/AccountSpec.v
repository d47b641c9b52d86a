(** * The layout of accounts (TL-B) *)
From Verif Require Import Err IntModel NumSpec AddrModel AddrSpec CellModel ChunkSpec CurrencyModel CurrencySpec MessageModel MessageSpec LazySpec AccountModel.
Local Open Scope N_scope.

(** storage_extra_none$000 = StorageExtraInfo;
    storage_extra_info$001 dict_hash:uint256 = StorageExtraInfo *)
Inductive extra_c : extra -> chunk -> Prop :=
| extra_none : extra_c NoExtra ([false; false; false], [])
| extra_hash h x : bytes_c 32 h x -> extra_c (DictHash h) (cat [([false; false; true], []); x]).
(** acc_state_uninit$00, acc_state_frozen$01, acc_state_active$10, acc_state_nonexist$11 *)
Inductive status_c : status -> chunk -> Prop :=
| status_uninit : status_c SUninit ([false; false], [])
| status_frozen : status_c SFrozen ([false; true], [])
| status_active : status_c SActive ([true; false], [])
| status_none : status_c SNotExists ([true; true], []).
(** account_uninit$00;  account_active$1 _:StateInit;  account_frozen$01 state_hash:bits256 *)
Inductive state_c : account_state -> chunk -> Prop :=
| state_uninit : state_c Uninit ([false; false], [])
| state_active s x : state_init_c s x -> state_c (Active s) (cat [([true], []); x])
| state_frozen h x : bytes_c 32 h x -> state_c (Frozen h) (cat [([false; true], []); x]).
(** shared_lib$_ public:Bool root:^Cell = SimpleLib *)
Inductive lib_c : simple_lib -> chunk -> Prop :=
| lib_intro p xp r xr : bool_c p xp -> cell_c r xr -> lib_c (SimpleLib p r) (cat [xp; xr]).
(** account_descr$_ account:^Account last_trans_hash:bits256 last_trans_lt:uint64 = ShardAccount *)
Inductive shard_account_c : shard_account -> chunk -> Prop :=
| shard_account_intro a xa h xh l xl : lazy_c false a xa -> bytes_c 32 h xh -> uint_c 64 l xl -> shard_account_c (ShardAccount a h l) (cat [xa; xh; xl]).

Section Amounts.
Context (U : nat -> N -> list bool -> Prop).
(** storage_used$_ cells:(VarUInteger 7) bits:(VarUInteger 7) = StorageUsed *)
Inductive used_c : used -> chunk -> Prop :=
| used_intro n xn b xb : bits_only (U 3%nat) n xn -> bits_only (U 3%nat) b xb -> used_c (Used n b) (cat [xn; xb]).
(** storage_info$_ used:StorageUsed storage_extra:StorageExtraInfo last_paid:uint32
    due_payment:(Maybe Grams) = StorageInfo *)
Inductive storage_c : storage_info -> chunk -> Prop :=
| storage_intro u xu e xe p xp d xd : used_c u xu -> extra_c e xe -> uint_c 32 p xp -> maybe_c (tokens_c U) d xd ->
    storage_c (StorageInfo u e p d) (cat [xu; xe; xp; xd]).
(** account_storage$_ last_trans_lt:uint64 balance:CurrencyCollection state:AccountState;
    account$1 addr:MsgAddressInt storage_stat:StorageInfo storage:AccountStorage = Account *)
Inductive storage_part_c : N -> currency -> account_state -> chunk -> Prop :=
| storage_part l xl v xv s xs : uint_c 64 l xl -> currency_c U v xv -> state_c s xs -> storage_part_c l v s (cat [xl; xv; xs]).
Inductive account_c : account -> chunk -> Prop :=
| account_intro a xa t xt l v s xs : bits_only int_tlb a xa -> storage_c t xt -> storage_part_c l v s xs ->
    account_c (Account a t l v s) (cat [xa; xt; xs]).
(** account_none$0 = Account *)
Definition optional_c : option account -> chunk -> Prop := maybe_c account_c.
End Amounts.

(** [stats] counts the different cells of a tree, unless there are more than the limit. *)
From Verif Require Import StatSpec.
Definition counts (stats : cell -> N -> option (N * N)) : Prop :=
  forall c lim l, 0 < lim -> distinct [c] l -> stats c lim = if N.of_nat (length l) <=? lim then Some (total_bits l, N.of_nat (length l)) else None.
