(** * Output actions: specification *)
From Verif Require Import Err CellModel NumSpec CurrencyModel CurrencySpec ChunkSpec DeriveModel DeriveSpec StructsModel StructsSpec CasesSpec ActionsModel.
Local Open Scope N_scope.

(** action_send_msg#0ec3c86d mode:(## 8) out_msg:^(MessageRelaxed Any)
    action_set_code#ad4de08e new_code:^Cell
    action_reserve_currency#36e6b809 mode:(## 8) currency:CurrencyCollection
    action_change_library#26fa1dd4 mode:(## 7) libref:LibRef
    libref_hash$0 lib_hash:bits256, libref_ref$1 library:^Cell *)
Definition out_action_w : layout out_action :=
  cases_w (fun a => match a with
    | SendMsg mode m => Branch (nbits 32 0x0ec3c86d) w[uint_w 8, lazy_w] (mode, (m, tt))
    | SetCode c => Branch (nbits 32 0xad4de08e) w[ref_w] (c, tt)
    | ReserveCurrency mode v => Branch (nbits 32 0x36e6b809) w[uint_w 8, currency_w] (mode, (v, tt))
    | ChangeLibrary mode (LibHash h) => Branch (nbits 32 0x26fa1dd4) w[uint_w 7, tag_w 1 0 hash_w] (mode, (h, tt))
    | ChangeLibrary mode (LibCell c) => Branch (nbits 32 0x26fa1dd4) w[uint_w 7, tag_w 1 1 ref_w] (mode, (c, tt))
    end) 296 1.

(** out_list_empty$_ = OutList 0; out_list$_ {n:#} prev:^(OutList n) action:OutAction =
    OutList (n + 1).  The actions in the order in which they were made; more may follow an
    action. *)
Inductive out_list : list out_action -> chunk -> Prop :=
| out_list_empty : out_list [] ([], [])
| out_list_next l a p x rest : out_list l p -> w_read out_action_w a x ->
    out_list (l ++ [a]) (capp ([], [Cell false (fst p) (snd p)]) (capp x rest)).
