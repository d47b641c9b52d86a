(** * The layout of messages (TL-B), written down independently of the code

    [U] is the notation of numbers of variable length: [var_uint_bits] the shortest one,
    [loose_var_uint_bits] the one that readers accept.  [tail] says what may follow behind a
    structure that is alone in a referenced cell. *)
From Verif Require Import Err IntModel NumSpec AddrModel AddrSpec CellModel ChunkSpec CurrencyModel CurrencySpec MessageModel.
Local Open Scope N_scope.

Definition no_tail (t : chunk) : Prop := t = ([], []).
Definition any_tail (t : chunk) : Prop := True.
(** Several parts, one after another. *)
Fixpoint cat (l : list chunk) : chunk := match l with [] => ([], []) | x :: l => capp x (cat l) end.

(** tick_tock$_ tick:Bool tock:Bool = TickTock *)
Inductive special_c : special -> chunk -> Prop :=
| tick_tock t k : special_c (Special t k) ([t; k], []).
(** split_depth:(## 5); the type excludes 0 *)
Inductive depth_c : N -> chunk -> Prop :=
| depth_intro d : 1 <= d <= 31 -> depth_c d (nbits 5 d, []).
(** _ split_depth:(Maybe (## 5)) special:(Maybe TickTock) code:(Maybe ^Cell) data:(Maybe ^Cell)
    library:(HashmapE 256 SimpleLib) = StateInit *)
Inductive state_init_c : state_init -> chunk -> Prop :=
| state_init_intro d s k t l xd xs xk xt xl :
    maybe_c depth_c d xd -> maybe_c special_c s xs -> maybe_c cell_c k xk -> maybe_c cell_c t xt -> dict_c l xl ->
    state_init_c (StateInit d s k t l) (cat [xd; xs; xk; xt; xl]).

(** int_msg_info$0 ihr_disabled:Bool bounce:Bool bounced:Bool src:MsgAddressInt dest:MsgAddressInt
    value:CurrencyCollection ihr_fee:Grams fwd_fee:Grams created_lt:uint64 created_at:uint32
    (relaxed: src:MsgAddress) *)
Section Info.
Context (U : nat -> N -> list bool -> Prop).
Inductive int_info_c {A} (S : A -> list bool -> Prop) : int_info A -> chunk -> Prop :=
| int_info_intro h b d src xs dst xd v xv i xi w xw l xl a xa :
    bits_only S src xs -> bits_only int_tlb dst xd -> currency_c U v xv -> tokens_c U i xi -> tokens_c U w xw ->
    uint_c 64 l xl -> uint_c 32 a xa ->
    int_info_c S (IntInfo h b d src dst v i w l a) (cat [([false], []); ([h; b; d], []); xs; xd; xv; xi; xw; xl; xa]).
(** ext_in_msg_info$10 src:MsgAddressExt dest:MsgAddressInt import_fee:Grams *)
Inductive ext_in_c : ext_in -> chunk -> Prop :=
| ext_in_intro s xs d xd f xf : bits_only ext_tlb s xs -> bits_only int_tlb d xd -> tokens_c U f xf ->
    ext_in_c (ExtIn s d f) (cat [([true; false], []); xs; xd; xf]).
(** ext_out_msg_info$11 src:MsgAddressInt dest:MsgAddressExt created_lt:uint64 created_at:uint32
    (relaxed: src:MsgAddress) *)
Inductive ext_out_c {A} (S : A -> list bool -> Prop) : ext_out A -> chunk -> Prop :=
| ext_out_intro s xs d xd l xl a xa : bits_only S s xs -> bits_only ext_tlb d xd -> uint_c 64 l xl -> uint_c 32 a xa ->
    ext_out_c S (ExtOut s d l a) (cat [([true; true], []); xs; xd; xl; xa]).
Inductive info_c : msg_info -> chunk -> Prop :=
| info_int i x : int_info_c int_tlb i x -> info_c (MInt i) x
| info_ext_in i x : ext_in_c i x -> info_c (MExtIn i) x
| info_ext_out i x : ext_out_c int_tlb i x -> info_c (MExtOut i) x.
Inductive relaxed_c : relaxed_info -> chunk -> Prop :=
| relaxed_int i x : int_info_c opt_int_tlb i x -> relaxed_c (RInt i) x
| relaxed_ext_out i x : ext_out_c opt_int_tlb i x -> relaxed_c (RExtOut i) x.
End Info.

(** left$0 value:X = Either X ^X;  right$1 value:^X = Either X ^X.  The flag says which. *)
Inductive either_c {A} (tail : chunk -> Prop) (L : A -> chunk -> Prop) : bool -> A -> chunk -> Prop :=
| either_left a x : L a x -> either_c tail L false a (capp ([false], []) x)
| either_right a x t : L a x -> tail t -> either_c tail L true a ([true], [Cell false (fst (capp x t)) (snd (capp x t))]).
(** init:(Maybe (Either StateInit ^StateInit)) *)
Inductive init_c (tail : chunk -> Prop) : bool -> option state_init -> chunk -> Prop :=
| init_none : init_c tail false None ([false], [])
| init_some f s x : either_c tail state_init_c f s x -> init_c tail f (Some s) (capp ([true], []) x).
(** body:(Either X ^X), for a body [b] given by its bits and references *)
Inductive body_c : bool -> chunk -> chunk -> Prop :=
| body_left b : body_c false b (capp ([false], []) b)
| body_right b : body_c true b ([true], [Cell false (fst b) (snd b)]).

(** message$_ info:CommonMsgInfo init:(Maybe (Either StateInit ^StateInit)) body:(Either X ^X) *)
Inductive message_c {I} (tail : chunk -> Prop) (L : I -> chunk -> Prop) : message I chunk -> chunk -> Prop :=
| message_intro i xi s xs b xb l : L i xi -> init_c tail (init_to_cell l) s xs -> body_c (body_to_cell l) b xb ->
    message_c tail L (Message i s b (Some l)) (cat [xi; xs; xb]).

(** A chunk that fits into a cell. *)
Definition fits (x : chunk) : Prop := (length (fst x) <= 1023)%nat /\ (length (snd x) <= 4)%nat.
(** The layouts, those with fewer cells first; the first of them in which a message fits. *)
Definition layouts : list layout := [Layout false false; Layout false true; Layout true false; Layout true true].
Definition with_layout {I B} (m : message I B) (l : layout) : message I B := Message (m_info m) (m_init m) (m_body m) (Some l).
(** The cells that are built for the init and the body are accepted. *)
Definition accepted {I} (fin : list bool -> list cell -> res unit) (m : message I chunk) : Prop :=
  (forall s x, m_init m = Some s -> state_init_c s x -> fin (fst x) (snd x) = Ok tt)
  /\ fin (fst (m_body m)) (snd (m_body m)) = Ok tt /\ builder_ok (m_body m).
(** [x] is what the message is written as in the first of the layouts in which it fits. *)
Definition first_fit {I} (L : I -> chunk -> Prop) (m : message I chunk) (x : chunk) : Prop :=
  exists pre l post, layouts = pre ++ l :: post /\ message_c no_tail L (with_layout m l) x /\ fits x
    /\ Forall (fun l' => forall x', message_c no_tail L (with_layout m l') x' -> ~ fits x') pre.
Definition fits_never {I} (L : I -> chunk -> Prop) (m : message I chunk) : Prop :=
  forall l x, message_c no_tail L (with_layout m l) x -> ~ fits x.
