(** * The layouts of addresses (TL-B), as relations between a value and its bits. *)
From Verif Require Import Err AddrModel.
Local Open Scope N_scope.

(** Two's complement. *)
Definition int_bits (w : nat) (z : Z) : list bool := nbits w (Z.to_N (z mod 2 ^ Z.of_nat w)).
Definition in_int (w : Z) (z : Z) : Prop := (- 2 ^ (w - 1) <= z < 2 ^ (w - 1))%Z.
Definition count (x : list bool) : N := N.of_nat (length x).

(** anycast_info$_ depth:(#<= 30) { depth >= 1 } rewrite_pfx:(bits depth) = Anycast;
    the field of five bits also allows 31. *)
Inductive anycast_tlb : anycast -> list bool -> Prop :=
| anycast_info pfx : 1 <= count pfx <= 31 ->
    anycast_tlb (Anycast (count pfx) (pack pfx)) (nbits 5 (count pfx) ++ pfx).
(** nothing$0 / just$1 value:X = Maybe X *)
Inductive maybe {A} (R : A -> list bool -> Prop) : option A -> list bool -> Prop :=
| nothing : maybe R None [false]
| just a x : R a x -> maybe R (Some a) (true :: x).
(** addr_std$10 anycast:(Maybe Anycast) workchain_id:int8 address:bits256 *)
Inductive std_tlb : std_addr -> list bool -> Prop :=
| addr_std ac x wc id : maybe anycast_tlb ac x -> in_int 8 wc -> Forall byte_ok id -> length id = 32%nat ->
    std_tlb (StdAddr ac wc id) ([true; false] ++ x ++ int_bits 8 wc ++ bytes_bits id).
(** addr_var$11 anycast:(Maybe Anycast) addr_len:(## 9) workchain_id:int32 address:(bits addr_len) *)
Inductive var_tlb : var_addr -> list bool -> Prop :=
| addr_var ac x wc ad : maybe anycast_tlb ac x -> in_int 32 wc -> count ad < 512 ->
    var_tlb (VarAddr ac (count ad) wc (pack ad)) ([true; true] ++ x ++ nbits 9 (count ad) ++ int_bits 32 wc ++ ad).
Inductive int_tlb : int_addr -> list bool -> Prop :=
| int_std a x : std_tlb a x -> int_tlb (IStd a) x
| int_var a x : var_tlb a x -> int_tlb (IVar a) x.
(** addr_none$00 *)
Inductive opt_int_tlb : option int_addr -> list bool -> Prop :=
| int_none : opt_int_tlb None [false; false]
| int_some a x : int_tlb a x -> opt_int_tlb (Some a) x.
(** addr_none$00 / addr_extern$01 len:(## 9) external_address:(bits len) *)
Inductive ext_tlb : option ext_addr -> list bool -> Prop :=
| ext_none : ext_tlb None [false; false]
| ext_some ad : count ad < 512 -> ext_tlb (Some (ExtAddr (count ad) (pack ad))) ([false; true] ++ nbits 9 (count ad) ++ ad).

(** A signed decimal number: an optional sign and digits. *)
Definition digits_of (n : N) (cs : list N) : Prop :=
  exists ds, ds <> [] /\ Forall (fun d => d < 10) ds /\ cs = map (fun d => 48 + d) ds
    /\ fold_left (fun a d => a * 10 + d) ds 0 = n.
Definition int_text (z : Z) (s : list N) : Prop :=
  exists n cs, digits_of n cs /\ ((s = cs \/ s = 43 :: cs) /\ z = Z.of_N n \/ s = 45 :: cs /\ z = (- Z.of_N n)%Z).

(** Two texts of the same length that differ at most inside of a window of [n] characters. *)
Definition near (n : nat) (s t : list N) : Prop :=
  exists p x y q, s = p ++ x ++ q /\ t = p ++ y ++ q /\ length x = length y /\ (length x <= n)%nat.

(** Base64: the characters of the two alphabets (RFC 4648), six bits per character. *)
Definition run_of (c : N) (n : nat) : list N := map (fun i => c + N.of_nat i) (seq 0 n).
Definition alphabet (url : bool) : list N :=
  run_of 65 26 ++ run_of 97 26 ++ run_of 48 10 ++ (if url then [45; 95] else [43; 47]).
Definition b64_text (url : bool) (bytes s : list N) : Prop :=
  exists vals, Forall2 (fun v c => alphabet url !! N.to_nat v = Some c) vals s
    /\ bytes_bits bytes = concat (map (nbits 6) vals).
Definition special (s : list N) : bool := existsb (fun c => (c =? 95) || (c =? 45)) s.
