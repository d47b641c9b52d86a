(** * Storing and loading primitive values (builder.rs:163-175, slice.rs:161-194)

    A value together with the width chosen by its type or by the caller. *)
From Verif Require Export CellBuilderModel.

Inductive ival :=
| V_bool (b : bool)
| V_u8 (v : N) | V_u16 (v : N) | V_u32 (v : N) | V_u64 (v : N) | V_u128 (v : N)
| V_i8 (v : Z) | V_i16 (v : Z) | V_i32 (v : Z) | V_i64 (v : Z) | V_i128 (v : Z)
| V_hash (bytes : list N)            (* HashBytes *)
| V_small (v bits : N)               (* store_small_uint / load_small_uint *)
| V_uint (v bits : N)                (* store_uint / load_uint *)
| V_raw (bytes : list N) (bits : N). (* store_raw / load_raw *)

(** [v as uW] and [v as iW]: two's complement. *)
Definition as_unsigned (w : N) (v : Z) : N := Z.to_N (v mod 2 ^ Z.of_N w).
Definition as_signed (w v : N) : Z :=
  if v <? 2 ^ (w - 1) then Z.of_N v else (Z.of_N v - 2 ^ Z.of_N w)%Z.

Section V.
Context {R : Type}.

(** builder.rs:163-175 *)
Definition store_ival (v : ival) : bop R :=
  match v with
  | V_bool b => B_bit b
  | V_u8 v => B_u8 v | V_u16 v => B_u16 v | V_u32 v => B_u32 v | V_u64 v => B_u64 v | V_u128 v => B_u128 v
  | V_i8 v => B_u8 (as_unsigned 8 v)
  | V_i16 v => B_u16 (as_unsigned 16 v)
  | V_i32 v => B_u32 (as_unsigned 32 v)
  | V_i64 v => B_u64 (as_unsigned 64 v)
  | V_i128 v => B_u128 (as_unsigned 128 v)
  | V_hash bytes => B_u256 bytes
  | V_small v bits => B_small v bits
  | V_uint v bits => B_uint v bits
  | V_raw bytes bits => B_raw bytes bits
  end.

Definition rmap {A B} (f : A -> B) (x : res A * slice R) : res B * slice R :=
  (let? a := fst x in Ok (f a), snd x).

(** slice.rs:161-194: read a value of the type / width of [v]. *)
Definition load_like (v : ival) (s : slice R) : res ival * slice R :=
  match v with
  | V_bool _ => rmap V_bool (load_bit s)
  | V_u8 _ => rmap V_u8 (load_u8 s)
  | V_u16 _ => rmap V_u16 (load_u16 s)
  | V_u32 _ => rmap V_u32 (load_u32 s)
  | V_u64 _ => rmap V_u64 (load_u64 s)
  | V_u128 _ => rmap V_u128 (load_u128 s)
  | V_i8 _ => rmap (fun x => V_i8 (as_signed 8 x)) (load_u8 s)
  | V_i16 _ => rmap (fun x => V_i16 (as_signed 16 x)) (load_u16 s)
  | V_i32 _ => rmap (fun x => V_i32 (as_signed 32 x)) (load_u32 s)
  | V_i64 _ => rmap (fun x => V_i64 (as_signed 64 x)) (load_u64 s)
  | V_i128 _ => rmap (fun x => V_i128 (as_signed 128 x)) (load_u128 s)
  | V_hash _ => rmap V_hash (load_u256 s)
  | V_small _ bits => rmap (fun x => V_small x bits) (load_small_uint s bits)
  | V_uint _ bits => rmap (fun x => V_uint x bits) (load_uint s bits)
  | V_raw _ bits => rmap (fun x => V_raw x bits) (load_raw s (N.to_nat ((bits + 7) / 8)) bits)
  end.

Fixpoint load_all (vs : list ival) (s : slice R) : res (list ival) * slice R :=
  match vs with
  | [] => (Ok [], s)
  | v :: vs' =>
    match load_like v s with
    | (Ok x, s') =>
      match load_all vs' s' with
      | (Ok xs, s'') => (Ok (x :: xs), s'')
      | (Err e, s'') => (Err e, s'')
      end
    | (Err e, s') => (Err e, s')
    end
  end.

End V.
