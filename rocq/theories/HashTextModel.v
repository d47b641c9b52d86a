(** * Text forms of hashes and of bags of cells (src/cell/mod.rs, src/boc/mod.rs, src/util.rs).

    Text is a list of bytes.  The errors of the parsers are not told apart. *)
From Verif Require Import Err CellModel TextModel FcellSpec HashModel BocModel.
Local Open Scope N_scope.

(** ** Base64 with padding ([base64] 0.22, [general_purpose::STANDARD]: padding is written and
    required, the unused bits of the last character must be zero) *)
(** util.rs:119-125 [encode_base64] *)
Fixpoint encode_base64 (bytes : list N) : list N :=
  match bytes with
  | a :: b :: c :: r =>
    b64_char false (N.shiftr a 2) :: b64_char false (N.lor (shl 6 a 4) (N.shiftr b 4))
    :: b64_char false (N.lor (shl 6 b 2) (N.shiftr c 6)) :: b64_char false (N.land c 63) :: encode_base64 r
  | [a; b] => [b64_char false (N.shiftr a 2); b64_char false (N.lor (shl 6 a 4) (N.shiftr b 4)); b64_char false (shl 6 b 2); 61]
  | [a] => [b64_char false (N.shiftr a 2); b64_char false (shl 6 a 4); 61; 61]
  | [] => []
  end.
(** the last four characters *)
Definition last_quad (p q r t : N) : option (list N) :=
  if t =? 61 then
    if r =? 61 then
      match b64_val false p, b64_val false q with
      | Some a, Some b => if N.land b 15 =? 0 then Some [N.lor (shl 8 a 2) (N.shiftr b 4)] else None
      | _, _ => None
      end
    else
      match b64_val false p, b64_val false q, b64_val false r with
      | Some a, Some b, Some c =>
        if N.land c 3 =? 0 then Some [N.lor (shl 8 a 2) (N.shiftr b 4); N.lor (shl 8 b 4) (N.shiftr c 2)] else None
      | _, _, _ => None
      end
  else b64_decode false [p; q; r; t].
(** util.rs:129-135 [decode_base64] *)
Fixpoint decode_base64 (s : list N) : option (list N) :=
  match s with
  | [] => Some []
  | p :: q :: r :: t :: s' =>
    match s' with
    | [] => last_quad p q r t
    | _ =>
      match b64_val false p, b64_val false q, b64_val false r, b64_val false t, decode_base64 s' with
      | Some a, Some b, Some c, Some d, Some rest =>
        Some (N.lor (shl 8 a 2) (N.shiftr b 4) :: N.lor (shl 8 b 4) (N.shiftr c 2) :: N.lor (shl 8 c 6) d :: rest)
      | _, _, _, _, _ => None
      end
    end
  | _ => None
  end.
(** util.rs:137-154 [decode_base64_slice] into [n] zero bytes: more bytes are an error, less leave
    zeros, because the number of bytes written is dropped *)
Definition decode_base64_slice (n : nat) (s : list N) : option (list N) :=
  match decode_base64 s with
  | Some bs => if (n <? length bs)%nat then None else Some (bs ++ replicate (n - length bs) 0)
  | None => None
  end.

(** ** Hashes *)
(** [str::is_char_boundary] inside of a text: not a continuation byte *)
Definition boundary (i : nat) (s : list N) : bool :=
  match s !! i with Some c => (c <? 128) || (192 <=? c) | None => false end.
(** mod.rs:799-825 [HashBytes::from_str]; slicing inside of a character panics *)
Definition parse_hash (s : list N) : res (list N) :=
  match length s with
  | 64%nat => of_opt InvalidData (hex_decode_to 32 s)
  | 66%nat => if boundary 2 s then of_opt InvalidData (hex_decode_to 32 (drop 2 s)) else Err Panic
  | 44%nat => of_opt InvalidData (decode_base64_slice 32 s)
  | _ => Err InvalidData
  end.
(** mod.rs:676-683 [fmt_hex]; 827-845 [Display], [LowerHex], [UpperHex] *)
Definition show_hash (upper : bool) (h : list N) : list N := hex_encode (if upper then HEX_UPPER else HEX_LOWER) h.
(** mod.rs:891-910 [serialize], 912-962 [deserialize]: what is given to and by the format *)
Definition serde_hash (human_readable : bool) (h : list N) : list N := if human_readable then show_hash false h else h.
Definition unserde_hash (human_readable : bool) (x : list N) : option (list N) :=
  if human_readable then hex_decode_to 32 x else if (length x =? 32)%nat then Some x else None.

(** ** Bags of cells *)
Section Boc.
Context (crc : N -> list N -> N) (sha : list N -> list N).
(** boc/mod.rs:93-98 [encode_hex], 103-108 [encode_base64] *)
Definition boc_encode_hex (c : fcell) : res (list N) := let? bytes := boc_encode crc c in Ok (hex_encode HEX_LOWER bytes).
Definition boc_encode_base64 (c : fcell) : res (list N) := let? bytes := boc_encode crc c in Ok (encode_base64 bytes).
(** boc/mod.rs:206-214 [decode_hex], 220-228 [decode_base64] *)
Definition boc_decode_hex (s : list N) : bres fcell :=
  match hex_decode s with Some data => decode crc sha data | None => BErr UnknownBocTag end.
Definition boc_decode_base64 (s : list N) : bres fcell :=
  match decode_base64 s with Some data => decode crc sha data | None => BErr UnknownBocTag end.
End Boc.
