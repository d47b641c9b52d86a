(** * SHA-256 (FIPS 180-4).

    The hashing theorems are stated for every function that returns 32 bytes and maps the
    representation of the empty cell to the constant in the code; this file provides the
    function the code uses (crate [sha2], not part of /repo), so that the assumptions are
    seen to hold and constants in the code can be checked. *)
From Verif Require Import Err BitsProofs.
Local Open Scope N_scope.

Definition sha_k : list N := [
  0x428a2f98; 0x71374491; 0xb5c0fbcf; 0xe9b5dba5; 0x3956c25b; 0x59f111f1; 0x923f82a4; 0xab1c5ed5;
  0xd807aa98; 0x12835b01; 0x243185be; 0x550c7dc3; 0x72be5d74; 0x80deb1fe; 0x9bdc06a7; 0xc19bf174;
  0xe49b69c1; 0xefbe4786; 0x0fc19dc6; 0x240ca1cc; 0x2de92c6f; 0x4a7484aa; 0x5cb0a9dc; 0x76f988da;
  0x983e5152; 0xa831c66d; 0xb00327c8; 0xbf597fc7; 0xc6e00bf3; 0xd5a79147; 0x06ca6351; 0x14292967;
  0x27b70a85; 0x2e1b2138; 0x4d2c6dfc; 0x53380d13; 0x650a7354; 0x766a0abb; 0x81c2c92e; 0x92722c85;
  0xa2bfe8a1; 0xa81a664b; 0xc24b8b70; 0xc76c51a3; 0xd192e819; 0xd6990624; 0xf40e3585; 0x106aa070;
  0x19a4c116; 0x1e376c08; 0x2748774c; 0x34b0bcb5; 0x391c0cb3; 0x4ed8aa4a; 0x5b9cca4f; 0x682e6ff3;
  0x748f82ee; 0x78a5636f; 0x84c87814; 0x8cc70208; 0x90befffa; 0xa4506ceb; 0xbef9a3f7; 0xc67178f2].

Record st := St { sa : N; sb : N; sc : N; sd : N; se : N; sf : N; sg : N; sh : N }.
Definition sha_init : st := St 0x6a09e667 0xbb67ae85 0x3c6ef372 0xa54ff53a 0x510e527f 0x9b05688c 0x1f83d9ab 0x5be0cd19.

(** A number modulo 2^32. *)
Definition mask32 (x : N) : N := N.land x 0xffffffff.
Definition add32 (a b : N) : N := mask32 (a + b).
Definition rotr (n x : N) : N := N.lor (N.shiftr x n) (mask32 (N.shiftl x (32 - n))).
Definition not32 (x : N) : N := 0xffffffff - x.
Definition ch x y z := N.lxor (N.land x y) (N.land (not32 x) z).
Definition maj x y z := N.lxor (N.lxor (N.land x y) (N.land x z)) (N.land y z).
Definition bsig0 x := N.lxor (N.lxor (rotr 2 x) (rotr 13 x)) (rotr 22 x).
Definition bsig1 x := N.lxor (N.lxor (rotr 6 x) (rotr 11 x)) (rotr 25 x).
Definition ssig0 x := N.lxor (N.lxor (rotr 7 x) (rotr 18 x)) (N.shiftr x 3).
Definition ssig1 x := N.lxor (N.lxor (rotr 17 x) (rotr 19 x)) (N.shiftr x 10).

(** The schedule as a window of the last 16 words. *)
Definition next_w (w : list N) : N :=
  add32 (add32 (ssig1 (nth 14 w 0)) (nth 9 w 0)) (add32 (ssig0 (nth 1 w 0)) (nth 0 w 0)).
Definition round (s : st) (k w : N) : st :=
  let t1 := add32 (add32 (add32 (sh s) (bsig1 (se s))) (ch (se s) (sf s) (sg s))) (add32 k w) in
  let t2 := add32 (bsig0 (sa s)) (maj (sa s) (sb s) (sc s)) in
  St (add32 t1 t2) (sa s) (sb s) (sc s) (add32 (sd s) t1) (se s) (sf s) (sg s).
Fixpoint rounds (ks : list N) (w : list N) (s : st) : st :=
  match ks with
  | [] => s
  | k :: ks' => rounds ks' (tail w ++ [next_w w]) (round s k (nth 0 w 0))
  end.
Definition add_st (a b : st) : st :=
  St (add32 (sa a) (sa b)) (add32 (sb a) (sb b)) (add32 (sc a) (sc b)) (add32 (sd a) (sd b))
     (add32 (se a) (se b)) (add32 (sf a) (sf b)) (add32 (sg a) (sg b)) (add32 (sh a) (sh b)).
Definition words (b : list N) : list N := map (fun i => from_be (take 4 (drop (4 * i) b))) (seq 0 16).
Definition block (s : st) (b : list N) : st := add_st s (rounds sha_k (words b) s).
(** Padding to a multiple of 64 bytes. *)
Definition pad_len (n : nat) : nat := (64 - (n + 9) mod 64) mod 64.
Definition sha_pad (m : list N) : list N :=
  m ++ [0x80] ++ repeat 0 (pad_len (length m)) ++ to_be 8 (8 * N.of_nat (length m)).
Fixpoint blocks (n : nat) (m : list N) (s : st) : st :=
  match n with O => s | S n' => blocks n' (drop 64 m) (block s (take 64 m)) end.
Definition sha256 (m : list N) : list N :=
  let p := sha_pad m in
  let s := blocks (length p / 64) p sha_init in
  concat (map (to_be 4) [sa s; sb s; sc s; sd s; se s; sf s; sg s; sh s]).

Lemma sha256_bytes x : length (sha256 x) = 32%nat /\ Forall byte_ok (sha256 x).
Proof.
  unfold sha256. cbn zeta. cbn [map concat]. rewrite !app_length, !to_be_length. split; [reflexivity|].
  repeat (apply Forall_app; split); try apply to_be_ok. constructor.
Qed.
(** FIPS test vectors: the empty string and "abc". *)
Example sha256_empty : from_be (sha256 []) = 0xe3b0c44298fc1c149afbf4c8996fb92427ae41e4649b934ca495991b7852b855.
Proof. vm_compute. reflexivity. Qed.
Example sha256_abc : from_be (sha256 [0x61; 0x62; 0x63]) = 0xba7816bf8f01cfea414140de5dae2223b00361a396177a9cb410ff61f20015ad.
Proof. vm_compute. reflexivity. Qed.
