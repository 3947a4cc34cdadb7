(** Independent specification of ChaCha20, Poly1305 and the AEAD of RFC 8439, written
    from the RFC and not from the model. Nothing here is taken from the M_*.v files. *)
From Coq Require Import ZArith List Bool.
Import ListNotations.
Open Scope Z_scope.

(** Values of a 32-bit word and of a byte. *)
Definition word32 (x : Z) : Prop := 0 <= x < 2 ^ 32.
Definition byte (x : Z) : Prop := 0 <= x < 256.
(** A byte string of a given length. *)
Definition bytes_n (n : nat) (l : list Z) : Prop := length l = n /\ Forall byte l.
(** A 16-word state. *)
Definition words16 (l : list Z) : Prop := length l = 16%nat /\ Forall word32 l.

(** RFC 8439 section 2.1: addition modulo 2^32, XOR, left rotation. *)
Definition add32 (x y : Z) : Z := (x + y) mod 2 ^ 32.
Definition rotl32 (x n : Z) : Z := (x * 2 ^ n) mod 2 ^ 32 + x / 2 ^ (32 - n).
(** The quarter round on four words. *)
Definition rfc_quarter_round (v : Z * Z * Z * Z) : Z * Z * Z * Z :=
  let '(a, b, c, d) := v in
  let a := add32 a b in let d := rotl32 (Z.lxor d a) 16 in
  let c := add32 c d in let b := rotl32 (Z.lxor b c) 12 in
  let a := add32 a b in let d := rotl32 (Z.lxor d a) 8 in
  let c := add32 c d in let b := rotl32 (Z.lxor b c) 7 in
  (a, b, c, d).

(** Section 2.3: the state is a 4 by 4 matrix; a round applies the quarter round to the
    four columns, then to the four (wrapping) diagonals. *)
Definition matrix := nat -> nat -> Z.
Definition comp4 (v : Z * Z * Z * Z) (r : nat) : Z :=
  let '(a, b, c, d) := v in
  match r with 0%nat => a | 1%nat => b | 2%nat => c | _ => d end.
Definition column_round (s : matrix) : matrix := fun r c =>
  comp4 (rfc_quarter_round (s 0%nat c, s 1%nat c, s 2%nat c, s 3%nat c)) r.
Definition diagonal_round (s : matrix) : matrix := fun r c =>
  let j := ((c + 4 - r) mod 4)%nat in
  comp4 (rfc_quarter_round (s 0%nat j, s 1%nat ((j + 1) mod 4)%nat,
                            s 2%nat ((j + 2) mod 4)%nat, s 3%nat ((j + 3) mod 4)%nat)) r.
Definition inner_block (s : matrix) : matrix := diagonal_round (column_round s).

(** Matrix of a list of sixteen words, row by row, and back. *)
Definition to_matrix (l : list Z) : matrix := fun r c => nth (4 * r + c) l 0.
Definition of_matrix (s : matrix) : list Z := map (fun k => s (k / 4)%nat (k mod 4)%nat) (seq 0 16).

(** k-th little-endian 32-bit word of a byte string. *)
Definition word_at (b : list Z) (k : nat) : Z :=
  nth (4 * k) b 0 + 2 ^ 8 * nth (4 * k + 1) b 0 + 2 ^ 16 * nth (4 * k + 2) b 0 + 2 ^ 24 * nth (4 * k + 3) b 0.
(** "expand 32-byte k" in ASCII. *)
Definition sigma : list Z :=
  [101; 120; 112; 97; 110; 100; 32; 51; 50; 45; 98; 121; 116; 101; 32; 107].
(** Initial state: constants, key, block counter, nonce. *)
Definition init_word (key : list Z) (ctr : Z) (nonce : list Z) (k : nat) : Z :=
  if (k <? 4)%nat then word_at sigma k
  else if (k <? 12)%nat then word_at key (k - 4)
  else if (k =? 12)%nat then ctr
  else word_at nonce (k - 13).
(** Words and bytes of the key stream block. *)
Definition rfc_block_word (key : list Z) (ctr : Z) (nonce : list Z) (k : nat) : Z :=
  let s0 : matrix := fun r c => init_word key ctr nonce (4 * r + c) in
  add32 (Nat.iter 10 inner_block s0 (k / 4)%nat (k mod 4)%nat) (init_word key ctr nonce k).
Definition rfc_block_byte (key : list Z) (ctr : Z) (nonce : list Z) (j : nat) : Z :=
  (rfc_block_word key ctr nonce (j / 4) / 2 ^ (8 * Z.of_nat (j mod 4))) mod 2 ^ 8.

(** Section 2.4: byte j of the cipher text, with initial block counter c0. *)
Definition rfc_cipher_byte (key : list Z) (c0 : Z) (nonce m : list Z) (j : nat) : Z :=
  Z.lxor (nth j m 0) (rfc_block_byte key ((c0 + Z.of_nat (j / 64)) mod 2 ^ 32) nonce (j mod 64)).

(** ** Poly1305, section 2.5 *)
Definition P1305 : Z := 2 ^ 130 - 5.
(** Little-endian value of a byte string. *)
Definition le_num (b : list Z) : Z := fold_right (fun x a => x + 256 * a) 0 b.
(** Clamping of r: bytes 3, 7, 11, 15 keep their low four bits, bytes 4, 8, 12 have their
    low two bits cleared. *)
Definition clamp_byte (i : nat) (x : Z) : Z :=
  if (i mod 4 =? 3)%nat then x mod 16
  else if ((i mod 4 =? 0) && negb (i =? 0))%nat%bool then x - x mod 4 else x.
Definition clamp (r : list Z) : list Z := map (fun i => clamp_byte i (nth i r 0)) (seq 0 16).
(** Message block i with the extra 1 byte appended. *)
Definition block_num (m : list Z) (i : nat) : Z :=
  le_num (firstn 16 (skipn (16 * i) m) ++ [1]).
Definition nblocks (m : list Z) : nat := ((length m + 15) / 16)%nat.
(** acc = ((acc + block) * r) mod P, block by block. *)
Definition rfc_acc (m : list Z) (r : Z) : Z :=
  fold_left (fun acc i => ((acc + block_num m i) * r) mod P1305) (seq 0 (nblocks m)) 0.
(** The tag as a number: (acc + s) mod 2^128. *)
Definition rfc_tag_num (m key : list Z) : Z :=
  (rfc_acc m (le_num (clamp (firstn 16 key))) + le_num (firstn 16 (skipn 16 key))) mod 2 ^ 128.

(** ** AEAD construction, section 2.8: MAC input *)
Definition pad16 (x : list Z) : list Z := repeat 0 ((16 - length x mod 16) mod 16).
Definition le64 (x : Z) : list Z := map (fun i => (x / 2 ^ (8 * Z.of_nat i)) mod 2 ^ 8) (seq 0 8).
Definition rfc_mac_data (aad ct : list Z) : list Z :=
  aad ++ pad16 aad ++ ct ++ pad16 ct ++ le64 (Z.of_nat (length aad)) ++ le64 (Z.of_nat (length ct)).
