(** Independent specification of BLAKE2b and BLAKE2s (RFC 7693), without key.
    Nothing here is taken from the M_*.v files. *)
From Coq Require Import ZArith List Bool Arith.
From Verif Require Import S_ChaCha S_SHA2.
Import ListNotations.
Open Scope Z_scope.

(** Section 2.1: the parameters of a variant. Words have [pw] bits, blocks 2 pw bytes. *)
Record blake_params := { pw : Z; rounds : nat; R1 : Z; R2 : Z; R3 : Z; R4 : Z; IV : list Z }.
(** Section 2.6: the fractional parts of the square roots of the first eight primes *)
Definition sqrt_iv (w : Z) : list Z := map (fun p => Z.sqrt (p * 2 ^ (2 * w)) mod 2 ^ w) (firstn 8 primes).
Definition blake2b_params : blake_params :=
  {| pw := 64; rounds := 12; R1 := 32; R2 := 24; R3 := 16; R4 := 63; IV := sqrt_iv 64 |}.
Definition blake2s_params : blake_params :=
  {| pw := 32; rounds := 10; R1 := 16; R2 := 12; R3 := 8; R4 := 7; IV := sqrt_iv 32 |}.
(** Bytes in a word and in a block. *)
Definition word_bytes (P : blake_params) : nat := Z.to_nat (pw P / 8).
Definition block_bytes (P : blake_params) : nat := (16 * word_bytes P)%nat.
(** Section 2.7: the message schedule, ten permutations *)
Definition SIGMA : list (list nat) :=
  [[0; 1; 2; 3; 4; 5; 6; 7; 8; 9; 10; 11; 12; 13; 14; 15];
   [14; 10; 4; 8; 9; 15; 13; 6; 1; 12; 0; 2; 11; 7; 5; 3];
   [11; 8; 12; 0; 5; 2; 15; 13; 10; 14; 3; 6; 7; 1; 9; 4];
   [7; 9; 3; 1; 13; 12; 11; 14; 2; 6; 5; 10; 4; 0; 15; 8];
   [9; 0; 5; 7; 2; 4; 10; 15; 14; 1; 11; 12; 6; 8; 3; 13];
   [2; 12; 6; 10; 0; 11; 8; 3; 4; 13; 7; 5; 15; 14; 1; 9];
   [12; 5; 1; 15; 14; 13; 4; 10; 0; 7; 6; 3; 9; 2; 8; 11];
   [13; 11; 7; 14; 12; 1; 3; 9; 5; 0; 15; 4; 8; 6; 2; 10];
   [6; 15; 14; 9; 11; 3; 0; 8; 12; 2; 13; 7; 1; 4; 10; 5];
   [10; 2; 8; 4; 7; 6; 1; 5; 15; 11; 9; 14; 3; 12; 13; 0]]%nat.
Definition sigma_at (i k : nat) : nat := nth k (nth (i mod 10) SIGMA []) 0%nat.

(** Section 2.3: right rotation of a word. *)
Definition rotr (P : blake_params) (x n : Z) : Z := x / 2 ^ n + (x mod 2 ^ n) * 2 ^ (pw P - n).
Definition plus (P : blake_params) (x y : Z) : Z := (x + y) mod 2 ^ pw P.
(** v with v[i] := x. *)
Definition put (v : list Z) (i : nat) (x : Z) : list Z := firstn i v ++ x :: skipn (S i) v.
(** Section 3.1: the mixing function G *)
Definition mix_G (P : blake_params) (v : list Z) (a b c d : nat) (x y : Z) : list Z :=
  let at_ v i := nth i v 0 in
  let v := put v a (plus P (plus P (at_ v a) (at_ v b)) x) in
  let v := put v d (rotr P (Z.lxor (at_ v d) (at_ v a)) (R1 P)) in
  let v := put v c (plus P (at_ v c) (at_ v d)) in
  let v := put v b (rotr P (Z.lxor (at_ v b) (at_ v c)) (R2 P)) in
  let v := put v a (plus P (plus P (at_ v a) (at_ v b)) y) in
  let v := put v d (rotr P (Z.lxor (at_ v d) (at_ v a)) (R3 P)) in
  let v := put v c (plus P (at_ v c) (at_ v d)) in
  put v b (rotr P (Z.lxor (at_ v b) (at_ v c)) (R4 P)).
(** Section 3.2: the compression function F. Call k of G in a round works on the k-th of these
    columns and diagonals. *)
Definition G_cols : list (nat * nat * nat * nat) :=
  [(0, 4, 8, 12); (1, 5, 9, 13); (2, 6, 10, 14); (3, 7, 11, 15);
   (0, 5, 10, 15); (1, 6, 11, 12); (2, 7, 8, 13); (3, 4, 9, 14)]%nat.
Definition F_round (P : blake_params) (m v : list Z) (i : nat) : list Z :=
  fold_left (fun v k => let '(a, b, c, d) := nth k G_cols (0, 0, 0, 0)%nat in
    mix_G P v a b c d (nth (sigma_at i (2 * k)) m 0) (nth (sigma_at i (2 * k + 1)) m 0)) (seq 0 8) v.
(** The offset counter t is an integer below 2^(2w); f is the flag of the final block. *)
Definition blake_F (P : blake_params) (h m : list Z) (t : Z) (f : bool) : list Z :=
  let v := h ++ IV P in
  let v := put v 12 (Z.lxor (nth 12 v 0) (t mod 2 ^ pw P)) in
  let v := put v 13 (Z.lxor (nth 13 v 0) (t / 2 ^ pw P)) in
  let v := if f then put v 14 (Z.lxor (nth 14 v 0) (2 ^ pw P - 1)) else v in
  let v := fold_left (F_round P m) (seq 0 (rounds P)) v in
  map (fun i => Z.lxor (Z.lxor (nth i h 0) (nth i v 0)) (nth (i + 8) v 0)) (seq 0 8).
(** Section 2.2, 2.4 and 3.3: the sixteen little-endian words of block i of a message padded with zeros *)
Definition blake_block (P : blake_params) (msg : list Z) (i : nat) : list Z :=
  let b := firstn (block_bytes P) (skipn (block_bytes P * i) msg) in
  let b := b ++ repeat 0 (block_bytes P - length b) in
  map (fun k => le_num (firstn (word_bytes P) (skipn (word_bytes P * k) b))) (seq 0 16).
(** Number of blocks: one for the empty message. *)
Definition blake_dd (P : blake_params) (ll : nat) : nat := Nat.max 1 ((ll + block_bytes P - 1) / block_bytes P).
(** Section 3.3 with kk = 0: a digest of nn bytes *)
Definition blake_init (P : blake_params) (nn : nat) : list Z :=
  put (IV P) 0 (Z.lxor (Z.lxor (nth 0 (IV P) 0) 0x01010000) (Z.of_nat nn)).
(** The hash value after the first n blocks, all of them not final. *)
Definition blake_chain (P : blake_params) (nn : nat) (msg : list Z) (n : nat) : list Z :=
  fold_left (fun h i => blake_F P h (blake_block P msg i) (Z.of_nat ((i + 1) * block_bytes P)) false)
    (seq 0 n) (blake_init P nn).
Definition le_bytes_of (n : nat) (x : Z) : list Z := map (fun j => x / 256 ^ Z.of_nat j mod 256) (seq 0 n).
Definition blake_output (P : blake_params) (nn : nat) (h : list Z) : list Z :=
  firstn nn (flat_map (le_bytes_of (word_bytes P)) h).
Definition rfc_blake2 (P : blake_params) (nn : nat) (msg : list Z) : list Z :=
  let dd := blake_dd P (length msg) in
  blake_output P nn
    (blake_F P (blake_chain P nn msg (dd - 1)) (blake_block P msg (dd - 1)) (Z.of_nat (length msg)) true).
