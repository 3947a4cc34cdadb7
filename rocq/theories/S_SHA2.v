(** Independent specification of SHA-256 (FIPS 180-4), HMAC (RFC 2104) and HKDF (RFC 5869).
    Nothing here is taken from the M_*.v files; the constants are computed from their definition. *)
From Coq Require Import ZArith List Bool Arith.
From Verif Require Import S_ChaCha S_AES.
Import ListNotations.
Open Scope Z_scope.

(** ** FIPS 180-4, 2.2.2, 3.2 and 4.1.2: operations and functions on 32-bit words *)
Definition rotr32 (x n : Z) : Z := x / 2 ^ n + (x mod 2 ^ n) * 2 ^ (32 - n).
Definition shr32 (x n : Z) : Z := x / 2 ^ n.
Definition not32 (x : Z) : Z := 2 ^ 32 - 1 - x.
Definition Ch (x y z : Z) : Z := Z.lxor (Z.land x y) (Z.land (not32 x) z).
Definition Maj (x y z : Z) : Z := Z.lxor (Z.lxor (Z.land x y) (Z.land x z)) (Z.land y z).
Definition xor3 (a b c : Z) : Z := Z.lxor (Z.lxor a b) c.
Definition Sigma0 (x : Z) : Z := xor3 (rotr32 x 2) (rotr32 x 13) (rotr32 x 22).
Definition Sigma1 (x : Z) : Z := xor3 (rotr32 x 6) (rotr32 x 11) (rotr32 x 25).
Definition sigma0 (x : Z) : Z := xor3 (rotr32 x 7) (rotr32 x 18) (shr32 x 3).
Definition sigma1 (x : Z) : Z := xor3 (rotr32 x 17) (rotr32 x 19) (shr32 x 10).

(** ** 4.2.2 and 5.3.3: the first 32 bits of the fractional parts of the cube roots of the
    first sixty-four primes, and of the square roots of the first eight. *)
Definition is_prime (p : nat) : bool := forallb (fun d => negb (p mod d =? 0)%nat) (seq 2 (p - 2)).
Definition primes : list Z := map Z.of_nat (firstn 64 (filter is_prime (seq 2 310))).
(** Integer cube root: the largest n-bit c with c^3 <= x, from the top bit down. *)
Fixpoint icbrt (n : nat) (x c : Z) : Z :=
  match n with
  | O => c
  | S n => let c' := c + 2 ^ Z.of_nat n in icbrt n x (if c' ^ 3 <=? x then c' else c)
  end.
Definition K256 : list Z := map (fun p => icbrt 40 (p * 2 ^ 96) 0 mod 2 ^ 32) primes.
Definition H256 : list Z := map (fun p => Z.sqrt (p * 2 ^ 64) mod 2 ^ 32) (firstn 8 primes).

(** ** 6.2.2: the hash computation *)
(** Big-endian 32-bit word k of a byte string. *)
Definition be_word (b : list Z) (k : nat) : Z := be_num (firstn 4 (skipn (4 * k) b)).
(** First n words of the message schedule. *)
Fixpoint msg_schedule (b : list Z) (n : nat) : list Z :=
  match n with
  | O => []
  | S t => let W := msg_schedule b t in
      W ++ [if (t <? 16)%nat then be_word b t
            else (sigma1 (nth (t - 2) W 0) + nth (t - 7) W 0 + sigma0 (nth (t - 15) W 0)
                  + nth (t - 16) W 0) mod 2 ^ 32]
  end.
Definition sha_round (k w : Z) (s : list Z) : list Z :=
  match s with
  | [a; b; c; d; e; f; g; h] =>
      let T1 := h + Sigma1 e + Ch e f g + k + w in
      let T2 := Sigma0 a + Maj a b c in
      [(T1 + T2) mod 2 ^ 32; a; b; c; (d + T1) mod 2 ^ 32; e; f; g]
  | _ => []
  end.
(** A value of the hash: eight words. *)
Definition words8 (h : list Z) : Prop := length h = 8%nat /\ Forall word32 h.
Definition sha_compress (H b : list Z) : list Z :=
  let W := msg_schedule b 64 in
  let s := fold_left (fun s t => sha_round (nth t K256 0) (nth t W 0) s) (seq 0 64) H in
  map (fun i => (nth i s 0 + nth i H 0) mod 2 ^ 32) (seq 0 8).
(** Block i of a padded message, and the iteration over the blocks. *)
Definition sha_block (p : list Z) (i : nat) : list Z := firstn 64 (skipn (64 * i) p).
Definition sha_iter (p : list Z) : list Z :=
  fold_left (fun H i => sha_compress H (sha_block p i)) (seq 0 (length p / 64)) H256.
Definition sha_digest (H : list Z) : list Z := concat (map (be_str 4) H).
(** 5.1.1: a one bit, k zero bits with l + 1 + k = 448 mod 512, the 64-bit length l; in bytes. *)
Definition sha_pad (m : list Z) : list Z :=
  m ++ [0x80] ++ repeat 0 ((119 - length m mod 64) mod 64)%nat ++ be_str 8 (8 * Z.of_nat (length m)).
Definition fips_sha256 (m : list Z) : list Z := sha_digest (sha_iter (sha_pad m)).

(** ** RFC 2104 (B = 64), for any hash function *)
Definition zero_extend (n : nat) (k : list Z) : list Z := k ++ repeat 0 (n - length k).
Definition rfc_hmac (H : list Z -> list Z) (k text : list Z) : list Z :=
  let k0 := zero_extend 64 (if (length k <=? 64)%nat then k else H k) in
  H (map (fun b => Z.lxor b 0x5c) k0 ++ H (map (fun b => Z.lxor b 0x36) k0 ++ text)).

(** ** RFC 5869 (HashLen = 32), for any HMAC *)
Definition rfc_extract (mac : list Z -> list Z -> list Z) (salt ikm : list Z) : list Z :=
  mac (match salt with [] => repeat 0 32 | _ => salt end) ikm.
(** T(i), with T(0) the empty string. *)
Fixpoint rfc_T (mac : list Z -> list Z -> list Z) (prk info : list Z) (i : nat) : list Z :=
  match i with
  | O => []
  | S j => mac prk (rfc_T mac prk info j ++ info ++ [Z.of_nat i])
  end.
(** The first L bytes of T(1) | ... | T(N) with N = ceil(L/32). *)
Definition rfc_expand (mac : list Z -> list Z -> list Z) (prk info : list Z) (L : nat) : list Z :=
  firstn L (concat (map (rfc_T mac prk info) (seq 1 ((L + 31) / 32)))).
