(** Independent specification of SHA-3 and SHAKE (FIPS 202), on strings of bits.
    Nothing here is taken from the M_*.v files; all constants are computed from the
    standard's formulas. b = 1600, w = 64, l = 6. *)
From Coq Require Import ZArith List Bool Arith.
Import ListNotations.
Local Open Scope nat_scope.

(** ** 3.1: A[x,y,z] = S[w(5y+x)+z], and the string of a state array *)
Definition rd (S : list bool) (x y z : nat) : bool := nth (64 * (5 * y + x) + z) S false.
Definition mk (A : nat -> nat -> nat -> bool) : list bool :=
  map (fun i => A ((i / 64) mod 5) (i / 320) (i mod 64)) (seq 0 1600).

(** ** 3.2: step mappings *)
(** Algorithm 1 *)
Definition theta_C (S : list bool) (x z : nat) : bool :=
  xorb (xorb (xorb (xorb (rd S x 0 z) (rd S x 1 z)) (rd S x 2 z)) (rd S x 3 z)) (rd S x 4 z).
Definition theta_D (S : list bool) (x z : nat) : bool :=
  xorb (theta_C S ((x + 4) mod 5) z) (theta_C S ((x + 1) mod 5) ((z + 63) mod 64)).
Definition k_theta (S : list bool) : list bool := mk (fun x y z => xorb (rd S x y z) (theta_D S x z)).
(** Algorithm 2: the walk (x,y) -> (y, 2x+3y mod 5) from (1,0); lane number t of the walk is
    rotated by (t+1)(t+2)/2; lane (0,0) stays. *)
Definition walk (t : nat) : nat * nat := Nat.iter t (fun p => (snd p, (2 * fst p + 3 * snd p) mod 5)) (1, 0).
Definition rho_offset (x y : nat) : nat :=
  match find (fun t => (fst (walk t) =? x) && (snd (walk t) =? y)) (seq 0 24) with
  | Some t => (t + 1) * (t + 2) / 2
  | None => 0
  end.
Definition k_rho (S : list bool) : list bool :=
  mk (fun x y z => rd S x y ((z + (64 - rho_offset x y mod 64)) mod 64)).
(** Algorithm 3 *)
Definition k_pi (S : list bool) : list bool := mk (fun x y z => rd S ((x + 3 * y) mod 5) x z).
(** Algorithm 4 *)
Definition k_chi (S : list bool) : list bool :=
  mk (fun x y z => xorb (rd S x y z) (negb (rd S ((x + 1) mod 5) y z) && rd S ((x + 2) mod 5) y z)).
(** Algorithm 5: the bit rc(t) of the feedback shift register *)
Definition lfsr (R : list bool) : list bool :=
  let R := false :: R in
  let r8 := nth 8 R false in
  firstn 8 (map (fun i => xorb (nth i R false) (existsb (Nat.eqb i) [0; 4; 5; 6] && r8)) (seq 0 9)).
Definition rc (t : nat) : bool := nth 0 (Nat.iter (t mod 255) lfsr [true; false; false; false; false; false; false; false]) false.
(** Algorithm 6: RC[2^j - 1] = rc(j + 7 ir) for j = 0..6, other bits zero *)
Definition RC (ir z : nat) : bool := existsb (fun j => (z =? 2 ^ j - 1) && rc (j + 7 * ir)) (seq 0 7).
Definition k_iota (ir : nat) (S : list bool) : list bool :=
  mk (fun x y z => xorb (rd S x y z) ((x =? 0) && (y =? 0) && RC ir z)).
(** ** 3.3, 3.4: KECCAK-f[1600] *)
Definition k_round (ir : nat) (S : list bool) : list bool := k_iota ir (k_chi (k_pi (k_rho (k_theta S)))).
Definition keccak_f (S : list bool) : list bool := fold_left (fun S ir => k_round ir S) (seq 0 24) S.

(** ** 4 and 5.1: the sponge with pad10*1 *)
(** Algorithm 9: j = (-m-2) mod x *)
Definition pad101 (x m : nat) : list bool := [true] ++ repeat false ((x - (m + 2) mod x) mod x) ++ [true].
Definition xor_bits (a b : list bool) : list bool := map (fun p => xorb (fst p) (snd p)) (combine a b).
(** Algorithm 8: absorbing the blocks of P, then squeezing d bits *)
Definition absorb (f : list bool -> list bool) (r : nat) (P : list bool) : list bool :=
  fold_left (fun S i => f (xor_bits S (firstn r (skipn (r * i) P) ++ repeat false (1600 - r))))
    (seq 0 (length P / r)) (repeat false 1600).
Definition squeeze_bits (f : list bool -> list bool) (r d : nat) (S : list bool) : list bool :=
  firstn d (concat (map (fun k => firstn r (Nat.iter k f S)) (seq 0 (d / r + 1)))).
Definition sponge (f : list bool -> list bool) (pad : nat -> nat -> list bool) (r : nat) (N : list bool) (d : nat) : list bool :=
  squeeze_bits f r d (absorb f r (N ++ pad r (length N))).
(** ** 5.2 and 6: KECCAK[c], SHA-3 and the extendable-output functions *)
Definition keccak_c (c : nat) (N : list bool) (d : nat) : list bool := sponge keccak_f pad101 (1600 - c) N d.
Definition SHA3 (d : nat) (M : list bool) : list bool := keccak_c (2 * d) (M ++ [false; true]) d.
Definition SHAKE (s : nat) (M : list bool) (d : nat) : list bool := keccak_c (2 * s) (M ++ [true; true; true; true]) d.

(** ** B.1: strings of bytes as strings of bits, lowest bit first; n-bit words likewise *)
Definition word_bits (n : nat) (b : Z) : list bool := map (fun i => Z.testbit b (Z.of_nat i)) (seq 0 n).
Definition string_bits (n : nat) (l : list Z) : list bool := flat_map (word_bits n) l.
Definition byte_bits (l : list Z) : list bool := string_bits 8 l.
(** The bits of a state given as 25 lanes of 64 bits. *)
Definition lane_bits (l : list Z) : list bool := string_bits 64 l.
