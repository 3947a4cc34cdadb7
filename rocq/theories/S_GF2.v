(** Polynomials over GF(2), written as non-negative integers: bit i of the integer is the
    coefficient of x^i.  Addition is exclusive or.  Independent of the model. *)
From Coq Require Import ZArith List Bool.
Import ListNotations.
Open Scope Z_scope.

(** The product a * b without carries (schoolbook, over the bits of b). *)
Fixpoint pmul_pos (a : Z) (b : positive) : Z :=
  match b with
  | xH => a
  | xO b => 2 * pmul_pos a b
  | xI b => Z.lxor a (2 * pmul_pos a b)
  end.
Definition pmul (a b : Z) : Z := match b with Zpos p => pmul_pos a p | _ => 0 end.

(** a and b differ by a multiple of P. *)
Definition pcong (P a b : Z) : Prop := exists q, 0 <= q /\ Z.lxor a b = pmul q P.

(** Long division: clear the bits n+k-1, ..., n of x with shifted copies of P (of degree n). *)
Fixpoint preduce (n P : Z) (k : nat) (x : Z) : Z :=
  match k with
  | O => x
  | S k => preduce n P k (if Z.testbit x (n + Z.of_nat k) then Z.lxor x (Z.shiftl P (Z.of_nat k)) else x)
  end.

(** The product in GF(2)[x]/(P), for P of degree n and a, b of degree below n. *)
Definition gf_mul (n P a b : Z) : Z := preduce n P (Z.to_nat n) (pmul a b).

(** Powers and sums in GF(2)[x]/(P). *)
Fixpoint gf_pow (n P a : Z) (e : nat) : Z :=
  match e with O => 1 | S e => gf_mul n P a (gf_pow n P a e) end.
Definition gf_sum (l : list Z) : Z := fold_right Z.lxor 0 l.

(** The integer with bits f 0, ..., f (n-1). *)
Fixpoint bits_val (f : nat -> bool) (n : nat) : Z :=
  match n with O => 0 | S k => bits_val f k + Z.b2z (f k) * 2 ^ Z.of_nat k end.
(** x with the order of its low n bits reversed. *)
Definition brev (n : nat) (x : Z) : Z := bits_val (fun i => Z.testbit x (Z.of_nat (n - 1 - i))) n.

(** SP 800-38D, 6.3: blocks are bit strings x_0 ... x_127 that stand for the polynomial
    x_0 + x_1 u + ... + x_127 u^127; x_0 is the most significant bit of the first byte.
    The product is taken modulo u^128 + u^7 + u^2 + u + 1. *)
Definition P128 : Z := 2 ^ 128 + 2 ^ 7 + 2 ^ 2 + 2 + 1.
Definition gcm_mul (x y : Z) : Z := brev 128 (gf_mul 128 P128 (brev 128 x) (brev 128 y)).
Definition gcm_one : Z := 2 ^ 127.
