(** Radix 2^51 arithmetic modulo 2^255 - 19, written independently of the model: plain integer
    arithmetic without any word size. *)
From Coq Require Import ZArith List.
Import ListNotations.
Open Scope Z_scope.

(** A number given by five limbs. *)
Definition val51 (l : list Z) : Z :=
  nth 0 l 0 + 2 ^ 51 * nth 1 l 0 + 2 ^ 102 * nth 2 l 0 + 2 ^ 153 * nth 3 l 0 + 2 ^ 204 * nth 4 l 0.
(** Five limbs, all below a bound. *)
Definition limbs (B : Z) (l : list Z) : Prop := length l = 5%nat /\ Forall (fun x => 0 <= x < B) l.
(** The terms of coefficient i of the product of two polynomials of degree 4 modulo x^5 = 19. *)
Definition conv_term (a b : list Z) (i j : nat) : Z :=
  if (j <=? i)%nat then nth j a 0 * nth (i - j) b 0 else nth j a 0 * (nth (5 + i - j) b 0 * 19).
Definition conv (a b : list Z) (i : nat) : Z :=
  conv_term a b i 0 + conv_term a b i 1 + conv_term a b i 2 + conv_term a b i 3 + conv_term a b i 4.
(** Coefficient i after adding the carries of the lower ones. *)
Fixpoint carried (a b : list Z) (i : nat) : Z :=
  match i with
  | O => conv a b 0
  | S k => conv a b i + carried a b k / 2 ^ 51
  end.
(** Limb 0 with the last carry folded back (2^255 = 19), before its own carry. *)
Definition folded (a b : list Z) : Z := carried a b 0 mod 2 ^ 51 + carried a b 4 / 2 ^ 51 * 19.
(** The resulting limbs. *)
Definition exact_mul (a b : list Z) : list Z :=
  [folded a b mod 2 ^ 51; carried a b 1 mod 2 ^ 51 + folded a b / 2 ^ 51;
   carried a b 2 mod 2 ^ 51; carried a b 3 mod 2 ^ 51; carried a b 4 mod 2 ^ 51].
(** Everything that must fit in 64 bits: the multiples of 19, the carries, and the last sums. *)
Definition fits64 (a b : list Z) : list Z :=
  map (fun i => nth i b 0 * 19) [1; 2; 3; 4]%nat
  ++ map (fun i => carried a b i / 2 ^ 51) [0; 1; 2; 3; 4]%nat
  ++ [carried a b 4 / 2 ^ 51 * 19; folded a b; carried a b 1 mod 2 ^ 51 + folded a b / 2 ^ 51].
(** Everything that must fit in 128 bits. All terms are non-negative, so the partial sums are
    bounded by the whole sums. *)
Definition fits128 (a b : list Z) : list Z :=
  map (conv a b) [0; 1; 2; 3; 4]%nat ++ map (carried a b) [0; 1; 2; 3; 4]%nat.
