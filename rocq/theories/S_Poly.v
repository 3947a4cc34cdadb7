(** Independent vocabulary for statements about polynomials. A polynomial is the list of its
    coefficients, constant term first; the coefficients of a product are given by conv_coeff
    of S_Seq. *)
From Coq Require Import ZArith List Bool.
From Verif Require Import Base S_Seq.
Import ListNotations.
Open Scope Z_scope.

(** All coefficients are canonical residues modulo n. *)
Definition Zn (n : Z) (p : list Z) : Prop := forall c, In c p -> 0 <= c < n.
(** The degree of p is d. *)
Definition is_degree (p : list Z) (d : nat) : Prop :=
  nth d p 0 <> 0 /\ forall k, (d < k)%nat -> nth k p 0 = 0.
(** Largest value of the Rust integer type of width w. *)
Definition ty_max (w : Z) (s : bool) : Z := if s then 2 ^ (w - 1) - 1 else 2 ^ w - 1.
(** A real panic of the program, as opposed to the model running out of fuel. *)
Definition crashes {A} (r : res A) : Prop := exists p, r = Panic p /\ p <> OutOfFuel.
(** The coefficients of the constant polynomial 1. *)
Definition one_coeff (k : nat) : Z := if (k =? 0)%nat then 1 else 0.
(** x = q*y + r modulo n. *)
Definition div_identity (n : Z) (x y q r : list Z) : Prop :=
  forall k, (n | nth k x 0 - (conv_coeff q y k + nth k r 0)).
(** v is an inverse of a in Z_n[x]/(y). *)
Definition is_inverse (n : Z) (y a v : list Z) : Prop :=
  exists s, forall k, (n | conv_coeff a v k + conv_coeff s y k - one_coeff k).
