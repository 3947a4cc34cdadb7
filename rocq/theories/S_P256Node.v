(** The singular cubics y^2 = x^3 - 3x + 2e, e = 1 or e = -1, of the shape (x - e)^2 (x + 2e), and their group.
    Nothing of the model is used. *)
From Coq Require Import ZArith.
From Verif Require Import S_Curve S_P256.
Open Scope Z_scope.
Open Scope fp_scope.

(** The point in which the line of slope t through the singular point (e, 0) meets the cubic again. *)
Definition node_point (e t : Fp p256) : point p256 :=
  let x := t * t - %2 * e in Aff x (t * (x - e)).
(** The powers (t + s)^n = A + B s in the ring of polynomials in s modulo s^2 - 3e. *)
Fixpoint node_pow (e t : Fp p256) (n : nat) : Fp p256 * Fp p256 :=
  match n with
  | O => (%1, %0)
  | S n => let (A, B) := node_pow e t n in (A * t + %3 * e * B, A + B * t)
  end.
(** The point belonging to A + B s, which depends on A / B only: the slope is A / B, and B = 0 is infinity. *)
Definition node_of (e : Fp p256) (q : Fp p256 * Fp p256) : point p256 :=
  if snd q =? %0 then Inf else node_point e (fst q / snd q).
