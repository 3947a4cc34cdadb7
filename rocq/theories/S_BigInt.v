(** Independent vocabulary for statements about bounded and modular integers. *)
From Coq Require Import ZArith List Bool.
From Verif Require Import Base.
Open Scope Z_scope.

(** Value of a digit string, most significant digit first. *)
Definition horner (base : Z) (ds : list Z) : Z := fold_left (fun acc d => acc * base + d) ds 0.

(** The operation returns the exact integer z when z is in [lo, hi), and panics otherwise. *)
Definition exact_or_panic (r : res Z) (z lo hi : Z) : Prop :=
  (lo <= z < hi -> r = Ok z) /\ (~ (lo <= z < hi) -> panics r).
(** r is the canonical representative of the class of x modulo n. *)
Definition residue (n x r : Z) : Prop := 0 <= r < n /\ (n | r - x).
(** r is quotient/remainder of truncating division. *)
Definition trunc_div (a b q r : Z) : Prop :=
  a = b * q + r /\ Z.abs r < Z.abs b /\ 0 <= r * a.
