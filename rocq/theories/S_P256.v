(** The curve P-256 of FIPS 186-4 (D.1.2.3) / SEC 2 (secp256r1): y^2 = x^3 - 3x + b over the residues
    modulo p. Nothing of the model is used. *)
From Coq Require Import ZArith.
From Verif Require Import S_Curve.
Open Scope Z_scope.

Definition p256 : Z := 2 ^ 256 - 2 ^ 224 + 2 ^ 192 + 2 ^ 96 - 1.
Definition b256 : Z := 0x5ac635d8aa3a93e7b3ebbd55769886bc651d06b0cc53b0f63bce3c3e27d2604b.
(** order of the base point *)
Definition n256 : Z := 0xffffffff00000000ffffffffffffffffbce6faada7179e84f3b9cac2fc632551.
Definition gx256 : Z := 0x6b17d1f2e12c4247f8bce6e563a440f277037d812deb33a0f4a13945d898c296.
Definition gy256 : Z := 0x4fe342e2fe1a7f9b8ee7eb4a7c0f9e162bce33576b315ececbb6406837bf51f5.

Definition on256 : point p256 -> Prop :=
  on_curve p256 (fof p256 0) (fopp (fof p256 3)) (fof p256 b256) (fof p256 1).
Definition add256 : point p256 -> point p256 -> point p256 :=
  padd p256 (fof p256 0) (fopp (fof p256 3)) (fof p256 1).
Definition mul256 : nat -> point p256 -> point p256 :=
  pmul p256 (fof p256 0) (fopp (fof p256 3)) (fof p256 1).
Definition G256 : point p256 := Aff (fof p256 gx256) (fof p256 gy256).

(** the integers x, y, z are Jacobian coordinates of P: x/z^2 and y/z^3 are the affine ones, and z is zero
    exactly at infinity *)
Definition jacobian (x y z : Z) (P : point p256) : Prop :=
  0 <= x < p256 /\ 0 <= y < p256 /\ 0 <= z < p256 /\
  match P with
  | Inf => z = 0
  | Aff u v => z <> 0 /\ x = (fval u * z ^ 2) mod p256 /\ y = (fval v * z ^ 3) mod p256
  end.
(** the affine coordinates of a point; (0, 0) stands for infinity, and is not on the curve *)
Definition coordinates (P : point p256) : Z * Z :=
  match P with Inf => (0, 0) | Aff x y => (fval x, fval y) end.
