(** RFC 7748, section 5: the function X25519, transcribed over the integers with "mod p" written out.
    Nothing of the model is used. *)
From Coq Require Import ZArith List Bool.
From Verif Require Import S_Curve.
Import ListNotations.
Open Scope Z_scope.

Definition p25519 : Z := 2 ^ 255 - 19.
(** decodeLittleEndian *)
Fixpoint le_decode (b : list Z) : Z := match b with [] => 0 | x :: t => x + 256 * le_decode t end.
(** encodeUCoordinate: n bytes, least significant first *)
Fixpoint le_encode (n : nat) (v : Z) : list Z :=
  match n with O => [] | S m => v mod 256 :: le_encode m (v / 256) end.
(** decodeScalar25519: the bits of the number that the three masks leave alone are 3 to 253, and
    bit 254 is set *)
Definition rfc_decode_scalar (k : list Z) : Z := 2 ^ 254 + 8 * (le_decode k mod 2 ^ 254 / 8).
(** decodeUCoordinate with bits = 255: the most significant bit of the last byte is masked *)
Definition rfc_decode_u (u : list Z) : Z := (le_decode u mod 2 ^ 255) mod p25519.

Definition cswap (swap : Z) (a b : Z) : Z * Z := if swap =? 1 then (b, a) else (a, b).
(** variables of the loop: x_2, z_2, x_3, z_3, swap *)
Record rfc_state := { x2 : Z; z2 : Z; x3 : Z; z3 : Z; sw : Z }.
Definition rfc_swap (s : rfc_state) (swap : Z) : rfc_state :=
  let (a2, a3) := cswap swap (x2 s) (x3 s) in
  let (b2, b3) := cswap swap (z2 s) (z3 s) in
  {| x2 := a2; z2 := b2; x3 := a3; z3 := b3; sw := swap |}.
(** one turn of the loop *)
Definition rfc_turn (k u : Z) (s : rfc_state) (t : nat) : rfc_state :=
  let k_t := Z.land (Z.shiftr k (Z.of_nat t)) 1 in
  let s := rfc_swap s (Z.lxor (sw s) k_t) in
  let A := x2 s + z2 s in
  let AA := A ^ 2 in
  let B := x2 s - z2 s in
  let BB := B ^ 2 in
  let E := AA - BB in
  let C := x3 s + z3 s in
  let D := x3 s - z3 s in
  let DA := D * A in
  let CB := C * B in
  let a24 := 121665 in
  {| x3 := (DA + CB) ^ 2 mod p25519; z3 := u * (DA - CB) ^ 2 mod p25519;
     x2 := AA * BB mod p25519; z2 := E * (AA + a24 * E) mod p25519; sw := k_t |}.
(** for t = 254 down to 0 *)
Definition rfc_loop (k u : Z) : rfc_state :=
  fold_left (rfc_turn k u) (rev (seq 0 255)) {| x2 := 1; z2 := 0; x3 := u; z3 := 1; sw := 0 |}.
Definition rfc_ladder (k u : Z) : Z :=
  let s := rfc_loop k u in
  let s := rfc_swap s (sw s) in
  x2 s * z2 s ^ (p25519 - 2) mod p25519.
Definition rfc_x25519 (k u : list Z) : list Z :=
  le_encode 32 (rfc_ladder (rfc_decode_scalar k) (rfc_decode_u u)).

(** ** The curve: d*y^2 = x^3 + 486662*x^2 + x over the residues modulo 2^255-19. With d = 1 it is
    curve25519, with d = 2 its twist. *)
Definition on25519 (d : Fp p25519) : point p25519 -> Prop :=
  on_curve p25519 (fof p25519 486662) (fof p25519 1) (fof p25519 0) d.
Definition add25519 (d : Fp p25519) : point p25519 -> point p25519 -> point p25519 :=
  padd p25519 (fof p25519 486662) (fof p25519 1) d.
Definition mul25519 (d : Fp p25519) : nat -> point p25519 -> point p25519 :=
  pmul p25519 (fof p25519 486662) (fof p25519 1) d.
(** the first coordinate; 0 for the point at infinity *)
Definition abscissa {p} (P : point p) : Z := match P with Inf => 0 | Aff x _ => fval x end.
(** the integers x and z are projective coordinates (x : z) of the abscissa of P *)
Definition projective {p} (x z : Z) (P : point p) : Prop :=
  match P with
  | Inf => z mod p = 0 /\ x mod p <> 0
  | Aff u _ => z mod p <> 0 /\ x mod p = (fval u * z) mod p
  end.
