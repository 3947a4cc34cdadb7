(** P-256: /repo/spec-examples/src/p256/p256.rs. A FieldElement or Scalar is the integer stored in it. *)
From Coq Require Import ZArith List Bool String Ascii.
From Verif Require Import Base M_Int M_Seq M_Bytes M_BigInt M_NatMod.
Import ListNotations.
Open Scope Z_scope.

(** modulus of FieldElement p256.rs:4 *)
Definition ec_p : Z := 0xffffffff00000001000000000000000000000000ffffffffffffffffffffffff.
(** Jacobian p256.rs:9 *)
Definition jac : Type := Z * Z * Z.
(** Affine p256.rs:10 *)
Definition aff : Type := Z * Z.
(** jacobian_to_affine p256.rs:12-21 *)
Definition jacobian_to_affine (p : jac) : res aff :=
  let '(x, y, z) := p in
  let* z2 := nm_pow 256 ec_p z 2 in
  let* z2i := nm_inv 256 ec_p z2 in
  let* z3 := nm_mul 256 ec_p z z2 in
  let* z3i := nm_inv 256 ec_p z3 in
  let* x := nm_mul 256 ec_p x z2i in
  let* y := nm_mul 256 ec_p y z3i in
  Ok (x, y).
(** point_double p256.rs:23-43 *)
Definition point_double (p : jac) : res jac :=
  let '(x1, y1, z1) := p in
  let* delta := nm_pow 256 ec_p z1 2 in
  let* gamma := nm_pow 256 ec_p y1 2 in
  let* beta := nm_mul 256 ec_p x1 gamma in
  let* alpha_1 := nm_sub 256 ec_p x1 delta in
  let* alpha_2 := nm_add 256 ec_p x1 delta in
  let* three := nm_from_literal 256 ec_p 3 in
  let* t := nm_mul 256 ec_p alpha_1 alpha_2 in
  let* alpha := nm_mul 256 ec_p three t in
  let* t := nm_pow 256 ec_p alpha 2 in
  let* eight := nm_from_literal 256 ec_p 8 in
  let* u := nm_mul 256 ec_p eight beta in
  let* x3 := nm_sub 256 ec_p t u in
  let* t := nm_add 256 ec_p y1 z1 in
  let* z3_ := nm_pow 256 ec_p t 2 in
  let* t := nm_add 256 ec_p gamma delta in
  let* z3 := nm_sub 256 ec_p z3_ t in
  let* four := nm_from_literal 256 ec_p 4 in
  let* t := nm_mul 256 ec_p four beta in
  let* y3_1 := nm_sub 256 ec_p t x3 in
  let* eight := nm_from_literal 256 ec_p 8 in
  let* t := nm_mul 256 ec_p gamma gamma in
  let* y3_2 := nm_mul 256 ec_p eight t in
  let* t := nm_mul 256 ec_p alpha y3_1 in
  let* y3 := nm_sub 256 ec_p t y3_2 in
  Ok (x3, y3, z3).
(** is_point_at_infinity p256.rs:45-47 *)
Definition is_point_at_infinity (p : jac) : res bool :=
  let* zero := nm_from_literal 256 ec_p 0 in
  Ok (nm_eqb (snd p) zero).
(** point_add p256.rs:49-91 *)
Definition point_add (p q : jac) : res jac :=
  let* ip := is_point_at_infinity p in
  if ip then Ok q else
  let* iq := is_point_at_infinity q in
  if iq then Ok p else
  let '(x1, y1, z1) := p in
  let '(x2, y2, z2) := q in
  let* z1z1 := nm_pow 256 ec_p z1 2 in
  let* z2z2 := nm_pow 256 ec_p z2 2 in
  let* u1 := nm_mul 256 ec_p x1 z2z2 in
  let* u2 := nm_mul 256 ec_p x2 z1z1 in
  let* t := nm_mul 256 ec_p y1 z2 in
  let* s1 := nm_mul 256 ec_p t z2z2 in
  let* t := nm_mul 256 ec_p y2 z1 in
  let* s2 := nm_mul 256 ec_p t z1z1 in
  if nm_eqb u1 u2 then
    let* _ := assert_ (negb (nm_eqb s1 s2)) in
    let* zero := nm_from_literal 256 ec_p 0 in
    let* one := nm_from_literal 256 ec_p 1 in
    let* zero' := nm_from_literal 256 ec_p 0 in
    Ok (zero, one, zero')
  else
  let* h := nm_sub 256 ec_p u2 u1 in
  let* two := nm_from_literal 256 ec_p 2 in
  let* t := nm_mul 256 ec_p two h in
  let* i := nm_pow 256 ec_p t 2 in
  let* j := nm_mul 256 ec_p h i in
  let* t := nm_sub 256 ec_p s2 s1 in
  let* r := nm_mul 256 ec_p two t in
  let* v := nm_mul 256 ec_p u1 i in
  let* x3_1 := nm_mul 256 ec_p two v in
  let* t := nm_pow 256 ec_p r 2 in
  let* x3_2 := nm_sub 256 ec_p t j in
  let* x3 := nm_sub 256 ec_p x3_2 x3_1 in
  let* t := nm_mul 256 ec_p two s1 in
  let* y3_1 := nm_mul 256 ec_p t j in
  let* t := nm_sub 256 ec_p v x3 in
  let* y3_2 := nm_mul 256 ec_p r t in
  let* y3 := nm_sub 256 ec_p y3_2 y3_1 in
  let* t := nm_add 256 ec_p z1 z2 in
  let* z3_ := nm_pow 256 ec_p t 2 in
  let* t := nm_add 256 ec_p z1z1 z2z2 in
  let* t := nm_sub 256 ec_p z3_ t in
  let* z3 := nm_mul 256 ec_p t h in
  Ok (x3, y3, z3).
(** body of the loop of montgomery_ladder p256.rs:102-113 *)
Definition ec_ladder_step (k : Z) (i : nat) (w : jac * jac) : res (jac * jac) :=
  let* j := usub 255 i in
  let* b := bbit 256 k j in
  let w := if b then (snd w, fst w) else w in
  let* xx := point_double (fst w) in
  let* xp1 := point_add (fst w) (snd w) in
  let* j := usub 255 i in
  let* b := bbit 256 k j in
  Ok (if b then (xp1, xx) else (xx, xp1)).
(** montgomery_ladder p256.rs:93-115 *)
Definition ec_montgomery_ladder (k : Z) (init : jac) : res jac :=
  let* zero := nm_from_literal 256 ec_p 0 in
  let* one := nm_from_literal 256 ec_p 1 in
  let* zero' := nm_from_literal 256 ec_p 0 in
  let* w := for_range 0 256 (ec_ladder_step k) ((zero, one, zero'), init) in
  Ok (fst w).
(** characters of the first string of point_mul p256.rs:119 *)
Definition base_x_hex : list Z := map (fun a => Z.of_N (N_of_ascii a))
  (list_ascii_of_string "6B17D1F2E12C4247F8BCE6E563A440F277037D812DEB33A0F4A13945D898C296").
(** characters of the second string of point_mul p256.rs:120 *)
Definition base_y_hex : list Z := map (fun a => Z.of_N (N_of_ascii a))
  (list_ascii_of_string "4FE342E2FE1A7F9B8EE7EB4A7C0F9E162BCE33576B315ECECBB6406837BF51F5").
(** point_mul p256.rs:117-125 *)
Definition point_mul (k : Z) : res aff :=
  let* x := nm_from_hex 256 ec_p base_x_hex in
  let* y := nm_from_hex 256 ec_p base_y_hex in
  let* z := nm_from_literal 256 ec_p 1 in
  let* j := ec_montgomery_ladder k (x, y, z) in
  jacobian_to_affine j.
