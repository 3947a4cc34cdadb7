(** X25519: /repo/spec-examples/src/curve25519/curve25519.rs. A FieldElement or Scalar is the integer
    stored in it, a Point a pair of FieldElements, a SerializedPoint or SerializedScalar a list of 32 bytes. *)
From Coq Require Import ZArith List Bool.
From Verif Require Import Base M_Int M_Seq M_Bytes M_BigInt M_NatMod.
Import ListNotations.
Open Scope Z_scope.

(** modulus of FieldElement curve25519.rs:4-9 *)
Definition x_p : Z := 0x7fffffffffffffffffffffffffffffffffffffffffffffffffffffffffffffed.
(** modulus of Scalar curve25519.rs:10-15 *)
Definition x_n : Z := 0x8000000000000000000000000000000000000000000000000000000000000000.
(** Point curve25519.rs:17 *)
Definition xpoint : Type := Z * Z.
(** mask_scalar curve25519.rs:21-27 *)
Definition mask_scalar (s : list Z) : res (list Z) :=
  let* b := idx s 0 in
  let* k := upd s 0 (op_and b 248) in
  let* b := idx k 31 in
  let* k := upd k 31 (op_and b 127) in
  let* b := idx k 31 in
  upd k 31 (op_or b 64).
(** decode_scalar curve25519.rs:30-33 *)
Definition decode_scalar (s : list Z) : res Z :=
  let* k := mask_scalar s in
  nm_from_byte_seq_le 256 x_n k.
(** decode_point curve25519.rs:35-42 *)
Definition decode_point (u : list Z) : res xpoint :=
  let* b := idx u 31 in
  let* u_ := upd u 31 (op_and b 127) in
  let* x := nm_from_byte_seq_le 256 x_p u_ in
  let* z := nm_from_literal 256 x_p 1 in
  Ok (x, z).
(** encode_point curve25519.rs:44-48 *)
Definition encode_point (p : xpoint) : res (list Z) :=
  let (x, y) := p in
  let* i := nm_inv 256 x_p y in
  let* b := nm_mul 256 x_p x i in
  update_start (seq_new 0 32) (nm_to_byte_seq_le b).
(** point_add_and_double curve25519.rs:50-70 *)
Definition point_add_and_double (q : xpoint) (w : xpoint * xpoint) : res (xpoint * xpoint) :=
  let (nq, nqp1) := w in
  let (x_1, _) := q in
  let (x_2, z_2) := nq in
  let (x_3, z_3) := nqp1 in
  let* a := nm_add 256 x_p x_2 z_2 in
  let* aa := nm_pow 256 x_p a 2 in
  let* b := nm_sub 256 x_p x_2 z_2 in
  let* bb := nm_mul 256 x_p b b in
  let* e := nm_sub 256 x_p aa bb in
  let* c := nm_add 256 x_p x_3 z_3 in
  let* d := nm_sub 256 x_p x_3 z_3 in
  let* da := nm_mul 256 x_p d a in
  let* cb := nm_mul 256 x_p c b in
  let* t := nm_add 256 x_p da cb in
  let* x_3 := nm_pow 256 x_p t 2 in
  let* t := nm_sub 256 x_p da cb in
  let* t := nm_pow 256 x_p t 2 in
  let* z_3 := nm_mul 256 x_p x_1 t in
  let* x_2 := nm_mul 256 x_p aa bb in
  let* e121665 := nm_from_literal 256 x_p 121665 in
  let* t := nm_mul 256 x_p e121665 e in
  let* t := nm_add 256 x_p aa t in
  let* z_2 := nm_mul 256 x_p e t in
  Ok ((x_2, z_2), (x_3, z_3)).
(** swap curve25519.rs:72-74 *)
Definition xswap (x : xpoint * xpoint) : xpoint * xpoint := (snd x, fst x).
(** body of the loop of montgomery_ladder curve25519.rs:81-87 *)
Definition x_ladder_step (k : Z) (init : xpoint) (i : nat) (acc : xpoint * xpoint) : res (xpoint * xpoint) :=
  let* j := usub 255 i in
  let* b := nm_bit 256 k j in
  if b
  then
    let acc := xswap acc in
    let* acc := point_add_and_double init acc in
    Ok (xswap acc)
  else point_add_and_double init acc.
(** montgomery_ladder curve25519.rs:76-90 *)
Definition x_montgomery_ladder (k : Z) (init : xpoint) : res xpoint :=
  let* one := nm_from_literal 256 x_p 1 in
  let* zero := nm_from_literal 256 x_p 0 in
  let* acc := for_range 0 256 (x_ladder_step k init) ((one, zero), init) in
  Ok (fst acc).
(** scalarmult curve25519.rs:92-97 *)
Definition scalarmult (s p : list Z) : res (list Z) :=
  let* s_ := decode_scalar s in
  let* p_ := decode_point p in
  let* r := x_montgomery_ladder s_ p_ in
  encode_point r.
(** secret_to_public curve25519.rs:99-102; 48 and 57 are the characters of "09" *)
Definition secret_to_public (s : list Z) : res (list Z) :=
  let* base := arr_from_hex 1 32 [48; 57] in
  scalarmult s base.
