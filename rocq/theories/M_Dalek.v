(** The field multiplication of /repo/secret-integers/examples/dalek.rs. *)
From Coq Require Import ZArith List Bool.
From Verif Require Import Base M_Int.
Import ListNotations.
Open Scope Z_scope.

(** FieldElement64 dalek.rs:22-25: five U64 limbs *)
Record fe64 := mkfe { l0 : Z; l1 : Z; l2 : Z; l3 : Z; l4 : Z }.
(** m dalek.rs:33: both factors are converted to U128 first *)
Definition dm (x y : Z) : res Z := op_mul U128 (cast U128 x) (cast U128 y).
(** One right-hand side of dalek.rs:59-63: a sum of five products, associated to the left *)
Definition dsum (x0 y0 x1 y1 x2 y2 x3 y3 x4 y4 : Z) : res Z :=
  let* m0 := dm x0 y0 in let* m1 := dm x1 y1 in let* s := op_add U128 m0 m1 in
  let* m2 := dm x2 y2 in let* s := op_add U128 s m2 in
  let* m3 := dm x3 y3 in let* s := op_add U128 s m3 in
  let* m4 := dm x4 y4 in op_add U128 s m4.
(** One debug_assert of dalek.rs:77-86 *)
Definition small_limb (x : Z) : res unit := assert_ (declassify x <? 2 ^ 54).
(** LOW_51_BIT_MASK dalek.rs:92 *)
Definition low_51_bit_mask : Z := 2 ^ 51 - 1.
(** [c += U64::from(d >> 51).into()] dalek.rs:95,98,101,104 *)
Definition add_carry (c d : Z) : res Z :=
  let* s := op_shr U128 d 51 in op_add U128 c (cast U128 (cast U64 s)).
(** [U64::from(c) & LOW_51_BIT_MASK.into()] dalek.rs:96,99,102,105,108 *)
Definition low_limb (c : Z) : Z := op_and (cast U64 c) low_51_bit_mask.
(** Mul::mul dalek.rs:29-133. [nineteen] is 19u64 converted to U64. *)
Definition fe_mul (a b : fe64) : res fe64 :=
  let nineteen := 19 in
  let* b1_19 := op_mul U64 (l1 b) nineteen in
  let* b2_19 := op_mul U64 (l2 b) nineteen in
  let* b3_19 := op_mul U64 (l3 b) nineteen in
  let* b4_19 := op_mul U64 (l4 b) nineteen in
  let* c0 := dsum (l0 a) (l0 b) (l4 a) b1_19 (l3 a) b2_19 (l2 a) b3_19 (l1 a) b4_19 in
  let* c1 := dsum (l1 a) (l0 b) (l0 a) (l1 b) (l4 a) b2_19 (l3 a) b3_19 (l2 a) b4_19 in
  let* c2 := dsum (l2 a) (l0 b) (l1 a) (l1 b) (l0 a) (l2 b) (l4 a) b3_19 (l3 a) b4_19 in
  let* c3 := dsum (l3 a) (l0 b) (l2 a) (l1 b) (l1 a) (l2 b) (l0 a) (l3 b) (l4 a) b4_19 in
  let* c4 := dsum (l4 a) (l0 b) (l3 a) (l1 b) (l2 a) (l2 b) (l1 a) (l3 b) (l0 a) (l4 b) in
  let* _ := small_limb (l0 a) in let* _ := small_limb (l0 b) in
  let* _ := small_limb (l1 a) in let* _ := small_limb (l1 b) in
  let* _ := small_limb (l2 a) in let* _ := small_limb (l2 b) in
  let* _ := small_limb (l3 a) in let* _ := small_limb (l3 b) in
  let* _ := small_limb (l4 a) in let* _ := small_limb (l4 b) in
  let* c1 := add_carry c1 c0 in
  let o0 := low_limb c0 in
  let* c2 := add_carry c2 c1 in
  let o1 := low_limb c1 in
  let* c3 := add_carry c3 c2 in
  let o2 := low_limb c2 in
  let* c4 := add_carry c4 c3 in
  let o3 := low_limb c3 in
  let* carry := op_shr U128 c4 51 in
  let carry := cast U64 carry in
  let o4 := low_limb c4 in
  let* t := op_mul U64 carry nineteen in
  let* o0 := op_add U64 o0 t in
  let* s := op_shr U64 o0 51 in
  let* o1 := op_add U64 o1 s in
  let o0 := op_and o0 low_51_bit_mask in
  Ok (mkfe o0 o1 o2 o3 o4).
