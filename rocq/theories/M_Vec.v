(** Element-wise arithmetic of arrays and sequences.
    Models /repo/hacspec/src/vec_integers.rs. *)
From Coq Require Import ZArith List Bool Arith.
From Verif Require Import Base M_Int M_MathUtil M_Seq.
Import ListNotations.
Open Scope Z_scope.

(** [for i in 0..self.len() { out[i] = f(self[i], rhs[i]) }] on a fresh array of length l:
    the loop of vec_integers.rs:33-36,50-53,80-83,121-124,540-543,557-560,574-577,611-614 *)
Definition pointwise (l : nat) (f : Z -> Z -> res Z) (self rhs : list Z) : res (list Z) :=
  for_range 0 (length self) (fun i out =>
    let* a := idx self i in
    let* b := idx rhs i in
    let* c := f a b in
    upd out i c) (seq_new 0 l).

(** Secret arrays: Add vec_integers.rs:532-545, Sub 549-562, Mul 566-579, BitXor 607-616 *)
Definition sarr_add (t : ity) (l : nat) (x y : list Z) : res (list Z) :=
  let* _ := assert_ (length x =? length y)%nat in pointwise l (op_add t) x y.
(** Sub of secret arrays vec_integers.rs:549-562 *)
Definition sarr_sub (t : ity) (l : nat) (x y : list Z) : res (list Z) :=
  let* _ := assert_ (length x =? length y)%nat in pointwise l (op_sub t) x y.
(** Mul of secret arrays vec_integers.rs:566-579 *)
Definition sarr_mul (t : ity) (l : nat) (x y : list Z) : res (list Z) :=
  let* _ := assert_ (length x =? length y)%nat in pointwise l (op_mul t) x y.
(** BitXor of secret arrays vec_integers.rs:607-616 (no length assertion) *)
Definition sarr_xor (l : nat) (x y : list Z) : res (list Z) :=
  pointwise l (fun a b => Ok (op_xor a b)) x y.

(** vec_poly_mul/add/sub vec_integers.rs:1119-1160 on a sequence or array ([create] makes the result) *)
Definition vec_poly (fm : ity -> Z -> Z -> Z -> res Z) (fw : ity -> Z -> Z -> Z)
    (t : ity) (create : nat -> res (list Z)) (x y : list Z) (n : Z) : res (list Z) :=
  let* _ := assert_ (length x =? length y)%nat in
  let* out := create (length x) in
  for_range 0 (length x) (fun i out =>
    let* a := idx x i in
    let* b := idx y i in
    let* c := (if negb (num_equal n 0) then fm t a b n else Ok (fw t a b)) in
    upd out i c) out.
(** vec_poly_mul vec_integers.rs:1119-1130 *)
Definition vec_poly_mul (fuel : nat) := vec_poly (mul_mod fuel) wrap_mul.
(** vec_poly_add vec_integers.rs:1134-1145 *)
Definition vec_poly_add (fuel : nat) := vec_poly (add_mod fuel) wrap_add.
(** vec_poly_sub vec_integers.rs:1149-1160 *)
Definition vec_poly_sub (fuel : nat) := vec_poly (sub_mod fuel) wrap_sub.

(** Public arrays: Add vec_integers.rs:25-38, Sub 42-55, Mul 59-68, Div 72-85, BitXor 113-126 *)
Definition parr_add (t : ity) (l : nat) (x y : list Z) : res (list Z) :=
  let* _ := assert_ (length x =? length y)%nat in pointwise l (fun a b => Ok (iwrap t (a + b))) x y.
(** Sub of public arrays vec_integers.rs:42-55 *)
Definition parr_sub (t : ity) (l : nat) (x y : list Z) : res (list Z) :=
  let* _ := assert_ (length x =? length y)%nat in pointwise l (fun a b => Ok (iwrap t (a - b))) x y.
(** Mul of public arrays vec_integers.rs:59-68 *)
Definition parr_mul (fuel : nat) (t : ity) (l : nat) (x y : list Z) : res (list Z) :=
  let* _ := assert_ (length x =? length y)%nat in vec_poly_mul fuel t (arr_create 0 l) x y 0.
(** Div of public arrays vec_integers.rs:72-85 *)
Definition parr_div (t : ity) (l : nat) (x y : list Z) : res (list Z) :=
  let* _ := assert_ (length x =? length y)%nat in pointwise l (op_div t) x y.
(** BitXor of public arrays vec_integers.rs:113-126 *)
Definition parr_xor (l : nat) (x y : list Z) : res (list Z) :=
  let* _ := assert_ (length x =? length y)%nat in pointwise l (fun a b => Ok (op_xor a b)) x y.

(** PublicSeq Mul/Sub/Add vec_integers.rs:1163-1187 *)
Definition pseq_mul (fuel : nat) (t : ity) (x y : list Z) := vec_poly_mul fuel t (fun n => Ok (seq_new 0 n)) x y 0.
(** PublicSeq Sub vec_integers.rs:1172-1178 *)
Definition pseq_sub (fuel : nat) (t : ity) (x y : list Z) := vec_poly_sub fuel t (fun n => Ok (seq_new 0 n)) x y 0.
(** PublicSeq Add vec_integers.rs:1181-1187 *)
Definition pseq_add (fuel : nat) (t : ity) (x y : list Z) := vec_poly_add fuel t (fun n => Ok (seq_new 0 n)) x y 0.

(** PublicSeq BitXor vec_integers.rs:1205-1215: [out] is Self::default(), an EMPTY sequence, and the
    loop zips over its (no) elements. *)
Fixpoint zip_assign (out x y : list Z) : list Z :=
  match out, x, y with
  | _ :: o, b :: s, c :: t => op_xor b c :: zip_assign o s t
  | o, _, _ => o
  end.
(** PublicSeq BitXor vec_integers.rs:1205-1215, started from Self::default() *)
Definition pseq_xor (x y : list Z) : list Z := zip_assign [] x y.
