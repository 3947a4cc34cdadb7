(** Models /repo/hacspec/src/math_util.rs and the ModNumeric instances of
    /repo/hacspec/src/machine_integers.rs. *)
From Coq Require Import ZArith List Bool.
From Verif Require Import Base M_Int.
Import ListNotations.
Open Scope Z_scope.

(** [while c(s) { s = f(s) }] with fuel (Rust's while loop, used for math_util.rs:13,32,39,49 and machine_integers.rs:22). *)
Fixpoint while_ {S} (fuel : nat) (c : S -> bool) (f : S -> res S) (s : S) : res S :=
  match fuel with
  | O => Panic OutOfFuel
  | Datatypes.S k => if c s then let* s' := f s in while_ k c f s' else Ok s
  end.

(** signed_mod, math_util.rs:11-17, on i128. *)
Definition signed_mod (fuel : nat) (x n : Z) : res Z :=
  let* ret := op_rem i128 x n in
  while_ fuel (fun r => r <? 0) (fun r => op_add i128 r n) ret.

(** sub_mod/add_mod/mul_mod/modulo.
    Public unsigned: machine_integers.rs:19-47. Secret unsigned 246-279 declassify
    and use the public operations. Signed (public 58-80, secret 290-323) go
    through signed_mod on i128 and cast back. *)
Definition pub (t : ity) : ity := mkity (bits t) (sgn t) false.

(** sub_mod machine_integers.rs:19-27,58-60,246-251,290-295 (the println! calls have no effect on the result and are left out) *)
Definition sub_mod (fuel : nat) (t : ity) (a b n : Z) : res Z :=
  if sgn t then
    let* d := op_sub i128 a b in
    let* r := signed_mod fuel d n in Ok (cast t r)
  else
    let* tmp := while_ fuel (fun x => x <? b) (fun x => op_add (pub t) x n) a in
    let* d := op_sub (pub t) tmp b in
    op_rem (pub t) d n.
(** add_mod machine_integers.rs:30-32,63-65,254-259,298-303 *)
Definition add_mod (fuel : nat) (t : ity) (a b n : Z) : res Z :=
  if sgn t then
    let* d := op_add i128 a b in
    let* r := signed_mod fuel d n in Ok (cast t r)
  else
    let* d := op_add (pub t) a b in op_rem (pub t) d n.
(** mul_mod machine_integers.rs:35-37,68-70,262-267,306-311 *)
Definition mul_mod (fuel : nat) (t : ity) (a b n : Z) : res Z :=
  if sgn t then
    let* d := op_mul i128 a b in
    let* r := signed_mod fuel d n in Ok (cast t r)
  else
    let* d := op_mul (pub t) a b in op_rem (pub t) d n.
(** modulo machine_integers.rs:45-47,78-80,275-279,319-323 *)
Definition modulo (fuel : nat) (t : ity) (a n : Z) : res Z :=
  if sgn t then
    let* r := signed_mod fuel a n in Ok (cast t r)
  else op_rem (pub t) a n.

(** extended_euclid_invert, math_util.rs:25-68. [fuel] bounds the outer loop and
    each of the two inner loops. T::abs is unimplemented (machine_integers.rs:147,404). *)
Record eea := mkeea { ee_t : Z; ee_r : Z; ee_new_t : Z; ee_new_r : Z }.

(** the body of the outer loop, math_util.rs:33-53 *)
Definition eea_step (fuel : nat) (ty : ity) (n : Z) (s : eea) : res eea :=
  let* q := num_div ty (ee_r s) (ee_new_r s) in
  let tmp := ee_new_r s in
  let* tmp_prod := op_mul ty q (ee_new_r s) in
  let* tmp_r := while_ fuel (fun x => num_less_than x tmp_prod) (fun x => op_add ty x n) (ee_r s) in
  let* new_r := op_sub ty tmp_r tmp_prod in
  let r := tmp in
  let tmp := ee_new_t s in
  let* tmp_prod := op_mul ty q (ee_new_t s) in
  let* tmp_t := while_ fuel (fun x => num_less_than x tmp_prod) (fun x => op_add ty x n) (ee_t s) in
  let* new_t := op_sub ty tmp_t tmp_prod in
  Ok (mkeea tmp r new_t new_r).

(** extended_euclid_invert math_util.rs:25-68; signed selects T::abs, which is unimplemented *)
Definition extended_euclid_invert (fuel : nat) (ty : ity) (x n : Z) (signed : bool) : res Z :=
  let* s := while_ fuel (fun s => negb (num_equal (ee_new_r s) 0)) (eea_step fuel ty n)
                   (mkeea 0 n 1 x) in
  if num_greater_than (ee_r s) 1 && negb (num_equal x 0) then Panic PExplicit else
  if num_less_than (ee_t s) 0
  then (if signed then Panic PUnimpl else op_add ty (ee_t s) n)
  else Ok (ee_t s).

(** NumericBase::inv, machine_integers.rs:142-144,398-401 *)
Definition num_inv (fuel : nat) (ty : ity) (x n : Z) : res Z :=
  extended_euclid_invert fuel ty x n false.

(** cswap, math_util.rs:83-86 *)
Definition cswap (x y c : Z) : Z * Z :=
  let mask := op_and c (op_xor x y) in
  (op_xor x mask, op_xor y mask).
(** cswap_bit, math_util.rs:74-76 *)
Definition cswap_bit (t : ity) (x y c : Z) : Z * Z := cswap x y (wrap_sub t 0 c).
(** cset_bit, math_util.rs:92-96 *)
Definition cset_bit (t : ity) (x b i c : Z) : res Z :=
  let* st := set_bit t x b i in Ok (fst (cswap x st c)).
(** cadd / csub / cmul, math_util.rs:103-129 *)
Definition cadd (t : ity) (x y c : Z) : Z := fst (cswap x (wrap_add t x y) c).
(** csub math_util.rs:114-118 *)
Definition csub (t : ity) (x y c : Z) : Z := fst (cswap x (wrap_sub t x y) c).
(** cmul math_util.rs:125-129 *)
Definition cmul (t : ity) (x y c : Z) : Z := fst (cswap x (wrap_mul t x y) c).

(** ct_div, math_util.rs:136-152: [for i in (0..NUM_BITS).rev()]; iteration k
    handles bit NUM_BITS-1-k. *)
Definition ct_div_step (t : ity) (a d i : Z) (s : Z * Z) : res (Z * Z) :=
  let '(q, r) := s in
  let* r := op_shl t r 1 in
  let* r := set t r 0 a i in
  let* geq := greater_than_or_qual_bm t r d in
  let r := csub t r d geq in
  let* q := cset_bit t q 1 i geq in
  Ok (q, r).
(** ct_div math_util.rs:136-152 *)
Definition ct_div (t : ity) (a d : Z) : res (Z * Z) :=
  for_range 0 (Z.to_nat (bits t))
    (fun k s => ct_div_step t a d (bits t - 1 - Z.of_nat k) s) (0, 0).
