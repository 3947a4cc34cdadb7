(** Polynomials: /repo/hacspec/src/poly.rs. A polynomial is the list of its coefficients,
    constant term first. [t] is the coefficient type, [n] the modulus (0: no modulus), [fuel]
    bounds the while loops inside the modular operations of the coefficient type. *)
From Coq Require Import ZArith List Bool.
From Verif Require Import Base M_Int M_MathUtil.
Import ListNotations.
Open Scope Z_scope.

(** [.iter().enumerate()], a Rust library feature used in poly.rs:67,139-149 *)
Definition enumerate {A} (l : list A) : list (nat * A) := combine (seq 0 (length l)) l.
(** [for x in list { .. }], the Rust loop of poly.rs:141-154,358-363 *)
Fixpoint for_each {A S} (l : list A) (f : A -> S -> res S) (s : S) : res S :=
  match l with [] => Ok s | a :: l' => let* s' := f a s in for_each l' f s' end.

(** pad poly.rs:31-37 *)
Definition pad (v : list Z) (l : nat) : list Z := v ++ repeat 0 (l - length v).
(** make_fixed_length poly.rs:40-46: the iterator zip stops at the shorter of the two *)
Fixpoint make_fixed_length (v : list Z) (t : nat) : list Z :=
  match t with
  | O => []
  | S t' => match v with [] => 0 :: make_fixed_length [] t' | b :: v' => b :: make_fixed_length v' t' end
  end.
(** monomial poly.rs:49-56 *)
Definition monomial (c : Z) (d : nat) : res (list Z) := upd (repeat 0 (d + 1)) d c.
(** normalize poly.rs:59-62 *)
Definition normalize (x y : list Z) : list Z * list Z :=
  let max_len := Nat.max (length x) (length y) in (pad x max_len, pad y max_len).
(** leading_coefficient poly.rs:65-76 *)
Definition leading_coefficient (x : list Z) : nat * Z :=
  fold_left (fun '(degree, coefficient) '(i, c) =>
    if negb (num_equal c 0) then (i, c) else (degree, coefficient)) (enumerate x) (0%nat, 0).

(** The loop shared by poly_sub and poly_add: poly.rs:82-89, 97-104 *)
Definition poly_zip (op : Z -> Z -> res Z) (x y : list Z) : res (list Z) :=
  let '(x, y) := normalize x y in
  let* _ := assert_ (length x =? length y)%nat in
  zipM op x y.
(** poly_sub poly.rs:79-91 *)
Definition poly_sub (fuel : nat) (t : ity) (x y : list Z) (n : Z) : res (list Z) :=
  poly_zip (fun b c => if num_equal n 0 then op_sub t b c else sub_mod fuel t b c n) x y.
(** poly_add poly.rs:94-106 *)
Definition poly_add (fuel : nat) (t : ity) (x y : list Z) (n : Z) : res (list Z) :=
  poly_zip (fun b c => if num_equal n 0 then op_add t b c else add_mod fuel t b c n) x y.

(** poly_mul_plain poly.rs:110-118 *)
Definition poly_mul_plain (t : ity) (x y : list Z) : res (list Z) :=
  for_range 0 (length x) (fun i out =>
    for_range 0 (length y) (fun j out =>
      let* o := idx out (i + j) in
      let* a := idx x i in
      let* b := idx y j in
      let* p := op_mul t a b in
      let* s := op_add t o p in
      upd out (i + j) s) out)
    (repeat 0 (length x + length y)).
(** poly_mul_op_scanning poly.rs:123-131 *)
Definition poly_mul_op_scanning (fuel : nat) (t : ity) (x y : list Z) (n : Z) : res (list Z) :=
  for_range 0 (length x) (fun i out =>
    for_range 0 (length y) (fun j out =>
      let* o := idx out (i + j) in
      let* a := idx x i in
      let* b := idx y j in
      let* p := mul_mod fuel t a b n in
      let* s := add_mod fuel t o p n in
      upd out (i + j) s) out)
    (repeat 0 (length x + length y)).
(** The filtered enumeration of poly.rs:139-149 *)
Definition nonzero_terms (x : list Z) : list (nat * Z) :=
  filter (fun '(_, x) => negb (num_equal x 0)) (enumerate x).
(** poly_mul poly.rs:137-156 *)
Definition poly_mul (fuel : nat) (t : ity) (x y : list Z) (n : Z) : res (list Z) :=
  for_each (nonzero_terms x) (fun '(i, a) out =>
    for_each (nonzero_terms y) (fun '(j, b) out =>
      let* o := idx out (i + j) in
      let* p := mul_mod fuel t a b n in
      let* s := add_mod fuel t o p n in
      upd out (i + j) s) out)
    (repeat 0 (length x + length y)).

(** One iteration of the loop of poly_div: poly.rs:174-187 *)
Definition poly_div_step (fuel : nat) (t : ity) (y : list Z) (n : Z) (c : Z) (dist rlen : nat)
    (i : nat) (s : list Z * list Z) : res (list Z * list Z) :=
  let '(quo, rem) := s in
  let* k := usub rlen 1 in
  let* idx_ := usub k i in
  let* ri := idx rem idx_ in
  let* q := (if num_equal n 0 then num_div t ri c
             else let* ci := num_inv fuel t c n in op_mul t ri ci) in
  let* _ := (if num_equal q 0 && negb (num_equal ri 0) then Panic PExplicit else Ok tt) in
  let* e := usub dist i in
  let* e := usub e 1 in
  let* s := monomial q e in
  let* sy := poly_mul fuel t s y n in
  let* quo := poly_add fuel t quo s n in
  let* rem := poly_sub fuel t rem sy n in
  Ok (quo, rem).
(** poly_div poly.rs:165-190 *)
Definition poly_div (fuel : nat) (t : ity) (x y : list Z) (n : Z) : res (list Z * list Z) :=
  let '(x, y) := normalize x y in
  let rem := x in
  let quo := repeat 0 (length x) in
  let '(yd, c) := leading_coefficient y in
  let* dist := usub (length x) yd in
  let rlen := length rem in
  let* ' (quo, rem) := for_range 0 dist (poly_div_step fuel t y n c dist rlen) (quo, rem) in
  Ok (quo, make_fixed_length rem yd).

(** is_zero poly.rs:193-200 *)
Definition poly_is_zero (v : list Z) : bool := forallb (fun x => num_equal x 0) v.
(** poly_z_inv poly.rs:203-205 *)
Definition poly_z_inv (fuel : nat) (t : ity) (v : list Z) (n : Z) : res (list Z) :=
  mapM (fun x => num_inv fuel t x n) v.

(** quot_sub poly.rs:208-228 *)
Definition quot_sub (fuel : nat) (t : ity) (an : list Z) (ad : nat) (bn : list Z) (bd : nat) (n : Z)
    : res (list Z * nat) :=
  let cd := Nat.max ad bd in
  let* x := monomial 1 1 in
  let* ka := usub cd ad in
  let* a := for_range 0 ka (fun _ a => poly_mul fuel t a x n) an in
  let* kb := usub cd bd in
  let* b := for_range 0 kb (fun _ b => poly_mul fuel t b x n) bn in
  let* r := poly_sub fuel t a b n in
  Ok (r, cd).
(** poly_divx poly.rs:231-237 *)
Definition poly_divx (v : list Z) : res (list Z) :=
  let* l := usub (length v) 1 in Ok (make_fixed_length (skipn 1 v) l).

(** The loop state of divstepsx: poly.rs:252-262. [delta] is an i128; it stays within
    [-nn, nn+1], so its overflow is not modelled. *)
Record dst := mkdst { ds_delta : Z; ds_f : list Z; ds_g : list Z;
  ds_u : list Z * nat; ds_v : list Z * nat; ds_q : list Z * nat; ds_r : list Z * nat }.
(** One iteration: poly.rs:264-308 *)
Definition divstep (fuel : nat) (ty : ity) (nn t : nat) (n : Z) (i : nat) (s : dst) : res dst :=
  let u := (make_fixed_length (fst (ds_u s)) t, snd (ds_u s)) in
  let v := (make_fixed_length (fst (ds_v s)) t, snd (ds_v s)) in
  let q := (make_fixed_length (fst (ds_q s)) t, snd (ds_q s)) in
  let r := (make_fixed_length (fst (ds_r s)) t, snd (ds_r s)) in
  let* l := usub nn i in
  let f := make_fixed_length (ds_f s) l in
  let g := make_fixed_length (ds_g s) l in
  let* g0 := (if 0 <? ds_delta s then let* x := idx g 0 in Ok (negb (num_equal x 0)) else Ok false) in
  let s := if g0 then mkdst (- ds_delta s) g f q r u v else mkdst (ds_delta s) f g u v q r in
  let delta := ds_delta s + 1 in
  let f := ds_f s in let g := ds_g s in
  let u := ds_u s in let v := ds_v s in let q := ds_q s in let r := ds_r s in
  let* f0 := idx f 0 in let* f0 := monomial f0 0 in
  let* g0 := idx g 0 in let* g0 := monomial g0 0 in
  let* t0 := poly_mul fuel ty f0 g n in
  let* t1 := poly_mul fuel ty g0 f n in
  let* g := poly_sub fuel ty t0 t1 n in
  let* g := poly_divx g in
  let* t0 := poly_mul fuel ty f0 (fst q) n in
  let* t1 := poly_mul fuel ty g0 (fst u) n in
  let* q := quot_sub fuel ty t0 (snd q) t1 (snd u) n in
  let q := (fst q, snd q + 1)%nat in
  let* t0 := poly_mul fuel ty f0 (fst r) n in
  let* t1 := poly_mul fuel ty g0 (fst v) n in
  let* r := quot_sub fuel ty t0 (snd r) t1 (snd v) n in
  let r := (fst r, snd r + 1)%nat in
  Ok (mkdst delta f g u v q r).
(** divstepsx poly.rs:242-310 *)
Definition divstepsx (fuel : nat) (ty : ity) (nn t : nat) (fin gin : list Z) (n : Z)
    : res (Z * list Z * list Z * (list Z * nat)) :=
  let* _ := assert_ (nn <=? t)%nat in
  let* s := for_range 0 nn (divstep fuel ty nn t n)
     (mkdst 1 fin gin ([1], 0%nat) ([0], 0%nat) ([0], 0%nat) ([1], 0%nat)) in
  Ok (ds_delta s, ds_f s, ds_g s, ds_v s).

(** extended_euclid poly.rs:315-339; [None] is the Err result *)
Definition extended_euclid (fuel : nat) (ty : ity) (x y : list Z) (n : Z) : res (option (list Z)) :=
  let '(yd, _) := leading_coefficient y in
  let* _ := assert_ (length x <=? yd)%nat in
  let* _ := assert_ (0 <? yd)%nat in
  let f := rev (make_fixed_length y (yd + 1)) in
  let g := rev (make_fixed_length x yd) in
  let* k := usub (2 * yd) 1 in
  let* ' (delta, f, _, v) := divstepsx fuel ty k k f g n in
  if negb (delta =? 0) then Ok None else
  let* f0 := idx f 0 in
  let* fi := num_inv fuel ty f0 n in
  let* k := usub (2 * yd) 2 in
  let* k := usub k (snd v) in
  let* t := monomial fi k in
  let* rr := poly_mul fuel ty t (fst v) n in
  Ok (Some (rev (make_fixed_length rr yd))).

(** ** The poly! type of fixed length [l] over Z_n[x]/m: poly.rs:342-516 *)
(** The struct of poly.rs:347-351 *)
Record polyt := mkpoly { p_poly : list Z; p_irr : list Z; p_n : Z }.
(** Filling an array from (index, coefficient) pairs: poly.rs:356-363 *)
Definition fill_sparse (l : nat) (p : list (nat * Z)) : res (list Z) :=
  for_each p (fun '(i, c) a => upd a i c) (repeat 0 l).
(** new poly.rs:355-369 *)
Definition poly_new (l : nat) (n : Z) (m p : list (nat * Z)) : res polyt :=
  let* poly := fill_sparse l p in
  let* irr := fill_sparse (l + 1) m in Ok (mkpoly poly irr n).
(** new_full poly.rs:371-381; the argument is an array of l coefficients *)
Definition poly_new_full (l : nat) (n : Z) (m : list (nat * Z)) (p : list Z) : res polyt :=
  let* irr := fill_sparse (l + 1) m in Ok (mkpoly p irr n).
(** compatible poly.rs:402-419 *)
Definition poly_compatible (a b : polyt) : bool :=
  if negb (p_n a =? p_n b) then false
  else if negb (length (p_irr a) =? length (p_irr b))%nat then false
  else if negb (length (p_poly a) =? length (p_poly b))%nat then false
  else forallb (fun '(x, y) => x =? y) (combine (p_irr a) (p_irr b)).
(** from_vec poly.rs:427-446 *)
Definition poly_from_vec (l : nat) (n : Z) (m : list (nat * Z)) (v : list Z) : res polyt :=
  let '(d, _) := leading_coefficient v in
  let* _ := assert_ (d <=? l)%nat in
  let p := make_fixed_length v l in
  let* irr := fill_sparse (l + 1) m in Ok (mkpoly p irr n).
(** inv poly.rs:422-425 (unwrap of Err panics) *)
Definition polyt_inv (fuel : nat) (t : ity) (l : nat) (m : list (nat * Z)) (a : polyt) : res polyt :=
  let* r := extended_euclid fuel t (p_poly a) (p_irr a) (p_n a) in
  match r with Some v => poly_from_vec l (p_n a) m v | None => Panic PExplicit end.
(** PartialEq poly.rs:461-473 *)
Definition polyt_eqb (a b : polyt) : bool :=
  poly_compatible a b && forallb (fun '(x, y) => x =? y) (combine (p_poly a) (p_poly b)).
(** Sub poly.rs:476-483 *)
Definition polyt_sub (fuel : nat) (t : ity) (l : nat) (m : list (nat * Z)) (a b : polyt) : res polyt :=
  let* _ := assert_ (poly_compatible a b) in
  let* r := poly_sub fuel t (p_poly a) (p_poly b) (p_n a) in poly_from_vec l (p_n a) m r.
(** Add poly.rs:486-493 *)
Definition polyt_add (fuel : nat) (t : ity) (l : nat) (m : list (nat * Z)) (a b : polyt) : res polyt :=
  let* _ := assert_ (poly_compatible a b) in
  let* r := poly_add fuel t (p_poly a) (p_poly b) (p_n a) in poly_from_vec l (p_n a) m r.
(** Mul poly.rs:496-504 *)
Definition polyt_mul (fuel : nat) (t : ity) (l : nat) (m : list (nat * Z)) (a b : polyt) : res polyt :=
  let* _ := assert_ (poly_compatible a b) in
  let* tmp := poly_mul fuel t (p_poly a) (p_poly b) (p_n a) in
  let* ' (_, r) := poly_div fuel t tmp (p_irr a) (p_n a) in poly_from_vec l (p_n a) m r.
(** Div poly.rs:507-514 *)
Definition polyt_div (fuel : nat) (t : ity) (l : nat) (m : list (nat * Z)) (a b : polyt) : res (polyt * polyt) :=
  let* _ := assert_ (poly_compatible a b) in
  let* ' (q, r) := poly_div fuel t (p_poly a) (p_poly b) (p_n a) in
  let* q := poly_from_vec l (p_n a) m q in
  let* r := poly_from_vec l (p_n a) m r in Ok (q, r).

