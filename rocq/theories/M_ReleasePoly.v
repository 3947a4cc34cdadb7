(** The release profile of /repo/hacspec/src/poly.rs (see M_Release.v): debug_assert! is left out, and + - * of the coefficient
    types wrap. Functions without either are shared with M_Poly.v. A usize subtraction that underflows is still a panic here: each
    such result is used as the length of a new vector, and a vector of nearly 2^64 elements panics ("capacity overflow"). *)
From Coq Require Import ZArith List Bool.
From Verif Require Import Base M_Int M_MathUtil M_Poly M_Release.
Import ListNotations.
Open Scope Z_scope.

(** The loop shared by poly_sub and poly_add: poly.rs:82-89, 97-104, without the assertion *)
Definition rpoly_zip (op : Z -> Z -> res Z) (x y : list Z) : res (list Z) :=
  let '(x, y) := normalize x y in zipM op x y.
(** poly_sub poly.rs:79-91 *)
Definition rpoly_sub (fuel : nat) (t : ity) (x y : list Z) (n : Z) : res (list Z) :=
  rpoly_zip (fun b c => if num_equal n 0 then Ok (rop_sub t b c) else rsub_mod fuel t b c n) x y.
(** poly_add poly.rs:94-106 *)
Definition rpoly_add (fuel : nat) (t : ity) (x y : list Z) (n : Z) : res (list Z) :=
  rpoly_zip (fun b c => if num_equal n 0 then Ok (rop_add t b c) else radd_mod fuel t b c n) x y.
(** poly_mul_plain poly.rs:110-118 *)
Definition rpoly_mul_plain (t : ity) (x y : list Z) : res (list Z) :=
  for_range 0 (length x) (fun i out =>
    for_range 0 (length y) (fun j out =>
      let* o := idx out (i + j) in
      let* a := idx x i in
      let* b := idx y j in
      let p := rop_mul t a b in
      let s := rop_add t o p in
      upd out (i + j) s) out)
    (repeat 0 (length x + length y)).
(** poly_mul_op_scanning poly.rs:123-131 *)
Definition rpoly_mul_op_scanning (fuel : nat) (t : ity) (x y : list Z) (n : Z) : res (list Z) :=
  for_range 0 (length x) (fun i out =>
    for_range 0 (length y) (fun j out =>
      let* o := idx out (i + j) in
      let* a := idx x i in
      let* b := idx y j in
      let* p := rmul_mod fuel t a b n in
      let* s := radd_mod fuel t o p n in
      upd out (i + j) s) out)
    (repeat 0 (length x + length y)).
(** poly_mul poly.rs:137-156 *)
Definition rpoly_mul (fuel : nat) (t : ity) (x y : list Z) (n : Z) : res (list Z) :=
  for_each (nonzero_terms x) (fun '(i, a) out =>
    for_each (nonzero_terms y) (fun '(j, b) out =>
      let* o := idx out (i + j) in
      let* p := rmul_mod fuel t a b n in
      let* s := radd_mod fuel t o p n in
      upd out (i + j) s) out)
    (repeat 0 (length x + length y)).
(** One iteration of the loop of poly_div: poly.rs:174-187 *)
Definition rpoly_div_step (fuel : nat) (t : ity) (y : list Z) (n : Z) (c : Z) (dist rlen : nat)
    (i : nat) (s : list Z * list Z) : res (list Z * list Z) :=
  let '(quo, rem) := s in
  let* k := usub rlen 1 in
  let* idx_ := usub k i in
  let* ri := idx rem idx_ in
  let* q := (if num_equal n 0 then num_div t ri c
             else let* ci := rnum_inv fuel t c n in Ok (rop_mul t ri ci)) in
  let* _ := (if num_equal q 0 && negb (num_equal ri 0) then Panic PExplicit else Ok tt) in
  let* e := usub dist i in
  let* e := usub e 1 in
  let* s := monomial q e in
  let* sy := rpoly_mul fuel t s y n in
  let* quo := rpoly_add fuel t quo s n in
  let* rem := rpoly_sub fuel t rem sy n in
  Ok (quo, rem).
(** poly_div poly.rs:165-190 *)
Definition rpoly_div (fuel : nat) (t : ity) (x y : list Z) (n : Z) : res (list Z * list Z) :=
  let '(x, y) := normalize x y in
  let rem := x in
  let quo := repeat 0 (length x) in
  let '(yd, c) := leading_coefficient y in
  let* dist := usub (length x) yd in
  let rlen := length rem in
  let* ' (quo, rem) := for_range 0 dist (rpoly_div_step fuel t y n c dist rlen) (quo, rem) in
  Ok (quo, make_fixed_length rem yd).
(** poly_z_inv poly.rs:203-205 *)
Definition rpoly_z_inv (fuel : nat) (t : ity) (v : list Z) (n : Z) : res (list Z) :=
  mapM (fun x => rnum_inv fuel t x n) v.
(** quot_sub poly.rs:208-228 *)
Definition rquot_sub (fuel : nat) (t : ity) (an : list Z) (ad : nat) (bn : list Z) (bd : nat) (n : Z)
    : res (list Z * nat) :=
  let cd := Nat.max ad bd in
  let* x := monomial 1 1 in
  let* ka := usub cd ad in
  let* a := for_range 0 ka (fun _ a => rpoly_mul fuel t a x n) an in
  let* kb := usub cd bd in
  let* b := for_range 0 kb (fun _ b => rpoly_mul fuel t b x n) bn in
  let* r := rpoly_sub fuel t a b n in
  Ok (r, cd).
(** One iteration: poly.rs:264-308 *)
Definition rdivstep (fuel : nat) (ty : ity) (nn t : nat) (n : Z) (i : nat) (s : dst) : res dst :=
  let u := (make_fixed_length (fst (ds_u s)) t, snd (ds_u s)) in
  let v := (make_fixed_length (fst (ds_v s)) t, snd (ds_v s)) in
  let q := (make_fixed_length (fst (ds_q s)) t, snd (ds_q s)) in
  let r := (make_fixed_length (fst (ds_r s)) t, snd (ds_r s)) in
  let* l := usub nn i in
  let f := make_fixed_length (ds_f s) l in
  let g := make_fixed_length (ds_g s) l in
  let* g0 := (if 0 <? ds_delta s then let* x := idx g 0 in Ok (negb (num_equal x 0)) else Ok false) in
  let s := if g0 then mkdst (- ds_delta s) g f q r u v else mkdst (ds_delta s) f g u v q r in
  let delta := ds_delta s + 1 in
  let f := ds_f s in let g := ds_g s in
  let u := ds_u s in let v := ds_v s in let q := ds_q s in let r := ds_r s in
  let* f0 := idx f 0 in let* f0 := monomial f0 0 in
  let* g0 := idx g 0 in let* g0 := monomial g0 0 in
  let* t0 := rpoly_mul fuel ty f0 g n in
  let* t1 := rpoly_mul fuel ty g0 f n in
  let* g := rpoly_sub fuel ty t0 t1 n in
  let* g := poly_divx g in
  let* t0 := rpoly_mul fuel ty f0 (fst q) n in
  let* t1 := rpoly_mul fuel ty g0 (fst u) n in
  let* q := rquot_sub fuel ty t0 (snd q) t1 (snd u) n in
  let q := (fst q, snd q + 1)%nat in
  let* t0 := rpoly_mul fuel ty f0 (fst r) n in
  let* t1 := rpoly_mul fuel ty g0 (fst v) n in
  let* r := rquot_sub fuel ty t0 (snd r) t1 (snd v) n in
  let r := (fst r, snd r + 1)%nat in
  Ok (mkdst delta f g u v q r).
(** divstepsx poly.rs:242-310 *)
Definition rdivstepsx (fuel : nat) (ty : ity) (nn t : nat) (fin gin : list Z) (n : Z)
    : res (Z * list Z * list Z * (list Z * nat)) :=
  let* s := for_range 0 nn (rdivstep fuel ty nn t n)
     (mkdst 1 fin gin ([1], 0%nat) ([0], 0%nat) ([0], 0%nat) ([1], 0%nat)) in
  Ok (ds_delta s, ds_f s, ds_g s, ds_v s).
(** extended_euclid poly.rs:315-339; [None] is the Err result *)
Definition rextended_euclid (fuel : nat) (ty : ity) (x y : list Z) (n : Z) : res (option (list Z)) :=
  let '(yd, _) := leading_coefficient y in
  let f := rev (make_fixed_length y (yd + 1)) in
  let g := rev (make_fixed_length x yd) in
  let* k := usub (2 * yd) 1 in
  let* ' (delta, f, _, v) := rdivstepsx fuel ty k k f g n in
  if negb (delta =? 0) then Ok None else
  let* f0 := idx f 0 in
  let* fi := rnum_inv fuel ty f0 n in
  let* k := usub (2 * yd) 2 in
  let* k := usub k (snd v) in
  let* t := monomial fi k in
  let* rr := rpoly_mul fuel ty t (fst v) n in
  Ok (Some (rev (make_fixed_length rr yd))).
(** from_vec poly.rs:427-446 *)
Definition rpoly_from_vec (l : nat) (n : Z) (m : list (nat * Z)) (v : list Z) : res polyt :=
  let '(d, _) := leading_coefficient v in
  let p := make_fixed_length v l in
  let* irr := fill_sparse (l + 1) m in Ok (mkpoly p irr n).
(** inv poly.rs:422-425 (unwrap of Err panics) *)
Definition rpolyt_inv (fuel : nat) (t : ity) (l : nat) (m : list (nat * Z)) (a : polyt) : res polyt :=
  let* r := rextended_euclid fuel t (p_poly a) (p_irr a) (p_n a) in
  match r with Some v => rpoly_from_vec l (p_n a) m v | None => Panic PExplicit end.
(** Sub poly.rs:476-483 *)
Definition rpolyt_sub (fuel : nat) (t : ity) (l : nat) (m : list (nat * Z)) (a b : polyt) : res polyt :=
  let* r := rpoly_sub fuel t (p_poly a) (p_poly b) (p_n a) in rpoly_from_vec l (p_n a) m r.
(** Add poly.rs:486-493 *)
Definition rpolyt_add (fuel : nat) (t : ity) (l : nat) (m : list (nat * Z)) (a b : polyt) : res polyt :=
  let* r := rpoly_add fuel t (p_poly a) (p_poly b) (p_n a) in rpoly_from_vec l (p_n a) m r.
(** Mul poly.rs:496-504 *)
Definition rpolyt_mul (fuel : nat) (t : ity) (l : nat) (m : list (nat * Z)) (a b : polyt) : res polyt :=
  let* tmp := rpoly_mul fuel t (p_poly a) (p_poly b) (p_n a) in
  let* ' (_, r) := rpoly_div fuel t tmp (p_irr a) (p_n a) in rpoly_from_vec l (p_n a) m r.
(** Div poly.rs:507-514 *)
Definition rpolyt_div (fuel : nat) (t : ity) (l : nat) (m : list (nat * Z)) (a b : polyt) : res (polyt * polyt) :=
  let* ' (q, r) := rpoly_div fuel t (p_poly a) (p_poly b) (p_n a) in
  let* q := rpoly_from_vec l (p_n a) m q in
  let* r := rpoly_from_vec l (p_n a) m r in Ok (q, r).
