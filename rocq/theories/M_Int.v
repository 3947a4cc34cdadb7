(** Machine integers, public and secret.
    Models /repo/secret-integers/src/lib.rs, /repo/hacspec/src/machine_integers.rs
    and the [Integer] trait of /repo/hacspec/src/traits.rs.
    An integer type of the code (u8..u128, i8..i128, U8..U128, I8..I128) is a
    descriptor; a value is a [Z] in the range of the type. *)
From Coq Require Import ZArith List Bool.
From Verif Require Import Base.
Import ListNotations.
Open Scope Z_scope.

(** Type descriptor: number of bits, signedness, secret or public.
    Models the macro parameters ($t,$bits) of machine_integers.rs:226-236,469-480
    and secret-integers/src/lib.rs:448-457. Any width is allowed here. *)
Record ity := mkity { bits : Z; sgn : bool; sec : bool }.

(** machine_integers.rs:226-236 *)
Definition u8 := mkity 8 false false.
(** machine_integers.rs:227 *)
Definition u16 := mkity 16 false false.
(** machine_integers.rs:228 *)
Definition u32 := mkity 32 false false.
(** machine_integers.rs:229 *)
Definition u64 := mkity 64 false false.
(** machine_integers.rs:230 *)
Definition u128 := mkity 128 false false.
(** machine_integers.rs:232 *)
Definition i8 := mkity 8 true false.
(** machine_integers.rs:233 *)
Definition i16 := mkity 16 true false.
(** machine_integers.rs:234 *)
Definition i32 := mkity 32 true false.
(** machine_integers.rs:235 *)
Definition i64 := mkity 64 true false.
(** machine_integers.rs:236 *)
Definition i128 := mkity 128 true false.
(** secret-integers/src/lib.rs:448-457 *)
Definition U8 := mkity 8 false true.
(** secret-integers/src/lib.rs:449 *)
Definition U16 := mkity 16 false true.
(** secret-integers/src/lib.rs:450 *)
Definition U32 := mkity 32 false true.
(** secret-integers/src/lib.rs:451 *)
Definition U64 := mkity 64 false true.
(** secret-integers/src/lib.rs:452 *)
Definition U128 := mkity 128 false true.
(** secret-integers/src/lib.rs:453 *)
Definition I8 := mkity 8 true true.
(** secret-integers/src/lib.rs:454 *)
Definition I16 := mkity 16 true true.
(** secret-integers/src/lib.rs:455 *)
Definition I32 := mkity 32 true true.
(** secret-integers/src/lib.rs:456 *)
Definition I64 := mkity 64 true true.
(** secret-integers/src/lib.rs:457 *)
Definition I128 := mkity 128 true true.

(** Smallest and largest value of the representation type (Rust MIN / MAX;
    max_value: secret-integers/src/lib.rs:252-254, max_val: machine_integers.rs:104-106,348-350). *)
Definition imin (t : ity) : Z := if sgn t then - 2 ^ (bits t - 1) else 0.
(** largest value: max_value secret-integers/src/lib.rs:252-254, max_val machine_integers.rs:104-106,348-350 *)
Definition imax (t : ity) : Z := if sgn t then 2 ^ (bits t - 1) - 1 else 2 ^ bits t - 1.

(** the values of the representation type ($repr of secret-integers/src/lib.rs:168-171), as a proposition *)
Definition in_ty (t : ity) (z : Z) : Prop := imin t <= z <= imax t.
(** the same as a boolean ($repr of secret-integers/src/lib.rs:168-171) *)
Definition in_tyb (t : ity) (z : Z) : bool := (imin t <=? z) && (z <=? imax t).

(** Two's-complement wrapping into a type: Rust [as] casts and [Wrapping].
    secret-integers/src/lib.rs:82-90 (Wrapping), 493-533 ([as]). *)
Definition iwrap (t : ity) (z : Z) : Z :=
  if sgn t
  then (z + 2 ^ (bits t - 1)) mod 2 ^ bits t - 2 ^ (bits t - 1)
  else z mod 2 ^ bits t.

(** Overflow check of the debug profile: Rust language, used by every plain + - * of public integers, e.g. machine_integers.rs:23,31,36. *)
Definition chk (t : ity) (z : Z) : res Z :=
  if in_tyb t z then Ok z else Panic POverflow.

(** Operators add, sub, mul: wrapping for secret integers
    (secret-integers/src/lib.rs:78-90,264-266), checked for public ones (Rust). *)
Definition op_add (t : ity) (a b : Z) : res Z :=
  if sec t then Ok (iwrap t (a + b)) else chk t (a + b).
(** - of secret integers secret-integers/src/lib.rs:85-89,265, of public ones Rust *)
Definition op_sub (t : ity) (a b : Z) : res Z :=
  if sec t then Ok (iwrap t (a - b)) else chk t (a - b).
(** * of secret integers secret-integers/src/lib.rs:85-89,266, of public ones Rust *)
Definition op_mul (t : ity) (a b : Z) : res Z :=
  if sec t then Ok (iwrap t (a * b)) else chk t (a * b).

(** checked_add/sub/mul of secret integers, secret-integers/src/lib.rs:92-102 *)
Definition checked_add (t : ity) (a b : Z) : res Z :=
  if in_tyb t (a + b) then Ok (a + b) else Panic PExplicit.
(** checked_sub secret-integers/src/lib.rs:94-101,265 *)
Definition checked_sub (t : ity) (a b : Z) : res Z :=
  if in_tyb t (a - b) then Ok (a - b) else Panic PExplicit.
(** checked_mul secret-integers/src/lib.rs:94-101,266 *)
Definition checked_mul (t : ity) (a b : Z) : res Z :=
  if in_tyb t (a * b) then Ok (a * b) else Panic PExplicit.

(** Bitwise operators, secret-integers/src/lib.rs:114-146,285-290 (same in Rust
    for public types). [Z] bit operations are two's complement. *)
Definition op_and (a b : Z) : Z := Z.land a b.
(** BitOr secret-integers/src/lib.rs:119-123,286 *)
Definition op_or (a b : Z) : Z := Z.lor a b.
(** BitXor secret-integers/src/lib.rs:119-123,287 *)
Definition op_xor (a b : Z) : Z := Z.lxor a b.
(** Not secret-integers/src/lib.rs:140-143,290 *)
Definition op_not (t : ity) (a : Z) : Z := iwrap t (Z.lnot a).

(** Shifts by a u32 amount, secret-integers/src/lib.rs:148-166: plain Rust shift,
    panics in the debug profile when the amount is not below the width. *)
Definition op_shl (t : ity) (a n : Z) : res Z :=
  if n <? bits t then Ok (iwrap t (Z.shiftl a n)) else Panic POverflow.
(** Shr secret-integers/src/lib.rs:153-156,269: arithmetic for signed, logical for unsigned values *)
Definition op_shr (t : ity) (a n : Z) : res Z :=
  if n <? bits t then Ok (Z.shiftr a n) else Panic POverflow.

(** Neg: unsigned secret secret-integers/src/lib.rs:323-330 ([!x + 1] wrapping),
    signed secret secret-integers/src/lib.rs:401 (Rust [-], checked). *)
Definition op_neg (t : ity) (a : Z) : res Z :=
  if sgn t then chk t (- a) else Ok (iwrap t (op_not t a + 1)).

(** rotate_left/rotate_right, secret-integers/src/lib.rs:271-283; Rust's
    [rotate_left(n)] on the bit pattern, any n (taken modulo the width). *)
Definition upat (t : ity) (a : Z) : Z := a mod 2 ^ bits t.
(** rotate_left secret-integers/src/lib.rs:273-276 *)
Definition rotate_left (t : ity) (a n : Z) : Z :=
  let k := n mod bits t in
  iwrap t (Z.lor (Z.shiftl (upat t a) k) (Z.shiftr (upat t a) (bits t - k))).
(** rotate_right secret-integers/src/lib.rs:279-282 *)
Definition rotate_right (t : ity) (a n : Z) : Z :=
  let k := n mod bits t in
  iwrap t (Z.lor (Z.shiftr (upat t a) k) (Z.shiftl (upat t a) (bits t - k))).

(** classify/declassify secret-integers/src/lib.rs:174-183: the identity on values. *)
Definition classify (x : Z) : Z := x.
(** declassify secret-integers/src/lib.rs:181-183 *)
Definition declassify (x : Z) : Z := x.
(** zero/one/ones secret-integers/src/lib.rs:185-198 *)
Definition zero_ : Z := 0.
(** one secret-integers/src/lib.rs:191-193 *)
Definition one_ : Z := 1.
(** ones secret-integers/src/lib.rs:196-198 *)
Definition ones (t : ity) : Z := op_not t zero_.

(** Constant-time comparisons of unsigned secret integers, secret-integers/src/lib.rs:337-392;
    the signed versions (secret-integers/src/lib.rs:405-443) are unimplemented!(). *)
Definition comp_eq (t : ity) (a b : Z) : res Z :=
  if sgn t then Panic PUnimpl else
  let x := op_xor a b in
  let* minus_x := op_neg t x in
  let x_or_minus_x := op_or x minus_x in
  let* xnx := op_shr t x_or_minus_x (bits t - 1) in
  op_sub t xnx one_.
(** comp_ne secret-integers/src/lib.rs:352-354,413-415 *)
Definition comp_ne (t : ity) (a b : Z) : res Z :=
  let* c := comp_eq t a b in Ok (op_not t c).
(** comp_gte secret-integers/src/lib.rs:360-371,420-422 *)
Definition comp_gte (t : ity) (x y : Z) : res Z :=
  if sgn t then Panic PUnimpl else
  let x_xor_y := op_xor x y in
  let* x_sub_y := op_sub t x y in
  let x_sub_y_xor_y := op_xor x_sub_y y in
  let q := op_or x_xor_y x_sub_y_xor_y in
  let x_xor_q := op_xor x q in
  let* x_xor_q_ := op_shr t x_xor_q (bits t - 1) in
  op_sub t x_xor_q_ one_.
(** comp_gt secret-integers/src/lib.rs:376-378,427-429 *)
Definition comp_gt (t : ity) (a b : Z) : res Z :=
  let* g := comp_gte t a b in let* e := comp_eq t a b in Ok (op_xor g e).
(** comp_lte secret-integers/src/lib.rs:383-385,434-436 *)
Definition comp_lte (t : ity) (a b : Z) : res Z :=
  let* g := comp_gt t a b in Ok (op_not t g).
(** comp_lt secret-integers/src/lib.rs:390-392,441-443 *)
Definition comp_lt (t : ity) (a b : Z) : res Z :=
  let* g := comp_gte t a b in Ok (op_not t g).

(** Conversions, secret-integers/src/lib.rs:459-646: every [From] between two integer types is
    [as] (or a lossless Rust [From], the same value). *)
Definition cast (to : ity) (x : Z) : Z := iwrap to x.

(** ** hacspec/src/machine_integers.rs and traits.rs *)

(** from_literal, machine_integers.rs:97-99,341-343: [val as $t]. *)
Definition from_literal (t : ity) (val : Z) : Z := iwrap t val.

(** wrap_add/wrap_sub/wrap_mul, machine_integers.rs:109-119,353-363 *)
Definition wrap_add (t : ity) (a b : Z) : Z := iwrap t (a + b).
(** wrap_sub machine_integers.rs:113-115,357-359 *)
Definition wrap_sub (t : ity) (a b : Z) : Z := iwrap t (a - b).
(** wrap_mul machine_integers.rs:117-119,361-363 *)
Definition wrap_mul (t : ity) (a b : Z) : Z := iwrap t (a * b).

(** Rust [/] on public integers (truncated; MIN / -1 overflows), machine_integers.rs:137-139 *)
Definition op_div (t : ity) (a b : Z) : res Z :=
  if b =? 0 then Panic PDivZero else chk t (Z.quot a b).
(** Rust's % on public integers (truncated), e.g. machine_integers.rs:26,31,36,46 *)
Definition op_rem (t : ity) (a b : Z) : res Z :=
  if b =? 0 then Panic PDivZero else
  if in_tyb t (Z.quot a b) then Ok (Z.rem a b) else Panic POverflow.

(** wrap_div, machine_integers.rs:121-123 (public: wrapping_div) and 365-367
    (secret: unimplemented). *)
Definition wrap_div (t : ity) (a b : Z) : res Z :=
  if sec t then Panic PUnimpl else
  if b =? 0 then Panic PDivZero else Ok (iwrap t (Z.quot a b)).

(** NumericBase::div, machine_integers.rs:137-139,391-395 *)
Definition num_div (t : ity) (a b : Z) : res Z := op_div t a b.

(** NumericBase::pow: public machine_integers.rs:127-129 is Rust's checked pow; secret 372-382 is a
    wrapping multiplication loop. *)
Definition num_pow (t : ity) (a : Z) (e : nat) : res Z :=
  if sec t then
    match e with
    | O => Ok 1
    | S e' => for_range 1 e' (fun _ s => op_mul t s a) a
    end
  else chk t (a ^ Z.of_nat e).

(** Comparisons returning bool, machine_integers.rs:153-171,410-438 *)
Definition num_equal (a b : Z) : bool := a =? b.
(** greater_than machine_integers.rs:157-159,416-420 *)
Definition num_greater_than (a b : Z) : bool := b <? a.
(** greater_than_or_qual machine_integers.rs:161-163,422-426 *)
Definition num_greater_than_or_qual (a b : Z) : bool := b <=? a.
(** less_than machine_integers.rs:165-167,428-432 *)
Definition num_less_than (a b : Z) : bool := a <? b.
(** less_than_or_equal machine_integers.rs:169-171,434-438 *)
Definition num_less_than_or_equal (a b : Z) : bool := a <=? b.

(** Comparisons returning a bit mask: public machine_integers.rs:175-221
    ([max_value()] or default), secret 442-464 (the comp functions). *)
Definition bm (t : ity) (c : bool) : Z := if c then imax t else 0.
(** not_equal_bm machine_integers.rs:175-181,442-444 *)
Definition not_equal_bm (t : ity) (a b : Z) : res Z :=
  if sec t then comp_ne t a b else Ok (bm t (negb (a =? b))).
(** equal_bm machine_integers.rs:183-189,446-448 *)
Definition equal_bm (t : ity) (a b : Z) : res Z :=
  if sec t then comp_eq t a b else Ok (bm t (a =? b)).
(** greater_than_bm machine_integers.rs:191-197,450-452 *)
Definition greater_than_bm (t : ity) (a b : Z) : res Z :=
  if sec t then comp_gt t a b else Ok (bm t (b <? a)).
(** greater_than_or_qual_bm machine_integers.rs:199-205,454-456 *)
Definition greater_than_or_qual_bm (t : ity) (a b : Z) : res Z :=
  if sec t then comp_gte t a b else Ok (bm t (b <=? a)).
(** less_than_bm machine_integers.rs:207-213,458-460 *)
Definition less_than_bm (t : ity) (a b : Z) : res Z :=
  if sec t then comp_lt t a b else Ok (bm t (a <? b)).
(** less_than_or_equal_bm machine_integers.rs:215-221,462-464 *)
Definition less_than_or_equal_bm (t : ity) (a b : Z) : res Z :=
  if sec t then comp_lte t a b else Ok (bm t (a <=? b)).

(** Integer::get_bit, traits.rs:84-86 *)
Definition get_bit (t : ity) (a i : Z) : res Z :=
  let* s := op_shr t a i in Ok (op_and s 1).
(** Integer::set_bit, traits.rs:92-97; the literal [!(1 << i)] is a u128. *)
Definition set_bit (t : ity) (a b i : Z) : res Z :=
  let* _ := assert_ (num_equal b 1 || num_equal b 0) in
  let* one_i := op_shl u128 1 i in
  let tmp1 := from_literal t (op_not u128 one_i) in
  let* tmp2 := op_shl t b i in
  Ok (op_or (op_and a tmp1) tmp2).
(** Integer::set, traits.rs:102-105 *)
Definition set (t : ity) (a pos y yi : Z) : res Z :=
  let* b := get_bit t y yi in set_bit t a b pos.
(** [(-(n as i32) as u32) & (NUM_BITS - 1)], traits.rs:111,118. [n as i32]
    negated cannot overflow here because n < NUM_BITS was asserted. *)
Definition rot_amount (t : ity) (n : Z) : Z :=
  Z.land (iwrap u32 (- n)) (bits t - 1).
(** Integer::rotate_left / rotate_right, traits.rs:108-119 *)
Definition tr_rotate_left (t : ity) (a n : Z) : res Z :=
  let* _ := assert_ (n <? bits t) in
  let* l := op_shl t a n in
  let* r := op_shr t a (rot_amount t n) in
  Ok (op_or l r).
(** Integer::rotate_right traits.rs:115-119 *)
Definition tr_rotate_right (t : ity) (a n : Z) : res Z :=
  let* _ := assert_ (n <? bits t) in
  let* r := op_shr t a n in
  let* l := op_shl t a (rot_amount t n) in
  Ok (op_or r l).
(** UnsignedSecretInteger::get_byte, traits.rs:267-269; [i * 8] is u32. *)
Definition get_byte (t : ity) (a i : Z) : res Z :=
  let* i8 := chk u32 (i * 8) in
  let* s := op_shr t a i8 in
  let* o := op_shl t 1 8 in
  let* m := op_sub t o 1 in
  Ok (op_and s m).
