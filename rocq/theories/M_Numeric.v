(** Trait-level operations: the byte codecs of the integer traits, the order of public arrays,
    and the three wrap_* methods of the NumericBase trait for the library's own number types.
    Every other method of those NumericBase / ModNumeric instances is [unimplemented!()]
    (vec_integers.rs:87-111,128-283,303-525,786-1008,1017-1115, math_integers.rs:7-132,141-266,
    275-400,409-534,543-668,713-837); they have no definition here. *)
From Coq Require Import ZArith List Bool Arith.
From Verif Require Import Base M_Int M_Seq M_Bytes M_Vec M_BigInt M_NatMod.
Import ListNotations.
Open Scope Z_scope.

(** ** traits.rs: UnsignedSecretInteger and UnsignedPublicInteger *)

(** [Seq::new(1); x[0] = self; x]: traits.rs:274-284,382-392 (u8 and U8, both byte orders) *)
Definition byte_to_seq (x : Z) : res (list Z) := upd (seq_new 0 1) 0 x.
(** [assert!(x.len() == 1); x[0]]: traits.rs:286-294,394-402 (u8 and U8, both byte orders) *)
Definition byte_from_seq (x : list Z) : res Z :=
  let* _ := assert_ (length x =? 1)%nat in idx x 0.

(** to_le_bytes of U8 (traits.rs:274-278) and of U16, U32, U64, U128 (traits.rs:298-371) *)
Definition sec_to_le (t : ity) (x : Z) : res (list Z) :=
  if bits t =? 8 then byte_to_seq x
  else let* w := word_to_le_bytes t x in seq_from_seq 0 w.
(** to_be_bytes of U8 (traits.rs:280-284) and of U16, U32, U64, U128 (traits.rs:298-371) *)
Definition sec_to_be (t : ity) (x : Z) : res (list Z) :=
  if bits t =? 8 then byte_to_seq x
  else let* w := word_to_be_bytes t x in seq_from_seq 0 w.
(** from_le_bytes of U8 (traits.rs:286-289) and of U16, U32, U64, U128 (traits.rs:298-371) *)
Definition sec_from_le (t : ity) (s : list Z) : res Z :=
  if bits t =? 8 then byte_from_seq s
  else let* w := arr_from_seq 0 (bytes_of t) s in word_from_le_bytes t w.
(** from_be_bytes of U8 (traits.rs:291-294) and of U16, U32, U64, U128 (traits.rs:298-371) *)
Definition sec_from_be (t : ity) (s : list Z) : res Z :=
  if bits t =? 8 then byte_from_seq s
  else let* w := arr_from_seq 0 (bytes_of t) s in word_from_be_bytes t w.

(** to_le_bytes of u8 (traits.rs:382-386) and of u16, u32, u64, u128 (traits.rs:405-479) *)
Definition pub_to_le (t : ity) (x : Z) : res (list Z) :=
  if bits t =? 8 then byte_to_seq x else seq_from_seq 0 (pub_to_le_bytes t x).
(** to_be_bytes of u8 (traits.rs:388-392) and of u16, u32, u64, u128 (traits.rs:405-479) *)
Definition pub_to_be (t : ity) (x : Z) : res (list Z) :=
  if bits t =? 8 then byte_to_seq x else seq_from_seq 0 (pub_to_be_bytes t x).
(** from_le_bytes of u8 (traits.rs:394-397) and of u16, u32, u64, u128 (traits.rs:405-479) *)
Definition pub_from_le (t : ity) (s : list Z) : res Z :=
  if bits t =? 8 then byte_from_seq s
  else let* w := arr_from_seq 0 (bytes_of t) s in Ok (pub_from_le_bytes w).
(** from_be_bytes of u8 (traits.rs:399-402) and of u16, u32, u64, u128 (traits.rs:405-479) *)
Definition pub_from_be (t : ity) (s : list Z) : res Z :=
  if bits t =? 8 then byte_from_seq s
  else let* w := arr_from_seq 0 (bytes_of t) s in Ok (pub_from_be_bytes w).

(** ** Order and equality of arrays *)

(** Rust's Ord of [T; n]: lexicographic, shorter first (standard library),
    called by vec_integers.rs:18-20,297-299 *)
Fixpoint arr_cmp (x y : list Z) : comparison :=
  match x, y with
  | [], [] => Eq
  | [], _ :: _ => Lt
  | _ :: _, [] => Gt
  | a :: s, b :: t => match a ?= b with Eq => arr_cmp s t | c => c end
  end.
(** partial_cmp of public arrays vec_integers.rs:12-14,291-293 *)
Definition arr_partial_cmp (x y : list Z) : option comparison := Some (arr_cmp x y).
(** Rust's [==] of slices (standard library), used by PartialEq for public arrays, array.rs:631-633 *)
Fixpoint arr_eqb (x y : list Z) : bool :=
  match x, y with
  | [], [] => true
  | a :: s, b :: t => (a =? b) && arr_eqb s t
  | _, _ => false
  end.

(** ** wrap_add, wrap_sub, wrap_mul of the NumericBase instances *)

(** wrap_add of bounded integers: [self + rhs], math_integers.rs:42-44 and the same lines of the
    other three instances, 176-178,310-312,444-446 *)
Definition bwrap_add (bits : Z) (signed : bool) (a b : Z) : res Z := badd bits signed a b.
(** wrap_sub of bounded integers: [self - rhs], math_integers.rs:46-48,180-182,314-316,448-450 *)
Definition bwrap_sub (bits : Z) (signed : bool) (a b : Z) : res Z := bsub bits signed a b.
(** wrap_mul of bounded integers: [self * rhs], math_integers.rs:50-52,184-186,318-320,452-454 *)
Definition bwrap_mul (bits : Z) (signed : bool) (a b : Z) : res Z := bmul bits signed a b.
(** wrap_add of nat_mod! (math_integers.rs:578-580) and public_nat_mod! (748-750) types *)
Definition nm_wrap_add (bits n a b : Z) : res Z := nm_add bits n a b.
(** wrap_sub of nat_mod! (math_integers.rs:582-584) and public_nat_mod! (752-754) types *)
Definition nm_wrap_sub (bits n a b : Z) : res Z := nm_sub bits n a b.
(** wrap_mul of nat_mod! (math_integers.rs:586-588) and public_nat_mod! (756-758) types *)
Definition nm_wrap_mul (bits n a b : Z) : res Z := nm_mul bits n a b.
(** wrap_add of public arrays vec_integers.rs:189-191 *)
Definition parr_wrap_add := parr_add.
(** wrap_sub of public arrays vec_integers.rs:194-196 *)
Definition parr_wrap_sub := parr_sub.
(** wrap_mul of public arrays vec_integers.rs:199-201 *)
Definition parr_wrap_mul := parr_mul.
(** wrap_add of secret arrays vec_integers.rs:679-681 *)
Definition sarr_wrap_add := sarr_add.
(** wrap_sub of secret arrays vec_integers.rs:683-685 *)
Definition sarr_wrap_sub := sarr_sub.
(** wrap_mul of secret arrays vec_integers.rs:687-689 *)
Definition sarr_wrap_mul := sarr_mul.
(** wrap_add of PublicSeq vec_integers.rs:1045-1047 *)
Definition pseq_wrap_add := pseq_add.
(** wrap_sub of PublicSeq vec_integers.rs:1048-1050 *)
Definition pseq_wrap_sub := pseq_sub.
(** wrap_mul of PublicSeq vec_integers.rs:1051-1053 *)
Definition pseq_wrap_mul := pseq_mul.
