(** The twenty named machine integer types: ranges and overflow behaviour (C01, C68). *)
From Coq Require Import ZArith List Bool Lia.
From Verif Require Import Base P_Base M_Int P_Int S_Int T_Int.
Import ListNotations.
Open Scope Z_scope.

(** The result of an exact value z in a type with values lo .. hi: secret types wrap, public ones panic. *)
Definition lands (lo hi : Z) (secret : bool) (r : res Z) (z : Z) : Prop :=
  if secret then exists v, r = Ok v /\ lo <= v <= hi /\ (hi - lo + 1 | v - z)
  else (lo <= z <= hi -> r = Ok z) /\ (z < lo \/ hi < z -> r = Panic POverflow).
Definition arithmetic_of (t : ity) (lo hi : Z) (secret : bool) : Prop :=
  (forall x, in_ty t x <-> lo <= x <= hi) /\
  forall a b, lo <= a <= hi -> lo <= b <= hi ->
    lands lo hi secret (op_add t a b) (a + b) /\ lands lo hi secret (op_sub t a b) (a - b) /\ lands lo hi secret (op_mul t a b) (a * b).
Lemma arithmetic_gen w s c : 0 < w -> arithmetic_of (mkity w s c) (imin (mkity w s c)) (imax (mkity w s c)) c.
Proof.
  intros H. split; [intros x; reflexivity|]. intros a b _ _. set (t := mkity w s c).
  assert (G : forall z, lands (imin t) (imax t) c (if sec t then Ok (iwrap t z) else chk t z) z).
  { intros z. unfold lands. cbn [sec t]. destruct c.
    - eexists. split; [reflexivity|]. split; [apply (iwrap_range t); exact H|].
      destruct (iwrap_congr t z H) as [k E]. exists k. rewrite E.
      replace (imax t - imin t + 1) with (2 ^ bits t); [lia|]. unfold imax, imin, t. cbn [sgn bits].
      pose proof (pow2_split w H). destruct s; lia.
    - split; intros B; [now apply chk_Ok|]. apply chk_panic. unfold in_ty. lia. }
  repeat split; apply G.
Qed.
Theorem C01_named_types :
  (arithmetic_of u8 0 0xff false /\ arithmetic_of u16 0 0xffff false /\ arithmetic_of u32 0 0xffffffff false /\
   arithmetic_of u64 0 0xffffffffffffffff false /\ arithmetic_of u128 0 0xffffffffffffffffffffffffffffffff false) /\
  (arithmetic_of i8 (-128) 127 false /\ arithmetic_of i16 (-32768) 32767 false /\ arithmetic_of i32 (-2147483648) 2147483647 false /\
   arithmetic_of i64 (-9223372036854775808) 9223372036854775807 false /\
   arithmetic_of i128 (-170141183460469231731687303715884105728) 170141183460469231731687303715884105727 false) /\
  (arithmetic_of U8 0 0xff true /\ arithmetic_of U16 0 0xffff true /\ arithmetic_of U32 0 0xffffffff true /\
   arithmetic_of U64 0 0xffffffffffffffff true /\ arithmetic_of U128 0 0xffffffffffffffffffffffffffffffff true) /\
  (arithmetic_of I8 (-128) 127 true /\ arithmetic_of I16 (-32768) 32767 true /\ arithmetic_of I32 (-2147483648) 2147483647 true /\
   arithmetic_of I64 (-9223372036854775808) 9223372036854775807 true /\
   arithmetic_of I128 (-170141183460469231731687303715884105728) 170141183460469231731687303715884105727 true).
Proof.
  conjs; match goal with |- arithmetic_of ?t _ _ _ => exact (arithmetic_gen (bits t) (sgn t) (sec t) eq_refl) end.
Qed.
Example C01_named_types_ex : op_add i16 32767 1 = Panic POverflow /\ op_add I16 32767 1 = Ok (-32768) /\ op_add U16 0xffff 1 = Ok 0.
Proof. repeat split; vm_compute; reflexivity. Qed.
Print Assumptions C01_named_types.
