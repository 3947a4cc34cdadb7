(** Modular integers: /repo/abstract-integers/src/nat_mod.rs and the nat_mod macros of
    /repo/hacspec/src/math_integers.rs:536-710. [bits] and [n] are the macro arguments; an
    element is modelled by the integer stored in its base type. *)
From Coq Require Import ZArith List Bool.
From Verif Require Import Base M_Int M_Seq M_Bytes M_BigInt.
Import ListNotations.
Open Scope Z_scope.

(** The modulus expression [$base::from_hex($n)], evaluated at every use:
    nat_mod.rs:34-36, math_integers.rs:675 (the hex text is modelled by its value [n]). *)
Definition nm_max (bits n : Z) : res Z := bfrom bits false n.
(** From<$base> nat_mod.rs:21-25 *)
Definition nm_of_base (bits n x : Z) : res Z := let* m := nm_max bits n in brem bits false x m.
(** from_hex nat_mod.rs:39-41 *)
Definition nm_from_hex (bits n : Z) (s : list Z) : res Z := let* x := bfrom_hex bits s in nm_of_base bits n x.
(** from_le_bytes nat_mod.rs:44-46 *)
Definition nm_from_le_bytes (bits n : Z) (v : list Z) : res Z := let* x := bfrom_le_bytes bits v in nm_of_base bits n x.
(** to_le_bytes nat_mod.rs:49-51 *)
Definition nm_to_le_bytes (x : Z) : list Z := bto_le_bytes x.
(** bit nat_mod.rs:55-57 *)
Definition nm_bit (bits x : Z) (i : nat) : res bool := bbit bits x i.
(** from_literal nat_mod.rs:60-66 *)
Definition nm_from_literal (bits n x : Z) : res Z :=
  let* m := nm_max bits n in
  if m <? x then Panic PExplicit else bfrom bits false x.
(** from_signed_literal nat_mod.rs:69-75 *)
Definition nm_from_signed_literal (bits n x : Z) : res Z :=
  let big_x := x mod 2 ^ 128 in
  let* m := nm_max bits n in
  if m <? big_x then Panic PExplicit else bfrom bits false big_x.

(** [c % max] on BigUint and the two conversions back: nat_mod.rs:94-97 and the same four
    lines of every other operator. *)
Definition nm_reduce (bits n c : Z) : res Z :=
  let* max := nm_max bits n in
  let* d := (if max =? 0 then Panic PDivZero else Ok (c mod max)) in
  let* d := bfrom bits false d in nm_of_base bits n d.
(** Add nat_mod.rs:87-99 (secret), 202-214 (public) *)
Definition nm_add (bits n a b : Z) : res Z := nm_reduce bits n (a + b).
(** Sub nat_mod.rs:103-116 (secret), 218-231 (public); BigUint subtraction panics below zero *)
Definition nm_sub (bits n a b : Z) : res Z :=
  let* max := nm_max bits n in
  let* c := (if a <? b then (if max <? b then Panic PExplicit else Ok (max - b + a)) else Ok (a - b)) in
  nm_reduce bits n c.
(** Mul nat_mod.rs:119-132 (secret), 234-247 (public) *)
Definition nm_mul (bits n a b : Z) : res Z := nm_reduce bits n (a * b).
(** Div nat_mod.rs:250-263: integer division of the representatives *)
Definition nm_div (bits n a b : Z) : res Z :=
  let* c := (if b =? 0 then Panic PDivZero else Ok (a / b)) in nm_reduce bits n c.
(** Rem nat_mod.rs:266-279 *)
Definition nm_rem (bits n a b : Z) : res Z :=
  let* c := (if b =? 0 then Panic PDivZero else Ok (a mod b)) in nm_reduce bits n c.
(** PartialEq nat_mod.rs:194-198 (on the stored integers) *)
Definition nm_eqb (a b : Z) : bool := beqb a b.
(** Ord nat_mod.rs:184-193 (on the stored integers) *)
Definition nm_cmp (a b : Z) : comparison := bcmp a b.
(** inv nat_mod.rs:325-328 *)
Definition nm_inv (bits n x : Z) : res Z :=
  let* m := nm_max bits n in
  let* r := binv bits false x m in nm_of_base bits n r.
(** pow_felem nat_mod.rs:331-334 *)
Definition nm_pow_felem (bits n x exp : Z) : res Z :=
  let* m := nm_max bits n in
  let* r := bpow_felem bits false x exp m in nm_of_base bits n r.
(** pow nat_mod.rs:338-341 *)
Definition nm_pow (bits n x exp : Z) : res Z :=
  let* m := nm_max bits n in
  let* r := bpow bits false x exp m in nm_of_base bits n r.

(** from_byte_seq_le math_integers.rs:680-687 *)
Definition nm_from_byte_seq_le (bits n : Z) (s : list Z) : res Z := nm_from_le_bytes bits n (map declassify s).
(** to_public_byte_seq_le math_integers.rs:690-694 *)
Definition nm_to_public_byte_seq_le (x : Z) : list Z := nm_to_le_bytes x.
(** to_byte_seq_le math_integers.rs:697-704 *)
Definition nm_to_byte_seq_le (x : Z) : list Z := map classify (nm_to_le_bytes x).
(** from_secret_literal math_integers.rs:707-709 *)
Definition nm_from_secret_literal (bits n x : Z) : res Z := nm_from_literal bits n (declassify x).
