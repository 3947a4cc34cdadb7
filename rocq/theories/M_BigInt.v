(** Bounded big integers: /repo/abstract-integers/src/abstract_int.rs.
    A value of a type with [bits] bits is modelled by the mathematical integer it denotes;
    [brep_of] / [brep_val] model the stored bytes and sign, and P_BigInt proves that they
    round-trip, which is what makes this abstraction exact. num-bigint is an external library:
    its BigInt is modelled by Z. *)
From Coq Require Import ZArith List Bool.
From Verif Require Import Base M_Int M_Seq M_Bytes.
Import ListNotations.
Open Scope Z_scope.

(** Number of stored bytes, [($bits + 7) / 8]: abstract_int.rs:6,77,80. *)
Definition blen (bits : Z) : nat := Z.to_nat ((bits + 7) / 8).
(** Length of num-bigint's to_bytes_be/to_bytes_le (minimal; zero has one byte), used at
    abstract_int.rs:73,328 (external library function). *)
Definition nbytes (x : Z) : nat := if x =? 0 then 1%nat else Z.to_nat (Z.log2 (Z.abs x) / 8 + 1).
(** max() abstract_int.rs:12-14 *)
Definition bmax (bits : Z) : Z := Z.shiftl 1 bits - 1.

(** num-bigint's Sign, stored in the struct: abstract_int.rs:7. *)
Inductive bsign : Type := SMinus | SNone | SPlus.
(** The struct of abstract_int.rs:5-9 without its constant [signed] field. *)
Record brep : Type := { rb : list Z; rsign : bsign }.
(** Sign of a BigInt as returned by to_bytes_be (external library), used by abstract_int.rs:72. *)
Definition sign_of (x : Z) : bsign := if x =? 0 then SNone else if x <? 0 then SMinus else SPlus.
(** From<BigInt> abstract_int.rs:70-91 *)
Definition brep_of (bits : Z) (signed : bool) (x : Z) : res brep :=
  let* _ := assert_ (x <? bmax bits) in
  let sign := sign_of x in
  let repr := be_bytes (nbytes x) (Z.abs x) in
  let* _ := (match sign, signed with SMinus, false => Panic PExplicit | _, _ => Ok tt end) in
  let* _ := (if (blen bits <? length repr)%nat then Panic PExplicit else Ok tt) in
  let out := seq_new 0 (blen bits) in
  let upper := length out in
  let* lower := usub upper (length repr) in
  Ok {| rb := firstn lower out ++ repr; rsign := sign |}.
(** Into<BigInt> abstract_int.rs:103-107 (BigInt::from_bytes_be; NoSign gives zero) *)
Definition brep_val (r : brep) : Z :=
  match rsign r with SMinus => - be_val (rb r) | SNone => 0 | SPlus => be_val (rb r) end.
(** Default abstract_int.rs:93-101 *)
Definition brep_default (bits : Z) : brep := {| rb := seq_new 0 (blen bits); rsign := SPlus |}.

(** From<BigInt> / From<BigUint> abstract_int.rs:64-91, on values. *)
Definition bfrom (bits : Z) (signed : bool) (x : Z) : res Z :=
  let* _ := assert_ (x <? bmax bits) in
  if (x <? 0) && negb signed then Panic PExplicit
  else if (blen bits <? nbytes x)%nat then Panic PExplicit
  else Ok x.

(** from_literal abstract_int.rs:26-32; [x] is a u128 *)
Definition bfrom_literal (bits : Z) (signed : bool) (x : Z) : res Z :=
  if bmax bits <? x then Panic PExplicit else bfrom bits signed x.
(** from_signed_literal abstract_int.rs:35-41; [x] is an i128 and is first cast to u128 *)
Definition bfrom_signed_literal (bits : Z) (signed : bool) (x : Z) : res Z :=
  let big_x := x mod 2 ^ 128 in
  if bmax bits <? big_x then Panic PExplicit else bfrom bits signed big_x.
(** pow2 abstract_int.rs:45-47 *)
Definition bpow2 (bits : Z) (signed : bool) (x : nat) : res Z := bfrom bits signed (Z.shiftl 1 (Z.of_nat x)).
(** bit abstract_int.rs:51-61. Only for non-negative values: the right shift of a negative
    BigInt depends on the version of the external library. *)
Definition bbit (bits : Z) (self : Z) (i : nat) : res bool :=
  let* _ := assert_ (i <? blen bits * 8)%nat in
  Ok (Z.land (Z.shiftr self (Z.of_nat i)) 1 =? 1).

(** modpow of num-bigint for a non-negative exponent, used by abstract_int.rs:140,148
    (external library: only the documented result b^e mod m is modelled, by repeated
    squaring; the model is meant for moduli of at least 2). *)
Fixpoint modpow_pos (b : Z) (e : positive) (m : Z) : Z :=
  match e with
  | xH => b mod m
  | xO e' => let r := modpow_pos b e' m in (r * r) mod m
  | xI e' => let r := modpow_pos b e' m in ((r * r) mod m * b) mod m
  end.
(** modpow for an exponent in Z, used by abstract_int.rs:140,148 (external library, as modpow_pos) *)
Definition modpow (b e m : Z) : Z :=
  match e with Z0 => 1 mod m | Zpos p => modpow_pos b p m | Zneg _ => 0 end.
(** modpow with its two panics (negative exponent, zero modulus): abstract_int.rs:140,148 *)
Definition bmodpow (b e m : Z) : res Z :=
  if e <? 0 then Panic PExplicit else if m =? 0 then Panic PDivZero else Ok (modpow b e m).
(** inv abstract_int.rs:136-141 *)
Definition binv (bits : Z) (signed : bool) (self modval : Z) : res Z :=
  let m := modval - 2 in
  let* r := bmodpow self m modval in bfrom bits signed r.
(** pow_felem abstract_int.rs:144-150 *)
Definition bpow_felem (bits : Z) (signed : bool) (self exp modval : Z) : res Z :=
  let* c := bmodpow self exp modval in bfrom bits signed c.
(** pow abstract_int.rs:154-156; the u128 exponent is first converted to the type itself *)
Definition bpow (bits : Z) (signed : bool) (self exp modval : Z) : res Z :=
  let* e := bfrom bits signed exp in bpow_felem bits signed self e modval.

(** Add abstract_int.rs:164-175 (public), 387-398 (secret) *)
Definition badd (bits : Z) (signed : bool) (a b : Z) : res Z :=
  let c := a + b in
  if bmax bits <? c then Panic PExplicit else bfrom bits signed c.
(** Sub abstract_int.rs:178-195 (public), 401-414 (secret): BigInt's checked_sub always
    succeeds, so both branches are the plain difference. *)
Definition bsub (bits : Z) (signed : bool) (a b : Z) : res Z := bfrom bits signed (a - b).
(** Mul abstract_int.rs:198-212 (public), 417-431 (secret) *)
Definition bmul (bits : Z) (signed : bool) (a b : Z) : res Z :=
  let c := a * b in
  if bmax bits <? c then Panic PExplicit else bfrom bits signed c.
(** Div abstract_int.rs:215-226; BigInt division truncates *)
Definition bdiv (bits : Z) (signed : bool) (a b : Z) : res Z :=
  if b =? 0 then Panic PExplicit else bfrom bits signed (Z.quot a b).
(** Rem abstract_int.rs:229-240, rem 158-160 and (secret) 376-384 *)
Definition brem (bits : Z) (signed : bool) (a b : Z) : res Z :=
  if b =? 0 then Panic PExplicit else bfrom bits signed (Z.rem a b).
(** PartialEq abstract_int.rs:284-290 *)
Definition beqb (a b : Z) : bool := a =? b.
(** PartialOrd / Ord abstract_int.rs:294-306 *)
Definition bcmp (a b : Z) : comparison := a ?= b.

(** hex_string_to_bytes abstract_int.rs:16-23: same code as hacspec/src/util.rs:9-16 *)
Definition bhex_to_bytes (s : list Z) : res (list Z) := hex_string_to_bytes s.
(** from_hex of unsigned types abstract_int.rs:317-319 *)
Definition bfrom_hex (bits : Z) (s : list Z) : res Z :=
  let* b := bhex_to_bytes s in bfrom bits false (be_val b).
(** from_le_bytes abstract_int.rs:322-324 *)
Definition bfrom_le_bytes (bits : Z) (v : list Z) : res Z := bfrom bits false (le_val v).
(** to_le_bytes abstract_int.rs:327-329 *)
Definition bto_le_bytes (x : Z) : list Z := le_bytes (nbytes x) x.
(** from_hex of signed types abstract_int.rs:343-351; [sign]: Some true = "+", Some false = "-",
    None = "" (the sign as a string, other strings included: bsfrom_hex_str in M_Fmt) *)
Definition bsfrom_hex (bits : Z) (sign : option bool) (s : list Z) : res Z :=
  let* b := bhex_to_bytes s in
  bfrom bits true (match sign with Some true => be_val b | Some false => - be_val b | None => 0 end).
