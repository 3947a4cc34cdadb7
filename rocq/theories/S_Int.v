(** Independent vocabulary for statements about machine integers. *)
From Coq Require Import ZArith List Bool.
From Verif Require Import Base.
Import ListNotations.
Open Scope Z_scope.

(** x is an unsigned (signed two's-complement) w-bit value. *)
Definition uval (w x : Z) : Prop := 0 <= x < 2 ^ w.
Definition sval (w x : Z) : Prop := - 2 ^ (w - 1) <= x < 2 ^ (w - 1).
Definition val (w : Z) (signed : bool) (x : Z) : Prop := if signed then sval w x else uval w x.

(** r is congruent to x modulo 2^w. *)
Definition cong (w r x : Z) : Prop := exists k, r = x + k * 2 ^ w.

(** The all-ones pattern of width w as an unsigned / signed value. *)
Definition ones_of (w : Z) (signed : bool) : Z := if signed then -1 else 2 ^ w - 1.
(** r is the mask for the truth of P: all bits one, or zero. *)
Definition is_mask (w : Z) (signed : bool) (P : Prop) (r : Z) : Prop :=
  (P -> r = ones_of w signed) /\ (~ P -> r = 0).

(** r is a rotated left (right) by n positions, as a w-bit pattern. *)
Definition is_rotl (w a n r : Z) : Prop :=
  forall i, 0 <= i < w -> Z.testbit r i = Z.testbit a ((i - n) mod w).
Definition is_rotr (w a n r : Z) : Prop :=
  forall i, 0 <= i < w -> Z.testbit r i = Z.testbit a ((i + n) mod w).

(** Widths of the Rust integer types. *)
Definition rust_width (w : Z) : Prop := In w [8; 16; 32; 64; 128].
