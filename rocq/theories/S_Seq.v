(** Independent vocabulary for statements about sequences, bytes and hex strings. *)
From Coq Require Import ZArith List Bool.
Import ListNotations.
Open Scope Z_scope.

(** r is self with the window [so, so+n) replaced by v[si, si+n). *)
Definition replaced {A} (self : list A) (so : nat) (v : list A) (si n : nat) (r : list A) : Prop :=
  length r = length self /\
  (forall j, (j < n)%nat -> nth_error r (so + j) = nth_error v (si + j)) /\
  (forall j, (j < so \/ so + n <= j)%nat -> nth_error r j = nth_error self j).

(** r is the window v[si, si+n). *)
Definition window {A} (v : list A) (si n : nat) (r : list A) : Prop :=
  length r = n /\ forall j, (j < n)%nat -> nth_error r j = nth_error v (si + j).

(** A byte string. *)
Definition bytes (l : list Z) : Prop := forall b, In b l -> 0 <= b < 256.

(** c is the ASCII code of the hex digit of value n (either case). *)
Definition hexval (c n : Z) : Prop :=
  (0 <= n <= 9 /\ c = 48 + n) \/ (10 <= n <= 15 /\ (c = 97 + (n - 10) \/ c = 65 + (n - 10))).
Definition is_hex (c : Z) : Prop := exists n, hexval c n.
(** ASCII lower case. *)
Definition lower (c : Z) : Z := if (65 <=? c) && (c <=? 90) then c + 32 else c.

(** Coefficient k of the product of the polynomials x and y over Z. *)
Definition conv_coeff (x y : list Z) (k : nat) : Z :=
  fold_right Z.add 0 (map (fun i => nth i x 0 * nth (k - i) y 0) (seq 0 (S k))).
