(** NIST SP 800-38D, sections 6 and 7, written on bit strings as in the standard.
    A bit string is a list of booleans, leftmost bit first.  Independent of the model. *)
From Coq Require Import ZArith List Bool Arith.
Import ListNotations.
Open Scope Z_scope.

(** ** Section 6.1: strings and integers *)
(** The exclusive or; of strings of different lengths, of the first bits. *)
Fixpoint bxor (a b : list bool) : list bool :=
  match a, b with x :: a, y :: b => xorb x y :: bxor a b | _, _ => [] end.
(** int(X) *)
Definition int_of (X : list bool) : Z := fold_left (fun a b => 2 * a + Z.b2z b) X 0.
(** [x]_s *)
Definition str_of (s : nat) (x : Z) : list bool :=
  map (fun i => Z.testbit x (Z.of_nat (s - 1 - i))) (seq 0 s).
Definition MSB (s : nat) (X : list bool) : list bool := firstn s X.
Definition LSB (s : nat) (X : list bool) : list bool := skipn (length X - s) X.
(** n consecutive pieces of k bits, the last one possibly shorter *)
Fixpoint pieces {A} (k n : nat) (X : list A) : list (list A) :=
  match n with O => [] | S n => firstn k X :: pieces k n (skipn k X) end.
Definition nblocks (X : list bool) : nat := ((length X + 127) / 128)%nat.
Definition zeros (n : nat) : list bool := repeat false n.

(** Strings of bytes as strings of bits and back *)
Definition bits_of (l : list Z) : list bool := flat_map (str_of 8) l.
Definition octets (X : list bool) : list Z := map int_of (pieces 8 (length X / 8) X).
(** A block cipher on bytes as a function of bit strings *)
Definition CIPH (E : list Z -> list Z) (X : list bool) : list bool := bits_of (E (octets X)).

(** ** Section 6.2: the incrementing function *)
Definition inc (s : nat) (X : list bool) : list bool :=
  MSB (length X - s) X ++ str_of s ((int_of (LSB s X) + 1) mod 2 ^ Z.of_nat s).

(** ** Section 6.3, algorithm 1: multiplication of blocks *)
Definition R : list bool := [true; true; true; false; false; false; false; true] ++ zeros 120.
Definition shift_right (V : list bool) : list bool := false :: removelast V.
Fixpoint mult_steps (xs Zi Vi : list bool) : list bool :=
  match xs with
  | [] => Zi
  | x :: xs => mult_steps xs (if x then bxor Zi Vi else Zi)
                             (if last Vi false then bxor (shift_right Vi) R else shift_right Vi)
  end.
Definition mult (X Y : list bool) : list bool := mult_steps X (zeros 128) Y.

(** ** Section 6.4, algorithm 2: GHASH *)
Definition GHASH (H X : list bool) : list bool :=
  fold_left (fun Y Xi => mult (bxor Y Xi) H) (pieces 128 (nblocks X) X) (zeros 128).

(** ** Section 6.5, algorithm 3: GCTR; the last block may be partial, [bxor] takes the first bits *)
Fixpoint gctr_steps (C : list bool -> list bool) (CB : list bool) (Xs : list (list bool)) : list bool :=
  match Xs with [] => [] | X :: Xs => bxor X (C CB) ++ gctr_steps C (inc 32 CB) Xs end.
Definition GCTR (C : list bool -> list bool) (ICB X : list bool) : list bool :=
  gctr_steps C ICB (pieces 128 (nblocks X) X).

(** ** Section 5.2.1.1: the supported lengths *)
Definition len (X : list bool) : Z := Z.of_nat (length X).
Definition supported (P A IV : list bool) : bool :=
  (len P <=? 2 ^ 39 - 256) && (len A <=? 2 ^ 64 - 1) && (1 <=? len IV) && (len IV <=? 2 ^ 64 - 1).

(** ** Sections 7.1 and 7.2, algorithms 4 and 5 *)
(** Step 2: the pre-counter block *)
Definition J0 (H IV : list bool) : list bool :=
  if (length IV =? 96)%nat then IV ++ zeros 31 ++ [true]
  else GHASH H (IV ++ zeros (128 * nblocks IV - length IV + 64) ++ str_of 64 (len IV)).
(** The zeros that complete X to whole blocks *)
Definition padding (X : list bool) : list bool := zeros (128 * nblocks X - length X).
(** Steps 4-6: the tag of t bits *)
Definition gcm_T (C : list bool -> list bool) (t : nat) (IV A X : list bool) : list bool :=
  let H := C (zeros 128) in
  let S := GHASH H (A ++ padding A ++ X ++ padding X ++ str_of 64 (len A) ++ str_of 64 (len X)) in
  MSB t (GCTR C (J0 H IV) S).
(** Authenticated encryption *)
Definition GCM_AE (C : list bool -> list bool) (t : nat) (IV P A : list bool) : option (list bool * list bool) :=
  if supported P A IV then
    let X := GCTR C (inc 32 (J0 (C (zeros 128)) IV)) P in Some (X, gcm_T C t IV A X)
  else None.
(** Authenticated decryption; [None] is FAIL *)
Definition GCM_AD (C : list bool -> list bool) (t : nat) (IV X A T : list bool) : option (list bool) :=
  if supported X A IV && (length T =? t)%nat then
    if list_eq_dec bool_dec T (gcm_T C t IV A X)
    then Some (GCTR C (inc 32 (J0 (C (zeros 128)) IV)) X) else None
  else None.
