(** What the comparisons of modular integers decide, for every program made of constructors and
    ring operations (C112): /repo/abstract-integers/src/nat_mod.rs. *)
From Coq Require Import ZArith Zpow_facts List Bool Lia.
From Verif Require Import Base M_Int M_Seq M_Bytes M_BigInt M_NatMod P_Bytes P_BigInt.
Import ListNotations.
Open Scope Z_scope.

(** ** Specification: expressions over the integers *)
Inductive expr : Type :=
| ELit (x : Z) | EBytes (v : list Z)
| EAdd (a b : expr) | ESub (a b : expr) | EMul (a b : expr) | EPow (a : expr) (k : Z).
(** The integer an expression stands for; nothing is reduced. *)
Fixpoint value (e : expr) : Z :=
  match e with
  | ELit x => x
  | EBytes v => fold_right (fun b s => b + 256 * s) 0 v
  | EAdd a b => value a + value b
  | ESub a b => value a - value b
  | EMul a b => value a * value b
  | EPow a k => value a ^ k
  end.
(** Literals (u128) up to the modulus, byte strings below 2^bits - 1, exponents (u128) below
    2^bits - 1: outside these ranges the code panics (C28_powers, C29_literals, C30_decode). *)
Fixpoint admissible (bits n : Z) (e : expr) : Prop :=
  match e with
  | ELit x => 0 <= x <= n /\ x < 2 ^ 128
  | EBytes v => Forall (fun b => 0 <= b < 256) v /\ value e < 2 ^ bits - 1
  | EAdd a b | ESub a b | EMul a b => admissible bits n a /\ admissible bits n b
  | EPow a k => admissible bits n a /\ 0 <= k < 2 ^ bits - 1 /\ k < 2 ^ 128
  end.
(** The modulus written as a literal *)
Definition is_modulus (n : Z) (e : expr) : Prop := e = ELit n.

(** The same expression run by the code: from_literal nat_mod.rs:60-66, from_le_bytes 44-46,
    Add 202-214, Sub 218-231, Mul 234-247, pow 338-341 *)
Fixpoint eval (bits n : Z) (e : expr) : res Z :=
  match e with
  | ELit x => nm_from_literal bits n x
  | EBytes v => nm_from_le_bytes bits n v
  | EAdd a b => let* x := eval bits n a in let* y := eval bits n b in nm_add bits n x y
  | ESub a b => let* x := eval bits n a in let* y := eval bits n b in nm_sub bits n x y
  | EMul a b => let* x := eval bits n a in let* y := eval bits n b in nm_mul bits n x y
  | EPow a k => let* x := eval bits n a in nm_pow bits n x k
  end.

(** ** Proofs *)
Lemma value_bytes v : fold_right (fun b s => b + 256 * s) 0 v = le_val v.
Proof. induction v as [|b v IH]; [reflexivity|]. cbn [fold_right le_val]. now rewrite IH. Qed.

Section Run.
Context (bits n : Z) (Hb : 0 < bits) (Hn : 0 < n < 2 ^ bits - 1).

Lemma eval_run e : admissible bits n e ->
  exists r, eval bits n e = Ok r /\ 0 <= r <= n /\ r mod n = value e mod n /\ (r = n -> e = ELit n).
Proof.
  assert (R : forall z, 0 <= z mod n < n) by (intros z; apply Z.mod_pos_bound; lia).
  induction e as [x|v|a IHa b IHb|a IHa b IHb|a IHa b IHb|a IHa k]; cbn [admissible eval value]; intros A.
  - rewrite nm_from_literal_Ok by lia. exists x. repeat split; try lia. now intros ->.
  - destruct A as [A B]. rewrite value_bytes in *. rewrite nm_from_le_bytes_Ok by (try assumption; lia).
    eexists. split; [reflexivity|]. pose proof (R (le_val v)). rewrite Z.mod_mod by lia. repeat split; lia.
  - destruct A as [A B]. destruct (IHa A) as (x & -> & Hx & Ex & _), (IHb B) as (y & -> & Hy & Ey & _).
    cbn [bind]. rewrite nm_add_Ok by lia. eexists. split; [reflexivity|]. pose proof (R (x + y)).
    repeat split; try lia. rewrite Z.mod_mod by lia. rewrite Z.add_mod, Ex, Ey, <- Z.add_mod by lia. reflexivity.
  - destruct A as [A B]. destruct (IHa A) as (x & -> & Hx & Ex & _), (IHb B) as (y & -> & Hy & Ey & _).
    cbn [bind]. rewrite nm_sub_Ok by lia. eexists. split; [reflexivity|]. pose proof (R (x - y)).
    repeat split; try lia. rewrite Z.mod_mod by lia. rewrite Zminus_mod, Ex, Ey, <- Zminus_mod. reflexivity.
  - destruct A as [A B]. destruct (IHa A) as (x & -> & Hx & Ex & _), (IHb B) as (y & -> & Hy & Ey & _).
    cbn [bind]. rewrite nm_mul_Ok by lia. eexists. split; [reflexivity|]. pose proof (R (x * y)).
    repeat split; try lia. rewrite Z.mod_mod by lia. rewrite Z.mul_mod, Ex, Ey, <- Z.mul_mod by lia. reflexivity.
  - destruct A as [A B]. destruct (IHa A) as (x & -> & Hx & Ex & _). cbn [bind].
    rewrite nm_pow_Ok by lia. eexists. split; [reflexivity|]. pose proof (R (x ^ k)).
    repeat split; try lia. rewrite Z.mod_mod by lia. rewrite Zpower_mod, Ex, <- Zpower_mod by lia. reflexivity.
Qed.
Lemma eval_canonical e : admissible bits n e -> ~ is_modulus n e -> eval bits n e = Ok (value e mod n).
Proof.
  intros A N. destruct (eval_run e A) as (r & -> & Hr & E & L). f_equal. rewrite <- E.
  symmetry. apply Z.mod_small. assert (r <> n) by (intros ->; now apply N, L). lia.
Qed.
End Run.

(** ** C112 *)
(** Every admissible program runs without a panic and its result is congruent to the integer
    it stands for; the result is the least residue unless the program is the bare literal n. *)
Theorem C112_programs : forall bits n e, 0 < bits -> 0 < n < 2 ^ bits - 1 -> admissible bits n e ->
  exists r, eval bits n e = Ok r /\ (n | r - value e) /\ 0 <= r <= n /\ (e <> ELit n -> r < n).
Proof.
  intros bits n e Hb Hn A. destruct (eval_run bits n Hb Hn e A) as (r & E & Hr & Em & L).
  exists r. split; [assumption|]. split; [|split; [assumption|]].
  - apply Z.mod_divide; [lia|]. rewrite Zminus_mod, Em, Z.sub_diag. apply Z.mod_0_l. lia.
  - intros N. assert (r <> n) by (intros ->; now apply N, L). lia.
Qed.
(** [==] decides congruence and [cmp] orders by least residues. *)
Theorem C112_comparison : forall bits n e f x y, 0 < bits -> 0 < n < 2 ^ bits - 1 ->
  admissible bits n e -> admissible bits n f -> e <> ELit n -> f <> ELit n ->
  eval bits n e = Ok x -> eval bits n f = Ok y ->
  (nm_eqb x y = true <-> (n | value e - value f)) /\
  (nm_cmp x y = Eq <-> (n | value e - value f)) /\
  (nm_cmp x y = Lt <-> value e mod n < value f mod n) /\
  (nm_cmp x y = Gt <-> value e mod n > value f mod n).
Proof.
  intros bits n e f x y Hb Hn A B Ne Nf Ex Ey.
  rewrite eval_canonical in Ex by assumption. rewrite eval_canonical in Ey by assumption.
  injection Ex as <-. injection Ey as <-. unfold nm_eqb, nm_cmp, beqb, bcmp.
  assert (D : value e mod n = value f mod n <-> (n | value e - value f)).
  { split; intros H.
    - apply Z.mod_divide; [lia|]. rewrite Zminus_mod, H, Z.sub_diag. apply Z.mod_0_l. lia.
    - destruct H as [k Hk]. replace (value e) with (value f + k * n) by lia. apply Z_mod_plus_full. }
  rewrite <- D, Z.eqb_eq, Z.compare_eq_iff, Z.compare_lt_iff, Z.compare_gt_iff. intuition lia.
Qed.
(** With a modulus of 2^128 or more, as in all the shipped fields, no exception is needed. *)
Theorem C112_large_modulus : forall bits n e f x y, 0 < bits -> 2 ^ 128 <= n < 2 ^ bits - 1 ->
  admissible bits n e -> admissible bits n f -> eval bits n e = Ok x -> eval bits n f = Ok y ->
  (nm_eqb x y = true <-> (n | value e - value f)).
Proof.
  intros bits n e f x y Hb Hn A B Ex Ey.
  assert (N : forall g, admissible bits n g -> g <> ELit n) by (intros g G ->; cbn [admissible] in G; lia).
  refine (proj1 (C112_comparison bits n e f x y Hb _ A B (N e A) (N f B) Ex Ey)). lia.
Qed.
(** The bare literal n is congruent to 0, and neither equal to it nor ordered with it. *)
Theorem C112_comparison_refuted : exists bits n e f x y, 0 < bits /\ 0 < n < 2 ^ bits - 1 /\
  admissible bits n e /\ admissible bits n f /\ eval bits n e = Ok x /\ eval bits n f = Ok y /\
  (n | value e - value f) /\ nm_eqb x y = false /\ nm_cmp x y = Gt.
Proof.
  exists 8, 7, (ELit 7), (ESub (ELit 3) (ELit 3)), 7, 0. cbn [admissible value].
  repeat split; try lia. exists 1. lia.
Qed.
(** 5 - (the bytes 6, 1) + 4^3 modulo 101 is equal to -193 *)
Example C112_ex : let e := EAdd (ESub (ELit 5) (EBytes [6; 1])) (EPow (ELit 4) 3) in
  let f := ESub (ELit 0) (EMul (ELit 96) (ELit 2)) in let f := ESub f (ELit 1) in
  admissible 16 101 e /\ admissible 16 101 f /\ value e = -193 /\ value f = -193 /\ eval 16 101 e = Ok 9 /\ eval 16 101 f = Ok 9 /\
  nm_eqb 9 9 = true.
Proof. cbn [admissible value fold_right]. repeat split; try lia; repeat constructor; lia. Qed.
(** The modulus of curve25519 *)
Example C112_large_ex : let p := 2 ^ 255 - 19 in
  admissible 256 p (EMul (ELit 2) (EPow (ELit 3) 5)) /\ eval 256 p (EMul (ELit 2) (EPow (ELit 3) 5)) = Ok 486.
Proof. split; [cbn [admissible]; lia|vm_compute; reflexivity]. Qed.

Print Assumptions C112_programs.
Print Assumptions C112_comparison.
Print Assumptions C112_large_modulus.
Print Assumptions C112_comparison_refuted.
