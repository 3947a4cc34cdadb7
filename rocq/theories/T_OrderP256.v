(** Theorems on the order of the P-256 group and its consequences for p256.rs: C72. *)
From Coq Require Import ZArith Znumtheory List Bool Arith Lia.
From Verif Require Import Base M_Int M_NatMod M_P256 P_Prime S_Curve P_Curve P_Group P_Order S_P256 P_P256 P_OrderP256 T_P256.
Import ListNotations.
Open Scope Z_scope.

(** * C72: the group has prime order n, and the code's base point generates it *)
(** The number n of FIPS 186-4, D.1.2.3, is prime, and the curve has exactly n points, infinity included. *)
Theorem C72_group_order : prime n256 /\
  exists l : list (point p256), NoDup l /\ Z.of_nat (length l) = n256 /\ forall P, In P l <-> on256 P.
Proof.
  split; [exact prime_n256|].
  destruct (g_size p256 ec_prime ec_odd _ _ _ _ ec_one nonsing256 G256 nn on_G256 order_G generated) as (l & N & L & H).
  exists l. split; [exact N|]. split; [rewrite L; exact nn_eq|exact H].
Qed.
Example C72_group_order_ex : on256 G256 /\ on256 Inf /\ ~ on256 (Aff (fof p256 0) (fof p256 0)).
Proof.
  split; [exact on_G256|]. split; [exact I|]. intros H. apply (f_equal fval) in H. vm_compute in H. discriminate.
Qed.
Lemma dvd_nat_gen n k : 0 < n -> 0 <= k -> Nat.divide (Z.to_nat n) (Z.to_nat k) <-> (n | k).
Proof.
  intros Hn Hk. split.
  - intros [z E]. exists (Z.of_nat z). apply (f_equal Z.of_nat) in E. rewrite Nat2Z.inj_mul, !Z2Nat.id in E by lia. exact E.
  - intros [z E]. exists (Z.to_nat z). apply Nat2Z.inj. rewrite Nat2Z.inj_mul, !Z2Nat.id; [exact E| | |]; nia.
Qed.
Lemma mod_nat_gen n j k : 0 < n -> 0 <= j -> 0 <= k ->
  ((Z.to_nat j mod Z.to_nat n)%nat = (Z.to_nat k mod Z.to_nat n)%nat) <-> j mod n = k mod n.
Proof.
  intros Hn Hj Hk. split; intros E.
  - apply (f_equal Z.of_nat) in E. rewrite !Nat2Z.inj_mod, !Z2Nat.id in E by lia. exact E.
  - apply Nat2Z.inj. rewrite !Nat2Z.inj_mod, !Z2Nat.id by lia. exact E.
Qed.
Lemma dvd_nat k : 0 <= k -> Nat.divide nn (Z.to_nat k) <-> (n256 | k).
Proof. apply dvd_nat_gen. reflexivity. Qed.
(** A multiple of a point other than infinity is infinity exactly when the factor is a multiple of n; every
    point is a multiple of G. *)
Theorem C72_every_point_has_order_n : forall P, on256 P -> P <> Inf ->
  (forall k, 0 <= k -> mul256 (Z.to_nat k) P = Inf <-> (n256 | k)) /\ exists i, 0 <= i < n256 /\ P = mul256 (Z.to_nat i) G256.
Proof.
  intros P O NI. split.
  - intros k Hk. rewrite <- dvd_nat by assumption. exact (proj2 (order_any P O NI) (Z.to_nat k)).
  - destruct (generated P O) as [i E]. exists (Z.of_nat (i mod nn)).
    assert (N0 : nn <> 0%nat) by (destruct order_G; lia).
    split.
    + pose proof (Nat.mod_upper_bound i nn N0) as L. apply Nat2Z.inj_lt in L. rewrite nn_eq in L. lia.
    + rewrite Nat2Z.id, E. apply (g_order_mod p256 ec_prime ec_odd _ _ _ _ ec_one nonsing256 G256 nn _ _ on_G256 order_G).
      symmetry. apply Nat.mod_mod. exact N0.
Qed.
Example C72_every_point_has_order_n_ex : on256 (pneg p256 G256) /\ pneg p256 G256 <> Inf /\ pneg p256 G256 <> G256 /\
  (n256 | 3 * n256) /\ ~ (n256 | n256 - 1).
Proof.
  destruct C61_curve_is_a_group_ex as (_ & O & N). split; [exact O|]. split; [discriminate|]. split; [exact N|].
  split; [now exists 3|]. intros [z E]. unfold n256 in E. lia.
Qed.
(** * What the code computes *)
(** The ladder started on any representation of a point other than infinity ends with z = 0 exactly when n
    divides the scalar. *)
Theorem C72_ladder_zero_iff : forall P k x y z x3 y3 z3, on256 P -> P <> Inf -> 0 <= k < 2 ^ 256 -> jacobian x y z P ->
  ec_montgomery_ladder k (x, y, z) = Ok (x3, y3, z3) -> z3 = 0 <-> (n256 | k).
Proof.
  intros P k x y z x3 y3 z3 O NI Hk J E.
  destruct (C62_ladder_multiplies P k x y z O Hk J) as (x' & y' & z' & E' & J'). rewrite E in E'. injection E' as <- <- <-.
  rewrite <- (proj1 (C72_every_point_has_order_n P O NI) k) by lia.
  destruct J' as (_ & _ & _ & J'). destruct (mul256 (Z.to_nat k) P); [tauto|]. split; [tauto|discriminate].
Qed.
Example C72_ladder_zero_iff_ex : on256 G256 /\ G256 <> Inf /\ jacobian gx256 gy256 1 G256 /\ 0 <= n256 < 2 ^ 256.
Proof. destruct C62_ladder_multiplies_ex as (O & J & _). split; [exact O|]. split; [discriminate|]. split; [exact J|]. unfold n256. lia. Qed.
(** point_mul returns (0, 0) exactly on the multiples of n *)
Theorem C72_point_mul_zero_iff : forall k, 0 <= k < 2 ^ 256 -> point_mul k = Ok (0, 0) <-> (n256 | k).
Proof.
  intros k Hk. rewrite (C62_point_mul k Hk), <- (proj1 (C72_every_point_has_order_n G256 on_G256 ltac:(discriminate)) k) by lia.
  pose proof (on_mul256 (Z.to_nat k) G256 on_G256) as O. destruct (mul256 (Z.to_nat k) G256) as [|u v]; cbn [coordinates]; [tauto|].
  split; [|discriminate]. intros E. exfalso. injection E as Eu Ev. apply (proj2 (proj2 C72_group_order_ex)).
  replace (fof p256 0) with u at 1 by (apply fval_inj; exact Eu). replace (fof p256 0) with v by (apply fval_inj; exact Ev). exact O.
Qed.
Example C72_point_mul_zero_iff_ex : (n256 | n256) /\ (n256 | 0) /\ 0 <= n256 < 2 ^ 256 /\ ~ (n256 | 1).
Proof. split; [now exists 1|]. split; [now exists 0|]. split; [unfold n256; lia|]. intros [z E]. unfold n256 in E. lia. Qed.
(** Two scalars give the same point exactly when they are congruent modulo n. The code's Scalar type holds the
    numbers up to 2^256 - 2, so some points have two scalars; below n all points differ. *)
Theorem C72_point_mul_equal_iff : forall j k, 0 <= j < 2 ^ 256 -> 0 <= k < 2 ^ 256 ->
  point_mul j = point_mul k <-> j mod n256 = k mod n256.
Proof.
  intros j k Hj Hk. rewrite (C62_point_mul j Hj), (C62_point_mul k Hk).
  assert (M : mul256 (Z.to_nat j) G256 = mul256 (Z.to_nat k) G256 <-> j mod n256 = k mod n256).
  { transitivity ((Z.to_nat j mod nn)%nat = (Z.to_nat k mod nn)%nat).
    - exact (g_order_mod p256 ec_prime ec_odd _ _ _ _ ec_one nonsing256 G256 nn (Z.to_nat j) (Z.to_nat k) on_G256 order_G).
    - apply mod_nat_gen; [reflexivity|lia|lia]. }
  rewrite <- M. split; [|intros ->; reflexivity]. intros E.
  assert (C : coordinates (mul256 (Z.to_nat j) G256) = coordinates (mul256 (Z.to_nat k) G256)) by congruence.
  pose proof (on_mul256 (Z.to_nat j) G256 on_G256) as Oj. pose proof (on_mul256 (Z.to_nat k) G256 on_G256) as Ok.
  assert (NZ : forall u v, on256 (Aff u v) -> (fval u, fval v) <> (0, 0)).
  { intros u v O Z. injection Z as Eu Ev. apply (proj2 (proj2 C72_group_order_ex)).
    replace (fof p256 0) with u at 1 by (apply fval_inj; exact Eu). replace (fof p256 0) with v by (apply fval_inj; exact Ev). exact O. }
  destruct (mul256 (Z.to_nat j) G256) as [|u v]; destruct (mul256 (Z.to_nat k) G256) as [|u' v']; cbn [coordinates] in C.
  - reflexivity.
  - symmetry in C. now apply NZ in C.
  - now apply NZ in C.
  - f_equal; apply fval_inj; congruence.
Qed.
Example C72_point_mul_equal_iff_ex : 0 <= 5 < 2 ^ 256 /\ 0 <= n256 + 5 < 2 ^ 256 /\ 5 mod n256 = (n256 + 5) mod n256 /\ 5 mod n256 <> 6 mod n256.
Proof. split; [lia|]. split; [unfold n256; lia|]. split; [vm_compute; reflexivity|]. vm_compute. discriminate. Qed.
Print Assumptions C72_group_order.
Print Assumptions C72_every_point_has_order_n.
Print Assumptions C72_ladder_zero_iff.
Print Assumptions C72_point_mul_zero_iff.
Print Assumptions C72_point_mul_equal_iff.
