(** Theorems on P-256 (p256.rs): C61 and C62. *)
From Coq Require Import ZArith Znumtheory List Bool Arith Lia.
From Verif Require Import Base P_Base M_Int M_Seq M_Bytes M_BigInt M_NatMod M_P256.
From Verif Require Import P_Seq P_BigInt P_Prime P_Mod S_Curve P_Curve P_Jacobian S_P256 P_P256.
Import ListNotations.
Open Scope Z_scope.

(** Jacobian coordinates of the specification are those of the proofs. *)
Lemma jac_iff x y z P : jacobian x y z P <-> exists w, jv w = (x, y, z) /\ jrep p256 w P.
Proof.
  assert (SQ : forall (u w : Fp p256), (fval u * fval w ^ 2) mod p256 = fval (fmul u (fmul w w))).
  { intros u w. unfold fmul. rewrite !fval_of. rewrite Zmult_mod_idemp_r. f_equal. ring. }
  assert (CU : forall (u w : Fp p256), (fval u * fval w ^ 3) mod p256 = fval (fmul u (fmul w (fmul w w)))).
  { intros u w. transitivity (fval (fof p256 (fval u * (fval w * (fval w * fval w))))).
    - rewrite fval_of. f_equal. ring.
    - now rewrite !fof_mul, !fof_val. }
  split.
  - intros (Hx & Hy & Hz & H). exists (fof _ x, fof _ y, fof _ z).
    assert (V : forall c, 0 <= c < p256 -> fval (fof p256 c) = c) by (intros c Hc; rewrite fval_of; now apply Z.mod_small).
    split; [unfold jv; now rewrite !V|]. cbn [jrep]. destruct P as [|u v]; [now subst z|]. destruct H as (N & Ex & Ey).
    split; [|split].
    + intros E. apply N. rewrite <- (V z Hz), E. reflexivity.
    + apply fval_inj. rewrite <- SQ, !V by assumption. exact Ex.
    + apply fval_inj. rewrite <- CU, !V by assumption. exact Ey.
  - intros ([[a b] c] & E & R). unfold jv in E. injection E as <- <- <-. unfold jacobian.
    assert (B : forall f : Fp p256, 0 <= fval f < p256) by (intros f; apply fval_range; reflexivity).
    split; [apply B|]. split; [apply B|]. split; [apply B|]. cbn [jrep] in R. destruct P as [|u v]; [now rewrite R|].
    destruct R as (N & -> & ->). split; [|split; [now rewrite SQ|now rewrite CU]].
    intros E. apply N. now apply fval_inj.
Qed.

(** The affine chord-and-tangent sum makes the points of the curve an abelian group. *)
Theorem C61_curve_is_a_group :
  (forall P Q, on256 P -> on256 Q -> on256 (add256 P Q)) /\
  (forall P Q, on256 P -> on256 Q -> add256 P Q = add256 Q P) /\
  (forall P Q R, on256 P -> on256 Q -> on256 R -> add256 (add256 P Q) R = add256 P (add256 Q R)) /\
  (forall P, add256 P Inf = P) /\
  (forall P, on256 P -> on256 (pneg p256 P) /\ add256 P (pneg p256 P) = Inf).
Proof.
  repeat split.
  - exact on_add256.
  - exact comm256.
  - exact assoc256.
  - intros P. apply add_inf_r.
  - exact (on_neg p256 ec_prime _ _ _ _ P H).
  - exact (add_neg p256 ec_prime _ _ _ P).
Qed.
Example C61_curve_is_a_group_ex : on256 G256 /\ on256 (pneg p256 G256) /\ pneg p256 G256 <> G256.
Proof.
  split; [exact on_G256|]. split; [exact (on_neg p256 ec_prime _ _ _ _ G256 on_G256)|].
  intros H. apply (f_equal (fun P => match P with Aff _ v => fval v | Inf => 0 end)) in H. vm_compute in H. discriminate.
Qed.

(** * C61: doubling and addition *)
(** Whatever Jacobian coordinates represent the point P, point_double returns coordinates of P + P,
    which is on the curve. *)
Theorem C61_point_double : forall P x y z, on256 P -> jacobian x y z P ->
  exists x3 y3 z3, point_double (x, y, z) = Ok (x3, y3, z3) /\ jacobian x3 y3 z3 (add256 P P) /\ on256 (add256 P P).
Proof.
  intros P x y z O J. apply jac_iff in J as (w & Ew & R). rewrite <- Ew, double_Ok.
  destruct (jv (jdbl p256 w)) as [[x3 y3] z3] eqn:E. exists x3, y3, z3. split; [reflexivity|]. split; [|now apply on_add256].
  apply jac_iff. exists (jdbl p256 w). split; [exact E|]. exact (jdbl_rep p256 ec_prime ec_odd _ w P O R).
Qed.
(** coordinates of the base point with z = 2, and with z = -1 *)
Definition g2 : Z * Z * Z := (gx256 * 4 mod p256, gy256 * 8 mod p256, 2).
Definition gm1 : Z * Z * Z := (gx256, p256 - gy256, p256 - 1).
Lemma jac_check x y z u v : (0 <=? x) && (x <? p256) && (0 <=? y) && (y <? p256) && (0 <? z) && (z <? p256) &&
  (x =? (fval u * z ^ 2) mod p256) && (y =? (fval v * z ^ 3) mod p256) = true -> jacobian x y z (Aff u v).
Proof.
  intros H. repeat (apply andb_prop in H as [H ?]). unfold jacobian. repeat split; lia.
Qed.
Example C61_point_double_ex : on256 G256 /\ jacobian (fst (fst g2)) (snd (fst g2)) (snd g2) G256 /\
  jacobian (fst (fst gm1)) (snd (fst gm1)) (snd gm1) G256 /\ jacobian gx256 gy256 1 G256 /\ jacobian 0 1 0 Inf.
Proof.
  split; [exact on_G256|]. split; [|split; [|split]].
  - apply jac_check. vm_compute. reflexivity.
  - apply jac_check. vm_compute. reflexivity.
  - apply jac_check. vm_compute. reflexivity.
  - split; [split; [discriminate|reflexivity]|]. split; [split; [discriminate|reflexivity]|].
    split; [split; [discriminate|reflexivity]|]. reflexivity.
Qed.

(** point_add returns coordinates of P + Q whenever P and Q are different or one of them is infinity. *)
Theorem C61_point_add : forall P Q x1 y1 z1 x2 y2 z2, on256 P -> on256 Q -> P <> Q \/ P = Inf ->
  jacobian x1 y1 z1 P -> jacobian x2 y2 z2 Q ->
  exists x3 y3 z3, point_add (x1, y1, z1) (x2, y2, z2) = Ok (x3, y3, z3) /\
    jacobian x3 y3 z3 (add256 P Q) /\ on256 (add256 P Q).
Proof.
  intros P Q x1 y1 z1 x2 y2 z2 OP OQ D J1 J2. apply jac_iff in J1 as (w1 & E1 & R1). apply jac_iff in J2 as (w2 & E2 & R2).
  destruct (addition_Ok w1 w2 P Q OP OQ D R1 R2) as (w3 & E3 & R3). rewrite <- E1, <- E2, E3.
  destruct (jv w3) as [[x3 y3] z3] eqn:E. exists x3, y3, z3. split; [reflexivity|]. split; [|now apply on_add256].
  apply jac_iff. now exists w3.
Qed.
Example C61_point_add_ex : on256 G256 /\ G256 <> Inf /\ jacobian gx256 gy256 1 G256 /\ jacobian 0 1 0 Inf /\
  G256 <> pneg p256 G256 /\ jacobian gx256 (p256 - gy256) 1 (pneg p256 G256) /\
  point_add (gx256, gy256, 1) (gx256, p256 - gy256, 1) = Ok (0, 1, 0).
Proof.
  destruct C61_point_double_ex as (O & _ & _ & J & J0). destruct C61_curve_is_a_group_ex as (_ & _ & N).
  split; [exact O|]. split; [discriminate|]. split; [exact J|]. split; [exact J0|]. split; [congruence|]. split.
  - apply jac_check. vm_compute. reflexivity.
  - vm_compute. reflexivity.
Qed.
(** In particular opposite points give the point at infinity, in its canonical coordinates (0, 1, 0)... *)
Theorem C61_opposite_points : forall u v x1 y1 z1 x2 y2 z2, on256 (Aff u v) -> v <> fof p256 0 ->
  jacobian x1 y1 z1 (Aff u v) -> jacobian x2 y2 z2 (Aff u (fopp v)) ->
  point_add (x1, y1, z1) (x2, y2, z2) = Ok (0, 1, 0).
Proof.
  intros u v x1 y1 z1 x2 y2 z2 O Nv J1 J2. apply jac_iff in J1 as (w1 & E1 & R1). apply jac_iff in J2 as (w2 & E2 & R2).
  rewrite <- E1, <- E2. pose proof (rep_aff w1 _ _ R1) as F1. pose proof (rep_aff w2 _ _ R2) as F2.
  destruct w1 as [[X1 Y1] w1]. destruct w2 as [[X2 Y2] w2]. cbn [snd] in F1, F2. rewrite add_code by assumption.
  pose proof (u_eq p256 ec_prime _ _ _ _ _ _ _ _ _ _ R1 R2) as U. pose proof (s_eq p256 ec_prime _ _ _ _ _ _ _ _ _ _ R1 R2) as S.
  rewrite (proj2 U eq_refl), feqb_refl. destruct (feqb_spec p256 (fmul (fmul Y1 w2) (fmul w2 w2)) (fmul (fmul Y2 w1) (fmul w1 w1))) as [E|N].
  - apply S in E. exfalso. apply Nv. exact (double_0 p256 ec_prime ec_odd v E).
  - vm_compute. reflexivity.
Qed.
Example C61_opposite_points_ex : on256 (Aff (fof p256 gx256) (fof p256 gy256)) /\ fof p256 gy256 <> fof p256 0.
Proof.
  split; [exact on_G256|]. intros H. apply (f_equal fval) in H. vm_compute in H. discriminate.
Qed.
(** ... and the assertion fails exactly when both arguments represent the same finite point. *)
Theorem C61_point_add_panics_iff : forall P Q x1 y1 z1 x2 y2 z2, on256 P -> on256 Q ->
  jacobian x1 y1 z1 P -> jacobian x2 y2 z2 Q ->
  ((exists e, point_add (x1, y1, z1) (x2, y2, z2) = Panic e) <-> P = Q /\ P <> Inf).
Proof.
  intros P Q x1 y1 z1 x2 y2 z2 OP OQ J1 J2. split.
  - intros [e E]. destruct (point_dec p256 P Q) as [D|D].
    + split; [exact D|]. intros I. destruct (C61_point_add P Q x1 y1 z1 x2 y2 z2 OP OQ) as (? & ? & ? & E' & _); auto; congruence.
    + destruct (C61_point_add P Q x1 y1 z1 x2 y2 z2 OP OQ) as (? & ? & ? & E' & _); auto; congruence.
  - intros [<- N]. apply jac_iff in J1 as (w1 & E1 & R1). apply jac_iff in J2 as (w2 & E2 & R2). rewrite <- E1, <- E2.
    destruct P as [|u v]; [contradiction|]. exists PAssert. exact (addition_panic w1 w2 u v R1 R2).
Qed.
Example C61_point_add_panics_iff_ex : point_add (gx256, gy256, 1) g2 = Panic PAssert /\
  exists r, point_add (gx256, gy256, 1) (0, 1, 0) = Ok r.
Proof. split; [vm_compute; reflexivity|]. eexists. vm_compute. reflexivity. Qed.

(** * C62: scalar multiplication *)
(** After n turns of the ladder the working points are [m]P and [m+1]P, where m is the number made of the
    n most significant bits of the scalar. They differ by P, and the assertion in point_add has not failed. *)
Theorem C62_ladder_invariant : forall P k x y z n, on256 P -> 0 <= k < 2 ^ 256 -> (n <= 256)%nat -> jacobian x y z P ->
  exists x0 y0 z0 x1 y1 z1,
    for_range 0 n (ec_ladder_step k) ((0, 1, 0), (x, y, z)) = Ok ((x0, y0, z0), (x1, y1, z1)) /\
    let m := Z.to_nat (k / 2 ^ (256 - Z.of_nat n)) in
    jacobian x0 y0 z0 (mul256 m P) /\ jacobian x1 y1 z1 (mul256 (S m) P) /\
    mul256 (S m) P = add256 (mul256 m P) P.
Proof.
  intros P k x y z n O Hk Hn J. apply jac_iff in J as (w & Ew & R).
  destruct (ec_loop_Ok P k w n O Hk Hn R) as (v0 & v1 & E & R0 & R1). rewrite Ew in E.
  destruct (jv v0) as [[x0 y0] z0] eqn:E0. destruct (jv v1) as [[x1 y1] z1] eqn:E1.
  exists x0, y0, z0, x1, y1, z1. split; [exact E|]. split; [apply jac_iff; now exists v0|]. split; [apply jac_iff; now exists v1|].
  reflexivity.
Qed.
Example C62_ladder_invariant_ex : on256 G256 /\ jacobian gx256 gy256 1 G256 /\ (3 <= 256)%nat /\
  Z.to_nat ((5 * 2 ^ 253 + 1) / 2 ^ (256 - Z.of_nat 3)) = 5%nat /\
  exists r, for_range 0 3 (ec_ladder_step (5 * 2 ^ 253 + 1)) ((0, 1, 0), (gx256, gy256, 1)) = Ok r.
Proof.
  destruct C61_point_double_ex as (O & _ & _ & J & _). split; [exact O|]. split; [exact J|]. split; [lia|]. split; [reflexivity|].
  destruct (C62_ladder_invariant G256 (5 * 2 ^ 253 + 1) gx256 gy256 1 3 O ltac:(lia) ltac:(lia) J) as (x0 & y0 & z0 & x1 & y1 & z1 & E & _).
  eexists. exact E.
Qed.
(** The ladder multiplies: for every scalar and every point of the curve it returns coordinates of [k]P. *)
Theorem C62_ladder_multiplies : forall P k x y z, on256 P -> 0 <= k < 2 ^ 256 -> jacobian x y z P ->
  exists x3 y3 z3, ec_montgomery_ladder k (x, y, z) = Ok (x3, y3, z3) /\ jacobian x3 y3 z3 (mul256 (Z.to_nat k) P).
Proof.
  intros P k x y z O Hk J. apply jac_iff in J as (w & Ew & R). destruct (ec_ladder_Ok P k w O Hk R) as (v & E & Rv).
  rewrite <- Ew, E. destruct (jv v) as [[x3 y3] z3] eqn:Ev. exists x3, y3, z3. split; [reflexivity|]. apply jac_iff. now exists v.
Qed.
Example C62_ladder_multiplies_ex : on256 G256 /\ jacobian gx256 gy256 1 G256 /\ 0 <= n256 - 1 < 2 ^ 256.
Proof. destruct C61_point_double_ex as (O & _ & _ & J & _). split; [exact O|]. split; [exact J|]. unfold n256. lia. Qed.
(** point_mul returns the affine coordinates of [k]G, or (0, 0) when that is infinity, for every value of
    Scalar (0 to 2^256 - 2), and never panics. *)
Theorem C62_point_mul : forall k, 0 <= k < 2 ^ 256 -> point_mul k = Ok (coordinates (mul256 (Z.to_nat k) G256)).
Proof. exact point_mul_Ok. Qed.
Example C62_point_mul_ex : on256 G256 /\ coordinates (mul256 1 G256) = (gx256, gy256) /\
  jacobian_to_affine gm1 = Ok (gx256, gy256).
Proof.
  split; [exact on_G256|]. split; [vm_compute; reflexivity|]. vm_compute. reflexivity.
Qed.
(** Results are points of the curve or the pair (0, 0), which is not on the curve. *)
Theorem C62_point_mul_on_curve : forall k, 0 <= k < 2 ^ 256 -> exists x y, point_mul k = Ok (x, y) /\
  0 <= x < p256 /\ 0 <= y < p256 /\
  ((x, y) = (0, 0) /\ mul256 (Z.to_nat k) G256 = Inf \/ (y ^ 2 - (x ^ 3 - 3 * x + b256)) mod p256 = 0).
Proof.
  intros k Hk. rewrite (C62_point_mul k Hk). pose proof (on_mul256 (Z.to_nat k) G256 on_G256) as O.
  destruct (mul256 (Z.to_nat k) G256) as [|u v]; cbn [coordinates].
  - exists 0, 0. split; [reflexivity|]. split; [split; [discriminate|reflexivity]|]. split; [split; [discriminate|reflexivity]|]. now left.
  - exists (fval u), (fval v). split; [reflexivity|]. split; [apply fval_range; reflexivity|]. split; [apply fval_range; reflexivity|]. right.
    cbn [on_curve on256] in O. unfold cubic in O.
    assert (E : fof p256 (fval v ^ 2 - (fval u ^ 3 - 3 * fval u + b256)) = fof p256 0).
    { replace (fval v ^ 2 - (fval u ^ 3 - 3 * fval u + b256)) with
        (1 * (fval v * fval v) - (fval u * fval u * fval u + 0 * (fval u * fval u) + - 3 * fval u + b256)) by ring.
      repeat rewrite ?fof_sub, ?fof_add, ?fof_mul, ?fof_val. replace (fof p256 (- 3)) with (fopp (fof p256 3)) by (apply fval_inj; vm_compute; reflexivity). rewrite O.
      apply fval_inj. unfold fsub. rewrite fval_of, Z.sub_diag. reflexivity. }
    apply (f_equal fval) in E. rewrite !fval_of in E. exact E.
Qed.
Example C62_point_mul_on_curve_ex : (gy256 ^ 2 - (gx256 ^ 3 - 3 * gx256 + b256)) mod p256 = 0 /\
  (0 ^ 2 - (0 ^ 3 - 3 * 0 + b256)) mod p256 <> 0.
Proof. split; vm_compute; [reflexivity|discriminate]. Qed.
Print Assumptions C61_curve_is_a_group.
Print Assumptions C61_point_double.
Print Assumptions C61_point_add.
Print Assumptions C61_opposite_points.
Print Assumptions C61_point_add_panics_iff.
Print Assumptions C62_ladder_invariant.
Print Assumptions C62_ladder_multiplies.
Print Assumptions C62_point_mul.
Print Assumptions C62_point_mul_on_curve.
