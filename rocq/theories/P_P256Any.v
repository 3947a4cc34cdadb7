(** The P-256 formulas on the points of any curve y^2 = x^3 - 3x + c: the coefficient of P-256 occurs nowhere in them.
    The lemmas are those of P_P256.v with c for the coefficient. *)
From Coq Require Import ZArith Znumtheory Lia Bool List Field.
From Verif Require Import Base P_Base M_Int M_Seq M_Bytes M_BigInt M_NatMod M_P256.
From Verif Require Import P_Seq P_Bytes P_BigInt P_Prime P_Mod S_Curve P_Curve P_X25519 P_Jacobian S_P256 P_X25519M P_P256.
Import ListNotations.
Open Scope Z_scope.
Add Field F256a : (fp_field p256 ec_prime) (morphism (fp_morph p256), constants [fp_const]).

Lemma nonsing_any (c : Fp p256) : fmul c c <> fof p256 4 -> nonsingular p256 (fof _ 0) (fopp (fof _ 3)) c.
Proof.
  intros T x E E'. unfold cubic in E. unfold cubic' in E'.
  assert (N3 : fof p256 3 <> fof _ 0) by (intros H; apply (f_equal fval) in H; vm_compute in H; discriminate).
  assert (X : fmul x x = fof _ 1).
  { symmetry. apply (sub_0 p256 ec_prime). apply (cancel_den p256 ec_prime (fof _ 3)); [exact N3|].
    refine (eq_trans _ E'). ring. }
  assert (C : c = fmul (fof _ 2) x).
  { replace (fmul (fmul x x) x) with x in E by (rewrite X; ring). symmetry. apply (sub_0 p256 ec_prime). refine (eq_trans _ E). ring. }
  apply T. rewrite C. transitivity (fmul (fof p256 4) (fmul x x)); [ring|rewrite X; ring].
Qed.

Section Any.
  Variable c : Fp p256.
  Hypothesis ns : nonsingular p256 (fof _ 0) (fopp (fof _ 3)) c.
  Let on_ : point p256 -> Prop := on_curve p256 (fof p256 0) (fopp (fof p256 3)) c (fof p256 1).
Lemma addition_Ok_any w1 w2 P Q : on_ P -> on_ Q -> P <> Q \/ P = Inf -> Rep w1 P -> Rep w2 Q ->
  exists w3, point_add (jv w1) (jv w2) = Ok (jv w3) /\ Rep w3 (add256 P Q).
Proof.
  intros OP OQ D R1 R2. destruct P as [|x1 y1].
  { apply rep_inf in R1. unfold point_add. rewrite inf_Ok. cbn [bind]. rewrite R1. eexists. split; [reflexivity|exact R2]. }
  pose proof (rep_aff w1 x1 y1 R1) as F1. destruct Q as [|x2 y2].
  { apply rep_inf in R2. unfold point_add. rewrite !inf_Ok. cbn [bind]. rewrite F1, R2. eexists. split; [reflexivity|exact R1]. }
  pose proof (rep_aff w2 x2 y2 R2) as F2. destruct D as [D|D]; [|discriminate].
  destruct w1 as [[X1 Y1] z1]. destruct w2 as [[X2 Y2] z2]. cbn [snd] in F1, F2. rewrite add_code by assumption.
  pose proof (u_eq p256 ec_prime _ _ _ _ _ _ _ _ _ _ R1 R2) as U. pose proof (s_eq p256 ec_prime _ _ _ _ _ _ _ _ _ _ R1 R2) as S.
  destruct (feqb_spec p256 (fmul X1 (fmul z2 z2)) (fmul X2 (fmul z1 z1))) as [E|N].
  - apply U in E. subst x2. destruct (feqb_spec p256 (fmul (fmul Y1 z2) (fmul z2 z2)) (fmul (fmul Y2 z1) (fmul z1 z1))) as [E|N].
    + apply S in E. congruence.
    + eexists. split; [reflexivity|].
      replace (add256 (Aff x1 y1) (Aff x1 y2)) with (@Inf p256); [cbn [jrep]; reflexivity|].
      destruct (same_x p256 ec_prime _ _ _ _ ec_one x1 y1 y2 OP OQ) as [->| ->]; [exfalso; apply N; now apply S|].
      symmetry. exact (add_neg p256 ec_prime _ _ _ (Aff x1 y1)).
  - eexists. split; [reflexivity|]. apply jadd_rep; [exact ec_prime|exact ec_odd| |exact R1|exact R2].
    intros E. apply N. now apply U.
Qed.
  Lemma on_add_any P Q : on_ P -> on_ Q -> on_ (add256 P Q).
  Proof. apply (on_add p256 ec_prime ec_odd _ _ _ _ ec_one). Qed.
  Lemma comm_any P Q : on_ P -> on_ Q -> add256 P Q = add256 Q P.
  Proof. apply (add_comm p256 ec_prime _ _ _ _ ec_one). Qed.
  Lemma assoc_any P Q R : on_ P -> on_ Q -> on_ R -> add256 (add256 P Q) R = add256 P (add256 Q R).
  Proof. apply (add_assoc p256 ec_prime ec_odd _ _ _ _ ec_one ns). Qed.
  Lemma on_mul_any n P : on_ P -> on_ (mul256 n P).
  Proof. apply (on_mul p256 ec_prime ec_odd _ _ _ _ ec_one). Qed.
  Lemma mul_add_any m n P : on_ P -> mul256 (m + n) P = add256 (mul256 m P) (mul256 n P).
  Proof. apply (mul_add p256 ec_prime ec_odd _ _ _ _ ec_one ns). Qed.
  Lemma mul_mul_any m n P : on_ P -> mul256 m (mul256 n P) = mul256 (m * n) P.
  Proof. apply (mul_mul p256 ec_prime ec_odd _ _ _ _ ec_one ns). Qed.
  Lemma mul_S_any n P : mul256 (S n) P = add256 (mul256 n P) P.
  Proof. reflexivity. Qed.
  Lemma succ_ne_any n P : on_ P -> P <> Inf -> mul256 n P <> mul256 (S n) P.
  Proof.
    intros O N E. rewrite mul_S_any in E. apply N. rewrite (comm_any _ P) in E by auto using on_mul_any. symmetry in E.
    exact (add_eq_r p256 ec_prime ec_odd _ _ c _ ec_one ns P (mul256 n P) O (on_mul_any n P O) E).
  Qed.

Lemma ec_step_Ok_any P k i m w0 w1 : on_ P -> (i < 256)%nat ->
  Rep w0 (mul256 m P) -> Rep w1 (mul256 (S m) P) ->
  exists v0 v1, ec_ladder_step k i (jv w0, jv w1) = Ok (jv v0, jv v1) /\
    let m' := (2 * m + Nat.b2n (Z.testbit k (Z.of_nat (255 - i))))%nat in
    Rep v0 (mul256 m' P) /\ Rep v1 (mul256 (S m') P).
Proof.
  intros O Hi R0 R1. unfold ec_ladder_step. rewrite usub_Ok by lia. cbn [bind].
  pose proof (bit_Ok k (255 - i) ltac:(lia)) as B. unfold nm_bit in B. rewrite B. cbn [bind].
  assert (D : forall n, mul256 (2 * n) P = add256 (mul256 n P) (mul256 n P)).
  { intros n. replace (2 * n)%nat with (n + n)%nat by lia. now apply mul_add_any. }
  assert (D1 : add256 (mul256 m P) (mul256 (S m) P) = mul256 (S (2 * m)) P).
  { rewrite <- mul_add_any by assumption. f_equal. lia. }
  assert (D2 : add256 (mul256 (S m) P) (mul256 m P) = mul256 (S (2 * m)) P).
  { rewrite <- mul_add_any by assumption. f_equal. lia. }
  assert (NE : mul256 m P <> mul256 (S m) P \/ mul256 m P = Inf /\ mul256 (S m) P = Inf).
  { destruct P as [|x y]; [right; split; apply mul_inf|]. left. apply succ_ne_any; [exact O|discriminate]. }
  destruct (Z.testbit k (Z.of_nat (255 - i))); cbn [fst snd Nat.b2n]; rewrite double_Ok; cbn [bind].
  - destruct (addition_Ok_any w1 w0 (mul256 (S m) P) (mul256 m P)) as (v & E & R); auto using on_mul_any.
    { destruct NE as [N|[_ N]]; [left; congruence|now right]. }
    rewrite E. cbn [bind]. rewrite ?B. cbn [bind]. exists v, (jdbl p256 w1). split; [reflexivity|]. cbv zeta.
    rewrite D2 in R. split.
    + now replace (2 * m + 1)%nat with (S (2 * m)) by lia.
    + replace (S (2 * m + 1)) with (2 * S m)%nat by lia. rewrite D. apply (jdbl_rep p256 ec_prime ec_odd c); [|exact R1].
      apply (on_mul_any (S m)). exact O.
  - destruct (addition_Ok_any w0 w1 (mul256 m P) (mul256 (S m) P)) as (v & E & R); auto using on_mul_any.
    { destruct NE as [N|[N _]]; [now left|now right]. }
    rewrite E. cbn [bind]. rewrite ?B. cbn [bind]. exists (jdbl p256 w0), v. split; [reflexivity|]. cbv zeta.
    rewrite D1 in R. split.
    + replace (2 * m + 0)%nat with (2 * m)%nat by lia. rewrite D. apply (jdbl_rep p256 ec_prime ec_odd c); [|exact R0].
      apply (on_mul_any m). exact O.
    + now replace (2 * m + 0)%nat with (2 * m)%nat by lia.
Qed.
(** after n turns the first working point is [k / 2^(256-n)]P, the second one more *)
Lemma ec_loop_Ok_any P k w n : on_ P -> 0 <= k < 2 ^ 256 -> (n <= 256)%nat -> Rep w P ->
  exists v0 v1, for_range 0 n (ec_ladder_step k) (jv (fof _ 0, fof _ 1, fof _ 0), jv w) = Ok (jv v0, jv v1) /\
    let m := Z.to_nat (k / 2 ^ (256 - Z.of_nat n)) in
    Rep v0 (mul256 m P) /\ Rep v1 (mul256 (S m) P).
Proof.
  intros O Hk Hn Rw. induction n as [|n IH].
  - do 2 eexists. split; [reflexivity|]. rewrite Z.div_small by (change (256 - Z.of_nat 0) with 256; exact Hk).
    cbn [Z.to_nat]. split; [reflexivity|]. exact Rw.
  - destruct IH as (v0 & v1 & E & R0 & R1); [lia|].
    assert (SR : forall T (f : nat -> T -> res T) n st s, for_range st (1 + n) f s = bind (for_range st n f s) (f (st + n)%nat)).
    { clear. intros T f n. induction n as [|n IH]; intros st s.
      - cbn. rewrite Nat.add_0_r. now destruct (f st s).
      - change (1 + S n)%nat with (S (1 + n)). cbn [for_range]. destruct (f st s) as [s'|] eqn:Es; cbn [bind]; [|reflexivity].
        rewrite IH. now rewrite Nat.add_succ_comm. }
    change (S n) with (1 + n)%nat at 1. rewrite SR, E. cbn [bind]. rewrite Nat.add_0_l.
    destruct (ec_step_Ok_any P k n _ v0 v1 O ltac:(lia) R0 R1) as (u0 & u1 & E' & R). exists u0, u1. split; [exact E'|].
    cbv zeta in R |- *.
    replace (Z.to_nat (k / 2 ^ (256 - Z.of_nat (S n)))) with
      (2 * Z.to_nat (k / 2 ^ (256 - Z.of_nat n)) + Nat.b2n (Z.testbit k (Z.of_nat (255 - n))))%nat; [exact R|].
    replace (256 - Z.of_nat n) with (Z.succ (Z.of_nat (255 - n))) by lia.
    replace (256 - Z.of_nat (S n)) with (Z.of_nat (255 - n)) by lia.
    rewrite Z.pow_succ_r by lia. rewrite (Z.mul_comm 2), <- Z.div_div by (try apply Z.pow_nonzero; lia).
    rewrite Z.testbit_odd, Z.shiftr_div_pow2 by lia. set (q := k / 2 ^ Z.of_nat (255 - n)).
    assert (0 <= q) by (apply Z.div_pos; [lia|apply Z.pow_pos_nonneg; lia]).
    pose proof (Z.div_mod q 2 ltac:(lia)) as DM. rewrite Zmod_odd in DM. pose proof (Z.div_pos q 2 ltac:(lia) ltac:(lia)).
    destruct (Z.odd q); cbn [Nat.b2n]; lia.
Qed.
Lemma ec_ladder_Ok_any P k w : on_ P -> 0 <= k < 2 ^ 256 -> Rep w P ->
  exists v, ec_montgomery_ladder k (jv w) = Ok (jv v) /\ Rep v (mul256 (Z.to_nat k) P).
Proof.
  intros O Hk R. destruct (ec_loop_Ok_any P k w 256 O Hk (le_n _) R) as (v0 & v1 & E & R0 & _).
  exists v0. unfold ec_montgomery_ladder. rewrite elit0. cbn [bind]. rewrite elit1. cbn [bind].
  change (fval (fof p256 0), fval (fof p256 1), fval (fof p256 0)) with (jv (fof p256 0, fof _ 1, fof _ 0)).
  match goal with |- bind ?X ?g = _ /\ _ => assert (EX : X = Ok (jv v0, jv v1)) by exact E; rewrite EX end. cbn [bind fst].
  split; [reflexivity|]. cbv zeta in R0. change (256 - Z.of_nat 256) with 0 in R0. now rewrite Z.pow_0_r, Z.div_1_r in R0.
Qed.
End Any.
