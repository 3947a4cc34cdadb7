(** X25519: the ladder step is doubling and differential addition, hence the ladder is multiplication. *)
From Coq Require Import ZArith Znumtheory Field Lia Bool List.
From Verif Require Import P_Prime P_Mod S_Curve P_Curve.
Import ListNotations.
Open Scope Z_scope.

Section Mont.
  Variable p : Z.
  Hypothesis Hp : prime p.
  Hypothesis p_odd : p <> 2.
  Add Field Fpm : (fp_field p Hp) (morphism (fp_morph p), constants [fp_const]).
  Open Scope fp_scope.
  (** curve d*y^2 = x^3 + (4*e+2)*x^2 + x *)
  Variables e d : Fp p.
  Hypothesis d_ne : d <> %0.
  Definition mA : Fp p := %4 * e + %2.
  Hypothesis A_ne : e * (e + %1) <> %0.
  Notation on := (on_curve p mA %1 %0 d).
  Notation add := (padd p mA %1 d).
  Notation neg := (pneg p).
  Notation mul := (pmul p mA %1 d).
  Notation f := (cubic p mA %1 %0).
  Let two : fof p 2 <> %0 := two_ne p Hp p_odd.
  Ltac fne := repeat (split || apply (fmul_ne p Hp) || apply two || assumption).
  Lemma four : fof p 4 <> %0.
  Proof. replace (fof p 4) with (fof p 2 * fof p 2) by ring. fne. Qed.
  Lemma root_ne (x : Fp p) : x * x = %1 -> f x <> %0.
  Proof.
    intros X E. apply A_ne. apply (cancel_den p Hp (fof p 4 * fof p 4)); [pose proof four; fne|].
    assert (X3 : x * x * x = x) by (rewrite X; ring).
    assert (T : %2 * x + mA = %0) by (rewrite <- E; unfold cubic; rewrite X3, X; ring).
    transitivity ((mA - %2 * x) * (%2 * x + mA) + %4 * (x * x - %1)); [unfold mA; ring|]. rewrite T, X. ring.
  Qed.
  Lemma mont_nonsingular : nonsingular p mA %1 %0.
  Proof.
    intros x E E'. assert (T : x * x = %1).
    { unfold cubic' in E'. unfold cubic in E.
      assert (G : x * x * x - x = %0); [|].
      { transitivity (x * (%3 * (x * x) + %2 * mA * x + %1) - %2 * (x * x * x + mA * (x * x) + %1 * x + %0)); [ring|rewrite E, E'; ring]. }
      destruct (feqb_spec p x %0) as [->|N].
      - exfalso. apply (F_1_neq_0 (fp_field p Hp)). rewrite <- E'. ring.
      - apply (sub_0 p Hp). apply (cancel_den p Hp x); [assumption|].
        transitivity (- (x * x * x - x)); [ring|rewrite G; ring]. }
    now apply (root_ne x T).
  Qed.
  (** x- and z-coordinates of the double and of the differential sum *)
  Definition dblx (x z : Fp p) : Fp p := (x + z) * (x + z) * ((x - z) * (x - z)).
  Definition dblz (x z : Fp p) : Fp p :=
    let E := (x + z) * (x + z) - (x - z) * (x - z) in E * ((x + z) * (x + z) + e * E).
  Definition addx (x2 z2 x3 z3 : Fp p) : Fp p :=
    let s := (x3 - z3) * (x2 + z2) + (x3 + z3) * (x2 - z2) in s * s.
  Definition addz (x1 x2 z2 x3 z3 : Fp p) : Fp p :=
    let s := (x3 - z3) * (x2 + z2) - (x3 + z3) * (x2 - z2) in x1 * (s * s).
  (** (x : z) are projective coordinates of the abscissa of P *)
  Definition rep (x z : Fp p) (P : point p) : Prop :=
    match P with Inf => z = %0 /\ x <> %0 | Aff px _ => z <> %0 /\ x = px * z end.

  Lemma dbl_rep x z P : on P -> rep x z P -> rep (dblx x z) (dblz x z) (add P P).
  Proof.
    destruct P as [|px py]; intros O R; cbn [rep] in R.
    - destruct R as [-> N]. cbn. unfold dblx, dblz. split; [ring|].
      replace ((x + %0) * (x + %0) * ((x - %0) * (x - %0))) with ((x * x) * (x * x)) by ring. fne.
    - destruct R as [N ->].
      assert (EX : dblx (px * z) z = (px * px - %1) * (px * px - %1) * (z * z * (z * z))) by (unfold dblx; ring).
      assert (EZ : dblz (px * z) z = %4 * f px * (z * z * (z * z))) by (unfold dblz, cubic, mA; ring).
      rewrite EX, EZ. destruct (feqb_spec p py %0) as [->|Ny].
      + assert (F0 : f px = %0) by (cbn in O; rewrite <- O; ring).
        replace (Aff px %0) with (neg (Aff px (fof p 0))) at 2 by (cbn; f_equal; ring). rewrite add_neg by assumption.
        cbn [rep]. split; [rewrite F0; ring|].
        assert (px * px - %1 <> %0).
        { intros E. apply (root_ne px); [|exact F0]. symmetry. now apply (sub_0 p Hp). }
        fne.
      + rewrite (add_tang p Hp p_odd) by assumption. cbn [rep].
        assert (Nf : f px <> %0) by (cbn in O; rewrite <- O; fne).
        pose proof four. split; [fne|].
        assert (T : d * (tang p mA %1 d px py * tang p mA %1 d px py) = cubic' p mA %1 px * cubic' p mA %1 px / (%4 * f px)).
        { cbn in O. rewrite <- O. unfold tang. field. fne. }
        unfold lx. rewrite T. revert Nf. unfold cubic, cubic'. intros Nf. field. fne. intros Z. apply Nf. refine (eq_trans _ Z). ring.
  Qed.
  Lemma x_sum x1 y1 x2 y2 : on (Aff x1 y1) -> on (Aff x2 y2) -> x1 <> x2 ->
    lx p mA d (chord p x1 y1 x2 y2) x1 x2 * ((x2 - x1) * (x2 - x1)) =
      x1 * x2 * (x1 + x2 + %2 * mA) + x1 + x2 - %2 * (d * (y1 * y2)).
  Proof.
    intros O1 O2 N. apply (sub_ne p Hp) in N. cbn in O1, O2. unfold lx, chord.
    transitivity (d * (y1 * y1) + d * (y2 * y2) - %2 * (d * (y1 * y2)) - (mA + x1 + x2) * ((x2 - x1) * (x2 - x1))).
    - field. assumption.
    - rewrite O1, O2. unfold cubic. ring.
  Qed.
  Lemma dadd_rep x2 z2 x3 z3 P x1 y1 : on P -> on (Aff x1 y1) -> x1 <> %0 ->
    rep x2 z2 P -> rep x3 z3 (add P (Aff x1 y1)) ->
    rep (addx x2 z2 x3 z3) (addz x1 x2 z2 x3 z3) (add P (add P (Aff x1 y1))).
  Proof.
    intros OP OD N1 R2 R3.
    assert (NS := mont_nonsingular).
    assert (AX : addx x2 z2 x3 z3 = %4 * ((x2 * x3 - z2 * z3) * (x2 * x3 - z2 * z3))) by (unfold addx; ring).
    assert (AZ : addz x1 x2 z2 x3 z3 = %4 * x1 * ((x3 * z2 - x2 * z3) * (x3 * z2 - x2 * z3))) by (unfold addz; ring).
    rewrite AX, AZ. clear AX AZ. pose proof four as N4.
    assert (OS : on (add P (Aff x1 y1))) by (apply (on_add p Hp p_odd); assumption).
    destruct P as [|xr yr].
    { cbn in R2, R3 |- *. destruct R2 as [-> R2], R3 as [R3 ->].
      replace (x1 * z3 * %0 - x2 * z3) with (- (x2 * z3)) by ring.
      split; [replace (- (x2 * z3) * - (x2 * z3)) with (x2 * z3 * (x2 * z3)) by ring; fne|ring]. }
    destruct (add (Aff xr yr) (Aff x1 y1)) as [|xq yq] eqn:EQ.
    { apply (add_eq_inf p Hp p_odd mA _ _ d d_ne NS) in EQ; [|assumption..]. cbn in EQ. injection EQ as -> ->.
      cbn [padd]. cbn in R2, R3 |- *. destruct R2 as [R2 ->], R3 as [-> R3].
      replace (x3 * z2 - x1 * z2 * %0) with (x3 * z2) by ring. split; [fne|ring]. }
    cbn in R2, R3. destruct R2 as [R2 ->], R3 as [R3 ->].
    replace (xr * z2 * (xq * z3) - z2 * z3) with ((xr * xq - %1) * (z2 * z3)) by ring.
    replace (xq * z3 * z2 - xr * z2 * z3) with ((xq - xr) * (z2 * z3)) by ring.
    assert (ED : Aff x1 y1 = add (neg (Aff xr yr)) (Aff xq yq)).
    { rewrite <- EQ. symmetry. apply (add_cancel_l p Hp p_odd mA %1 %0 d d_ne NS); assumption. }
    destruct (point_dec p (Aff xr yr) (neg (Aff xq yq))) as [E|NE].
    - rewrite E, (add_neg_l p Hp). cbn in E. injection E as <- Ey. cbn [rep]. split; [ring|].
      assert (xr * xr - %1 <> %0); [|fne].
      assert (Er : neg (Aff xr yr) = Aff xr yq) by (cbn; f_equal; rewrite Ey; ring).
      rewrite Er in ED. rewrite <- Er in OS.
      assert (Rr : rep xr %1 (Aff xr yq)) by (cbn; split; [apply (F_1_neq_0 (fp_field p Hp))|ring]).
      rewrite Er in OS. pose proof (dbl_rep _ _ _ OS Rr) as RD. rewrite <- ED in RD. cbn in RD. destruct RD as [RD1 RD2].
      intros Z. destruct (fmul_0 p Hp x1 (dblz xr %1)) as [W|W]; [|contradiction|contradiction].
      rewrite <- RD2. unfold dblx. transitivity ((xr * xr - %1) * (xr * xr - %1)); [ring|rewrite Z; ring].
    - assert (NE2 : Aff xr yr <> Aff xq yq).
      { intros E. rewrite E, (add_neg_l p Hp) in ED. discriminate. }
      pose proof (diff_x p Hp mA %1 %0 d d_ne _ _ _ _ OP OS NE2 NE) as Nx.
      rewrite (add_chord p) by assumption. cbn [rep]. pose proof (sub_ne p Hp _ _ Nx) as Nx'.
      split; [fne|]. pose proof (x_sum _ _ _ _ OP OS Nx) as S1.
      assert (OP' : on (Aff xr (- yr))) by (apply (on_neg p Hp mA %1 %0 d (Aff xr yr)); assumption).
      pose proof (x_sum _ _ _ _ OP' OS Nx) as S2. cbn [pneg] in ED. rewrite (add_chord p) in ED by assumption.
      injection ED as ED _. rewrite <- ED in S2.
      set (xs := lx p mA d (chord p xr yr xq yq) xr xq) in *.
      assert (K : xs * ((xq - xr) * (xq - xr)) * (x1 * ((xq - xr) * (xq - xr))) =
                  (xr * xq - %1) * (xr * xq - %1) * ((xq - xr) * (xq - xr))).
      { rewrite S1, S2. set (T := xr * xq * (xr + xq + %2 * mA) + xr + xq).
        transitivity (T * T - %4 * ((d * (yr * yr)) * (d * (yq * yq)))); [ring|].
        cbn in OP, OS. rewrite OP, OS. unfold T, cubic. ring. }
      assert (K' : xs * (x1 * ((xq - xr) * (xq - xr))) = (xr * xq - %1) * (xr * xq - %1)).
      { apply (sub_0 p Hp). apply (cancel_den p Hp ((xq - xr) * (xq - xr))); [fne|].
        
        transitivity ((xr * xq - %1) * (xr * xq - %1) * ((xq - xr) * (xq - xr)) - xs * ((xq - xr) * (xq - xr)) * (x1 * ((xq - xr) * (xq - xr)))); [ring|rewrite K; ring]. }
      transitivity (%4 * (z2 * z3 * (z2 * z3)) * ((xr * xq - %1) * (xr * xq - %1))); [ring|]. rewrite <- K'. ring.
  Qed.

  (** ** The ladder *)
  Definition lpair : Type := (Fp p * Fp p) * (Fp p * Fp p).
  Definition lswap (s : lpair) : lpair := (snd s, fst s).
  Definition lstep (u : Fp p) (s : lpair) : lpair :=
    let (q2, q3) := s in
    ((dblx (fst q2) (snd q2), dblz (fst q2) (snd q2)),
     (addx (fst q2) (snd q2) (fst q3) (snd q3), addz u (fst q2) (snd q2) (fst q3) (snd q3))).
  Definition lturn (u : Fp p) (s : lpair) (b : bool) : lpair :=
    if b then lswap (lstep u (lswap s)) else lstep u s.
  Definition linit (u : Fp p) : lpair := ((%1, %0), (u, %1)).
  Definition lout (s : lpair) : Fp p := fst (fst s) * finv (snd (fst s)).
  Definition bval (m : nat) (bs : list bool) : nat := fold_left (fun m b => (2 * m + Nat.b2n b)%nat) bs m.
  Definition xc (P : point p) : Fp p := match P with Inf => %0 | Aff x _ => x end.
  Definition linv (P : point p) (m : nat) (s : lpair) : Prop :=
    rep (fst (fst s)) (snd (fst s)) (mul m P) /\ rep (fst (snd s)) (snd (snd s)) (mul (S m) P).

  Lemma lturn_inv u y m s b : on (Aff u y) -> u <> %0 -> linv (Aff u y) m s ->
    linv (Aff u y) (2 * m + Nat.b2n b) (lturn u s b).
  Proof.
    intros O Nu [I1 I2]. assert (NS := mont_nonsingular).
    assert (OM : forall n, on (mul n (Aff u y))) by (intros n; apply (on_mul p Hp p_odd); assumption).
    assert (D : forall n, mul (2 * n) (Aff u y) = add (mul n (Aff u y)) (mul n (Aff u y))).
    { intros n. replace (2 * n)%nat with (n + n)%nat by lia. now apply (mul_add p Hp p_odd mA %1 %0). }
    assert (D1 : mul (S (2 * m)) (Aff u y) = add (mul m (Aff u y)) (add (mul m (Aff u y)) (Aff u y))).
    { replace (S (2 * m)) with (m + S m)%nat by lia. rewrite (mul_add p Hp p_odd mA %1 %0) by assumption. reflexivity. }
    destruct s as [[a2 b2] [a3 b3]]. cbn [fst snd] in I1, I2. unfold linv, lturn.
    destruct b; cbn [Nat.b2n lswap lstep fst snd].
    - split.
      + replace (2 * m + 1)%nat with (S (2 * m)) by lia. rewrite D1. rewrite mul_S in I2.
        assert (EM : mul m (Aff u y) = add (add (mul m (Aff u y)) (Aff u y)) (neg (Aff u y)))
          by (symmetry; apply (add_cancel p Hp p_odd mA %1 %0); auto).
        assert (OS : on (add (mul m (Aff u y)) (Aff u y))) by (apply (on_add p Hp p_odd); auto).
        rewrite (add_comm p Hp mA %1 %0) by auto. rewrite EM at 2.
        apply (dadd_rep a3 b3 a2 b2 _ u (- y)); auto.
        * apply (on_neg p Hp _ _ _ _ (Aff u y) O).
        * change (Aff u (- y)) with (neg (Aff u y)). now rewrite <- EM.
      + replace (S (2 * m + 1)) with (2 * S m)%nat by lia. rewrite D. apply dbl_rep; auto.
    - rewrite Nat.add_0_r. split.
      + rewrite D. apply dbl_rep; auto.
      + rewrite D1. apply dadd_rep with (y1 := y); auto.
  Qed.
  Lemma lad_inv u y bs : forall m s, on (Aff u y) -> u <> %0 -> linv (Aff u y) m s ->
    linv (Aff u y) (bval m bs) (fold_left (lturn u) bs s).
  Proof.
    induction bs as [|b bs IH]; intros m s O N I; [exact I|]. cbn [fold_left]. apply (IH (2 * m + Nat.b2n b)%nat); auto.
    now apply lturn_inv.
  Qed.
  Lemma finv_0 : finv (fof p 0) = %0.
  Proof.
    apply fval_inj. unfold finv. rewrite !fval_of. rewrite Zmod_0_l.
    pose proof (prime_ge_2 p Hp). rewrite Z.pow_0_l by lia. reflexivity.
  Qed.
  Lemma lout_rep x z P : rep x z P -> x * finv z = xc P.
  Proof.
    destruct P as [|px py]; cbn; intros [H1 H2].
    - rewrite H1, finv_0. ring.
    - rewrite H2. field. exact H1.
  Qed.
  Lemma lad_zero bs : forall s, fst (fst s) * snd (fst s) = %0 -> fst (snd s) * snd (snd s) = %0 ->
    let r := fold_left (lturn %0) bs s in fst (fst r) * snd (fst r) = %0.
  Proof.
    induction bs as [|b bs IH]; intros s H1 H2; [exact H1|]. cbn [fold_left]. destruct s as [[a2 b2] [a3 b3]]. cbn in H1, H2.
    apply IH; destruct b; cbn; unfold dblz, addz;
      match goal with
      | |- ?x * (%0 * _) = _ => ring
      | |- ?x * (((?a + ?b) * _ - _) * _) = _ =>
          replace ((a + b) * (a + b) - (a - b) * (a - b)) with (%4 * (a * b)) by ring; first [rewrite H1|rewrite H2]; ring
      end.
  Qed.
  Lemma torsion_mul n : mul n (Aff %0 %0) = Inf \/ mul n (Aff %0 %0) = Aff %0 %0.
  Proof.
    assert (T : add (Aff %0 %0) (Aff %0 %0) = Inf).
    { replace (Aff (fof p 0) (fof p 0)) with (neg (Aff (fof p 0) (fof p 0))) at 2 by (cbn; f_equal; ring). apply add_neg; assumption. }
    induction n as [|n IH]; [now left|]. rewrite mul_S. destruct IH as [-> | ->]; [now right|now left].
  Qed.
  (** the ladder computes the abscissa of the multiple *)
  Theorem ladder_mul u y bs : on (Aff u y) ->
    lout (fold_left (lturn u) bs (linit u)) = xc (mul (bval 0 bs) (Aff u y)).
  Proof.
    intros O. destruct (feqb_spec p u %0) as [->|N].
    - assert (Y : y = %0).
      { cbn in O. assert (T : d * (y * y) = %0) by (rewrite O; unfold cubic; ring).
        destruct (fmul_0 p Hp _ _ T) as [H|H]; [contradiction|]. now destruct (fmul_0 p Hp _ _ H). }
      subst y. transitivity (fof p 0).
      + unfold lout. pose proof (lad_zero bs (linit %0)) as Z. cbn [linit fst snd] in Z. cbv zeta in Z.
        specialize (Z ltac:(ring) ltac:(ring)).
        destruct (fmul_0 p Hp _ _ Z) as [H|H]; rewrite H; [ring|rewrite finv_0; ring].
      + destruct (torsion_mul (bval 0 bs)) as [-> | ->]; reflexivity.
    - destruct (lad_inv u y bs 0 (linit u) O N) as [H _].
      + split; cbn.
        * split; [reflexivity|apply (F_1_neq_0 (fp_field p Hp))].
        * split; [apply (F_1_neq_0 (fp_field p Hp))|ring].
      + now apply lout_rep.
  Qed.
End Mont.
