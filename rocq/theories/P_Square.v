(** Square roots modulo a prime p = 5 mod 8. *)
From Coq Require Import ZArith Znumtheory Zpow_facts Field Lia Bool List.
From Verif Require Import P_Prime P_Mod S_Curve P_Curve.
Open Scope Z_scope.

Section Sqrt.
  Variable p : Z.
  Hypothesis Hp : prime p.
  Add Field Fps : (fp_field p Hp) (morphism (fp_morph p), constants [fp_const]).
  Open Scope fp_scope.
  Definition fpw (x : Fp p) (n : Z) : Fp p := fof p (fval x ^ n).
  Lemma fpw_add x m n : (0 <= m)%Z -> (0 <= n)%Z -> fpw x (m + n) = fpw x m * fpw x n.
  Proof. intros. unfold fpw. rewrite Z.pow_add_r by assumption. apply fof_mul. Qed.
  Lemma fpw_1 x : fpw x 1 = x.
  Proof. unfold fpw. rewrite Z.pow_1_r. apply fof_val. Qed.
  Lemma fpw_mul x y n : fpw (x * y) n = fpw x n * fpw y n.
  Proof.
    unfold fpw, fmul at 1. rewrite fval_of. rewrite <- fof_mul, <- Z.pow_mul_l. apply fof_eq.
    destruct (Z_lt_le_dec n 0) as [L|L]; [now rewrite !Z.pow_neg_r by assumption|].
    pose proof (prime_ge_2 p Hp). now rewrite <- Zpower_mod by lia.
  Qed.
  Variables h g : Z.
  Hypothesis Hh : (p - 1 = 4 * h)%Z.
  Hypothesis Hg : (2 * g = h + 1)%Z.
  Hypothesis two_nonres : fpw %2 (2 * h) = - %1.
  Let hpos : (0 <= h)%Z.
  Proof. pose proof (prime_ge_2 p Hp). lia. Qed.
  Let gpos : (0 <= g)%Z.
  Proof. lia. Qed.
  Lemma pm1 (x : Fp p) : x * x = %1 -> x = %1 \/ x = - %1.
  Proof.
    intros E. assert (T : (%1 - x) * (- %1 - x) = %0).
    { transitivity (x * x - %1); [ring|rewrite E; ring]. }
    destruct (fmul_0 p Hp _ _ T) as [H|H]; apply (sub_0 p Hp) in H; auto.
  Qed.
  Lemma fpw_fermat (z : Fp p) : z <> %0 -> fpw z (p - 1) = %1.
  Proof.
    intros N. unfold fpw. apply fof_eq. rewrite fermat_little; [|assumption|].
    - pose proof (prime_ge_2 p Hp). now rewrite Z.mod_small by lia.
    - intros D. apply N. apply fval_inj. rewrite fval_of. apply Znumtheory.Zdivide_mod in D.
      rewrite fval_mod in D. now rewrite D.
  Qed.
  Lemma half (z : Fp p) : z <> %0 -> fpw z (2 * h) = %1 \/ fpw z (2 * h) = - %1.
  Proof.
    intros N. apply pm1. rewrite <- fpw_add by lia. replace (2 * h + 2 * h)%Z with (p - 1)%Z by lia. now apply fpw_fermat.
  Qed.
  Lemma sqrt_of_residue (z : Fp p) : fpw z (2 * h) = %1 -> exists w, w * w = z.
  Proof.
    intros E.
    assert (Q : fpw z h = %1 \/ fpw z h = - %1) by (apply pm1; rewrite <- fpw_add by lia; now replace (h + h)%Z with (2 * h)%Z by lia).
    assert (G : fpw z g * fpw z g = fpw z h * z).
    { rewrite <- fpw_add by lia. replace (g + g)%Z with (h + 1)%Z by lia. rewrite fpw_add by lia. now rewrite fpw_1. }
    destruct Q as [Q|Q]; rewrite Q in G.
    - exists (fpw z g). rewrite G. ring.
    - exists (fpw z g * fpw %2 h). transitivity (fpw z g * fpw z g * (fpw %2 h * fpw %2 h)); [ring|].
      rewrite <- (fpw_add %2) by lia. replace (h + h)%Z with (2 * h)%Z by lia. rewrite two_nonres, G. ring.
  Qed.
  (** every residue is a square or twice a square *)
  Lemma square_or_twice (z : Fp p) : exists y, z = y * y \/ z = %2 * (y * y).
  Proof.
    destruct (feqb_spec p z %0) as [->|N]; [exists %0; left; ring|].
    destruct (half z N) as [E|E].
    - destruct (sqrt_of_residue z E) as [w <-]. exists w. now left.
    - assert (T : fof p 2 <> %0).
      { intros T. assert (W : fpw %2 (2 * h) = %0) by (rewrite T; unfold fpw; rewrite fval_of, Zmod_0_l, Z.pow_0_l by (pose proof (prime_ge_2 p Hp); lia); reflexivity).
        rewrite two_nonres in W. apply (F_1_neq_0 (fp_field p Hp)). transitivity (- - (fof p 1)); [ring|rewrite W; ring]. }
      destruct (sqrt_of_residue (%2 * z)) as [w Hw].
      { rewrite fpw_mul, E, two_nonres. ring. }
      exists (w / %2). right. transitivity (%2 * z / %2); [field; exact T|]. rewrite <- Hw. field. exact T.
  Qed.
End Sqrt.
