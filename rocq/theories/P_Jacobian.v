(** Jacobian coordinates on y^2 = x^3 - 3x + c over a prime field. *)
From Coq Require Import ZArith Znumtheory Field Lia Bool List.
From Verif Require Import P_Prime P_Mod S_Curve P_Curve.
Import ListNotations.
Open Scope Z_scope.

Section Jac.
  Variable p : Z.
  Hypothesis Hp : prime p.
  Hypothesis p_odd : p <> 2.
  Add Field Fpj : (fp_field p Hp) (morphism (fp_morph p), constants [fp_const]).
  Open Scope fp_scope.
  Variable c : Fp p.
  Notation on := (on_curve p %0 (- %3) c %1).
  Notation add := (padd p %0 (- %3) %1).
  Notation neg := (pneg p).
  Notation mul := (pmul p %0 (- %3) %1).
  Hypothesis nonsing : nonsingular p %0 (- %3) c.
  Let two : fof p 2 <> %0 := two_ne p Hp p_odd.
  Ltac fne := repeat (split || apply (fmul_ne p Hp) || apply two || assumption).
  Definition jpt : Type := (Fp p * Fp p * Fp p)%type.
  (** (x, y, z) are Jacobian coordinates of P *)
  Definition jrep (w : jpt) (P : point p) : Prop :=
    let '(x, y, z) := w in
    match P with Inf => z = %0 | Aff px py => z <> %0 /\ x = px * (z * z) /\ y = py * (z * (z * z)) end.
  Definition jdbl (w : jpt) : jpt :=
    let '(x1, y1, z1) := w in
    let delta := z1 * z1 in
    let gamma := y1 * y1 in
    let beta := x1 * gamma in
    let alpha := %3 * ((x1 - delta) * (x1 + delta)) in
    let x3 := alpha * alpha - %8 * beta in
    let z3 := (y1 + z1) * (y1 + z1) - (gamma + delta) in
    let y3 := alpha * (%4 * beta - x3) - %8 * (gamma * gamma) in
    (x3, y3, z3).
  (** the generic case *)
  Definition jadd (w1 w2 : jpt) : jpt :=
    let '(x1, y1, z1) := w1 in
    let '(x2, y2, z2) := w2 in
    let z1z1 := z1 * z1 in
    let z2z2 := z2 * z2 in
    let u1 := x1 * z2z2 in
    let u2 := x2 * z1z1 in
    let s1 := y1 * z2 * z2z2 in
    let s2 := y2 * z1 * z1z1 in
    let h := u2 - u1 in
    let i := %2 * h * (%2 * h) in
    let j := h * i in
    let r := %2 * (s2 - s1) in
    let v := u1 * i in
    let x3 := r * r - j - %2 * v in
    let y3 := r * (v - x3) - %2 * s1 * j in
    let z3 := ((z1 + z2) * (z1 + z2) - (z1z1 + z2z2)) * h in
    (x3, y3, z3).

  Lemma jdbl_rep w P : on P -> jrep w P -> jrep (jdbl w) (add P P).
  Proof.
    destruct w as [[x y] z]. destruct P as [|px py]; cbn [jrep]; intros O R.
    - subst z. cbn. ring.
    - destruct R as (Nz & -> & ->). destruct (feqb_spec p py %0) as [->|Ny].
      + replace (add (Aff px (fof p 0)) (Aff px (fof p 0))) with (@Inf p).
        * cbn. ring.
        * symmetry. replace (Aff px (fof p 0)) with (neg (Aff px (fof p 0))) at 2 by (cbn; f_equal; ring). now apply add_neg.
      + rewrite add_tang by assumption. cbn [jrep jdbl]. unfold lx, ly, tang, cubic', lx.
        split; [|split].
        * replace (_ - _) with (%2 * py * (z * z * (z * z))) by ring. fne.
        * field. fne.
        * field. fne.
  Qed.
  Lemma jadd_rep w1 w2 x1 y1 x2 y2 : x1 <> x2 -> jrep w1 (Aff x1 y1) -> jrep w2 (Aff x2 y2) ->
    jrep (jadd w1 w2) (add (Aff x1 y1) (Aff x2 y2)).
  Proof.
    destruct w1 as [[X1 Y1] z1]. destruct w2 as [[X2 Y2] z2]. cbn [jrep]. intros N (N1 & -> & ->) (N2 & -> & ->).
    rewrite add_chord by assumption. cbn [jrep jadd]. unfold lx, ly, chord, lx.
    assert (D : x2 - x1 <> %0) by (apply (sub_ne p Hp); congruence).
    split; [|split].
    - replace (_ * _) with (%2 * (z1 * z2) * (z1 * z1 * (z2 * z2)) * (x2 - x1)) by ring. fne.
    - field. fne.
    - field. fne.
  Qed.
  (** the tests made by the code on the cross-multiplied coordinates *)
  Lemma u_eq X1 Y1 z1 X2 Y2 z2 x1 y1 x2 y2 : jrep (X1, Y1, z1) (Aff x1 y1) -> jrep (X2, Y2, z2) (Aff x2 y2) ->
    (X1 * (z2 * z2) = X2 * (z1 * z1) <-> x1 = x2).
  Proof.
    cbn [jrep]. intros (N1 & -> & ->) (N2 & -> & ->). split.
    - intros E. symmetry. apply (sub_0 p Hp). apply (cancel_den p Hp (z1 * z1 * (z2 * z2))); [fne|].
      transitivity (x1 * (z1 * z1) * (z2 * z2) - x2 * (z2 * z2) * (z1 * z1)); [ring|rewrite E; ring].
    - intros ->. ring.
  Qed.
  Lemma s_eq X1 Y1 z1 X2 Y2 z2 x1 y1 x2 y2 : jrep (X1, Y1, z1) (Aff x1 y1) -> jrep (X2, Y2, z2) (Aff x2 y2) ->
    (Y1 * z2 * (z2 * z2) = Y2 * z1 * (z1 * z1) <-> y1 = y2).
  Proof.
    cbn [jrep]. intros (N1 & -> & ->) (N2 & -> & ->). split.
    - intros E. symmetry. apply (sub_0 p Hp). apply (cancel_den p Hp (z1 * z1 * z1 * (z2 * z2 * z2))); [fne|].
      match type of E with ?L = ?R => transitivity (L - R); [ring|rewrite E; ring] end.
    - intros ->. ring.
  Qed.
  (** affine coordinates; (0, 0) for infinity *)
  Definition jaff (w : jpt) : Fp p * Fp p :=
    let '(x, y, z) := w in (x * finv (z * z), y * finv (z * (z * z))).
  Definition acoord (P : point p) : Fp p * Fp p := match P with Inf => (%0, %0) | Aff x y => (x, y) end.
  Lemma jaff_rep w P : jrep w P -> jaff w = acoord P.
  Proof.
    assert (F0 : finv (fof p 0) = %0).
    { apply fval_inj. unfold finv. rewrite !fval_of, Zmod_0_l. pose proof (prime_ge_2 p Hp).
      rewrite Z.pow_0_l by lia. now rewrite Zmod_0_l. }
    destruct w as [[x y] z]. destruct P as [|px py]; cbn [jrep jaff acoord].
    - intros ->. replace (fof p 0 * fof p 0) with (fof p 0) by ring. replace (fof p 0 * fof p 0) with (fof p 0) by ring.
      rewrite F0. f_equal; ring.
    - intros (N & -> & ->). f_equal; field; exact N.
  Qed.
End Jac.
