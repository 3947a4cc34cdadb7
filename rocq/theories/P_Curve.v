(** Residues modulo a prime are a field, and the chord-and-tangent sum makes the points of a
    non-singular cubic an abelian group. *)
From Coq Require Import ZArith Znumtheory Field Lia Bool Eqdep_dec.
From Verif Require Import P_Prime P_Mod S_Curve.
Open Scope Z_scope.

Lemma fval_inj p (x y : Fp p) : fval x = fval y -> x = y.
Proof.
  destruct x as [x Hx], y as [y Hy]. cbn. intros <-. f_equal. apply (UIP_dec bool_dec).
Qed.
Lemma fval_of p x : fval (fof p x) = x mod p.
Proof. reflexivity. Qed.
Lemma fval_mod p (x : Fp p) : fval x mod p = fval x.
Proof. destruct x as [x Hx]. cbn. now apply Z.eqb_eq. Qed.
Lemma fof_val p (x : Fp p) : fof p (fval x) = x.
Proof. apply fval_inj. rewrite fval_of. apply fval_mod. Qed.
Lemma fof_eq p x y : x mod p = y mod p -> fof p x = fof p y.
Proof. intros H. apply fval_inj. now rewrite !fval_of. Qed.
Lemma fof_inj p x y : fof p x = fof p y -> x mod p = y mod p.
Proof. intros H. apply (f_equal fval) in H. now rewrite !fval_of in H. Qed.
Lemma fval_range p (x : Fp p) : 0 < p -> 0 <= fval x < p.
Proof. intros H. rewrite <- fval_mod. apply Z.mod_pos_bound. lia. Qed.
Lemma fof_add p x y : fof p (x + y) = fadd (fof p x) (fof p y).
Proof. apply fof_eq. rewrite !fval_of. now rewrite Zplus_mod. Qed.
Lemma fof_mul p x y : fof p (x * y) = fmul (fof p x) (fof p y).
Proof. apply fof_eq. rewrite !fval_of. now rewrite Zmult_mod. Qed.
Lemma fof_sub p x y : fof p (x - y) = fsub (fof p x) (fof p y).
Proof. apply fof_eq. rewrite !fval_of. now rewrite Zminus_mod. Qed.
Lemma fof_opp p x : fof p (- x) = fopp (fof p x).
Proof. apply fof_eq. rewrite fval_of, <- (Z.sub_0_l (x mod p)), <- (Z.sub_0_l x). symmetry. apply Zminus_mod_idemp_r. Qed.
Lemma fof_mod p x : fof p (x mod p) = fof p x.
Proof. apply fof_eq. apply Zmod_mod. Qed.
Lemma feqb_spec p (x y : Fp p) : reflect (x = y) (feqb x y).
Proof.
  unfold feqb. destruct (Z.eqb_spec (fval x) (fval y)) as [E|N]; constructor.
  - now apply fval_inj.
  - now intros ->.
Qed.

Section Group.
  Variable p : Z.
  Hypothesis Hp : prime p.
  Let p2 : 2 <= p := prime_ge_2 p Hp.

  Lemma fmul_inv (x : Fp p) : x <> fof p 0 -> fmul (finv x) x = fof p 1.
  Proof.
    intros H. unfold fmul, finv. rewrite fval_of. apply fof_eq. rewrite Z.mul_mod_idemp_l by lia.
    replace (fval x ^ (p - 2) * fval x) with (fval x ^ (p - 1)).
    2: { replace (p - 1) with (Z.succ (p - 2)) by lia. rewrite Z.pow_succ_r by lia. ring. }
    rewrite fermat_little; [now rewrite Z.mod_small by lia|assumption|].
    intros D. apply H. apply fval_inj. rewrite fval_of. apply Znumtheory.Zdivide_mod in D.
    rewrite fval_mod in D. now rewrite D.
  Qed.
  Lemma fp_field : field_theory (fof p 0) (fof p 1) fadd fmul fsub fopp fdiv finv eq.
  Proof.
    assert (M : forall x : Fp p, exists z, x = fof p z) by (intros x; exists (fval x); now rewrite fof_val).
    split; [split| | |].
    - intros x. destruct (M x) as [z ->]. now rewrite <- fof_add.
    - intros x y. destruct (M x) as [z ->], (M y) as [w ->]. rewrite <- !fof_add. f_equal. ring.
    - intros x y t. destruct (M x) as [z ->], (M y) as [w ->], (M t) as [v ->]. rewrite <- !fof_add. f_equal. ring.
    - intros x. destruct (M x) as [z ->]. rewrite <- fof_mul. f_equal. ring.
    - intros x y. destruct (M x) as [z ->], (M y) as [w ->]. rewrite <- !fof_mul. f_equal. ring.
    - intros x y t. destruct (M x) as [z ->], (M y) as [w ->], (M t) as [v ->]. rewrite <- !fof_mul. f_equal. ring.
    - intros x y t. destruct (M x) as [z ->], (M y) as [w ->], (M t) as [v ->].
      rewrite <- !fof_mul, <- !fof_add, <- !fof_mul. f_equal. ring.
    - intros x y. destruct (M x) as [z ->], (M y) as [w ->]. rewrite <- fof_opp, <- fof_add, <- fof_sub. f_equal. 
    - intros x. destruct (M x) as [z ->]. rewrite <- fof_opp, <- fof_add. f_equal. ring.
    - intros E. apply fof_inj in E. rewrite !Z.mod_small in E by lia. lia.
    - reflexivity.
    - exact fmul_inv.
  Qed.
  Lemma fp_morph : ring_morph (fof p 0) (fof p 1) fadd fmul fsub fopp eq 0 1 Z.add Z.mul Z.sub Z.opp Z.eqb (fof p).
  Proof.
    split; try reflexivity.
    - apply fof_add.
    - apply fof_sub.
    - apply fof_mul.
    - apply fof_opp.
    - intros x y E. apply Z.eqb_eq in E. now subst.
  Qed.
End Group.

Ltac fp_const t :=
  lazymatch t with
  | fof _ ?z => lazymatch isZcst z with true => z | _ => constr:(InitialRing.NotConstant) end
  | _ => constr:(InitialRing.NotConstant)
  end.

Section Law.
  Variable p : Z.
  Hypothesis Hp : prime p.
  Hypothesis p_odd : p <> 2.
  Add Field Fpf : (fp_field p Hp) (morphism (fp_morph p), constants [fp_const]).
  Open Scope fp_scope.
  Lemma two_ne : fof p 2 <> %0.
  Proof.
    intros E. apply fof_inj in E. pose proof (prime_ge_2 p Hp). rewrite !Z.mod_small in E by lia. lia.
  Qed.
  Lemma fmul_0 (x y : Fp p) : x * y = %0 -> x = %0 \/ y = %0.
  Proof.
    intros E. destruct (feqb_spec p x %0) as [X|X]; [now left|right].
    replace y with (finv x * (x * y)) by (field; assumption). rewrite E. ring.
  Qed.

  Lemma sub_ne (x y : Fp p) : x <> y -> y - x <> %0.
  Proof. intros N E. apply N. replace x with (y - (y - x)) by ring. rewrite E. ring. Qed.
  Lemma ne_of_sub (x y : Fp p) : y - x <> %0 -> x <> y.
  Proof. intros N ->. apply N. ring. Qed.
  Lemma sub_0 (x y : Fp p) : y - x = %0 -> x = y.
  Proof. intros E. replace x with (y - (y - x)) by ring. rewrite E. ring. Qed.
  Lemma double_0 (x : Fp p) : x = - x -> x = %0.
  Proof.
    intros E. assert (T : %2 * x = %0) by (replace (%2 * x) with (x - - x) by ring; rewrite <- E; ring).
    destruct (fmul_0 _ _ T) as [H|H]; [now apply two_ne in H|exact H].
  Qed.

  (** ** Identities between rational functions *)
  (** the coefficients of the curve through two points of different abscissa *)
  Lemma solve_c (a b c d x1 y1 : Fp p) : d * (y1 * y1) = cubic p a b c x1 ->
    c = d * (y1 * y1) - (x1 * x1 * x1 + a * (x1 * x1) + b * x1).
  Proof. intros E. rewrite E. unfold cubic. ring. Qed.
  Lemma solve_b (a b c d x1 y1 x2 y2 : Fp p) : x2 - x1 <> %0 ->
    d * (y1 * y1) = cubic p a b c x1 -> d * (y2 * y2) = cubic p a b c x2 ->
    b = d * (y2 * y2 - y1 * y1) / (x2 - x1) - (x2 * x2 + x1 * x2 + x1 * x1) - a * (x1 + x2).
  Proof.
    intros N E1 E2. replace (d * (y2 * y2 - y1 * y1)) with (d * (y2 * y2) - d * (y1 * y1)) by ring.
    rewrite E1, E2. unfold cubic. field. exact N.
  Qed.
  Lemma solve_a (a b c d x1 y1 x2 y2 x3 y3 : Fp p) : x2 - x1 <> %0 -> x3 - x2 <> %0 -> x3 - x1 <> %0 ->
    d * (y1 * y1) = cubic p a b c x1 -> d * (y2 * y2) = cubic p a b c x2 -> d * (y3 * y3) = cubic p a b c x3 ->
    a = ((d * (y3 * y3 - y2 * y2) / (x3 - x2) - (x3 * x3 + x2 * x3 + x2 * x2))
        - (d * (y2 * y2 - y1 * y1) / (x2 - x1) - (x2 * x2 + x1 * x2 + x1 * x1))) / (x3 - x1).
  Proof.
    intros N N' N'' E1 E2 E3.
    replace (d * (y2 * y2 - y1 * y1)) with (d * (y2 * y2) - d * (y1 * y1)) by ring.
    replace (d * (y3 * y3 - y2 * y2)) with (d * (y3 * y3) - d * (y2 * y2)) by ring.
    rewrite E1, E2, E3. unfold cubic. field. auto.
  Qed.

  Definition lx (a d l x1 x2 : Fp p) : Fp p := d * (l * l) - a - x1 - x2.
  Definition ly (a d l x1 y1 x2 : Fp p) : Fp p := l * (x1 - lx a d l x1 x2) - y1.
  (** slopes of chords and tangents *)
  Definition chord (x1 y1 x2 y2 : Fp p) : Fp p := (y2 - y1) / (x2 - x1).
  Definition tang (a b d x y : Fp p) : Fp p := cubic' p a b x / (%2 * d * y).

  Lemma fmul_ne (x y : Fp p) : x <> %0 -> y <> %0 -> x * y <> %0.
  Proof. intros X Y E. destruct (fmul_0 _ _ E); contradiction. Qed.
  Lemma cancel_den (den x : Fp p) : den <> %0 -> x * den = %0 -> x = %0.
  Proof. intros N E. destruct (fmul_0 _ _ E); [assumption|contradiction]. Qed.
  Ltac fne := repeat (split || apply fmul_ne || apply two_ne || assumption).
  Ltac fside N den := let Z := fresh in intros Z; apply N; apply (cancel_den den);
    [fne | refine (eq_trans _ Z); field; fne].
  (** (A+B)+C = A+(B+C), all four sums by chords *)
  Lemma assoc_chords_id (d u v l m y2 t : Fp p) : v - u <> %0 ->
    let x1 := t + u in let x2 := t in let x3 := t + v in
    let y1 := y2 + l * u in let y3 := y2 + m * v in
    let a := (d * m * (%2 * y2 + m * v) - v * v - d * l * (%2 * y2 + l * u) + u * u) / (v - u) - %3 * t in
    let x4 := lx a d l x1 x2 in let y4 := ly a d l x1 y1 x2 in
    let x5 := lx a d m x2 x3 in let y5 := ly a d m x2 y2 x3 in
    x3 - x4 <> %0 -> x5 - x1 <> %0 ->
    let l6 := chord x4 y4 x3 y3 in let l7 := chord x1 y1 x5 y5 in
    lx a d l6 x4 x3 = lx a d l7 x1 x5 /\ ly a d l6 x4 y4 x3 = ly a d l7 x1 y1 x5.
  Proof.
    intros N13. cbv zeta. unfold ly, lx, chord. intros N4 N5.
    split; field; repeat split; try assumption.
    all: try (fside N4 (v - u)).
    all: try (fside N5 (v - u)).
  Qed.
  Lemma assoc_chords (a b c d x1 y1 x2 y2 x3 y3 : Fp p) : x2 - x1 <> %0 -> x3 - x2 <> %0 -> x3 - x1 <> %0 ->
    d * (y1 * y1) = cubic p a b c x1 -> d * (y2 * y2) = cubic p a b c x2 -> d * (y3 * y3) = cubic p a b c x3 ->
    let l := chord x1 y1 x2 y2 in let x4 := lx a d l x1 x2 in let y4 := ly a d l x1 y1 x2 in
    let m := chord x2 y2 x3 y3 in let x5 := lx a d m x2 x3 in let y5 := ly a d m x2 y2 x3 in
    x3 - x4 <> %0 -> x5 - x1 <> %0 ->
    let l6 := chord x4 y4 x3 y3 in let l7 := chord x1 y1 x5 y5 in
    lx a d l6 x4 x3 = lx a d l7 x1 x5 /\ ly a d l6 x4 y4 x3 = ly a d l7 x1 y1 x5.
  Proof.
    intros N12 N23 N13 E1 E2 E3. pose proof (solve_a _ _ _ _ _ _ _ _ _ _ N12 N23 N13 E1 E2 E3) as Ea.
    clear E1 E2 E3. intros l x4 y4 m x5 y5.
    assert (X1 : x1 = x2 + (x1 - x2)) by ring. assert (X3 : x3 = x2 + (x3 - x2)) by ring.
    assert (Y1 : y1 = y2 + l * (x1 - x2)) by (unfold l, chord; field; exact N12).
    assert (Y3 : y3 = y2 + m * (x3 - x2)) by (unfold m, chord; field; exact N23).
    assert (A : a = (d * m * (%2 * y2 + m * (x3 - x2)) - (x3 - x2) * (x3 - x2) - d * l * (%2 * y2 + l * (x1 - x2))
      + (x1 - x2) * (x1 - x2)) / ((x3 - x2) - (x1 - x2)) - %3 * x2).
    { rewrite Ea. unfold m, l, chord. field. assert (x3 - x2 - (x1 - x2) <> %0) by (replace (x3 - x2 - (x1 - x2)) with (x3 - x1) by ring; assumption).
      fne. }
    clear Ea. unfold x4, y4, x5, y5. clearbody l m. clear x4 y4 x5 y5.
    generalize dependent (x1 - x2). intros u X1 Y1. generalize dependent (x3 - x2). intros v N23 X3 Y3 A. subst x1 x3 y1 y3 a. intros N4 N5.
    apply assoc_chords_id; [|assumption..]. replace (v - u) with (x2 + v - (x2 + u)) by ring. exact N13.
  Qed.

  (** 2A+C = A+(A+C), the double by a tangent of slope m and the rest by chords *)
  Lemma assoc_tang1 (d u l m y1 t : Fp p) : u <> %0 ->
    let x1 := t in let x2 := t + u in let y2 := y1 + l * u in
    let a := (d * l * (%2 * y1 + l * u) - %2 * d * y1 * m) / u - u - %3 * t in
    let x4 := lx a d m x1 x1 in let y4 := ly a d m x1 y1 x1 in
    let x5 := lx a d l x1 x2 in let y5 := ly a d l x1 y1 x2 in
    x2 - x4 <> %0 -> x5 - x1 <> %0 ->
    let l6 := chord x4 y4 x2 y2 in let l7 := chord x1 y1 x5 y5 in
    lx a d l6 x4 x2 = lx a d l7 x1 x5 /\ ly a d l6 x4 y4 x2 = ly a d l7 x1 y1 x5.
  Proof.
    intros N. cbv zeta. unfold ly, lx, chord. intros N4 N5.
    split; field; repeat split; try assumption.
    all: try (fside N4 u).
    all: try (fside N5 u).
  Qed.
  (** 2A+2A = A+(A+2A); w is the difference of the abscissas of 2A and A *)
  Lemma assoc_tang2 (d w m y1 t : Fp p) : d <> %0 -> w <> %0 ->
    let x1 := t in let a := d * (m * m) - %3 * t - w in
    let b := %2 * d * y1 * m - (%3 * (t * t) + %2 * a * t) in
    let x4 := lx a d m x1 x1 in let y4 := ly a d m x1 y1 x1 in
    y4 <> %0 ->
    let l := chord x1 y1 x4 y4 in let x5 := lx a d l x1 x4 in let y5 := ly a d l x1 y1 x4 in
    x5 - x1 <> %0 ->
    let l6 := tang a b d x4 y4 in let l7 := chord x1 y1 x5 y5 in
    lx a d l6 x4 x4 = lx a d l7 x1 x5 /\ ly a d l6 x4 y4 x4 = ly a d l7 x1 y1 x5.
  Proof.
    intros Hd N. cbv zeta. unfold ly, lx, chord, tang, cubic'. intros Ny N5.
    assert (Nw : d * (m * m) - (d * (m * m) - %3 * t - w) - t - t - t <> %0)
      by (match goal with |- ?e <> _ => replace e with w by ring end; assumption).
    split; field; repeat split; try assumption; try apply two_ne.
    all: fside N5 ((d * (m * m) - (d * (m * m) - %3 * t - w) - t - t - t) * (d * (m * m) - (d * (m * m) - %3 * t - w) - t - t - t)).
  Qed.
  (** (C-B)+(C+B) = 2C *)
  Lemma assoc_mid (d u l m y1 t : Fp p) : u <> %0 ->
    let x1 := t in let x2 := t + u in let y2 := y1 + l * u in
    let a := (d * l * (%2 * y1 + l * u) - %2 * d * y1 * m) / u - u - %3 * t in
    let x3 := lx a d l x1 x2 in let y3 := ly a d l x1 y1 x2 in
    let l' := chord x1 y1 x2 (- y2) in
    let x4 := lx a d l' x1 x2 in let y4 := ly a d l' x1 y1 x2 in
    x3 - x4 <> %0 ->
    let l5 := chord x4 y4 x3 y3 in
    lx a d l5 x4 x3 = lx a d m x1 x1 /\ ly a d l5 x4 y4 x3 = ly a d m x1 y1 x1.
  Proof.
    intros N. cbv zeta. unfold ly, lx, chord. intros N3.
    assert (Nu : t + u - t <> %0) by (replace (t + u - t) with u by ring; assumption).
    split; field; repeat split; try assumption.
    all: fside N3 (u * ((t + u - t) * (t + u - t))).
  Qed.
  (** 2(C+B) = 2C when 2B = O *)
  Lemma assoc_tor (d u l m t : Fp p) : d <> %0 -> u <> %0 ->
    let x1 := t in let y1 := - (l * u) in let x2 := t + u in
    let a := (d * l * (%2 * y1 + l * u) - %2 * d * y1 * m) / u - u - %3 * t in
    let b := %2 * d * y1 * m - (%3 * (t * t) + %2 * a * t) in
    let x3 := lx a d l x1 x2 in let y3 := ly a d l x1 y1 x2 in
    y3 <> %0 ->
    let l5 := tang a b d x3 y3 in
    lx a d l5 x3 x3 = lx a d m x1 x1 /\ ly a d l5 x3 y3 x3 = ly a d m x1 y1 x1.
  Proof.
    intros Hd N. cbv zeta. unfold ly, lx, chord, tang, cubic'. intros N3.
    split; field; repeat split; try assumption; try apply two_ne.
    all: fside N3 u.
  Qed.

  (** ** The group *)
  Variables a b c d : Fp p.
  Hypothesis d_ne : d <> %0.
  Hypothesis nonsing : nonsingular p a b c.
  Notation on := (on_curve p a b c d).
  Notation add := (padd p a b d).
  Notation neg := (pneg p).
  Notation f' := (cubic' p a b).

  Lemma neg_neg P : neg (neg P) = P.
  Proof. destruct P as [|x y]; cbn; [reflexivity|]. f_equal. ring. Qed.
  Lemma on_neg P : on P -> on (neg P).
  Proof. destruct P as [|x y]; cbn; [trivial|]. intros <-. ring. Qed.
  Lemma add_inf_l P : add Inf P = P.
  Proof. reflexivity. Qed.
  Lemma add_inf_r P : add P Inf = P.
  Proof. now destruct P. Qed.
  Lemma feqb_refl (x : Fp p) : (x =? x) = true.
  Proof. destruct (feqb_spec p x x); congruence. Qed.
  Lemma feqb_ne (x y : Fp p) : x <> y -> (x =? y) = false.
  Proof. destruct (feqb_spec p x y); congruence. Qed.
  Lemma add_neg P : add P (neg P) = Inf.
  Proof.
    destruct P as [|x y]; cbn; [reflexivity|]. rewrite feqb_refl. replace (- - y) with y by ring. now rewrite feqb_refl.
  Qed.
  Lemma add_neg_l P : add (neg P) P = Inf.
  Proof. rewrite <- (neg_neg P) at 2. apply add_neg. Qed.
  Lemma add_chord x1 y1 x2 y2 : x1 <> x2 -> let l := chord x1 y1 x2 y2 in
    add (Aff x1 y1) (Aff x2 y2) = Aff (lx a d l x1 x2) (ly a d l x1 y1 x2).
  Proof. intros N l. cbn. now rewrite feqb_ne by assumption. Qed.
  Lemma add_tang x y : y <> %0 -> let l := tang a b d x y in
    add (Aff x y) (Aff x y) = Aff (lx a d l x x) (ly a d l x y x).
  Proof.
    intros N l. cbn. rewrite feqb_refl. rewrite feqb_ne; [reflexivity|]. intros E. apply N. now apply double_0.
  Qed.
  (** two points with the same abscissa are equal or opposite *)
  Lemma same_x x y1 y2 : on (Aff x y1) -> on (Aff x y2) -> y2 = y1 \/ y2 = - y1.
  Proof.
    cbn. intros E1 E2.
    assert (T : d * ((y1 - y2) * (y2 - - y1)) = %0)
      by (replace (d * ((y1 - y2) * (y2 - - y1))) with (d * (y1 * y1) - d * (y2 * y2)) by ring; rewrite E1, E2; ring).
    destruct (fmul_0 _ _ T) as [H|H]; [contradiction|].
    destruct (fmul_0 _ _ H) as [G|G]; apply sub_0 in G; [left|right]; congruence.
  Qed.
  Lemma diff_x x1 y1 x2 y2 : on (Aff x1 y1) -> on (Aff x2 y2) -> Aff x1 y1 <> Aff x2 y2 ->
    Aff x1 y1 <> neg (Aff x2 y2) -> x1 <> x2.
  Proof.
    intros O1 O2 N1 N2 ->. destruct (same_x _ _ _ O1 O2) as [->| ->]; [now apply N1|].
    apply N2. cbn. f_equal. ring.
  Qed.
  Lemma point_dec (P Q : point p) : P = Q \/ P <> Q.
  Proof.
    destruct P as [|x y], Q as [|x' y']; try (now left); try (right; discriminate).
    destruct (feqb_spec p x x') as [->|N]; [|right; congruence].
    destruct (feqb_spec p y y') as [->|N]; [now left|right; congruence].
  Qed.

  (** the line through two points of the curve that are not opposite *)
  Lemma secant x1 y1 x2 y2 : on (Aff x1 y1) -> on (Aff x2 y2) -> Aff x1 y1 <> neg (Aff x2 y2) ->
    exists l, add (Aff x1 y1) (Aff x2 y2) = Aff (lx a d l x1 x2) (ly a d l x1 y1 x2) /\
      y2 = y1 + l * (x2 - x1) /\ f' x2 = %2 * d * l * y2 + (x2 - x1) * (x2 - lx a d l x1 x2).
  Proof.
    intros O1 O2 N. destruct (feqb_spec p x1 x2) as [<-|Nx].
    - destruct (same_x _ _ _ O1 O2) as [->| ->]; [|exfalso; apply N; cbn; f_equal; ring].
      assert (Ny : y1 <> %0) by (intros ->; apply N; cbn; f_equal; ring).
      exists (tang a b d x1 y1). split; [now apply add_tang|]. split; [ring|].
      unfold tang. field. fne.
    - exists (chord x1 y1 x2 y2). split; [now apply add_chord|]. apply sub_ne in Nx. split; [unfold chord; field; assumption|].
      cbn in O1, O2. pose proof (solve_b _ _ _ _ _ _ _ _ Nx O1 O2) as Eb. unfold cubic', lx, chord. rewrite Eb at 1. field. assumption.
  Qed.
  Lemma secant_on x1 y1 x2 y2 l : on (Aff x1 y1) -> y2 = y1 + l * (x2 - x1) ->
    on (Aff x2 y2) -> f' x2 = %2 * d * l * y2 + (x2 - x1) * (x2 - lx a d l x1 x2) ->
    on (Aff (lx a d l x1 x2) (ly a d l x1 y1 x2)).
  Proof.
    intros O1 E O2 F. cbn in *. pose proof (solve_c _ _ _ _ _ _ O2) as Ec.
    assert (Eb : b = %2 * d * l * y2 + (x2 - x1) * (x2 - lx a d l x1 x2) - %3 * (x2 * x2) - %2 * a * x2)
      by (rewrite <- F; unfold cubic'; ring).
    unfold cubic. rewrite Ec. rewrite Eb. rewrite E. unfold ly, lx. ring.
  Qed.
  Lemma on_add P Q : on P -> on Q -> on (add P Q).
  Proof.
    intros OP OQ. destruct P as [|x1 y1]; [exact OQ|]. destruct Q as [|x2 y2]; [exact OP|].
    destruct (point_dec (Aff x1 y1) (neg (Aff x2 y2))) as [E|N]; [rewrite E, add_neg_l; exact I|].
    destruct (secant _ _ _ _ OP OQ N) as (l & -> & E & G). now apply (secant_on x1 y1 x2 y2).
  Qed.
  Lemma add_comm P Q : on P -> on Q -> add P Q = add Q P.
  Proof.
    intros OP OQ. destruct P as [|x1 y1]; [now rewrite add_inf_r|]. destruct Q as [|x2 y2]; [reflexivity|].
    destruct (feqb_spec p x1 x2) as [<-|N].
    - destruct (same_x _ _ _ OP OQ) as [->| ->]; [reflexivity|].
      transitivity (@Inf p); [apply (add_neg (Aff x1 y1))|symmetry; apply (add_neg_l (Aff x1 y1))].
    - rewrite !add_chord by congruence. pose proof (sub_ne _ _ N) as N1. assert (N2 : x1 - x2 <> %0) by (apply sub_ne; congruence).
      unfold ly, lx, chord. f_equal; field; fne.
  Qed.
  Lemma neg_add P Q : on P -> on Q -> neg (add P Q) = add (neg P) (neg Q).
  Proof.
    intros OP OQ. destruct P as [|x1 y1]; [reflexivity|]. destruct Q as [|x2 y2]; [reflexivity|].
    destruct (feqb_spec p x1 x2) as [<-|N].
    - destruct (same_x _ _ _ OP OQ) as [->| ->].
      + destruct (feqb_spec p y1 %0) as [->|Ny].
        * replace (Aff x1 %0) with (neg (Aff x1 %0)) at 2 by (cbn; f_equal; ring). rewrite add_neg.
          replace (neg (Aff x1 %0)) with (Aff x1 %0) by (cbn; f_equal; ring).
          replace (Aff x1 %0) with (neg (Aff x1 %0)) at 2 by (cbn; f_equal; ring). now rewrite add_neg.
        * cbn [pneg]. rewrite !add_tang; [|intros E; apply Ny; replace y1 with (- - y1) by ring; rewrite E; ring|assumption].
          assert (- y1 <> %0) by (intros E; apply Ny; replace y1 with (- - y1) by ring; rewrite E; ring).
          cbn [pneg]. unfold ly, lx, tang. f_equal; field; fne.
      + replace (Aff x1 (- y1)) with (neg (Aff x1 y1)) by reflexivity. now rewrite !add_neg.
    - cbn [pneg]. rewrite !add_chord by assumption. apply sub_ne in N. cbn [pneg]. unfold ly, lx, chord. f_equal; field; fne.
  Qed.
  Lemma add_cancel P Q : on P -> on Q -> add (add P Q) (neg Q) = P.
  Proof.
    intros OP OQ. destruct P as [|x1 y1]; [apply add_neg|]. destruct Q as [|x2 y2]; [reflexivity|].
    destruct (point_dec (Aff x1 y1) (neg (Aff x2 y2))) as [E|N]; [now rewrite E, add_neg_l|].
    destruct (secant _ _ _ _ OP OQ N) as (l & -> & E & G). set (x3 := lx a d l x1 x2) in *.
    assert (Y : ly a d l x1 y1 x2 = l * (x2 - x3) - y2) by (unfold ly; fold x3; rewrite E; ring).
    destruct (feqb_spec p x3 x2) as [X|X].
    - rewrite Y, X. replace (l * (x2 - x2) - y2) with (- y2) by ring.
      assert (G' : f' x2 = %2 * d * l * y2) by (rewrite G, X; ring).
      assert (Ny : y2 <> %0).
      { intros Z. apply (nonsing x2); [cbn in OQ; rewrite <- OQ, Z; ring|rewrite G', Z; ring]. }
      assert (Ny' : - y2 <> %0) by (intros Z; apply Ny; replace y2 with (- - y2) by ring; rewrite Z; ring).
      cbn [pneg]. rewrite add_tang by assumption.
      assert (T : tang a b d x2 (- y2) = - l) by (unfold tang; rewrite G'; field; fne).
      rewrite T. assert (X1 : lx a d (- l) x2 x2 = x1).
      { unfold lx. unfold x3, lx in X. replace x2 with (d * (l * l) - a - x1 - x2) at 2 by exact X. ring. }
      unfold ly. rewrite X1. f_equal. rewrite E. ring.
    - cbn [pneg]. rewrite add_chord by assumption.
      assert (T : chord x3 (ly a d l x1 y1 x2) x2 (- y2) = - l).
      { unfold chord. rewrite Y. field. now apply sub_ne. }
      rewrite T. assert (X1 : lx a d (- l) x3 x2 = x1) by (unfold lx, x3; unfold lx; ring).
      unfold ly at 1. rewrite X1. f_equal. unfold ly. fold x3. ring.
  Qed.
  Lemma add_cancel_l P Q : on P -> on Q -> add (neg P) (add P Q) = Q.
  Proof.
    intros OP OQ. rewrite (add_comm P Q), add_comm; auto using on_neg, on_add. now apply add_cancel.
  Qed.
  Lemma add_inj_r P Q R : on P -> on Q -> on R -> add P R = add Q R -> P = Q.
  Proof. intros OP OQ OR E. rewrite <- (add_cancel P R), <- (add_cancel Q R) by assumption. now rewrite E. Qed.
  Lemma add_eq_inf P Q : on P -> on Q -> add P Q = Inf -> P = neg Q.
  Proof. intros OP OQ E. rewrite <- (add_cancel P Q) by assumption. now rewrite E. Qed.
  Lemma add_eq_r P Q : on P -> on Q -> add P Q = Q -> P = Inf.
  Proof. intros OP OQ E. rewrite <- (add_cancel P Q) by assumption. rewrite E. apply add_neg. Qed.
  Lemma neg_y0 x y : Aff x y = neg (Aff x y) -> y = %0.
  Proof. cbn. intros E. injection E as E. now apply double_0. Qed.

  Lemma tang_slope x y : y <> %0 -> %2 * d * y * tang a b d x y = f' x.
  Proof. intros N. unfold tang. field. fne. Qed.
  Lemma chord_y x1 y1 x2 y2 : x1 <> x2 -> y2 = y1 + chord x1 y1 x2 y2 * (x2 - x1).
  Proof. intros N. unfold chord. field. now apply sub_ne. Qed.
  (** the coefficient a in terms of a tangent and a chord *)
  Lemma a_of_tang_chord x1 y1 x2 y2 : on (Aff x1 y1) -> on (Aff x2 y2) -> x1 <> x2 -> y1 <> %0 ->
    let u := x2 - x1 in let l := chord x1 y1 x2 y2 in let m := tang a b d x1 y1 in
    a = (d * l * (%2 * y1 + l * u) - %2 * d * y1 * m) / u - u - %3 * x1.
  Proof.
    intros O1 O2 N Ny. cbv zeta. rewrite tang_slope by assumption.
    assert (E : d * chord x1 y1 x2 y2 * (%2 * y1 + chord x1 y1 x2 y2 * (x2 - x1))
      = (cubic p a b c x2 - cubic p a b c x1) / (x2 - x1)).
    { cbn in O1, O2. rewrite <- O1, <- O2. unfold chord. field. now apply sub_ne. }
    rewrite E. unfold cubic, cubic'. field. now apply sub_ne.
  Qed.

  (** 2A + C = A + (A + C) *)
  Lemma dbl_assoc A C : on A -> on C -> add (add A A) C = add A (add A C).
  Proof.
    intros OA OC. destruct A as [|x1 y1]; [reflexivity|]. destruct C as [|x2 y2]; [now rewrite !add_inf_r|].
    destruct (point_dec (Aff x1 y1) (Aff x2 y2)) as [E|NE].
    { rewrite <- E. apply add_comm; auto using on_add. }
    destruct (point_dec (Aff x1 y1) (neg (Aff x2 y2))) as [E|NE'].
    { assert (EC : Aff x2 y2 = neg (Aff x1 y1)) by (rewrite E; now rewrite neg_neg). rewrite EC, add_neg.
      now apply add_cancel. }
    destruct (point_dec (Aff x1 y1) (neg (Aff x1 y1))) as [E|N2].
    { rewrite E at 2. rewrite add_neg. rewrite E. rewrite <- E at 2. symmetry. now apply add_cancel_l. }
    destruct (point_dec (add (Aff x1 y1) (Aff x1 y1)) (neg (Aff x2 y2))) as [E|N3].
    { rewrite E, add_neg_l. assert (EC : Aff x2 y2 = neg (add (Aff x1 y1) (Aff x1 y1))) by (rewrite E; now rewrite neg_neg).
      rewrite EC, neg_add by assumption.
      rewrite <- (neg_neg (Aff x1 y1)) at 2. rewrite (add_cancel_l (neg (Aff x1 y1))) by auto using on_neg.
      now rewrite add_neg. }
    pose proof (diff_x _ _ _ _ OA OC NE NE') as Nx.
    assert (Ny : y1 <> %0) by (intros Z; apply N2; rewrite Z; cbn; f_equal; ring).
    assert (OS : on (add (Aff x1 y1) (Aff x2 y2))) by now apply on_add.
    assert (OD : on (add (Aff x1 y1) (Aff x1 y1))) by now apply on_add.
    assert (D1 : Aff x1 y1 <> add (Aff x1 y1) (Aff x2 y2)).
    { intros E. rewrite add_comm in E by assumption. symmetry in E. now apply add_eq_r in E. }
    assert (D2 : Aff x1 y1 <> neg (add (Aff x1 y1) (Aff x2 y2))).
    { intros E. apply N3. pose proof (add_cancel _ _ OC OA) as G. rewrite <- G.
      rewrite (add_comm (Aff x2 y2)) by assumption. rewrite <- (neg_neg (add (Aff x1 y1) (Aff x2 y2))), <- E.
      rewrite <- neg_add by assumption. now rewrite neg_neg. }
    destruct (point_dec (add (Aff x1 y1) (Aff x1 y1)) (Aff x2 y2)) as [E|N4].
    - rewrite E in N3 |- *. rewrite add_tang in E by assumption. injection E as X4 Y4.
      assert (Ny2 : y2 <> %0) by (intros Z; apply N3; rewrite Z; cbn; f_equal; ring).
      rewrite add_tang by assumption. rewrite add_chord in * by assumption.
      pose proof (diff_x _ _ _ _ OA OS D1 D2) as Nx5. rewrite add_chord by assumption.
      assert (Ha : a = d * (tang a b d x1 y1 * tang a b d x1 y1) - %3 * x1 - (x2 - x1)) by (rewrite <- X4 at 1; unfold lx; ring).
      assert (Hb : b = %2 * d * y1 * tang a b d x1 y1 - (%3 * (x1 * x1) + %2 * a * x1))
        by (rewrite tang_slope by assumption; unfold cubic'; ring).
      pose proof (assoc_tang2 d (x2 - x1) (tang a b d x1 y1) y1 x1 d_ne (sub_ne _ _ Nx)) as H. cbv zeta in H.
      rewrite <- Ha in H. rewrite <- Hb in H. rewrite X4, Y4 in H. destruct H as [H1 H2]; [assumption|now apply sub_ne|].
      now rewrite H1, H2.
    - rewrite add_tang in * by assumption. rewrite add_chord in * by assumption.
      pose proof (diff_x _ _ _ _ OD OC N4 N3) as Nx4.
      pose proof (diff_x _ _ _ _ OA OS D1 D2) as Nx5. rewrite !add_chord by assumption.
      pose proof (a_of_tang_chord _ _ _ _ OA OC Nx Ny) as Ha. cbv zeta in Ha.
      pose proof (chord_y x1 y1 x2 y2 Nx) as Hy.
      assert (Hx : x2 = x1 + (x2 - x1)) by ring.
      pose proof (assoc_tang1 d (x2 - x1) (chord x1 y1 x2 y2) (tang a b d x1 y1) y1 x1 (sub_ne _ _ Nx)) as H. cbv zeta in H.
      rewrite <- Ha, <- Hy, <- Hx in H. destruct H as [H1 H2]; [now apply sub_ne..|].
      now rewrite H1, H2.
  Qed.
  (** (C - B) + (C + B) = 2C *)
  Lemma mid_assoc C B : on C -> on B -> add (add C (neg B)) (add C B) = add C C.
  Proof.
    intros OC OB. destruct C as [|x1 y1]; [apply add_neg_l|]. destruct B as [|x2 y2]; [reflexivity|].
    destruct (point_dec (Aff x1 y1) (Aff x2 y2)) as [E|NE].
    { rewrite <- E, add_neg. reflexivity. }
    destruct (point_dec (Aff x1 y1) (neg (Aff x2 y2))) as [E|NE'].
    { rewrite <- E. rewrite E at 3. rewrite add_neg_l. now rewrite add_inf_r. }
    destruct (point_dec (Aff x1 y1) (neg (Aff x1 y1))) as [E|N2].
    { rewrite E at 4. rewrite add_neg. rewrite E at 1. rewrite <- neg_add by assumption. apply add_neg_l. }
    pose proof (diff_x _ _ _ _ OC OB NE NE') as Nx.
    assert (Ny : y1 <> %0) by (intros Z; apply N2; rewrite Z; cbn; f_equal; ring).
    assert (OP : on (add (Aff x1 y1) (Aff x2 y2))) by now apply on_add.
    assert (OM : on (add (Aff x1 y1) (neg (Aff x2 y2)))) by (apply on_add; [|apply on_neg]; assumption).
    pose proof (a_of_tang_chord _ _ _ _ OC OB Nx Ny) as Ha. cbv zeta in Ha.
    pose proof (chord_y x1 y1 x2 y2 Nx) as Hy.
    assert (Hx : x2 = x1 + (x2 - x1)) by ring.
    assert (D2 : add (Aff x1 y1) (neg (Aff x2 y2)) <> neg (add (Aff x1 y1) (Aff x2 y2))).
    { intros E. apply N2. rewrite neg_add in E by assumption. apply add_inj_r in E; auto using on_neg. }
    destruct (point_dec (add (Aff x1 y1) (neg (Aff x2 y2))) (add (Aff x1 y1) (Aff x2 y2))) as [E|N3].
    - assert (EB : Aff x2 y2 = neg (Aff x2 y2)).
      { rewrite !(add_comm (Aff x1 y1)) in E by auto using on_neg. apply add_inj_r in E; auto using on_neg. }
      pose proof (neg_y0 _ _ EB) as Y2. rewrite E. rewrite E in D2. rewrite add_chord in * by assumption.
      assert (Ny3 : ly a d (chord x1 y1 x2 y2) x1 y1 x2 <> %0) by (intros Z; apply D2; rewrite Z; cbn; f_equal; ring).
      rewrite !add_tang by assumption.
      pose proof (assoc_tor d (x2 - x1) (chord x1 y1 x2 y2) (tang a b d x1 y1) x1 d_ne (sub_ne _ _ Nx)) as H. cbv zeta in H.
      assert (Hy1 : - (chord x1 y1 x2 y2 * (x2 - x1)) = y1) by (rewrite Y2 in Hy |- *; transitivity (y1 - (y1 + chord x1 y1 x2 %0 * (x2 - x1))); [ring|rewrite <- Hy; ring]).
      rewrite Hy1 in H. 
      assert (Hb : b = %2 * d * y1 * tang a b d x1 y1 - (%3 * (x1 * x1) + %2 * a * x1))
        by (rewrite tang_slope by assumption; unfold cubic'; ring).
      rewrite <- Ha, <- Hx, <- Hb in H. destruct H as [H1 H2]; [assumption|]. now rewrite H1, H2.
    - cbn [pneg] in *. rewrite !add_chord in * by assumption. rewrite add_tang by assumption.
      pose proof (diff_x _ _ _ _ OM OP N3 D2) as Nx3. rewrite add_chord by assumption.
      pose proof (assoc_mid d (x2 - x1) (chord x1 y1 x2 y2) (tang a b d x1 y1) y1 x1 (sub_ne _ _ Nx)) as H. cbv zeta in H.
      rewrite <- Ha, <- Hy, <- Hx in H. destruct H as [H1 H2]; [now apply sub_ne|].
      now rewrite H1, H2.
  Qed.
  Theorem add_assoc A B C : on A -> on B -> on C -> add (add A B) C = add A (add B C).
  Proof.
    intros OA OB OC. destruct A as [|x1 y1]; [reflexivity|]. destruct B as [|x2 y2]; [reflexivity|].
    destruct C as [|x3 y3]; [now rewrite !add_inf_r|].
    set (A := Aff x1 y1) in *. set (B := Aff x2 y2) in *. set (C := Aff x3 y3) in *.
    assert (OAB : on (add A B)) by now apply on_add. assert (OBC : on (add B C)) by now apply on_add.
    destruct (point_dec A (neg B)) as [E|AB'].
    { rewrite E, add_neg_l. symmetry. now apply add_cancel_l. }
    destruct (point_dec B (neg C)) as [E|BC'].
    { rewrite E, add_neg_l, add_inf_r. rewrite <- (neg_neg C) at 2. apply add_cancel; auto using on_neg. }
    destruct (point_dec A (neg C)) as [E|AC'].
    { rewrite E. rewrite (add_comm B C), add_cancel_l by assumption. rewrite (add_comm (neg C) B) by auto using on_neg.
      rewrite <- (neg_neg C) at 2. apply add_cancel; auto using on_neg. }
    destruct (point_dec A C) as [E|AC].
    { rewrite <- E. rewrite (add_comm B A) by assumption. apply add_comm; assumption. }
    destruct (point_dec (add A B) (neg C)) as [E|ABC'].
    { rewrite E, add_neg_l. assert (EC : C = add (neg B) (neg A)).
      { rewrite <- (neg_neg C), <- E. rewrite neg_add by assumption. apply add_comm; now apply on_neg. }
      rewrite EC. rewrite <- (neg_neg B) at 1. rewrite add_cancel_l by auto using on_neg. now rewrite add_neg. }
    destruct (point_dec A (neg (add B C))) as [E|ABC2'].
    { rewrite E at 2. rewrite add_neg_l. rewrite E, neg_add by assumption.
      rewrite (add_comm (neg B)) by auto using on_neg. rewrite <- (neg_neg B) at 2.
      rewrite add_cancel by auto using on_neg. apply add_neg_l. }
    destruct (point_dec A B) as [E|AB].
    { rewrite <- E. apply dbl_assoc; assumption. }
    destruct (point_dec B C) as [E|BC].
    { rewrite <- E. rewrite (add_comm A (add B B)), (add_comm A B), (add_comm (add B A)) by auto using on_add.
      symmetry. now apply dbl_assoc. }
    destruct (point_dec (add A B) C) as [E|ABC].
    { rewrite E. assert (EA : A = add C (neg B)) by (rewrite <- E; symmetry; now apply add_cancel).
      rewrite EA, (add_comm B C) by assumption. symmetry. now apply mid_assoc. }
    destruct (point_dec A (add B C)) as [E|ABC2].
    { rewrite <- E. assert (EC : C = add A (neg B)) by (rewrite E, (add_comm B C) by assumption; symmetry; now apply add_cancel).
      rewrite EC, (add_comm (add A B)) by auto using on_add, on_neg. now apply mid_assoc. }
    unfold A, B, C in *.
    pose proof (diff_x _ _ _ _ OA OB AB AB') as N12. pose proof (diff_x _ _ _ _ OB OC BC BC') as N23.
    pose proof (diff_x _ _ _ _ OA OC AC AC') as N13.
    rewrite !add_chord in * by assumption.
    pose proof (diff_x _ _ _ _ OAB OC ABC ABC') as N4. pose proof (diff_x _ _ _ _ OA OBC ABC2 ABC2') as N5.
    rewrite !add_chord by assumption.
    destruct (assoc_chords a b c d x1 y1 x2 y2 x3 y3 (sub_ne _ _ N12) (sub_ne _ _ N23) (sub_ne _ _ N13) OA OB OC) as [H1 H2];
      [now apply sub_ne..|]. now rewrite H1, H2.
  Qed.

  (** ** Multiples *)
  Notation mul := (pmul p a b d).
  Lemma mul_S n P : mul (S n) P = add (mul n P) P.
  Proof. reflexivity. Qed.
  Lemma on_mul n P : on P -> on (mul n P).
  Proof. intros O. induction n; [exact I|]. rewrite mul_S. now apply on_add. Qed.
  Lemma mul_add m n P : on P -> mul (m + n) P = add (mul m P) (mul n P).
  Proof.
    intros O. induction n as [|n IH]; [now rewrite Nat.add_0_r, add_inf_r|].
    rewrite Nat.add_succ_r, !mul_S, IH. apply add_assoc; auto using on_mul.
  Qed.
  Lemma mul_mul m n P : on P -> mul m (mul n P) = mul (m * n) P.
  Proof.
    intros O. induction m as [|m IH]; [reflexivity|]. rewrite mul_S, IH, <- mul_add by assumption. f_equal. lia.
  Qed.
  Lemma mul_inf m : mul m Inf = Inf.
  Proof. induction m as [|m IH]; [reflexivity|]. now rewrite mul_S, IH. Qed.
End Law.
