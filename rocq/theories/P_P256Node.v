(** The P-256 ladder on the singular cubics y^2 = x^3 - 3x + 2 and y^2 = x^3 - 3x - 2. *)
From Coq Require Import ZArith Znumtheory Lia Bool List Field.
From Verif Require Import Base P_Base M_Int M_Seq M_Bytes M_BigInt M_NatMod M_P256.
From Verif Require Import P_Seq P_Bytes P_BigInt P_Prime P_Mod S_Curve P_Curve P_X25519 P_Jacobian S_P256 S_P256Node P_X25519M P_P256 P_P256Any.
Import ListNotations.
Open Scope Z_scope.
Add Field F256n : (fp_field p256 ec_prime) (morphism (fp_morph p256), constants [fp_const]).

(** ** The ladder at a point whose multiples add up *)
Section Seq.
  Variable c : Fp p256.
  Variable P : point p256.
  Let on_ : point p256 -> Prop := on_curve p256 (fof p256 0) (fopp (fof p256 3)) c (fof p256 1).
  Hypothesis on_mul_P : forall n, on_ (mul256 n P).
  Hypothesis mul_add_P : forall m n, mul256 (m + n) P = add256 (mul256 m P) (mul256 n P).
  Hypothesis succ_P : forall m, mul256 m P <> mul256 (S m) P \/ mul256 m P = Inf /\ mul256 (S m) P = Inf.
Lemma ec_step_Ok_seq k i m w0 w1 : (i < 256)%nat ->
  Rep w0 (mul256 m P) -> Rep w1 (mul256 (S m) P) ->
  exists v0 v1, ec_ladder_step k i (jv w0, jv w1) = Ok (jv v0, jv v1) /\
    let m' := (2 * m + Nat.b2n (Z.testbit k (Z.of_nat (255 - i))))%nat in
    Rep v0 (mul256 m' P) /\ Rep v1 (mul256 (S m') P).
Proof.
  intros Hi R0 R1. unfold ec_ladder_step. rewrite usub_Ok by lia. cbn [bind].
  pose proof (bit_Ok k (255 - i) ltac:(lia)) as B. unfold nm_bit in B. rewrite B. cbn [bind].
  assert (D : forall n, mul256 (2 * n) P = add256 (mul256 n P) (mul256 n P)).
  { intros n. replace (2 * n)%nat with (n + n)%nat by lia. apply mul_add_P. }
  assert (D1 : add256 (mul256 m P) (mul256 (S m) P) = mul256 (S (2 * m)) P).
  { rewrite <- mul_add_P. f_equal. lia. }
  assert (D2 : add256 (mul256 (S m) P) (mul256 m P) = mul256 (S (2 * m)) P).
  { rewrite <- mul_add_P. f_equal. lia. }
  pose proof (succ_P m) as NE.
  destruct (Z.testbit k (Z.of_nat (255 - i))); cbn [fst snd Nat.b2n]; rewrite double_Ok; cbn [bind].
  - destruct (addition_Ok_any c w1 w0 (mul256 (S m) P) (mul256 m P)) as (v & E & R); [apply on_mul_P|apply on_mul_P| |assumption|assumption|].
    { destruct NE as [N|[_ N]]; [left; congruence|now right]. }
    rewrite E. cbn [bind]. rewrite ?B. cbn [bind]. exists v, (jdbl p256 w1). split; [reflexivity|]. cbv zeta.
    rewrite D2 in R. split.
    + now replace (2 * m + 1)%nat with (S (2 * m)) by lia.
    + replace (S (2 * m + 1)) with (2 * S m)%nat by lia. rewrite D. apply (jdbl_rep p256 ec_prime ec_odd c); [|exact R1].
      exact (on_mul_P (S m)).
  - destruct (addition_Ok_any c w0 w1 (mul256 m P) (mul256 (S m) P)) as (v & E & R); [apply on_mul_P|apply on_mul_P| |assumption|assumption|].
    { destruct NE as [N|[N _]]; [now left|now right]. }
    rewrite E. cbn [bind]. rewrite ?B. cbn [bind]. exists (jdbl p256 w0), v. split; [reflexivity|]. cbv zeta.
    rewrite D1 in R. split.
    + replace (2 * m + 0)%nat with (2 * m)%nat by lia. rewrite D. apply (jdbl_rep p256 ec_prime ec_odd c); [|exact R0].
      exact (on_mul_P m).
    + now replace (2 * m + 0)%nat with (2 * m)%nat by lia.
Qed.
(** after n turns the first working point is [k / 2^(256-n)]P, the second one more *)
Lemma ec_loop_Ok_seq k w n : 0 <= k < 2 ^ 256 -> (n <= 256)%nat -> Rep w P ->
  exists v0 v1, for_range 0 n (ec_ladder_step k) (jv (fof _ 0, fof _ 1, fof _ 0), jv w) = Ok (jv v0, jv v1) /\
    let m := Z.to_nat (k / 2 ^ (256 - Z.of_nat n)) in
    Rep v0 (mul256 m P) /\ Rep v1 (mul256 (S m) P).
Proof.
  intros Hk Hn Rw. induction n as [|n IH].
  - do 2 eexists. split; [reflexivity|]. rewrite Z.div_small by (change (256 - Z.of_nat 0) with 256; exact Hk).
    cbn [Z.to_nat]. split; [reflexivity|]. exact Rw.
  - destruct IH as (v0 & v1 & E & R0 & R1); [lia|].
    assert (SR : forall T (f : nat -> T -> res T) n st s, for_range st (1 + n) f s = bind (for_range st n f s) (f (st + n)%nat)).
    { clear. intros T f n. induction n as [|n IH]; intros st s.
      - cbn. rewrite Nat.add_0_r. now destruct (f st s).
      - change (1 + S n)%nat with (S (1 + n)). cbn [for_range]. destruct (f st s) as [s'|] eqn:Es; cbn [bind]; [|reflexivity].
        rewrite IH. now rewrite Nat.add_succ_comm. }
    change (S n) with (1 + n)%nat at 1. rewrite SR, E. cbn [bind]. rewrite Nat.add_0_l.
    destruct (ec_step_Ok_seq k n _ v0 v1 ltac:(lia) R0 R1) as (u0 & u1 & E' & R). exists u0, u1. split; [exact E'|].
    cbv zeta in R |- *.
    replace (Z.to_nat (k / 2 ^ (256 - Z.of_nat (S n)))) with
      (2 * Z.to_nat (k / 2 ^ (256 - Z.of_nat n)) + Nat.b2n (Z.testbit k (Z.of_nat (255 - n))))%nat; [exact R|].
    replace (256 - Z.of_nat n) with (Z.succ (Z.of_nat (255 - n))) by lia.
    replace (256 - Z.of_nat (S n)) with (Z.of_nat (255 - n)) by lia.
    rewrite Z.pow_succ_r by lia. rewrite (Z.mul_comm 2), <- Z.div_div by (try apply Z.pow_nonzero; lia).
    rewrite Z.testbit_odd, Z.shiftr_div_pow2 by lia. set (q := k / 2 ^ Z.of_nat (255 - n)).
    assert (0 <= q) by (apply Z.div_pos; [lia|apply Z.pow_pos_nonneg; lia]).
    pose proof (Z.div_mod q 2 ltac:(lia)) as DM. rewrite Zmod_odd in DM. pose proof (Z.div_pos q 2 ltac:(lia) ltac:(lia)).
    destruct (Z.odd q); cbn [Nat.b2n]; lia.
Qed.
Lemma ec_ladder_Ok_seq k w : 0 <= k < 2 ^ 256 -> Rep w P ->
  exists v, ec_montgomery_ladder k (jv w) = Ok (jv v) /\ Rep v (mul256 (Z.to_nat k) P).
Proof.
  intros Hk R. destruct (ec_loop_Ok_seq k w 256 Hk (le_n _) R) as (v0 & v1 & E & R0 & _).
  exists v0. unfold ec_montgomery_ladder. rewrite elit0. cbn [bind]. rewrite elit1. cbn [bind].
  change (fval (fof p256 0), fval (fof p256 1), fval (fof p256 0)) with (jv (fof p256 0, fof _ 1, fof _ 0)).
  match goal with |- bind ?X ?g = _ /\ _ => assert (EX : X = Ok (jv v0, jv v1)) by exact E; rewrite EX end. cbn [bind fst].
  split; [reflexivity|]. cbv zeta in R0. change (256 - Z.of_nat 256) with 0 in R0. now rewrite Z.pow_0_r, Z.div_1_r in R0.
Qed.
End Seq.

(** ** The group of a singular cubic *)
Open Scope fp_scope.
Section Node.
  Variable e : Fp p256.
  Hypothesis e1 : e = %1 \/ e = - %1.
  Let on_ : point p256 -> Prop := on_curve p256 (fof p256 0) (fopp (fof p256 3)) (%2 * e) (fof p256 1).
  Notation np := (node_point e).

  Lemma ee : e * e = %1.
  Proof. destruct e1 as [->| ->]; ring. Qed.
  Lemma two_256 : fof p256 2 <> %0.
  Proof. exact (two_ne p256 ec_prime ec_odd). Qed.
  Lemma ne_sub (x y : Fp p256) : x <> y -> x - y <> %0.
  Proof. intros N E. apply N. symmetry. now apply (sub_0 p256 ec_prime). Qed.
  Lemma sub_eq (x y : Fp p256) : x - y = %0 -> x = y.
  Proof. intros E. symmetry. now apply (sub_0 p256 ec_prime). Qed.
  Lemma on_np t : on_ (np t).
  Proof. unfold on_, node_point, on_curve, cubic. destruct e1 as [->| ->]; ring. Qed.
  Lemma np_inj t u : t * t <> %3 * e -> np t = np u -> t = u.
  Proof.
    intros N E.
    assert (Ex : t * t - %2 * e = u * u - %2 * e) by exact (f_equal (fun P => match P with Inf => %0 | Aff x _ => x end) E).
    assert (Ey : t * (t * t - %2 * e - e) = u * (u * u - %2 * e - e)) by exact (f_equal (fun P => match P with Inf => %0 | Aff _ y => y end) E).
    assert (X : t * t = u * u). { transitivity (t * t - %2 * e + %2 * e); [ring|]. rewrite Ex. ring. }
    apply sub_eq. apply (cancel_den p256 ec_prime (t * t - %3 * e)); [now apply ne_sub|].
    transitivity (t * (t * t - %2 * e - e) - u * (u * u - %2 * e - e)); [rewrite <- X; ring|]. rewrite Ey. ring.
  Qed.
  Lemma np_neg t : np (- t) = pneg p256 (np t).
  Proof. unfold node_point. cbn [pneg]. f_equal; ring. Qed.
  (** the slopes of two points give the slope of their sum *)
  Lemma np_add t u : t * t <> %3 * e -> u * u <> %3 * e ->
    add256 (np t) (np u) = if t + u =? %0 then Inf else np ((t * u + %3 * e) / (t + u)).
  Proof.
    intros Nt Nu. destruct (feqb_spec p256 (t + u) (%0)) as [E|N].
    { replace u with (- t) by (transitivity (t + u - t); [rewrite E; ring|ring]). rewrite np_neg.
      exact (add_neg p256 ec_prime _ _ _ (np t)). }
    unfold add256, node_point, padd. destruct (feqb_spec p256 (t * t - %2 * e) (u * u - %2 * e)) as [X|X].
    - assert (U : u = t).
      { apply sub_eq. apply (cancel_den p256 ec_prime (t + u)); [exact N|].
        transitivity ((u * u - %2 * e) - (t * t - %2 * e)); [ring|]. rewrite X. ring. }
      subst u. assert (T0 : t <> %0) by (intros ->; apply N; ring).
      assert (D : t * t - %3 * e <> %0) by now apply ne_sub.
      pose proof two_256 as T2.
      destruct (feqb_spec p256 (t * (t * t - %2 * e - e)) (- (t * (t * t - %2 * e - e)))) as [Y|Y].
      { exfalso. apply (double_0 p256 ec_prime ec_odd) in Y. apply (fmul_0 p256 ec_prime) in Y as [Y|Y]; [contradiction|].
        apply D. rewrite <- Y. ring. }
      assert (L : cubic' p256 (%0) (- %3) (t * t - %2 * e) / (%2 * %1 * (t * (t * t - %2 * e - e))) = %3 * (t * t - e) / (%2 * t)).
      { unfold cubic'. replace (- fof p256 3) with (- fof p256 3 * (e * e)) by (rewrite ee; ring).
        replace (%2 * %1 * (t * (t * t - %2 * e - e))) with (%2 * t * (t * t - %3 * e)) by ring.
        field. repeat split; assumption. }
      rewrite L. unfold line3. 
      assert (E2 : (t * t + %3 * e) / (t + t) = (t * t + %3 * e) / (%2 * t)) by (f_equal; ring). rewrite E2.
      f_equal; field; repeat split; assumption.
    - assert (D : u - t <> %0). { apply ne_sub. intros ->. now apply X. }
      assert (L : (u * (u * u - %2 * e - e) - t * (t * t - %2 * e - e)) / (u * u - %2 * e - (t * t - %2 * e)) =
        (t * t + t * u + u * u - %3 * e) / (t + u)).
      { replace (u * u - %2 * e - (t * t - %2 * e)) with ((u - t) * (t + u)) by ring. field. repeat split; assumption. }
      rewrite L. unfold line3. f_equal; field; repeat split; assumption.
  Qed.

  Definition norm (q : Fp p256 * Fp p256) : Fp p256 := fst q * fst q - %3 * e * (snd q * snd q).
  Definition qmul (q r : Fp p256 * Fp p256) : Fp p256 * Fp p256 :=
    (fst q * fst r + %3 * e * (snd q * snd r), fst q * snd r + snd q * fst r).
  Lemma norm_mul q r : norm (qmul q r) = norm q * norm r.
  Proof. unfold norm, qmul. cbn [fst snd]. ring. Qed.
  Lemma norm_slope q : norm q <> %0 -> snd q <> %0 -> (fst q / snd q) * (fst q / snd q) <> %3 * e.
  Proof.
    intros N B E. apply N. unfold norm. transitivity ((fst q / snd q * (fst q / snd q)) * (snd q * snd q) - %3 * e * (snd q * snd q)).
    - field. exact B.
    - rewrite E. ring.
  Qed.
  (** the points multiply as the pairs do *)
  Lemma node_of_mul q r : norm q <> %0 -> norm r <> %0 -> node_of e (qmul q r) = add256 (node_of e q) (node_of e r).
  Proof.
    destruct q as [A B], r as [C D]. intros Nq Nr.
    destruct (feqb_spec p256 B (%0)) as [->|NB].
    { assert (NA : A <> %0) by (intros ->; apply Nq; unfold norm; cbn [fst snd]; ring).
      transitivity (node_of e (C, D)); [|unfold node_of at 2; cbn [fst snd]; rewrite (feqb_refl p256); reflexivity].
      unfold node_of, qmul. cbn [fst snd]. destruct (feqb_spec p256 D (%0)) as [->|ND].
      - replace (A * %0 + %0 * C) with (fof p256 0) by ring. rewrite (feqb_refl p256). reflexivity.
      - rewrite (feqb_ne p256).
        + apply (f_equal np). field. repeat split; assumption.
        + intros E. apply (fmul_ne p256 ec_prime A D NA ND). rewrite <- E. ring. }
    destruct (feqb_spec p256 D (%0)) as [->|ND].
    { assert (NC : C <> %0) by (intros ->; apply Nr; unfold norm; cbn [fst snd]; ring).
      transitivity (node_of e (A, B)); [|unfold node_of at 3; cbn [fst snd]; rewrite (feqb_refl p256); destruct (node_of e (A, B)); reflexivity].
      unfold node_of, qmul. cbn [fst snd]. rewrite (feqb_ne p256 B) by exact NB. rewrite (feqb_ne p256).
      + apply (f_equal np). field. repeat split; assumption.
      + intros E. apply (fmul_ne p256 ec_prime B C NB NC). rewrite <- E. ring. }
    pose proof (norm_slope _ Nq NB) as Sq. pose proof (norm_slope _ Nr ND) as Sr. cbn [fst snd] in Sq, Sr.
    unfold node_of at 2 3. cbn [fst snd]. rewrite (feqb_ne p256 B), (feqb_ne p256 D) by assumption.
    rewrite np_add by assumption. unfold node_of, qmul. cbn [fst snd].
    assert (S : A / B + C / D = (A * D + B * C) / (B * D)) by (field; split; assumption).
    rewrite S. destruct (feqb_spec p256 (A * D + B * C) (%0)) as [E|N].
    - rewrite E. replace (%0 / (B * D)) with (fof p256 0) by (field; split; assumption). now rewrite (feqb_refl p256).
    - rewrite (feqb_ne p256).
      + apply (f_equal np). field. repeat split; assumption.
      + intros E. apply N. transitivity ((A * D + B * C) / (B * D) * (B * D)); [field; split; assumption|rewrite E; ring].
  Qed.

  Section At.
    Variable t : Fp p256.
    Hypothesis Nt : t * t <> %3 * e.
    Notation pw := (node_pow e t).
    Lemma pw_S n : pw (S n) = qmul (pw n) (t, %1).
    Proof. cbn [node_pow]. destruct (pw n) as [A B]. unfold qmul. cbn [fst snd]. f_equal; ring. Qed.
    Lemma qmul_assoc q r s : qmul (qmul q r) s = qmul q (qmul r s).
    Proof. unfold qmul. cbn [fst snd]. f_equal; ring. Qed.
    Lemma pw_add m n : pw (m + n) = qmul (pw m) (pw n).
    Proof.
      induction n as [|n IH].
      - rewrite Nat.add_0_r. cbn [node_pow]. destruct (pw m) as [A B]. unfold qmul. cbn [fst snd]. f_equal; ring.
      - rewrite Nat.add_succ_r, !pw_S, IH. apply qmul_assoc.
    Qed.
    Lemma norm_t : norm (t, %1) <> %0.
    Proof. unfold norm. cbn [fst snd]. intros E. apply Nt. apply sub_eq. rewrite <- E. ring. Qed.
    Lemma norm_pw n : norm (pw n) <> %0.
    Proof.
      induction n as [|n IH].
      - unfold norm. cbn [node_pow fst snd]. intros E. apply ec_one. rewrite <- E. ring.
      - rewrite pw_S, norm_mul. apply (fmul_ne p256 ec_prime); [exact IH|exact norm_t].
    Qed.
    Lemma node_of_t : node_of e (t, %1) = np t.
    Proof.
      unfold node_of. cbn [fst snd]. rewrite (feqb_ne p256) by exact ec_one. apply (f_equal np). field. exact ec_one.
    Qed.
    Lemma node_mul n : mul256 n (np t) = node_of e (pw n).
    Proof.
      induction n as [|n IH].
      - unfold node_of. cbn [node_pow fst snd]. rewrite (feqb_refl p256). reflexivity.
      - change (mul256 (S n) (np t)) with (add256 (mul256 n (np t)) (np t)). rewrite IH, pw_S.
        rewrite node_of_mul by (apply norm_pw || apply norm_t). now rewrite node_of_t.
    Qed.
    Lemma node_of_eq q r : norm q <> %0 -> norm r <> %0 -> (node_of e q = node_of e r <-> fst q * snd r = fst r * snd q).
    Proof.
      destruct q as [A B], r as [C D]. cbn [fst snd]. intros Nq Nr. unfold node_of. cbn [fst snd].
      destruct (feqb_spec p256 B (%0)) as [->|NB], (feqb_spec p256 D (%0)) as [->|ND].
      - split; [intros _; ring|reflexivity].
      - split; [discriminate|]. intros E. exfalso.
        assert (NA : A <> %0) by (intros ->; apply Nq; unfold norm; cbn [fst snd]; ring).
        apply (fmul_ne p256 ec_prime A D NA ND). rewrite E. ring.
      - split; [discriminate|]. intros E. exfalso.
        assert (NC : C <> %0) by (intros ->; apply Nr; unfold norm; cbn [fst snd]; ring).
        apply (fmul_ne p256 ec_prime C B NC NB). rewrite <- E. ring.
      - pose proof (norm_slope _ Nq NB) as Sq. cbn [fst snd] in Sq. split; intros E.
        + apply np_inj in E; [|exact Sq]. transitivity (A / B * (B * D)); [field; exact NB|]. rewrite E. field. exact ND.
        + apply (f_equal np). transitivity (A * D / (B * D)); [field; split; assumption|]. rewrite E. field. split; assumption.
    Qed.
    Lemma node_succ n : mul256 n (np t) <> mul256 (S n) (np t).
    Proof.
      rewrite !node_mul. intros E. apply node_of_eq in E; [|apply norm_pw|apply norm_pw]. rewrite pw_S in E.
      apply (norm_pw n). destruct (pw n) as [A B]. unfold qmul in E. unfold norm. cbn [fst snd] in E |- *.
      transitivity (A * (A * %1 + B * t) - (A * t + %3 * e * (B * %1)) * B); [ring|]. rewrite E. ring.
    Qed.
    Lemma node_mul_add m n : mul256 (m + n) (np t) = add256 (mul256 m (np t)) (mul256 n (np t)).
    Proof. rewrite !node_mul, pw_add. apply node_of_mul; apply norm_pw. Qed.
  End At.

  (** the singular point itself *)
  Lemma sing_mul n : mul256 n (Aff e (%0)) = if Nat.odd n then Aff e (%0) else Inf.
  Proof.
    induction n as [|n IH]; [reflexivity|].
    change (mul256 (S n) (Aff e (%0))) with (add256 (mul256 n (Aff e (%0))) (Aff e (%0))). rewrite IH, Nat.odd_succ, <- Nat.negb_odd.
    destruct (Nat.odd n); cbn [negb]; [|reflexivity].
    unfold add256, padd. rewrite (feqb_refl p256). replace (- fof p256 0) with (fof p256 0) by ring. now rewrite (feqb_refl p256).
  Qed.
  Lemma sing_on : on_ (Aff e (%0)).
  Proof. unfold on_, on_curve, cubic. destruct e1 as [->| ->]; ring. Qed.
  Lemma sing_succ n : mul256 n (Aff e (%0)) <> mul256 (S n) (Aff e (%0)).
  Proof. rewrite !sing_mul, Nat.odd_succ, <- Nat.negb_odd. destruct (Nat.odd n); cbn [negb]; discriminate. Qed.
  Lemma sing_mul_add m n : mul256 (m + n) (Aff e (%0)) = add256 (mul256 m (Aff e (%0))) (mul256 n (Aff e (%0))).
  Proof.
    rewrite !sing_mul, Nat.odd_add. destruct (Nat.odd m), (Nat.odd n); cbn [xorb]; try reflexivity.
    symmetry. exact (sing_mul 2).
  Qed.
  (** every point of the cubic is infinity, the singular point, or the point of a slope *)
  Lemma node_points P : on_ P -> P = Inf \/ P = Aff e (%0) \/ exists t, t * t <> %3 * e /\ P = np t.
  Proof.
    destruct P as [|x y]; [now left|]. intros O. right. unfold on_, on_curve in O.
    assert (F : y * y = (x - e) * (x - e) * (x + %2 * e)).
    { transitivity (%1 * (y * y)); [ring|]. rewrite O. unfold cubic. destruct e1 as [->| ->]; ring. }
    destruct (feqb_spec p256 x e) as [->|N].
    - left. f_equal. assert (Z : y * y = %0) by (rewrite F; ring). now apply (fmul_0 p256 ec_prime) in Z as [Z|Z].
    - right. apply ne_sub in N. exists (y / (x - e)).
      assert (T : y / (x - e) * (y / (x - e)) = x + %2 * e).
      { transitivity (y * y / ((x - e) * (x - e))); [field; exact N|]. rewrite F. field. exact N. }
      rewrite T. split.
      + intros E. apply N. transitivity (x + %2 * e - %3 * e); [ring|]. rewrite E. ring.
      + unfold node_point. rewrite T. f_equal; [ring|]. field. exact N.
  Qed.
End Node.

(** the multiples of every point add up, and neighbouring ones differ *)
Lemma every_point (P : point p256) : exists c : Fp p256,
  (forall n, on_curve p256 (%0) (- %3) c (%1) (mul256 n P)) /\
  (forall m n, mul256 (m + n) P = add256 (mul256 m P) (mul256 n P)) /\
  (forall m, mul256 m P <> mul256 (S m) P \/ mul256 m P = Inf /\ mul256 (S m) P = Inf).
Proof.
  destruct P as [|x y].
  { exists (%0). assert (I : forall n, mul256 n Inf = Inf) by (intros n; apply mul_inf).
    split; [intros n; rewrite I; exact Logic.I|]. split; [intros m n; now rewrite !I|]. intros m. right. split; apply I. }
  pose (c := y * y - (x * x * x + - %3 * x)). exists c.
  assert (O : on_curve p256 (%0) (- %3) c (%1) (Aff x y)) by (unfold on_curve, cubic, c; ring).
  split; [intros n; exact (on_mul_any c n _ O)|].
  destruct (feqb_spec p256 (c * c) (%4)) as [E|N].
  - pose proof two_256 as T2. pose (e := c / %2).
    assert (E1 : e = %1 \/ e = - %1).
    { assert (Z : (e - %1) * (e - - %1) = %0).
      { assert (N4 : fof p256 4 <> %0) by (intros H; apply (fmul_ne p256 ec_prime _ _ T2 T2); rewrite <- H; ring).
        transitivity (c * c / %4 - %1); [unfold e; field; split; assumption|]. rewrite E. field. exact N4. }
      apply (fmul_0 p256 ec_prime) in Z as [Z|Z]; apply sub_eq in Z; [now left|now right]. }
    assert (C : c = %2 * e) by (unfold e; field; exact T2). rewrite C in O.
    destruct (node_points e E1 _ O) as [H|[H|(t & Nt & H)]]; [discriminate| |]; rewrite H.
    + split; [intros m n; apply sing_mul_add|]. intros m. left. apply sing_succ.
    + split; [intros m n; now apply node_mul_add|]. intros m. left. now apply node_succ.
  - pose proof (nonsing_any c N) as ns. split; [intros m n; exact (mul_add_any c ns m n _ O)|].
    intros m. left. apply (succ_ne_any c ns); [exact O|discriminate].
Qed.
Lemma ladder_every P k w : (0 <= k < 2 ^ 256)%Z -> Rep w P ->
  exists v, ec_montgomery_ladder k (jv w) = Ok (jv v) /\ Rep v (mul256 (Z.to_nat k) P).
Proof.
  intros Hk R. destruct (every_point P) as (c & O & A & D). exact (ec_ladder_Ok_seq c P O A D k w Hk R).
Qed.

(** ** The order of a point of slope t *)
Open Scope Z_scope.
(** a subgroup of the integers containing M, and M / q for no prime divisor q of M, consists of the multiples of M *)
Lemma subgroup_gen (I : Z -> Prop) (l : list Z) : let M := zprod l in
  (forall a b, I a -> I b -> I (a + b)) -> (forall a, I a -> I (- a)) -> (forall q, In q l -> prime q) ->
  I M -> (forall q, In q l -> ~ I (M / q)) -> forall k, I k <-> (M | k).
Proof.
  intros M Add Opp Pr IM NI.
  assert (I0 : I 0) by (replace 0 with (M + - M) by lia; auto).
  assert (Mul : forall a u, I a -> I (u * a)).
  { intros a u Ia. assert (N : forall u, 0 <= u -> I (u * a)).
    { apply natlike_ind; [exact I0|]. intros x _ Hx. rewrite Z.mul_succ_l. auto. }
    destruct (Z.le_gt_cases 0 u); [auto|]. replace (u * a) with (- ((- u) * a)) by lia. apply Opp, N. lia. }
  assert (Mp : 0 < M).
  { unfold M. clear - Pr. induction l as [|q l IH]; cbn [zprod fold_right]; [lia|].
    assert (prime q) by (apply Pr; now left). pose proof (prime_ge_2 q H). apply Z.mul_pos_pos; [lia|]. apply IH. intros; apply Pr; now right. }
  intros k. split; [|intros [u ->]; auto]. intros Ik.
  pose proof (Z.gcd_divide_l k M) as Dk. pose proof (Z.gcd_divide_r k M) as [c C].
  destruct (Zis_gcd_bezout k M (Z.gcd k M) (Zgcd_is_gcd k M)) as [u v B].
  pose proof (Z.gcd_nonneg k M) as G0. generalize dependent (Z.gcd k M). intros g Dk C B G0.
  assert (Id : I (g)) by (rewrite <- B; auto).
  assert (Dp : 0 < g) by (destruct (Z.eq_dec (g) 0) as [E|]; [rewrite E in C|]; lia).
  destruct (Z.eq_dec c 1) as [->|Nc]; [rewrite C, Z.mul_1_l; exact Dk|]. exfalso.
  assert (1 < c) by nia. destruct (exists_prime_divisor c H) as (r & Hr & [j J]).
  assert (In r l).
  { destruct (in_dec Z.eq_dec r l) as [Y|N]; [exact Y|exfalso]. apply (prime_not_div_prod r l Hr).
    - intros x Hx D. apply N. pose proof (Pr x Hx) as Px. destruct (prime_divisors x Px r D) as [E|[E|[E|E]]];
        pose proof (prime_ge_2 r Hr); pose proof (prime_ge_2 x Px); try lia. now rewrite E.
    - fold M. exists (j * g). rewrite C, J. ring. }
  apply (NI r H0). replace (M / r) with (j * g); [auto|].
  rewrite C, J. replace (j * r * g) with (j * g * r) by ring. rewrite Z.div_mul; [reflexivity|]. pose proof (prime_ge_2 r Hr). lia.
Qed.

(** the pairs with integers for the residues *)
Section Zpow.
  Variables e t : Z.
  Hypothesis e1 : fof p256 e = fof p256 1 \/ fof p256 e = fopp (fof p256 1).
  Hypothesis Nt : fmul (fof p256 t) (fof p256 t) <> fmul (fof p256 3) (fof p256 e).
  Definition zmul2 (q r : Z * Z) : Z * Z :=
    (fmod (fst q * fst r + 3 * e * fmod (snd q * snd r) p256) p256, fmod (fst q * snd r + snd q * fst r) p256).
  Fixpoint zpow2 (n : positive) : Z * Z :=
    match n with
    | xH => (t, 1)
    | xO n => let q := zpow2 n in zmul2 q q
    | xI n => let q := zpow2 n in zmul2 (zmul2 q q) (t, 1)
    end.
  Definition f2 (q : Z * Z) : Fp p256 * Fp p256 := (fof p256 (fst q), fof p256 (snd q)).
  Notation E := (fof p256 e). Notation T := (fof p256 t).
  Lemma zmul2_ok q r : f2 (zmul2 q r) = qmul E (f2 q) (f2 r).
  Proof. unfold f2, zmul2, qmul. cbn [fst snd]. rewrite !fmod_spec, !fof_mod, !fof_add, !fof_mul, fof_mod, !fof_mul. reflexivity. Qed.
  Lemma zpow2_ok n : f2 (zpow2 n) = node_pow E T (Pos.to_nat n).
  Proof.
    assert (P1 : node_pow E T 1 = f2 (t, 1)).
    { unfold f2. cbn [node_pow fst snd]. f_equal; ring. }
    induction n as [n IH|n IH|]; cbn [zpow2]; [| |exact (eq_sym P1)].
    - rewrite !zmul2_ok, IH. replace (Pos.to_nat n~1) with (Pos.to_nat n + Pos.to_nat n + 1)%nat by lia.
      rewrite !pw_add, P1. reflexivity.
    - rewrite zmul2_ok, IH. replace (Pos.to_nat n~0) with (Pos.to_nat n + Pos.to_nat n)%nat by lia. now rewrite pw_add.
  Qed.
  Definition inf2 (z : Z) : bool := match z with Z0 => true | Zpos n | Zneg n => snd (zpow2 n) mod p256 =? 0 end.
  Definition Iz (z : Z) : Prop := snd (node_pow E T (Z.to_nat (Z.abs z))) = fof p256 0.
  Lemma inf2_ok z : inf2 z = true <-> Iz z.
  Proof.
    assert (G : forall n, (snd (zpow2 n) mod p256 =? 0) = true <-> snd (node_pow E T (Pos.to_nat n)) = fof p256 0).
    { intros n. rewrite <- zpow2_ok. unfold f2. cbn [snd]. rewrite Z.eqb_eq. split.
      - intros H. apply fof_eq. rewrite H. reflexivity.
      - intros H. apply fof_inj in H. rewrite H. reflexivity. }
    unfold inf2, Iz. destruct z; cbn [Z.abs]; [split; intros _; reflexivity| |]; apply G.
  Qed.
  Lemma pw_inf_add m n : snd (node_pow E T m) = fof p256 0 ->
    (snd (node_pow E T (m + n)) = fof p256 0 <-> snd (node_pow E T n) = fof p256 0).
  Proof.
    intros H. pose proof (norm_pw E T Nt m) as N. rewrite pw_add. destruct (node_pow E T m) as [A B], (node_pow E T n) as [C D].
    unfold norm, qmul in *. cbn [fst snd] in *. subst B. split.
    - intros Z. assert (Z' : fmul A D = fof p256 0) by (rewrite <- Z; ring).
      apply (fmul_0 p256 ec_prime) in Z' as [->|Z']; [exfalso; apply N; ring|exact Z'].
    - intros ->. ring.
  Qed.
  Lemma Iz_add a b : Iz a -> Iz b -> Iz (a + b).
  Proof.
    unfold Iz. intros Ha Hb.
    destruct (Z.eq_dec (Z.abs (a + b)) (Z.abs a + Z.abs b)) as [S|S].
    { replace (Z.to_nat (Z.abs (a + b))) with (Z.to_nat (Z.abs a) + Z.to_nat (Z.abs b))%nat by lia. now apply pw_inf_add. }
    destruct (Z.le_ge_cases (Z.abs a) (Z.abs b)).
    - apply (pw_inf_add _ _ Ha). now replace (Z.to_nat (Z.abs a) + Z.to_nat (Z.abs (a + b)))%nat with (Z.to_nat (Z.abs b)) by lia.
    - apply (pw_inf_add _ _ Hb). now replace (Z.to_nat (Z.abs b) + Z.to_nat (Z.abs (a + b)))%nat with (Z.to_nat (Z.abs a)) by lia.
  Qed.
  (** M is the product of the primes in l, [M]P is infinity and [M / q]P is not *)
  Definition order_check (l : list Z) : bool :=
    let M := zprod l in inf2 M && forallb (fun q => negb (inf2 (M / q))) (nodup Z.eq_dec l).
  Lemma order_check_ok l : (forall q, In q l -> prime q) -> order_check l = true -> forall k, Iz k <-> (zprod l | k).
  Proof.
    intros Pr H. apply andb_prop in H as [H1 H2]. apply subgroup_gen; [exact Iz_add| |exact Pr|now apply inf2_ok|].
    - intros a. unfold Iz. now rewrite Z.abs_opp.
    - intros q Hq C. rewrite forallb_forall in H2. specialize (H2 q ltac:(now apply nodup_In)).
      apply inf2_ok in C. rewrite C in H2. discriminate.
  Qed.
  Lemma mul_eq_iff k k' : 0 <= k -> 0 <= k' ->
    (mul256 (Z.to_nat k) (node_point E T) = mul256 (Z.to_nat k') (node_point E T) <-> Iz (k - k')).
  Proof.
    assert (W : forall m n, mul256 m (node_point E T) = mul256 (m + n) (node_point E T) <-> snd (node_pow E T n) = fof p256 0).
    { intros m n. rewrite !(node_mul E e1 T Nt). rewrite node_of_eq by (try exact T; apply norm_pw; exact Nt). rewrite pw_add.
      pose proof (norm_pw E T Nt m) as N. destruct (node_pow E T m) as [A B], (node_pow E T n) as [C D].
      unfold norm, qmul in *. cbn [fst snd] in *. split.
      - intros H. assert (Z' : fmul (fsub (fmul A A) (fmul (fmul (fof p256 3) E) (fmul B B))) D = fof p256 0).
        { transitivity (fsub (fmul A (fadd (fmul A D) (fmul B C))) (fmul (fadd (fmul A C) (fmul (fmul (fof p256 3) E) (fmul B D))) B)); [ring|].
          rewrite H. ring. }
        apply (fmul_0 p256 ec_prime) in Z' as [Z'|Z']; [contradiction|exact Z'].
      - intros ->. ring. }
    intros Hk Hk'. unfold Iz. destruct (Z.le_ge_cases k k').
    - rewrite <- (W (Z.to_nat k)). now replace (Z.to_nat k + Z.to_nat (Z.abs (k - k')))%nat with (Z.to_nat k') by lia.
    - rewrite <- (W (Z.to_nat k')). replace (Z.to_nat k' + Z.to_nat (Z.abs (k - k')))%nat with (Z.to_nat k) by lia. split; congruence.
  Qed.
  (** two multiples of a point of order M are equal exactly if the factors are congruent modulo M *)
  Lemma order_residue l k k' : (forall q, In q l -> prime q) -> order_check l = true -> 0 <= k -> 0 <= k' ->
    (mul256 (Z.to_nat k) (node_point E T) = mul256 (Z.to_nat k') (node_point E T) <-> (zprod l | k - k')).
  Proof. intros Pr C Hk Hk'. rewrite mul_eq_iff by assumption. now apply order_check_ok. Qed.
End Zpow.
