(** The P-256 model computes on Jacobian coordinates of points and never panics in the ladder. *)
From Coq Require Import ZArith Znumtheory Lia Bool List Field.
From Verif Require Import Base P_Base M_Int M_Seq M_Bytes M_BigInt M_NatMod M_P256.
From Verif Require Import P_Seq P_Bytes P_BigInt P_Prime P_Mod S_Curve P_Curve P_X25519 P_Jacobian S_P256 P_X25519M.
Import ListNotations.
Open Scope Z_scope.

Lemma ec_p_eq : ec_p = p256. Proof. reflexivity. Qed.
Lemma ec_prime : prime p256. Proof. exact prime_p256. Qed.
Lemma ec_odd : p256 <> 2. Proof. discriminate. Qed.
Lemma ec_range : 0 < p256 < 2 ^ 256 - 1. Proof. split; reflexivity. Qed.
Notation Fe := (Fp p256).
Add Field F256 : (fp_field p256 ec_prime) (morphism (fp_morph p256), constants [fp_const]).

Section Ops.
  Let B : 0 < 256 := eq_refl.
  Lemma eadd_Ok (a b : Fe) : nm_add 256 ec_p (fval a) (fval b) = Ok (fval (fadd a b)).
  Proof. rewrite ec_p_eq. exact (nm_add_Ok 256 p256 B ec_range _ _). Qed.
  Lemma emul_Ok (a b : Fe) : nm_mul 256 ec_p (fval a) (fval b) = Ok (fval (fmul a b)).
  Proof. rewrite ec_p_eq. exact (nm_mul_Ok 256 p256 B ec_range _ _). Qed.
  Lemma esub_Ok (a b : Fe) : nm_sub 256 ec_p (fval a) (fval b) = Ok (fval (fsub a b)).
  Proof.
    rewrite ec_p_eq. apply (nm_sub_Ok 256 p256 B ec_range).
    pose proof (fval_range p256 b ltac:(reflexivity)). lia.
  Qed.
  Lemma esq_Ok (a : Fe) : nm_pow 256 ec_p (fval a) 2 = Ok (fval (fmul a a)).
  Proof.
    rewrite ec_p_eq. rewrite (nm_pow_Ok 256 p256 B ec_range) by (split; [discriminate|reflexivity]).
    rewrite Z.pow_2_r. reflexivity.
  Qed.
  Lemma einv_Ok (a : Fe) : nm_inv 256 ec_p (fval a) = Ok (fval (finv a)).
  Proof. rewrite ec_p_eq. rewrite (nm_inv_Ok 256 p256 B ec_range) by discriminate. unfold finv. now rewrite fval_of. Qed.
  Lemma elit_Ok c : 0 <= c < p256 -> nm_from_literal 256 ec_p c = Ok (fval (fof p256 c)).
  Proof.
    intros H. rewrite ec_p_eq. rewrite (nm_from_literal_Ok 256 p256 B ec_range) by lia.
    rewrite fval_of, Z.mod_small by assumption. reflexivity.
  Qed.
  Lemma elit3 : nm_from_literal 256 ec_p 3 = Ok (fval (fof p256 3)). Proof. apply elit_Ok. split; [discriminate|reflexivity]. Qed.
  Lemma elit8 : nm_from_literal 256 ec_p 8 = Ok (fval (fof p256 8)). Proof. apply elit_Ok. split; [discriminate|reflexivity]. Qed.
  Lemma elit4 : nm_from_literal 256 ec_p 4 = Ok (fval (fof p256 4)). Proof. apply elit_Ok. split; [discriminate|reflexivity]. Qed.
  Lemma elit2 : nm_from_literal 256 ec_p 2 = Ok (fval (fof p256 2)). Proof. apply elit_Ok. split; [discriminate|reflexivity]. Qed.
  Lemma elit1 : nm_from_literal 256 ec_p 1 = Ok (fval (fof p256 1)). Proof. apply elit_Ok. split; [discriminate|reflexivity]. Qed.
  Lemma elit0 : nm_from_literal 256 ec_p 0 = Ok (fval (fof p256 0)). Proof. apply elit_Ok. split; [discriminate|reflexivity]. Qed.
End Ops.
Lemma eeqb_Ok (a b : Fe) : nm_eqb (fval a) (fval b) = feqb a b.
Proof. reflexivity. Qed.
Lemma bind_step {A B} (x : res A) (v : A) (f : A -> res B) r : x = Ok v -> f v = r -> bind x f = r.
Proof. now intros -> <-. Qed.
(** one operation after the other *)
Ltac run1 := lazymatch goal with
  | |- nm_pow _ _ _ _ = _ => apply esq_Ok
  | |- nm_mul _ _ _ _ = _ => apply emul_Ok
  | |- nm_add _ _ _ _ = _ => apply eadd_Ok
  | |- nm_sub _ _ _ _ = _ => apply esub_Ok
  | |- nm_inv _ _ _ = _ => apply einv_Ok
  | |- nm_from_literal _ _ 3 = _ => apply elit3
  | |- nm_from_literal _ _ 8 = _ => apply elit8
  | |- nm_from_literal _ _ 4 = _ => apply elit4
  | |- nm_from_literal _ _ 2 = _ => apply elit2
  | |- nm_from_literal _ _ 1 = _ => apply elit1
  | |- nm_from_literal _ _ 0 = _ => apply elit0
  end.
Ltac run := repeat (eapply bind_step; [run1 | cbv beta]).

Definition jv (w : jpt p256) : jac := let '(x, y, z) := w in (fval x, fval y, fval z).
Notation Rep := (jrep p256).
Notation b_ := (fof p256 b256).

Lemma double_Ok w : point_double (jv w) = Ok (jv (jdbl p256 w)).
Proof. destruct w as [[x y] z]. unfold jv, point_double. run. unfold jdbl. reflexivity. Qed.
Lemma inf_Ok w : is_point_at_infinity (jv w) = Ok (feqb (snd w) (fof p256 0)).
Proof. destruct w as [[x y] z]. unfold is_point_at_infinity. run. reflexivity. Qed.
Lemma affine_Ok w : jacobian_to_affine (jv w) = Ok (fval (fst (jaff p256 w)), fval (snd (jaff p256 w))).
Proof. destruct w as [[x y] z]. unfold jv, jacobian_to_affine. run. unfold jaff. reflexivity. Qed.

Lemma nonsing256 : nonsingular p256 (fof _ 0) (fopp (fof _ 3)) b_.
Proof.
  intros x E E'. unfold cubic in E. unfold cubic' in E'.
  assert (T : fsub (fmul b_ b_) (fof p256 4) <> fof _ 0).
  { intros H. apply (f_equal fval) in H. vm_compute in H. discriminate. }
  assert (N3 : fof p256 3 <> fof _ 0) by (intros H; apply (f_equal fval) in H; vm_compute in H; discriminate).
  assert (X : fmul x x = fof _ 1).
  { symmetry. apply (sub_0 p256 ec_prime). apply (cancel_den p256 ec_prime (fof _ 3)); [exact N3|].
    refine (eq_trans _ E'). ring. }
  assert (C : b_ = fmul (fof _ 2) x).
  { replace (fmul (fmul x x) x) with x in E by (rewrite X; ring). symmetry. apply (sub_0 p256 ec_prime). refine (eq_trans _ E). ring. }
  apply T. rewrite C. transitivity (fsub (fmul (fof p256 4) (fmul x x)) (fof _ 4)); [ring|rewrite X; ring].
Qed.
Lemma ec_one : fof p256 1 <> fof _ 0.
Proof. intros H. apply (f_equal fval) in H. vm_compute in H. discriminate. Qed.

Lemma rep_inf w : Rep w Inf <-> feqb (snd w) (fof _ 0) = true.
Proof.
  destruct w as [[x y] z]. cbn [jrep snd]. destruct (feqb_spec p256 z (fof _ 0)); split; intros; auto; discriminate.
Qed.
Lemma rep_aff w x y : Rep w (Aff x y) -> feqb (snd w) (fof _ 0) = false.
Proof.
  destruct w as [[X Y] z]. cbn [jrep snd]. intros [N _]. destruct (feqb_spec p256 z (fof _ 0)); [contradiction|reflexivity].
Qed.
(** what the code does with two finite points, in terms of its tests *)
Lemma add_code X1 Y1 z1 X2 Y2 z2 : feqb z1 (fof p256 0) = false -> feqb z2 (fof p256 0) = false ->
  point_add (jv (X1, Y1, z1)) (jv (X2, Y2, z2)) =
  if feqb (fmul X1 (fmul z2 z2)) (fmul X2 (fmul z1 z1))
  then if feqb (fmul (fmul Y1 z2) (fmul z2 z2)) (fmul (fmul Y2 z1) (fmul z1 z1)) then Panic PAssert
       else Ok (jv (fof p256 0, fof p256 1, fof p256 0))
  else Ok (jv (jadd p256 (X1, Y1, z1) (X2, Y2, z2))).
Proof.
  intros E1 E2. unfold point_add. rewrite inf_Ok. cbn [bind snd]. rewrite E1. rewrite inf_Ok. cbn [bind snd]. rewrite E2.
  unfold jv. run. rewrite !eeqb_Ok. destruct (feqb (fmul X1 _) _).
  - destruct (feqb (fmul (fmul Y1 z2) _) _); cbn [negb assert_ bind]; [reflexivity|]. run. reflexivity.
  - run. unfold jadd. reflexivity.
Qed.
Lemma addition_Ok w1 w2 P Q : on256 P -> on256 Q -> P <> Q \/ P = Inf -> Rep w1 P -> Rep w2 Q ->
  exists w3, point_add (jv w1) (jv w2) = Ok (jv w3) /\ Rep w3 (add256 P Q).
Proof.
  intros OP OQ D R1 R2. destruct P as [|x1 y1].
  { apply rep_inf in R1. unfold point_add. rewrite inf_Ok. cbn [bind]. rewrite R1. eexists. split; [reflexivity|exact R2]. }
  pose proof (rep_aff w1 x1 y1 R1) as F1. destruct Q as [|x2 y2].
  { apply rep_inf in R2. unfold point_add. rewrite !inf_Ok. cbn [bind]. rewrite F1, R2. eexists. split; [reflexivity|exact R1]. }
  pose proof (rep_aff w2 x2 y2 R2) as F2. destruct D as [D|D]; [|discriminate].
  destruct w1 as [[X1 Y1] z1]. destruct w2 as [[X2 Y2] z2]. cbn [snd] in F1, F2. rewrite add_code by assumption.
  pose proof (u_eq p256 ec_prime _ _ _ _ _ _ _ _ _ _ R1 R2) as U. pose proof (s_eq p256 ec_prime _ _ _ _ _ _ _ _ _ _ R1 R2) as S.
  destruct (feqb_spec p256 (fmul X1 (fmul z2 z2)) (fmul X2 (fmul z1 z1))) as [E|N].
  - apply U in E. subst x2. destruct (feqb_spec p256 (fmul (fmul Y1 z2) (fmul z2 z2)) (fmul (fmul Y2 z1) (fmul z1 z1))) as [E|N].
    + apply S in E. congruence.
    + eexists. split; [reflexivity|].
      replace (add256 (Aff x1 y1) (Aff x1 y2)) with (@Inf p256); [cbn [jrep]; reflexivity|].
      destruct (same_x p256 ec_prime _ _ _ _ ec_one x1 y1 y2 OP OQ) as [->| ->]; [exfalso; apply N; now apply S|].
      symmetry. exact (add_neg p256 ec_prime _ _ _ (Aff x1 y1)).
  - eexists. split; [reflexivity|]. apply jadd_rep; [exact ec_prime|exact ec_odd| |exact R1|exact R2].
    intros E. apply N. now apply U.
Qed.
Lemma addition_panic w1 w2 x y : Rep w1 (Aff x y) -> Rep w2 (Aff x y) -> point_add (jv w1) (jv w2) = Panic PAssert.
Proof.
  intros R1 R2. pose proof (rep_aff w1 x y R1) as F1. pose proof (rep_aff w2 x y R2) as F2.
  destruct w1 as [[X1 Y1] z1]. destruct w2 as [[X2 Y2] z2]. cbn [snd] in F1, F2. rewrite add_code by assumption.
  pose proof (u_eq p256 ec_prime _ _ _ _ _ _ _ _ _ _ R1 R2) as U. pose proof (s_eq p256 ec_prime _ _ _ _ _ _ _ _ _ _ R1 R2) as S.
  rewrite (proj2 U eq_refl), (proj2 S eq_refl), !feqb_refl. reflexivity.
Qed.

Section Group.
  Lemma on_add256 P Q : on256 P -> on256 Q -> on256 (add256 P Q).
  Proof. apply (on_add p256 ec_prime ec_odd _ _ _ _ ec_one). Qed.
  Lemma comm256 P Q : on256 P -> on256 Q -> add256 P Q = add256 Q P.
  Proof. apply (add_comm p256 ec_prime _ _ _ _ ec_one). Qed.
  Lemma assoc256 P Q R : on256 P -> on256 Q -> on256 R -> add256 (add256 P Q) R = add256 P (add256 Q R).
  Proof. apply (add_assoc p256 ec_prime ec_odd _ _ _ _ ec_one nonsing256). Qed.
  Lemma on_mul256 n P : on256 P -> on256 (mul256 n P).
  Proof. apply (on_mul p256 ec_prime ec_odd _ _ _ _ ec_one). Qed.
  Lemma mul_add256 m n P : on256 P -> mul256 (m + n) P = add256 (mul256 m P) (mul256 n P).
  Proof. apply (mul_add p256 ec_prime ec_odd _ _ _ _ ec_one nonsing256). Qed.
  Lemma mul_mul256 m n P : on256 P -> mul256 m (mul256 n P) = mul256 (m * n) P.
  Proof. apply (mul_mul p256 ec_prime ec_odd _ _ _ _ ec_one nonsing256). Qed.
  Lemma mul_S256 n P : mul256 (S n) P = add256 (mul256 n P) P.
  Proof. reflexivity. Qed.
  Lemma succ_ne n P : on256 P -> P <> Inf -> mul256 n P <> mul256 (S n) P.
  Proof.
    intros O N E. rewrite mul_S256 in E. apply N. rewrite (comm256 _ P) in E by auto using on_mul256. symmetry in E.
    exact (add_eq_r p256 ec_prime ec_odd _ _ b_ _ ec_one nonsing256 P (mul256 n P) O (on_mul256 n P O) E).
  Qed.
End Group.

Lemma ec_step_Ok P k i m w0 w1 : on256 P -> (i < 256)%nat ->
  Rep w0 (mul256 m P) -> Rep w1 (mul256 (S m) P) ->
  exists v0 v1, ec_ladder_step k i (jv w0, jv w1) = Ok (jv v0, jv v1) /\
    let m' := (2 * m + Nat.b2n (Z.testbit k (Z.of_nat (255 - i))))%nat in
    Rep v0 (mul256 m' P) /\ Rep v1 (mul256 (S m') P).
Proof.
  intros O Hi R0 R1. unfold ec_ladder_step. rewrite usub_Ok by lia. cbn [bind].
  pose proof (bit_Ok k (255 - i) ltac:(lia)) as B. unfold nm_bit in B. rewrite B. cbn [bind].
  assert (D : forall n, mul256 (2 * n) P = add256 (mul256 n P) (mul256 n P)).
  { intros n. replace (2 * n)%nat with (n + n)%nat by lia. now apply mul_add256. }
  assert (D1 : add256 (mul256 m P) (mul256 (S m) P) = mul256 (S (2 * m)) P).
  { rewrite <- mul_add256 by assumption. f_equal. lia. }
  assert (D2 : add256 (mul256 (S m) P) (mul256 m P) = mul256 (S (2 * m)) P).
  { rewrite <- mul_add256 by assumption. f_equal. lia. }
  assert (NE : mul256 m P <> mul256 (S m) P \/ mul256 m P = Inf /\ mul256 (S m) P = Inf).
  { destruct P as [|x y]; [right; split; apply mul_inf|]. left. apply succ_ne; [exact O|discriminate]. }
  destruct (Z.testbit k (Z.of_nat (255 - i))); cbn [fst snd Nat.b2n]; rewrite double_Ok; cbn [bind].
  - destruct (addition_Ok w1 w0 (mul256 (S m) P) (mul256 m P)) as (v & E & R); auto using on_mul256.
    { destruct NE as [N|[_ N]]; [left; congruence|now right]. }
    rewrite E. cbn [bind]. rewrite ?B. cbn [bind]. exists v, (jdbl p256 w1). split; [reflexivity|]. cbv zeta.
    rewrite D2 in R. split.
    + now replace (2 * m + 1)%nat with (S (2 * m)) by lia.
    + replace (S (2 * m + 1)) with (2 * S m)%nat by lia. rewrite D. apply (jdbl_rep p256 ec_prime ec_odd b_); [|exact R1].
      apply (on_mul256 (S m)). exact O.
  - destruct (addition_Ok w0 w1 (mul256 m P) (mul256 (S m) P)) as (v & E & R); auto using on_mul256.
    { destruct NE as [N|[N _]]; [now left|now right]. }
    rewrite E. cbn [bind]. rewrite ?B. cbn [bind]. exists (jdbl p256 w0), v. split; [reflexivity|]. cbv zeta.
    rewrite D1 in R. split.
    + replace (2 * m + 0)%nat with (2 * m)%nat by lia. rewrite D. apply (jdbl_rep p256 ec_prime ec_odd b_); [|exact R0].
      apply (on_mul256 m). exact O.
    + now replace (2 * m + 0)%nat with (2 * m)%nat by lia.
Qed.
(** after n turns the first working point is [k / 2^(256-n)]P, the second one more *)
Lemma ec_loop_Ok P k w n : on256 P -> 0 <= k < 2 ^ 256 -> (n <= 256)%nat -> Rep w P ->
  exists v0 v1, for_range 0 n (ec_ladder_step k) (jv (fof _ 0, fof _ 1, fof _ 0), jv w) = Ok (jv v0, jv v1) /\
    let m := Z.to_nat (k / 2 ^ (256 - Z.of_nat n)) in
    Rep v0 (mul256 m P) /\ Rep v1 (mul256 (S m) P).
Proof.
  intros O Hk Hn Rw. induction n as [|n IH].
  - do 2 eexists. split; [reflexivity|]. rewrite Z.div_small by (change (256 - Z.of_nat 0) with 256; exact Hk).
    cbn [Z.to_nat]. split; [reflexivity|]. exact Rw.
  - destruct IH as (v0 & v1 & E & R0 & R1); [lia|].
    assert (SR : forall T (f : nat -> T -> res T) n st s, for_range st (1 + n) f s = bind (for_range st n f s) (f (st + n)%nat)).
    { clear. intros T f n. induction n as [|n IH]; intros st s.
      - cbn. rewrite Nat.add_0_r. now destruct (f st s).
      - change (1 + S n)%nat with (S (1 + n)). cbn [for_range]. destruct (f st s) as [s'|] eqn:Es; cbn [bind]; [|reflexivity].
        rewrite IH. now rewrite Nat.add_succ_comm. }
    change (S n) with (1 + n)%nat at 1. rewrite SR, E. cbn [bind]. rewrite Nat.add_0_l.
    destruct (ec_step_Ok P k n _ v0 v1 O ltac:(lia) R0 R1) as (u0 & u1 & E' & R). exists u0, u1. split; [exact E'|].
    cbv zeta in R |- *.
    replace (Z.to_nat (k / 2 ^ (256 - Z.of_nat (S n)))) with
      (2 * Z.to_nat (k / 2 ^ (256 - Z.of_nat n)) + Nat.b2n (Z.testbit k (Z.of_nat (255 - n))))%nat; [exact R|].
    replace (256 - Z.of_nat n) with (Z.succ (Z.of_nat (255 - n))) by lia.
    replace (256 - Z.of_nat (S n)) with (Z.of_nat (255 - n)) by lia.
    rewrite Z.pow_succ_r by lia. rewrite (Z.mul_comm 2), <- Z.div_div by (try apply Z.pow_nonzero; lia).
    rewrite Z.testbit_odd, Z.shiftr_div_pow2 by lia. set (q := k / 2 ^ Z.of_nat (255 - n)).
    assert (0 <= q) by (apply Z.div_pos; [lia|apply Z.pow_pos_nonneg; lia]).
    pose proof (Z.div_mod q 2 ltac:(lia)) as DM. rewrite Zmod_odd in DM. pose proof (Z.div_pos q 2 ltac:(lia) ltac:(lia)).
    destruct (Z.odd q); cbn [Nat.b2n]; lia.
Qed.
Lemma ec_ladder_Ok P k w : on256 P -> 0 <= k < 2 ^ 256 -> Rep w P ->
  exists v, ec_montgomery_ladder k (jv w) = Ok (jv v) /\ Rep v (mul256 (Z.to_nat k) P).
Proof.
  intros O Hk R. destruct (ec_loop_Ok P k w 256 O Hk (le_n _) R) as (v0 & v1 & E & R0 & _).
  exists v0. unfold ec_montgomery_ladder. rewrite elit0. cbn [bind]. rewrite elit1. cbn [bind].
  change (fval (fof p256 0), fval (fof p256 1), fval (fof p256 0)) with (jv (fof p256 0, fof _ 1, fof _ 0)).
  match goal with |- bind ?X ?g = _ /\ _ => assert (EX : X = Ok (jv v0, jv v1)) by exact E; rewrite EX end. cbn [bind fst].
  split; [reflexivity|]. cbv zeta in R0. change (256 - Z.of_nat 256) with 0 in R0. now rewrite Z.pow_0_r, Z.div_1_r in R0.
Qed.
Lemma on_G256 : on256 G256.
Proof. apply fval_inj. vm_compute. reflexivity. Qed.
Lemma base_Ok : nm_from_hex 256 ec_p base_x_hex = Ok gx256 /\ nm_from_hex 256 ec_p base_y_hex = Ok gy256.
Proof. split; vm_compute; reflexivity. Qed.
Lemma point_mul_Ok k : 0 <= k < 2 ^ 256 -> point_mul k = Ok (coordinates (mul256 (Z.to_nat k) G256)).
Proof.
  intros Hk. unfold point_mul. destruct base_Ok as [-> ->]. cbn [bind]. rewrite elit1. cbn [bind].
  assert (V : forall c, 0 <= c < p256 -> fval (fof p256 c) = c) by (intros c Hc; rewrite fval_of; now apply Z.mod_small).
  assert (RG : Rep (fof _ gx256, fof _ gy256, fof _ 1) G256).
  { cbn [jrep G256]. split; [exact ec_one|]. split; ring. }
  destruct (ec_ladder_Ok G256 k _ on_G256 Hk RG) as (v & E & R). unfold jv in E at 1.
  rewrite (V gx256), (V gy256) in E by (split; [discriminate|reflexivity]). rewrite E. cbn [bind].
  rewrite affine_Ok. rewrite (jaff_rep p256 ec_prime ec_odd v _ R). destruct (mul256 _ _); cbn [acoord coordinates fst snd]; [|reflexivity].
  rewrite !V by (split; [discriminate|reflexivity]). reflexivity.
Qed.
