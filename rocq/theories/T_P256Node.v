(** The P-256 ladder at every pair of coordinates, and on the two singular cubics: C110. *)
From Coq Require Import ZArith Znumtheory List Bool Arith Lia Field.
From Verif Require Import Base P_Base M_Int M_NatMod M_P256 P_Prime P_Mod S_Curve P_Curve P_Jacobian P_Group P_Order S_P256 S_P256Node
  P_P256 P_P256Any P_OrderP256 P_P256Node T_P256 T_OrderP256 T_P256Any.
Import ListNotations.
Open Scope Z_scope.
#[local] Opaque Z.to_nat.
Add Field F256tn : (fp_field p256 ec_prime) (morphism (fp_morph p256), constants [fp_const]).

(** The ladder started at any Jacobian coordinates does not panic, and gives the multiple of the point. *)
Theorem C110_ladder : forall P k x y z, 0 <= k < 2 ^ 256 -> jacobian x y z P ->
  exists x' y' z', ec_montgomery_ladder k (x, y, z) = Ok (x', y', z') /\
    jacobian x' y' z' (mul256 (Z.to_nat k) P) /\
    jacobian_to_affine (x', y', z') = Ok (coordinates (mul256 (Z.to_nat k) P)).
Proof.
  intros P k x y z Hk J. apply jac_iff in J as (w & <- & R).
  destruct (ladder_every P k w Hk R) as (v & E & Rv).
  destruct (jv v) as [[x' y'] z'] eqn:Ev. exists x', y', z'. split; [exact E|]. split; [apply jac_iff; now exists v|].
  rewrite <- Ev, affine_Ok, (jaff_rep p256 ec_prime ec_odd v _ Rv).
  destruct (mul256 (Z.to_nat k) P); reflexivity.
Qed.
Lemma mult_every x y k : 0 <= x < p256 -> 0 <= y < p256 -> 0 <= k < 2 ^ 256 ->
  mult k x y = Ok (coordinates (mul256 (Z.to_nat k) (Aff (fof _ x) (fof _ y)))).
Proof.
  intros Hx Hy Hk. destruct (C110_ladder _ k x y 1 Hk (jac_affine x y Hx Hy)) as (x' & y' & z' & -> & _ & E). exact E.
Qed.
Lemma mult_point P k : P <> Inf -> 0 <= k < 2 ^ 256 ->
  mult k (fst (coordinates P)) (snd (coordinates P)) = Ok (coordinates (mul256 (Z.to_nat k) P)).
Proof.
  intros N Hk. destruct P as [|x y]; [contradiction|]. cbn [coordinates fst snd].
  rewrite mult_every by (try exact Hk; apply fval_range; reflexivity). now rewrite !fof_val.
Qed.
Example C110_ladder_ex : jacobian 1 0 1 (Aff (fof _ 1) (fof _ 0)) /\ ~ smooth (own 1 0) /\
  (exists x' y' z', ec_montgomery_ladder 3 (1, 0, 1) = Ok (x', y', z') /\ jacobian_to_affine (x', y', z') = Ok (1, 0)).
Proof.
  assert (J : jacobian 1 0 1 (Aff (fof _ 1) (fof _ 0))) by (apply jac_affine; split; (discriminate || reflexivity)).
  split; [exact J|]. split; [unfold smooth; vm_compute; tauto|].
  destruct (C110_ladder _ 3 1 0 1 ltac:(lia) J) as (x' & y' & z' & E & _ & A). exists x', y', z'. split; [exact E|].
  rewrite A. change (fof p256 1) with (fof p256 1). rewrite (sing_mul (fof p256 1)). reflexivity.
Qed.

(** A point with y = 0 gives the parity of the scalar, whatever x is. *)
Theorem C110_parity : forall x k, 0 <= x < p256 -> 0 <= k < 2 ^ 256 ->
  mult k x 0 = Ok (if Z.odd k then (x, 0) else (0, 0)).
Proof.
  intros x k Hx Hk. rewrite mult_every by (assumption || (split; [lia|reflexivity])). apply (f_equal Ok).
  rewrite sing_mul.
  assert (O : Nat.odd (Z.to_nat k) = Z.odd k).
  { rewrite <- (Z2Nat.id k) at 2 by lia. rewrite <- Nat.negb_even, <- Z.negb_even. f_equal.
    apply eq_true_iff_eq. rewrite Nat.even_spec, Z.even_spec. split; intros [h H].
    - exists (Z.of_nat h). lia.
    - exists (Z.to_nat h). lia. }
  rewrite O. destruct (Z.odd k); [|reflexivity]. cbn [coordinates]. now rewrite !fval_of, (Z.mod_small x) by lia.
Qed.
Example C110_parity_ex : ~ smooth (3 * 1 - 1 ^ 3) /\ mult 6 1 0 = Ok (0, 0) /\ mult 7 1 0 = Ok (1, 0).
Proof.
  assert (H1 : 0 <= 1 < p256) by (split; [discriminate|reflexivity]).
  split; [unfold smooth; vm_compute; tauto|]. split; [exact (C110_parity 1 6 H1 ltac:(lia))|exact (C110_parity 1 7 H1 ltac:(lia))].
Qed.

(** ** The singular cubics *)
Lemma e_cases e : e = 1 \/ e = -1 -> fof p256 e = fof p256 1 \/ fof p256 e = fopp (fof p256 1).
Proof. intros [->| ->]; [now left|right]. exact (fof_opp p256 1). Qed.
(** Only b = 2 and b = -2 are not smooth; on such a cubic, with e = b / 2, each point is infinity, the singular point (e, 0),
    or the point of a slope t, and then the ladder computes the powers of t + s, where s^2 = 3e. *)
Theorem C110_singular : forall b P, ~ smooth b -> on_b b P -> exists e, (e = 1 \/ e = -1) /\ b mod p256 = (2 * e) mod p256 /\
  (P = Inf \/ P = Aff (fof _ e) (fof _ 0) \/
   exists t, fmul t t <> fof _ (3 * e) /\ P = node_point (fof _ e) t /\
     forall k, 0 <= k < 2 ^ 256 -> mult k (fst (coordinates P)) (snd (coordinates P)) =
       Ok (coordinates (node_of (fof _ e) (node_pow (fof _ e) t (Z.to_nat k))))).
Proof.
  intros b P NS O. unfold smooth in NS.
  assert (B : (b * b) mod p256 = 4) by (destruct (Z.eq_dec ((b * b) mod p256) 4); [assumption|contradiction]).
  assert (E : exists e, (e = 1 \/ e = -1) /\ b mod p256 = (2 * e) mod p256).
  { assert (Z : fmul (fsub (fof p256 b) (fof _ 2)) (fsub (fof p256 b) (fof _ (-2))) = fof _ 0).
    { transitivity (fsub (fmul (fof p256 b) (fof _ b)) (fof _ 4)); [ring|]. rewrite <- fof_mul. rewrite <- (fof_mod p256 (b * b)), B. ring. }
    apply (fmul_0 p256 ec_prime) in Z as [Z|Z]; apply sub_eq, fof_inj in Z; [exists 1|exists (-1)]; split; auto. }
  destruct E as (e & E1 & Eb). exists e. split; [exact E1|]. split; [exact Eb|].
  assert (O' : on_curve p256 (fof _ 0) (fopp (fof _ 3)) (fmul (fof _ 2) (fof _ e)) (fof _ 1) P).
  { rewrite <- fof_mul. rewrite <- (fof_eq p256 _ _ Eb). exact O. }
  destruct (node_points (fof _ e) (e_cases e E1) P O') as [H|[H|(t & Nt & H)]]; [now left|right; now left|right; right].
  exists t. rewrite fof_mul. split; [exact Nt|]. split; [exact H|]. intros k Hk.
  rewrite mult_point by (try exact Hk; rewrite H; discriminate). rewrite H. now rewrite (node_mul _ (e_cases e E1) t Nt).
Qed.
(** the hypotheses hold, and the third case occurs: the cube of 3 + s is 27 + 27 s + 9 s^2 + s^3 = 54 + 30 s, as s^2 = 3 *)
Example C110_singular_ex : ~ smooth 2 /\ on_b 2 (Aff (fof _ 7) (fof _ 18)) /\ Aff (fof _ 7) (fof _ 18) = node_point (fof _ 1) (fof _ 3) /\
  mult 3 7 18 = Ok (coordinates (node_point (fof _ 1) (fdiv (fof _ 9) (fof _ 5)))).
Proof.
  assert (P3 : Aff (fof _ 7) (fof _ 18) = node_point (fof _ 1) (fof _ 3)).
  { unfold node_point. apply f_equal2; apply fval_inj; vm_compute; reflexivity. }
  split; [unfold smooth; vm_compute; tauto|]. split; [unfold on_b, on_curve, cubic; ring|]. split; [exact P3|].
  rewrite mult_every by lia || (split; [discriminate|reflexivity]). apply (f_equal Ok). rewrite P3.
  rewrite (node_mul (fof _ 1) (or_introl eq_refl)).
  - apply (f_equal coordinates). assert (N : forall n, n mod p256 <> 0 -> fof p256 n <> fof _ 0) by (intros n Hn H; apply Hn; exact (fof_inj _ _ _ H)).
    replace (node_pow (fof _ 1) (fof _ 3) (Z.to_nat 3)) with (fof p256 54, fof p256 30).
    + unfold node_of. cbn [fst snd]. rewrite (feqb_ne p256) by (apply N; vm_compute; discriminate). apply (f_equal (node_point _)).
      field. split; apply N; vm_compute; discriminate.
    + replace (Z.to_nat 3) with 3%nat by lia. cbn [node_pow]. apply f_equal2; ring.
  - intros H. apply (f_equal fval) in H. vm_compute in H. discriminate.
Qed.

(** ** y^2 = x^3 - 3x - 2: discrete logarithms modulo p256 *)
(** a square root of -3 *)
Definition root3 : Z := fval (fof p256 (fpow (-3) ((p256 + 1) / 4) p256)).
(** the point belonging to u; its slope t has (t + s) / (t - s) = u *)
Definition log_point (u : Fp p256) : point p256 :=
  if feqb u (fof _ 1) then Inf
  else node_point (fof _ (-1)) (fdiv (fmul (fof _ root3) (fadd u (fof _ 1))) (fsub u (fof _ 1))).
Lemma root3_ok : fmul (fof p256 root3) (fof p256 root3) = fof p256 (-3).
Proof. apply fval_inj. vm_compute. reflexivity. Qed.
Lemma root3_ne : fof p256 root3 <> fof p256 0.
Proof. intros H. apply (f_equal fval) in H. vm_compute in H. discriminate. Qed.
Lemma root3_mul : fmul (fof p256 3) (fof p256 (-1)) = fmul (fof p256 root3) (fof p256 root3).
Proof. rewrite root3_ok. ring. Qed.
Lemma log_slope s u : s <> fof p256 0 -> u <> fof _ 0 -> u <> fof _ 1 ->
  let t := fdiv (fmul s (fadd u (fof _ 1))) (fsub u (fof p256 1)) in fmul t t <> fmul s s.
Proof.
  intros Ns N0 N1 t E. apply ne_sub in N1.
  assert (Z : fmul (fof p256 4) (fmul u (fmul s s)) = fof _ 0).
  { transitivity (fmul (fsub (fmul t t) (fmul s s)) (fmul (fsub u (fof _ 1)) (fsub u (fof p256 1)))); [unfold t; field; exact N1|].
    rewrite E. ring. }
  apply (fmul_0 p256 ec_prime) in Z as [Z|Z]; [apply (f_equal fval) in Z; vm_compute in Z; discriminate|].
  apply (fmul_0 p256 ec_prime) in Z as [Z|Z]; [contradiction|]. apply (fmul_0 p256 ec_prime) in Z as [Z|Z]; contradiction.
Qed.
Lemma m1_cases : fof p256 (-1) = fof p256 1 \/ fof p256 (-1) = fopp (fof p256 1).
Proof. apply e_cases. now right. Qed.
Lemma log_add u v : u <> fof _ 0 -> v <> fof _ 0 -> log_point (fmul u v) = add256 (log_point u) (log_point v).
Proof.
  intros Nu Nv. unfold log_point.
  destruct (feqb_spec p256 u (fof _ 1)) as [->|U1].
  { replace (fmul (fof p256 1) v) with v by ring. reflexivity. }
  destruct (feqb_spec p256 v (fof _ 1)) as [->|V1].
  { replace (fmul u (fof p256 1)) with u by ring. rewrite (feqb_ne p256) by exact U1. reflexivity. }
  pose proof root3_mul as RM. pose proof root3_ne as RN. generalize dependent (fof p256 root3). intros s RM RN.
  rewrite (np_add _ m1_cases) by (rewrite RM; now apply log_slope).
  rewrite RM. apply ne_sub in U1, V1.
  assert (T2 : fof p256 2 <> fof _ 0) by exact two_256.
  assert (S : fadd (fdiv (fmul s (fadd u (fof _ 1))) (fsub u (fof _ 1))) (fdiv (fmul s (fadd v (fof _ 1))) (fsub v (fof _ 1))) =
    fdiv (fmul (fmul (fof p256 2) s) (fsub (fmul u v) (fof _ 1))) (fmul (fsub u (fof _ 1)) (fsub v (fof _ 1)))) by (field; split; assumption).
  rewrite S. destruct (feqb_spec p256 (fmul u v) (fof _ 1)) as [E|N].
  - rewrite E. replace (fsub (fof p256 1) (fof _ 1)) with (fof p256 0) by ring.
    replace (fdiv (fmul (fmul (fof p256 2) s) (fof _ 0)) (fmul (fsub u (fof _ 1)) (fsub v (fof _ 1)))) with (fof p256 0) by (field; split; assumption).
    now rewrite (feqb_refl p256).
  - apply ne_sub in N. rewrite (feqb_ne p256).
    + apply (f_equal (node_point _)). field. repeat split; assumption.
    + intros Z. apply (P_Curve.fmul_ne p256 ec_prime _ _ (P_Curve.fmul_ne p256 ec_prime _ _ T2 RN) N).
      transitivity (fmul (fdiv (fmul (fmul (fof p256 2) s) (fsub (fmul u v) (fof _ 1))) (fmul (fsub u (fof _ 1)) (fsub v (fof _ 1))))
        (fmul (fsub u (fof _ 1)) (fsub v (fof _ 1)))); [field; split; assumption|]. rewrite Z. ring.
Qed.
Lemma log_mul u n : fof p256 u <> fof _ 0 -> mul256 n (log_point (fof _ u)) = log_point (fof _ (u ^ Z.of_nat n)).
Proof.
  intros N.
  assert (NP : forall n, fof p256 (u ^ Z.of_nat n) <> fof _ 0).
  { clear n. intros n. induction n as [|n IH]; [exact ec_one|]. rewrite Nat2Z.inj_succ, Z.pow_succ_r, fof_mul by lia.
    now apply (P_Curve.fmul_ne p256 ec_prime). }
  induction n as [|n IH].
  - change (u ^ Z.of_nat 0) with 1. unfold log_point. rewrite (feqb_refl p256). reflexivity.
  - change (mul256 (S n) (log_point (fof _ u))) with (add256 (mul256 n (log_point (fof p256 u))) (log_point (fof _ u))).
    rewrite IH, Nat2Z.inj_succ, Z.pow_succ_r, Z.mul_comm, fof_mul by lia. symmetry. apply log_add; [apply NP|exact N].
Qed.
Lemma log_inj u v : u <> fof _ 0 -> v <> fof _ 0 -> log_point u = log_point v -> u = v.
Proof.
  intros Nu Nv. unfold log_point.
  destruct (feqb_spec p256 u (fof _ 1)) as [->|U1], (feqb_spec p256 v (fof _ 1)) as [->|V1];
    [reflexivity|discriminate|discriminate|].
  pose proof root3_mul as RM. pose proof root3_ne as RN. generalize dependent (fof p256 root3). intros s RM RN E.
  apply np_inj in E; [|rewrite RM; now apply log_slope]. apply ne_sub in U1, V1.
  assert (Z : fmul (fof p256 2) (fmul s (fsub v u)) = fof _ 0).
  { transitivity (fmul (fsub (fdiv (fmul s (fadd u (fof _ 1))) (fsub u (fof _ 1))) (fdiv (fmul s (fadd v (fof _ 1))) (fsub v (fof p256 1))))
      (fmul (fsub u (fof _ 1)) (fsub v (fof p256 1)))); [field; split; assumption|]. rewrite E. ring. }
  apply (fmul_0 p256 ec_prime) in Z as [Z|Z]; [contradiction (two_256 Z)|].
  apply (fmul_0 p256 ec_prime) in Z as [Z|Z]; [contradiction|]. symmetry. now apply sub_eq.
Qed.
(** For every u from 2 to p256 - 1 there is a point on y^2 = x^3 - 3x - 2 for which the ladder computes u^k modulo p256:
    the result is the point belonging to u^k, and two results are equal exactly if the powers are. *)
Theorem C110_discrete_log : forall u k k', 1 < u < p256 -> 0 <= k < 2 ^ 256 -> 0 <= k' < 2 ^ 256 ->
  let (x, y) := coordinates (log_point (fof _ u)) in
  on_b (-2) (Aff (fof _ x) (fof _ y)) /\ 0 <= x < p256 /\ 0 <= y < p256 /\
  mult k x y = Ok (coordinates (log_point (fof _ (u ^ k)))) /\
  (mult k x y = mult k' x y <-> u ^ k mod p256 = u ^ k' mod p256).
Proof.
  intros u k k' Hu Hk Hk'.
  assert (N0 : fof p256 u <> fof _ 0).
  { intros H. apply fof_inj in H. rewrite (Z.mod_small u) in H by lia. change (0 mod p256) with 0 in H. lia. }
  assert (N1 : fof p256 u <> fof _ 1).
  { intros H. apply fof_inj in H. rewrite (Z.mod_small u) in H by lia. change (1 mod p256) with 1 in H. lia. }
  assert (NP : forall n, 0 <= n -> fof p256 (u ^ n) <> fof _ 0).
  { apply natlike_ind; [exact ec_one|]. intros n Hn IH. rewrite Z.pow_succ_r, fof_mul by exact Hn.
    now apply (P_Curve.fmul_ne p256 ec_prime). }
  assert (OL : forall v, on_b (-2) (log_point v)).
  { intros v. unfold log_point. destruct (feqb v (fof _ 1)); [exact I|].
    pose proof (on_np _ m1_cases (fdiv (fmul (fof _ root3) (fadd v (fof _ 1))) (fsub v (fof p256 1)))) as O.
    rewrite <- fof_mul in O. exact O. }
  assert (NI : log_point (fof _ u) <> Inf) by (unfold log_point; rewrite (feqb_ne p256) by exact N1; discriminate).
  pose proof (mult_point _ k NI Hk) as Mk. pose proof (mult_point _ k' NI Hk') as Mk'. pose proof (OL (fof _ u)) as Ou.
  rewrite log_mul, Z2Nat.id in Mk, Mk' by (lia || exact N0).
  destruct (log_point (fof p256 u)) as [|X Y]; [contradiction|]. cbn [coordinates fst snd] in *.
  rewrite !fof_val. split; [exact Ou|]. split; [apply fval_range; reflexivity|]. split; [apply fval_range; reflexivity|].
  split; [exact Mk|]. rewrite Mk, Mk'. split.
  - intros E. apply Ok_inj in E. apply (coordinates_inj (-2)) in E; [|vm_compute; discriminate|apply OL|apply OL].
    apply log_inj in E; [|apply NP; lia|apply NP; lia]. now apply fof_inj.
  - intros E. now rewrite (fof_eq p256 _ _ E).
Qed.
Lemma off_curve b x y : 0 <= b < p256 -> b <> b256 -> on_b b (Aff x y) -> ~ on256 (Aff x y).
Proof.
  intros Hb N O O'. destruct (C107_own_curve (Aff x y) ltac:(discriminate)) as (c & _ & _ & U). apply N.
  rewrite (U b Hb O). symmetry. apply U; [split; [discriminate|reflexivity]|exact O'].
Qed.
Lemma off_node e x y : e = 1 \/ e = -1 -> on_b (2 * e) (Aff x y) -> ~ on256 (Aff x y).
Proof.
  intros E O. apply (off_curve ((2 * e) mod p256)).
  - apply Z.mod_pos_bound. reflexivity.
  - destruct E as [->| ->]; vm_compute; discriminate.
  - unfold on_b. rewrite fof_mod. exact O.
Qed.
Example C110_discrete_log_ex : let (x, y) := coordinates (log_point (fof _ 2)) in
  mult 5 x y = Ok (coordinates (log_point (fof _ 32))) /\ ~ on256 (Aff (fof _ x) (fof _ y)).
Proof.
  pose proof (C110_discrete_log 2 5 5 ltac:(split; reflexivity) ltac:(lia) ltac:(lia)) as H.
  change (2 ^ 5) with 32 in H. destruct (coordinates (log_point (fof p256 2))) as [x y]. destruct H as (O & _ & _ & E & _).
  split; [exact E|exact (off_node (-1) _ _ (or_intror eq_refl) O)].
Qed.

(** ** Two points that tell the scalar *)
(** the coordinates of the point of slope r *)
Definition nx (e r : Z) : Z := (r * r - 2 * e) mod p256.
Definition ny (e r : Z) : Z := (r * (r * r - 3 * e)) mod p256.
Lemma n_point e r : Aff (fof _ (nx e r)) (fof _ (ny e r)) = node_point (fof p256 e) (fof p256 r).
Proof.
  unfold node_point, nx, ny. apply f_equal2; rewrite fof_mod.
  - rewrite fof_sub, !fof_mul. reflexivity.
  - rewrite fof_mul, fof_sub, !fof_mul. ring.
Qed.
Lemma n_residue e r l : e = 1 \/ e = -1 -> (r * r - 3 * e) mod p256 <> 0 -> (forall q, In q l -> prime q) -> order_check e r l = true ->
  0 <= nx e r < p256 /\ 0 <= ny e r < p256 /\ ~ on256 (Aff (fof _ (nx e r)) (fof _ (ny e r))) /\
  forall k k', 0 <= k < 2 ^ 256 -> 0 <= k' < 2 ^ 256 -> is_ok (mult k (nx e r) (ny e r)) /\
    (mult k (nx e r) (ny e r) = mult k' (nx e r) (ny e r) <-> k mod zprod l = k' mod zprod l).
Proof.
  intros E1 N Pr C. pose proof (e_cases e E1) as e1.
  assert (Nt : fmul (fof p256 r) (fof p256 r) <> fmul (fof p256 3) (fof p256 e)).
  { rewrite <- !fof_mul. intros H. apply N. apply fof_inj in H. rewrite Zminus_mod, H, Z.sub_diag. reflexivity. }
  assert (X : 0 <= nx e r < p256) by (apply Z.mod_pos_bound; reflexivity).
  assert (Y : 0 <= ny e r < p256) by (apply Z.mod_pos_bound; reflexivity).
  assert (O : on_b (2 * e) (Aff (fof _ (nx e r)) (fof _ (ny e r)))).
  { rewrite n_point. unfold on_b. rewrite fof_mul. apply (on_np _ e1). }
  split; [exact X|]. split; [exact Y|]. split; [exact (off_node e _ _ E1 O)|]. intros k k' Hk Hk'.
  rewrite !mult_every by assumption. split; [eexists; reflexivity|].
  assert (Lp : 0 < zprod l).
  { clear - Pr. induction l as [|q l IH]; cbn [zprod fold_right]; [lia|]. assert (P : prime q) by (apply Pr; now left).
    pose proof (prime_ge_2 q P). apply Z.mul_pos_pos; [lia|]. apply IH. intros; apply Pr; now right. }
  transitivity (zprod l | k - k').
  - rewrite <- (order_residue e r e1 Nt l k k' Pr C) by lia. rewrite <- n_point. split.
    + intros H. apply Ok_inj in H. apply (coordinates_inj (2 * e)) in H; [exact H| | |].
      * destruct E1 as [->| ->]; vm_compute; discriminate.
      * exact (on_mul_any _ _ _ O).
      * exact (on_mul_any _ _ _ O).
    + intros H. now rewrite H.
  - rewrite <- Z.mod_divide by lia. split; intros H.
    + rewrite <- (Z.sub_add k' k), Z.add_mod, H, Z.add_0_l, Z.mod_mod by lia. reflexivity.
    + rewrite Zminus_mod, H, Z.sub_diag. apply Z.mod_0_l. lia.
Qed.

Definition l1 : list Z := [2; 3; 5; 5; 17; 257; 641; 1531; 65537; 490463; 6700417].
Definition l2 : list Z := repeat 2 96 ++ [7; 274177; 67280421310721].
Definition r1 : Z := 0x891733872b4677dfb1e7e3f3de65c0aa5347d79085ccc3f541f349baf7625996.
Definition r2 : Z := 0x648d41dc77f1185218df53a6b5235881fcfdd0b2222291598bc1078765e1dd9d.
Lemma primes_l q : In q (l1 ++ l2) -> prime q /\ q < 2 ^ 46.
Proof.
  assert (P : forall q, In q [2; 3; 5; 7; 17; 47; 257; 641; 1531; 65537; 490463; 274177] -> prime q).
  { pose (c := map (fun q : Z => (q, @nil Z)) [2; 3; 5; 7; 17; 47; 257; 641; 1531; 65537; 490463; 274177]).
    intros x Hx. apply (check_cert_spec c []); [intros y []|vm_compute; reflexivity|exact Hx]. }
  assert (PA : prime 6700417) by (apply (trial_prime _ 2600); [reflexivity|reflexivity|vm_compute; reflexivity]).
  assert (PB : prime 2998279) by (apply (trial_prime _ 1800); [reflexivity|reflexivity|vm_compute; reflexivity]).
  assert (PC : prime 67280421310721).
  { apply (pocklington _ 3 [2998279; 47]); [|apply nodupb_spec; reflexivity|vm_compute; reflexivity].
    intros x [<-|[<-|[]]]; [exact PB|apply P; cbn [In]; tauto]. }
  intros H. assert (Q : In q [2; 3; 5; 7; 17; 257; 641; 1531; 65537; 490463; 274177; 6700417; 67280421310721]).
  { apply in_app_or in H as [H|H]; [unfold l1 in H; cbn [In] in *; tauto|]. unfold l2 in H. apply in_app_or in H as [H|H].
    - apply repeat_spec in H. left. now symmetry.
    - cbn [In] in *. tauto. }
  split.
  - cbn [In] in Q, P. repeat (destruct Q as [<-|Q]; [first [exact PA|exact PC|apply P; tauto]|]). destruct Q.
  - cbn [In] in Q. repeat (destruct Q as [<-|Q]; [reflexivity|]). destruct Q.
Qed.
Lemma orders_l : order_check (-1) r1 l1 = true /\ order_check 1 r2 l2 = true /\
  (r1 * r1 - 3 * -1) mod p256 <> 0 /\ (r2 * r2 - 3 * 1) mod p256 <> 0.
Proof. split; [vm_compute; reflexivity|]. split; [vm_compute; reflexivity|]. split; vm_compute; discriminate. Qed.
Lemma lcm_l k k' : 0 <= k < 2 ^ 256 -> 0 <= k' < 2 ^ 256 ->
  k mod zprod l1 = k' mod zprod l1 -> k mod zprod l2 = k' mod zprod l2 -> k = k'.
Proof.
  intros Hk Hk' H1 H2.
  assert (D : forall m, 0 < m -> k mod m = k' mod m -> (m | k - k')).
  { intros m Hm H. apply Z.mod_divide; [lia|]. rewrite Zminus_mod, H, Z.sub_diag. apply Z.mod_0_l. lia. }
  apply D in H1; [|reflexivity]. apply D in H2; [|reflexivity].
  assert (G : rel_prime (zprod (tl l1)) (zprod l2)) by (apply Zgcd_1_rel_prime; vm_compute; reflexivity).
  assert (H3 : (zprod (tl l1) | k - k')) by (apply Z.divide_trans with (zprod l1); [exists 2; vm_compute; reflexivity|exact H1]).
  destruct H2 as [j J]. rewrite J in H3. rewrite Z.mul_comm in H3. apply (Gauss _ _ _) in H3; [|exact G].
  destruct H3 as [i I]. subst j.
  assert (B : 2 ^ 256 <= zprod (tl l1) * zprod l2) by (vm_compute; discriminate).
  rewrite <- Z.mul_assoc in J. generalize dependent (zprod (tl l1) * zprod l2). intros M J B. clear - Hk Hk' J B.
  assert (i = 0) by nia. lia.
Qed.
(** Full statement: the results of scalar multiplication for points that are not on P-256 do not give away the scalar.
    Two such results do: the points have orders that are products of primes below 2^46, so that discrete logarithms to
    them are a matter of steps the size of these primes, each result tells the scalar modulo the order, and no two scalars
    have the same two results. *)
Theorem C110_two_points_refuted : exists (q1 q2 : Z * Z) (l1 l2 : list Z),
  Forall (fun q => 0 <= fst q < p256 /\ 0 <= snd q < p256 /\ ~ on256 (Aff (fof _ (fst q)) (fof _ (snd q)))) [q1; q2] /\
  Forall (fun f => prime f /\ f < 2 ^ 46) (l1 ++ l2) /\
  forall k k', 0 <= k < 2 ^ 256 -> 0 <= k' < 2 ^ 256 ->
    is_ok (mult k (fst q1) (snd q1)) /\ is_ok (mult k (fst q2) (snd q2)) /\
    (mult k (fst q1) (snd q1) = mult k' (fst q1) (snd q1) <-> k mod fold_right Z.mul 1 l1 = k' mod fold_right Z.mul 1 l1) /\
    (mult k (fst q2) (snd q2) = mult k' (fst q2) (snd q2) <-> k mod fold_right Z.mul 1 l2 = k' mod fold_right Z.mul 1 l2) /\
    (mult k (fst q1) (snd q1) = mult k' (fst q1) (snd q1) -> mult k (fst q2) (snd q2) = mult k' (fst q2) (snd q2) -> k = k').
Proof.
  destruct orders_l as (C1 & C2 & N1 & N2).
  destruct (n_residue (-1) r1 l1 (or_intror eq_refl) N1) as (X1 & Y1 & F1 & R1);
    [intros q Hq; apply primes_l, in_or_app; now left|exact C1|].
  destruct (n_residue 1 r2 l2 (or_introl eq_refl) N2) as (X2 & Y2 & F2 & R2);
    [intros q Hq; apply primes_l, in_or_app; now right|exact C2|].
  exists (nx (-1) r1, ny (-1) r1), (nx 1 r2, ny 1 r2), l1, l2. split; [|split].
  - apply Forall_cons; [exact (conj X1 (conj Y1 F1))|]. apply Forall_cons; [exact (conj X2 (conj Y2 F2))|apply Forall_nil].
  - apply Forall_forall. exact primes_l.
  - intros k k' Hk Hk'. destruct (R1 k k' Hk Hk') as (O1 & E1). destruct (R2 k k' Hk Hk') as (O2 & E2).
    split; [exact O1|]. split; [exact O2|]. split; [exact E1|]. split; [exact E2|].
    intros H1 H2. exact (lcm_l k k' Hk Hk' (proj1 E1 H1) (proj1 E2 H2)).
Qed.
Print Assumptions C110_ladder.
Print Assumptions C110_parity.
Print Assumptions C110_singular.
Print Assumptions C110_discrete_log.
Print Assumptions C110_two_points_refuted.
