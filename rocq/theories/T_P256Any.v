(** The P-256 ladder on points that are not on P-256: C107. *)
From Coq Require Import ZArith Znumtheory List Bool Arith Lia Field.
From Verif Require Import Base P_Base M_Int M_NatMod M_P256 P_Prime P_Mod S_Curve P_Curve P_Jacobian P_Group P_Order S_P256 P_P256 P_P256Any
  P_OrderP256 T_P256 T_OrderP256.
Import ListNotations.
Open Scope Z_scope.
#[local] Opaque Z.to_nat.
Add Field F256t : (fp_field p256 ec_prime) (morphism (fp_morph p256), constants [fp_const]).

(** the points of y^2 = x^3 - 3x + b; P-256 is the one with b = b256 *)
Definition on_b (b : Z) (P : point p256) : Prop :=
  on_curve p256 (fof p256 0) (fopp (fof p256 3)) (fof p256 b) (fof p256 1) P.
(** the curve has no singular point *)
Definition smooth (b : Z) : Prop := (b * b) mod p256 <> 4.
(** m is the least positive number with [m]P = infinity *)
Definition order_is (P : point p256) (m : nat) : Prop :=
  (0 < m)%nat /\ mul256 m P = Inf /\ forall j, (0 < j < m)%nat -> mul256 j P <> Inf.

Lemma smooth_ns b : smooth b -> nonsingular p256 (fof _ 0) (fopp (fof _ 3)) (fof p256 b).
Proof.
  intros S. apply nonsing_any. intros E. apply S. rewrite <- fof_mul in E. apply fof_inj in E. rewrite E. reflexivity.
Qed.
Lemma smooth_256 : smooth b256.
Proof. vm_compute. discriminate. Qed.
Lemma on_b256 P : on_b b256 P <-> on256 P.
Proof. reflexivity. Qed.

(** Every finite point lies on exactly one of these curves. *)
Theorem C107_own_curve : forall P, P <> Inf -> exists b, 0 <= b < p256 /\ on_b b P /\
  forall b', 0 <= b' < p256 -> on_b b' P -> b' = b.
Proof.
  intros [|x y] N; [contradiction|].
  set (c := fsub (fmul y y) (fadd (fmul (fmul x x) x) (fmul (fopp (fof _ 3)) x))).
  assert (V : forall b, 0 <= b < p256 -> fval (fof p256 b) = b) by (intros b Hb; rewrite fval_of; now apply Z.mod_small).
  exists (fval c). assert (R : 0 <= fval c < p256) by (apply fval_range; reflexivity). split; [exact R|]. split.
  - unfold on_b, on_curve. rewrite fof_val. unfold cubic, c. ring.
  - intros b' Hb H. unfold on_b, on_curve, cubic in H. rewrite <- (V b' Hb). f_equal.
    transitivity (fsub (fadd (fadd (fadd (fmul (fmul x x) x) (fmul (fof p256 0) (fmul x x))) (fmul (fopp (fof _ 3)) x)) (fof p256 b'))
      (fadd (fmul (fmul x x) x) (fmul (fopp (fof _ 3)) x))); [ring|]. rewrite <- H. unfold c. ring.
Qed.
(** On every smooth one of them the sum of P-256 is a group law. *)
Theorem C107_group : forall b P Q R, smooth b -> on_b b P -> on_b b Q -> on_b b R ->
  on_b b (add256 P Q) /\ add256 P Q = add256 Q P /\ add256 (add256 P Q) R = add256 P (add256 Q R) /\
  on_b b (pneg p256 P) /\ add256 P (pneg p256 P) = Inf.
Proof.
  intros b P Q R S OP OQ OR. pose proof (smooth_ns b S) as ns. repeat split.
  - exact (on_add_any _ P Q OP OQ).
  - exact (comm_any _ P Q OP OQ).
  - exact (assoc_any _ ns P Q R OP OQ OR).
  - exact (on_neg p256 ec_prime _ _ _ _ P OP).
  - exact (add_neg p256 ec_prime _ _ _ P).
Qed.

(** The formulas compute in that group: the doubling, the sum, and the ladder started at any point of a smooth curve
    give multiples of the point on the curve of the point, and nothing panics in the ladder. *)
Theorem C107_ladder : forall b P k x y z, smooth b -> on_b b P -> 0 <= k < 2 ^ 256 -> jacobian x y z P ->
  exists x' y' z', ec_montgomery_ladder k (x, y, z) = Ok (x', y', z') /\
    jacobian x' y' z' (mul256 (Z.to_nat k) P) /\ on_b b (mul256 (Z.to_nat k) P) /\
    jacobian_to_affine (x', y', z') = Ok (coordinates (mul256 (Z.to_nat k) P)).
Proof.
  intros b P k x y z S O Hk J. apply jac_iff in J as (w & <- & R).
  destruct (ec_ladder_Ok_any _ (smooth_ns b S) P k w O Hk R) as (v & E & Rv).
  destruct (jv v) as [[x' y'] z'] eqn:Ev. exists x', y', z'. split; [exact E|]. split; [apply jac_iff; now exists v|].
  split; [exact (on_mul_any _ (Z.to_nat k) P O)|].
  rewrite <- Ev, affine_Ok, (jaff_rep p256 ec_prime ec_odd v _ Rv).
  destruct (mul256 (Z.to_nat k) P); reflexivity.
Qed.

(** the ladder started at the affine point (x, y) and the conversion of its result, as in lines 123-124 of p256.rs *)
Notation mult k x y := (let* j := ec_montgomery_ladder k (x, y, 1) in jacobian_to_affine j).
Lemma jac_affine x y : 0 <= x < p256 -> 0 <= y < p256 -> jacobian x y 1 (Aff (fof _ x) (fof _ y)).
Proof.
  intros Hx Hy. repeat split; try lia; try discriminate; rewrite fval_of, Z.mul_1_r, Zmod_mod, Z.mod_small; lia.
Qed.
Lemma mult_affine b x y k : smooth b -> on_b b (Aff (fof _ x) (fof _ y)) -> 0 <= x < p256 -> 0 <= y < p256 -> 0 <= k < 2 ^ 256 ->
  mult k x y = Ok (coordinates (mul256 (Z.to_nat k) (Aff (fof _ x) (fof _ y)))).
Proof.
  intros S O Hx Hy Hk. destruct (C107_ladder b _ k x y 1 S O Hk (jac_affine x y Hx Hy)) as (x' & y' & z' & -> & _ & _ & E). exact E.
Qed.
Lemma order_has b P m : smooth b -> on_b b P -> order_is P m -> ord256 P m.
Proof.
  intros S O (Hm & E & L). pose proof (smooth_ns b S) as ns. split; [exact Hm|].
  assert (D : forall q r, mul256 (q * m + r) P = mul256 r P).
  { intros q r. rewrite (mul_add_any _ ns) by exact O. rewrite <- (mul_mul_any _ ns) by exact O. rewrite E.
    unfold mul256 at 1. rewrite mul_inf. reflexivity. }
  intros k. change (pmul p256 (fof p256 0) (fopp (fof p256 3)) (fof p256 1) k P) with (mul256 k P). split.
  - intros H. pose proof (Nat.div_mod k m ltac:(lia)) as Q. rewrite (Nat.mul_comm m) in Q. rewrite Q, D in H.
    destruct (Nat.eq_dec (k mod m) 0) as [Z|Z]; [exists (k / m)%nat; lia|].
    exfalso. apply (L (k mod m)%nat); [|exact H]. pose proof (Nat.mod_upper_bound k m). lia.
  - intros [q ->]. rewrite <- (Nat.add_0_r (q * m)). rewrite D. reflexivity.
Qed.
Lemma coordinates_inj b P Q : b mod p256 <> 0 -> on_b b P -> on_b b Q -> coordinates P = coordinates Q -> P = Q.
Proof.
  intros Nb OP OQ.
  assert (Z : forall u v, on_b b (Aff u v) -> fval u = 0 -> fval v = 0 -> False).
  { intros u v O Eu Ev. apply Nb. assert (u = fof _ 0) by (apply fval_inj; rewrite Eu; reflexivity).
    assert (v = fof _ 0) by (apply fval_inj; rewrite Ev; reflexivity). subst u v. unfold on_b, on_curve, cubic in O.
    assert (F : fof p256 b = fof p256 0).
    { transitivity (fadd (fadd (fadd (fmul (fmul (fof p256 0) (fof p256 0)) (fof p256 0)) (fmul (fof p256 0) (fmul (fof p256 0) (fof p256 0)))) (fmul (fopp (fof p256 3)) (fof p256 0))) (fof p256 b)); [ring|].
      rewrite <- O. ring. }
    apply fof_inj in F. rewrite F. reflexivity. }
  destruct P as [|u v], Q as [|u' v']; cbn [coordinates]; intros E; try reflexivity.
  - injection E as E1 E2. exfalso. exact (Z u' v' OQ (eq_sym E1) (eq_sym E2)).
  - injection E as E1 E2. exfalso. exact (Z u v OP E1 E2).
  - injection E as E1 E2. apply fval_inj in E1, E2. congruence.
Qed.
(** If the point has order m, the result tells the scalar modulo m, and nothing else about it.
    (With b = 0 the point (0, 0) is on the curve, and the conversion prints infinity in the same way.) *)
Theorem C107_residue : forall b x y m k k', smooth b -> b mod p256 <> 0 -> 0 <= x < p256 -> 0 <= y < p256 ->
  on_b b (Aff (fof _ x) (fof _ y)) -> order_is (Aff (fof _ x) (fof _ y)) m -> 0 <= k < 2 ^ 256 -> 0 <= k' < 2 ^ 256 ->
  is_ok (mult k x y) /\ (mult k x y = mult k' x y <-> k mod Z.of_nat m = k' mod Z.of_nat m).
Proof.
  intros b x y m k k' S Nb Hx Hy O Om Hk Hk'. rewrite (mult_affine b x y k), (mult_affine b x y k') by assumption.
  split; [eexists; reflexivity|]. set (P := Aff (fof p256 x) (fof p256 y)) in *.
  pose proof (order_has b P m S O Om) as H. destruct Om as (Hm & _).
  pose proof (g_order_mod p256 ec_prime ec_odd _ _ _ _ ec_one (smooth_ns b S) P m (Z.to_nat k) (Z.to_nat k') O H) as G.
  rewrite <- (mod_nat_gen (Z.of_nat m) k k') by lia. rewrite Nat2Z.id. split.
  - intros E. apply G. apply (coordinates_inj b); trivial; try exact (on_mul_any _ _ P O). now apply Ok_inj in E.
  - intros E. apply G in E. change (mul256 (Z.to_nat k) P = mul256 (Z.to_nat k') P) in E. now rewrite E.
Qed.
(** A point with y = 0 gives the parity of the scalar. *)
Theorem C107_parity : forall x k, 0 <= x < p256 -> smooth (3 * x - x ^ 3) -> 0 <= k < 2 ^ 256 ->
  mult k x 0 = Ok (if Z.odd k then (x, 0) else (0, 0)).
Proof.
  intros x k Hx S Hk.
  assert (O : on_b (3 * x - x ^ 3) (Aff (fof _ x) (fof _ 0))).
  { unfold on_b, on_curve, cubic. replace (3 * x - x ^ 3) with (3 * x - x * x * x) by ring.
    rewrite fof_sub, !fof_mul. ring. }
  rewrite (mult_affine _ x 0 k S O Hx ltac:(split; [lia|reflexivity]) Hk). f_equal.
  set (P := Aff (fof p256 x) (fof p256 0)) in *. pose proof (smooth_ns _ S) as ns.
  assert (E2 : mul256 2 P = Inf).
  { change (mul256 2 P) with (add256 P P). replace P with (pneg p256 P) at 2; [exact (add_neg p256 ec_prime _ _ _ P)|].
    unfold P. cbn [pneg]. reflexivity. }
  assert (D : forall q r, mul256 (q * 2 + r) P = mul256 r P).
  { intros q r. rewrite (mul_add_any _ ns) by exact O. rewrite <- (mul_mul_any _ ns) by exact O. rewrite E2.
    unfold mul256 at 1. rewrite mul_inf. reflexivity. }
  pose proof (Z.div_mod k 2 ltac:(lia)) as Q. rewrite Zmod_odd in Q. pose proof (Z.div_pos k 2 ltac:(lia) ltac:(lia)).
  destruct (Z.odd k).
  - replace (Z.to_nat k) with (Z.to_nat (k / 2) * 2 + 1)%nat by lia. rewrite D. change (mul256 1 P) with P.
    unfold P. cbn [coordinates]. now rewrite !fval_of, (Z.mod_small x) by lia.
  - replace (Z.to_nat k) with (Z.to_nat (k / 2) * 2 + 0)%nat by lia. rewrite D. reflexivity.
Qed.
Example C107_parity_ex : smooth (3 * 5 - 5 ^ 3) /\ mult 6 5 0 = Ok (0, 0) /\ mult 7 5 0 = Ok (5, 0) /\
  ~ on256 (Aff (fof _ 5) (fof _ 0)).
Proof.
  assert (S : smooth (3 * 5 - 5 ^ 3)) by (vm_compute; discriminate).
  assert (H5 : 0 <= 5 < p256) by (split; [discriminate|reflexivity]).
  split; [exact S|]. split; [exact (C107_parity 5 6 H5 S ltac:(lia))|]. split; [exact (C107_parity 5 7 H5 S ltac:(lia))|].
  intros H. apply (f_equal fval) in H. vm_compute in H. discriminate.
Qed.

(** ** Four points off the curve *)
Definition own (x y : Z) : Z := (y * y - x * x * x + 3 * x) mod p256.
Lemma own_on x y : on_b (own x y) (Aff (fof _ x) (fof _ y)).
Proof.
  unfold on_b, on_curve, cubic, own. rewrite fof_mod, fof_add, fof_sub, !fof_mul. ring.
Qed.
(** whether the multiples jP, (j+1)P, ..., of which the first is given, become infinity after exactly n more steps *)
Fixpoint reaches (n j : nat) (w q : jac) : bool :=
  match n with
  | 0%nat => snd w =? 0
  | S n => negb (snd w =? 0) &&
      match (if (j =? 1)%nat then point_double w else point_add w q) with
      | Ok w' => reaches n (S j) w' q
      | Panic _ => false
      end
  end.
Lemma z_inf v Q : jrep p256 v Q -> (snd (jv v) = 0 <-> Q = Inf).
Proof.
  destruct v as [[x y] z]. unfold jv. cbn [snd jrep]. destruct Q as [|u t]; [intros ->; now split|].
  intros (N & _). split; [|discriminate]. intros E. exfalso. apply N. now apply fval_inj.
Qed.
Lemma reaches_order b P q n : smooth b -> on_b b P -> jrep p256 q P -> P <> Inf -> forall j w, (1 <= j)%nat -> jrep p256 w (mul256 j P) ->
  (forall i, (0 < i < j)%nat -> mul256 i P <> Inf) -> reaches n j (jv w) (jv q) = true -> order_is P (j + n).
Proof.
  intros Sm O Rq NP. pose proof (smooth_ns b Sm) as ns. induction n as [|n IH]; intros j w Hj Rw L H; cbn [reaches] in H.
  - apply Z.eqb_eq in H. rewrite Nat.add_0_r. split; [lia|]. split; [now apply (z_inf w)|exact L].
  - apply andb_prop in H as [Hz H]. assert (Nj : mul256 j P <> Inf).
    { intros E. apply (z_inf w _ Rw) in E. rewrite E in Hz. discriminate. }
    assert (L' : forall i, (0 < i < S j)%nat -> mul256 i P <> Inf).
    { intros i Hi. destruct (Nat.eq_dec i j) as [->|]; [exact Nj|apply L; lia]. }
    rewrite <- Nat.add_succ_comm. destruct (Nat.eqb_spec j 1) as [->|Hj1].
    + rewrite double_Ok in H. apply (IH 2%nat (jdbl p256 w)); [lia| |exact L'|exact H].
      change (mul256 2 P) with (add256 P P). exact (jdbl_rep p256 ec_prime ec_odd _ w P O Rw).
    + destruct (addition_Ok_any _ w q (mul256 j P) P (on_mul_any _ j P O) O) as (w' & E & R); [|exact Rw|exact Rq|].
      * left. intros E. apply (L (j - 1)%nat); [lia|].
        apply (add_eq_r p256 ec_prime ec_odd _ _ _ _ ec_one ns (mul256 (j - 1) P) P); [exact (on_mul_any _ (j - 1) P O)|exact O|].
        replace j with (S (j - 1)) in E by lia. exact E.
      * rewrite E in H. exact (IH (S j) w' ltac:(lia) R L' H).
Qed.
Definition small_order (m : nat) (q : Z * Z) : bool :=
  let (x, y) := q in
  (0 <=? x) && (x <? p256) && (0 <=? y) && (y <? p256) && negb ((own x y * own x y) mod p256 =? 4) && negb (own x y mod p256 =? 0) &&
  negb (own x y =? b256) && reaches (m - 1) 1 (x, y, 1) (x, y, 1).
Lemma small_order_is m x y : (0 < m)%nat -> small_order m (x, y) = true ->
  0 <= x < p256 /\ 0 <= y < p256 /\ smooth (own x y) /\ own x y mod p256 <> 0 /\ ~ on256 (Aff (fof _ x) (fof _ y)) /\
  order_is (Aff (fof _ x) (fof _ y)) m.
Proof.
  intros Hm H. unfold small_order in H. repeat (apply andb_prop in H as [H ?]).
  assert (Hx : 0 <= x < p256) by lia. assert (Hy : 0 <= y < p256) by lia.
  assert (S : smooth (own x y)). { unfold smooth. destruct (Z.eqb_spec ((own x y * own x y) mod p256) 4); [discriminate|assumption]. }
  split; [exact Hx|]. split; [exact Hy|]. split; [exact S|]. split; [|split].
  - destruct (Z.eqb_spec (own x y mod p256) 0); [discriminate|assumption].
  - intros O. destruct (C107_own_curve (Aff (fof _ x) (fof _ y)) ltac:(discriminate)) as (b & Hb' & _ & U).
    assert (own x y = b) by (apply U; [apply Z.mod_pos_bound; reflexivity|apply own_on]).
    assert (b256 = b) by (apply U; [split; [discriminate|reflexivity]|exact O]).
    destruct (Z.eqb_spec (own x y) b256); [discriminate|congruence].
  - pose proof (jac_affine x y Hx Hy) as J. apply jac_iff in J as (w & E & R). rewrite <- E in *.
    replace m with (1 + (m - 1))%nat by lia.
    apply (reaches_order (own x y) _ w (m - 1) S (own_on x y) R ltac:(discriminate) 1%nat w); [lia|exact R|lia|assumption].
Qed.
Definition q5 : Z * Z := (7, 0x84bf9b88092946d46a99faa2ce269938b3a50d2bcdbafbf8c2d0cac284d066c6).
Definition q7 : Z * Z := (0x3284dda63ed39eb3dc94cc21ca2e85b4e068a4cb2de79a4db20a553ed0bc1b58, 0x43d14dc09d3ae92b6e9b6b1ed0d6bada557cf95964ef15b7b05f86e46d98db84).
Definition q8 : Z * Z := (0x783f098b75b33d63d4a6097d6e76e65a26a38698104d5d5ff1cfa0e4d4d8755c, 0x1af26e31b5ec315cbbf2b826e928c85b558f126c6efb92f439676c496cd908e).
Definition q9 : Z * Z := (0xe6d94802e2fac9f0f88e0c950f930414e6ecb8d910c0cadf16eb35a5f1e32013, 0x804c1f6751be52b7a46e05175bf0dacf5a9f7bc1c0ecda3b9e1d08033f4f82b9).
Lemma checks : small_order 5 q5 = true /\ small_order 7 q7 = true /\ small_order 8 q8 = true /\ small_order 9 q9 = true.
Proof. vm_compute. repeat split. Qed.
Example C107_residue_ex : exists b, smooth b /\ b mod p256 <> 0 /\ on_b b (Aff (fof _ (fst q7)) (fof _ (snd q7))) /\
  order_is (Aff (fof _ (fst q7)) (fof _ (snd q7))) 7.
Proof.
  destruct checks as (_ & C & _). destruct (small_order_is 7 _ _ ltac:(lia) C) as (_ & _ & S & N & _ & O).
  exists (own (fst q7) (snd q7)). split; [exact S|]. split; [exact N|]. split; [apply own_on|exact O].
Qed.
Example C107_ladder_ex : smooth (own (fst q7) (snd q7)) /\ own (fst q7) (snd q7) <> b256 /\
  jacobian (fst q7) (snd q7) 1 (Aff (fof _ (fst q7)) (fof _ (snd q7))).
Proof.
  destruct checks as (_ & C & _). destruct (small_order_is 7 _ _ ltac:(lia) C) as (Hx & Hy & S & _ & NO & _).
  split; [exact S|]. split; [|now apply jac_affine]. intros E. apply NO. change (on_b b256 (Aff (fof _ (fst q7)) (fof _ (snd q7)))).
    rewrite <- E. apply own_on.
Qed.
Example C107_own_curve_ex : G256 <> Inf /\ on_b b256 G256 /\ ~ on_b b256 (Aff (fof _ (fst q7)) (fof _ (snd q7))).
Proof.
  destruct checks as (_ & C & _). destruct (small_order_is 7 _ _ ltac:(lia) C) as (_ & _ & _ & _ & NO & _).
  split; [discriminate|]. split; [exact on_G256|exact NO].
Qed.
Lemma some_points b P m : smooth b -> on_b b P -> order_is P m -> (3 < m)%nat ->
  exists P Q, on_b b P /\ on_b b Q /\ P <> Q /\ P <> Inf /\ Q <> Inf /\ add256 P Q <> Inf.
Proof.
  intros S O (_ & _ & N) Hm. exists (mul256 2 P), P. split; [exact (on_mul_any _ 2 P O)|]. split; [exact O|].
  split; [|split; [apply N; lia|split; [exact (N 1%nat ltac:(lia))|exact (N 3%nat ltac:(lia))]]].
  intros E. apply (N 1%nat ltac:(lia)).
  exact (add_eq_r p256 ec_prime ec_odd _ _ _ _ ec_one (smooth_ns _ S) P P O O E).
Qed.
Example C107_group_ex : exists b, b <> b256 /\ smooth b /\ exists P Q, on_b b P /\ on_b b Q /\
  P <> Q /\ P <> Inf /\ Q <> Inf /\ add256 P Q <> Inf.
Proof.
  destruct checks as (_ & C & _). destruct (small_order_is 7 _ _ ltac:(lia) C) as (_ & _ & S & _ & _ & H).
  destruct C107_ladder_ex as (_ & N & _).
  exists (own (fst q7) (snd q7)). split; [exact N|]. split; [exact S|]. exact (some_points _ _ 7 S (own_on _ _) H ltac:(lia)).
Qed.
Lemma mod_2520 k k' : k mod 2520 = k' mod 2520 <->
  k mod 5 = k' mod 5 /\ k mod 7 = k' mod 7 /\ k mod 8 = k' mod 8 /\ k mod 9 = k' mod 9.
Proof. split; [intros H; repeat split|intros (H1 & H2 & H3 & H4)]; Z.to_euclidean_division_equations; lia. Qed.
(** Full statement: scalar multiplication refuses points that are not on P-256.  It refuses none; the results for these
    four points together tell the scalar modulo 2520. *)
Theorem C107_points_off_the_curve_refuted : exists q1 q2 q3 q4 : Z * Z,
  Forall (fun q => 0 <= fst q < p256 /\ 0 <= snd q < p256 /\ ~ on256 (Aff (fof _ (fst q)) (fof _ (snd q)))) [q1; q2; q3; q4] /\
  forall k k', 0 <= k < 2 ^ 256 -> 0 <= k' < 2 ^ 256 ->
    Forall (fun q => is_ok (mult k (fst q) (snd q))) [q1; q2; q3; q4] /\
    (Forall (fun q => mult k (fst q) (snd q) = mult k' (fst q) (snd q)) [q1; q2; q3; q4] <-> k mod 2520 = k' mod 2520).
Proof.
  destruct checks as (C5 & C7 & C8 & C9).
  pose proof (small_order_is 5 _ _ ltac:(lia) C5) as (X5 & Y5 & S5 & N5 & O5 & R5).
  pose proof (small_order_is 7 _ _ ltac:(lia) C7) as (X7 & Y7 & S7 & N7 & O7 & R7).
  pose proof (small_order_is 8 _ _ ltac:(lia) C8) as (X8 & Y8 & S8 & N8 & O8 & R8).
  pose proof (small_order_is 9 _ _ ltac:(lia) C9) as (X9 & Y9 & S9 & N9 & O9 & R9).
  exists q5, q7, q8, q9. split.
  { apply Forall_cons; [exact (conj X5 (conj Y5 O5))|]. apply Forall_cons; [exact (conj X7 (conj Y7 O7))|].
    apply Forall_cons; [exact (conj X8 (conj Y8 O8))|]. apply Forall_cons; [exact (conj X9 (conj Y9 O9))|apply Forall_nil]. }
  intros k k' Hk Hk'.
  pose proof (C107_residue _ _ _ _ k k' S5 N5 X5 Y5 (own_on _ _) R5 Hk Hk') as [I5 E5].
  pose proof (C107_residue _ _ _ _ k k' S7 N7 X7 Y7 (own_on _ _) R7 Hk Hk') as [I7 E7].
  pose proof (C107_residue _ _ _ _ k k' S8 N8 X8 Y8 (own_on _ _) R8 Hk Hk') as [I8 E8].
  pose proof (C107_residue _ _ _ _ k k' S9 N9 X9 Y9 (own_on _ _) R9 Hk Hk') as [I9 E9].
  split.
  { apply Forall_cons; [exact I5|]. apply Forall_cons; [exact I7|]. apply Forall_cons; [exact I8|]. apply Forall_cons; [exact I9|apply Forall_nil]. }
  rewrite mod_2520. split.
  - intros F. apply Forall_cons_iff in F as [F5 F]. apply Forall_cons_iff in F as [F7 F]. apply Forall_cons_iff in F as [F8 F].
    apply Forall_cons_iff in F as [F9 _]. exact (conj (proj1 E5 F5) (conj (proj1 E7 F7) (conj (proj1 E8 F8) (proj1 E9 F9)))).
  - intros (F5 & F7 & F8 & F9). apply Forall_cons; [exact (proj2 E5 F5)|]. apply Forall_cons; [exact (proj2 E7 F7)|].
    apply Forall_cons; [exact (proj2 E8 F8)|]. apply Forall_cons; [exact (proj2 E9 F9)|apply Forall_nil].
Qed.
Print Assumptions C107_own_curve.
Print Assumptions C107_group.
Print Assumptions C107_ladder.
Print Assumptions C107_residue.
Print Assumptions C107_parity.
Print Assumptions C107_points_off_the_curve_refuted.
