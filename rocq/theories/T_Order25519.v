(** Theorems on the orders of curve25519 and its twist and their consequences for curve25519.rs: C73 and C74. *)
From Coq Require Import ZArith Znumtheory List Bool Arith Lia.
From Verif Require Import Base M_Int M_NatMod M_X25519 P_Prime S_Curve P_Curve P_Group P_Order S_X25519 P_X25519 P_X25519M P_X25519D P_Order25519
  T_X25519 T_OrderP256.
Import ListNotations.
Open Scope Z_scope.

(** * C73: the numbers of points *)
(** RFC 7748, section 4.1: the order of the base point is the prime 2^252 + 0x14def9dea2f79cd65812631a5cf5d3ed. The
    curve has 8 times as many points, the twist 4 times the prime 2^253 - 0x29bdf3bd45ef39acb024c634b9eba7e3. *)
Definition ord_curve : Z := 2 ^ 252 + 0x14def9dea2f79cd65812631a5cf5d3ed.
Definition ord_twist : Z := 2 ^ 253 - 0x29bdf3bd45ef39acb024c634b9eba7e3.
Lemma ord_curve_eq : ord_curve = ell.
Proof. reflexivity. Qed.
Lemma ord_twist_eq : ord_twist = ell'.
Proof. reflexivity. Qed.
Theorem C73_numbers_of_points : prime ord_curve /\ prime ord_twist /\
  (exists l : list (point p25519), NoDup l /\ Z.of_nat (length l) = 8 * ord_curve /\ forall P, In P l <-> on25519 (fof _ 1) P) /\
  (exists l : list (point p25519), NoDup l /\ Z.of_nat (length l) = 4 * ord_twist /\ forall P, In P l <-> on25519 (fof _ 2) P).
Proof.
  rewrite ord_curve_eq, ord_twist_eq. split; [exact prime_ell|]. split; [exact prime_ell'|]. split.
  - destruct (g_size p25519 x_p_prime x_p_odd _ _ _ _ one_ne nonsing25519 g1 (8 * nl) on_g1 order_g1 gen1) as (l & N & L & H).
    exists l. split; [exact N|]. split; [|exact H]. rewrite L, Nat2Z.inj_mul, nl_eq. reflexivity.
  - destruct (g_size p25519 x_p_prime x_p_odd _ _ _ _ two_ne25519 nonsing25519 g2 (4 * nl') on_g2 order_g2 gen2) as (l & N & L & H).
    exists l. split; [exact N|]. split; [|exact H]. rewrite L, Nat2Z.inj_mul, nl'_eq. reflexivity.
Qed.
Example C73_numbers_of_points_ex : 8 * ord_curve + 4 * ord_twist = 2 * p25519 + 2 /\
  on25519 (fof _ 1) (Aff (fof _ 0) (fof _ 0)) /\ on25519 (fof _ 2) (Aff (fof _ 0) (fof _ 0)).
Proof. split; [reflexivity|]. split; apply on_O. Qed.
(** The base point of the code (curve25519.rs:100, abscissa 9) has order ord_curve. *)
Theorem C73_base_point_order : forall y k, on25519 (fof _ 1) (Aff (fof _ 9) y) -> 0 <= k ->
  mul25519 (fof _ 1) (Z.to_nat k) (Aff (fof _ 9) y) = Inf <-> (ord_curve | k).
Proof.
  intros y k O Hk. rewrite ord_curve_eq, <- (dvd_nat_gen ell k eq_refl Hk).
  assert (B : mul25519 (fof _ 1) (Z.to_nat k) B25519 = Inf <-> Nat.divide nl (Z.to_nat k)) by exact (proj2 order_B (Z.to_nat k)).
  rewrite <- B. destruct (g_same_x p25519 x_p_prime _ _ _ _ one_ne _ _ y on_B O) as [E|E]; rewrite E; [reflexivity|].
  fold B25519. pose proof (g_neg_mul p25519 x_p_prime x_p_odd _ _ _ _ one_ne nonsing25519 (Z.to_nat k) B25519 on_B) as M.
  change (pmul p25519 (fof p25519 486662) (fof p25519 1) (fof p25519 1)) with (mul25519 (fof p25519 1)) in M. rewrite M.
  destruct (mul25519 (fof p25519 1) (Z.to_nat k) B25519); [reflexivity|]. split; discriminate.
Qed.
Example C73_base_point_order_ex : on25519 (fof _ 1) (Aff (fof _ 9) (fof _ base_y)) /\ (ord_curve | ord_curve) /\ ~ (ord_curve | 8).
Proof.
  split; [apply check_on; vm_compute; reflexivity|]. split; [now exists 1|].
  intros [z E]. unfold ord_curve in E. lia.
Qed.

(** * C74: which inputs give the all-zero output, and which scalars give the same output *)
(** the two abscissas of the points of order 8 *)
Definition u8a : Z := 325606250916557431795983626356110631294008115727848805560023387167927233504.
Definition u8b : Z := 39382357235489614581723060781553021112529911719440698176882885853963445705823.
(** the five abscissas below p of points of order 2, 4 and 8 on the curve or its twist *)
Definition small_order (v : Z) : Prop := v = 0 \/ v = 1 \/ v = p25519 - 1 \/ v = u8a \/ v = u8b.
Lemma Ok_inj {A} (x y : A) : Ok x = Ok y -> x = y.
Proof. congruence. Qed.
Lemma u_range u : 0 <= rfc_decode_u u < p25519.
Proof. unfold rfc_decode_u. apply Z.mod_pos_bound. reflexivity. Qed.
Lemma fof_u u : fval (fof p25519 (rfc_decode_u u)) = rfc_decode_u u.
Proof. rewrite fval_of. apply Z.mod_small, u_range. Qed.
Lemma u_is u v w : fof p25519 (rfc_decode_u u) = fof p25519 v -> v mod p25519 = w -> rfc_decode_u u = w.
Proof. intros E <-. rewrite <- (fof_u u), E. apply fval_of. Qed.
Lemma zeros_iff v : 0 <= v < p25519 -> le_encode 32 v = repeat 0 32 <-> v = 0.
Proof.
  intros H. split; [|intros ->; reflexivity]. intros E. rewrite <- (decode_encode v H), E. vm_compute. reflexivity.
Qed.
Lemma small_order_1 u y : on25519 (fof _ 1) (Aff (fof _ (rfc_decode_u u)) y) ->
  mul25519 (fof _ 1) 8 (Aff (fof _ (rfc_decode_u u)) y) = Inf -> small_order (rfc_decode_u u).
Proof.
  intros O H. destruct (small_1 _ _ O H) as [E|[E|[E|E]]]; unfold small_order.
  - left. apply (u_is u 0); [exact E|reflexivity].
  - right; left. apply (u_is u 1); [exact E|reflexivity].
  - do 3 right; left. apply (u_is u x8); [exact E|reflexivity].
  - do 4 right. apply (u_is u x8'); [exact E|reflexivity].
Qed.
Lemma small_order_2 u y : on25519 (fof _ 2) (Aff (fof _ (rfc_decode_u u)) y) ->
  mul25519 (fof _ 2) 8 (Aff (fof _ (rfc_decode_u u)) y) = Inf -> small_order (rfc_decode_u u).
Proof.
  intros O H. destruct (small_2 _ _ O H) as [E|E]; unfold small_order.
  - left. apply (u_is u 0); [exact E|reflexivity].
  - do 2 right; left. apply (u_is u (-1)); [exact E|reflexivity].
Qed.
(** scalarmult returns 32 zero bytes exactly when the peer's string decodes to one of the five abscissas, whatever
    the scalar. (RFC 7748, section 6.1, lets implementations check for this; the code does not.) *)
Theorem C74_zero_output_iff_small_order : forall s u, bytes32 s -> bytes32 u ->
  scalarmult s u = Ok (repeat 0 32) <-> small_order (rfc_decode_u u).
Proof.
  intros s u [Ls Fs] [Lu Fu].
  assert (Z : forall d y, d <> fof _ 0 -> on25519 d (Aff (fof _ (rfc_decode_u u)) y) -> scalarmult s u = Ok (repeat 0 32) <->
    abscissa (mul25519 d (Z.to_nat (rfc_decode_scalar s)) (Aff (fof _ (rfc_decode_u u)) y)) = 0).
  { intros d y Nd O. rewrite (scalarmult_is s u d y Ls Fs Lu Fu Nd O). rewrite <- (zeros_iff _ (abscissa_range _)).
    split; [congruence|intros ->; reflexivity]. }
  split.
  - intros E. destruct (on_either (fof _ (rfc_decode_u u))) as (y & [O|O]).
    + apply (Z _ y one_ne O), (zero_1 s _ O) in E. exact (small_order_1 u y O E).
    + apply (Z _ y two_ne25519 O), (zero_2 s _ O) in E. exact (small_order_2 u y O E).
  - destruct T8_facts as ((y2 & E2) & (y3 & E3) & E4).
    assert (K1 : forall k x y, rfc_decode_u u = x -> mul25519 (fof _ 1) k T8 = Aff (fof _ x) y -> scalarmult s u = Ok (repeat 0 32)).
    { intros k x y Hx E. rewrite <- Hx in E. pose proof (cof_on _ one_ne k T8 on_T8) as O. rewrite E in O.
      apply (Z _ y one_ne O), (zero_1 s _ O). rewrite <- E, (cof_mul_mul _ one_ne 8 k T8 on_T8), (Nat.mul_comm 8 k).
      rewrite <- (cof_mul_mul _ one_ne k 8 T8 on_T8), mul8_T8. apply mul_inf. }
    intros [H|[H|[H|[H|H]]]].
    + apply (K1 4%nat 0 (fof _ 0) H). exact mul4_T8.
    + apply (K1 2%nat 1 y2 H). rewrite mul_2. exact E2.
    + assert (O : on25519 (fof _ 2) (Aff (fof _ (rfc_decode_u u)) (fof _ yt4))).
      { rewrite H. replace (fof p25519 (p25519 - 1)) with (fof p25519 (-1)) by (apply fof_eq; reflexivity). exact on_T4'. }
      apply (Z _ _ two_ne25519 O), (zero_2 s _ O). rewrite H. replace (fof p25519 (p25519 - 1)) with (fof p25519 (-1)) by (apply fof_eq; reflexivity).
      fold T4'. rewrite (mul8 _ T4' two_ne25519 on_T4'), T4'_order. apply mul_inf.
    + apply (K1 1%nat u8a (fof _ y8) H). rewrite mul_1. reflexivity.
    + apply (K1 3%nat u8b y3 H). rewrite (mul3_add _ T8 one_ne on_T8). exact E3.
Qed.
Definition u8a_bytes : list Z := le_encode 32 u8a.
Example C74_zero_output_iff_small_order_ex : bytes32 kat_x_s /\ bytes32 u8a_bytes /\ small_order (rfc_decode_u u8a_bytes) /\
  bytes32 base9 /\ ~ small_order (rfc_decode_u base9).
Proof.
  split; [apply bytes32_check; vm_compute; reflexivity|]. split; [apply bytes32_check; vm_compute; reflexivity|].
  split; [do 3 right; left; vm_compute; reflexivity|]. split; [apply bytes32_check; vm_compute; reflexivity|].
  replace (rfc_decode_u base9) with 9 by (vm_compute; reflexivity). unfold small_order, p25519, u8a, u8b. lia.
Qed.
(** Two scalars give the same output on a point of the curve of large order exactly when the scalars decode to the
    same number k or to two numbers with sum 8 * ord_curve. *)
Theorem C74_equal_outputs_curve : forall s t u y, bytes32 s -> bytes32 t -> bytes32 u -> ~ small_order (rfc_decode_u u) ->
  let v := rfc_decode_u u in (y ^ 2 - (v ^ 3 + 486662 * v ^ 2 + v)) mod p25519 = 0 ->
  scalarmult s u = scalarmult t u <->
  rfc_decode_scalar s = rfc_decode_scalar t \/ rfc_decode_scalar s + rfc_decode_scalar t = 8 * ord_curve.
Proof.
  intros s t u y [Ls Fs] [Lt Ft] [Lu Fu] NS v Y.
  assert (O : on25519 (fof _ 1) (Aff (fof _ v) (fof _ y))).
  { unfold on25519, on_curve, cubic. rewrite <- !fof_mul, <- !fof_add. apply fof_eq.
    replace (1 * (y * y)) with ((v ^ 3 + 486662 * v ^ 2 + v) + (y ^ 2 - (v ^ 3 + 486662 * v ^ 2 + v))) by ring.
    rewrite Zplus_mod, Y, Z.add_0_r, Z.mod_mod by discriminate. f_equal. ring. }
  assert (NI : mul25519 (fof _ 1) 8 (Aff (fof _ v) (fof _ y)) <> Inf) by (intros E; apply NS; exact (small_order_1 u _ O E)).
  rewrite (scalarmult_is s u _ _ Ls Fs Lu Fu one_ne O), (scalarmult_is t u _ _ Lt Ft Lu Fu one_ne O).
  rewrite ord_curve_eq, <- (equal_1 s t _ O NI). split.
  - intros E. apply Ok_inj, (f_equal rfc_decode_u) in E. rewrite !decode_encode in E by apply abscissa_range. exact E.
  - intros E. unfold v in E. now rewrite E.
Qed.
Example C74_equal_outputs_curve_ex : bytes32 kat_x_s /\ bytes32 kat_x_ff /\ bytes32 base9 /\ ~ small_order (rfc_decode_u base9) /\
  (base_y ^ 2 - (rfc_decode_u base9 ^ 3 + 486662 * rfc_decode_u base9 ^ 2 + rfc_decode_u base9)) mod p25519 = 0 /\
  rfc_decode_scalar kat_x_s <> rfc_decode_scalar kat_x_ff.
Proof.
  destruct C74_zero_output_iff_small_order_ex as (K & _ & _ & B & N). split; [exact K|]. split; [apply bytes32_check; vm_compute; reflexivity|].
  split; [exact B|]. split; [exact N|]. split; [vm_compute; reflexivity|vm_compute; discriminate].
Qed.
(** The same for the other strings: those whose right-hand side is no square, the abscissas of the twist. *)
Theorem C74_equal_outputs_twist : forall s t u, bytes32 s -> bytes32 t -> bytes32 u -> ~ small_order (rfc_decode_u u) ->
  let v := rfc_decode_u u in (forall y, (y ^ 2 - (v ^ 3 + 486662 * v ^ 2 + v)) mod p25519 <> 0) ->
  scalarmult s u = scalarmult t u <->
  rfc_decode_scalar s = rfc_decode_scalar t \/ rfc_decode_scalar s + rfc_decode_scalar t = 8 * ord_twist.
Proof.
  intros s t u [Ls Fs] [Lt Ft] [Lu Fu] NS v NY.
  assert (H : exists y, on25519 (fof _ 2) (Aff (fof _ v) y)).
  { destruct (on_either (fof _ v)) as (y & [O|O]); [exfalso|now exists y]. apply (NY (fval y)).
    unfold on25519, on_curve, cubic in O. rewrite <- (fof_val p25519 y), <- !fof_mul, <- !fof_add in O. apply fof_inj in O.
    rewrite Zminus_mod. replace (fval y ^ 2) with (1 * (fval y * fval y)) by ring. rewrite O.
    replace (v ^ 3 + 486662 * v ^ 2 + v) with (v * v * v + 486662 * (v * v) + 1 * v + 0) by ring. rewrite Z.sub_diag. reflexivity. }
  destruct H as [y O].
  assert (NI : mul25519 (fof _ 2) 8 (Aff (fof _ v) y) <> Inf) by (intros E; apply NS; exact (small_order_2 u _ O E)).
  rewrite (scalarmult_is s u _ _ Ls Fs Lu Fu two_ne25519 O), (scalarmult_is t u _ _ Lt Ft Lu Fu two_ne25519 O).
  rewrite ord_twist_eq, <- (equal_2 s t _ O NI). split.
  - intros E. apply Ok_inj, (f_equal rfc_decode_u) in E. rewrite !decode_encode in E by apply abscissa_range. exact E.
  - intros E. unfold v in E. now rewrite E.
Qed.
Definition two_bytes : list Z := 2 :: repeat 0 31.
Lemma two_euler : (fpow (2 ^ 3 + 486662 * 2 ^ 2 + 2) half25519 p25519 =? 1) = false.
Proof. vm_compute. reflexivity. Qed.
Example C74_equal_outputs_twist_ex : bytes32 kat_x_s /\ bytes32 kat_x_ff /\ bytes32 two_bytes /\ ~ small_order (rfc_decode_u two_bytes) /\
  (forall y, let v := rfc_decode_u two_bytes in (y ^ 2 - (v ^ 3 + 486662 * v ^ 2 + v)) mod p25519 <> 0) /\
  rfc_decode_scalar kat_x_s <> rfc_decode_scalar kat_x_ff.
Proof.
  destruct C74_equal_outputs_curve_ex as (K & F & _ & _ & _ & N). split; [exact K|]. split; [exact F|].
  split; [apply bytes32_check; vm_compute; reflexivity|]. replace (rfc_decode_u two_bytes) with 2 by (vm_compute; reflexivity).
  split; [unfold small_order, p25519, u8a, u8b; lia|]. split; [|exact N].
  intros y v Y. pose proof half25519_ok as C. rewrite !andb_true_iff, Z.eqb_eq, Z.leb_le, Z.ltb_lt in C. destruct C as [[C1 C2] C3].
  pose proof two_euler as H. apply Z.eqb_neq in H. apply H. unfold v in *.
  refine (euler p25519 half25519 (fof _ y) (2 ^ 3 + 486662 * 2 ^ 2 + 2) x_p_prime C1 C2 (conj _ _) _ _); [discriminate|reflexivity|discriminate|].
  rewrite <- fof_mul. apply fof_eq. set (c := 2 ^ 3 + 486662 * 2 ^ 2 + 2) in *. replace (y * y) with (c + (y ^ 2 - c)) by ring.
  rewrite Zplus_mod, Y, Z.add_0_r, Z.mod_mod by discriminate. reflexivity.
Qed.
(** The peer's public key decides whether the shared secret is all zero: the same for both sides and all scalars.
    In particular no public key computed from abscissa 9 leads to a zero secret. *)
Theorem C74_honest_secret_nonzero : forall a b, bytes32 a -> bytes32 b -> exists pk,
  scalarmult b base9 = Ok pk /\ scalarmult a pk <> Ok (repeat 0 32).
Proof.
  intros a b Ha Hb. destruct C74_zero_output_iff_small_order_ex as (_ & _ & _ & B & N).
  destruct Hb as [Lb Fb]. destruct B as [L9 F9]. destruct (lift (fof _ (rfc_decode_u base9))) as (d & y & Nd & O).
  assert (O1 : on25519 (fof _ 1) (Aff (fof _ (rfc_decode_u base9)) (fof _ base_y))).
  { apply check_on. vm_compute. reflexivity. }
  clear d y Nd O. rewrite (scalarmult_is b base9 _ _ Lb Fb L9 F9 one_ne O1). eexists. split; [reflexivity|].
  set (P := Aff (fof p25519 (rfc_decode_u base9)) (fof p25519 base_y)) in *.
  set (Q := mul25519 (fof p25519 1) (Z.to_nat (rfc_decode_scalar b)) P).
  assert (OQ : on25519 (fof _ 1) Q) by (apply (cof_on _ one_ne); exact O1).
  assert (N8 : mul25519 (fof _ 1) 8 P <> Inf) by (intros E; apply N; exact (small_order_1 base9 _ O1 E)).
  assert (NQ : abscissa Q <> 0) by (unfold Q; rewrite (zero_1 b P O1); exact N8).
  assert (N8Q : mul25519 (fof _ 1) 8 Q <> Inf).
  { unfold Q. destruct (scalar_8 b) as (m & -> & _ & Lm & _).
    rewrite (cof_mul_mul _ one_ne 8 (8 * m) P O1). replace (8 * (8 * m))%nat with ((8 * m) * 8)%nat by lia.
    rewrite <- (cof_mul_mul _ one_ne (8 * m) 8 P O1). intros E.
    pose proof (order_8P _ one_ne T8 B25519 8 nl on_T8 on_B order_T8 order_B pnl nl_8 rel_8_l div_88 gen1 P O1 N8) as R.
    apply (proj2 R) in E. apply (Nat.gauss nl 8 m) in E; [apply Nat.divide_pos_le in E; lia|].
    rewrite Nat.gcd_comm. apply rel_prime_gcd. exact rel_8_l. }
  clearbody Q. destruct Q as [|x z]; [exfalso; apply NQ; reflexivity|]. cbn [abscissa].
  assert (EX : fof p25519 (rfc_decode_u (le_encode 32 (fval x))) = x).
  { rewrite decode_encode by (apply fval_range; reflexivity). apply fof_val. }
  destruct Ha as [La Fa].
  rewrite (scalarmult_is a _ (fof _ 1) z La Fa (le_encode_length _ _) (le_encode_is_bytes _ _) one_ne); [|rewrite EX; exact OQ].
  rewrite EX. intros E. apply Ok_inj, (zeros_iff _ (abscissa_range _)), (zero_1 a _ OQ) in E. contradiction.
Qed.
Example C74_honest_secret_nonzero_ex : bytes32 kat_x_s /\ bytes32 kat_x_ff.
Proof. destruct C74_equal_outputs_curve_ex as (K & F & _). now split. Qed.
Print Assumptions C73_numbers_of_points.
Print Assumptions C73_base_point_order.
Print Assumptions C74_zero_output_iff_small_order.
Print Assumptions C74_equal_outputs_curve.
Print Assumptions C74_equal_outputs_twist.
Print Assumptions C74_honest_secret_nonzero.
