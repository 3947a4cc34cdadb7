(** Finite commutative groups, as far as needed to count the points of the curves: the multiples of an element
    of known order, cosets of the subgroup they form, and the two arguments by which such a subgroup is shown to
    be everything when the group is known to be small. *)
From Coq Require Import ZArith Lia List Bool Znumtheory.
Import ListNotations.
Open Scope Z_scope.

(** ** Lists without repetition *)
Lemma NoDup_map_in {A B} (f : A -> B) l :
  NoDup l -> (forall x y, In x l -> In y l -> f x = f y -> x = y) -> NoDup (map f l).
Proof.
  induction 1 as [|x l N D IH]; intros F; cbn; [constructor|]. constructor.
  - rewrite in_map_iff. intros (y & E & I). apply N. rewrite <- (F y x); [assumption|now right|now left|assumption].
  - apply IH. intros a b Ia Ib. apply F; now right.
Qed.
Lemma NoDup_app_ {A} (l m : list A) : NoDup l -> NoDup m -> (forall x, In x l -> ~ In x m) -> NoDup (l ++ m).
Proof.
  induction 1 as [|x l N D IH]; intros M H; cbn; [assumption|]. constructor.
  - rewrite in_app_iff. intros [I|I]; [contradiction|]. now apply (H x (or_introl eq_refl)).
  - apply IH; [assumption|]. intros y I. apply H. now right.
Qed.
Lemma NoDup_range (l : list Z) N : NoDup l -> Forall (fun x => 0 <= x < N) l -> Z.of_nat (length l) <= Z.max 0 N.
Proof.
  intros D R.
  assert (L : (length (map Z.to_nat l) <= length (seq 0 (Z.to_nat N)))%nat).
  { apply NoDup_incl_length.
    - apply NoDup_map_in; [assumption|]. rewrite Forall_forall in R. intros x y Ix Iy. apply R in Ix, Iy. lia.
    - intros k. rewrite in_map_iff, in_seq. intros (z & <- & I). rewrite Forall_forall in R. apply R in I. lia. }
  rewrite map_length, seq_length in L. lia.
Qed.

Lemma rel_prime_gcd m n : rel_prime (Z.of_nat m) (Z.of_nat n) -> Nat.gcd m n = 1%nat.
Proof.
  intros RP. destruct (Nat.gcd_divide m n) as [[u U] [v V]]. set (g := Nat.gcd m n) in *.
  assert (Dg : (Z.of_nat g | 1)) by (apply RP; [exists (Z.of_nat u)|exists (Z.of_nat v)]; lia).
  apply Z.divide_1_r_nonneg in Dg; lia.
Qed.

Section Grp.
  Context {T : Type}.
  Variables (op : T -> T -> T) (e : T) (inv : T -> T) (G : T -> Prop).
  Hypothesis dec : forall x y : T, {x = y} + {x <> y}.
  Hypothesis Ge : G e.
  Hypothesis Gop : forall x y, G x -> G y -> G (op x y).
  Hypothesis Ginv : forall x, G x -> G (inv x).
  Hypothesis comm : forall x y, G x -> G y -> op x y = op y x.
  Hypothesis assoc : forall x y z, G x -> G y -> G z -> op (op x y) z = op x (op y z).
  Hypothesis id_r : forall x, op x e = x.
  Hypothesis id_l : forall x, op e x = x.
  Hypothesis inv_r : forall x, op x (inv x) = e.

  (** the multiples of an element *)
  Definition mult (n : nat) (x : T) : T := Nat.iter n (fun r => op r x) e.
  Lemma mult_S n x : mult (S n) x = op (mult n x) x.
  Proof. reflexivity. Qed.
  Lemma G_mult n x : G x -> G (mult n x).
  Proof. intros H. induction n; [exact Ge|]. rewrite mult_S. auto. Qed.
  Hint Resolve Ge Gop Ginv G_mult : grp.
  Lemma mult_add m n x : G x -> mult (m + n) x = op (mult m x) (mult n x).
  Proof.
    intros H. induction n as [|n IH]; [rewrite Nat.add_0_r; symmetry; apply id_r|].
    rewrite Nat.add_succ_r, !mult_S, IH. auto with grp.
  Qed.
  Lemma mult_mult m n x : G x -> mult m (mult n x) = mult (m * n) x.
  Proof.
    intros H. induction m as [|m IH]; [reflexivity|].
    rewrite mult_S, IH, <- mult_add by assumption. f_equal. lia.
  Qed.
  Lemma mult_e n : mult n e = e.
  Proof. induction n as [|n IH]; [reflexivity|]. rewrite mult_S, IH. apply id_l. Qed.
  Lemma mult_1 x : mult 1 x = x.
  Proof. apply id_l. Qed.
  Lemma mult_2 x : mult 2 x = op x x.
  Proof. rewrite mult_S, mult_1. reflexivity. Qed.
  Lemma mult_op n x y : G x -> G y -> mult n (op x y) = op (mult n x) (mult n y).
  Proof.
    intros Hx Hy. induction n as [|n IH]; [symmetry; apply id_l|]. rewrite !mult_S, IH.
    rewrite !assoc by auto with grp. f_equal. rewrite <- (assoc (mult n y)), (comm (mult n y) x) by auto with grp.
    rewrite !assoc by auto with grp. reflexivity.
  Qed.
  Lemma inv_l x : G x -> op (inv x) x = e.
  Proof. intros H. rewrite comm by auto with grp. apply inv_r. Qed.
  Lemma cancel_r x y z : G x -> G y -> G z -> op x z = op y z -> x = y.
  Proof.
    intros Hx Hy Hz E. rewrite <- (id_r x), <- (id_r y), <- (inv_r z), <- !assoc, E by auto with grp. reflexivity.
  Qed.
  Lemma cancel_l x y z : G x -> G y -> G z -> op z x = op z y -> x = y.
  Proof. intros Hx Hy Hz. rewrite !(comm z) by assumption. now apply cancel_r. Qed.
  Lemma inv_unique x y : G x -> G y -> op x y = e -> y = inv x.
  Proof. intros Hx Hy E. apply (cancel_l _ _ x); auto with grp. now rewrite inv_r. Qed.
  Lemma diff_e x y : G x -> G y -> op x (inv y) = e -> x = y.
  Proof. intros Hx Hy E. apply (cancel_r _ _ (inv y)); auto with grp. now rewrite inv_r. Qed.

  (** ** An element of order m *)
  Definition order (x : T) (m : nat) : Prop := (0 < m)%nat /\ forall k, mult k x = e <-> Nat.divide m k.
  Lemma order_prime x q : G x -> prime (Z.of_nat q) -> mult q x = e -> x <> e -> order x q.
  Proof.
    intros Hx Hq Eq Ne. pose proof (prime_ge_2 _ Hq). split; [lia|]. intros k. split.
    - intros Ek. destruct (Zdivide_dec (Z.of_nat q) (Z.of_nat k)) as [[c D]|N].
      { exists (Z.to_nat c). nia. }
      exfalso. apply Ne. pose proof (proj2 (prime_rel_prime _ Hq _) N) as RP || pose proof (prime_rel_prime _ Hq _ N) as RP.
      apply rel_prime_sym in RP. destruct (rel_prime_bezout _ _ RP) as [u v B].
      (* u*k + v*q = 1, made non-negative *)
      set (s := Z.abs u + Z.abs v + 1).
      assert (HB : (Z.to_nat (u + s * Z.of_nat q) * k = 1 + Z.to_nat (s * Z.of_nat k - v) * q)%nat).
      { apply Nat2Z.inj. rewrite Nat2Z.inj_add, !Nat2Z.inj_mul, !Z2Nat.id; [|destruct k; [cbn in *; exfalso; apply N; exists 0; lia|nia]|nia].
        cbn [Z.of_nat Pos.of_succ_nat]. nia. }
      assert (E1 : mult (Z.to_nat (u + s * Z.of_nat q) * k) x = e) by (rewrite <- mult_mult, Ek by assumption; apply mult_e).
      rewrite HB, mult_add, <- (mult_mult _ q), Eq, mult_e, id_r, mult_1 in E1 by assumption. exact E1.
    - intros [c ->]. rewrite <- mult_mult, Eq by assumption. apply mult_e.
  Qed.
  Lemma order_diff x m i j : G x -> order x m -> (i <= j)%nat -> mult i x = mult j x <-> Nat.divide m (j - i).
  Proof.
    intros Hx [Hm Ho] L. rewrite <- Ho. assert (Ej : j = ((j - i) + i)%nat) by lia. split.
    - intros E. rewrite Ej, mult_add in E by assumption. apply (cancel_r _ _ (mult i x)); auto with grp.
      rewrite id_l. now symmetry.
    - intros E. rewrite Ej, mult_add, E, id_l by assumption. reflexivity.
  Qed.
  Lemma order_mod x m i j : G x -> order x m -> mult i x = mult j x <-> (i mod m = j mod m)%nat.
  Proof.
    intros Hx Ho. pose proof (proj1 Ho) as Hm.
    assert (W : forall a b, (a <= b)%nat -> mult a x = mult b x <-> (a mod m = b mod m)%nat).
    { intros a b L. rewrite (order_diff x m) by assumption. split.
      - intros [c D]. replace b with (a + c * m)%nat by lia. now rewrite Nat.mod_add by lia.
      - intros E. exists (b / m - a / m)%nat.
        pose proof (Nat.div_mod a m ltac:(lia)). pose proof (Nat.div_mod b m ltac:(lia)).
        pose proof (Nat.div_le_mono a b m ltac:(lia) L). nia. }
    destruct (Nat.le_ge_cases i j) as [L|L]; [now apply W|].
    split; intros E; symmetry; now apply W.
  Qed.
  (** the order of the sum of two elements of coprime orders *)
  Lemma order_sum x y m n : G x -> G y -> order x m -> order y n ->
    rel_prime (Z.of_nat m) (Z.of_nat n) -> order (op x y) (m * n).
  Proof.
    intros Hx Hy [Pm Om] [Pn On] RP. split; [nia|]. intros k. rewrite mult_op by assumption. split.
    - intros E.
      assert (A : forall z, mult z (op (mult k x) (mult k y)) = e) by (intros z; rewrite E; apply mult_e).
      assert (Dn : Nat.divide n k).
      { pose proof (A m) as Am. rewrite mult_op, !mult_mult in Am by auto with grp.
        replace (mult (m * k) x) with e in Am by (symmetry; apply Om; exists k; lia). rewrite id_l in Am.
        apply On in Am. apply (Nat.gauss n m k); [assumption|].
        rewrite Nat.gcd_comm. now apply rel_prime_gcd. }
      assert (Ey : mult k y = e) by now apply On.
      rewrite Ey, id_r in E. apply Om in E.
      destruct Dn as [c ->]. apply Nat.mul_divide_mono_r. 
      apply (Nat.gauss m n c); [rewrite Nat.mul_comm; assumption|].
      now apply rel_prime_gcd.
    - intros [c ->]. rewrite (proj2 (Om _)), (proj2 (On _)); [apply id_l|exists (c * m)%nat; lia|exists (c * n)%nat; lia].
  Qed.

  (** ** The subgroup generated by g, of order m *)
  Variables (g : T) (m : nat).
  Hypothesis Gg : G g.
  Hypothesis Og : order g m.
  Hint Resolve Gg : grp.
  Definition cyc : list T := map (fun i => mult i g) (seq 0 m).
  Lemma cyc_length : length cyc = m.
  Proof. unfold cyc. now rewrite map_length, seq_length. Qed.
  Lemma cyc_in x : In x cyc <-> exists i, x = mult i g.
  Proof.
    unfold cyc. rewrite in_map_iff. split.
    - intros (i & <- & _). now exists i.
    - intros [i ->]. exists (i mod m)%nat. destruct Og as [Hm _]. split.
      + apply (order_mod g m); [assumption..|]. now rewrite Nat.mod_mod by lia.
      + apply in_seq. pose proof (Nat.mod_upper_bound i m). lia.
  Qed.
  Lemma cyc_G x : In x cyc -> G x.
  Proof. rewrite cyc_in. intros [i ->]. auto with grp. Qed.
  Lemma cyc_nodup : NoDup cyc.
  Proof.
    apply NoDup_map_in; [apply seq_NoDup|]. intros i j Ii Ij E. apply (order_mod g m) in E; [|assumption..].
    apply in_seq in Ii, Ij. rewrite !Nat.mod_small in E by lia. exact E.
  Qed.
  Lemma cyc_op x y : In x cyc -> In y cyc -> In (op x y) cyc.
  Proof. rewrite !cyc_in. intros [i ->] [j ->]. exists (i + j)%nat. symmetry. now apply mult_add. Qed.
  Lemma cyc_inv x : In x cyc -> In (inv x) cyc.
  Proof.
    rewrite !cyc_in. intros [i ->]. exists (m * i - i)%nat. symmetry. apply inv_unique; auto with grp.
    rewrite <- mult_add by assumption. destruct Og as [Hm O]. apply O. exists i. nia.
  Qed.
  Lemma cyc_e : In e cyc.
  Proof. apply cyc_in. now exists O. Qed.
  Lemma cyc_dec x : {In x cyc} + {~ In x cyc}.
  Proof. apply in_dec, dec. Qed.
  Lemma cyc_out x y : G x -> In y cyc -> In (op x y) cyc -> In x cyc.
  Proof.
    intros Hx Hy H. pose proof (cyc_op _ _ H (cyc_inv _ Hy)) as H'.
    pose proof (cyc_G _ Hy). rewrite assoc, inv_r, id_r in H' by auto with grp. exact H'.
  Qed.

  (** cosets *)
  Definition coset (x : T) : list T := map (op x) cyc.
  Lemma coset_nodup x : G x -> NoDup (coset x).
  Proof.
    intros Hx. apply NoDup_map_in; [apply cyc_nodup|]. intros a b Ia Ib. apply cancel_l; auto using cyc_G.
  Qed.
  Lemma coset_G x : G x -> Forall G (coset x).
  Proof. intros Hx. apply Forall_map, Forall_forall. intros y Hy. auto using cyc_G. Qed.
  Lemma coset_disjoint x y : G x -> G y -> ~ In (op x (inv y)) cyc -> forall z, In z (coset x) -> ~ In z (coset y).
  Proof.
    intros Hx Hy N z. unfold coset. rewrite !in_map_iff. intros (a & Ea & Ia) (b & Eb & Ib). apply N.
    apply (cyc_out _ a); auto with grp. pose proof (cyc_G _ Ia). pose proof (cyc_G _ Ib).
    replace (op (op x (inv y)) a) with b; [assumption|].
    apply (cancel_l _ _ y); auto with grp. rewrite Eb, <- Ea.
    rewrite (comm (op x (inv y)) a), (comm y) by auto with grp. rewrite !assoc by auto with grp.
    rewrite inv_l, id_r by assumption. auto with grp.
  Qed.

  (** ** A group with at most N elements *)
  Variable N : Z.
  Hypothesis bound : forall l, NoDup l -> Forall G l -> Z.of_nat (length l) <= N.
  Lemma cyc_bound : Z.of_nat m <= N.
  Proof.
    rewrite <- cyc_length. apply bound; [apply cyc_nodup|]. apply Forall_forall. exact cyc_G.
  Qed.
  Lemma two_cosets x : G x -> ~ In x cyc -> 2 * Z.of_nat m <= N.
  Proof.
    intros Hx Nx. assert (L := bound (cyc ++ coset x)).
    rewrite app_length in L. unfold coset at 3 in L. rewrite map_length, cyc_length in L.
    enough (Z.of_nat (m + m) <= N) by lia. apply L.
    - apply NoDup_app_; [apply cyc_nodup|now apply coset_nodup|]. intros y Iy Jy. apply Nx.
      apply in_map_iff in Jy. destruct Jy as (b & Eb & Ib). apply (cyc_out _ b); auto. now rewrite Eb.
    - apply Forall_app. split; [|now apply coset_G]. apply Forall_forall. exact cyc_G.
  Qed.
  Lemma three_cosets x y : G x -> G y -> ~ In x cyc -> ~ In y cyc -> ~ In (op x (inv y)) cyc -> 3 * Z.of_nat m <= N.
  Proof.
    intros Hx Hy Nx Ny Nxy. assert (L := bound (cyc ++ (coset x ++ coset y))).
    rewrite !app_length in L. unfold coset at 5 6 in L. rewrite !map_length, cyc_length in L.
    enough (Z.of_nat (m + (m + m)) <= N) by lia.
    assert (D : forall u, G u -> ~ In u cyc -> forall z, In z cyc -> ~ In z (coset u)).
    { intros u Hu Nu z Iz Jz. apply Nu. apply in_map_iff in Jz. destruct Jz as (b & Eb & Ib).
      apply (cyc_out _ b); auto. now rewrite Eb. }
    apply L.
    - apply NoDup_app_; [apply cyc_nodup|apply NoDup_app_|].
      + now apply coset_nodup.
      + now apply coset_nodup.
      + now apply coset_disjoint.
      + intros z Iz Jz. apply in_app_iff in Jz. destruct Jz as [J|J]; [apply (D x) with z|apply (D y) with z]; assumption.
    - apply Forall_app. split; [|apply Forall_app; split; now apply coset_G]. apply Forall_forall. exact cyc_G.
  Qed.
  (** more than half of the group: everything *)
  Lemma all_half x : N < 2 * Z.of_nat m -> G x -> exists i, x = mult i g.
  Proof.
    intros B Hx. apply cyc_in. destruct (cyc_dec x) as [I|I]; [assumption|]. pose proof (two_cosets x Hx I). lia.
  Qed.
  (** more than a third of the group: the double of every element *)
  Lemma all_third x : N < 3 * Z.of_nat m -> G x -> (exists i, x = mult i g) \/ (exists i, op x x = mult i g).
  Proof.
    intros B Hx. destruct (cyc_dec x) as [I|I]; [left; now apply cyc_in|].
    destruct (cyc_dec (op x x)) as [J|J]; [right; now apply cyc_in|].
    enough (3 * Z.of_nat m <= N) by lia. apply (three_cosets (op x x) x); auto.
    rewrite assoc, inv_r, id_r by auto with grp. assumption.
  Qed.
End Grp.
