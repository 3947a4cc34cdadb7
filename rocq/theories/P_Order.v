(** The points of a curve as a finite group: the instance of P_Group.v, the bound 2p+1 on the number of points,
    and a checker for [n]P = O which is given the slopes of the lines used. *)
From Coq Require Import ZArith Lia List Bool Znumtheory Field.
From Verif Require Import S_Curve P_Curve P_Group.
Import ListNotations.
Open Scope Z_scope.

Section Order.
  Variable p : Z.
  Hypothesis Hp : prime p.
  Hypothesis p_odd : p <> 2.
  Variables a b c d : Fp p.
  Hypothesis d_ne : d <> fof p 0.
  Hypothesis nonsing : nonsingular p a b c.
  Add Field Fpo : (fp_field p Hp) (morphism (fp_morph p), constants [fp_const]).
  Notation on := (on_curve p a b c d).
  Notation add := (padd p a b d).
  Notation mul := (pmul p a b d).
  Notation neg := (pneg p).
  Let p2 : 2 <= p := prime_ge_2 p Hp.

  Lemma mul_is_mult n P : mul n P = mult add Inf n P.
  Proof. reflexivity. Qed.

  Lemma point_eq (P Q : point p) : {P = Q} + {P <> Q}.
  Proof.
    destruct P as [|x y], Q as [|x' y']; [now left|right; discriminate|right; discriminate|].
    destruct (feqb_spec p x x') as [->|N]; [|right; congruence].
    destruct (feqb_spec p y y') as [->|N]; [now left|right; congruence].
  Defined.

  (** ** At most 2p+1 points *)
  Definition code (P : point p) : Z :=
    match P with Inf => 0 | Aff x y => 1 + 2 * fval x + (if 2 * fval y <? p then 0 else 1) end.
  Lemma code_range P : 0 <= code P < 2 * p + 1.
  Proof.
    destruct P as [|x y]; unfold code; [lia|]. pose proof (fval_range p x ltac:(lia)). destruct (_ <? _); lia.
  Qed.
  Lemma fval_opp (y : Fp p) : fval (fopp y) = if fval y =? 0 then 0 else p - fval y.
  Proof.
    unfold fopp. rewrite fval_of. pose proof (fval_range p y ltac:(lia)).
    destruct (Z.eqb_spec (fval y) 0) as [E|E]; [rewrite E; now rewrite Z.mod_small by lia|].
    symmetry. apply Z.mod_unique with (-1); lia.
  Qed.
  Lemma code_inj P Q : on P -> on Q -> code P = code Q -> P = Q.
  Proof.
    destruct P as [|x y], Q as [|x' y']; intros OP OQ; unfold code.
    - reflexivity.
    - pose proof (fval_range p x' ltac:(lia)). destruct (_ <? _); lia.
    - pose proof (fval_range p x ltac:(lia)). destruct (_ <? _); lia.
    - intros E. assert (Ex : x = x') by (apply fval_inj; destruct (_ <? _), (_ <? _); lia). subst x'. f_equal.
      destruct (same_x p Hp a b c d d_ne x y y' OP OQ) as [->| ->]; [reflexivity|].
      apply fval_inj. rewrite fval_opp in E |- *. pose proof (fval_range p y ltac:(lia)).
      destruct (Z.eqb_spec (fval y) 0) as [Z|Z]; [assumption|].
      assert (Odd : Z.odd p = true).
      { destruct (Z.odd p) eqn:Od; [reflexivity|]. exfalso. rewrite <- Z.negb_even in Od. apply negb_false_iff, Z.even_spec in Od.
        destruct Od as [k K]. apply p_odd. destruct (prime_divisors p Hp 2) as [H2|[H2|[H2|H2]]]; try lia. exists k. lia. }
      apply Z.odd_spec in Odd. destruct Odd as [k K].
      destruct (Z.ltb_spec (2 * fval y) p), (Z.ltb_spec (2 * (p - fval y)) p); lia.
  Qed.
  Lemma count_bound l : NoDup l -> Forall on l -> Z.of_nat (length l) <= 2 * p + 1.
  Proof.
    intros D F. pose proof (NoDup_range (map code l) (2 * p + 1)) as H. rewrite map_length in H.
    enough (Z.of_nat (length l) <= Z.max 0 (2 * p + 1)) by lia. apply H.
    - apply NoDup_map_in; [assumption|]. rewrite Forall_forall in F. intros x y Ix Iy. apply code_inj; auto.
    - apply Forall_map, Forall_forall. intros x _. apply code_range.
  Qed.

  (** ** The group *)
  Lemma g_op x y : on x -> on y -> on (add x y).
  Proof. apply on_add; assumption. Qed.
  Lemma g_comm x y : on x -> on y -> add x y = add y x.
  Proof. exact (add_comm p Hp a b c d d_ne x y). Qed.
  Lemma g_assoc x y z : on x -> on y -> on z -> add (add x y) z = add x (add y z).
  Proof. exact (add_assoc p Hp p_odd a b c d d_ne nonsing x y z). Qed.
  Lemma g_neg x : on x -> on (neg x).
  Proof. now apply on_neg. Qed.
  Lemma g_inv x : add x (neg x) = Inf.
  Proof. now apply add_neg. Qed.
  Lemma g_id x : add x Inf = x.
  Proof. apply add_inf_r. Qed.
  Lemma g_mul n x : on x -> on (mul n x).
  Proof. apply (G_mult add Inf on I g_op). Qed.

  Definition has_order (P : point p) (m : nat) : Prop := (0 < m)%nat /\ forall k, mul k P = Inf <-> Nat.divide m k.
  Lemma g_order_prime P q : on P -> prime (Z.of_nat q) -> mul q P = Inf -> P <> Inf -> has_order P q.
  Proof. exact (order_prime add Inf on I g_op g_assoc g_id (fun x => eq_refl) P q). Qed.
  Lemma g_order_mod P m i j : on P -> has_order P m -> mul i P = mul j P <-> (i mod m = j mod m)%nat.
  Proof. exact (order_mod add Inf neg on I g_op g_neg g_assoc g_id (fun x => eq_refl) g_inv P m i j). Qed.
  Lemma g_order_sum P Q m n : on P -> on Q -> has_order P m -> has_order Q n ->
    rel_prime (Z.of_nat m) (Z.of_nat n) -> has_order (add P Q) (m * n).
  Proof. exact (order_sum add Inf on I g_op g_comm g_assoc g_id (fun x => eq_refl) P Q m n). Qed.
  Lemma g_mul_op n P Q : on P -> on Q -> mul n (add P Q) = add (mul n P) (mul n Q).
  Proof. exact (mult_op add Inf on I g_op g_comm g_assoc (fun x => eq_refl) n P Q). Qed.
  Lemma g_mul_add i j P : on P -> mul (i + j) P = add (mul i P) (mul j P).
  Proof. exact (mult_add add Inf on I g_op g_assoc g_id i j P). Qed.
  Lemma g_mul_mul i j P : on P -> mul i (mul j P) = mul (i * j) P.
  Proof. exact (mult_mult add Inf on I g_op g_assoc g_id i j P). Qed.
  Lemma g_mul_inf n : mul n Inf = Inf.
  Proof. exact (mult_e add Inf (fun x => eq_refl) n). Qed.
  Lemma g_diff P Q : on P -> on Q -> add P (neg Q) = Inf -> P = Q.
  Proof. exact (diff_e add Inf neg on g_neg g_assoc g_id g_inv P Q). Qed.
  Lemma g_cancel_r P Q R : on P -> on Q -> on R -> add P R = add Q R -> P = Q.
  Proof. exact (cancel_r add Inf neg on g_neg g_assoc g_id g_inv P Q R). Qed.
  Lemma g_inv_unique P Q : on P -> on Q -> add P Q = Inf -> Q = neg P.
  Proof. exact (inv_unique add Inf neg on g_neg g_comm g_assoc g_id g_inv P Q). Qed.

  Section Cyclic.
    Variables (g : point p) (m : nat).
    Hypothesis Og : on g.
    Hypothesis Hg : has_order g m.
    Lemma g_cyc_bound : Z.of_nat m <= 2 * p + 1.
    Proof.
      exact (cyc_bound add Inf neg on I g_op g_neg g_assoc g_id (fun x => eq_refl) g_inv g m Og Hg (2 * p + 1) count_bound).
    Qed.
    Lemma g_all_half P : 2 * p + 1 < 2 * Z.of_nat m -> on P -> exists i, P = mul i g.
    Proof.
      exact (all_half add Inf neg on point_eq I g_op g_neg g_comm g_assoc g_id (fun x => eq_refl) g_inv g m Og Hg (2 * p + 1) count_bound P).
    Qed.
    Lemma g_all_third P : 2 * p + 1 < 3 * Z.of_nat m -> on P -> (exists i, P = mul i g) \/ (exists i, add P P = mul i g).
    Proof.
      exact (all_third add Inf neg on point_eq I g_op g_neg g_comm g_assoc g_id (fun x => eq_refl) g_inv g m Og Hg (2 * p + 1) count_bound P).
    Qed.
    Lemma g_three P Q : on P -> on Q -> ~ (exists i, P = mul i g) -> ~ (exists i, Q = mul i g) ->
      ~ (exists i, add P (neg Q) = mul i g) -> 3 * Z.of_nat m <= 2 * p + 1.
    Proof.
      intros OP OQ N1 N2 N3.
      apply (three_cosets add Inf neg on I g_op g_neg g_comm g_assoc g_id (fun x => eq_refl) g_inv g m Og Hg (2 * p + 1) count_bound P Q OP OQ);
        intros H; apply (cyc_in add Inf neg on I g_op g_neg g_assoc g_id (fun x => eq_refl) g_inv g m Og Hg) in H; auto.
    Qed.
    Lemma g_size : (forall P, on P -> exists i, P = mul i g) ->
      exists l, NoDup l /\ length l = m /\ forall P, In P l <-> on P.
    Proof.
      intros A. pose proof (cyc_in add Inf neg on I g_op g_neg g_assoc g_id (fun x => eq_refl) g_inv g m Og Hg) as CI.
      exists (cyc add Inf g m). split; [|split].
      - exact (cyc_nodup add Inf neg on I g_op g_neg g_assoc g_id (fun x => eq_refl) g_inv g m Og Hg).
      - apply cyc_length.
      - intros P. rewrite CI. split; [intros [i ->]; now apply g_mul|apply A].
    Qed.
  End Cyclic.
  Lemma order_dvd P m k : has_order P m -> Nat.divide m k -> mul k P = Inf.
  Proof. intros [_ H] D. now apply H. Qed.
  (** elements of order 4 and 8 *)
  Lemma mul_rem P m k : on P -> mul m P = Inf -> mul k P = mul (k mod m) P.
  Proof.
    intros O E. destruct (Nat.eq_dec m 0) as [->|Nm]; [reflexivity|].
    rewrite (Nat.div_mod k m) at 1 by assumption.
    rewrite g_mul_add, Nat.mul_comm, <- g_mul_mul, E, g_mul_inf by assumption. reflexivity.
  Qed.
  Lemma order_4 P : on P -> mul 2 P <> Inf -> mul 4 P = Inf -> has_order P 4.
  Proof.
    intros O N E. split; [lia|]. intros k. rewrite (mul_rem P 4 k O E). split.
    - intros H. pose proof (Nat.mod_upper_bound k 4 ltac:(lia)) as L.
      enough (k mod 4 = 0)%nat by (apply Nat.mod_divide; lia).
      assert (J : forall j, mul (j * (k mod 4)) P = Inf) by (intros j; rewrite <- g_mul_mul, H by assumption; apply g_mul_inf).
      destruct (k mod 4)%nat as [|[|[|[|r]]]]; [reflexivity| | | |lia]; exfalso; apply N.
      + exact (J 2%nat).
      + exact (J 1%nat).
      + rewrite <- (J 2%nat). change (2 * 3)%nat with (4 + 2)%nat. rewrite g_mul_add, E by assumption. reflexivity.
    - intros D. apply Nat.mod_divide in D; [|lia]. now rewrite D.
  Qed.
  Lemma order_8 P : on P -> mul 4 P <> Inf -> mul 8 P = Inf -> has_order P 8.
  Proof.
    intros O N E. split; [lia|]. intros k. rewrite (mul_rem P 8 k O E). split.
    - intros H. pose proof (Nat.mod_upper_bound k 8 ltac:(lia)) as L.
      enough (k mod 8 = 0)%nat by (apply Nat.mod_divide; lia).
      assert (J : forall j, mul ((j * (k mod 8)) mod 8) P = Inf).
      { intros j. rewrite <- mul_rem, <- g_mul_mul, H by assumption. apply g_mul_inf. }
      destruct (k mod 8)%nat as [|[|[|[|[|[|[|[|r]]]]]]]]; [reflexivity| | | | | | | |lia]; exfalso; apply N.
      + exact (J 4%nat).
      + exact (J 2%nat).
      + exact (J 4%nat).
      + exact (J 1%nat).
      + exact (J 4%nat).
      + exact (J 2%nat).
      + exact (J 4%nat).
    - intros D. apply Nat.mod_divide in D; [|lia]. now rewrite D.
  Qed.
  Lemma g_neg_mul n P : on P -> mul n (neg P) = neg (mul n P).
  Proof.
    intros O. apply g_inv_unique; [now apply g_mul|now apply g_mul, g_neg|].
    rewrite <- g_mul_op, g_inv by auto using g_neg. apply g_mul_inf.
  Qed.
  (** points with the same abscissa *)
  Lemma g_same_x x y y' : on (Aff x y) -> on (Aff x y') -> Aff x y' = Aff x y \/ Aff x y' = neg (Aff x y).
  Proof.
    intros O O'. destruct (same_x p Hp a b c d d_ne x y y' O O') as [->| ->]; [now left|now right].
  Qed.

  (** ** The check of [n]P = O, given slopes *)
  Section Chain.
    Variable red : Z -> Z.
    Hypothesis red_ok : forall x, fof p (red x) = fof p x.
    Variables zA zB zD : Z.
    Hypothesis HA : a = fof p zA.
    Hypothesis HB : b = fof p zB.
    Hypothesis HD : d = fof p zD.
    Definition zeroish (r : Z) : bool := (r =? 0) || (r =? p) || (r =? - p).
    Definition line (l x y x2 : Z) : Z * Z := let x3 := red (zD * (l * l) - zA - x - x2) in (x3, red (l * (x - x3) - y)).
    Definition cdbl (l : Z) (R : Z * Z) : option (Z * Z) :=
      let (x, y) := R in
      if zeroish (red (red (2 * zD * y * l - (3 * (x * x) + 2 * zA * x + zB)))) then Some (line l x y x) else None.
    Definition cadd (l : Z) (R : Z * Z) (px py : Z) : option (Z * Z) :=
      let (x, y) := R in
      if zeroish (red (red (l * (px - x) - (py - y)))) && negb ((px - x) mod p =? 0) then Some (line l x y px) else None.
    Fixpoint chain (px py : Z) (s : list (Z * (Z * Z))) (R : Z * Z) (v : Z) : option ((Z * Z) * Z) :=
      match s with
      | [] => Some (R, v)
      | (l, (dg, m)) :: s =>
          match cdbl l R with
          | None => None
          | Some R => if dg =? 0 then chain px py s R (2 * v)
                      else if dg =? 1 then match cadd m R px py with None => None | Some R => chain px py s R (2 * v + 1) end
                      else match cadd m R px (- py) with None => None | Some R => chain px py s R (2 * v - 1) end
          end
      end.
    Definition chain_check (px py : Z) (s : list (Z * (Z * Z))) (n : Z) : bool :=
      match chain px py s (px, py) 1 with
      | Some ((x, y), v) => (v + 1 =? n) && ((x - px) mod p =? 0) && ((y + py) mod p =? 0)
      | None => false
      end.

    Definition zpt (R : Z * Z) : point p := Aff (fof p (fst R)) (fof p (snd R)).
    Lemma zeroish_ok r : zeroish r = true -> fof p r = fof p 0.
    Proof.
      unfold zeroish. rewrite !orb_true_iff, !Z.eqb_eq. intros [[->| ->]| ->]; apply fof_eq; [reflexivity|..].
      - now rewrite Z_mod_same_full.
      - now rewrite Z_mod_zero_opp_full by apply Z_mod_same_full.
    Qed.
    Lemma line_ok l x y x2 : zpt (line l x y x2) = line3 p a d (fof p l) (fof p x) (fof p y) (fof p x2).
    Proof.
      unfold zpt, line, line3. cbn [fst snd]. rewrite HA, HD, !red_ok, !fof_sub, !fof_mul, !fof_sub, red_ok, !fof_sub, !fof_mul. reflexivity.
    Qed.
    Lemma fdiv_eq (x y z : Fp p) : z <> fof p 0 -> fmul y z = x -> fdiv x z = y.
    Proof. intros N <-. now field. Qed.
    Lemma cdbl_ok l R R' : on (zpt R) -> cdbl l R = Some R' -> zpt R' = add (zpt R) (zpt R).
    Proof.
      destruct R as [x y]. intros O. unfold cdbl. destruct (zeroish _) eqn:Z; [|discriminate]. intros [= <-].
      apply zeroish_ok in Z. rewrite !red_ok in Z. rewrite line_ok. unfold zpt in *. cbn [fst snd] in *.
      rewrite !fof_sub, !fof_add, !fof_mul, <- HA, <- HB, <- HD in Z.
      set (X := fof p x) in *. set (Y := fof p y) in *. set (L := fof p l) in *.
      assert (Z' : fmul L (fmul (fmul (fof p 2) d) Y) = cubic' p a b X).
      { symmetry. apply sub_0; [assumption|]. rewrite <- Z. unfold cubic'. ring. }
      assert (N : Y <> fof p 0).
      { intros E. apply (nonsing X).
        - rewrite <- O. rewrite E. ring.
        - rewrite <- Z', E. ring. }
      unfold padd. rewrite feqb_refl, feqb_ne.
      2: { intros E. apply N. now apply (double_0 p Hp p_odd). }
      f_equal. symmetry. apply fdiv_eq; [|assumption]. intros E.
      apply (fmul_0 p Hp) in E. destruct E as [E|E]; [|contradiction].
      apply (fmul_0 p Hp) in E. destruct E as [E|E]; [now apply (two_ne p Hp p_odd)|contradiction].
    Qed.
    Lemma cadd_ok l R px py R' : cadd l R px py = Some R' -> zpt R' = add (zpt R) (zpt (px, py)).
    Proof.
      destruct R as [x y]. unfold cadd. destruct (zeroish _) eqn:Z; [|discriminate].
      destruct (Z.eqb_spec ((px - x) mod p) 0) as [E|N]; [discriminate|]. intros [= <-].
      apply zeroish_ok in Z. rewrite !red_ok in Z. rewrite line_ok. unfold zpt. cbn [fst snd].
      rewrite !fof_sub, !fof_mul, !fof_sub in Z.
      assert (N' : fof p x <> fof p px).
      { intros E. apply N. apply fof_inj in E. rewrite Zminus_mod, E, Z.sub_diag. apply Zmod_0_l. }
      unfold padd. rewrite feqb_ne by assumption. f_equal. symmetry. apply fdiv_eq.
      - intros E. apply N'. now apply sub_0.
      - symmetry. now apply sub_0.
    Qed.
    Lemma mul_2v v P : on P -> 0 < v -> mul (Z.to_nat (2 * v)) P = add (mul (Z.to_nat v) P) (mul (Z.to_nat v) P).
    Proof. intros O H. rewrite <- g_mul_add by assumption. f_equal. lia. Qed.
    Lemma chain_ok px py s : on (zpt (px, py)) -> forall R v R' v', 0 < v -> zpt R = mul (Z.to_nat v) (zpt (px, py)) ->
      chain px py s R v = Some (R', v') -> 0 < v' /\ zpt R' = mul (Z.to_nat v') (zpt (px, py)).
    Proof.
      intros O. set (P := zpt (px, py)) in *. induction s as [|[l [dg m]] s IH]; intros R v R' v' V E.
      { cbn. intros [= <- <-]. auto. }
      cbn [chain]. destruct (cdbl l R) as [R1|] eqn:D; [|discriminate].
      apply cdbl_ok in D; [|rewrite E; now apply g_mul]. rewrite E, <- mul_2v in D by assumption.
      destruct (dg =? 0); [apply IH; [lia|assumption]|].
      destruct (dg =? 1).
      - destruct (cadd m R1 px py) as [R2|] eqn:A; [|discriminate]. apply cadd_ok in A. apply IH; [lia|].
        rewrite A, D. replace (Z.to_nat (2 * v + 1)) with (S (Z.to_nat (2 * v))) by lia. reflexivity.
      - destruct (cadd m R1 px (- py)) as [R2|] eqn:A; [|discriminate]. apply cadd_ok in A. apply IH; [lia|].
        rewrite A, D. replace (zpt (px, - py)) with (neg P) by (unfold P, zpt; cbn; now rewrite fof_opp).
        replace (Z.to_nat (2 * v)) with (S (Z.to_nat (2 * v - 1))) by lia. rewrite mul_S.
        rewrite g_assoc, g_inv, g_id; auto using g_mul, g_neg.
    Qed.
    Theorem chain_check_ok px py s n : on (zpt (px, py)) -> chain_check px py s n = true ->
      mul (Z.to_nat n) (zpt (px, py)) = Inf.
    Proof.
      intros O. unfold chain_check. destruct (chain px py s (px, py) 1) as [[[x y] v]|] eqn:C; [|discriminate].
      rewrite !andb_true_iff, !Z.eqb_eq. intros [[En Ex] Ey].
      apply chain_ok in C; [|assumption|lia|reflexivity]. destruct C as [V C].
      replace (Z.to_nat n) with (S (Z.to_nat v)) by lia. rewrite mul_S, <- C.
      replace (zpt (x, y)) with (neg (zpt (px, py))); [rewrite g_comm by auto using g_neg; apply g_inv|].
      unfold zpt, pneg. cbn [fst snd]. f_equal.
      - apply sub_0; [assumption|]. rewrite <- fof_sub. apply fof_eq. now rewrite Ex.
      - rewrite <- fof_opp. apply sub_0; [assumption|]. rewrite <- fof_sub. apply fof_eq.
        replace (y - - py) with (y + py) by lia. now rewrite Ey.
    Qed.
  End Chain.
End Order.
