(** Word-level facts shared by the symmetric ciphers and hash functions: rotations as
    arithmetic, ranges of bitwise operations, bijections in the result monad. *)
From Coq Require Import ZArith List Bool Arith Lia.
From Verif Require Import Base P_Base M_Int P_Int.
Import ListNotations.
Open Scope Z_scope.
Ltac conjs := repeat match goal with |- _ /\ _ => split end.

Lemma lor_disjoint a b n : 0 <= n -> 0 <= a -> 0 <= b < 2 ^ n -> Z.lor (Z.shiftl a n) b = a * 2 ^ n + b.
Proof.
  intros Hn Ha Hb. rewrite <- Z.shiftl_mul_pow2 by lia.
  symmetry. assert (L : Z.land (Z.shiftl a n) b = 0).
  { apply Z.bits_inj'. intros i Hi. rewrite Z.land_spec, Z.bits_0.
    destruct (Z.lt_ge_cases i n) as [C|C].
    - now rewrite Z.shiftl_spec_low by lia.
    - replace b with (b mod 2 ^ n) by (apply Z.mod_small; lia).
      rewrite Z.mod_pow2_bits_high by lia. apply andb_false_r. }
  rewrite <- Z.lxor_lor by exact L. now apply Z.add_nocarry_lxor.
Qed.

Lemma rot_sum w a k : 0 <= k <= w -> 0 <= a < 2 ^ w ->
  (a * 2 ^ k + a / 2 ^ (w - k)) mod 2 ^ w = (a * 2 ^ k) mod 2 ^ w + a / 2 ^ (w - k).
Proof.
  intros Hk Ha.
  assert (E : 2 ^ w = 2 ^ (w - k) * 2 ^ k) by (rewrite <- Z.pow_add_r by lia; f_equal; lia).
  assert (P1 : 0 < 2 ^ k) by (apply Z.pow_pos_nonneg; lia).
  assert (P2 : 0 < 2 ^ (w - k)) by (apply Z.pow_pos_nonneg; lia).
  rewrite E, (Z.mul_mod_distr_r) by lia.
  pose proof (Z.mod_pos_bound a (2 ^ (w - k)) P2).
  assert (D : 0 <= a / 2 ^ (w - k) < 2 ^ k).
  { split; [apply Z.div_pos; lia|]. apply Z.div_lt_upper_bound; lia. }
  rewrite (Z.div_mod a (2 ^ (w - k))) at 1 by lia.
  replace ((2 ^ (w - k) * (a / 2 ^ (w - k)) + a mod 2 ^ (w - k)) * 2 ^ k + a / 2 ^ (w - k))
    with ((a mod 2 ^ (w - k)) * 2 ^ k + a / 2 ^ (w - k) + (a / 2 ^ (w - k)) * (2 ^ (w - k) * 2 ^ k)) by ring.
  rewrite Z.mod_add by lia. apply Z.mod_small. nia.
Qed.

Lemma rotate_left_arith t a n : sgn t = false -> 0 <= n < bits t -> 0 <= a < 2 ^ bits t ->
  rotate_left t a n = (a * 2 ^ n) mod 2 ^ bits t + a / 2 ^ (bits t - n).
Proof.
  intros Hs Hn Ha. unfold rotate_left, upat, iwrap. rewrite Hs.
  rewrite (Z.mod_small n) by lia. rewrite (Z.mod_small a) by lia.
  rewrite Z.shiftr_div_pow2 by lia.
  rewrite lor_disjoint; try lia. 1: apply rot_sum; lia.
  split; [apply Z.div_pos; try lia; apply Z.pow_pos_nonneg; lia|].
  apply Z.div_lt_upper_bound; [apply Z.pow_pos_nonneg; lia|].
  rewrite <- Z.pow_add_r by lia. replace (bits t - n + n) with (bits t) by lia. lia.
Qed.

Lemma rotate_right_arith t a n : sgn t = false -> 0 <= n < bits t -> 0 <= a < 2 ^ bits t ->
  rotate_right t a n = a / 2 ^ n + (a * 2 ^ (bits t - n)) mod 2 ^ bits t.
Proof.
  intros Hs Hn Ha. unfold rotate_right, upat, iwrap. rewrite Hs.
  rewrite (Z.mod_small n) by lia. rewrite (Z.mod_small a) by lia.
  rewrite Z.shiftr_div_pow2 by lia. rewrite Z.lor_comm.
  rewrite lor_disjoint; try lia.
  - replace (a / 2 ^ n) with (a / 2 ^ (bits t - (bits t - n))) by (do 2 f_equal; lia).
    rewrite rot_sum by lia. replace (bits t - (bits t - n)) with n by lia. lia.
  - split; [apply Z.div_pos; try lia; apply Z.pow_pos_nonneg; lia|].
    apply Z.div_lt_upper_bound; [apply Z.pow_pos_nonneg; lia|].
    rewrite <- Z.pow_add_r by lia. replace (n + (bits t - n)) with (bits t) by lia. lia.
Qed.

Lemma lxor_range w a b : 0 <= w -> 0 <= a < 2 ^ w -> 0 <= b < 2 ^ w -> 0 <= Z.lxor a b < 2 ^ w.
Proof.
  intros Hw Ha Hb. split; [apply Z.lxor_nonneg; lia|].
  destruct (Z.eq_dec (Z.lxor a b) 0) as [->|N]; [apply Z.pow_pos_nonneg; lia|].
  apply Z.log2_lt_cancel. rewrite Z.log2_pow2 by lia.
  pose proof (Z.log2_lxor a b ltac:(lia) ltac:(lia)).
  assert (L : forall x, 0 <= x < 2 ^ w -> Z.log2 x < w \/ w = 0).
  { intros x Hx. destruct (Z.eq_dec x 0) as [->|]; [cbn; lia|]. left. apply Z.log2_lt_pow2; lia. }
  destruct (Z.eq_dec w 0) as [->|Hw0].
  - assert (a = 0) by (cbn in *; lia). assert (b = 0) by (cbn in *; lia). subst. now cbn in N.
  - specialize (L a Ha) as [L1|]; [|lia]. 
    assert (Z.log2 b < w).
    { destruct (Z.eq_dec b 0) as [->|]; [cbn; lia|]. apply Z.log2_lt_pow2; lia. }
    lia.
Qed.
Lemma lor_range w a b : 0 <= w -> 0 <= a < 2 ^ w -> 0 <= b < 2 ^ w -> 0 <= Z.lor a b < 2 ^ w.
Proof.
  intros Hw Ha Hb. split; [apply Z.lor_nonneg; lia|].
  replace (Z.lor a b) with ((Z.lor a b) mod 2 ^ w); [apply Z.mod_pos_bound, Z.pow_pos_nonneg; lia|].
  apply Z.bits_inj'. intros i Hi. destruct (Z.lt_ge_cases i w) as [C|C].
  - now rewrite Z.mod_pow2_bits_low by lia.
  - rewrite Z.mod_pow2_bits_high, Z.lor_spec by lia.
    rewrite <- (Z.mod_small a (2 ^ w)), <- (Z.mod_small b (2 ^ w)) by lia.
    now rewrite !Z.mod_pow2_bits_high by lia.
Qed.
Lemma land_range w a b : 0 <= w -> 0 <= a < 2 ^ w -> 0 <= b < 2 ^ w -> 0 <= Z.land a b < 2 ^ w.
Proof.
  intros Hw Ha Hb. split; [apply Z.land_nonneg; lia|].
  replace (Z.land a b) with ((Z.land a b) mod 2 ^ w); [apply Z.mod_pos_bound, Z.pow_pos_nonneg; lia|].
  apply Z.bits_inj'. intros i Hi. destruct (Z.lt_ge_cases i w) as [C|C].
  - now rewrite Z.mod_pow2_bits_low by lia.
  - rewrite Z.mod_pow2_bits_high, Z.land_spec by lia.
    rewrite <- (Z.mod_small a (2 ^ w)) by lia. now rewrite Z.mod_pow2_bits_high by lia.
Qed.

(** Bijections on a set of states. *)
Definition bij_on {A} (V : A -> Prop) (f : A -> res A) : Prop :=
  (forall x, V x -> exists y, f x = Ok y /\ V y) /\
  (forall x x' y, V x -> V x' -> f x = Ok y -> f x' = Ok y -> x = x') /\
  (forall y, V y -> exists x, V x /\ f x = Ok y).

Lemma bij_compose {A} (V : A -> Prop) f g :
  bij_on V f -> bij_on V g -> bij_on V (fun x => bind (f x) g).
Proof.
  intros (F1 & F2 & F3) (G1 & G2 & G3). repeat split.
  - intros x Hx. destruct (F1 x Hx) as (y & E & Hy). destruct (G1 y Hy) as (z & E' & Hz).
    exists z. now rewrite E.
  - intros x x' z Hx Hx' E E'.
    destruct (F1 x Hx) as (y & Ey & Hy). destruct (F1 x' Hx') as (y' & Ey' & Hy').
    rewrite Ey in E. rewrite Ey' in E'. cbn [bind] in *.
    assert (y = y') by (eapply G2; eauto). subst. eapply F2; eauto.
  - intros z Hz. destruct (G3 z Hz) as (y & Hy & E). destruct (F3 y Hy) as (x & Hx & E').
    exists x. now rewrite E'.
Qed.
Lemma bij_iter {A} (V : A -> Prop) f start n :
  (forall i, bij_on V (f i)) -> bij_on V (for_range start n f).
Proof.
  intros H. revert start. induction n as [|n IH]; intros start.
  - cbn [for_range]. repeat split; intros.
    + eexists; eauto.
    + congruence.
    + eauto.
  - exact (bij_compose V (f start) _ (H start) (IH (S start))).
Qed.
Lemma bij_ext {A} (V : A -> Prop) f g : (forall x, V x -> f x = g x) -> bij_on V f -> bij_on V g.
Proof.
  intros E (F1 & F2 & F3). repeat split.
  - intros x Hx. rewrite <- E by assumption. auto.
  - intros x x' y Hx Hx'. rewrite <- !E by assumption. eauto.
  - intros y Hy. destruct (F3 y Hy) as (x & Hx & Ex). exists x. now rewrite <- E.
Qed.
Lemma bij_of_inverse {A} (V : A -> Prop) (f : A -> res A) (g h : A -> A) :
  (forall x, V x -> f x = Ok (g x) /\ V (g x) /\ h (g x) = x) ->
  (forall y, V y -> V (h y) /\ g (h y) = y) -> bij_on V f.
Proof.
  intros H1 H2. repeat split.
  - intros x Hx. destruct (H1 x Hx) as (E & ? & _). eauto.
  - intros x x' y Hx Hx' E E'.
    destruct (H1 x Hx) as (E1 & _ & E2). destruct (H1 x' Hx') as (E3 & _ & E4).
    rewrite E1 in E. rewrite E3 in E'. congruence.
  - intros y Hy. destruct (H2 y Hy) as (Hx & E). exists (h y). split; [assumption|].
    destruct (H1 _ Hx) as (E1 & _ & _). now rewrite E1, E.
Qed.
