(** Lemmas on polynomials over GF(2). *)
From Coq Require Import ZArith List Bool Arith Lia Btauto.
From Verif Require Import S_GF2.
Import ListNotations.
Open Scope Z_scope.

(** Identities between exclusive ors. *)
Ltac lxor_solve :=
  apply Z.bits_inj'; let n := fresh "n" in let H := fresh "H" in intros n H;
  rewrite ?Z.lxor_spec, ?Z.bits_0; btauto.

Lemma lxor_dbl : forall a b, Z.lxor (2 * a) (2 * b) = 2 * Z.lxor a b.
Proof.
  intros. replace (2 * a) with (Z.shiftl a 1) by (rewrite Z.shiftl_mul_pow2 by lia; lia).
  replace (2 * b) with (Z.shiftl b 1) by (rewrite Z.shiftl_mul_pow2 by lia; lia).
  rewrite <- Z.shiftl_lxor, Z.shiftl_mul_pow2 by lia. lia.
Qed.
Lemma lxor_odd : forall a b, Z.lxor (2 * a + 1) (2 * b) = 2 * Z.lxor a b + 1.
Proof.
  intros. apply Z.bits_inj'. intros n Hn. rewrite Z.lxor_spec.
  destruct (Z.eq_dec n 0) as [->|].
  - rewrite !Z.testbit_odd_0, Z.testbit_even_0. reflexivity.
  - replace n with (Z.succ (n - 1)) by lia.
    rewrite !Z.testbit_odd_succ, Z.testbit_even_succ, Z.lxor_spec by lia. reflexivity.
Qed.
Lemma lxor_odd_r : forall a b, Z.lxor (2 * a) (2 * b + 1) = 2 * Z.lxor a b + 1.
Proof. intros. rewrite Z.lxor_comm, lxor_odd, Z.lxor_comm. reflexivity. Qed.
Lemma lxor_odd2 : forall a b, Z.lxor (2 * a + 1) (2 * b + 1) = 2 * Z.lxor a b.
Proof.
  intros. apply Z.bits_inj'. intros n Hn. rewrite Z.lxor_spec.
  destruct (Z.eq_dec n 0) as [->|].
  - rewrite !Z.testbit_odd_0, Z.testbit_even_0. reflexivity.
  - replace n with (Z.succ (n - 1)) by lia.
    rewrite !Z.testbit_odd_succ, Z.testbit_even_succ, Z.lxor_spec by lia. reflexivity.
Qed.
Lemma dbl_lxor_1 : forall a, 2 * a + 1 = Z.lxor 1 (2 * a).
Proof. intros. change 1 with (2 * 0 + 1) at 2. rewrite lxor_odd. reflexivity. Qed.

Lemma lxor_nonneg : forall a b, 0 <= a -> 0 <= b -> 0 <= Z.lxor a b.
Proof. intros. apply Z.lxor_nonneg. lia. Qed.
#[export] Hint Resolve lxor_nonneg : gf2.

(** Binary induction on non-negative integers. *)
Lemma bin_ind : forall Q : Z -> Prop,
  Q 0 -> (forall b, 0 <= b -> Q b -> Q (2 * b)) -> (forall b, 0 <= b -> Q b -> Q (2 * b + 1)) ->
  forall b, 0 <= b -> Q b.
Proof.
  intros Q H0 He Ho b Hb. destruct b as [|p|p]; [exact H0| |lia].
  clear Hb. induction p.
  - change (Z.pos p~1) with (2 * Z.pos p + 1). apply Ho; [lia|exact IHp].
  - change (Z.pos p~0) with (2 * Z.pos p). apply He; [lia|exact IHp].
  - change 1 with (2 * 0 + 1). apply Ho; [lia|exact H0].
Qed.

Lemma pmul_0_r : forall a, pmul a 0 = 0.
Proof. reflexivity. Qed.
Lemma pmul_1_r : forall a, pmul a 1 = a.
Proof. reflexivity. Qed.
Lemma pmul_dbl_r : forall a b, pmul a (2 * b) = 2 * pmul a b.
Proof. intros a [|p|p]; reflexivity. Qed.
Lemma pmul_odd_r : forall a b, 0 <= b -> pmul a (2 * b + 1) = Z.lxor a (2 * pmul a b).
Proof.
  intros a [|p|p] H; [|reflexivity|lia].
  cbn [pmul]. change (2 * 0 + 1) with 1. rewrite pmul_1_r. symmetry. apply Z.lxor_0_r.
Qed.
Lemma pmul_0_l : forall b, pmul 0 b = 0.
Proof.
  intros b. destruct (Z.le_gt_cases 0 b) as [H|H]; [|destruct b; try lia; reflexivity].
  revert b H. apply bin_ind; [reflexivity| |]; intros b Hb IH.
  - rewrite pmul_dbl_r, IH. reflexivity.
  - rewrite pmul_odd_r, IH by lia. reflexivity.
Qed.
Lemma pmul_nonneg : forall a b, 0 <= a -> 0 <= pmul a b.
Proof.
  intros a b Ha. destruct (Z.le_gt_cases 0 b) as [H|H]; [|destruct b; try lia; cbn; lia].
  revert b H. apply bin_ind; [cbn; lia| |]; intros b Hb IH.
  - rewrite pmul_dbl_r. lia.
  - rewrite pmul_odd_r by lia. apply lxor_nonneg; lia.
Qed.
#[export] Hint Resolve pmul_nonneg : gf2.
Lemma pmul_lxor_l : forall a a' b, pmul (Z.lxor a a') b = Z.lxor (pmul a b) (pmul a' b).
Proof.
  intros a a' b. destruct (Z.le_gt_cases 0 b) as [H|H]; [|destruct b; try lia; reflexivity].
  revert b H. apply bin_ind; [reflexivity| |]; intros b Hb IH.
  - rewrite !pmul_dbl_r, IH, lxor_dbl. reflexivity.
  - rewrite !pmul_odd_r, IH, <- lxor_dbl by lia. lxor_solve.
Qed.
Lemma pmul_dbl_l : forall a b, pmul (2 * a) b = 2 * pmul a b.
Proof.
  intros a b. destruct (Z.le_gt_cases 0 b) as [H|H]; [|destruct b; try lia; reflexivity].
  revert b H. apply bin_ind; [reflexivity| |]; intros b Hb IH.
  - rewrite !pmul_dbl_r, IH. reflexivity.
  - rewrite !pmul_odd_r, IH, lxor_dbl by lia. reflexivity.
Qed.
Lemma pmul_1_l : forall b, 0 <= b -> pmul 1 b = b.
Proof.
  apply bin_ind; [reflexivity| |]; intros b Hb IH.
  - rewrite !pmul_dbl_r, IH. reflexivity.
  - rewrite !pmul_odd_r, IH, <- dbl_lxor_1 by lia. reflexivity.
Qed.
Lemma pmul_odd_l : forall a b, 0 <= b -> pmul (2 * a + 1) b = Z.lxor b (2 * pmul a b).
Proof. intros. rewrite dbl_lxor_1, pmul_lxor_l, pmul_1_l, pmul_dbl_l by lia. reflexivity. Qed.
Lemma pmul_comm : forall a b, 0 <= a -> 0 <= b -> pmul a b = pmul b a.
Proof.
  intros a b Ha. revert b. apply bin_ind; [rewrite pmul_0_l; reflexivity| |]; intros b Hb IH.
  - rewrite pmul_dbl_r, pmul_dbl_l, IH. reflexivity.
  - rewrite pmul_odd_r, pmul_odd_l, IH by lia. reflexivity.
Qed.
Lemma pmul_lxor_r : forall a b b', 0 <= a -> 0 <= b -> 0 <= b' ->
  pmul a (Z.lxor b b') = Z.lxor (pmul a b) (pmul a b').
Proof.
  intros. rewrite (pmul_comm a), pmul_lxor_l, (pmul_comm b), (pmul_comm b') by eauto with gf2.
  reflexivity.
Qed.
Lemma pmul_assoc : forall a b c, 0 <= a -> 0 <= b -> 0 <= c -> pmul a (pmul b c) = pmul (pmul a b) c.
Proof.
  intros a b c Ha Hb. revert c. apply bin_ind; [reflexivity| |]; intros c Hc IH.
  - rewrite !pmul_dbl_r, IH. reflexivity.
  - pose proof (pmul_nonneg b c Hb).
    rewrite !pmul_odd_r, pmul_lxor_r, pmul_dbl_r, IH by lia. reflexivity.
Qed.
Lemma pmul_pow2_l : forall k b, 0 <= k -> pmul (2 ^ k) b = 2 ^ k * pmul 1 b.
Proof.
  intros k b Hk. pattern k. apply natlike_ind; [|intros x Hx IH|exact Hk].
  - change (2 ^ 0) with 1. rewrite Z.mul_1_l. reflexivity.
  - rewrite Z.pow_succ_r, pmul_dbl_l, IH by lia. lia.
Qed.
Lemma pmul_shiftl : forall k b, 0 <= k -> 0 <= b -> pmul (2 ^ k) b = Z.shiftl b k.
Proof. intros. rewrite pmul_pow2_l, pmul_1_l, Z.shiftl_mul_pow2 by lia. lia. Qed.

(** Degrees. *)
Lemma lxor_lt_pow2 : forall a b n, 0 <= a < 2 ^ n -> 0 <= b < 2 ^ n -> 0 <= Z.lxor a b < 2 ^ n.
Proof.
  intros a b n Ha Hb. split; [apply lxor_nonneg; lia|].
  assert (0 <= n) by (destruct (Z.le_gt_cases 0 n); [lia|rewrite (Z.pow_neg_r 2 n) in Ha by lia; lia]).
  destruct (Z.eq_dec (Z.lxor a b) 0) as [->|Hne]; [lia|].
  apply Z.log2_lt_pow2; [pose proof (lxor_nonneg a b); lia|].
  eapply Z.le_lt_trans; [apply Z.log2_lxor; lia|].
  assert (forall x, 0 <= x < 2 ^ n -> x = 0 \/ Z.log2 x < n).
  { intros x Hx. destruct (Z.eq_dec x 0); [auto|right; apply Z.log2_lt_pow2; lia]. }
  pose proof (Z.log2_nonneg a). pose proof (Z.log2_nonneg b).
  destruct (H0 a Ha) as [->|], (H0 b Hb) as [->|]; change (Z.log2 0) with 0 in *; try lia.
  exfalso; apply Hne; reflexivity.
Qed.
Lemma lxor_top : forall a b n, 0 <= n -> 2 ^ n <= a < 2 ^ (n + 1) -> 0 <= b < 2 ^ n ->
  2 ^ n <= Z.lxor a b < 2 ^ (n + 1).
Proof.
  intros a b n Hn Ha Hb. replace (n + 1) with (Z.succ n) in * by lia. rewrite Z.pow_succ_r in * by lia.
  assert (Hx : 0 <= Z.lxor a b < 2 ^ (Z.succ n)).
  { apply lxor_lt_pow2; rewrite Z.pow_succ_r by lia; lia. }
  rewrite Z.pow_succ_r in Hx by lia. split; [|lia].
  destruct (Z.le_gt_cases (2 ^ n) (Z.lxor a b)) as [H|H]; [exact H|].
  assert (0 <= Z.lxor (Z.lxor a b) b < 2 ^ n) by (apply lxor_lt_pow2; lia).
  rewrite Z.lxor_assoc, Z.lxor_nilpotent, Z.lxor_0_r in H0. lia.
Qed.
Lemma pmul_lt : forall a b m n, 0 <= m -> 0 <= n -> 0 <= a < 2 ^ m -> 0 <= b < 2 ^ (n + 1) ->
  0 <= pmul a b < 2 ^ (m + n).
Proof.
  intros a b m n Hm Hn Ha [Hb Hbn]. split; [apply pmul_nonneg; lia|]. revert n Hn Hbn.
  pattern b. revert b Hb. apply bin_ind; [intros; cbn; lia| |]; intros b Hb IH n Hn Hbn.
  - rewrite pmul_dbl_r. destruct (Z.eq_dec b 0) as [->|]; [cbn; lia|].
    replace (n + 1) with (Z.succ n) in Hbn by lia. rewrite Z.pow_succ_r in Hbn by lia.
    destruct (Z.eq_dec n 0) as [->|]; [change (2 ^ 0) with 1 in Hbn; lia|].
    specialize (IH (n - 1) ltac:(lia)). replace (n - 1 + 1) with n in IH by lia.
    replace (m + n) with (1 + (m + (n - 1))) by lia. rewrite (Z.pow_add_r 2 1) by lia. change (2 ^ 1) with 2. lia.
  - rewrite pmul_odd_r by lia.
    replace (n + 1) with (Z.succ n) in Hbn by lia. rewrite Z.pow_succ_r in Hbn by lia.
    destruct (Z.eq_dec n 0) as [->|].
    { change (2 ^ 0) with 1 in Hbn. assert (b = 0) by lia. subst b. cbn [pmul]. rewrite Z.add_0_r, Z.lxor_0_r. lia. }
    specialize (IH (n - 1) ltac:(lia)). replace (n - 1 + 1) with n in IH by lia. specialize (IH ltac:(lia)).
    apply lxor_lt_pow2.
    + split; [lia|]. apply Z.lt_le_trans with (2 ^ m); [lia|]. apply Z.pow_le_mono_r; lia.
    + pose proof (pmul_nonneg a b ltac:(lia)). split; [lia|].
      replace (m + n) with (Z.succ (m + (n - 1))) by lia. rewrite Z.pow_succ_r by lia. lia.
Qed.
(** A non-zero multiple of a polynomial of degree n has degree at least n. *)
Lemma pmul_ge : forall q P n, 0 <= n -> 0 < q -> 2 ^ n <= P < 2 ^ (n + 1) ->
  2 ^ (Z.log2 q + n) <= pmul q P < 2 ^ (Z.log2 q + n + 1).
Proof.
  intros q P n Hn Hq HP. assert (H0 : 0 <= q) by lia. revert Hq. pattern q. revert q H0.
  apply bin_ind; [intros; lia| |]; intros b Hb IH Hq.
  - rewrite pmul_dbl_l, Z.log2_double by lia. specialize (IH ltac:(lia)).
    pose proof (Z.log2_nonneg b).
    replace (Z.succ (Z.log2 b) + n + 1) with (Z.succ (Z.log2 b + n + 1)) by lia.
    replace (Z.succ (Z.log2 b) + n) with (Z.succ (Z.log2 b + n)) by lia.
    rewrite !(Z.pow_succ_r 2) by lia. lia.
  - rewrite pmul_odd_l by lia. destruct (Z.eq_dec b 0) as [->|].
    { rewrite pmul_0_l. change (Z.log2 (2 * 0 + 1)) with 0. rewrite Z.mul_0_r, Z.lxor_0_r, Z.add_0_l. lia. }
    rewrite Z.log2_succ_double by lia. specialize (IH ltac:(lia)).
    pose proof (Z.log2_nonneg b). rewrite Z.lxor_comm.
    replace (Z.succ (Z.log2 b) + n) with (Z.succ (Z.log2 b + n)) by lia.
    apply lxor_top; [lia| |].
    + replace (Z.succ (Z.log2 b + n) + 1) with (Z.succ (Z.log2 b + n + 1)) by lia.
      rewrite !(Z.pow_succ_r 2) by lia. lia.
    + split; [lia|]. apply Z.lt_le_trans with (2 ^ (n + 1)); [lia|]. apply Z.pow_le_mono_r; lia.
Qed.

(** Congruence. *)
Lemma pcong_refl : forall P a, pcong P a a.
Proof. intros. exists 0. rewrite Z.lxor_nilpotent, pmul_0_l. split; [lia|reflexivity]. Qed.
Lemma pcong_sym : forall P a b, pcong P a b -> pcong P b a.
Proof. intros P a b (q & Hq & E). exists q. rewrite Z.lxor_comm. auto. Qed.
Lemma pcong_trans : forall P a b c, pcong P a b -> pcong P b c -> pcong P a c.
Proof.
  intros P a b c (q & Hq & E) (q' & Hq' & E'). exists (Z.lxor q q').
  split; [auto with gf2|]. rewrite pmul_lxor_l, <- E, <- E'. lxor_solve.
Qed.
Lemma pcong_lxor : forall P a b c d, pcong P a b -> pcong P c d -> pcong P (Z.lxor a c) (Z.lxor b d).
Proof.
  intros P a b c d (q & Hq & E) (q' & Hq' & E'). exists (Z.lxor q q').
  split; [auto with gf2|]. rewrite pmul_lxor_l, <- E, <- E'. lxor_solve.
Qed.
Lemma pcong_mul_l : forall P a b c, 0 <= P -> 0 <= c -> pcong P a b -> 0 <= a -> 0 <= b -> pcong P (pmul c a) (pmul c b).
Proof.
  intros P a b c HP Hc (q & Hq & E) Ha Hb. exists (pmul c q). split; [auto with gf2|].
  rewrite <- pmul_lxor_r, E, pmul_assoc by lia. reflexivity.
Qed.
Lemma pcong_mul : forall P a b c d, 0 <= P -> 0 <= a -> 0 <= b -> 0 <= c -> 0 <= d ->
  pcong P a b -> pcong P c d -> pcong P (pmul a c) (pmul b d).
Proof.
  intros. apply pcong_trans with (pmul a d); [apply pcong_mul_l; auto|].
  rewrite (pmul_comm a d), (pmul_comm b d) by lia. apply pcong_mul_l; auto.
Qed.
Lemma pcong_unique : forall n P a b, 0 <= n -> 2 ^ n <= P < 2 ^ (n + 1) ->
  0 <= a < 2 ^ n -> 0 <= b < 2 ^ n -> pcong P a b -> a = b.
Proof.
  intros n P a b Hn HP Ha Hb (q & Hq & E).
  destruct (Z.eq_dec q 0) as [->|].
  - rewrite pmul_0_l in E. apply Z.lxor_eq. exact E.
  - pose proof (pmul_ge q P n Hn ltac:(lia) HP) as [H _]. rewrite <- E in H.
    pose proof (lxor_lt_pow2 a b n Ha Hb). pose proof (Z.log2_nonneg q).
    pose proof (Z.pow_le_mono_r 2 n (Z.log2 q + n) ltac:(lia) ltac:(lia)). lia.
Qed.

(** [preduce] is the remainder. *)
Lemma testbit_top : forall x n, 0 <= n -> 0 <= x < 2 ^ (n + 1) ->
  Z.testbit x n = (2 ^ n <=? x).
Proof.
  intros x n Hn Hx. rewrite Z.testbit_eqb by lia.
  replace (n + 1) with (Z.succ n) in Hx by lia. rewrite Z.pow_succ_r in Hx by lia.
  assert (0 < 2 ^ n) by (apply Z.pow_pos_nonneg; lia).
  destruct (Z.leb_spec (2 ^ n) x).
  - replace (x / 2 ^ n) with 1; [reflexivity|].
    apply Z.div_unique with (x - 2 ^ n); lia.
  - rewrite Z.div_small by lia. reflexivity.
Qed.
Lemma lxor_clear : forall a b n, 0 <= n -> 2 ^ n <= a < 2 ^ (n + 1) -> 2 ^ n <= b < 2 ^ (n + 1) ->
  0 <= Z.lxor a b < 2 ^ n.
Proof.
  intros a b n Hn Ha Hb. assert (0 < 2 ^ n) by (apply Z.pow_pos_nonneg; lia).
  assert (Hx : 0 <= Z.lxor a b < 2 ^ (n + 1)) by (apply lxor_lt_pow2; lia).
  split; [lia|]. destruct (Z.lt_ge_cases (Z.lxor a b) (2 ^ n)) as [H1|H1]; [exact H1|].
  assert (T : Z.testbit (Z.lxor a b) n = true).
  { rewrite testbit_top by lia. apply Z.leb_le. lia. }
  rewrite Z.lxor_spec, !testbit_top in T by lia.
  rewrite !(proj2 (Z.leb_le _ _)) in T by lia. discriminate.
Qed.
Lemma preduce_spec : forall n P k x, 0 <= n -> 2 ^ n <= P < 2 ^ (n + 1) ->
  0 <= x < 2 ^ (n + Z.of_nat k) ->
  0 <= preduce n P k x < 2 ^ n /\ pcong P x (preduce n P k x).
Proof.
  intros n P k. induction k as [|k IH]; intros x Hn HP Hx.
  - cbn [preduce]. rewrite Z.add_0_r in Hx. split; [exact Hx|apply pcong_refl].
  - cbn [preduce]. assert (Hx' : 0 <= x < 2 ^ (n + Z.of_nat k + 1)).
    { replace (n + Z.of_nat k + 1) with (n + Z.of_nat (S k)) by lia. exact Hx. }
    rewrite testbit_top by lia.
    destruct (Z.leb_spec (2 ^ (n + Z.of_nat k)) x) as [H|H].
    + set (y := Z.lxor x (Z.shiftl P (Z.of_nat k))).
      assert (Hy : 0 <= y < 2 ^ (n + Z.of_nat k)).
      { apply lxor_clear; [lia|lia|]. rewrite Z.shiftl_mul_pow2 by lia.
        rewrite (Z.pow_add_r 2 n) by lia.
        replace (n + Z.of_nat k + 1) with ((n + 1) + Z.of_nat k) by lia. rewrite (Z.pow_add_r 2 (n + 1)) by lia.
        assert (0 < 2 ^ Z.of_nat k) by (apply Z.pow_pos_nonneg; lia). nia. }
      destruct (IH y Hn HP Hy) as [B C]. split; [exact B|]. apply pcong_trans with y; [|exact C].
      exists (2 ^ Z.of_nat k). split; [apply Z.pow_nonneg; lia|].
      assert (0 < 2 ^ n) by (apply Z.pow_pos_nonneg; lia).
      rewrite pmul_shiftl by lia. unfold y. lxor_solve.
    + apply IH; [lia|lia|lia].
Qed.
Lemma gf_mul_spec : forall n P a b, 0 < n -> 2 ^ n <= P < 2 ^ (n + 1) ->
  0 <= a < 2 ^ n -> 0 <= b < 2 ^ n ->
  0 <= gf_mul n P a b < 2 ^ n /\ pcong P (pmul a b) (gf_mul n P a b).
Proof.
  intros n P a b Hn HP Ha Hb. unfold gf_mul. apply preduce_spec; [lia|exact HP|].
  rewrite Z2Nat.id by lia. apply pmul_lt; [lia|lia|exact Ha|].
  split; [lia|]. apply Z.lt_le_trans with (2 ^ n); [lia|]. apply Z.pow_le_mono_r; lia.
Qed.
(** The product is the only reduced polynomial congruent to a * b. *)
Lemma gf_mul_unique : forall n P a b r, 0 < n -> 2 ^ n <= P < 2 ^ (n + 1) ->
  0 <= a < 2 ^ n -> 0 <= b < 2 ^ n -> 0 <= r < 2 ^ n -> pcong P (pmul a b) r -> r = gf_mul n P a b.
Proof.
  intros n P a b r Hn HP Ha Hb Hr H. destruct (gf_mul_spec n P a b Hn HP Ha Hb) as [B C].
  apply (pcong_unique n P); [lia|exact HP|exact Hr|exact B|].
  apply pcong_trans with (pmul a b); [apply pcong_sym; exact H|exact C].
Qed.

(** Ring laws of GF(2)[x]/(P). *)
Section Ring.
Variables (n P : Z).
Hypothesis (Hn : 0 < n) (HP : 2 ^ n <= P < 2 ^ (n + 1)).
Lemma HP0 : 0 <= P. Proof using Hn HP. assert (0 <= 2 ^ n) by (apply Z.pow_nonneg; lia). lia. Qed.
Lemma gf_mul_range : forall a b, 0 <= a < 2 ^ n -> 0 <= b < 2 ^ n -> 0 <= gf_mul n P a b < 2 ^ n.
Proof using Hn HP. intros. apply gf_mul_spec; assumption. Qed.
Lemma gf_mul_comm : forall a b, 0 <= a < 2 ^ n -> 0 <= b < 2 ^ n -> gf_mul n P a b = gf_mul n P b a.
Proof using Hn HP.
  intros. apply gf_mul_unique; try assumption; [apply gf_mul_range; assumption|].
  rewrite (pmul_comm b a) by lia. apply gf_mul_spec; assumption.
Qed.
Lemma gf_mul_lxor_l : forall a b c, 0 <= a < 2 ^ n -> 0 <= b < 2 ^ n -> 0 <= c < 2 ^ n ->
  gf_mul n P (Z.lxor a b) c = Z.lxor (gf_mul n P a c) (gf_mul n P b c).
Proof using Hn HP.
  intros. symmetry. apply gf_mul_unique; try assumption.
  - apply lxor_lt_pow2; assumption.
  - apply lxor_lt_pow2; apply gf_mul_range; assumption.
  - rewrite pmul_lxor_l. apply pcong_lxor; apply gf_mul_spec; assumption.
Qed.
Lemma gf_mul_assoc : forall a b c, 0 <= a < 2 ^ n -> 0 <= b < 2 ^ n -> 0 <= c < 2 ^ n ->
  gf_mul n P a (gf_mul n P b c) = gf_mul n P (gf_mul n P a b) c.
Proof using Hn HP.
  intros a b c Ha Hb Hc. pose proof HP0.
  destruct (gf_mul_spec n P b c Hn HP Hb Hc) as [B1 C1].
  destruct (gf_mul_spec n P a b Hn HP Ha Hb) as [B2 C2].
  destruct (gf_mul_spec n P a _ Hn HP Ha B1) as [B3 C3].
  apply gf_mul_unique; try assumption.
  apply pcong_trans with (pmul (pmul a b) c).
  { apply pcong_sym. apply pcong_mul; try lia; first [exact C2 | apply pcong_refl | apply pmul_nonneg; lia]. }
  rewrite <- pmul_assoc by lia. apply pcong_trans with (pmul a (gf_mul n P b c)); [|exact C3].
  apply pcong_mul_l; try lia; auto. apply pmul_nonneg; lia.
Qed.
Lemma gf_mul_1_l : forall a, 0 <= a < 2 ^ n -> gf_mul n P 1 a = a.
Proof using Hn HP.
  intros a Ha. symmetry. apply gf_mul_unique; try assumption.
  - split; [lia|]. change 1 with (2 ^ 0) at 1. apply Z.pow_lt_mono_r; lia.
  - rewrite pmul_1_l by lia. apply pcong_refl.
Qed.
Lemma gf_mul_0_l : forall a, 0 <= a < 2 ^ n -> gf_mul n P 0 a = 0.
Proof using Hn HP.
  intros a Ha. symmetry. assert (0 < 2 ^ n) by (apply Z.pow_pos_nonneg; lia).
  apply gf_mul_unique; try assumption; try lia.
  rewrite pmul_0_l. apply pcong_refl.
Qed.
Lemma gf_one_range : 0 <= 1 < 2 ^ n.
Proof using Hn. split; [lia|]. change 1 with (2 ^ 0) at 1. apply Z.pow_lt_mono_r; lia. Qed.
Lemma gf_pow_range : forall a e, 0 <= a < 2 ^ n -> 0 <= gf_pow n P a e < 2 ^ n.
Proof using Hn HP.
  intros a e Ha. induction e; cbn [gf_pow]; [apply gf_one_range|apply gf_mul_range; assumption].
Qed.
End Ring.
