(** The floating-point ceiling division of HKDF is exact where it matters. *)
From Coq Require Import ZArith List Bool Arith Lia.
From Coq Require Import SpecFloat.
From Verif Require Import Base M_SHA2.
Open Scope Z_scope.

Lemma digits_bounds p : 2 ^ (Z.pos (digits2_pos p) - 1) <= Z.pos p < 2 ^ Z.pos (digits2_pos p).
Proof.
  assert (A : forall d, 2 ^ Z.pos (Pos.succ d) = 2 * 2 ^ Z.pos d)
    by (intros; rewrite Pos2Z.inj_succ, Z.pow_succ_r by lia; reflexivity).
  assert (B : forall d, 2 ^ (Z.pos (Pos.succ d) - 1) = 2 * 2 ^ (Z.pos d - 1)).
  { intros. rewrite Pos2Z.inj_succ. replace (Z.succ (Z.pos d) - 1) with (Z.succ (Z.pos d - 1)) by lia.
    rewrite Z.pow_succ_r by lia. reflexivity. }
  induction p; cbn [digits2_pos]; rewrite ?A, ?B; lia.
Qed.
Lemma digits_unique p d : 2 ^ (d - 1) <= Z.pos p < 2 ^ d -> Z.pos (digits2_pos p) = d.
Proof.
  intros H. pose proof (digits_bounds p) as B. set (e := Z.pos (digits2_pos p)) in *.
  destruct (Z.lt_trichotomy e d) as [L|[L|L]]; [|assumption|].
  - assert (2 ^ e <= 2 ^ (d - 1)) by (apply Z.pow_le_mono_r; lia). lia.
  - assert (2 ^ d <= 2 ^ (e - 1)).
    { destruct (Z.neg_nonneg_cases d); [rewrite (Z.pow_neg_r 2 d) by lia; apply Z.pow_nonneg; lia|].
      apply Z.pow_le_mono_r; lia. }
    lia.
Qed.
Lemma shr_1_m x : 0 <= shr_m x -> shr_m (shr_1 x) = shr_m x / 2.
Proof.
  destruct x as [[|[p|p|]|p] r s]; cbn [shr_m shr_1]; intros H; try reflexivity; try lia.
  - rewrite Pos2Z.inj_xI. apply (Z.div_unique _ _ _ 1); lia.
  - rewrite Pos2Z.inj_xO. apply (Z.div_unique _ _ _ 0); lia.
Qed.
Lemma iter_shr_m p : forall x, 0 <= shr_m x -> shr_m (iter_pos shr_1 p x) = shr_m x / 2 ^ Z.pos p.
Proof.
  induction p; intros x H; cbn [iter_pos].
  - assert (H1 : 0 <= shr_m (shr_1 x)) by (rewrite shr_1_m by assumption; apply Z.div_pos; lia).
    assert (H2 : 0 <= shr_m (iter_pos shr_1 p (shr_1 x)))
      by (rewrite IHp by assumption; apply Z.div_pos; [assumption|apply Z.pow_pos_nonneg; lia]).
    rewrite !IHp, shr_1_m by assumption.
    rewrite !Z.div_div by (try apply Z.pow_nonzero; try apply Z.mul_pos_pos; try apply Z.pow_pos_nonneg; lia).
    f_equal. rewrite Pos2Z.inj_xI. replace (2 * Z.pos p + 1) with (Z.pos p + Z.pos p + 1) by lia.
    rewrite !Z.pow_add_r by lia. ring.
  - assert (H2 : 0 <= shr_m (iter_pos shr_1 p x))
      by (rewrite IHp by assumption; apply Z.div_pos; [assumption|apply Z.pow_pos_nonneg; lia]).
    rewrite !IHp by assumption. rewrite Z.div_div by (try apply Z.pow_nonzero; try apply Z.pow_pos_nonneg; lia).
    assert (E : Z.pos p~0 = Z.pos p + Z.pos p) by lia. rewrite E, Z.pow_add_r by lia. reflexivity.
  - now apply shr_1_m.
Qed.

(** A normal number. *)
Definition normal (m : positive) : Prop := 2 ^ 52 <= Z.pos m < 2 ^ 53.
Lemma normal_digits m : normal m -> Z.pos (digits2_pos m) = 53.
Proof. intros H. apply digits_unique. exact H. Qed.
Lemma fexp_eq x : fexp 53 1024 x = Z.max (x - 53) (-1074).
Proof. reflexivity. Qed.
(** A normal mantissa is not changed by rounding. *)
Lemma shr_fexp_normal m e l : normal m -> -1074 <= e ->
  shr_fexp 53 1024 (Z.pos m) e l = (shr_record_of_loc (Z.pos m) l, e).
Proof.
  intros H He. unfold shr_fexp, Zdigits2. rewrite normal_digits by assumption. rewrite fexp_eq.
  replace (Z.max (53 + e - 53) (-1074) - e) with 0 by lia. reflexivity.
Qed.
Lemma round_aux_normal m e : normal m -> -1074 <= e <= 971 ->
  binary_round_aux 53 1024 false (Z.pos m) e loc_Exact = S754_finite false m e.
Proof.
  intros H He. unfold binary_round_aux. rewrite shr_fexp_normal by (assumption || lia).
  cbn [shr_record_of_loc shr_m loc_of_shr_record round_nearest_even].
  rewrite shr_fexp_normal by (assumption || lia). cbn [shr_record_of_loc shr_m].
  destruct (Zle_bool e (1024 - 53)) eqn:E; [reflexivity|]. apply Z.leb_gt in E. lia.
Qed.
(** Division by 32 only changes the exponent. *)
Lemma div32 m e : normal m -> -1068 <= e <= 971 ->
  SFdiv 53 1024 (S754_finite false m e) (f64_of 32) = S754_finite false m (e - 5).
Proof.
  intros H He. replace (f64_of 32) with (S754_finite false 4503599627370496 (-47)) by (vm_compute; reflexivity).
  unfold SFdiv, SFdiv_core_binary, Zdigits2. rewrite normal_digits by assumption.
  replace (Z.pos (digits2_pos 4503599627370496)) with 53 by (vm_compute; reflexivity).
  rewrite fexp_eq. replace (Z.min (Z.max (53 + e - (53 + -47) - 53) (-1074)) (e - -47)) with (e - 6) by lia.
  replace (e - -47 - (e - 6)) with 53 by lia.
  replace (Z.shiftl (Z.pos m) 53) with (2 * Z.pos m * 4503599627370496).
  2: { rewrite Z.shiftl_mul_pow2 by lia. change (2 ^ 53) with (2 * 4503599627370496). ring. }
  destruct (Z.div_eucl (2 * Z.pos m * 4503599627370496) 4503599627370496) as [q r] eqn:E.
  pose proof (Z_div_mod (2 * Z.pos m * 4503599627370496) 4503599627370496 ltac:(lia)) as D. rewrite E in D.
  assert (q = 2 * Z.pos m /\ r = 0) as [-> ->] by lia.
  change (new_location 4503599627370496 0) with loc_Exact. change (xorb false false) with false.
  change (2 * Z.pos m) with (Z.pos (xO m)). unfold binary_round_aux, shr_fexp at 1, Zdigits2.
  assert (D54 : Z.pos (digits2_pos (xO m)) = 54).
  { apply digits_unique. destruct H. change (2 ^ (54 - 1)) with (2 * 2 ^ 52). change (2 ^ 54) with (2 * 2 ^ 53). lia. }
  rewrite D54, fexp_eq. replace (Z.max (54 + (e - 6) - 53) (-1074) - (e - 6)) with 1 by lia.
  unfold shr. cbn [shr_record_of_loc iter_pos shr_1 orb shr_m loc_of_shr_record round_nearest_even].
  rewrite shr_fexp_normal by (assumption || lia). cbn [shr_record_of_loc shr_m].
  destruct (Zle_bool _ _) eqn:F; [f_equal; lia|]. apply Z.leb_gt in F. lia.
Qed.
(** Conversion: exact below 2^53. *)
Lemma f64_of_small a p : Z.of_nat a = Z.pos p -> Z.pos p < 2 ^ 53 ->
  exists m e, f64_of a = S754_finite false m e /\ normal m /\ -53 <= e <= 0 /\ Z.pos m = Z.pos p * 2 ^ (- e).
Proof.
  intros E L. unfold f64_of. rewrite E. cbn [binary_normalize]. unfold binary_round.
  pose proof (digits_bounds p) as B. set (d := digits2_pos p) in *.
  assert (Hd : Z.pos d <= 53).
  { destruct (Z.le_gt_cases (Z.pos d) 53); [assumption|].
    assert (2 ^ 53 <= 2 ^ (Z.pos d - 1)) by (apply Z.pow_le_mono_r; lia). lia. }
  rewrite fexp_eq. rewrite Z.add_0_r. replace (Z.max (Z.pos d - 53) (-1074)) with (Z.pos d - 53) by lia.
  assert (S : exists m, shl_align p 0 (Z.pos d - 53) = (m, Z.pos d - 53) /\ Z.pos m = Z.pos p * 2 ^ (53 - Z.pos d)).
  { unfold shl_align. rewrite Z.sub_0_r. destruct (Z.pos d - 53) as [|k|k] eqn:K.
    - exists p. split; [reflexivity|]. replace (53 - Z.pos d) with 0 by lia. lia.
    - lia.
    - exists (shift_pos k p). split; [reflexivity|]. rewrite shift_pos_correct.
      replace (53 - Z.pos d) with (Z.pos k) by lia. rewrite <- Zpower_pos_nat || idtac.
      rewrite Z.mul_comm. reflexivity. }
  destruct S as (m & -> & Hm).
  assert (N : normal m).
  { unfold normal. rewrite Hm. replace (2 ^ 52) with (2 ^ (Z.pos d - 1) * 2 ^ (53 - Z.pos d))
      by (rewrite <- Z.pow_add_r by lia; f_equal; lia).
    replace (2 ^ 53) with (2 ^ Z.pos d * 2 ^ (53 - Z.pos d)) by (rewrite <- Z.pow_add_r by lia; f_equal; lia).
    assert (0 < 2 ^ (53 - Z.pos d)) by (apply Z.pow_pos_nonneg; lia). nia. }
  exists m, (Z.pos d - 53). rewrite round_aux_normal by (assumption || lia).
  split; [reflexivity|]. split; [assumption|]. split; [lia|]. rewrite Hm. do 2 f_equal. lia.
Qed.
(** From 2^53 on: a normal number with a positive exponent, or infinity. *)
Lemma f64_of_large a p : Z.of_nat a = Z.pos p -> 2 ^ 53 <= Z.pos p ->
  f64_of a = S754_infinity false \/
  exists m e, f64_of a = S754_finite false m e /\ normal m /\ 1 <= e <= 971.
Proof.
  intros E L. unfold f64_of. rewrite E. cbn [binary_normalize]. unfold binary_round.
  pose proof (digits_bounds p) as B. set (d := digits2_pos p) in *.
  assert (Hd : 54 <= Z.pos d).
  { destruct (Z.le_gt_cases 54 (Z.pos d)); [assumption|].
    assert (2 ^ Z.pos d <= 2 ^ 53) by (apply Z.pow_le_mono_r; lia). lia. }
  rewrite fexp_eq, Z.add_0_r. replace (Z.max (Z.pos d - 53) (-1074)) with (Z.pos d - 53) by lia.
  unfold shl_align. rewrite Z.sub_0_r. destruct (Z.pos d - 53) as [|k|k] eqn:K; try lia.
  set (v := binary_round_aux _ _ _ _ _ _). enough (V : v = S754_infinity false \/
    match v with S754_finite false m e => normal m /\ 1 <= e <= 971 | _ => False end).
  { destruct V as [V|V]; [now left|right]. destruct v as [| | |[] m e]; try contradiction. exists m, e. easy. }
  assert (V : v = binary_round_aux 53 1024 false (Z.pos p) 0 loc_Exact) by reflexivity. clearbody v. revert V.
  unfold binary_round_aux, shr_fexp at 1, Zdigits2. fold d. rewrite fexp_eq, Z.add_0_r, Z.sub_0_r.
  replace (Z.max (Z.pos d - 53) (-1074)) with (Z.pos k) by lia.
  unfold shr at 1. set (x := iter_pos shr_1 k (shr_record_of_loc (Z.pos p) loc_Exact)).
  assert (X : shr_m x = Z.pos p / 2 ^ Z.pos k) by (unfold x; now rewrite iter_shr_m by (cbn; lia)).
  assert (XB : 2 ^ 52 <= shr_m x < 2 ^ 53).
  { rewrite X. split.
    - apply Z.div_le_lower_bound; [apply Z.pow_pos_nonneg; lia|]. rewrite <- Z.pow_add_r by lia.
      replace (Z.pos k + 52) with (Z.pos d - 1) by lia. lia.
    - apply Z.div_lt_upper_bound; [apply Z.pow_pos_nonneg; lia|]. rewrite <- Z.pow_add_r by lia.
      replace (Z.pos k + 53) with (Z.pos d) by lia. lia. }
  set (y := round_nearest_even (shr_m x) (loc_of_shr_record x)).
  assert (Y : 2 ^ 52 <= y <= 2 ^ 53).
  { unfold y, round_nearest_even. destruct (loc_of_shr_record x) as [|[]]; try destruct (Z.even (shr_m x)); lia. }
  clearbody y. clear X XB. destruct y as [|q|q]; try lia.
  change (0 + Z.pos k) with (Z.pos k).
  destruct (Z.eq_dec (Z.pos q) (2 ^ 53)) as [F|F].
  - injection F as ->. unfold shr_fexp, Zdigits2.
    replace (Z.pos (digits2_pos _)) with 54 by (vm_compute; reflexivity).
    rewrite fexp_eq. replace (Z.max (54 + Z.pos k - 53) (-1074) - Z.pos k) with 1 by lia.
    match goal with |- context [shr ?r ?e 1] =>
      change (shr r e 1) with ({| shr_m := Z.pos 4503599627370496; shr_r := false; shr_s := false |}, e + 1) end.
    cbn [shr_m]. destruct (Zle_bool (Z.pos k + 1) (1024 - 53)) eqn:G; intros ->; [right|left; reflexivity].
    apply Z.leb_le in G. split; [unfold normal; lia|lia].
  - assert (N : normal q) by (unfold normal; lia).
    rewrite shr_fexp_normal by (assumption || lia). cbn [shr_record_of_loc shr_m].
    destruct (Zle_bool (Z.pos k) (1024 - 53)) eqn:G; intros ->; [right|left; reflexivity].
    apply Z.leb_le in G. split; [assumption|lia].
Qed.
Lemma div_ceil_small a : Z.of_nat a < 2 ^ 53 -> div_ceil a 32 = Z.of_nat ((a + 31) / 32).
Proof.
  intros L. unfold div_ceil. destruct (Z.of_nat a) as [|p|p] eqn:E; [| |lia].
  - replace a with 0%nat by lia. vm_compute. reflexivity.
  -
    destruct (f64_of_small a p E L) as (m & e & -> & N & He & Hm). rewrite div32 by (assumption || lia).
    unfold f64_ceil_as_u64. destruct (Z.leb_spec 0 (e - 5)); [lia|]. rewrite Hm.
    replace (- (e - 5)) with (5 + - e) by lia. rewrite Z.pow_add_r by lia.
    rewrite <- Z.mul_opp_l, (Z.mul_comm (2 ^ 5)), (Z.mul_comm (2 ^ (- e))).
    rewrite (Z.mul_comm (- Z.pos p)), <- (Z.mul_comm (2 ^ (- e))).
    rewrite Z.div_mul_cancel_l by (try apply Z.pow_nonzero; lia).
    rewrite Nat2Z.inj_div, Nat2Z.inj_add, E. change (Z.of_nat 31) with 31. change (Z.of_nat 32) with 32.
    change (2 ^ 5) with 32.
    pose proof (Z.div_mod (- Z.pos p) 32 ltac:(lia)). pose proof (Z.mod_pos_bound (- Z.pos p) 32 ltac:(lia)).
    pose proof (Z.div_mod (Z.pos p + 31) 32 ltac:(lia)). pose proof (Z.mod_pos_bound (Z.pos p + 31) 32 ltac:(lia)).
    lia.
Qed.
Lemma div_ceil_large a : 2 ^ 53 <= Z.of_nat a -> 255 <= div_ceil a 32.
Proof.
  intros L. unfold div_ceil. destruct (Z.of_nat a) as [|p|p] eqn:E; try lia.
  destruct (f64_of_large a p E L) as [-> | (m & e & -> & N & He)].
  - vm_compute. discriminate.
  - rewrite div32 by (assumption || lia). unfold f64_ceil_as_u64, normal in *.
    apply Z.min_glb; [lia|]. destruct (Z.leb_spec 0 (e - 5)).
    + assert (1 <= 2 ^ (e - 5)) by (apply Z.lt_pred_le; apply Z.pow_pos_nonneg; lia). nia.
    + assert (P : 0 < 2 ^ (- (e - 5)) <= 2 ^ 4) by (split; [apply Z.pow_pos_nonneg; lia|apply Z.pow_le_mono_r; lia]).
      pose proof (Z.div_mod (- Z.pos m) (2 ^ (- (e - 5))) ltac:(lia)) as D.
      pose proof (Z.mod_pos_bound (- Z.pos m) (2 ^ (- (e - 5))) ltac:(lia)).
      set (z := - Z.pos m / 2 ^ (- (e - 5))) in *. nia.
Qed.
