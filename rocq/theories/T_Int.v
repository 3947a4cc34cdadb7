(** Theorems of record about machine integers: C01, C02, C04-C14, C65, C66. *)
From Coq Require Import ZArith Znumtheory List Bool Lia.
From Verif Require Import Base P_Base M_Int P_Int M_MathUtil P_MathUtil P_Mod S_Int.
Import ListNotations.
Open Scope Z_scope.

Ltac conjs := repeat match goal with |- _ /\ _ => split end.

Lemma val_in_ty w s c x : val w s x <-> in_ty (mkity w s c) x.
Proof. unfold val, in_ty, imin, imax, sval, uval. cbn [sgn bits]. destruct s; lia. Qed.

Lemma rust_width_pow w : rust_width w -> exists k, w = 2 ^ k /\ 0 <= k <= 32 /\ 1 < w <= 128.
Proof.
  intros H. unfold rust_width in H. cbn in H.
  destruct H as [<-|[<-|[<-|[<-|[<-|[]]]]]];
    [exists 3|exists 4|exists 5|exists 6|exists 7]; conjs; try lia; reflexivity.
Qed.
Lemma rust_width_bound w : rust_width w -> 1 < w <= 128.
Proof. intros H. destruct (rust_width_pow w H) as (k & _ & _ & B). exact B. Qed.

(** * C01 *)
(** Secret +, -, * (both signednesses) and unsigned negation are exact modulo 2^w and never panic. *)
Theorem C01_secret_arith_exact : forall w s a b, 0 < w -> val w s a -> val w s b ->
  let t := mkity w s true in
  (exists r, op_add t a b = Ok r /\ val w s r /\ cong w r (a + b)) /\
  (exists r, op_sub t a b = Ok r /\ val w s r /\ cong w r (a - b)) /\
  (exists r, op_mul t a b = Ok r /\ val w s r /\ cong w r (a * b)).
Proof.
  intros w s a b H _ _ t. unfold op_add, op_sub, op_mul. cbn [sec t].
  conjs; eexists; (split; [reflexivity|]); split;
    try (apply (val_in_ty w s true), iwrap_range; exact H);
    exact (iwrap_congr t _ H).
Qed.
Print Assumptions C01_secret_arith_exact.
Example C01_ex : op_add U8 200 100 = Ok 44 /\ op_sub I8 (-128) 1 = Ok 127 /\ op_mul U32 65536 65537 = Ok 65536.
Proof. vm_compute. auto. Qed.

Theorem C01_secret_neg_exact : forall w a c, 0 < w -> uval w a ->
  exists r, op_neg (mkity w false c) a = Ok r /\ uval w r /\ cong w r (- a).
Proof.
  intros w a c H Ha. rewrite op_neg_unsigned by trivial. cbn [bits].
  eexists; split; [reflexivity|]. split.
  - apply Z.mod_pos_bound, pow2_pos. lia.
  - exists (- (- a / 2 ^ w)). pose proof (pow2_pos w). rewrite Z.mod_eq by lia. lia.
Qed.
Print Assumptions C01_secret_neg_exact.
Example C01_neg_ex : op_neg U8 1 = Ok 255 /\ op_neg U8 0 = Ok 0.
Proof. vm_compute. auto. Qed.

(** Negation of a signed secret integer is exact except at the minimum, where it panics. *)
Theorem C01_signed_neg : forall w a, 0 < w -> sval w a ->
  op_neg (mkity w true true) a = if a =? - 2 ^ (w - 1) then Panic POverflow else Ok (- a).
Proof.
  intros w a H Ha. unfold op_neg, sval in *. cbn [sgn].
  destruct (Z.eqb_spec a (- 2 ^ (w - 1))).
  - apply chk_panic. unfold in_ty, imin, imax. cbn [sgn bits]. lia.
  - apply chk_Ok. unfold in_ty, imin, imax. cbn [sgn bits]. lia.
Qed.
Print Assumptions C01_signed_neg.
Example C01_sneg_ex : op_neg I8 (-128) = Panic POverflow /\ op_neg I8 (-127) = Ok 127.
Proof. vm_compute. auto. Qed.

Theorem C01_bitwise : forall w s c a b, 0 < w -> val w s a -> val w s b ->
  (val w s (op_and a b) /\ val w s (op_or a b) /\ val w s (op_xor a b) /\ val w s (op_not (mkity w s c) a)) /\
  forall i, 0 <= i < w ->
    Z.testbit (op_and a b) i = Z.testbit a i && Z.testbit b i /\
    Z.testbit (op_or a b) i = Z.testbit a i || Z.testbit b i /\
    Z.testbit (op_xor a b) i = xorb (Z.testbit a i) (Z.testbit b i) /\
    Z.testbit (op_not (mkity w s c) a) i = negb (Z.testbit a i).
Proof.
  intros w s c a b H Ha Hb. rewrite !(val_in_ty w s c) in *.
  split.
  - conjs; [apply in_ty_and|apply in_ty_or|apply in_ty_xor|apply op_not_in_ty]; trivial.
  - intros i Hi. conjs; [apply Z.land_spec|apply Z.lor_spec|apply Z.lxor_spec|].
    now apply op_not_testbit.
Qed.
Print Assumptions C01_bitwise.
Example C01_bit_ex : op_not U8 5 = 250 /\ op_not I8 5 = -6.
Proof. vm_compute. auto. Qed.

(** The checked_* variants panic exactly on overflow. *)
Theorem C01_checked : forall w s a b,
  let t := mkity w s true in
  (val w s (a + b) -> checked_add t a b = Ok (a + b)) /\ (~ val w s (a + b) -> panics (checked_add t a b)) /\
  (val w s (a - b) -> checked_sub t a b = Ok (a - b)) /\ (~ val w s (a - b) -> panics (checked_sub t a b)) /\
  (val w s (a * b) -> checked_mul t a b = Ok (a * b)) /\ (~ val w s (a * b) -> panics (checked_mul t a b)).
Proof.
  intros w s a b t. unfold checked_add, checked_sub, checked_mul, panics.
  assert (E : forall z, (val w s z -> in_tyb t z = true) /\ (~ val w s z -> in_tyb t z = false)).
  { intros z. rewrite (val_in_ty w s true). fold t. rewrite <- in_tyb_spec.
    destruct (in_tyb t z); split; intuition congruence. }
  conjs; intros V; destruct (E (a + b)), (E (a - b)), (E (a * b));
   repeat match goal with H : ?P -> _ = _, V : ?P |- _ => rewrite (H V); clear H end; eauto.
Qed.
Print Assumptions C01_checked.
Example C01_checked_ex : checked_add U8 200 100 = Panic PExplicit /\ checked_mul U8 15 17 = Ok 255.
Proof. vm_compute. auto. Qed.

(** * C02 *)
Theorem C02_comparison_masks : forall w a b, 0 < w -> uval w a -> uval w b ->
  let t := mkity w false true in
  (exists m, comp_eq t a b = Ok m /\ is_mask w false (a = b) m) /\
  (exists m, comp_ne t a b = Ok m /\ is_mask w false (a <> b) m) /\
  (exists m, comp_gte t a b = Ok m /\ is_mask w false (a >= b) m) /\
  (exists m, comp_gt t a b = Ok m /\ is_mask w false (a > b) m) /\
  (exists m, comp_lte t a b = Ok m /\ is_mask w false (a <= b) m) /\
  (exists m, comp_lt t a b = Ok m /\ is_mask w false (a < b) m).
Proof.
  intros w a b H Ha Hb t.
  rewrite comp_eq_spec, comp_ne_spec, comp_gte_spec, comp_gt_spec, comp_lte_spec, comp_lt_spec
    by (try reflexivity; try exact H; apply (val_in_ty w false true); assumption).
  assert (E : forall c (P : Prop), (P -> c = true) -> (~ P -> c = false) ->
     exists m, Ok (mask t c) = Ok m /\ is_mask w false P m).
  { intros c P H1 H2. eexists; split; [reflexivity|]. split; intros HP.
    - now rewrite (H1 HP).
    - now rewrite (H2 HP). }
  conjs; apply E; intros; lia || (apply negb_false_iff; lia).
Qed.
Print Assumptions C02_comparison_masks.
Example C02_ex : comp_gte U8 128 127 = Ok 255 /\ comp_lt U8 128 127 = Ok 0 /\ comp_eq U8 0 0 = Ok 255 /\ comp_gt U8 7 7 = Ok 0.
Proof. vm_compute. auto. Qed.

(** On signed secret types the comparisons are unimplemented. *)
Theorem C02_signed_unimplemented : forall w a b,
  panics (comp_eq (mkity w true true) a b) /\ panics (comp_gte (mkity w true true) a b).
Proof. intros. split; now eexists. Qed.
Print Assumptions C02_signed_unimplemented.

(** * C04 *)
Theorem C04_rotations : forall w s c a n, 0 < w -> 0 <= n -> val w s a ->
  let t := mkity w s c in
  val w s (rotate_left t a n) /\ is_rotl w a n (rotate_left t a n) /\
  val w s (rotate_right t a n) /\ is_rotr w a n (rotate_right t a n) /\
  rotate_right t (rotate_left t a n) n = a /\ rotate_left t (rotate_right t a n) n = a.
Proof.
  intros w s c a n H Hn Ha t. apply (val_in_ty w s c) in Ha. fold t in Ha.
  conjs.
  - apply (val_in_ty w s c), rotate_left_range; trivial.
  - intros i Hi. now apply (rotate_left_testbit t).
  - apply (val_in_ty w s c), rotate_right_range; trivial.
  - intros i Hi. now apply (rotate_right_testbit t).
  - now apply rotate_right_left.
  - now apply rotate_left_right.
Qed.
Print Assumptions C04_rotations.
Example C04_ex : rotate_left U8 129 1 = 3 /\ rotate_right U32 1 1 = 2 ^ 31 /\ rotate_left I8 (-128) 9 = 1.
Proof. vm_compute. auto. Qed.

(** The Integer trait's generic rotations are the same rotations on unsigned values. *)
Theorem C04_trait_rotations_unsigned : forall w c a n, rust_width w -> uval w a -> 0 <= n ->
  let t := mkity w false c in
  (n < w -> (exists r, tr_rotate_left t a n = Ok r /\ uval w r /\ is_rotl w a n r /\ r = rotate_left t a n) /\
            (exists r, tr_rotate_right t a n = Ok r /\ uval w r /\ is_rotr w a n r /\ r = rotate_right t a n)) /\
  (w <= n -> panics (tr_rotate_left t a n) /\ panics (tr_rotate_right t a n)).
Proof.
  intros w c a n Hw Ha Hn t. destruct (rust_width_pow w Hw) as (k & Ek & Hk & Hb).
  assert (Ha' : in_ty t a) by (apply (val_in_ty w false c); exact Ha).
  destruct (C04_rotations w false c a n ltac:(lia) Hn Ha) as (R1 & R2 & R3 & R4 & _). fold t in R1, R2, R3, R4.
  split.
  - intros L. split.
    + exists (rotate_left t a n). split; [|auto].
      apply (tr_rotate_left_spec t a n k); trivial; unfold uval in Ha; cbn [bits t]; lia.
    + exists (rotate_right t a n). split; [|auto].
      apply (tr_rotate_right_spec t a n k); trivial; unfold uval in Ha; cbn [bits t]; lia.
  - intros L. now apply tr_rotate_panic.
Qed.
Print Assumptions C04_trait_rotations_unsigned.
Example C04_trait_ex : tr_rotate_left U8 129 1 = Ok 3 /\ tr_rotate_right U64 1 63 = Ok 2 /\ tr_rotate_left u8 3 8 = Panic PAssert.
Proof. vm_compute. auto. Qed.

(** * C05 *)
(** On signed types the trait's rotate_left is not a rotation (sign smearing). *)
Theorem C05_trait_rotate_signed_refuted : exists a n r,
  sval 8 a /\ 0 <= n < 8 /\ tr_rotate_left i8 a n = Ok r /\ ~ is_rotl 8 a n r.
Proof.
  exists (-128), 1, (-1). repeat split; try (vm_compute; congruence).
  intros R. specialize (R 1 ltac:(lia)). vm_compute in R. discriminate.
Qed.
Print Assumptions C05_trait_rotate_signed_refuted.
Theorem C05_trait_rotate_right_signed_refuted : exists a n r,
  sval 32 a /\ 0 <= n < 32 /\ tr_rotate_right i32 a n = Ok r /\ ~ is_rotr 32 a n r.
Proof.
  exists (-2), 1, (-1). repeat split; try (vm_compute; congruence).
  intros R. specialize (R 31 ltac:(lia)). vm_compute in R. discriminate.
Qed.
Print Assumptions C05_trait_rotate_right_signed_refuted.
(** What does hold: it is a rotation on every non-negative signed value. *)
Theorem C05_trait_rotate_signed_nonneg : forall w c a n, rust_width w -> 0 <= a < 2 ^ (w - 1) -> 0 <= n < w ->
  let t := mkity w true c in
  (exists r, tr_rotate_left t a n = Ok r /\ sval w r /\ is_rotl w a n r) /\
  (exists r, tr_rotate_right t a n = Ok r /\ sval w r /\ is_rotr w a n r).
Proof.
  intros w c a n Hw Ha Hn t. destruct (rust_width_pow w Hw) as (k & Ek & Hk & Hb).
  assert (Ha' : val w true a) by (unfold val, sval; lia).
  destruct (C04_rotations w true c a n ltac:(lia) ltac:(lia) Ha') as (R1 & R2 & R3 & R4 & _).
  fold t in R1, R2, R3, R4. apply (val_in_ty w true c) in Ha'. fold t in Ha'.
  split.
  - exists (rotate_left t a n). split; [|auto].
    apply (tr_rotate_left_spec t a n k); trivial; lia.
  - exists (rotate_right t a n). split; [|auto].
    apply (tr_rotate_right_spec t a n k); trivial; lia.
Qed.
Print Assumptions C05_trait_rotate_signed_nonneg.
Example C05_ex : tr_rotate_left i8 65 1 = Ok (-126).
Proof. vm_compute. auto. Qed.

(** * C06 *)
Theorem C06_casts : forall w s c w' s' c' x, 0 < w -> 0 < w' -> val w s x ->
  let t' := mkity w' s' c' in
  val w' s' (cast t' x) /\ cong w' (cast t' x) x /\
  (val w' s' x -> cast t' x = x) /\
  (w <= w' -> s' = false -> 0 <= x -> cast t' x = x) /\
  (w <= w' -> s = s' -> cast t' x = x) /\
  (w <= w' -> cast (mkity w s c) (cast t' x) = x) /\
  (forall i, 0 <= i < w' -> Z.testbit (cast t' x) i = Z.testbit x i).
Proof.
  intros w s c w' s' c' x H H' Hx t'.
  assert (Hid : val w' s' x -> cast t' x = x).
  { intros V. apply iwrap_id; trivial. now apply (val_in_ty w' s' c'). }
  pose proof (pow2_split w H). pose proof (pow2_pos (w - 1)).
  pose proof (pow2_split w' H'). pose proof (pow2_pos (w' - 1)).
  conjs; trivial.
  - apply (val_in_ty w' s' c'), iwrap_range; trivial.
  - apply (iwrap_congr t'); trivial.
  - intros L -> P. apply Hid. unfold val, sval, uval in *.
    assert (2 ^ w <= 2 ^ w') by (apply Z.pow_le_mono_r; lia). destruct s; lia.
  - intros L <-. apply Hid. unfold val, sval, uval in *.
    assert (2 ^ w <= 2 ^ w') by (apply Z.pow_le_mono_r; lia).
    assert (2 ^ (w - 1) <= 2 ^ (w' - 1)) by (apply Z.pow_le_mono_r; lia). destruct s; lia.
  - intros L. unfold cast at 1. transitivity (iwrap (mkity w s c) x).
    + apply iwrap_cong; trivial. cbn [bits].
      destruct (iwrap_congr t' x H') as [k E]. unfold cast. rewrite E. cbn [bits t'].
      replace w' with ((w' - w) + w) by lia. rewrite Z.pow_add_r, Z.mul_assoc by lia.
      apply Z_mod_plus_full.
    + apply iwrap_id; trivial. now apply (val_in_ty w s c).
  - intros i Hi. unfold cast. rewrite iwrap_testbit by (trivial; lia). cbn [bits t'].
    destruct (Z.ltb_spec i w'); [reflexivity|lia].
Qed.
Print Assumptions C06_casts.
Example C06_ex : cast U8 (cast U128 200) = 200 /\ cast I8 200 = -56 /\ cast U64 (-1) = 2 ^ 64 - 1 /\ cast U8 511 = 255.
Proof. vm_compute. auto. Qed.

(** * C07 *)
Theorem C07_get_set_bit : forall w s c a i, 0 < w <= 128 -> val w s a -> 0 <= i ->
  let t := mkity w s c in
  (i < w -> get_bit t a i = Ok (if Z.testbit a i then 1 else 0)) /\
  (w <= i -> panics (get_bit t a i)) /\
  (forall b, i < w -> b = 0 \/ b = 1 ->
     exists r, set_bit t a b i = Ok r /\ val w s r /\
       forall j, 0 <= j < w -> Z.testbit r j = if j =? i then b =? 1 else Z.testbit a j) /\
  (forall b, w <= i \/ (b <> 0 /\ b <> 1) -> panics (set_bit t a b i)) /\
  (forall y yi, i < w -> 0 <= yi < w ->
     exists r, set t a i y yi = Ok r /\ val w s r /\
       forall j, 0 <= j < w -> Z.testbit r j = if j =? i then Z.testbit y yi else Z.testbit a j) /\
  (forall y yi, 0 <= yi -> w <= i \/ w <= yi -> panics (set t a i y yi)).
Proof.
  intros w s c a i H Ha Hi t. apply (val_in_ty w s c) in Ha. fold t in Ha.
  conjs.
  - intros L. now rewrite get_bit_spec by (cbn [bits t]; lia).
  - intros L. now apply (get_bit_panic t).
  - intros b L Hb. destruct (set_bit_spec t a b i) as (r & E & R & B); trivial; [cbn [bits t]; lia|].
    exists r. split; [exact E|]. split; [now apply (val_in_ty w s c)|exact B].
  - intros b Hb. now apply (set_bit_panic t).
  - intros y yi L Hy. destruct (set_spec t a i y yi) as (r & E & R & B); trivial; [cbn [bits t]; lia|].
    exists r. split; [exact E|]. split; [now apply (val_in_ty w s c)|exact B].
  - intros y yi Hy O. now apply (set_panic t).
Qed.
Print Assumptions C07_get_set_bit.
Example C07_ex : get_bit U8 128 7 = Ok 1 /\ set_bit U8 128 0 7 = Ok 0 /\ set_bit i8 0 1 7 = Ok (-128) /\ set U32 0 31 4 2 = Ok (2 ^ 31).
Proof. vm_compute. auto. Qed.

(** * C08 *)
Theorem C08_conditional_ops : forall w s c x y, 1 < w <= 128 -> val w s x -> val w s y ->
  let t := mkity w s c in let F := ones_of w s in
  cswap x y 0 = (x, y) /\ cswap x y F = (y, x) /\
  cswap_bit t x y 0 = (x, y) /\ cswap_bit t x y 1 = (y, x) /\
  cadd t x y 0 = x /\ csub t x y 0 = x /\ cmul t x y 0 = x /\
  (val w s (cadd t x y F) /\ cong w (cadd t x y F) (x + y)) /\
  (val w s (csub t x y F) /\ cong w (csub t x y F) (x - y)) /\
  (val w s (cmul t x y F) /\ cong w (cmul t x y F) (x * y)) /\
  (forall b i, b = 0 \/ b = 1 -> 0 <= i < w ->
     cset_bit t x b i 0 = Ok x /\
     exists r, cset_bit t x b i F = Ok r /\ val w s r /\
       forall j, 0 <= j < w -> Z.testbit r j = if j =? i then b =? 1 else Z.testbit x j).
Proof.
  intros w s c x y H Hx Hy t F.
  apply (val_in_ty w s c) in Hx, Hy. fold t in Hx, Hy.
  assert (Hw : 0 < bits t) by (cbn [bits t]; lia).
  assert (EF : F = full t) by reflexivity.
  destruct (cadd_spec t x y Hw Hx) as [A0 A1], (csub_spec t x y Hw Hx) as [S0 S1], (cmul_spec t x y Hw Hx) as [M0 M1].
  assert (Hc : forall z, val w s (iwrap t z) /\ cong w (iwrap t z) z).
  { intros z. split; [now apply (val_in_ty w s c), iwrap_range|exact (iwrap_congr t z Hw)]. }
  rewrite EF, A1, S1, M1, !cswap_bit_spec by (trivial; cbn [bits t]; lia).
  conjs; try apply Hc; trivial.
  - apply cswap_0.
  - now apply cswap_full.
  - intros b i Hb Hi.
    destruct (cset_bit_spec t x b i 0) as (r & E & Ef & E0 & _); trivial; [cbn [bits t]; lia|].
    split; [exact E0|]. exists r. split; [exact Ef|].
    destruct (set_bit_spec t x b i) as (r' & E' & R & B); trivial; [cbn [bits t]; lia|].
    rewrite E in E'. injection E' as <-. split; [now apply (val_in_ty w s c)|exact B].
Qed.
Print Assumptions C08_conditional_ops.
Example C08_ex : cswap 3 5 255 = (5, 3) /\ cswap_bit U8 3 5 1 = (5, 3) /\ csub U8 3 5 255 = 254 /\ cadd i8 100 100 (-1) = -56.
Proof. vm_compute. auto. Qed.

(** * C09 *)
Theorem C09_bm_masks_unsigned : forall w c a b, 0 < w -> uval w a -> uval w b ->
  let t := mkity w false c in
  (exists m, equal_bm t a b = Ok m /\ is_mask w false (a = b) m) /\
  (exists m, not_equal_bm t a b = Ok m /\ is_mask w false (a <> b) m) /\
  (exists m, greater_than_or_qual_bm t a b = Ok m /\ is_mask w false (a >= b) m) /\
  (exists m, greater_than_bm t a b = Ok m /\ is_mask w false (a > b) m) /\
  (exists m, less_than_or_equal_bm t a b = Ok m /\ is_mask w false (a <= b) m) /\
  (exists m, less_than_bm t a b = Ok m /\ is_mask w false (a < b) m).
Proof.
  intros w c a b H Ha Hb t.
  destruct (bm_specs t a b) as (-> & -> & -> & -> & -> & ->);
    try reflexivity; try exact H; try (apply (val_in_ty w false c); assumption).
  assert (E : forall c' (P : Prop), (P -> c' = true) -> (~ P -> c' = false) ->
     exists m, Ok (mask t c') = Ok m /\ is_mask w false P m).
  { intros c' P H1 H2. eexists; split; [reflexivity|]. split; intros HP.
    - now rewrite (H1 HP).
    - now rewrite (H2 HP). }
  conjs; apply E; intros; lia || (apply negb_false_iff; lia).
Qed.
Print Assumptions C09_bm_masks_unsigned.
Example C09_ex : equal_bm u8 3 3 = Ok 255 /\ less_than_bm U16 3 3 = Ok 0.
Proof. vm_compute. auto. Qed.

(** For public signed integers "true" is 0x7F..F, not the all-ones mask ... *)
Theorem C09_bm_masks_signed_refuted : exists w a b m, rust_width w /\ sval w a /\ sval w b /\
  equal_bm (mkity w true false) a b = Ok m /\ ~ is_mask w true (a = b) m.
Proof.
  exists 8, 3, 3, 127. split; [left; reflexivity|]. repeat split; try (vm_compute; congruence).
  intros [R _]. specialize (R eq_refl). discriminate.
Qed.
Print Assumptions C09_bm_masks_signed_refuted.
(** ... and it loses the sign bit when it drives a conditional swap. *)
Theorem C09_signed_mask_breaks_cswap : exists x y m, sval 8 x /\ sval 8 y /\
  equal_bm i8 0 0 = Ok m /\ cswap x y m <> (y, x).
Proof.
  exists (-1), 0, 127. repeat split; try (vm_compute; congruence).
Qed.
Print Assumptions C09_signed_mask_breaks_cswap.
(** Exactly: on public signed types the mask is MAX = 2^(w-1)-1 when true, for every comparison. *)
Theorem C09_bm_signed_exact : forall w a b, 
  let t := mkity w true false in let M := 2 ^ (w - 1) - 1 in
  equal_bm t a b = Ok (if a =? b then M else 0) /\
  not_equal_bm t a b = Ok (if a =? b then 0 else M) /\
  greater_than_bm t a b = Ok (if b <? a then M else 0) /\
  greater_than_or_qual_bm t a b = Ok (if b <=? a then M else 0) /\
  less_than_bm t a b = Ok (if a <? b then M else 0) /\
  less_than_or_equal_bm t a b = Ok (if a <=? b then M else 0).
Proof.
  intros. conjs; try reflexivity. unfold not_equal_bm, bm. cbn [sec t]. now destruct (a =? b).
Qed.
Print Assumptions C09_bm_signed_exact.

(** * C10 *)
Theorem C10_ct_div_is_division : forall w c a d, 1 < w <= 128 -> uval w a -> uval w d -> d <> 0 ->
  exists q r, ct_div (mkity w false c) a d = Ok (q, r) /\ a = d * q + r /\ 0 <= r < d.
Proof.
  intros w c a d H Ha Hd N. rewrite ct_div_spec; trivial; try (apply (val_in_ty w false c); assumption).
  apply Z.eqb_neq in N as E. rewrite E. exists (a / d), (a mod d). split; [reflexivity|].
  unfold uval in *. pose proof (Z.div_mod a d N). pose proof (Z.mod_pos_bound a d). lia.
Qed.
Print Assumptions C10_ct_div_is_division.
Theorem C10_ct_div_by_zero : forall w c a, 1 < w <= 128 -> uval w a ->
  ct_div (mkity w false c) a 0 = Ok (2 ^ w - 1, a).
Proof.
  intros w c a H Ha. rewrite ct_div_spec; trivial; apply (val_in_ty w false c); trivial.
  unfold val, uval. pose proof (pow2_pos w). lia.
Qed.
Print Assumptions C10_ct_div_by_zero.
Example C10_ex : ct_div U8 200 129 = Ok (1, 71) /\ ct_div u32 123456789 1000 = Ok (123456, 789) /\ ct_div U8 7 0 = Ok (255, 7).
Proof. vm_compute. auto. Qed.

(** * C11 *)
(** Unsigned: exact or an overflow panic; public and secret agree ([c] is arbitrary). *)
Theorem C11_add_mul_mod_unsigned : forall w c fuel a b n, 0 < w -> uval w a -> uval w b -> 0 < n ->
  let t := mkity w false c in
  (a + b < 2 ^ w -> add_mod fuel t a b n = Ok ((a + b) mod n)) /\
  (2 ^ w <= a + b -> add_mod fuel t a b n = Panic POverflow) /\
  (a * b < 2 ^ w -> mul_mod fuel t a b n = Ok ((a * b) mod n)) /\
  (2 ^ w <= a * b -> mul_mod fuel t a b n = Panic POverflow) /\
  modulo fuel t a n = Ok (a mod n).
Proof.
  intros w c fuel a b n H Ha Hb Hn t. apply (val_in_ty w false c) in Ha, Hb. fold t in Ha, Hb.
  rewrite add_mod_unsigned, mul_mod_unsigned, modulo_unsigned by trivial.
  assert (E : imax t = 2 ^ w - 1) by reflexivity. rewrite E.
  conjs; try reflexivity; intros L;
   destruct (Z.leb_spec (a + b) (2 ^ w - 1)), (Z.leb_spec (a * b) (2 ^ w - 1)); reflexivity || lia.
Qed.
Print Assumptions C11_add_mul_mod_unsigned.
(** sub_mod adds n to the left operand until it reaches the right one: it returns
    (a-b) mod n, or panics because that intermediate value leaves the type. *)
Theorem C11_sub_mod_unsigned : forall w c fuel a b n, 0 < w -> uval w a -> uval w b -> 0 < n ->
  (Z.to_nat (b - a) < fuel)%nat ->
  let t := mkity w false c in
  (b <= a -> sub_mod fuel t a b n = Ok ((a - b) mod n)) /\
  (b + n <= 2 ^ w -> sub_mod fuel t a b n = Ok ((a - b) mod n)) /\
  (sub_mod fuel t a b n = Ok ((a - b) mod n) \/ sub_mod fuel t a b n = Panic POverflow).
Proof.
  intros w c fuel a b n H Ha Hb Hn Hf t. apply (val_in_ty w false c) in Ha as Ha', Hb as Hb'. fold t in Ha', Hb'.
  rewrite sub_mod_unsigned by trivial. unfold uval in Ha, Hb.
  assert (E : imax t = 2 ^ w - 1) by reflexivity. rewrite E.
  pose proof (steps_bounds a b n Hn) as [B1 B2].
  conjs; try intros L.
  - assert (steps a b n = 0) by (unfold steps; destruct (Z.ltb_spec a b); lia).
    destruct (Z.leb_spec (a + steps a b n * n) (2 ^ w - 1)); [reflexivity|lia].
  - assert (a < b \/ steps a b n = 0) by (unfold steps; destruct (Z.ltb_spec a b); lia).
    destruct (Z.leb_spec (a + steps a b n * n) (2 ^ w - 1)); [reflexivity|lia].
  - destruct (a + steps a b n * n <=? 2 ^ w - 1); auto.
Qed.
Print Assumptions C11_sub_mod_unsigned.
(** With modulus 0 the loop never terminates when a < b. *)
Theorem C11_sub_mod_zero_diverges : forall w c fuel a b, 0 < w -> uval w a -> a < b ->
  sub_mod fuel (mkity w false c) a b 0 = Panic OutOfFuel.
Proof.
  intros. apply sub_mod_zero_diverges; trivial. now apply (val_in_ty w false c).
Qed.
Print Assumptions C11_sub_mod_zero_diverges.
(** Signed: canonical representative in [0,n); the operation is carried out in i128,
    so up to 64 bits nothing can overflow. *)
Theorem C11_signed : forall w c fuel a b n, 0 < w <= 64 -> sval w a -> sval w b -> sval w n -> 0 < n ->
  (2 <= fuel)%nat ->
  let t := mkity w true c in
  add_mod fuel t a b n = Ok ((a + b) mod n) /\ sub_mod fuel t a b n = Ok ((a - b) mod n) /\
  mul_mod fuel t a b n = Ok ((a * b) mod n) /\ modulo fuel t a n = Ok (a mod n).
Proof.
  intros w c fuel a b n H Ha Hb Hn Hp Hf t.
  apply (val_in_ty w true c) in Ha, Hb, Hn. fold t in Ha, Hb, Hn.
  destruct (signed_mods fuel t a b n) as (-> & -> & -> & M); trivial; [cbn [bits t]; lia|].
  destruct (signed_narrow_fits t a b) as (-> & -> & ->); trivial.
  conjs; trivial. now apply M.
Qed.
Print Assumptions C11_signed.
Theorem C11_signed128 : forall c fuel a b n, sval 128 a -> sval 128 b -> sval 128 n -> 0 < n ->
  (2 <= fuel)%nat ->
  let t := mkity 128 true c in
  (sval 128 (a + b) -> add_mod fuel t a b n = Ok ((a + b) mod n)) /\
  (~ sval 128 (a + b) -> add_mod fuel t a b n = Panic POverflow) /\
  (sval 128 (a - b) -> sub_mod fuel t a b n = Ok ((a - b) mod n)) /\
  (~ sval 128 (a - b) -> sub_mod fuel t a b n = Panic POverflow) /\
  (sval 128 (a * b) -> mul_mod fuel t a b n = Ok ((a * b) mod n)) /\
  (~ sval 128 (a * b) -> mul_mod fuel t a b n = Panic POverflow) /\
  modulo fuel t a n = Ok (a mod n).
Proof.
  intros c fuel a b n Ha Hb Hn Hp Hf t.
  apply (val_in_ty 128 true c) in Ha, Hb, Hn. fold t in Ha, Hb, Hn.
  destruct (signed_mods fuel t a b n) as (-> & -> & -> & M); trivial; [cbn [bits t]; lia|].
  assert (E : forall z, (sval 128 z -> in_tyb i128 z = true) /\ (~ sval 128 z -> in_tyb i128 z = false)).
  { intros z. rewrite <- (not_true_iff_false (in_tyb i128 z)), (in_tyb_spec i128 z).
    unfold in_ty, sval, imin, imax. cbn [sgn bits i128]. lia. }
  destruct (E (a + b)) as [E1 E2], (E (a - b)) as [E3 E4], (E (a * b)) as [E5 E6].
  conjs; intros; rewrite ?E1, ?E2, ?E3, ?E4, ?E5, ?E6 by assumption; auto.
Qed.
Print Assumptions C11_signed128.
Example C11_ex : sub_mod 10 u8 3 5 7 = Ok 5 /\ add_mod 10 U8 200 100 7 = Panic POverflow /\
  sub_mod 300 u8 3 250 7 = Ok 5 /\ sub_mod 300 u8 3 255 7 = Ok 0 /\ sub_mod 300 u8 0 254 200 = Panic POverflow /\
  mul_mod 10 i8 (-100) 3 7 = Ok 1.
Proof. vm_compute. repeat split. Qed.

(** * C12 *)
(** Every type, signed or not, public or secret; [x] any non-negative value of the type and
    n^2 at most one more than its largest value. *)
Theorem C12_extended_euclid_inverse : forall w (s : bool) c fuel x n sg, 0 < w -> 1 < n ->
  n * n <= (if s then 2 ^ (w - 1) else 2 ^ w) -> val w s x -> 0 <= x ->
  (Z.to_nat (x + n * n) < fuel)%nat ->
  let t := mkity w s c in
  (Z.gcd x n = 1 -> exists y, extended_euclid_invert fuel t x n sg = Ok y /\ 0 <= y < n /\ (x * y) mod n = 1) /\
  (Z.gcd x n <> 1 -> x <> 0 -> extended_euclid_invert fuel t x n sg = Panic PExplicit).
Proof.
  intros w s c fuel x n sg H Hn Hnn Hx Hx0 Hf t.
  destruct (eea_spec fuel t x n sg) as (E1 & E2 & _); trivial.
  - unfold t, imax. cbn [bits sgn]. destruct s; lia.
  - unfold t, imax. cbn [bits sgn]. unfold val, uval, sval in Hx. destruct s; lia.
  - now split.
Qed.
Print Assumptions C12_extended_euclid_inverse.
Example C12_ex : num_inv 300 U8 7 15 = Ok 13 /\ num_inv 300 u16 5 251 = Ok 201 /\ num_inv 300 U8 6 15 = Panic PExplicit /\
  num_inv 300 i16 5 101 = Ok 81.
Proof. vm_compute. auto. Qed.

(** * C13 *)
(** Documented to panic on every non-invertible argument; 0 returns 0 instead. *)
Theorem C13_noninvertible_panics_refuted : exists x n, 1 < n /\ 0 <= x /\ Z.gcd x n <> 1 /\
  num_inv 10 u32 x n = Ok 0 /\ num_inv 10 U32 x n = Ok 0.
Proof. exists 0, 15. repeat split; try lia; vm_compute; congruence. Qed.
Print Assumptions C13_noninvertible_panics_refuted.
(** 0 is the only exception: for every type and modulus n with n^2 within the type. *)
Theorem C13_noninvertible_exact : forall w (s : bool) c fuel x n sg, 0 < w -> 1 < n ->
  n * n <= (if s then 2 ^ (w - 1) else 2 ^ w) -> val w s x -> 0 <= x ->
  (Z.to_nat (x + n * n) < fuel)%nat -> Z.gcd x n <> 1 ->
  extended_euclid_invert fuel (mkity w s c) x n sg = if x =? 0 then Ok 0 else Panic PExplicit.
Proof.
  intros w s c fuel x n sg H Hn Hnn Hx Hx0 Hf G.
  destruct (eea_spec fuel (mkity w s c) x n sg) as (_ & E2 & E3); trivial.
  - unfold imax. cbn [bits sgn]. destruct s; lia.
  - unfold imax. cbn [bits sgn]. unfold val, uval, sval in Hx. destruct s; lia.
  - destruct (Z.eqb_spec x 0); auto.
Qed.
Print Assumptions C13_noninvertible_exact.
Example C13_ex : num_inv 300 U8 0 15 = Ok 0 /\ num_inv 300 U8 5 15 = Panic PExplicit.
Proof. vm_compute. auto. Qed.

(** * C65 *)
(** Inversion modulo an n that fits the type but whose square does not: the secret
    version silently returns a wrong value, the public version panics. *)
Theorem C65_inverse_any_modulus_refuted : exists x n y, uval 8 x /\ uval 8 n /\ Z.gcd x n = 1 /\
  num_inv 300 U8 x n = Ok y /\ (x * y) mod n <> 1 /\ num_inv 300 u8 x n = Panic POverflow.
Proof. exists 13, 251, 68. repeat split; try lia; vm_compute; congruence. Qed.
Print Assumptions C65_inverse_any_modulus_refuted.

(** * C14 *)
Theorem C14_pow : forall w s a e, 1 < w -> val w s a ->
  (exists r, num_pow (mkity w s true) a e = Ok r /\ val w s r /\ cong w r (a ^ Z.of_nat e)) /\
  (val w s (a ^ Z.of_nat e) -> num_pow (mkity w s false) a e = Ok (a ^ Z.of_nat e)) /\
  (~ val w s (a ^ Z.of_nat e) -> num_pow (mkity w s false) a e = Panic POverflow).
Proof.
  intros w s a e H Ha. apply (val_in_ty w s true) in Ha.
  rewrite secret_pow, public_pow by trivial. split; [|split].
  - eexists; split; [reflexivity|]. split; [apply (val_in_ty w s true), iwrap_range; cbn [bits]; lia|].
    apply iwrap_congr. cbn [bits]. lia.
  - intros V. apply (val_in_ty w s false), in_tyb_spec in V. now rewrite V.
  - intros V. rewrite (val_in_ty w s false), <- in_tyb_spec in V. apply not_true_is_false in V. now rewrite V.
Qed.
Print Assumptions C14_pow.
Example C14_ex : num_pow U8 7 3 = Ok 87 /\ num_pow u8 7 3 = Panic POverflow /\ num_pow i16 (-7) 3 = Ok (-343).
Proof. vm_compute. auto. Qed.

(** * C66 *)
(** UnsignedSecretInteger::get_byte returns byte i for 16..128 bits ... *)
Theorem C66_get_byte : forall w a i, 8 < w <= 128 -> uval w a -> 0 <= i -> 8 * i < w ->
  get_byte (mkity w false true) a i = Ok (a / 256 ^ i mod 256).
Proof.
  intros w a i H Ha Hi L. rewrite get_byte_spec by (trivial; cbn [bits]; lia).
  change 256 with (2 ^ 8) at 2. now rewrite <- Z.pow_mul_r by lia.
Qed.
Print Assumptions C66_get_byte.
(** ... but always panics on U8 (the mask [ONE << 8] overflows). *)
Theorem C66_get_byte_U8_panics : forall a i, panics (get_byte U8 a i).
Proof.
  intros a i. unfold get_byte, panics. destruct (chk u32 (i * 8)); cbn [bind]; [|eauto].
  destruct (op_shr U8 a z); cbn [bind]; [|eauto]. cbn. eauto.
Qed.
Print Assumptions C66_get_byte_U8_panics.
Theorem C66_get_byte_U8_refuted : exists a i, uval 8 a /\ 0 <= i /\ 8 * i < 8 /\ panics (get_byte U8 a i).
Proof. exists 5, 0. repeat split; try lia. apply C66_get_byte_U8_panics. Qed.
Print Assumptions C66_get_byte_U8_refuted.
Example C66_ex : get_byte U32 305419896 3 = Ok 18.
Proof. vm_compute. auto. Qed.

(** * C68: shifts (secret and public): exact below the width, panic from the width on *)
Theorem C68_shifts : forall w s c a n, 0 < w -> val w s a -> 0 <= n ->
  let t := mkity w s c in
  (n < w ->
     (exists r, op_shl t a n = Ok r /\ val w s r /\ cong w r (a * 2 ^ n)) /\
     (exists r, op_shr t a n = Ok r /\ val w s r /\ r * 2 ^ n <= a < (r + 1) * 2 ^ n)) /\
  (w <= n -> panics (op_shl t a n) /\ panics (op_shr t a n)).
Proof.
  intros w s c a n Hw Ha Hn t. split; intros H.
  - rewrite op_shl_Ok, op_shr_Ok by exact H. split.
    + eexists. split; [reflexivity|]. split.
      * apply (val_in_ty w s c). now apply iwrap_range.
      * rewrite <- Z.shiftl_mul_pow2 by lia. exact (iwrap_congr t _ Hw).
    + eexists. split; [reflexivity|]. split.
      * apply (val_in_ty w s c). apply in_ty_shr; [exact Hw|lia|]. now apply (val_in_ty w s c).
      * rewrite Z.shiftr_div_pow2 by lia. pose proof (pow2_pos n Hn).
        pose proof (Z.div_mod a (2 ^ n) ltac:(lia)). pose proof (Z.mod_pos_bound a (2 ^ n) ltac:(lia)). lia.
  - unfold op_shl, op_shr. cbn [bits t].
    destruct (Z.ltb_spec n w); [lia|]. split; eexists; reflexivity.
Qed.
Print Assumptions C68_shifts.
Example C68_ex : op_shl U8 129 1 = Ok 2 /\ op_shr I8 (-3) 1 = Ok (-2) /\ op_shr U8 1 8 = Panic POverflow.
Proof. vm_compute. auto. Qed.
