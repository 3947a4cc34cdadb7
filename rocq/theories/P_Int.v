(** Lemmas about M_Int.v *)
From Coq Require Import ZArith Znumtheory List Bool Lia.
From Verif Require Import Base P_Base M_Int.
Import ListNotations.
Open Scope Z_scope.

Lemma pow2_pos w : 0 <= w -> 0 < 2 ^ w.
Proof. intros; apply Z.pow_pos_nonneg; lia. Qed.
Lemma pow2_split w : 0 < w -> 2 ^ w = 2 * 2 ^ (w - 1).
Proof. intros. rewrite <- Z.pow_succ_r by lia. f_equal. lia. Qed.

Lemma testbit_small y n j : 0 <= y < 2 ^ n -> 0 <= n <= j -> Z.testbit y j = false.
Proof.
  intros Hy Hn. rewrite <- (Z.mod_small y (2 ^ n)) by lia.
  apply Z.mod_pow2_bits_high; lia.
Qed.

Lemma testbit_mod_low z n j : j < n -> Z.testbit (z mod 2 ^ n) j = Z.testbit z j.
Proof.
  intros H. destruct (Z_lt_le_dec j 0) as [Hj|Hj].
  - now rewrite !Z.testbit_neg_r by lia.
  - apply Z.mod_pow2_bits_low; lia.
Qed.

(** ** Wrapping *)
Lemma iwrap_range t z : 0 < bits t -> in_ty t (iwrap t z).
Proof.
  intros H. unfold in_ty, imin, imax, iwrap. pose proof (pow2_pos (bits t - 1)).
  pose proof (pow2_split (bits t) H).
  destruct (sgn t).
  - pose proof (Z.mod_pos_bound (z + 2 ^ (bits t - 1)) (2 ^ bits t)). lia.
  - pose proof (Z.mod_pos_bound z (2 ^ bits t)). lia.
Qed.

Lemma iwrap_congr t z : 0 < bits t -> exists k, iwrap t z = z + k * 2 ^ bits t.
Proof.
  intros H. unfold iwrap. pose proof (pow2_pos (bits t)).
  destruct (sgn t).
  - exists (- ((z + 2 ^ (bits t - 1)) / 2 ^ bits t)).
    rewrite Z.mod_eq by lia. lia.
  - exists (- (z / 2 ^ bits t)). rewrite Z.mod_eq by lia. lia.
Qed.

Lemma iwrap_mod t z : 0 < bits t -> iwrap t z mod 2 ^ bits t = z mod 2 ^ bits t.
Proof.
  intros H. destruct (iwrap_congr t z H) as [k ->]. apply Z_mod_plus_full.
Qed.

Lemma in_ty_unique t a b : 0 < bits t -> in_ty t a -> in_ty t b ->
  a mod 2 ^ bits t = b mod 2 ^ bits t -> a = b.
Proof.
  intros H Ha Hb E. unfold in_ty, imin, imax in *.
  pose proof (pow2_pos (bits t - 1)). pose proof (pow2_split (bits t) H).
  set (M := 2 ^ bits t) in *.
  pose proof (Z.div_mod a M). pose proof (Z.div_mod b M).
  assert (a - b = M * (a / M - b / M)) by lia.
  assert (a / M - b / M = 0) by (destruct (sgn t); nia).
  lia.
Qed.

Lemma iwrap_id t z : 0 < bits t -> in_ty t z -> iwrap t z = z.
Proof.
  intros H Hz. apply (in_ty_unique t); auto using iwrap_range, iwrap_mod.
Qed.

Lemma iwrap_eq_iff t z : 0 < bits t -> in_ty t z <-> iwrap t z = z.
Proof.
  intros H; split; [now apply iwrap_id|]. intros <-. now apply iwrap_range.
Qed.

Lemma iwrap_cong t a b : a mod 2 ^ bits t = b mod 2 ^ bits t -> 0 < bits t -> iwrap t a = iwrap t b.
Proof.
  intros E H. apply (in_ty_unique t); auto using iwrap_range. now rewrite !iwrap_mod.
Qed.

Lemma iwrap_testbit t z j : 0 < bits t -> 0 <= j ->
  Z.testbit (iwrap t z) j =
    if j <? bits t then Z.testbit z j else if sgn t then Z.testbit z (bits t - 1) else false.
Proof.
  intros H Hj. pose proof (pow2_pos (bits t - 1)). pose proof (pow2_split (bits t) H).
  destruct (Z.ltb_spec j (bits t)) as [L|L].
  - rewrite <- (testbit_mod_low _ (bits t) j L), iwrap_mod by lia. now apply testbit_mod_low.
  - pose proof (iwrap_range t z H) as R. unfold in_ty, imin, imax in R.
    assert (HB : Z.testbit (iwrap t z) (bits t - 1) = Z.testbit z (bits t - 1)).
    { rewrite <- (testbit_mod_low _ (bits t) (bits t - 1)), iwrap_mod by lia.
      apply testbit_mod_low; lia. }
    destruct (sgn t).
    + rewrite <- HB. set (y := iwrap t z) in *.
      destruct (Z_lt_le_dec y 0).
      * assert (T : forall i, bits t - 1 <= i -> Z.testbit y i = true).
        { intros i Hi. rewrite <- (negb_involutive (Z.testbit y i)), <- Z.lnot_spec by lia.
          rewrite (testbit_small (Z.lnot y) (bits t - 1)); unfold Z.lnot; try lia; reflexivity. }
        rewrite !T by lia. reflexivity.
      * rewrite !(testbit_small y (bits t - 1)) by lia. reflexivity.
    + apply (testbit_small _ (bits t)); lia.
Qed.

Lemma in_ty_bits_high t z j : 0 < bits t -> in_ty t z -> bits t <= j ->
  Z.testbit z j = if sgn t then Z.testbit z (bits t - 1) else false.
Proof.
  intros H Hz Hj. rewrite <- (iwrap_id t z H Hz) at 1. rewrite iwrap_testbit by lia.
  destruct (Z.ltb_spec j (bits t)); [lia|reflexivity].
Qed.

Lemma in_ty_bits_eq t a b : 0 < bits t -> in_ty t a -> in_ty t b ->
  (forall j, 0 <= j < bits t -> Z.testbit a j = Z.testbit b j) -> a = b.
Proof.
  intros H Ha Hb E. apply Z.bits_inj'. intros j Hj.
  destruct (Z_lt_le_dec j (bits t)); [now apply E|].
  rewrite (in_ty_bits_high t a j), (in_ty_bits_high t b j) by assumption.
  destruct (sgn t); [apply E; lia|reflexivity].
Qed.

Lemma in_ty_bitwise t (f : Z -> Z -> Z) (g : bool -> bool -> bool) a b :
  (forall x y j, 0 <= j -> Z.testbit (f x y) j = g (Z.testbit x j) (Z.testbit y j)) ->
  g false false = false ->
  0 < bits t -> in_ty t a -> in_ty t b -> in_ty t (f a b).
Proof.
  intros Hf Hg H Ha Hb. apply iwrap_eq_iff; [assumption|].
  apply Z.bits_inj'. intros j Hj. rewrite iwrap_testbit by lia.
  destruct (Z.ltb_spec j (bits t)); [reflexivity|].
  rewrite (Hf a b j), (in_ty_bits_high t a j), (in_ty_bits_high t b j) by assumption.
  destruct (sgn t); [apply Hf; lia|congruence].
Qed.

Lemma in_ty_and t a b : 0 < bits t -> in_ty t a -> in_ty t b -> in_ty t (op_and a b).
Proof. apply (in_ty_bitwise t Z.land andb); [intros; apply Z.land_spec|reflexivity]. Qed.
Lemma in_ty_or t a b : 0 < bits t -> in_ty t a -> in_ty t b -> in_ty t (op_or a b).
Proof. apply (in_ty_bitwise t Z.lor orb); [intros; apply Z.lor_spec|reflexivity]. Qed.
Lemma in_ty_xor t a b : 0 < bits t -> in_ty t a -> in_ty t b -> in_ty t (op_xor a b).
Proof. apply (in_ty_bitwise t Z.lxor xorb); [intros; apply Z.lxor_spec|reflexivity]. Qed.

Lemma op_not_testbit t a j : 0 < bits t -> 0 <= j < bits t ->
  Z.testbit (op_not t a) j = negb (Z.testbit a j).
Proof.
  intros H Hj. unfold op_not. rewrite iwrap_testbit by lia.
  destruct (Z.ltb_spec j (bits t)); [|lia]. apply Z.lnot_spec; lia.
Qed.
Lemma op_not_unsigned t a : 0 < bits t -> sgn t = false -> in_ty t a ->
  op_not t a = 2 ^ bits t - 1 - a.
Proof.
  intros H S Ha. unfold op_not. unfold in_ty, imin, imax, iwrap in *. rewrite S in *. unfold Z.lnot.
  rewrite <- (Z_mod_plus_full _ 1). rewrite Z.mod_small; lia.
Qed.
Lemma op_not_in_ty t a : 0 < bits t -> in_ty t (op_not t a).
Proof. apply iwrap_range. Qed.

Lemma in_tyb_spec t z : in_tyb t z = true <-> in_ty t z.
Proof. unfold in_tyb, in_ty. rewrite andb_true_iff, !Z.leb_le. reflexivity. Qed.
Lemma chk_Ok t z : in_ty t z -> chk t z = Ok z.
Proof. intros H. unfold chk. apply in_tyb_spec in H. now rewrite H. Qed.
Lemma chk_panic t z : ~ in_ty t z -> chk t z = Panic POverflow.
Proof.
  intros H. unfold chk. destruct (in_tyb t z) eqn:E; [|reflexivity].
  apply in_tyb_spec in E. contradiction.
Qed.
Lemma chk_inv t z r : chk t z = Ok r -> r = z /\ in_ty t z.
Proof.
  unfold chk. destruct (in_tyb t z) eqn:E; [|discriminate].
  apply in_tyb_spec in E. intros [= <-]. now split.
Qed.
Lemma in_ty_dec t z : {in_ty t z} + {~ in_ty t z}.
Proof.
  destruct (in_tyb t z) eqn:E; [left|right].
  - now apply in_tyb_spec.
  - intros H. apply in_tyb_spec in H. congruence.
Qed.

Lemma op_neg_unsigned t a : 0 < bits t -> sgn t = false ->
  op_neg t a = Ok ((- a) mod 2 ^ bits t).
Proof.
  intros H S. unfold op_neg, op_not, iwrap. rewrite S. f_equal. unfold Z.lnot.
  rewrite Z.add_mod_idemp_l by (pose proof (pow2_pos (bits t)); lia).
  f_equal. lia.
Qed.

(** ** Comparison masks *)
Lemma top_bit w y : 0 < w -> 0 <= y < 2 ^ w ->
  Z.shiftr y (w - 1) = if 2 ^ (w - 1) <=? y then 1 else 0.
Proof.
  intros H Hy. rewrite Z.shiftr_div_pow2 by lia. pose proof (pow2_split w H).
  destruct (Z.leb_spec (2 ^ (w - 1)) y).
  - symmetry. apply Z.div_unique with (y - 2 ^ (w - 1)); lia.
  - apply Z.div_small; lia.
Qed.
Lemma top_testbit w y : 0 < w -> 0 <= y < 2 ^ w ->
  Z.testbit y (w - 1) = (2 ^ (w - 1) <=? y).
Proof.
  intros H Hy. rewrite <- Z.bit0_odd || idtac.
  pose proof (top_bit w y H Hy) as E.
  pose proof (Z.shiftr_spec y (w - 1) 0 ltac:(lia)) as E2. rewrite Z.add_0_l in E2.
  rewrite <- E2, E. now destruct (2 ^ (w - 1) <=? y).
Qed.
Lemma top_shift w y : 0 < w -> 0 <= y < 2 ^ w ->
  Z.shiftr y (w - 1) = Z.b2z (Z.testbit y (w - 1)).
Proof.
  intros H Hy. rewrite top_bit, top_testbit by assumption. now destruct (2 ^ (w - 1) <=? y).
Qed.

Definition allones (t : ity) : Z := 2 ^ bits t - 1.
Definition mask (t : ity) (b : bool) : Z := if b then allones t else 0.

Lemma unsigned_range t a : sgn t = false -> in_ty t a <-> 0 <= a < 2 ^ bits t.
Proof. intros S. unfold in_ty, imin, imax. rewrite S. lia. Qed.

Lemma sub_one_mask t b : 0 < bits t -> sgn t = false -> sec t = true ->
  op_sub t (Z.b2z b) one_ = Ok (mask t (negb b)).
Proof.
  intros H S C. unfold op_sub, iwrap, one_, mask, allones. rewrite C, S. f_equal.
  pose proof (pow2_pos (bits t)). pose proof (pow2_split (bits t) H). pose proof (pow2_pos (bits t - 1)).
  destruct b; cbn [negb Z.b2z].
  - now rewrite Z.mod_0_l by lia.
  - rewrite <- (Z_mod_plus_full _ 1), Z.mod_small; lia.
Qed.

Lemma comp_eq_spec t a b : 0 < bits t -> sgn t = false -> sec t = true ->
  in_ty t a -> in_ty t b -> comp_eq t a b = Ok (mask t (a =? b)).
Proof.
  intros H S C Ha Hb. unfold comp_eq. rewrite S.
  rewrite op_neg_unsigned by assumption. cbn [bind].
  assert (Hx : in_ty t (op_xor a b)) by now apply in_ty_xor.
  set (x := op_xor a b) in *.
  assert (E0 : (a =? b) = (x =? 0)).
  { unfold x, op_xor. destruct (Z.eqb_spec a b) as [->|N].
    - now rewrite Z.lxor_nilpotent.
    - destruct (Z.eqb_spec (Z.lxor a b) 0) as [E|]; [|reflexivity].
      now apply Z.lxor_eq in E. }
  rewrite E0. unfold op_shr. rewrite (proj2 (Z.ltb_lt _ _)) by lia. cbn [bind].
  pose proof (pow2_pos (bits t)). pose proof (pow2_split (bits t) H).
  set (m := (- x) mod 2 ^ bits t).
  assert (Hm : in_ty t m).
  { apply unsigned_range; [assumption|]. apply Z.mod_pos_bound; lia. }
  assert (Ho : in_ty t (op_or x m)) by now apply in_ty_or.
  rewrite unsigned_range in Hx, Hm, Ho by assumption.
  rewrite top_shift by lia. rewrite sub_one_mask by assumption. do 2 f_equal.
  unfold op_or. rewrite Z.lor_spec, !top_testbit by lia.
  destruct (Z.eqb_spec x 0) as [E|N].
  - unfold m. rewrite E, Z.mod_0_l by lia. pose proof (pow2_pos (bits t - 1)).
    destruct (Z.leb_spec (2 ^ (bits t - 1)) 0); [lia|reflexivity].
  - assert (m = 2 ^ bits t - x).
    { unfold m. rewrite <- (Z_mod_plus_full _ 1), Z.mod_small; lia. }
    destruct (Z.leb_spec (2 ^ (bits t - 1)) x), (Z.leb_spec (2 ^ (bits t - 1)) m); try reflexivity. lia.
Qed.

Lemma comp_gte_spec t a b : 0 < bits t -> sgn t = false -> sec t = true ->
  in_ty t a -> in_ty t b -> comp_gte t a b = Ok (mask t (b <=? a)).
Proof.
  intros H S C Ha Hb. unfold comp_gte. rewrite S. unfold op_sub at 1. rewrite C. cbn [bind].
  set (s := iwrap t (a - b)).
  assert (Hs : in_ty t s) by now apply iwrap_range.
  assert (Hq : in_ty t (op_xor a (op_or (op_xor a b) (op_xor s b)))).
  { apply in_ty_xor; trivial. apply in_ty_or; trivial; now apply in_ty_xor. }
  set (q := op_xor a (op_or (op_xor a b) (op_xor s b))) in *.
  unfold op_shr. rewrite (proj2 (Z.ltb_lt _ _)) by lia. cbn [bind].
  pose proof (pow2_pos (bits t)). pose proof (pow2_split (bits t) H). pose proof (pow2_pos (bits t - 1)).
  assert (Es : s = if b <=? a then a - b else a - b + 2 ^ bits t).
  { unfold s, iwrap. rewrite S. rewrite unsigned_range in Ha, Hb by assumption.
    destruct (Z.leb_spec b a); [now rewrite Z.mod_small by lia|].
    rewrite <- (Z_mod_plus_full _ 1), Z.mod_small; lia. }
  rewrite unsigned_range in Ha, Hb, Hs, Hq by assumption.
  rewrite top_shift by lia. rewrite sub_one_mask by assumption. do 2 f_equal.
  unfold q, op_xor, op_or. rewrite !Z.lxor_spec, Z.lor_spec, !Z.lxor_spec, !top_testbit by lia.
  clearbody s. clear q Hq.
  destruct (Z.leb_spec b a), (Z.leb_spec (2 ^ (bits t - 1)) a), (Z.leb_spec (2 ^ (bits t - 1)) b),
    (Z.leb_spec (2 ^ (bits t - 1)) s); try reflexivity; lia.
Qed.

Lemma op_not_mask t c : 0 < bits t -> sgn t = false -> op_not t (mask t c) = mask t (negb c).
Proof.
  intros H S. pose proof (pow2_pos (bits t)).
  rewrite op_not_unsigned; trivial.
  - destruct c; cbn [mask negb]; unfold allones; lia.
  - apply unsigned_range; trivial. destruct c; cbn [mask]; unfold allones; lia.
Qed.
Lemma comp_ne_spec t a b : 0 < bits t -> sgn t = false -> sec t = true ->
  in_ty t a -> in_ty t b -> comp_ne t a b = Ok (mask t (negb (a =? b))).
Proof.
  intros. unfold comp_ne. rewrite comp_eq_spec by assumption. cbn [bind].
  now rewrite op_not_mask.
Qed.
Lemma comp_lt_spec t a b : 0 < bits t -> sgn t = false -> sec t = true ->
  in_ty t a -> in_ty t b -> comp_lt t a b = Ok (mask t (a <? b)).
Proof.
  intros. unfold comp_lt. rewrite comp_gte_spec by assumption. cbn [bind].
  rewrite op_not_mask by assumption. now rewrite <- Z.ltb_antisym.
Qed.
Lemma comp_gt_spec t a b : 0 < bits t -> sgn t = false -> sec t = true ->
  in_ty t a -> in_ty t b -> comp_gt t a b = Ok (mask t (b <? a)).
Proof.
  intros. unfold comp_gt. rewrite comp_gte_spec, comp_eq_spec by assumption. cbn [bind].
  f_equal. unfold op_xor.
  destruct (Z.leb_spec b a), (Z.eqb_spec a b), (Z.ltb_spec b a); try lia; cbn [mask].
  - apply Z.lxor_nilpotent.
  - apply Z.lxor_0_r.
  - reflexivity.
Qed.
Lemma comp_lte_spec t a b : 0 < bits t -> sgn t = false -> sec t = true ->
  in_ty t a -> in_ty t b -> comp_lte t a b = Ok (mask t (a <=? b)).
Proof.
  intros. unfold comp_lte. rewrite comp_gt_spec by assumption. cbn [bind].
  rewrite op_not_mask by assumption. now rewrite <- Z.leb_antisym.
Qed.

Lemma bm_mask t c : sgn t = false -> bm t c = mask t c.
Proof. intros S. unfold bm, mask, imax, allones. now rewrite S. Qed.

Lemma bm_specs t a b : 0 < bits t -> sgn t = false -> in_ty t a -> in_ty t b ->
  equal_bm t a b = Ok (mask t (a =? b)) /\
  not_equal_bm t a b = Ok (mask t (negb (a =? b))) /\
  greater_than_bm t a b = Ok (mask t (b <? a)) /\
  greater_than_or_qual_bm t a b = Ok (mask t (b <=? a)) /\
  less_than_bm t a b = Ok (mask t (a <? b)) /\
  less_than_or_equal_bm t a b = Ok (mask t (a <=? b)).
Proof.
  intros H S Ha Hb.
  unfold equal_bm, not_equal_bm, greater_than_bm, greater_than_or_qual_bm, less_than_bm, less_than_or_equal_bm.
  destruct (sec t) eqn:C.
  - rewrite comp_eq_spec, comp_ne_spec, comp_gt_spec, comp_gte_spec, comp_lt_spec, comp_lte_spec by assumption.
    repeat split.
  - rewrite !bm_mask by assumption. repeat split.
Qed.

(** ** Bits *)
Lemma op_shl_Ok t a n : n < bits t -> op_shl t a n = Ok (iwrap t (Z.shiftl a n)).
Proof. intros H. unfold op_shl. now apply Z.ltb_lt in H as ->. Qed.
Lemma op_shr_Ok t a n : n < bits t -> op_shr t a n = Ok (Z.shiftr a n).
Proof. intros H. unfold op_shr. now apply Z.ltb_lt in H as ->. Qed.

Lemma land_1 x : Z.land x 1 = Z.b2z (Z.testbit x 0).
Proof.
  change 1 with (Z.ones 1). rewrite Z.land_ones by lia. rewrite Z.bit0_mod. reflexivity.
Qed.

Lemma get_bit_spec t a i : 0 <= i < bits t -> get_bit t a i = Ok (Z.b2z (Z.testbit a i)).
Proof.
  intros Hi. unfold get_bit. rewrite op_shr_Ok by lia. cbn [bind]. f_equal.
  unfold op_and. rewrite land_1, Z.shiftr_spec by lia. now rewrite Z.add_0_l.
Qed.
Lemma get_bit_panic t a i : bits t <= i -> panics (get_bit t a i).
Proof.
  intros Hi. unfold get_bit, op_shr. destruct (Z.ltb_spec i (bits t)); [lia|]. now eexists.
Qed.

Lemma testbit_pow2 i j : 0 <= i -> 0 <= j -> Z.testbit (Z.shiftl 1 i) j = (i =? j).
Proof. intros. rewrite Z.shiftl_1_l. now apply Z.pow2_bits_eqb. Qed.

Lemma b_cases b : (b = 0 \/ b = 1) -> num_equal b 1 || num_equal b 0 = true.
Proof. intros [->| ->]; reflexivity. Qed.

Lemma set_bit_spec t a b i : 0 < bits t <= 128 -> in_ty t a -> (b = 0 \/ b = 1) -> 0 <= i < bits t ->
  exists r, set_bit t a b i = Ok r /\ in_ty t r /\
    forall j, 0 <= j < bits t -> Z.testbit r j = if j =? i then b =? 1 else Z.testbit a j.
Proof.
  intros H Ha Hb Hi. unfold set_bit. rewrite assert_true by now apply b_cases.
  cbn [bind]. rewrite !op_shl_Ok by (cbn [bits u128]; lia). cbn [bind].
  eexists; split; [reflexivity|]. split.
  - apply in_ty_or; [lia| |apply iwrap_range; lia].
    apply in_ty_and; [lia|assumption|]. unfold from_literal. apply iwrap_range; lia.
  - intros j Hj. unfold op_or, op_and, from_literal.
    rewrite Z.lor_spec, Z.land_spec, !iwrap_testbit by lia.
    destruct (Z.ltb_spec j (bits t)) as [_|]; [|lia].
    rewrite op_not_testbit by (cbn [bits u128]; lia).
    rewrite iwrap_testbit by (cbn [bits u128]; lia).
    destruct (Z.ltb_spec j (bits u128)) as [_|]; [|cbn [bits u128] in *; lia].
    rewrite testbit_pow2 by lia. rewrite (Z.eqb_sym i j).
    assert (Z.testbit (Z.shiftl b i) j = (j =? i) && (b =? 1)).
    { destruct Hb as [->| ->].
      - rewrite Z.shiftl_0_l, Z.testbit_0_l. now rewrite andb_false_r.
      - rewrite testbit_pow2 by lia. rewrite (Z.eqb_sym i j). now rewrite andb_true_r. }
    rewrite H0. destruct (j =? i); cbn [negb andb orb].
    + now rewrite andb_false_r.
    + now rewrite andb_true_r, orb_false_r.
Qed.

Lemma set_bit_panic t a b i : 0 < bits t <= 128 -> bits t <= i \/ (b <> 0 /\ b <> 1) ->
  panics (set_bit t a b i).
Proof.
  intros H [Hi|[H0 H1]]; unfold set_bit.
  - unfold assert_. destruct (num_equal b 1 || num_equal b 0); cbn [bind]; [|now eexists].
    unfold op_shl. destruct (Z.ltb_spec i (bits u128)); cbn [bind]; [|now eexists].
    destruct (Z.ltb_spec i (bits t)); cbn [bind]; [lia|now eexists].
  - unfold num_equal. apply Z.eqb_neq in H0 as ->. apply Z.eqb_neq in H1 as ->. now eexists.
Qed.

Lemma set_spec t a pos y yi : 0 < bits t <= 128 -> in_ty t a -> 0 <= pos < bits t -> 0 <= yi < bits t ->
  exists r, set t a pos y yi = Ok r /\ in_ty t r /\
    forall j, 0 <= j < bits t -> Z.testbit r j = if j =? pos then Z.testbit y yi else Z.testbit a j.
Proof.
  intros H Ha Hp Hy. unfold set. rewrite get_bit_spec by assumption. cbn [bind].
  destruct (set_bit_spec t a (Z.b2z (Z.testbit y yi)) pos H Ha) as (r & E & R & B); trivial.
  - destruct (Z.testbit y yi); auto.
  - exists r. repeat split; trivial; try apply R. intros j Hj. rewrite B by assumption.
    destruct (j =? pos); [|reflexivity]. now destruct (Z.testbit y yi).
Qed.
Lemma set_panic t a pos y yi : 0 < bits t <= 128 -> 0 <= yi -> bits t <= pos \/ bits t <= yi ->
  panics (set t a pos y yi).
Proof.
  intros H Hy O. unfold set. destruct (Z_lt_le_dec yi (bits t)).
  - rewrite get_bit_spec by lia. cbn [bind]. apply set_bit_panic; [assumption|left; lia].
  - destruct (get_bit_panic t y yi) as [p E]; [assumption|]. rewrite E. now exists p.
Qed.

(** set_bit(1) on a clear bit adds 2^i *)
Lemma set_bit_1_add t a i : 0 < bits t <= 128 -> sgn t = false -> in_ty t a -> 0 <= i < bits t ->
  Z.testbit a i = false -> set_bit t a 1 i = Ok (a + 2 ^ i).
Proof.
  intros H S Ha Hi Hf. destruct (set_bit_spec t a 1 i H Ha) as (r & E & R & B); auto.
  rewrite E. f_equal.
  assert (Hl : Z.lor a (2 ^ i) = a + 2 ^ i).
  { symmetry. rewrite <- Z.lxor_lor, Z.add_nocarry_lxor; trivial;
    apply Z.bits_inj'; intros j Hj; rewrite Z.land_spec, Z.pow2_bits_eqb, Z.testbit_0_l by lia;
    destruct (Z.eqb_spec i j) as [<-|]; rewrite ?Hf; auto using andb_false_r. }
  rewrite <- Hl. apply (in_ty_bits_eq t); trivial; [lia| |].
  - apply in_ty_or; trivial; try lia. apply unsigned_range; trivial.
    split; [apply Z.pow_nonneg; lia|]. apply Z.pow_lt_mono_r; lia.
  - intros j Hj. rewrite B by assumption. rewrite Z.lor_spec, Z.pow2_bits_eqb by lia.
    rewrite Z.eqb_sym. destruct (Z.eqb_spec i j) as [->|].
    + now rewrite orb_true_r.
    + now rewrite orb_false_r.
Qed.

(** ** Rotation *)
Lemma upat_range t a : 0 < bits t -> 0 <= upat t a < 2 ^ bits t.
Proof. intros H. apply Z.mod_pos_bound. apply pow2_pos; lia. Qed.

Lemma mod_cases x w : 0 < w -> - w <= x < w -> x mod w = if x <? 0 then x + w else x.
Proof.
  intros H Hx. destruct (Z.ltb_spec x 0).
  - rewrite <- (Z_mod_plus_full _ 1), Z.mod_small; lia.
  - apply Z.mod_small; lia.
Qed.

Lemma upat_testbit_out t a j : 0 < bits t -> (j < 0 \/ bits t <= j) -> Z.testbit (upat t a) j = false.
Proof.
  intros H [Hj|Hj]; [now apply Z.testbit_neg_r|].
  apply (testbit_small _ (bits t)); [now apply upat_range|lia].
Qed.
Lemma upat_testbit_in t a j : j < bits t -> Z.testbit (upat t a) j = Z.testbit a j.
Proof. apply testbit_mod_low. Qed.

Lemma rotate_left_testbit t a n i : 0 < bits t -> 0 <= n -> 0 <= i < bits t ->
  Z.testbit (rotate_left t a n) i = Z.testbit a ((i - n) mod bits t).
Proof.
  intros H Hn Hi. unfold rotate_left. set (k := n mod bits t).
  assert (Hk : 0 <= k < bits t) by (apply Z.mod_pos_bound; lia).
  assert (Em : (i - n) mod bits t = (i - k) mod bits t).
  { unfold k. now rewrite Zminus_mod_idemp_r. }
  rewrite Em, mod_cases by lia.
  rewrite iwrap_testbit by lia. destruct (Z.ltb_spec i (bits t)) as [_|]; [|lia].
  rewrite Z.lor_spec, Z.shiftl_spec, Z.shiftr_spec by lia.
  destruct (Z.ltb_spec (i - k) 0).
  - rewrite upat_testbit_out by lia. cbn [orb]. rewrite upat_testbit_in by lia. f_equal; lia.
  - rewrite (upat_testbit_out t a (i + (bits t - k))) by lia. rewrite orb_false_r.
    apply upat_testbit_in; lia.
Qed.

Lemma rotate_right_testbit t a n i : 0 < bits t -> 0 <= n -> 0 <= i < bits t ->
  Z.testbit (rotate_right t a n) i = Z.testbit a ((i + n) mod bits t).
Proof.
  intros H Hn Hi. unfold rotate_right. set (k := n mod bits t).
  assert (Hk : 0 <= k < bits t) by (apply Z.mod_pos_bound; lia).
  assert (Em : (i + n) mod bits t = if i + k <? bits t then i + k else i + k - bits t).
  { unfold k. rewrite <- Zplus_mod_idemp_r. fold k. destruct (Z.ltb_spec (i + k) (bits t)).
    - apply Z.mod_small; lia.
    - rewrite <- (Z_mod_plus_full _ (-1)), Z.mod_small; lia. }
  rewrite Em, iwrap_testbit by lia. destruct (Z.ltb_spec i (bits t)) as [_|]; [|lia].
  rewrite Z.lor_spec, Z.shiftl_spec, Z.shiftr_spec by lia.
  destruct (Z.ltb_spec (i + k) (bits t)).
  - rewrite (upat_testbit_out t a (i - _)) by lia. rewrite orb_false_r. apply upat_testbit_in; lia.
  - rewrite (upat_testbit_out t a (i + k)) by lia. cbn [orb]. rewrite upat_testbit_in by lia. f_equal; lia.
Qed.

Lemma rotate_left_range t a n : 0 < bits t -> in_ty t (rotate_left t a n).
Proof. apply iwrap_range. Qed.
Lemma rotate_right_range t a n : 0 < bits t -> in_ty t (rotate_right t a n).
Proof. apply iwrap_range. Qed.

Lemma rotate_right_left t a n : 0 < bits t -> 0 <= n -> in_ty t a ->
  rotate_right t (rotate_left t a n) n = a.
Proof.
  intros H Hn Ha. apply (in_ty_bits_eq t); auto using rotate_right_range.
  intros j Hj. rewrite rotate_right_testbit by lia.
  rewrite rotate_left_testbit by (try lia; apply Z.mod_pos_bound; lia).
  rewrite Zminus_mod_idemp_l. replace (j + n - n) with j by lia. now rewrite Z.mod_small.
Qed.
Lemma rotate_left_right t a n : 0 < bits t -> 0 <= n -> in_ty t a ->
  rotate_left t (rotate_right t a n) n = a.
Proof.
  intros H Hn Ha. apply (in_ty_bits_eq t); auto using rotate_left_range.
  intros j Hj. rewrite rotate_left_testbit by lia.
  rewrite rotate_right_testbit by (try lia; apply Z.mod_pos_bound; lia).
  rewrite Zplus_mod_idemp_l. replace (j - n + n) with j by lia. now rewrite Z.mod_small.
Qed.

Lemma rot_amount_spec t n k : bits t = 2 ^ k -> 0 <= k <= 32 -> 0 <= n ->
  rot_amount t n = (- n) mod bits t.
Proof.
  intros E Hk Hn. unfold rot_amount, iwrap. cbn [sgn u32 bits]. rewrite E.
  replace (2 ^ k - 1) with (Z.ones k) by (rewrite Z.ones_equiv; lia).
  rewrite Z.land_ones by lia. symmetry. apply Zmod_div_mod; try apply pow2_pos; try lia.
  exists (2 ^ (32 - k)). rewrite <- Z.pow_add_r by lia. f_equal. lia.
Qed.

Lemma in_ty_shr t a m : 0 < bits t -> 0 <= m -> in_ty t a -> in_ty t (Z.shiftr a m).
Proof.
  intros H Hm Ha. rewrite Z.shiftr_div_pow2 by lia. pose proof (pow2_pos m Hm).
  unfold in_ty, imin, imax in *. pose proof (pow2_pos (bits t - 1)).
  pose proof (pow2_pos (bits t)).
  split.
  - apply Z.div_le_lower_bound; [lia|]. destruct (sgn t); nia.
  - destruct (Z_lt_le_dec a 0).
    + assert (a / 2 ^ m < 0) by (apply Z.div_lt_upper_bound; lia). destruct (sgn t); lia.
    + assert (a / 2 ^ m <= a) by (apply Z.div_le_upper_bound; nia). lia.
Qed.

(** The trait's rotations, bit by bit, for any type: the part shifted right is
    sign extended. *)
Lemma tr_rotate_left_bits t a n k : bits t = 2 ^ k -> 0 <= k <= 32 -> 0 <= n < bits t -> in_ty t a ->
  exists r, tr_rotate_left t a n = Ok r /\ in_ty t r /\
   forall i, 0 <= i < bits t -> Z.testbit r i =
     Z.testbit a (i - n) || Z.testbit a (i + (- n) mod bits t).
Proof.
  intros E Hk Hn Ha. assert (H : 0 < bits t) by lia.
  assert (Hm : 0 <= (- n) mod bits t < bits t) by (apply Z.mod_pos_bound; lia).
  unfold tr_rotate_left. rewrite assert_true by (apply Z.ltb_lt; lia). cbn [bind].
  rewrite op_shl_Ok by lia. cbn [bind]. rewrite (rot_amount_spec t n k) by lia.
  rewrite op_shr_Ok by lia. cbn [bind]. eexists; split; [reflexivity|]. split.
  - apply in_ty_or; trivial; [now apply iwrap_range|]. apply in_ty_shr; trivial; lia.
  - intros i Hi. unfold op_or. rewrite Z.lor_spec, iwrap_testbit, Z.shiftr_spec by lia.
    destruct (Z.ltb_spec i (bits t)) as [_|]; [|lia]. now rewrite Z.shiftl_spec by lia.
Qed.
Lemma tr_rotate_right_bits t a n k : bits t = 2 ^ k -> 0 <= k <= 32 -> 0 <= n < bits t -> in_ty t a ->
  exists r, tr_rotate_right t a n = Ok r /\ in_ty t r /\
   forall i, 0 <= i < bits t -> Z.testbit r i =
     Z.testbit a (i + n) || Z.testbit a (i - (- n) mod bits t).
Proof.
  intros E Hk Hn Ha. assert (H : 0 < bits t) by lia.
  assert (Hm : 0 <= (- n) mod bits t < bits t) by (apply Z.mod_pos_bound; lia).
  unfold tr_rotate_right. rewrite assert_true by (apply Z.ltb_lt; lia). cbn [bind].
  rewrite op_shr_Ok by lia. cbn [bind]. rewrite (rot_amount_spec t n k) by lia.
  rewrite op_shl_Ok by lia. cbn [bind]. eexists; split; [reflexivity|]. split.
  - apply in_ty_or; trivial; [apply in_ty_shr; trivial; lia|now apply iwrap_range].
  - intros i Hi. unfold op_or. rewrite Z.lor_spec, iwrap_testbit, Z.shiftr_spec by lia.
    destruct (Z.ltb_spec i (bits t)) as [_|]; [|lia]. now rewrite Z.shiftl_spec by lia.
Qed.

(** They are the bit rotations on every non-negative value (so on all unsigned ones). *)
Lemma nonneg_bits_high t a j : 0 < bits t -> in_ty t a -> 0 <= a -> bits t <= j -> Z.testbit a j = false.
Proof.
  intros H Ha H0 Hj. apply (testbit_small _ (bits t)); [|lia]. unfold in_ty, imin, imax in Ha.
  pose proof (pow2_split (bits t) H). pose proof (pow2_pos (bits t - 1)). destruct (sgn t); lia.
Qed.

Lemma tr_rotate_left_spec t a n k : bits t = 2 ^ k -> 0 <= k <= 32 -> 0 <= n < bits t -> in_ty t a -> 0 <= a ->
  tr_rotate_left t a n = Ok (rotate_left t a n).
Proof.
  intros E Hk Hn Ha H0. assert (H : 0 < bits t) by lia.
  destruct (tr_rotate_left_bits t a n k E Hk Hn Ha) as (r & -> & R & B). f_equal.
  apply (in_ty_bits_eq t); auto using rotate_left_range.
  intros j Hj. rewrite B, rotate_left_testbit by lia. rewrite !mod_cases by lia.
  destruct (Z.ltb_spec (j - n) 0), (Z.ltb_spec (- n) 0); try lia.
  - rewrite Z.testbit_neg_r by lia. cbn [orb]. f_equal; lia.
  - rewrite (nonneg_bits_high t a (j + _)) by (trivial; lia). apply orb_false_r.
  - assert (n = 0) by lia. subst n. replace (j - 0) with j by lia. replace (j + -0) with j by lia.
    apply orb_diag.
Qed.
Lemma tr_rotate_right_spec t a n k : bits t = 2 ^ k -> 0 <= k <= 32 -> 0 <= n < bits t -> in_ty t a -> 0 <= a ->
  tr_rotate_right t a n = Ok (rotate_right t a n).
Proof.
  intros E Hk Hn Ha H0. assert (H : 0 < bits t) by lia.
  destruct (tr_rotate_right_bits t a n k E Hk Hn Ha) as (r & -> & R & B). f_equal.
  apply (in_ty_bits_eq t); auto using rotate_right_range.
  intros j Hj. rewrite B, rotate_right_testbit by lia.
  assert (Em : (j + n) mod bits t = if j + n <? bits t then j + n else j + n - bits t).
  { destruct (Z.ltb_spec (j + n) (bits t)).
    - apply Z.mod_small; lia.
    - rewrite <- (Z_mod_plus_full _ (-1)), Z.mod_small; lia. }
  rewrite Em, mod_cases by lia.
  destruct (Z.ltb_spec (j + n) (bits t)), (Z.ltb_spec (- n) 0); try lia.
  - rewrite (Z.testbit_neg_r a (j - _)) by lia. apply orb_false_r.
  - assert (n = 0) by lia. subst n. replace (j - -0) with j by lia. replace (j + 0) with j by lia.
    apply orb_diag.
  - rewrite (nonneg_bits_high t a (j + n)) by (trivial; lia). cbn [orb]. f_equal; lia.
Qed.
Lemma tr_rotate_panic t a n : bits t <= n -> panics (tr_rotate_left t a n) /\ panics (tr_rotate_right t a n).
Proof.
  intros H. unfold tr_rotate_left, tr_rotate_right. apply Z.ltb_ge in H as ->. cbn. split; now eexists.
Qed.

(** ** get_byte *)
Lemma get_byte_spec t a i : 8 < bits t -> sgn t = false -> sec t = true -> 0 <= i -> i * 8 < bits t -> bits t <= 2 ^ 32 ->
  get_byte t a i = Ok (a / 2 ^ (8 * i) mod 256).
Proof.
  intros H S C Hi Hb Hw. unfold get_byte. rewrite chk_Ok.
  2:{ unfold in_ty, imin, imax. cbn [sgn u32 bits]. lia. }
  cbn [bind]. rewrite op_shr_Ok, op_shl_Ok by lia. cbn [bind]. unfold op_sub. rewrite C. cbn [bind].
  f_equal. unfold op_and, iwrap. rewrite S.
  assert (2 ^ 8 < 2 ^ bits t) by (apply Z.pow_lt_mono_r; lia).
  rewrite (Z.mod_small (Z.shiftl 1 8)) by (change (Z.shiftl 1 8) with (2 ^ 8); lia).
  rewrite Z.mod_small by (change (Z.shiftl 1 8) with (2 ^ 8); lia).
  change (Z.shiftl 1 8 - 1) with (Z.ones 8). rewrite Z.land_ones by lia.
  rewrite Z.shiftr_div_pow2 by lia. do 2 f_equal. f_equal. lia.
Qed.
