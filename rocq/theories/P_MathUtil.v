(** Lemmas about M_MathUtil.v *)
From Coq Require Import ZArith Znumtheory List Bool Lia.
From Verif Require Import Base P_Base M_Int P_Int M_MathUtil.
Import ListNotations.
Open Scope Z_scope.

(** ** Conditional operations *)
Definition full (t : ity) : Z := if sgn t then -1 else 2 ^ bits t - 1.

Lemma full_land t z : 0 < bits t -> in_ty t z -> Z.land (full t) z = z.
Proof.
  intros H Hz. unfold full. destruct (sgn t) eqn:S.
  - apply Z.land_m1_l.
  - replace (2 ^ bits t - 1) with (Z.ones (bits t)) by (rewrite Z.ones_equiv; lia).
    rewrite Z.land_comm, Z.land_ones by lia. apply Z.mod_small. now apply unsigned_range.
Qed.

Lemma cswap_0 x y : cswap x y 0 = (x, y).
Proof. unfold cswap, op_and, op_xor. now rewrite Z.land_0_l, !Z.lxor_0_r. Qed.
Lemma cswap_full t x y : 0 < bits t -> in_ty t x -> in_ty t y -> cswap x y (full t) = (y, x).
Proof.
  intros H Hx Hy. unfold cswap, op_and.
  rewrite full_land by (trivial; now apply in_ty_xor). unfold op_xor. f_equal.
  - now rewrite <- Z.lxor_assoc, Z.lxor_nilpotent, Z.lxor_0_l.
  - now rewrite (Z.lxor_comm x y), <- Z.lxor_assoc, Z.lxor_nilpotent, Z.lxor_0_l.
Qed.
Lemma wrap_sub_01 t : 1 < bits t -> wrap_sub t 0 0 = 0 /\ wrap_sub t 0 1 = full t.
Proof.
  intros H. pose proof (pow2_pos (bits t - 1)). pose proof (pow2_split (bits t)).
  assert (2 ^ 1 <= 2 ^ (bits t - 1)) by (apply Z.pow_le_mono_r; lia).
  unfold wrap_sub. split.
  - apply iwrap_id; [lia|]. unfold in_ty, imin, imax. destruct (sgn t); lia.
  - apply (in_ty_unique t); [lia|apply iwrap_range; lia| |].
    + unfold in_ty, imin, imax, full. destruct (sgn t); lia.
    + rewrite iwrap_mod by lia. unfold full. destruct (sgn t); [reflexivity|].
      rewrite <- (Z_mod_plus_full (0 - 1) 1). f_equal. lia.
Qed.
Lemma cswap_bit_spec t x y c : 1 < bits t -> in_ty t x -> in_ty t y -> (c = 0 \/ c = 1) ->
  cswap_bit t x y c = if c =? 1 then (y, x) else (x, y).
Proof.
  intros H Hx Hy Hc. destruct (wrap_sub_01 t H) as [E0 E1]. unfold cswap_bit.
  destruct Hc as [->| ->]; cbn [Z.eqb Pos.eqb].
  - rewrite E0. apply cswap_0.
  - rewrite E1. apply cswap_full; trivial. lia.
Qed.

Lemma mask_full t c : sgn t = false -> mask t c = if c then full t else 0.
Proof. intros S. unfold mask, full, allones. now rewrite S. Qed.

Lemma cset_bit_spec t x b i c : 0 < bits t <= 128 -> in_ty t x -> (b = 0 \/ b = 1) -> 0 <= i < bits t ->
  exists r, set_bit t x b i = Ok r /\ cset_bit t x b i (full t) = Ok r /\ cset_bit t x b i 0 = Ok x /\
    (c = 0 \/ c = full t -> is_ok (cset_bit t x b i c)).
Proof.
  intros H Hx Hb Hi. destruct (set_bit_spec t x b i H Hx Hb Hi) as (r & E & R & _).
  exists r. unfold cset_bit. rewrite E. cbn [bind].
  rewrite cswap_full by (trivial; lia). rewrite cswap_0. repeat split; trivial.
  intros _. now eexists.
Qed.

Lemma cadd_spec t x y : 0 < bits t -> in_ty t x ->
  cadd t x y 0 = x /\ cadd t x y (full t) = iwrap t (x + y).
Proof.
  intros H Hx. unfold cadd. rewrite cswap_0, cswap_full; auto. apply iwrap_range; trivial.
Qed.
Lemma csub_spec t x y : 0 < bits t -> in_ty t x ->
  csub t x y 0 = x /\ csub t x y (full t) = iwrap t (x - y).
Proof.
  intros H Hx. unfold csub. rewrite cswap_0, cswap_full; auto. apply iwrap_range; trivial.
Qed.
Lemma cmul_spec t x y : 0 < bits t -> in_ty t x ->
  cmul t x y 0 = x /\ cmul t x y (full t) = iwrap t (x * y).
Proof.
  intros H Hx. unfold cmul. rewrite cswap_0, cswap_full; auto. apply iwrap_range; trivial.
Qed.

(** ** Constant-time division *)
Lemma testbit_shiftl_low q i : 0 <= i -> Z.testbit (q * 2 ^ (i + 1)) i = false.
Proof. intros. rewrite <- Z.shiftl_mul_pow2 by lia. rewrite Z.shiftl_spec by lia. apply Z.testbit_neg_r. lia. Qed.

Lemma set_bit0_even t r a i : 0 < bits t <= 128 -> sgn t = false -> 0 <= r -> 2 * r + 1 < 2 ^ bits t ->
  0 <= i < bits t ->
  set t (2 * r) 0 a i = Ok (2 * r + Z.b2z (Z.testbit a i)).
Proof.
  intros H S Hr Hr2 Hi.
  assert (R0 : in_ty t (2 * r)) by (apply unsigned_range; trivial; lia).
  destruct (set_spec t (2 * r) 0 a i H R0) as (x & E & R & B); try lia.
  rewrite E. f_equal. apply (in_ty_bits_eq t); trivial; [lia| |].
  - apply unsigned_range; trivial. destruct (Z.testbit a i); cbn [Z.b2z]; lia.
  - intros j Hj. rewrite B by lia. destruct (Z.eqb_spec j 0) as [->|].
    + rewrite Z.add_comm, Z.add_b2z_double_bit0. reflexivity.
    + replace j with (Z.succ (j - 1)) by lia.
      rewrite Z.testbit_succ_r, Z.testbit_even_succ by lia. reflexivity.
Qed.

(** State of the division after k of w rounds. *)
Definition div_inv (w a d : Z) (k : nat) (s : Z * Z) : Prop :=
  let i := w - Z.of_nat k in
  let A := a / 2 ^ i in
  s = (if d =? 0 then (2 ^ Z.of_nat k - 1) * 2 ^ i else A / d * 2 ^ i,
       if d =? 0 then A else A mod d).

Lemma div_step_A a i : 0 <= i -> a / 2 ^ i = 2 * (a / 2 ^ (i + 1)) + Z.b2z (Z.testbit a i).
Proof.
  intros Hi. rewrite Z.testbit_spec' by assumption.
  rewrite Z.pow_add_r, Z.pow_1_r, <- Z.div_div by (try lia; apply pow2_pos; lia).
  apply Z.div_mod. lia.
Qed.

Lemma div_unique_step A d b : 0 < d -> 0 <= A -> (b = 0 \/ b = 1) ->
  let r := 2 * (A mod d) + b in
  (2 * A + b) / d = 2 * (A / d) + (if d <=? r then 1 else 0) /\
  (2 * A + b) mod d = if d <=? r then r - d else r.
Proof.
  intros Hd HA Hb r. pose proof (Z.div_mod A d). pose proof (Z.mod_pos_bound A d Hd).
  destruct (Z.leb_spec d r); subst r.
  - split; symmetry;
    [apply Z.div_unique with (2 * (A mod d) + b - d)|apply Z.mod_unique with (2 * (A / d) + 1)]; lia.
  - split; symmetry;
    [apply Z.div_unique with (2 * (A mod d) + b)|apply Z.mod_unique with (2 * (A / d))]; lia.
Qed.

Lemma ct_div_step_inv t a d k s : 1 < bits t <= 128 -> sgn t = false -> in_ty t a -> in_ty t d ->
  (k < Z.to_nat (bits t))%nat ->
  div_inv (bits t) a d k s ->
  exists s', ct_div_step t a d (bits t - 1 - Z.of_nat k) s = Ok s' /\ div_inv (bits t) a d (S k) s'.
Proof.
  intros H S Ha Hd Hk Hinv. set (w := bits t) in *. set (i := w - 1 - Z.of_nat k).
  unfold div_inv in *. replace (w - Z.of_nat k) with (i + 1) in Hinv by (unfold i; lia).
  replace (w - Z.of_nat (Datatypes.S k)) with i by (unfold i; lia).
  assert (Hi : 0 <= i < w) by (unfold i; lia).
  rewrite unsigned_range in Ha, Hd by assumption. fold w in Ha, Hd.
  set (A := a / 2 ^ (i + 1)) in *. set (b := Z.b2z (Z.testbit a i)).
  assert (Hb : b = 0 \/ b = 1) by (unfold b; destruct (Z.testbit a i); auto).
  assert (EA : a / 2 ^ i = 2 * A + b) by now apply div_step_A.
  rewrite EA.
  assert (HA0 : 0 <= A) by (apply Z.div_pos; [lia|apply pow2_pos; lia]).
  assert (HA1 : 2 * A + b < 2 ^ w).
  { rewrite <- EA. apply Z.le_lt_trans with a; [|lia].
    apply Z.div_le_upper_bound; [apply pow2_pos; lia|]. pose proof (pow2_pos i). nia. }
  assert (HA1' : 2 * A + 1 < 2 ^ w).
  { pose proof (pow2_split w). pose proof (pow2_pos (w - 1)). lia. }
  assert (Hr : 0 <= snd s <= A).
  { subst s. cbn [snd]. destruct (Z.eqb_spec d 0); [lia|].
    pose proof (Z.mod_pos_bound A d). pose proof (Z.mod_le A d). lia. }
  assert (Hq : exists Q, fst s = Q * 2 ^ (i + 1) /\ 0 <= Q < 2 ^ Z.of_nat k /\
     Q = if d =? 0 then 2 ^ Z.of_nat k - 1 else A / d).
  { subst s. cbn [fst]. destruct (Z.eqb_spec d 0).
    - exists (2 ^ Z.of_nat k - 1). pose proof (pow2_pos (Z.of_nat k)). lia.
    - exists (A / d). repeat split; trivial.
      + apply Z.div_pos; lia.
      + apply Z.le_lt_trans with A; [apply Z.div_le_upper_bound; nia|].
        apply Z.div_lt_upper_bound; [apply pow2_pos; lia|].
        rewrite <- Z.pow_add_r by lia. replace (i + 1 + Z.of_nat k) with w by (unfold i; lia). lia. }
  destruct Hq as (Q & EQ & HQ & EQ2).
  destruct s as [q r]. cbn [fst snd] in *.
  unfold ct_div_step. rewrite op_shl_Ok by (fold w; lia).
  cbn [bind]. replace (iwrap t (Z.shiftl r 1)) with (2 * r).
  2:{ rewrite Z.shiftl_mul_pow2 by lia. symmetry. rewrite Z.mul_comm. apply iwrap_id; [lia|].
      apply unsigned_range; trivial. fold w. lia. }
  rewrite set_bit0_even by (trivial; fold w; lia). fold b. cbn [bind].
  assert (HR : in_ty t (2 * r + b)) by (apply unsigned_range; trivial; fold w; lia).
  destruct (bm_specs t (2 * r + b) d) as (_ & _ & _ & -> & _); trivial; [lia|apply unsigned_range; trivial|].
  cbn [bind]. rewrite mask_full by assumption.
  assert (Hqb : 0 <= q < 2 ^ w /\ q + 2 ^ i < 2 ^ w).
  { replace w with ((i + 1) + Z.of_nat k) by (unfold i; lia).
    rewrite Z.pow_add_r by lia. pose proof (pow2_pos (i + 1)). pose proof (pow2_pos i).
    rewrite (Z.pow_add_r 2 i 1), Z.pow_1_r in * by lia. subst q. nia. }
  assert (Hqt : in_ty t q) by (apply unsigned_range; trivial; fold w; lia).
  assert (Hset : set_bit t q 1 i = Ok (q + 2 ^ i)).
  { apply set_bit_1_add; trivial; try lia. rewrite EQ. apply testbit_shiftl_low. lia. }
  destruct (cset_bit_spec t q 1 i 0) as (x & Ex & Ef & E0 & _); trivial; try lia; auto.
  rewrite Hset in Ex. injection Ex as <-.
  destruct (csub_spec t (2 * r + b) d) as [C0 C1]; trivial; [lia|].
  assert (Ep : 2 ^ (i + 1) = 2 * 2 ^ i) by (rewrite Z.pow_add_r by lia; lia).
  destruct (Z.eqb_spec d 0) as [D0|D0].
  - subst d. assert (r = A) by congruence. subst r.
    destruct (Z.leb_spec 0 (2 * A + b)); [|lia].
    rewrite C1, Ef. cbn [bind]. eexists; split; [reflexivity|].
    f_equal.
    + rewrite EQ, EQ2, Ep. rewrite Nat2Z.inj_succ, Z.pow_succ_r by lia. lia.
    + rewrite Z.sub_0_r. apply iwrap_id; trivial. lia.
  - assert (r = A mod d) by congruence. subst r.
    destruct (div_unique_step A d b) as [Dq Dr]; trivial; [lia|].
    rewrite Dq, Dr. destruct (Z.leb_spec d (2 * (A mod d) + b)).
    + rewrite C1, Ef. cbn [bind]. eexists; split; [reflexivity|]. f_equal.
      * rewrite EQ, EQ2, Ep. lia.
      * apply iwrap_id; [lia|]. apply unsigned_range; trivial. fold w. lia.
    + rewrite C0, E0. cbn [bind]. eexists; split; [reflexivity|]. f_equal.
      rewrite EQ, EQ2, Ep. lia.
Qed.

Lemma ct_div_spec t a d : 1 < bits t <= 128 -> sgn t = false -> in_ty t a -> in_ty t d ->
  ct_div t a d = Ok (if d =? 0 then (2 ^ bits t - 1, a) else (a / d, a mod d)).
Proof.
  intros H S Ha Hd. unfold ct_div.
  destruct (for_range_inv (div_inv (bits t) a d)
    (fun k s => ct_div_step t a d (bits t - 1 - Z.of_nat k) s) 0 (Z.to_nat (bits t)) (0, 0)) as (s & E & I).
  - unfold div_inv. change (Z.of_nat 0) with 0. rewrite Z.sub_0_r. rewrite unsigned_range in Ha by assumption.
    rewrite (Z.div_small a (2 ^ bits t)) by lia. destruct (Z.eqb_spec d 0) as [|N]; [reflexivity|].
    rewrite Z.div_0_l, Z.mod_0_l by exact N. reflexivity.
  - intros i s Hi I. apply ct_div_step_inv; trivial. lia.
  - rewrite E. f_equal. unfold div_inv in I. rewrite I. rewrite Nat.add_0_l, Z2Nat.id, Z.sub_diag by lia.
    rewrite Z.pow_0_r, Z.div_1_r, !Z.mul_1_r. now destruct (d =? 0).
Qed.
