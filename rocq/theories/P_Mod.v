(** Lemmas about the modular operations, inversion and powers of machine integers. *)
From Coq Require Import ZArith Znumtheory List Bool Lia.
From Verif Require Import Base P_Base M_Int P_Int M_MathUtil P_MathUtil.
Import ListNotations.
Open Scope Z_scope.

(** ** The "add n until large enough" loop *)
Definition steps (a b n : Z) : Z := if a <? b then (b - a + n - 1) / n else 0.

Lemma steps_succ a b n : 0 < n -> a < b -> steps a b n = 1 + steps (a + n) b n.
Proof.
  intros Hn Hab. unfold steps. destruct (Z.ltb_spec a b); [|lia].
  destruct (Z.ltb_spec (a + n) b).
  - replace (b - a + n - 1) with ((b - (a + n) + n - 1) + 1 * n) by lia.
    rewrite Z.div_add by lia. lia.
  - symmetry. apply Z.div_unique with (b - a - 1); lia.
Qed.
Lemma steps_nonneg a b n : 0 < n -> 0 <= steps a b n.
Proof.
  intros Hn. unfold steps. destruct (Z.ltb_spec a b); [apply Z.div_pos|]; lia.
Qed.
Lemma steps_bounds a b n : 0 < n -> b <= a + steps a b n * n /\ (a < b -> a + steps a b n * n < b + n).
Proof.
  intros Hn. unfold steps. destruct (Z.ltb_spec a b); [|lia].
  pose proof (Z.div_mod (b - a + n - 1) n). pose proof (Z.mod_pos_bound (b - a + n - 1) n Hn). lia.
Qed.

Lemma while_add_Ok t a b n fuel : 0 < n -> in_ty t a -> (Z.to_nat (b - a) < fuel)%nat ->
  (sec t = true -> a + steps a b n * n <= imax t) -> 0 < bits t ->
  while_ fuel (fun x => x <? b) (fun x => op_add t x n) a =
    if a + steps a b n * n <=? imax t then Ok (a + steps a b n * n) else Panic POverflow.
Proof.
  intros Hn. revert a. induction fuel as [|f IH]; intros a Ha Hf Hs Hw; [lia|].
  cbn [while_]. destruct (Z.ltb_spec a b) as [L|L].
  - rewrite steps_succ in * by assumption. pose proof (steps_nonneg (a + n) b n Hn).
    unfold in_ty in Ha.
    replace (a + (1 + steps (a + n) b n) * n) with ((a + n) + steps (a + n) b n * n) in * by lia.
    destruct (sec t) eqn:C.
    + specialize (Hs eq_refl).
      assert (Eop : op_add t a n = Ok (a + n)).
      { unfold op_add. rewrite C, iwrap_id; [reflexivity|trivial|unfold in_ty; nia]. }
      rewrite Eop. cbn [bind].
      apply IH; trivial; [unfold in_ty; nia|lia].
    + assert (Eop : op_add t a n = chk t (a + n)) by (unfold op_add; now rewrite C).
      rewrite Eop. unfold chk, in_tyb. destruct (Z.leb_spec (imin t) (a + n)); [|lia].
      destruct (Z.leb_spec (a + n) (imax t)); cbn [andb bind].
      * apply IH; trivial; try discriminate; [unfold in_ty; lia|lia].
      * destruct (Z.leb_spec (a + n + steps (a + n) b n * n) (imax t)); [nia|reflexivity].
  - assert (E : steps a b n = 0) by (unfold steps; destruct (Z.ltb_spec a b); lia).
    rewrite E. replace (a + 0 * n) with a by lia. unfold in_ty in Ha.
    destruct (Z.leb_spec a (imax t)); [reflexivity|lia].
Qed.

(** ** Unsigned modular operations *)
Lemma op_rem_unsigned t a n : sgn t = false -> in_ty t a -> 0 < n -> op_rem t a n = Ok (a mod n).
Proof.
  intros S Ha Hn. unfold op_rem. destruct (Z.eqb_spec n 0); [lia|].
  rewrite unsigned_range in Ha by assumption.
  assert (in_ty t (Z.quot a n)).
  { apply unsigned_range; trivial. rewrite Z.quot_div_nonneg by lia.
    pose proof (Z.div_le_upper_bound a n a). pose proof (Z.div_pos a n). nia. }
  apply in_tyb_spec in H. rewrite H. now rewrite Z.rem_mod_nonneg by lia.
Qed.

Lemma sub_mod_unsigned fuel t a b n : 0 < bits t -> sgn t = false -> in_ty t a -> in_ty t b -> 0 < n ->
  (Z.to_nat (b - a) < fuel)%nat ->
  sub_mod fuel t a b n =
    if a + steps a b n * n <=? imax t then Ok ((a - b) mod n) else Panic POverflow.
Proof.
  intros H S Ha Hb Hn Hf. unfold sub_mod. rewrite S.
  pose proof (while_add_Ok (pub t) a b n fuel Hn) as W. cbn [bits sgn sec pub] in W.
  unfold pub at 1 in W. rewrite W; trivial; [|discriminate].
  replace (imax (pub t)) with (imax t) by reflexivity.
  pose proof (steps_bounds a b n Hn) as [B1 B2]. pose proof (steps_nonneg a b n Hn).
  destruct (Z.leb_spec (a + steps a b n * n) (imax t)) as [L|L]; [|reflexivity].
  cbn [bind]. unfold op_sub. cbn [sec pub].
  assert (Hd : in_ty (pub t) (a + steps a b n * n - b)).
  { change (in_ty (pub t)) with (in_ty t) in *. unfold in_ty in *. unfold imin in *. rewrite S in *. lia. }
  rewrite chk_Ok by exact Hd. cbn [bind]. rewrite op_rem_unsigned; trivial.
  f_equal. rewrite <- (Z_mod_plus_full (a - b) (steps a b n)). f_equal. lia.
Qed.

Lemma while_nz_outoffuel {S} fuel (c : S -> bool) f (s : S) :
  (forall s', c s' = true) -> (exists x, forall s', f s' = Ok x) -> while_ fuel c f s = Panic OutOfFuel.
Proof.
  intros Hc [x Hf]. revert s; induction fuel as [|k IH]; intros s; cbn [while_]; [reflexivity|].
  rewrite Hc, Hf. cbn [bind]. apply IH.
Qed.

(** n = 0 and a < b: the loop of the code never ends. *)
Lemma sub_mod_zero_diverges fuel t a b : sgn t = false -> in_ty t a -> a < b ->
  sub_mod fuel t a b 0 = Panic OutOfFuel.
Proof.
  intros S Ha Hab. unfold sub_mod. rewrite S.
  replace (while_ fuel _ _ a) with (@Panic Z OutOfFuel); [reflexivity|].
  symmetry. induction fuel as [|k IH]; cbn [while_]; [reflexivity|].
  destruct (Z.ltb_spec a b); [|lia]. unfold op_add. cbn [sec pub]. rewrite Z.add_0_r, chk_Ok by exact Ha.
  cbn [bind]. apply IH.
Qed.

Lemma add_mod_unsigned fuel t a b n : sgn t = false -> in_ty t a -> in_ty t b -> 0 < n ->
  add_mod fuel t a b n = if a + b <=? imax t then Ok ((a + b) mod n) else Panic POverflow.
Proof.
  intros S Ha Hb Hn. unfold add_mod. rewrite S. unfold op_add. cbn [sec pub].
  destruct (Z.leb_spec (a + b) (imax t)) as [L|L].
  - assert (Hs : in_ty (pub t) (a + b)).
    { change (in_ty (pub t)) with (in_ty t). unfold in_ty, imin in *. rewrite S in *. lia. }
    rewrite chk_Ok by exact Hs. cbn [bind]. now rewrite op_rem_unsigned.
  - rewrite chk_panic; [reflexivity|]. change (in_ty (pub t)) with (in_ty t). unfold in_ty. lia.
Qed.
Lemma mul_mod_unsigned fuel t a b n : sgn t = false -> in_ty t a -> in_ty t b -> 0 < n ->
  mul_mod fuel t a b n = if a * b <=? imax t then Ok ((a * b) mod n) else Panic POverflow.
Proof.
  intros S Ha Hb Hn. unfold mul_mod. rewrite S. unfold op_mul. cbn [sec pub].
  destruct (Z.leb_spec (a * b) (imax t)) as [L|L].
  - assert (Hs : in_ty (pub t) (a * b)).
    { change (in_ty (pub t)) with (in_ty t). unfold in_ty, imin in *. rewrite S in *. nia. }
    rewrite chk_Ok by exact Hs. cbn [bind]. now rewrite op_rem_unsigned.
  - rewrite chk_panic; [reflexivity|]. change (in_ty (pub t)) with (in_ty t). unfold in_ty. lia.
Qed.
Lemma modulo_unsigned fuel t a n : sgn t = false -> in_ty t a -> 0 < n ->
  modulo fuel t a n = Ok (a mod n).
Proof. intros S Ha Hn. unfold modulo. rewrite S. now rewrite op_rem_unsigned. Qed.

(** ** Signed *)
Lemma signed_mod_spec fuel x n : in_ty i128 x -> in_ty i128 n -> 0 < n -> (2 <= fuel)%nat ->
  signed_mod fuel x n = Ok (x mod n).
Proof.
  intros Hx Hn Hp Hf. unfold signed_mod, op_rem.
  destruct (Z.eqb_spec n 0); [lia|].
  unfold in_ty, imin, imax in Hx, Hn. cbn [sgn i128 bits] in Hx, Hn.
  assert (Hq : in_ty i128 (Z.quot x n)).
  { unfold in_ty, imin, imax. cbn [sgn i128 bits].
    destruct (Z_lt_le_dec x 0).
    - replace x with (- - x) by lia. rewrite Z.quot_opp_l by lia. rewrite Z.quot_div_nonneg by lia.
      pose proof (Z.div_le_upper_bound (- x) n (- x)). pose proof (Z.div_pos (- x) n). nia.
    - rewrite Z.quot_div_nonneg by lia.
      pose proof (Z.div_le_upper_bound x n x). pose proof (Z.div_pos x n). nia. }
  apply in_tyb_spec in Hq. rewrite Hq. cbn [bind].
  destruct fuel as [|[|f]]; [lia..|]. cbn [while_].
  pose proof (Z.mod_pos_bound x n Hp).
  destruct (Z_lt_le_dec x 0).
  - assert (E : Z.rem x n = - ((- x) mod n)).
    { replace x with (- - x) at 1 by lia. rewrite Z.rem_opp_l by lia. rewrite Z.rem_mod_nonneg by lia. reflexivity. }
    rewrite E. pose proof (Z.mod_pos_bound (- x) n Hp).
    destruct (Z.eq_dec ((- x) mod n) 0) as [Z0|Z0].
    + rewrite Z0. cbn. f_equal. symmetry. replace x with (- - x) by lia. now apply Z_mod_zero_opp_full.
    + destruct (Z.ltb_spec (- (- x mod n)) 0); [|lia].
      unfold op_add. cbn [sec i128].
      rewrite chk_Ok by (unfold in_ty, imin, imax; cbn [sgn i128 bits]; lia). cbn [bind].
      destruct (Z.ltb_spec (- (- x mod n) + n) 0); [lia|]. f_equal.
      pose proof (Z_mod_nz_opp_full (- x) n Z0) as E2. rewrite Z.opp_involutive in E2. lia.
  - rewrite Z.rem_mod_nonneg by lia. destruct (Z.ltb_spec (x mod n) 0); [lia|reflexivity].
Qed.

Lemma signed_in_i128 t z : 0 < bits t <= 128 -> sgn t = true -> in_ty t z -> in_ty i128 z.
Proof.
  intros H S. unfold in_ty, imin, imax. rewrite S. cbn [sgn i128 bits].
  assert (2 ^ (bits t - 1) <= 2 ^ (128 - 1)) by (apply Z.pow_le_mono_r; lia). lia.
Qed.
Lemma cast_mod t x n : 0 < bits t -> in_ty t n -> 0 < n -> cast t (x mod n) = x mod n.
Proof.
  intros H Hn Hp. apply iwrap_id; trivial. pose proof (Z.mod_pos_bound x n Hp).
  unfold in_ty in *. assert (imin t <= 0); [|lia].
  unfold imin. pose proof (pow2_pos (bits t - 1)). destruct (sgn t); lia.
Qed.

Lemma signed_op_mod fuel t (op : ity -> Z -> Z -> res Z) z a b n :
  0 < bits t <= 128 -> sgn t = true -> in_ty t n -> 0 < n -> (2 <= fuel)%nat ->
  op i128 a b = chk i128 z ->
  bind (op i128 a b) (fun d => bind (signed_mod fuel d n) (fun r => Ok (cast t r))) =
    if in_tyb i128 z then Ok (z mod n) else Panic POverflow.
Proof.
  intros H S Hn Hp Hf E. rewrite E. unfold chk. destruct (in_tyb i128 z) eqn:I; [|reflexivity].
  cbn [bind]. rewrite signed_mod_spec; trivial.
  - cbn [bind]. rewrite cast_mod; trivial. lia.
  - now apply in_tyb_spec.
  - now apply (signed_in_i128 t).
Qed.

Lemma signed_mods fuel t a b n : 0 < bits t <= 128 -> sgn t = true -> in_ty t n -> 0 < n -> (2 <= fuel)%nat ->
  add_mod fuel t a b n = (if in_tyb i128 (a + b) then Ok ((a + b) mod n) else Panic POverflow) /\
  sub_mod fuel t a b n = (if in_tyb i128 (a - b) then Ok ((a - b) mod n) else Panic POverflow) /\
  mul_mod fuel t a b n = (if in_tyb i128 (a * b) then Ok ((a * b) mod n) else Panic POverflow) /\
  (in_ty t a -> modulo fuel t a n = Ok (a mod n)).
Proof.
  intros H S Hn Hp Hf. unfold add_mod, sub_mod, mul_mod, modulo. rewrite S.
  split; [now apply (signed_op_mod fuel t op_add)|].
  split; [now apply (signed_op_mod fuel t op_sub)|].
  split; [now apply (signed_op_mod fuel t op_mul)|].
  intros Ha. rewrite signed_mod_spec; trivial.
  - cbn [bind]. rewrite cast_mod; trivial. lia.
  - now apply (signed_in_i128 t).
  - now apply (signed_in_i128 t).
Qed.
Lemma signed_narrow_fits t a b : 0 < bits t <= 64 -> sgn t = true -> in_ty t a -> in_ty t b ->
  in_tyb i128 (a + b) = true /\ in_tyb i128 (a - b) = true /\ in_tyb i128 (a * b) = true.
Proof.
  intros H S Ha Hb. rewrite !in_tyb_spec. unfold in_ty, imin, imax in *. rewrite S in *. cbn [sgn i128 bits].
  assert (Hp : 2 ^ (bits t - 1) <= 2 ^ 63) by (apply Z.pow_le_mono_r; lia).
  pose proof (pow2_pos (bits t - 1)). change (2 ^ (128 - 1)) with (2 ^ 63 * 2 ^ 64).
  change (2 ^ 64) with (2 * 2 ^ 63). set (P := 2 ^ 63) in *. set (Q := 2 ^ (bits t - 1)) in *.
  assert (P > 1) by (unfold P; lia).
  repeat split; nia.
Qed.

(** ** Extended Euclid *)
Definition eea_inv (x n : Z) (s : eea) : Prop :=
  0 <= ee_t s < n /\ 0 <= ee_new_t s < n /\ 0 < ee_r s /\ 0 <= ee_new_r s /\
  (s = mkeea 0 n 1 x \/ (s = mkeea 1 x 0 n /\ n < x) \/ (ee_r s <= n /\ ee_new_r s <= n)) /\
  (n | ee_t s * x - ee_r s) /\ (n | ee_new_t s * x - ee_new_r s) /\
  Z.gcd (ee_r s) (ee_new_r s) = Z.gcd x n /\ ee_r s <= Z.max x n /\ ee_new_r s <= Z.max x n.

Lemma imin_le_0 t : 0 < bits t -> imin t <= 0.
Proof. intros H. unfold imin. pose proof (pow2_pos (bits t - 1)). destruct (sgn t); lia. Qed.
Lemma op_nonneg_fits t (a b : Z) : 0 < bits t ->
  (0 <= a + b <= imax t -> op_add t a b = Ok (a + b)) /\
  (0 <= a - b <= imax t -> op_sub t a b = Ok (a - b)) /\
  (0 <= a * b <= imax t -> op_mul t a b = Ok (a * b)).
Proof.
  intros H. pose proof (imin_le_0 t H). unfold op_add, op_sub, op_mul.
  repeat split; intros R; destruct (sec t);
    try (now rewrite iwrap_id by (unfold in_ty; lia || assumption)); apply chk_Ok; unfold in_ty; lia.
Qed.

Lemma eea_step_inv fuel t x n s : 0 < bits t -> 1 < n -> n * n <= imax t + 1 ->
  0 <= x <= imax t -> (Z.to_nat n < fuel)%nat -> (Z.to_nat (n * n) < fuel)%nat ->
  eea_inv x n s -> ee_new_r s <> 0 ->
  exists s', eea_step fuel t n s = Ok s' /\ eea_inv x n s' /\
    ee_r s' = ee_new_r s /\ ee_new_r s' < ee_new_r s.
Proof.
  intros H Hn Hnn Hx Hf Hf2 I Hnz.
  destruct s as [t0 r nt nr]. unfold eea_inv in I. cbn [ee_t ee_r ee_new_t ee_new_r] in *.
  destruct I as (It & Int & Ir & Inr & Iq & D1 & D2 & G & B1 & B2).
  pose proof (imin_le_0 t H) as Hmin. assert (Hnb : n <= imax t) by nia.
  assert (Hmax : Z.max x n <= imax t) by lia.
  unfold eea_step. cbn [ee_t ee_r ee_new_t ee_new_r]. unfold num_div, op_div.
  destruct (Z.eqb_spec nr 0); [contradiction|].
  rewrite Z.quot_div_nonneg by lia. set (q := r / nr).
  pose proof (Z.div_mod r nr Hnz) as DM. pose proof (Z.mod_pos_bound r nr) as MB. fold q in DM.
  assert (Hq0 : 0 <= q) by (apply Z.div_pos; lia).
  assert (Hqr : q <= r) by (apply Z.div_le_upper_bound; nia).
  rewrite chk_Ok by (unfold in_ty; lia). cbn [bind].
  destruct (op_nonneg_fits t q nr) as (_ & _ & M1); trivial. rewrite M1 by nia. cbn [bind].
  unfold num_less_than.
  rewrite while_add_Ok; trivial; [| lia | unfold in_ty; lia | |].
  2:{ replace (Z.to_nat (q * nr - r)) with 0%nat by nia. lia. }
  2:{ intros _. unfold steps. destruct (Z.ltb_spec r (q * nr)); [nia|]. lia. }
  assert (E0 : steps r (q * nr) n = 0) by (unfold steps; destruct (Z.ltb_spec r (q * nr)); nia).
  rewrite E0. replace (r + 0 * n) with r by lia.
  destruct (Z.leb_spec r (imax t)); [|lia]. cbn [bind].
  destruct (op_nonneg_fits t r (q * nr)) as (_ & S1 & _); trivial. rewrite S1 by nia. cbn [bind].
  assert (Hp : 0 <= q * nt <= n * n - n).
  { destruct Iq as [[= -> -> -> ->]|[[[= -> -> -> ->] Iq]|[Iq Iq2]]]; nia. }
  destruct (op_nonneg_fits t q nt) as (_ & _ & M2); trivial. rewrite M2 by nia. cbn [bind].
  pose proof (steps_bounds t0 (q * nt) n ltac:(lia)) as [SB1 SB2].
  pose proof (steps_nonneg t0 (q * nt) n ltac:(lia)) as SN.
  assert (SL : t0 + steps t0 (q * nt) n * n < n * n).
  { destruct (Z_lt_le_dec t0 (q * nt)); [specialize (SB2 ltac:(lia)); lia|].
    unfold steps. destruct (Z.ltb_spec t0 (q * nt)); nia. }
  rewrite while_add_Ok; trivial; [| lia | unfold in_ty; lia | lia | lia].
  destruct (Z.leb_spec (t0 + steps t0 (q * nt) n * n) (imax t)); [|lia]. cbn [bind].
  set (k := steps t0 (q * nt) n) in *.
  destruct (op_nonneg_fits t (t0 + k * n) (q * nt)) as (_ & S2 & _); trivial.
  rewrite S2 by lia. cbn [bind].
  eexists; split; [reflexivity|]. unfold eea_inv. cbn [ee_t ee_r ee_new_t ee_new_r].
  assert (E1 : r - q * nr = r mod nr) by lia.
  assert (Hk : t0 + k * n - q * nt < n).
  { destruct (Z_lt_le_dec t0 (q * nt)); [specialize (SB2 ltac:(lia)); lia|].
    unfold k, steps. destruct (Z.ltb_spec t0 (q * nt)); lia. }
  repeat split; try lia.
  - destruct Iq as [[= -> -> -> ->]|[[[= -> -> -> ->] Iq]|[Iq Iq2]]].
    + destruct (Z_lt_le_dec n x) as [L|L].
      * right. left. split; [|assumption].
        assert (Eq : q = 0) by (apply Z.div_small; lia).
        unfold k. rewrite Eq. unfold steps. cbn. f_equal. lia.
      * right. right. lia.
    + right. right. lia.
    + right. right. lia.
  - assumption.
  - destruct D1 as [c1 D1], D2 as [c2 D2]. exists (c1 - q * c2 + k * x). nia.
  - rewrite E1, Z.gcd_comm, Z.gcd_mod by assumption. rewrite <- G. apply Z.gcd_comm.
Qed.

Lemma eea_loop fuel2 t x n : 0 < bits t -> 1 < n -> n * n <= imax t + 1 ->
  0 <= x <= imax t -> (Z.to_nat n < fuel2)%nat -> (Z.to_nat (n * n) < fuel2)%nat ->
  forall fuel s, eea_inv x n s -> (Z.to_nat (ee_new_r s) < fuel)%nat ->
  exists s', while_ fuel (fun s => negb (num_equal (ee_new_r s) 0)) (eea_step fuel2 t n) s = Ok s' /\
     eea_inv x n s' /\ ee_new_r s' = 0.
Proof.
  intros H Hn Hnn Hx Hf Hf2. induction fuel as [|f IH]; intros s I L; [lia|].
  cbn [while_]. unfold num_equal. destruct (Z.eqb_spec (ee_new_r s) 0) as [E|N]; cbn [negb].
  - exists s. auto.
  - destruct (eea_step_inv fuel2 t x n s) as (s' & E & I' & Hr & Hlt); trivial.
    rewrite E. cbn [bind]. apply IH; trivial.
    unfold eea_inv in I, I'. lia.
Qed.

Lemma eea_init x n : 1 < n -> 0 <= x -> eea_inv x n (mkeea 0 n 1 x).
Proof.
  intros Hn Hx. unfold eea_inv. cbn [ee_t ee_r ee_new_t ee_new_r].
  repeat split; try lia.
  - now left.
  - exists (-1). lia.
  - exists 0. lia.
  - apply Z.gcd_comm.
Qed.

Lemma eea_spec fuel t x n sg : 0 < bits t -> 1 < n -> n * n <= imax t + 1 ->
  0 <= x <= imax t -> (Z.to_nat (x + n * n) < fuel)%nat ->
  (Z.gcd x n = 1 -> exists y, extended_euclid_invert fuel t x n sg = Ok y /\ 0 <= y < n /\ (x * y) mod n = 1) /\
  (Z.gcd x n <> 1 -> x <> 0 -> extended_euclid_invert fuel t x n sg = Panic PExplicit) /\
  (x = 0 -> extended_euclid_invert fuel t x n sg = Ok 0).
Proof.
  intros H Hn Hnn Hx Hf. unfold extended_euclid_invert.
  destruct (eea_loop fuel t x n H Hn Hnn Hx) with (fuel := fuel) (s := mkeea 0 n 1 x) as (s & E & I & Z0);
    [nia|nia|apply eea_init; lia|cbn [ee_new_r]; nia|].
  rewrite E. cbn [bind].
  destruct I as (It & Int & Ir & Inr & Iq & D1 & D2 & G & B1 & B2).
  rewrite Z0, Z.gcd_0_r, Z.abs_eq in G by lia.
  unfold num_greater_than, num_equal, num_less_than.
  destruct (Z.ltb_spec (ee_t s) 0); [lia|].
  repeat split.
  - intros G1. rewrite G1 in G. rewrite G. cbn [andb Z.ltb Z.compare Pos.compare Pos.compare_cont].
    exists (ee_t s). repeat split; try lia.
    destruct D1 as [c D1]. rewrite G in D1. replace (x * ee_t s) with (1 + c * n) by lia.
    rewrite Z_mod_plus_full. apply Z.mod_1_l. lia.
  - intros G1 X0. destruct (Z.ltb_spec 1 (ee_r s)); [|lia].
    apply Z.eqb_neq in X0. rewrite X0. reflexivity.
  - intros ->. destruct fuel; [lia|]. cbn [while_ ee_new_r] in E. unfold num_equal in E. cbn in E.
    injection E as <-. rewrite andb_false_r. reflexivity.
Qed.

(** ** Powers *)
Lemma iwrap_mul_l t x y : 0 < bits t -> iwrap t (iwrap t x * y) = iwrap t (x * y).
Proof.
  intros H. apply iwrap_cong; trivial.
  rewrite Z.mul_mod, iwrap_mod, <- Z.mul_mod by (try (pose proof (pow2_pos (bits t)); lia); trivial).
  reflexivity.
Qed.
Lemma secret_pow t a e : 1 < bits t -> sec t = true -> in_ty t a ->
  num_pow t a e = Ok (iwrap t (a ^ Z.of_nat e)).
Proof.
  intros H C Ha. unfold num_pow. rewrite C. destruct e as [|e].
  - change (Z.of_nat 0) with 0. rewrite Z.pow_0_r, iwrap_id; trivial; [lia|].
    unfold in_ty, imin, imax. assert (2 ^ 1 <= 2 ^ (bits t - 1)) by (apply Z.pow_le_mono_r; lia).
    pose proof (pow2_split (bits t)). destruct (sgn t); lia.
  - destruct (for_range_inv (fun i s => s = iwrap t (a ^ Z.of_nat i))
      (fun (_ : nat) s => op_mul t s a) 1 e a) as (s & E & I).
    + change (Z.of_nat 1) with 1. rewrite Z.pow_1_r, iwrap_id; trivial. lia.
    + intros i s Hi ->. unfold op_mul. rewrite C. eexists; split; [reflexivity|].
      rewrite iwrap_mul_l by lia. f_equal. rewrite Nat2Z.inj_succ, Z.pow_succ_r by lia. lia.
    + rewrite E, I. reflexivity.
Qed.
Lemma public_pow t a e : sec t = false ->
  num_pow t a e = if in_tyb t (a ^ Z.of_nat e) then Ok (a ^ Z.of_nat e) else Panic POverflow.
Proof. intros C. unfold num_pow. now rewrite C. Qed.
