(** C97: modular inverses of negative numbers (signed machine integers). *)
From Verif Require Import Base M_Int M_MathUtil S_Int P_Int P_Mod T_Exact P_Word.
From Coq Require Import ZArith List Bool Lia Znumtheory.
Import ListNotations.
Open Scope Z_scope.

(** One round on a public type, in exact integers. *)
Lemma neg_step fuel t n s s' : sec t = false -> 0 < n -> eea_step fuel t n s = Ok s' ->
  let q := Z.quot (ee_r s) (ee_new_r s) in
  ee_new_r s <> 0 /\
  exists k j, s' = mkeea (ee_new_t s) (ee_new_r s) (ee_t s + j * n - q * ee_new_t s) (ee_r s + k * n - q * ee_new_r s) /\
    (q * ee_new_r s <= ee_r s -> k = 0) /\ (ee_r s < q * ee_new_r s -> q * ee_new_r s <= ee_r s + k * n < q * ee_new_r s + n) /\
    (q * ee_new_t s <= ee_t s -> j = 0).
Proof.
  intros S Hn E q. destruct s as [t0 r nt nr]. unfold eea_step in E. cbn [ee_t ee_r ee_new_t ee_new_r] in *.
  unfold num_div, op_div in E. destruct (Z.eqb_spec nr 0) as [|Hnz]; [discriminate E|]. split; [assumption|]. fold q in E.
  destruct (chk t q) as [v|] eqn:C; cbn [bind] in E; [|discriminate E]. apply chk_inv in C. destruct C as (-> & _).
  unfold op_mul, op_sub in E. rewrite S in E.
  destruct (chk t (q * nr)) as [v|] eqn:C; cbn [bind] in E; [|discriminate E]. apply chk_inv in C. destruct C as (-> & _).
  destruct (while_ fuel _ _ r) as [v|] eqn:W; cbn [bind] in E; [|discriminate E].
  apply while_add_inv in W; trivial. destruct W as (k & _ & -> & L & K0 & K1).
  destruct (chk t (r + k * n - q * nr)) as [v|] eqn:C; cbn [bind] in E; [|discriminate E]. apply chk_inv in C. destruct C as (-> & _).
  destruct (chk t (q * nt)) as [v|] eqn:C; cbn [bind] in E; [|discriminate E]. apply chk_inv in C. destruct C as (-> & _).
  destruct (while_ fuel _ _ t0) as [v|] eqn:W; cbn [bind] in E; [|discriminate E].
  apply while_add_inv in W; trivial. destruct W as (j & _ & -> & _ & J0 & _).
  destruct (chk t (t0 + j * n - q * nt)) as [v|] eqn:C; cbn [bind] in E; [|discriminate E]. apply chk_inv in C. destruct C as (-> & _).
  injection E as <-. exists k, j. split; [reflexivity|]. split; [exact K0|]. split; [intros; lia|exact J0].
Qed.
Lemma quot_neg_l a b : 0 <= a -> 0 < b -> Z.quot (- a) b = - (a / b).
Proof. intros. rewrite Z.quot_opp_l, Z.quot_div_nonneg by lia. reflexivity. Qed.
Lemma quot_neg_r a b : 0 <= a -> 0 < b -> Z.quot a (- b) = - (a / b).
Proof. intros. rewrite Z.quot_opp_r, Z.quot_div_nonneg by lia. reflexivity. Qed.

(** What the algorithm really tests for x = -a: not gcd(a, n) but this number. *)
Definition neg_test (a n : Z) : Z :=
  let r := n mod a in let s := a mod r in if s =? 0 then r else Z.gcd r (n - s).

Lemma neg_run w fuel a n s : 1 < n -> 0 < a ->
  while_ fuel (fun s => negb (num_equal (ee_new_r s) 0)) (eea_step fuel (mkity w true false) n) (mkeea 0 n 1 (- a)) = Ok s ->
  (n mod a = 0 -> ee_t s = 1 /\ ee_r s = - a) /\
  (n mod a <> 0 -> 0 <= ee_t s < n /\ ee_r s = neg_test a n /\ 0 < ee_r s /\ (n | ee_t s * - a - ee_r s)).
Proof.
  intros Hn Ha E. destruct fuel as [|f]; [discriminate E|]. set (F := S f) in E at 2. cbn [while_] in E.
  unfold num_equal at 1 in E. cbn [ee_new_r] in E. destruct (Z.eqb_spec (- a) 0); [lia|]. cbn [negb] in E.
  destruct (eea_step F _ n _) as [s1|] eqn:E1; cbn [bind] in E; [|discriminate E].
  apply neg_step in E1; [|reflexivity|lia]. cbn [ee_t ee_r ee_new_t ee_new_r] in E1. rewrite quot_neg_r in E1 by lia.
  destruct E1 as (_ & k & j & -> & K0 & _ & J0).
  pose proof (Z.div_mod n a ltac:(lia)) as DM. pose proof (Z.mod_pos_bound n a Ha) as MB.
  assert (Q0 : 0 <= n / a) by (apply Z.div_pos; lia).
  rewrite (K0 ltac:(nia)) in E. rewrite (J0 ltac:(lia)) in E. clear k j K0 J0.
  replace (0 + 0 * n - - (n / a) * 1) with (n / a) in E by lia.
  replace (n + 0 * n - - (n / a) * - a) with (n mod a) in E by nia.
  destruct f as [|f]; [discriminate E|]. cbn [while_] in E. unfold num_equal at 1 in E. cbn [ee_new_r] in E.
  destruct (Z.eqb_spec (n mod a) 0) as [D|D]; cbn [negb] in E.
  { injection E as <-. split; [auto|contradiction]. }
  split; [contradiction|]. intros _.
  destruct (eea_step F _ n _) as [s2|] eqn:E2; cbn [bind] in E; [|discriminate E].
  set (r := n mod a) in *. set (q0 := n / a) in *.
  apply neg_step in E2; [|reflexivity|lia]. cbn [ee_t ee_r ee_new_t ee_new_r] in E2. rewrite quot_neg_l in E2 by lia.
  destruct E2 as (_ & k & j & -> & K0 & K1 & J0).
  pose proof (Z.div_mod a r D) as DM2. pose proof (Z.mod_pos_bound a r ltac:(lia)) as MB2.
  assert (Q1 : 0 <= a / r) by (apply Z.div_pos; lia).
  rewrite (J0 ltac:(nia)) in E. clear j J0.
  set (q1 := a / r) in *. set (s0 := a mod r) in *.
  replace (1 + 0 * n - - q1 * q0) with (1 + q1 * q0) in E by lia.
  assert (Hq0 : q0 < n) by (destruct (Z.eq_dec a 1) as [->|]; [unfold r in D; rewrite Z.mod_1_r in D; lia|nia]).
  assert (Rn : r <= n) by nia.
  assert (C1 : (n | q0 * - a - r)) by (exists (-1); nia).
  unfold neg_test. fold r. cbv zeta. fold s0. destruct (Z.eqb_spec s0 0) as [Z0|N0].
  - rewrite (K0 ltac:(nia)) in E. replace (- a + 0 * n - - q1 * r) with 0 in E by nia.
    destruct f as [|f]; [discriminate E|]. cbn [while_] in E. unfold num_equal at 1 in E. cbn [ee_new_r] in E.
    cbn [Z.eqb negb] in E.
    injection E as <-. cbn [ee_t ee_r]. conjs; try lia; try reflexivity; assumption.
  - assert (K : k = 1) by nia. subst k. clear K0 K1.
    apply (eea_loop_ok F (mkity w true false) (Z.gcd r (n - s0)) (- a) n eq_refl Hn) in E.
    + destruct E as ((T & _ & R & _ & D1 & _ & G) & Z0). rewrite Z0, Z.gcd_0_r, Z.abs_eq in G by lia.
      conjs; trivial; lia.
    + unfold eea_ok. cbn [ee_t ee_r ee_new_t ee_new_r]. replace (- a + 1 * n - - q1 * r) with (n - s0) by nia.
      assert (R2 : 2 <= r) by lia. conjs; try lia; try nia; try assumption; try reflexivity.
      exists (- q1 - 1). nia.
Qed.


(** The same run for moduli whose square fits, public and secret: it always ends. *)
Definition eea_pos (g x n : Z) (s : eea) : Prop :=
  0 <= ee_t s < n /\ 0 <= ee_new_t s < n /\ 0 < ee_r s <= n /\ 0 <= ee_new_r s <= n /\
  (n | ee_t s * x - ee_r s) /\ (n | ee_new_t s * x - ee_new_r s) /\ Z.gcd (ee_r s) (ee_new_r s) = g.
Lemma eea_pos_step fuel t g x n s : 0 < bits t -> 1 < n -> n * n <= imax t + 1 -> (Z.to_nat (n * n) < fuel)%nat ->
  eea_pos g x n s -> ee_new_r s <> 0 ->
  exists s', eea_step fuel t n s = Ok s' /\ eea_pos g x n s' /\ ee_new_r s' < ee_new_r s.
Proof.
  intros H Hn Hnn Hf I Hnz.
  destruct s as [t0 r nt nr]. unfold eea_pos in I. cbn [ee_t ee_r ee_new_t ee_new_r] in *.
  destruct I as (It & Int & Ir & Inr & D1 & D2 & G).
  pose proof (imin_le_0 t H) as Hmin. assert (Hnb : n <= imax t) by nia.
  unfold eea_step. cbn [ee_t ee_r ee_new_t ee_new_r]. unfold num_div, op_div.
  destruct (Z.eqb_spec nr 0); [contradiction|].
  rewrite Z.quot_div_nonneg by lia. set (q := r / nr).
  pose proof (Z.div_mod r nr Hnz) as DM. pose proof (Z.mod_pos_bound r nr) as MB. fold q in DM.
  assert (Hq0 : 0 <= q) by (apply Z.div_pos; lia).
  assert (Hqr : q <= r) by (apply Z.div_le_upper_bound; nia).
  rewrite chk_Ok by (unfold in_ty; lia). cbn [bind].
  destruct (op_nonneg_fits t q nr) as (_ & _ & M1); trivial. rewrite M1 by nia. cbn [bind].
  unfold num_less_than.
  rewrite while_add_Ok; trivial; [| lia | unfold in_ty; lia | |].
  2:{ replace (Z.to_nat (q * nr - r)) with 0%nat by nia. lia. }
  2:{ intros _. unfold steps. destruct (Z.ltb_spec r (q * nr)); [nia|]. lia. }
  assert (E0 : steps r (q * nr) n = 0) by (unfold steps; destruct (Z.ltb_spec r (q * nr)); nia).
  rewrite E0. replace (r + 0 * n) with r by lia.
  destruct (Z.leb_spec r (imax t)); [|lia]. cbn [bind].
  destruct (op_nonneg_fits t r (q * nr)) as (_ & S1 & _); trivial. rewrite S1 by nia. cbn [bind].
  assert (Hp : 0 <= q * nt <= n * n - n) by nia.
  destruct (op_nonneg_fits t q nt) as (_ & _ & M2); trivial. rewrite M2 by nia. cbn [bind].
  pose proof (steps_bounds t0 (q * nt) n ltac:(lia)) as [SB1 SB2].
  pose proof (steps_nonneg t0 (q * nt) n ltac:(lia)) as SN.
  assert (SL : t0 + steps t0 (q * nt) n * n < n * n).
  { destruct (Z_lt_le_dec t0 (q * nt)); [specialize (SB2 ltac:(lia)); lia|].
    unfold steps. destruct (Z.ltb_spec t0 (q * nt)); nia. }
  rewrite while_add_Ok; trivial; [| lia | unfold in_ty; lia | lia | lia].
  destruct (Z.leb_spec (t0 + steps t0 (q * nt) n * n) (imax t)); [|lia]. cbn [bind].
  set (k := steps t0 (q * nt) n) in *.
  destruct (op_nonneg_fits t (t0 + k * n) (q * nt)) as (_ & S2 & _); trivial.
  rewrite S2 by lia. cbn [bind].
  eexists; split; [reflexivity|]. unfold eea_pos. cbn [ee_t ee_r ee_new_t ee_new_r].
  assert (E1 : r - q * nr = r mod nr) by lia.
  assert (Hk : t0 + k * n - q * nt < n).
  { destruct (Z_lt_le_dec t0 (q * nt)); [specialize (SB2 ltac:(lia)); lia|].
    unfold k, steps. destruct (Z.ltb_spec t0 (q * nt)); lia. }
  repeat split; try lia.
  - assumption.
  - destruct D1 as [c1 D1], D2 as [c2 D2]. exists (c1 - q * c2 + k * x). nia.
  - rewrite E1, Z.gcd_comm, Z.gcd_mod by assumption. rewrite <- G. apply Z.gcd_comm.
Qed.
Lemma eea_pos_loop fuel2 t g x n : 0 < bits t -> 1 < n -> n * n <= imax t + 1 -> (Z.to_nat (n * n) < fuel2)%nat ->
  forall fuel s, eea_pos g x n s -> (Z.to_nat (ee_new_r s) < fuel)%nat ->
  exists s', while_ fuel (fun s => negb (num_equal (ee_new_r s) 0)) (eea_step fuel2 t n) s = Ok s' /\
     eea_pos g x n s' /\ ee_new_r s' = 0.
Proof.
  intros H Hn Hnn Hf. induction fuel as [|f IH]; intros s I L; [lia|].
  cbn [while_]. unfold num_equal. destruct (Z.eqb_spec (ee_new_r s) 0) as [E|N]; cbn [negb].
  - exists s. auto.
  - destruct (eea_pos_step fuel2 t g x n s) as (s' & E & I' & Hlt); trivial.
    rewrite E. cbn [bind]. apply IH; trivial.
    unfold eea_pos in I, I'. lia.
Qed.
Lemma ops_fit t (a b : Z) : 0 < bits t ->
  (in_ty t (a + b) -> op_add t a b = Ok (a + b)) /\
  (in_ty t (a - b) -> op_sub t a b = Ok (a - b)) /\
  (in_ty t (a * b) -> op_mul t a b = Ok (a * b)).
Proof.
  intros H. unfold op_add, op_sub, op_mul. repeat split; intros R; destruct (sec t);
    try (now rewrite iwrap_id by assumption); now apply chk_Ok.
Qed.
Lemma neg_total w c fuel a n : 1 < w -> 1 < n -> n * n <= 2 ^ (w - 1) -> 0 < a <= 2 ^ (w - 1) ->
  (Z.to_nat (n * n) + 3 < fuel)%nat ->
  exists s, while_ fuel (fun s => negb (num_equal (ee_new_r s) 0)) (eea_step fuel (mkity w true c) n) (mkeea 0 n 1 (- a)) = Ok s /\
  (n mod a = 0 -> ee_t s = 1 /\ ee_r s = - a) /\
  (n mod a <> 0 -> 0 <= ee_t s < n /\ ee_r s = neg_test a n /\ 0 < ee_r s /\ (n | ee_t s * - a - ee_r s)).
Proof.
  intros Hw Hn Hnn Ha Hf. set (t := mkity w true c). set (P := 2 ^ (w - 1)) in *.
  assert (IT : forall z, - P <= z <= P - 1 -> in_ty t z) by (intros z Hz; unfold in_ty, imin, imax, t; cbn [sgn bits]; fold P; lia).
  assert (Wt : 0 < bits t) by (cbn [bits t]; lia).
  assert (OA : forall x y, - P <= x + y <= P - 1 -> op_add t x y = Ok (x + y)) by (intros; apply ops_fit; auto).
  assert (OS : forall x y, - P <= x - y <= P - 1 -> op_sub t x y = Ok (x - y)) by (intros; apply ops_fit; auto).
  assert (OM : forall x y, - P <= x * y <= P - 1 -> op_mul t x y = Ok (x * y)) by (intros; apply ops_fit; auto).
  assert (W0 : forall F x b, (0 < F)%nat -> b <= x -> while_ F (fun x => num_less_than x b) (fun x => op_add t x n) x = Ok x).
  { intros F x b HF Hx. destruct F; [lia|]. cbn [while_]. unfold num_less_than at 1. destruct (Z.ltb_spec x b); [lia|reflexivity]. }
  assert (W1 : forall F x b, (1 < F)%nat -> x < b -> b <= x + n -> - P <= x + n <= P - 1 ->
     while_ F (fun x => num_less_than x b) (fun x => op_add t x n) x = Ok (x + n)).
  { intros F x b HF Hx Hb R. destruct F; [lia|]. cbn [while_]. unfold num_less_than at 1. destruct (Z.ltb_spec x b); [|lia].
    rewrite OA by lia. cbn [bind]. apply W0; lia. }
  set (F := fuel) at 2. assert (HF : (Z.to_nat (n * n) + 3 < F)%nat) by exact Hf.
  destruct fuel as [|f]; [lia|]. cbn [while_].
  unfold num_equal at 1. cbn [ee_new_r]. destruct (Z.eqb_spec (- a) 0); [lia|]. cbn [negb].
  pose proof (Z.div_mod n a ltac:(lia)) as DM. pose proof (Z.mod_pos_bound n a ltac:(lia)) as MB.
  assert (Q0 : 0 <= n / a) by (apply Z.div_pos; lia).
  assert (Q0' : n / a <= n) by (apply Z.div_le_upper_bound; nia).
  assert (Nn : n + 1 <= P - 1 /\ n <= P) by nia.
  assert (E1 : eea_step F t n (mkeea 0 n 1 (- a)) = Ok (mkeea 1 (- a) (n / a) (n mod a))).
  { unfold eea_step. cbn [ee_t ee_r ee_new_t ee_new_r]. unfold num_div, op_div. destruct (Z.eqb_spec (- a) 0); [lia|].
    rewrite quot_neg_r, chk_Ok by (try apply IT; lia). cbn [bind].
    rewrite OM by nia. cbn [bind]. rewrite W0 by nia. cbn [bind]. rewrite OS by nia. cbn [bind].
    rewrite OM by lia. cbn [bind]. rewrite W0 by lia. cbn [bind]. rewrite OS by lia. cbn [bind].
    replace (n - - (n / a) * - a) with (n mod a) by nia. replace (0 - - (n / a) * 1) with (n / a) by lia. reflexivity. }
  rewrite E1. cbn [bind]. clear E1.
  destruct f as [|f]; [lia|]. cbn [while_]. unfold num_equal at 1. cbn [ee_new_r].
  destruct (Z.eqb_spec (n mod a) 0) as [D|D]; cbn [negb].
  { eexists. split; [reflexivity|]. split; [auto|contradiction]. }
  set (r := n mod a) in *. set (q0 := n / a) in *.
  pose proof (Z.div_mod a r D) as DM2. pose proof (Z.mod_pos_bound a r ltac:(lia)) as MB2.
  assert (Q1 : 0 <= a / r) by (apply Z.div_pos; lia).
  set (q1 := a / r) in *. set (s0 := a mod r) in *.
  assert (Rn : r <= n) by nia.
  assert (Hq0 : q0 < n) by (destruct (Z.eq_dec a 1) as [->|]; [unfold r in D; rewrite Z.mod_1_r in D; lia|nia]).
  assert (C1 : (n | q0 * - a - r)) by (exists (-1); nia).
  assert (Q1' : q1 <= a) by (apply Z.div_le_upper_bound; nia).
  assert (Q01 : q1 * q0 <= n) by nia.
  assert (E2 : eea_step F t n (mkeea 1 (- a) q0 r) = Ok (mkeea q0 r (1 + q1 * q0) (if s0 =? 0 then 0 else n - s0))).
  { unfold eea_step. cbn [ee_t ee_r ee_new_t ee_new_r]. unfold num_div, op_div. destruct (Z.eqb_spec r 0); [lia|].
    rewrite quot_neg_l by lia. fold q1. rewrite chk_Ok by (apply IT; lia). cbn [bind].
    rewrite OM by nia. cbn [bind].
    assert (Ew : while_ F (fun x => num_less_than x (- q1 * r)) (fun x => op_add t x n) (- a) = Ok (if s0 =? 0 then - a else - a + n)).
    { destruct (Z.eqb_spec s0 0); [apply W0; nia|apply W1; nia]. }
    rewrite Ew. cbn [bind]. rewrite OS by (destruct (Z.eqb_spec s0 0); nia). cbn [bind].
    rewrite OM by nia. cbn [bind]. rewrite W0 by nia. cbn [bind]. rewrite OS by nia. cbn [bind].
    f_equal. f_equal; [lia|]. destruct (Z.eqb_spec s0 0); nia. }
  rewrite E2. cbn [bind]. clear E2. unfold neg_test. fold r. cbv zeta. fold s0.
  destruct (Z.eqb_spec s0 0) as [Z0|N0].
  - destruct f as [|f]; [lia|]. cbn [while_]. unfold num_equal at 1. cbn [ee_new_r Z.eqb negb].
    eexists. split; [reflexivity|]. split; [contradiction|]. intros _. cbn [ee_t ee_r]. conjs; try lia; try reflexivity; assumption.
  - destruct (eea_pos_loop F t (Z.gcd r (n - s0)) (- a) n) with (fuel := f) (s := mkeea q0 r (1 + q1 * q0) (n - s0)) as (s' & E & I & Z0);
      trivial; try lia.
    + unfold imax, t. cbn [sgn bits]. fold P. lia.
    + unfold eea_pos. cbn [ee_t ee_r ee_new_t ee_new_r].
      assert (R2 : 2 <= r) by lia. conjs; try lia; try nia; try assumption; try reflexivity.
      exists (- q1 - 1). nia.
    + cbn [ee_new_r]. nia.
    + exists s'. split; [exact E|]. split; [contradiction|]. intros _.
      destruct I as (T & _ & R & _ & D1 & _ & G). rewrite Z0, Z.gcd_0_r, Z.abs_eq in G by lia.
      conjs; trivial; lia.
Qed.
Lemma neg_inverse a n y : 1 < n -> (n | y * - a - 1) -> (- a * y) mod n = 1 /\ Z.gcd a n = 1.
Proof.
  intros Hn [c D]. split.
  - replace (- a * y) with (1 + c * n) by lia. rewrite Z_mod_plus_full. apply Z.mod_1_l. lia.
  - apply Zgcd_1_rel_prime. apply bezout_rel_prime. apply (Bezout_intro a n 1 (- y) (- c)). lia.
Qed.

(** Signed types, public and secret, x = -a negative, n*n within the type.  If a divides n the
    answer is 1, whatever n.  Otherwise the answer is the inverse or the "not invertible" panic, but
    the panic does not depend on gcd(a, n): it is raised exactly when [neg_test] is not 1. *)
Theorem C97_negative_exact : forall w c fuel a n sg, 1 < w -> 1 < n -> n * n <= 2 ^ (w - 1) -> 0 < a <= 2 ^ (w - 1) ->
  (Z.to_nat (n * n) + 3 < fuel)%nat ->
  let run := extended_euclid_invert fuel (mkity w true c) (- a) n sg in
  ((a | n) -> run = Ok 1) /\
  (~ (a | n) -> neg_test a n = 1 -> exists y, run = Ok y /\ 0 <= y < n /\ (- a * y) mod n = 1) /\
  (~ (a | n) -> neg_test a n <> 1 -> run = Panic PExplicit).
Proof.
  intros w c fuel a n sg Hw Hn Hnn Ha Hf run.
  destruct (neg_total w c fuel a n Hw Hn Hnn Ha Hf) as (s & E & I0 & I1).
  assert (Dv : (a | n) <-> n mod a = 0) by (symmetry; apply Z.mod_divide; lia).
  unfold run, extended_euclid_invert. rewrite E. cbn [bind]. unfold num_greater_than, num_equal, num_less_than.
  destruct (Z.eqb_spec (- a) 0); [lia|]. cbn [negb]. rewrite andb_true_r. rewrite Dv. conjs.
  - intros D. destruct (I0 D) as (T & R). rewrite T, R. destruct (Z.ltb_spec 1 (- a)); [lia|]. reflexivity.
  - intros D N. destruct (I1 D) as (T & R & Rp & Dd). rewrite N in R. rewrite R in *. cbn [Z.ltb Z.compare Pos.compare Pos.compare_cont].
    destruct (Z.ltb_spec (ee_t s) 0); [lia|]. exists (ee_t s). split; [reflexivity|]. split; [lia|]. now apply neg_inverse.
  - intros D N. destruct (I1 D) as (T & R & Rp & Dd). destruct (Z.ltb_spec 1 (ee_r s)); [reflexivity|lia].
Qed.
Print Assumptions C97_negative_exact.
Example C97_negative_ex : num_inv 60 i32 (-5) 6 = Ok 1 /\ num_inv 60 i32 (-3) 7 = Ok 2 /\ neg_test 3 7 = 1 /\ (-3 * 2) mod 7 = 1 /\
  num_inv 60 I32 (-3) 5 = Panic PExplicit /\ neg_test 3 5 = 2 /\ (-3 * 3) mod 5 = 1 /\ num_inv 60 i32 (-2) 6 = Ok 1.
Proof. vm_compute. repeat split. Qed.
(** Public types, no bound on the modulus: unless -x divides n, a returned value is the inverse. *)
Theorem C97_negative_public : forall w fuel a n sg y, 1 < n -> 0 < a ->
  extended_euclid_invert fuel (mkity w true false) (- a) n sg = Ok y ->
  ((a | n) -> y = 1) /\ (~ (a | n) -> Z.gcd a n = 1 /\ 0 <= y < n /\ (- a * y) mod n = 1).
Proof.
  intros w fuel a n sg y Hn Ha E. unfold extended_euclid_invert in E.
  destruct (while_ _ _ _ _) as [s|] eqn:W; cbn [bind] in E; [|discriminate E].
  apply neg_run in W; trivial. destruct W as (I0 & I1).
  assert (Dv : (a | n) <-> n mod a = 0) by (symmetry; apply Z.mod_divide; lia). rewrite Dv.
  unfold num_greater_than, num_equal, num_less_than in E. destruct (Z.eqb_spec (- a) 0); [lia|]. cbn [negb] in E. rewrite andb_true_r in E.
  destruct (Z.ltb_spec 1 (ee_r s)) as [|R1]; [discriminate E|]. split.
  - intros D. destruct (I0 D) as (T & R). rewrite T in E. injection E as <-. reflexivity.
  - intros D. destruct (I1 D) as (T & R & Rp & Dd). destruct (Z.ltb_spec (ee_t s) 0); [lia|]. injection E as <-.
    replace (ee_r s) with 1 in Dd by lia. destruct (neg_inverse a n (ee_t s) Hn Dd). auto.
Qed.
Print Assumptions C97_negative_public.
(** So the documented behaviour (an inverse, or a panic if there is none) fails in both directions:
    -1 has the inverse -1, not 1, for every n > 2, and -3 is invertible modulo 5 but refused. *)
Theorem C97_negative_refuted :
  (forall w c fuel n, 1 < w -> 2 < n -> n * n <= 2 ^ (w - 1) -> (Z.to_nat (n * n) + 3 < fuel)%nat ->
     num_inv fuel (mkity w true c) (-1) n = Ok 1 /\ (-1 * 1) mod n <> 1) /\
  (exists x n y, x < 0 /\ 1 < n /\ (x * y) mod n = 1 /\ num_inv 60 i32 x n = Panic PExplicit).
Proof.
  split.
  - intros w c fuel n Hw Hn Hnn Hf. split.
    + apply (C97_negative_exact w c fuel 1 n false); trivial; try lia. apply Z.divide_1_l.
    + change (-1 * 1) with (-1). rewrite <- (Z_mod_plus_full (-1) 1 n), Z.mod_small; lia.
  - exists (-3), 5, 3. vm_compute. auto.
Qed.
Print Assumptions C97_negative_refuted.
Example C97_negative_refuted_ex : num_inv 100 i32 (-1) 7 = Ok 1 /\ (-1 * 6) mod 7 = 1.
Proof. vm_compute. auto. Qed.

(** * C11 for moduli that are not positive *)
Lemma down_loop : forall fuel n r, n < 0 -> r < 0 -> forall x, while_ fuel (fun r => r <? 0) (fun r => op_add i128 r n) r <> Ok x.
Proof.
  induction fuel as [|k IH]; intros n r Hn Hr x; cbn [while_]; [discriminate|].
  destruct (Z.ltb_spec r 0); [|lia]. unfold op_add, chk. cbn [sec i128]. destruct (in_tyb i128 (r + n)); cbn [bind]; [|discriminate].
  apply IH; lia.
Qed.
Lemma signed_mod_neg fuel z n : n < 0 -> (1 <= fuel)%nat -> z <> - 2 ^ 127 \/ n <> -1 -> - 2 ^ 127 <= z < 2 ^ 127 ->
  (0 <= z \/ (n | z) -> signed_mod fuel z n = Ok (z mod (- n))) /\ (z < 0 -> ~ (n | z) -> forall x, signed_mod fuel z n <> Ok x).
Proof.
  intros Hn Hf Hm Hz. unfold signed_mod, op_rem. destruct (Z.eqb_spec n 0); [lia|].
  assert (Q : in_tyb i128 (Z.quot z n) = true).
  { apply in_tyb_spec. unfold in_ty, imin, imax. cbn [sgn bits i128]. change (128 - 1) with 127.
    assert (E : n * Z.quot z n + Z.rem z n = z) by (symmetry; apply Z.quot_rem'). pose proof (Z.rem_bound_abs z n ltac:(lia)) as B.
    destruct (Z.le_gt_cases 0 z).
    - pose proof (Z.rem_nonneg z n ltac:(lia) ltac:(lia)). nia.
    - pose proof (Z.rem_nonpos z n ltac:(lia) ltac:(lia)). destruct (Z.eq_dec n (-1)); nia. }
  rewrite Q. cbn [bind]. destruct fuel as [|k]; [lia|]. split.
  - intros H.
    assert (E : Z.rem z n = z mod (- n)).
    { rewrite <- (Z.rem_opp_r z n) by lia. destruct (Z.le_gt_cases 0 z); [apply Z.rem_mod_nonneg; lia|].
      destruct H as [H|[c ->]]; [lia|]. rewrite Z.rem_opp_r, Z.rem_mul by lia. replace (c * n) with (- c * - n) by lia. now rewrite Z.mod_mul by lia. }
    cbn [while_]. rewrite E. pose proof (Z.mod_pos_bound z (- n) ltac:(lia)). destruct (Z.ltb_spec (z mod - n) 0); [lia|reflexivity].
  - intros H D. apply down_loop; [exact Hn|]. pose proof (Z.rem_nonpos z n ltac:(lia) ltac:(lia)).
    assert (Z.rem z n <> 0); [|lia]. intros R. apply D. apply Z.rem_divide; [lia|exact R].
Qed.
(** What the three operations and modulo return on a signed type for a negative modulus n: where the exact result z is not negative,
    or n divides it, the residue of z modulo -n; everywhere else they do not return, whatever time they are given. *)
Theorem C11_signed_negative_modulus : forall w c fuel a b n, 0 < w <= 64 -> sval w a -> sval w b -> sval w n -> n < 0 -> (1 <= fuel)%nat ->
  let t := mkity w true c in
  let good z (r : res Z) := (0 <= z \/ (n | z) -> r = Ok (z mod (- n))) /\ (z < 0 -> ~ (n | z) -> forall x, r <> Ok x) in
  good (a + b) (add_mod fuel t a b n) /\ good (a - b) (sub_mod fuel t a b n) /\ good (a * b) (mul_mod fuel t a b n) /\
  good a (modulo fuel t a n).
Proof.
  intros w c fuel a b n Hw Ha Hb Hn Hneg Hf t good. unfold sval in *.
  assert (W : 2 ^ (w - 1) <= 2 ^ 63) by (apply Z.pow_le_mono_r; lia).
  assert (E63 : 2 ^ 63 = 9223372036854775808) by reflexivity. assert (E127 : 2 ^ 127 = 2 * (2 ^ 63 * 2 ^ 63)) by reflexivity.
  assert (K : forall z, - (2 ^ 63 * 2 ^ 63) <= z <= 2 ^ 63 * 2 ^ 63 ->
    in_tyb i128 z = true /\ good z (let* r := signed_mod fuel z n in Ok (cast t r))).
  { intros z Hz. split; [apply in_tyb_spec; unfold in_ty, imin, imax; cbn [sgn bits i128]; change (128 - 1) with 127; lia|].
    destruct (signed_mod_neg fuel z n Hneg Hf) as [G1 G2]; [left; lia|lia|]. split.
    - intros H. rewrite (G1 H). cbn [bind]. apply (f_equal Ok). apply iwrap_id; [cbn; lia|].
      pose proof (Z.mod_pos_bound z (- n) ltac:(lia)). unfold in_ty, imin, imax. cbn [sgn bits t]. lia.
    - intros H D x. destruct (signed_mod fuel z n) as [y|p] eqn:E; [destruct (G2 H D y eq_refl)|discriminate]. }
  assert (S : forall z, - (2 ^ 63 * 2 ^ 63) <= z <= 2 ^ 63 * 2 ^ 63 ->
    good z (let* d := chk i128 z in let* r := signed_mod fuel d n in Ok (cast t r))).
  { intros z Hz. destruct (K z Hz) as [I G]. unfold chk. rewrite I. exact G. }
  unfold add_mod, sub_mod, mul_mod, modulo, op_add, op_sub, op_mul. cbn [sgn sec t i128].
  split; [apply S; nia|]. split; [apply S; nia|]. split; [apply S; nia|]. apply K. nia.
Qed.
(** With modulus 0 nothing returns, on any type. *)
Theorem C11_zero_modulus : forall w s c fuel a b x, let t := mkity w s c in
  add_mod fuel t a b 0 <> Ok x /\ sub_mod fuel t a b 0 <> Ok x /\ mul_mod fuel t a b 0 <> Ok x /\ modulo fuel t a 0 <> Ok x.
Proof.
  intros w s c fuel a b x t.
  assert (S : forall (r : res Z), (let* d := r in let* y := signed_mod fuel d 0 in Ok (cast t y)) <> Ok x).
  { intros [d|p]; discriminate. }
  assert (U : forall (r : res Z), (let* d := r in op_rem (pub t) d 0) <> Ok x) by (intros [d|p]; discriminate).
  unfold add_mod, sub_mod, mul_mod, modulo. destruct (sgn t).
  - split; [apply S|]. split; [apply S|]. split; [apply S|]. apply (S (Ok a)).
  - split; [apply U|]. split; [|split; [apply U|apply (U (Ok a))]].
    destruct (while_ _ _ _ _) as [y|p]; [apply U|discriminate].
Qed.
Example C11_negative_ex : mul_mod 2 i32 5 7 (-3) = Ok 2 /\ sub_mod 2 i32 3 9 (-3) = Ok 0 /\ sub_mod 50 i8 3 7 (-3) = Panic OutOfFuel /\
  add_mod 3 u8 3 4 0 = Panic PDivZero.
Proof. vm_compute. auto. Qed.
Print Assumptions C11_signed_negative_modulus.
Print Assumptions C11_zero_modulus.
