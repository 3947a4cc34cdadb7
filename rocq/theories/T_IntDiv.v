(** Division of machine integers: C111; Integer::set in the release profile: C94. *)
From Coq Require Import ZArith List Bool Lia.
From Verif Require Import Base P_Base M_Int P_Int S_Int T_Int M_Release P_Release.
Import ListNotations.
Open Scope Z_scope.

(** q and r are the quotient and the remainder of a by b, rounding towards zero *)
Definition truncated (a b q r : Z) : Prop := a = q * b + r /\ Z.abs r < Z.abs b /\ 0 <= a * r.

Lemma truncated_unique a b q r q' r' : truncated a b q r -> truncated a b q' r' -> q = q' /\ r = r'.
Proof.
  intros (E & L & S) (E' & L' & S').
  assert (D : (q - q') * b = r' - r) by lia.
  assert (Z.abs (r' - r) < Z.abs b).
  { destruct (Z.eq_dec a 0) as [->|N].
    - assert (T : forall q r, 0 = q * b + r -> Z.abs r < Z.abs b -> r = 0).
      { intros u v Eu Lv. assert (u = 0) by nia. subst u. lia. }
      rewrite (T q r E L), (T q' r' E' L'). cbn. lia.
    - assert (0 < a /\ 0 <= r /\ 0 <= r' \/ a < 0 /\ r <= 0 /\ r' <= 0) by nia. lia. }
  assert (q = q') by nia. subst q'. split; [reflexivity|lia].
Qed.
Lemma truncated_quot a b : b <> 0 -> truncated a b (Z.quot a b) (Z.rem a b).
Proof.
  intros N. repeat split.
  - rewrite Z.mul_comm. exact (Z.quot_rem' a b).
  - now apply Z.rem_bound_abs.
  - rewrite Z.mul_comm. now apply Z.rem_sign_mul.
Qed.
Lemma quot_range w s a b : 0 < w -> val w s a -> val w s b -> b <> 0 ->
  val w s (Z.quot a b) <-> ~ (s = true /\ a = - 2 ^ (w - 1) /\ b = -1).
Proof.
  intros Hw Ha Hb N. pose proof (truncated_quot a b N) as (E & L & S). destruct s; unfold val, sval, uval in *.
  - assert (0 < 2 ^ (w - 1)) by (apply Z.pow_pos_nonneg; lia). split.
    + intros H1 (_ & -> & ->). change (-1) with (- (1)) in H1. rewrite Z.quot_opp_opp, Z.quot_1_r in H1 by lia. lia.
    + intros H1. assert (A : Z.abs (Z.quot a b) <= Z.abs a) by (rewrite <- Z.quot_abs by exact N; apply Z.quot_le_upper_bound; nia).
      split; [lia|]. destruct (Z.eq_dec (Z.quot a b) (2 ^ (w - 1))) as [Q|]; [|lia]. exfalso. apply H1.
      split; [reflexivity|]. assert (a = - 2 ^ (w - 1)) by lia. split; [assumption|]. nia.
  - split; [intros _ (H & _); discriminate|]. intros _.
    split; [apply Z.quot_pos; lia|]. apply Z.le_lt_trans with a; [|lia]. apply Z.quot_le_upper_bound; nia.
Qed.
(** Division by anything but zero is division rounding towards zero; only MIN / -1, which overflows, panics, and wraps in wrap_div.
    Secret integers are divided in the same way by div, which declassifies them; wrap_div is not implemented for them. *)
Theorem C111_division : forall w s c a b, 0 < w -> val w s a -> val w s b ->
  let t := mkity w s false in
  panics (wrap_div (mkity w s true) a b) /\
  if b =? 0 then panics (num_div (mkity w s c) a b) /\ panics (op_rem t a b) /\ panics (wrap_div t a b)
  else if s && (a =? - 2 ^ (w - 1)) && (b =? -1) then
    panics (num_div (mkity w s c) a b) /\ panics (op_rem t a b) /\ wrap_div t a b = Ok a
  else exists q r, truncated a b q r /\ val w s q /\
    num_div (mkity w s c) a b = Ok q /\ op_rem t a b = Ok r /\ wrap_div t a b = Ok q.
Proof.
  intros w s c a b Hw Ha Hb t. split; [eexists; reflexivity|].
  change (num_div (mkity w s c) a b) with (num_div t a b). unfold num_div, op_div, op_rem, wrap_div. cbn [sec t]. destruct (Z.eqb_spec b 0) as [|N].
  { repeat split; eexists; reflexivity. }
  pose proof (quot_range w s a b Hw Ha Hb N) as R. rewrite (val_in_ty w s false) in R. fold t in R.
  assert (B : s && (a =? - 2 ^ (w - 1)) && (b =? -1) = true <-> s = true /\ a = - 2 ^ (w - 1) /\ b = -1).
  { rewrite !andb_true_iff, !Z.eqb_eq. tauto. }
  destruct (s && (a =? - 2 ^ (w - 1)) && (b =? -1)).
  - pose proof (proj1 B eq_refl) as X. assert (NI : ~ in_ty t (Z.quot a b)) by tauto.
    rewrite chk_panic by exact NI.
    assert (F : in_tyb t (Z.quot a b) = false) by (destruct (in_tyb t (Z.quot a b)) eqn:Q; [apply in_tyb_spec in Q; contradiction|reflexivity]).
    rewrite F. split; [eexists; reflexivity|]. split; [eexists; reflexivity|]. f_equal.
    destruct X as (-> & Ea & Eb). rewrite Eb. change (-1) with (- (1)). rewrite Z.quot_opp_r, Z.quot_1_r by lia.
    unfold iwrap. cbn [sgn bits t]. rewrite Ea.
    replace (2 ^ w) with (2 * 2 ^ (w - 1)) by (rewrite <- Z.pow_succ_r by lia; f_equal; lia).
    replace (- - 2 ^ (w - 1) + 2 ^ (w - 1)) with (0 + 1 * (2 * 2 ^ (w - 1))) by lia.
    assert (0 < 2 ^ (w - 1)) by (apply Z.pow_pos_nonneg; lia). rewrite Z.mod_add, Z.mod_0_l by lia. lia.
  - assert (I : in_ty t (Z.quot a b)) by (apply R; intros X; apply B in X; discriminate).
    exists (Z.quot a b), (Z.rem a b). split; [now apply truncated_quot|]. split; [now apply (val_in_ty w s false)|].
    rewrite chk_Ok by exact I. split; [reflexivity|]. rewrite (proj2 (in_tyb_spec t _) I). split; [reflexivity|].
    now rewrite iwrap_id.
Qed.
Print Assumptions C111_division.
Example C111_ex : num_div i8 (-7) 2 = Ok (-3) /\ op_rem i8 (-7) 2 = Ok (-1) /\ wrap_div i8 (-7) (-2) = Ok 3 /\
  panics (num_div i8 (-128) (-1)) /\ wrap_div i8 (-128) (-1) = Ok (-128) /\ num_div U8 200 7 = Ok 28 /\ truncated (-7) 2 (-3) (-1).
Proof. repeat split; try (vm_compute; reflexivity); try (vm_compute; eexists; reflexivity); vm_compute; discriminate. Qed.

(** Integer::set of the release profile gives what it gives in the debug profile, where that returns. *)
Theorem C94_set : forall t a pos y yi v, 0 <= pos -> 0 <= yi -> set t a pos y yi = Ok v -> rset t a pos y yi = v.
Proof.
  intros t a pos y yi v Hp Hy E. unfold set in E. destruct (get_bit t y yi) as [b|] eqn:G; [|discriminate E]. cbn [bind] in E.
  pose proof (ref_get_bit t y yi Hy b G) as Gr. pose proof (ref_set_bit t a b pos Hp v E) as Sr.
  apply Ok_inj in Gr, Sr. unfold rset. now rewrite Gr.
Qed.
Print Assumptions C94_set.
Example C94_set_ex : set U8 5 3 2 1 = Ok 13 /\ panics (set U8 5 9 2 1) /\ rset U8 5 3 2 1 = 13.
Proof. split; [vm_compute; reflexivity|]. split; [vm_compute; eexists; reflexivity|vm_compute; reflexivity]. Qed.
