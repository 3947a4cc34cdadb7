(** gf128.rs: the shift-and-add product is the GCM field product. *)
From Coq Require Import ZArith List Bool Arith Lia Btauto.
From Verif Require Import Base P_Base M_Int P_Int M_AES P_Word S_GF2 P_GF2.
Import ListNotations.
Open Scope Z_scope.

Lemma bits_val_range f n : 0 <= bits_val f n < 2 ^ Z.of_nat n.
Proof.
  induction n as [|n IH]; [cbn; lia|]. cbn [bits_val].
  replace (Z.of_nat (S n)) with (Z.succ (Z.of_nat n)) by lia. rewrite Z.pow_succ_r by lia.
  destruct (f n); cbn [Z.b2z]; lia.
Qed.
Lemma testbit_small x n i : 0 <= x < 2 ^ n -> n <= i -> Z.testbit x i = false.
Proof.
  intros Hx Hi. destruct (Z.eq_dec x 0) as [->|]; [apply Z.bits_0|].
  apply Z.bits_above_log2; [lia|]. apply Z.lt_le_trans with n; [apply Z.log2_lt_pow2; lia|lia].
Qed.
Lemma bits_val_spec f n i : (i < n)%nat -> Z.testbit (bits_val f n) (Z.of_nat i) = f i.
Proof.
  induction n as [|n IH]; [lia|]. intros Hi. cbn [bits_val].
  pose proof (bits_val_range f n) as R.
  replace (bits_val f n + Z.b2z (f n) * 2 ^ Z.of_nat n) with (Z.lor (Z.shiftl (Z.b2z (f n)) (Z.of_nat n)) (bits_val f n))
    by (rewrite lor_disjoint; [lia|lia|destruct (f n); cbn; lia|lia]).
  rewrite Z.lor_spec, Z.shiftl_spec by lia.
  destruct (Nat.eq_dec i n) as [->|Ne].
  - rewrite Z.sub_diag, Z.b2z_bit0, (testbit_small (bits_val f n) (Z.of_nat n)) by lia. apply orb_false_r.
  - rewrite (Z.testbit_neg_r _ (Z.of_nat i - Z.of_nat n)) by lia. apply IH. lia.
Qed.
Lemma brev_range n x : 0 <= brev n x < 2 ^ Z.of_nat n.
Proof. apply bits_val_range. Qed.
Lemma brev_spec n x i : 0 <= i < Z.of_nat n -> Z.testbit (brev n x) i = Z.testbit x (Z.of_nat n - 1 - i).
Proof.
  intros Hi. unfold brev. rewrite <- (Z2Nat.id i) at 1 by lia. rewrite bits_val_spec by lia.
  f_equal. lia.
Qed.
Lemma brev_spec_high n x i : Z.of_nat n <= i -> Z.testbit (brev n x) i = false.
Proof. intros Hi. apply (testbit_small _ (Z.of_nat n)); [apply brev_range|lia]. Qed.
Lemma brev_lxor n x y : brev n (Z.lxor x y) = Z.lxor (brev n x) (brev n y).
Proof.
  apply Z.bits_inj'. intros i Hi. rewrite Z.lxor_spec.
  destruct (Z.lt_ge_cases i (Z.of_nat n)) as [H|H].
  - rewrite !brev_spec, Z.lxor_spec by lia. reflexivity.
  - rewrite !brev_spec_high by lia. reflexivity.
Qed.
Lemma brev_invol n x : 0 <= x < 2 ^ Z.of_nat n -> brev n (brev n x) = x.
Proof.
  intros Hx. apply Z.bits_inj'. intros i Hi.
  destruct (Z.lt_ge_cases i (Z.of_nat n)) as [H|H].
  - rewrite !brev_spec by lia. f_equal. lia.
  - rewrite brev_spec_high, (testbit_small x (Z.of_nat n)) by lia. reflexivity.
Qed.
Lemma brev_0 n : brev n 0 = 0.
Proof.
  apply Z.bits_inj'. intros i Hi. rewrite Z.bits_0.
  destruct (Z.lt_ge_cases i (Z.of_nat n)) as [H|H].
  - rewrite brev_spec by lia. apply Z.bits_0.
  - apply brev_spec_high. lia.
Qed.
Lemma brev_shr n x : (0 < n)%nat -> 0 <= x < 2 ^ Z.of_nat n ->
  brev n (Z.shiftr x 1) = Z.lxor (2 * brev n x) (if Z.testbit x 0 then 2 ^ Z.of_nat n else 0).
Proof.
  intros Hn Hx. apply Z.bits_inj'. intros i Hi. rewrite Z.lxor_spec.
  replace (2 * brev n x) with (Z.shiftl (brev n x) 1) by (rewrite Z.shiftl_mul_pow2 by lia; lia).
  rewrite Z.shiftl_spec by lia.
  assert (T : Z.testbit (if Z.testbit x 0 then 2 ^ Z.of_nat n else 0) i =
     Z.testbit x 0 && (i =? Z.of_nat n)).
  { destruct (Z.testbit x 0); cbn [andb]; [|apply Z.bits_0].
    destruct (Z.eqb_spec i (Z.of_nat n)) as [->|]; [apply Z.pow2_bits_true|apply Z.pow2_bits_false]; lia. }
  rewrite T. destruct (Z.lt_ge_cases i (Z.of_nat n)) as [H|H].
  - rewrite brev_spec, Z.shiftr_spec by lia.
    rewrite (proj2 (Z.eqb_neq _ _)) by lia. rewrite andb_false_r, xorb_false_r.
    destruct (Z.eq_dec i 0) as [->|].
    + rewrite (Z.testbit_neg_r (brev n x)) by lia. apply (testbit_small x (Z.of_nat n)); lia.
    + rewrite brev_spec by lia. f_equal. lia.
  - rewrite brev_spec_high by lia. destruct (Z.eqb_spec i (Z.of_nat n)) as [->|].
    + rewrite brev_spec by lia. replace (Z.of_nat n - 1 - (Z.of_nat n - 1)) with 0 by lia.
      destruct (Z.testbit x 0); reflexivity.
    + rewrite brev_spec_high, andb_false_r by lia. reflexivity.
Qed.

Lemma P128_range : 2 ^ 128 <= P128 < 2 ^ (128 + 1).
Proof. unfold P128. split; reflexivity || (intro; discriminate). Qed.
Lemma brev_IRRED : brev 128 IRRED = 2 ^ 7 + 2 ^ 2 + 2 + 1.
Proof. reflexivity. Qed.

Lemma land_mask_nz y k : 0 <= k -> negb (Z.land y (2 ^ k) =? 0) = Z.testbit y k.
Proof.
  intros Hk. destruct (Z.testbit y k) eqn:E.
  - destruct (Z.eqb_spec (Z.land y (2 ^ k)) 0) as [H|]; [exfalso|reflexivity].
    assert (T : Z.testbit (Z.land y (2 ^ k)) k = true) by (rewrite Z.land_spec, E, Z.pow2_bits_true by lia; reflexivity).
    rewrite H, Z.bits_0 in T. discriminate.
  - replace (Z.land y (2 ^ k)) with 0; [reflexivity|]. symmetry. apply Z.bits_inj'. intros i Hi.
    rewrite Z.land_spec, Z.bits_0. destruct (Z.eq_dec i k) as [->|]; [rewrite E; reflexivity|].
    rewrite Z.pow2_bits_false by lia. apply andb_false_r.
Qed.

Lemma mod_pow2_step z i : 0 <= i -> 0 <= z ->
  z mod 2 ^ (i + 1) = Z.lxor (z mod 2 ^ i) (if Z.testbit z i then 2 ^ i else 0).
Proof.
  intros Hi Hz. apply Z.bits_inj'. intros j Hj. rewrite Z.lxor_spec.
  assert (T : Z.testbit (if Z.testbit z i then 2 ^ i else 0) j = Z.testbit z i && (j =? i)).
  { destruct (Z.testbit z i); cbn [andb]; [|apply Z.bits_0].
    destruct (Z.eqb_spec j i) as [->|]; [apply Z.pow2_bits_true|apply Z.pow2_bits_false]; lia. }
  rewrite T. destruct (Z.lt_trichotomy j i) as [H|[->|H]].
  - rewrite !Z.mod_pow2_bits_low by lia. rewrite (proj2 (Z.eqb_neq _ _)), andb_false_r, xorb_false_r by lia. reflexivity.
  - rewrite Z.mod_pow2_bits_low, Z.mod_pow2_bits_high, Z.eqb_refl, andb_true_r by lia. destruct (Z.testbit z i); reflexivity.
  - rewrite !Z.mod_pow2_bits_high by lia. rewrite (proj2 (Z.eqb_neq _ _)), andb_false_r by lia. reflexivity.
Qed.

Definition u128r (x : Z) : Prop := 0 <= x < 2 ^ 128.

Lemma gcm_mul_range x y : u128r (gcm_mul x y).
Proof. apply (brev_range 128). Qed.

Lemma fmul_Ok x y : u128r x -> u128r y -> fmul x y = Ok (gcm_mul x y).
Proof.
  intros Hx Hy. unfold fmul.
  set (X := brev 128 x). set (Y := brev 128 y).
  assert (HX : 0 <= X < 2 ^ 128) by apply (brev_range 128).
  assert (HY : 0 <= Y < 2 ^ 128) by apply (brev_range 128).
  pose proof P128_range as HP. assert (HP0 : 0 <= P128) by (unfold P128; lia).
  match goal with |- bind (for_range _ _ ?f _) _ = _ =>
    destruct (for_range_inv (fun i (s : Z * Z) => let '(r, sh) := s in
       u128r r /\ u128r sh /\ pcong P128 (pmul X (2 ^ Z.of_nat i)) (brev 128 sh)
       /\ pcong P128 (pmul X (Y mod 2 ^ Z.of_nat i)) (brev 128 r)) f 0%nat 128%nat (0, x))
      as ((r & sh) & E & Hr & _ & _ & C) end.
  - conjs; try (unfold u128r in *; lia).
    + rewrite pmul_1_r. apply pcong_refl.
    + change (Z.of_nat 0) with 0. change (2 ^ 0) with 1. rewrite Z.mod_1_r, brev_0, pmul_0_r. apply pcong_refl.
  - intros i [r sh] Hi (Hr & Hsh & C1 & C2).
    rewrite op_shl_Ok by (change (bits U128) with 128; lia).
    rewrite op_shr_Ok by (change (bits U128) with 128; lia). cbn [bind].
    eexists. split; [reflexivity|].
    assert (Em : iwrap U128 (Z.shiftl 1 (127 - Z.of_nat i)) = 2 ^ (127 - Z.of_nat i)).
    { rewrite Z.shiftl_1_l. unfold iwrap. change (sgn U128) with false. change (bits U128) with 128. cbv iota. apply Z.mod_small. split; [apply Z.pow_nonneg; lia|].
      apply Z.pow_lt_mono_r; lia. }
    rewrite Em. unfold op_and, op_xor, declassify.
    rewrite land_mask_nz by lia. rewrite (land_mask_nz sh 0 (Z.le_refl 0) : negb (Z.land sh 1 =? 0) = _).
    assert (EY : Z.testbit y (127 - Z.of_nat i) = Z.testbit Y (Z.of_nat i)).
    { unfold Y. rewrite brev_spec by lia. (f_equal; lia) || reflexivity. }
    rewrite EY.
    assert (Hs1 : u128r (Z.shiftr sh 1)).
    { unfold u128r in *. rewrite Z.shiftr_div_pow2 by lia. split; [apply Z.div_pos; lia|]. apply Z.div_lt_upper_bound; lia. }
    assert (Hsh2 : u128r (if Z.testbit sh 0 then Z.lxor (Z.shiftr sh 1) IRRED else Z.shiftr sh 1)).
    { destruct (Z.testbit sh 0); [|exact Hs1]. apply lxor_range; [lia|exact Hs1|unfold IRRED; lia]. }
    assert (Hr2 : u128r (if Z.testbit Y (Z.of_nat i) then Z.lxor r sh else r)).
    { destruct (Z.testbit Y (Z.of_nat i)); [|exact Hr]. apply lxor_range; [lia|exact Hr|exact Hsh]. }
    conjs; [exact Hr2|exact Hsh2| |].
    + replace (Z.of_nat (S i)) with (Z.succ (Z.of_nat i)) by lia.
      rewrite Z.pow_succ_r by lia. rewrite pmul_dbl_r.
      apply pcong_trans with (2 * brev 128 sh).
      * pose proof (pmul_nonneg X (2 ^ Z.of_nat i) ltac:(lia)).
        rewrite <- (pmul_1_l (pmul X (2 ^ Z.of_nat i))), <- pmul_dbl_l by lia.
        pose proof (brev_range 128 sh).
        rewrite <- (pmul_1_l (brev 128 sh)), <- (pmul_dbl_l 1 (brev 128 sh)) by lia.
        apply pcong_mul_l; try lia. rewrite ?pmul_1_l by lia. exact C1.
      * destruct (Z.testbit sh 0) eqn:E0.
        -- rewrite brev_lxor, brev_shr, E0, brev_IRRED by (unfold u128r in Hsh; lia).
           exists 1. split; [lia|]. rewrite pmul_1_l by lia.
           change P128 with (Z.lxor (2 ^ Z.of_nat 128) (2 ^ 7 + 2 ^ 2 + 2 + 1)). lxor_solve.
        -- rewrite brev_shr, E0, Z.lxor_0_r by (unfold u128r in Hsh; lia). apply pcong_refl.
    + replace (Z.of_nat (S i)) with (Z.of_nat i + 1) by lia.
      rewrite mod_pow2_step by lia.
      assert (HM : 0 <= Y mod 2 ^ Z.of_nat i) by (apply Z.mod_pos_bound, Z.pow_pos_nonneg; lia).
      assert (0 < 2 ^ Z.of_nat i) by (apply Z.pow_pos_nonneg; lia).
      destruct (Z.testbit Y (Z.of_nat i)).
      * rewrite pmul_lxor_r by lia. rewrite brev_lxor. apply pcong_lxor; assumption.
      * rewrite Z.lxor_0_r. exact C2.
  - rewrite E. cbn [bind]. f_equal. unfold gcm_mul. fold X Y.
    change (2 ^ Z.of_nat (0 + 128)) with (2 ^ 128) in C. rewrite Z.mod_small in C by lia.
    rewrite <- (brev_invol 128 r) by exact Hr. f_equal.
    apply gf_mul_unique; first [exact C | lia | apply (brev_range 128)].
Qed.

(** Laws of the GCM product. *)
Lemma gcm_mul_comm x y : gcm_mul x y = gcm_mul y x.
Proof. unfold gcm_mul. rewrite gf_mul_comm; [reflexivity|lia|apply P128_range|apply (brev_range 128)|apply (brev_range 128)]. Qed.
Lemma gcm_mul_lxor_l x y z : gcm_mul (Z.lxor x y) z = Z.lxor (gcm_mul x z) (gcm_mul y z).
Proof.
  unfold gcm_mul. rewrite brev_lxor, gf_mul_lxor_l, brev_lxor;
    [reflexivity|lia|apply P128_range|apply (brev_range 128)|apply (brev_range 128)|apply (brev_range 128)].
Qed.
Lemma gcm_mul_lxor_r x y z : gcm_mul z (Z.lxor x y) = Z.lxor (gcm_mul z x) (gcm_mul z y).
Proof. rewrite !(gcm_mul_comm z). apply gcm_mul_lxor_l. Qed.
Lemma gcm_mul_assoc x y z : gcm_mul x (gcm_mul y z) = gcm_mul (gcm_mul x y) z.
Proof.
  unfold gcm_mul. pose proof P128_range. pose proof (brev_range 128 x). pose proof (brev_range 128 y).
  pose proof (brev_range 128 z).
  rewrite !(brev_invol 128) by (apply (gf_mul_range 128 P128); assumption || lia).
  rewrite gf_mul_assoc by (assumption || lia). reflexivity.
Qed.
Lemma brev_one : brev 128 gcm_one = 1.
Proof. reflexivity. Qed.
Lemma gcm_mul_one_l x : u128r x -> gcm_mul gcm_one x = x.
Proof.
  intros Hx. unfold gcm_mul. rewrite brev_one, gf_mul_1_l, brev_invol;
    [reflexivity|exact Hx|lia|apply P128_range|apply (brev_range 128)].
Qed.
Lemma gcm_mul_0_l x : gcm_mul 0 x = 0.
Proof.
  unfold gcm_mul. rewrite brev_0, gf_mul_0_l, brev_0;
    [reflexivity|lia|apply P128_range|apply (brev_range 128)].
Qed.
