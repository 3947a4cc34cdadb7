(** Lemmas about bounded and modular big integers. *)
From Coq Require Import ZArith Znumtheory List Bool Lia Arith.
From Verif Require Import Base P_Base M_Int M_Seq M_Bytes P_Bytes M_BigInt M_NatMod P_Prime.
Import ListNotations.
Open Scope Z_scope.

Lemma bmax_eq bits : 0 <= bits -> bmax bits = 2 ^ bits - 1.
Proof. intros. unfold bmax. now rewrite Z.shiftl_1_l. Qed.
Lemma blen_bits bits : 0 < bits -> bits <= 8 * Z.of_nat (blen bits) < bits + 8.
Proof. intros. unfold blen. rewrite Z2Nat.id by (apply Z.div_pos; lia). pose proof (Z.div_mod (bits + 7) 8). pose proof (Z.mod_pos_bound (bits+7) 8). lia. Qed.
Lemma blen_pos bits : 0 < bits -> (1 <= blen bits)%nat.
Proof. intros. pose proof (blen_bits bits). lia. Qed.
Lemma pow256_2 k : 256 ^ Z.of_nat k = 2 ^ (8 * Z.of_nat k).
Proof. change 256 with (2 ^ 8). now rewrite <- Z.pow_mul_r by lia. Qed.
Lemma pow_blen bits : 0 < bits -> 2 ^ bits <= 256 ^ Z.of_nat (blen bits).
Proof. intros. rewrite pow256_2. apply Z.pow_le_mono_r; [lia|]. pose proof (blen_bits bits). lia. Qed.

Lemma nbytes_le x k : (1 <= k)%nat -> (nbytes x <= k)%nat <-> Z.abs x < 256 ^ Z.of_nat k.
Proof.
  intros Hk. unfold nbytes. destruct (Z.eqb_spec x 0) as [->|Hx].
  - pose proof (pow256_pos k). cbn [Z.abs]. lia.
  - rewrite pow256_2. rewrite Z.log2_lt_pow2 by lia.
    pose proof (Z.log2_nonneg (Z.abs x)).
    pose proof (Z.div_mod (Z.log2 (Z.abs x)) 8 ltac:(lia)). pose proof (Z.mod_pos_bound (Z.log2 (Z.abs x)) 8 ltac:(lia)).
    lia.
Qed.
Lemma nbytes_pos x : (1 <= nbytes x)%nat.
Proof.
  unfold nbytes. destruct (Z.eqb_spec x 0); [lia|].
  pose proof (Z.div_pos (Z.log2 (Z.abs x)) 8 (Z.log2_nonneg _) ltac:(lia)). lia.
Qed.
Lemma nbytes_bound x : Z.abs x < 256 ^ Z.of_nat (nbytes x).
Proof. apply nbytes_le; [apply nbytes_pos|lia]. Qed.
Lemma nbytes_minimal x : (1 < nbytes x)%nat -> 256 ^ Z.of_nat (nbytes x - 1) <= Z.abs x.
Proof.
  intros H. destruct (Z_lt_le_dec (Z.abs x) (256 ^ Z.of_nat (nbytes x - 1))) as [L|L]; [|assumption].
  apply nbytes_le in L; lia.
Qed.

Lemma bfrom_spec bits signed x y : 0 < bits ->
  bfrom bits signed x = Ok y <->
  y = x /\ x < 2 ^ bits - 1 /\ (if signed then - 256 ^ Z.of_nat (blen bits) < x else 0 <= x).
Proof.
  intros Hb. pose proof (blen_pos bits Hb) as L. pose proof (pow_blen bits Hb) as P.
  unfold bfrom. rewrite bmax_eq by lia. unfold assert_.
  pose proof (nbytes_le x (blen bits) L) as N.
  destruct (Z.ltb_spec x (2 ^ bits - 1)) as [A|A]; cbn [bind]; [|split; [discriminate|lia]].
  destruct (Z.ltb_spec x 0) as [B|B]; destruct signed; cbn [negb andb];
  try (destruct (Nat.ltb_spec (blen bits) (nbytes x)) as [C|C]).
  all: split; [intros E; try discriminate; injection E as <-|intros (-> & E1 & E2)]; try reflexivity; try lia.
Qed.
Lemma bfrom_Ok bits x : 0 < bits -> 0 <= x < 2 ^ bits - 1 -> bfrom bits false x = Ok x.
Proof. intros. apply bfrom_spec; auto. lia. Qed.
Lemma bfrom_panics bits x : 0 < bits -> ~ (0 <= x < 2 ^ bits - 1) -> panics (bfrom bits false x).
Proof.
  intros Hb Hx. destruct (bfrom bits false x) as [y|p] eqn:E; [|now exists p].
  apply bfrom_spec in E; [|assumption]. lia.
Qed.

Lemma brep_ok_iff bits signed x : is_ok (brep_of bits signed x) <-> is_ok (bfrom bits signed x).
Proof.
  unfold brep_of, bfrom. unfold assert_. destruct (x <? bmax bits); cbn [bind];
    [|split; intros [? E]; discriminate].
  rewrite be_bytes_length. unfold sign_of, seq_new. rewrite repeat_length.
  assert (U : forall n, (blen bits <? n)%nat = false -> usub (blen bits) n = Ok (blen bits - n)%nat).
  { intros n Hn. apply Nat.ltb_ge in Hn. now apply usub_Ok. }
  destruct (Z.eqb_spec x 0) as [->|Hx].
  - cbn [Z.ltb Z.compare andb]. destruct (blen bits <? nbytes 0)%nat eqn:E.
    + split; intros [? F]; destruct signed; discriminate.
    + rewrite U by assumption. split; intros _; destruct signed; eexists; reflexivity.
  - destruct (x <? 0), signed; cbn [andb negb bind];
      try (split; intros [? F]; discriminate);
      destruct (blen bits <? nbytes x)%nat eqn:E; cbn [bind]; try (split; intros [? F]; discriminate);
      rewrite U by assumption; split; intros _; eexists; reflexivity.
Qed.
Lemma be_val_zeros k l : be_val (repeat 0 k ++ l) = be_val l.
Proof.
  induction k as [|k IH]; cbn [repeat app]; [reflexivity|]. rewrite be_val_cons, IH. lia.
Qed.
Lemma firstn_repeat {A} (x : A) n k : (k <= n)%nat -> firstn k (repeat x n) = repeat x k.
Proof.
  revert n; induction k as [|k IH]; intros n H; [reflexivity|]. destruct n; [lia|].
  cbn [repeat firstn]. now rewrite IH by lia.
Qed.
Lemma brep_of_val bits signed x r : brep_of bits signed x = Ok r ->
  length (rb r) = blen bits /\ is_bytes (rb r) /\ brep_val r = x.
Proof.
  unfold brep_of. unfold assert_. destruct (x <? bmax bits); cbn [bind]; [|discriminate].
  rewrite be_bytes_length. intros E.
  assert (exists s, s = sign_of x /\ (nbytes x <= blen bits)%nat /\
    r = {| rb := repeat 0 (blen bits - nbytes x) ++ be_bytes (nbytes x) (Z.abs x); rsign := s |}) as (s & -> & L & ->).
  { exists (sign_of x). split; [reflexivity|].
    destruct (match sign_of x with SMinus => _ | _ => _ end); [|discriminate]. cbn [bind] in E.
    unfold seq_new in E. rewrite repeat_length in E.
    destruct (Nat.ltb_spec (blen bits) (nbytes x)) as [C|C]; cbn [bind] in E; [discriminate|].
    rewrite usub_Ok in E by assumption. cbn [bind] in E. injection E as <-.
    split; [assumption|]. now rewrite firstn_repeat by lia. }
  cbn [rb]. repeat split.
  - rewrite app_length, repeat_length, be_bytes_length. lia.
  - apply Forall_app. split; [apply Forall_forall; intros b Hb; apply repeat_spec in Hb; lia|apply be_bytes_is_bytes].
  - unfold brep_val. cbn [rb rsign]. rewrite be_val_zeros, be_val_be_bytes, Z.mod_small.
    + unfold sign_of. destruct (Z.eqb_spec x 0); [lia|]. destruct (Z.ltb_spec x 0); lia.
    + split; [lia|apply nbytes_bound].
Qed.

Lemma le_bytes_nbytes x : 0 <= x -> le_val (bto_le_bytes x) = x.
Proof.
  intros Hx. unfold bto_le_bytes. rewrite le_val_le_bytes. apply Z.mod_small.
  pose proof (nbytes_bound x). lia.
Qed.
Lemma bto_le_bytes_length x : length (bto_le_bytes x) = nbytes x.
Proof. apply le_bytes_length. Qed.
Lemma bto_le_bytes_bytes x : is_bytes (bto_le_bytes x).
Proof. apply le_bytes_is_bytes. Qed.

(** ** Modular integers *)
Section NatMod.
  Context (bits n : Z) (Hb : 0 < bits) (Hn : 0 < n < 2 ^ bits - 1).

  Lemma nm_max_Ok : nm_max bits n = Ok n.
  Proof. unfold nm_max. apply bfrom_Ok; lia. Qed.
  Lemma nm_of_base_Ok x : 0 <= x -> nm_of_base bits n x = Ok (x mod n).
  Proof.
    intros Hx. unfold nm_of_base. rewrite nm_max_Ok. cbn [bind]. unfold brem.
    destruct (Z.eqb_spec n 0); [lia|]. rewrite Z.rem_mod_nonneg by lia.
    apply bfrom_Ok; [assumption|]. pose proof (Z.mod_pos_bound x n). lia.
  Qed.
  Lemma nm_reduce_Ok c : nm_reduce bits n c = Ok (c mod n).
  Proof.
    unfold nm_reduce. rewrite nm_max_Ok. cbn [bind]. destruct (Z.eqb_spec n 0); [lia|]. cbn [bind].
    pose proof (Z.mod_pos_bound c n). rewrite bfrom_Ok by lia. cbn [bind].
    rewrite nm_of_base_Ok by lia. now rewrite Z.mod_mod by lia.
  Qed.
  Lemma nm_add_Ok a b : nm_add bits n a b = Ok ((a + b) mod n).
  Proof. apply nm_reduce_Ok. Qed.
  Lemma nm_mul_Ok a b : nm_mul bits n a b = Ok ((a * b) mod n).
  Proof. apply nm_reduce_Ok. Qed.
  Lemma nm_sub_Ok a b : b <= n -> nm_sub bits n a b = Ok ((a - b) mod n).
  Proof.
    intros H. unfold nm_sub. rewrite nm_max_Ok. cbn [bind].
    destruct (Z.ltb_spec a b); [destruct (Z.ltb_spec n b); [lia|]|]; cbn [bind]; rewrite nm_reduce_Ok.
    - f_equal. replace (n - b + a) with (a - b + 1 * n) by lia. apply Z_mod_plus_full.
    - reflexivity.
  Qed.
  Lemma nm_div_Ok a b : b <> 0 -> nm_div bits n a b = Ok ((a / b) mod n).
  Proof. intros H. unfold nm_div. destruct (Z.eqb_spec b 0); [contradiction|]. apply nm_reduce_Ok. Qed.
  Lemma nm_rem_Ok a b : b <> 0 -> nm_rem bits n a b = Ok ((a mod b) mod n).
  Proof. intros H. unfold nm_rem. destruct (Z.eqb_spec b 0); [contradiction|]. apply nm_reduce_Ok. Qed.
  Lemma nm_pow_felem_Ok x e : 0 <= e -> nm_pow_felem bits n x e = Ok (x ^ e mod n).
  Proof.
    intros He. unfold nm_pow_felem. rewrite nm_max_Ok. cbn [bind]. unfold bpow_felem, bmodpow.
    destruct (Z.ltb_spec e 0); [lia|]. destruct (Z.eqb_spec n 0); [lia|]. cbn [bind].
    rewrite modpow_spec by lia. pose proof (Z.mod_pos_bound (x ^ e) n). rewrite bfrom_Ok by lia. cbn [bind].
    rewrite nm_of_base_Ok by lia. now rewrite Z.mod_mod by lia.
  Qed.
  Lemma nm_inv_Ok x : 2 <= n -> nm_inv bits n x = Ok (x ^ (n - 2) mod n).
  Proof.
    intros H. rewrite <- nm_pow_felem_Ok by lia. unfold nm_inv, nm_pow_felem. rewrite nm_max_Ok. reflexivity.
  Qed.
  Lemma nm_pow_Ok x e : 0 <= e < 2 ^ bits - 1 -> nm_pow bits n x e = Ok (x ^ e mod n).
  Proof.
    intros H. rewrite <- nm_pow_felem_Ok by lia. unfold nm_pow, nm_pow_felem, bpow.
    rewrite nm_max_Ok. cbn [bind]. now rewrite bfrom_Ok by lia.
  Qed.
  Lemma nm_from_le_bytes_Ok v : is_bytes v -> le_val v < 2 ^ bits - 1 ->
    nm_from_le_bytes bits n v = Ok (le_val v mod n).
  Proof.
    intros B H. unfold nm_from_le_bytes, bfrom_le_bytes. pose proof (le_val_range v B).
    rewrite bfrom_Ok by lia. cbn [bind]. apply nm_of_base_Ok. lia.
  Qed.
  Lemma nm_from_literal_Ok x : 0 <= x <= n -> nm_from_literal bits n x = Ok x.
  Proof.
    intros H. unfold nm_from_literal. rewrite nm_max_Ok. cbn [bind].
    destruct (Z.ltb_spec n x); [lia|]. apply bfrom_Ok; lia.
  Qed.
End NatMod.

Lemma prime_inverse p x : prime p -> 0 < x < p -> (x * (x ^ (p - 2) mod p)) mod p = 1.
Proof.
  intros Hp Hx. pose proof (prime_ge_2 p Hp).
  rewrite Z.mul_mod_idemp_r by lia.
  replace (x * x ^ (p - 2)) with (x ^ (p - 1)) by (replace (p - 1) with (1 + (p - 2)) by lia; rewrite Z.pow_add_r, Z.pow_1_r by lia; ring).
  apply fermat_little; [assumption|]. intros D. apply Z.divide_pos_le in D; lia.
Qed.
