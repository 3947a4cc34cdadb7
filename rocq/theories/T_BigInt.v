(** Theorems about bounded big integers and modular integers (C24-C30). *)
From Coq Require Import ZArith Znumtheory List Bool Lia Arith.
From Verif Require Import Base P_Base M_Int M_Seq M_Bytes P_Bytes M_BigInt M_NatMod P_Prime P_BigInt S_Seq S_BigInt.
Import ListNotations.
Open Scope Z_scope.
Ltac conjs := repeat match goal with |- _ /\ _ => split end.

(** *** C24: bounded integers are exact or panic *)
Lemma bfrom_eop bits x : 0 < bits -> exact_or_panic (bfrom bits false x) x 0 (2 ^ bits - 1).
Proof. intros Hb. split; intros H; [now apply bfrom_Ok|now apply bfrom_panics]. Qed.
Lemma guarded_eop bits x : 0 < bits ->
  exact_or_panic (if bmax bits <? x then Panic PExplicit else bfrom bits false x) x 0 (2 ^ bits - 1).
Proof.
  intros Hb. rewrite bmax_eq by lia. destruct (Z.ltb_spec (2 ^ bits - 1) x).
  - split; intros; [lia|now exists PExplicit].
  - now apply bfrom_eop.
Qed.

Lemma horner_acc base ds acc : fold_left (fun a d => a * base + d) ds acc = acc * base ^ Z.of_nat (length ds) + horner base ds.
Proof.
  unfold horner. revert acc. induction ds as [|d ds IH]; intros acc; cbn [fold_left length].
  - change (base ^ Z.of_nat 0) with 1. lia.
  - rewrite IH, (IH (0 * base + d)), Nat2Z.inj_succ, Z.pow_succ_r by lia. ring.
Qed.
Lemma horner_cons base d ds : horner base (d :: ds) = d * base ^ Z.of_nat (length ds) + horner base ds.
Proof. unfold horner at 1. cbn [fold_left]. rewrite horner_acc. ring. Qed.
Lemma be_val_horner l : be_val l = horner 256 l.
Proof. induction l as [|b l IH]; [reflexivity|]. now rewrite be_val_cons, horner_cons, IH. Qed.
Lemma le_val_horner l : le_val l = horner 256 (rev l).
Proof. rewrite <- be_val_horner. unfold be_val. now rewrite rev_involutive. Qed.
Lemma hexval_digit c n : hexval c n -> hex_digit c = Some n /\ c <> 43.
Proof.
  intros H. unfold hex_digit, hexval in *.
  destruct (Z.leb_spec 48 c), (Z.leb_spec c 57), (Z.leb_spec 97 c), (Z.leb_spec c 102), (Z.leb_spec 65 c), (Z.leb_spec c 70);
    cbn [andb]; split; try lia; f_equal; lia.
Qed.
Lemma parse_hex_horner : forall s ds, Forall2 hexval s ds -> Nat.even (length s) = true ->
  exists bs, parse_hex s = Ok bs /\ be_val bs = horner 16 ds /\ (length ds = 2 * length bs)%nat.
Proof.
  fix IH 1. intros [|a [|b s]] ds F E.
  - inversion F; subst. exists []. repeat split.
  - discriminate.
  - destruct ds as [|x [|y ds]]; [inversion F|inversion F as [|? ? ? ? ? F']; inversion F'|].
    assert (Fa : hexval a x) by (inversion F; assumption).
    assert (Fb : hexval b y) by (inversion F as [|? ? ? ? ? F']; inversion F'; assumption).
    assert (Fs : Forall2 hexval s ds) by (inversion F as [|? ? ? ? ? F']; inversion F'; assumption).
    destruct (IH s ds Fs E) as (bs & Ep & Eb & El).
    apply hexval_digit in Fa, Fb. destruct Fa as [Da Na], Fb as [Db Nb].
    exists (16 * x + y :: bs). cbn [parse_hex]. unfold parse_pair. destruct (Z.eqb_spec a 43); [contradiction|].
    rewrite Da, Db, Ep. cbn [bind]. repeat split.
    + rewrite be_val_cons, Eb, !horner_cons. cbn [length]. rewrite Nat2Z.inj_succ, Z.pow_succ_r by lia.
      rewrite El. replace (Z.of_nat (2 * length bs)) with (2 * Z.of_nat (length bs)) by lia.
      rewrite (Z.pow_mul_r 16 2) by lia. change (16 ^ 2) with 256. ring.
    + cbn [length]. lia.
Qed.

(** Unsigned types. Every operation returns the exact integer result when it lies in
    [0, 2^bits - 1) and panics otherwise; the operands range over all integers, so in
    particular over all values of the type. *)
Theorem C24_unsigned_arithmetic : forall bits a b, 0 < bits -> 0 <= a -> 0 <= b ->
  exact_or_panic (badd bits false a b) (a + b) 0 (2 ^ bits - 1) /\
  exact_or_panic (bsub bits false a b) (a - b) 0 (2 ^ bits - 1) /\
  exact_or_panic (bmul bits false a b) (a * b) 0 (2 ^ bits - 1) /\
  (b <> 0 -> a < 2 ^ bits - 1 -> exists q r, trunc_div a b q r /\ bdiv bits false a b = Ok q /\ brem bits false a b = Ok r) /\
  (b = 0 -> panics (bdiv bits false a b) /\ panics (brem bits false a b)).
Proof.
  intros bits a b Hb Ha Hb'. conjs.
  - apply guarded_eop; assumption.
  - apply bfrom_eop; assumption.
  - apply guarded_eop; assumption.
  - intros N La. exists (Z.quot a b), (Z.rem a b).
    rewrite Z.quot_div_nonneg, Z.rem_mod_nonneg by lia.
    pose proof (Z.div_mod a b N). pose proof (Z.mod_pos_bound a b ltac:(lia)).
    pose proof (Z.div_pos a b ltac:(lia) ltac:(lia)). pose proof (Z.mod_le a b ltac:(lia) ltac:(lia)).
    assert (a / b <= a) by (apply Z.div_le_upper_bound; nia).
    unfold trunc_div, bdiv, brem. destruct (Z.eqb_spec b 0); [contradiction|].
    rewrite Z.quot_div_nonneg, Z.rem_mod_nonneg by lia. conjs.
    + lia. + lia. + nia.
    + apply bfrom_Ok; lia. + apply bfrom_Ok; lia.
  - intros ->. split; eexists; reflexivity.
Qed.
Example C24_ex : badd 8 false 200 54 = Ok 254 /\ badd 8 false 200 55 = Panic PAssert /\
  bsub 8 false 3 5 = Panic PExplicit /\ bmul 8 false 15 16 = Ok 240 /\ bdiv 8 false 200 7 = Ok 28.
Proof. repeat split. Qed.

(** Construction: literals, powers of two, byte strings and hex strings. *)
Theorem C24_unsigned_construction : forall bits, 0 < bits ->
  (forall x, 0 <= x -> exact_or_panic (bfrom_literal bits false x) x 0 (2 ^ bits - 1)) /\
  (forall k, exact_or_panic (bpow2 bits false k) (2 ^ Z.of_nat k) 0 (2 ^ bits - 1)) /\
  (forall l, bytes l -> exact_or_panic (bfrom_le_bytes bits l) (horner 256 (rev l)) 0 (2 ^ bits - 1)) /\
  (forall s ds, Forall2 hexval s ds -> Nat.even (length s) = true ->
     exact_or_panic (bfrom_hex bits s) (horner 16 ds) 0 (2 ^ bits - 1)) /\
  (forall x, 0 <= x < 2 ^ 127 -> exact_or_panic (bfrom_signed_literal bits false x) x 0 (2 ^ bits - 1)).
Proof.
  intros bits Hb. conjs.
  - intros x Hx. now apply guarded_eop.
  - intros k. unfold bpow2. rewrite Z.shiftl_1_l. now apply bfrom_eop.
  - intros l _. rewrite <- le_val_horner. now apply bfrom_eop.
  - intros s ds F E. destruct (parse_hex_horner s ds F E) as (bs & Ep & Eb & _).
    unfold bfrom_hex, bhex_to_bytes, hex_string_to_bytes. rewrite assert_true.
    + cbn [bind]. rewrite Ep. cbn [bind]. rewrite Eb. now apply bfrom_eop.
    + apply Nat.eqb_eq. apply Nat.even_spec in E. destruct E as [m ->]. rewrite Nat.mul_comm. apply Nat.mod_mul. lia.
  - intros x Hx. unfold bfrom_signed_literal. rewrite Z.mod_small by lia. now apply guarded_eop.
Qed.
Example C24_construction_ex : bpow2 8 false 7 = Ok 128 /\ panics (bpow2 8 false 8) /\
  bfrom_le_bytes 16 [1; 2] = Ok 513 /\ bfrom_hex 16 [49; 65; 48; 102] = Ok 6671 /\ bfrom_literal 256 false (2 ^ 127) = Ok (2 ^ 127).
Proof. repeat split; try (eexists; reflexivity). Qed.

(** A negative signed literal is not rejected by a wide unsigned type and not exact in a wide
    signed type: it silently becomes x + 2^128. *)
Theorem C24_signed_literal_refuted : exists bits x, 0 < bits /\ - 2 ^ 127 <= x < 2 ^ 127 /\
  (exists r, bfrom_signed_literal bits false x = Ok r /\ r <> x) /\
  (exists r, bfrom_signed_literal bits true x = Ok r /\ r <> x).
Proof.
  exists 256, (-1). conjs; try lia.
  all: exists (2 ^ 128 - 1); split; [vm_compute; reflexivity|lia].
Qed.
(** Exactly what from_signed_literal does with a negative literal. *)
Theorem C24_negative_literal : forall bits x, 0 < bits -> - 2 ^ 127 <= x < 0 ->
  exact_or_panic (bfrom_signed_literal bits false x) (x + 2 ^ 128) 0 (2 ^ bits - 1).
Proof.
  intros bits x Hb Hx. unfold bfrom_signed_literal.
  replace (x mod 2 ^ 128) with (x + 2 ^ 128).
  - now apply guarded_eop.
  - symmetry. rewrite <- (Z_mod_plus_full x 1). rewrite Z.mul_1_l. apply Z.mod_small. lia.
Qed.
Example C24_negative_literal_ex : panics (bfrom_signed_literal 64 false (-1)) /\ bfrom_signed_literal 200 false (-5) = Ok (2 ^ 128 - 5).
Proof. split; [eexists|]; reflexivity. Qed.

(** Signed types: exact or panic as well, with the (asymmetric) range they really have. *)
Theorem C24_signed_arithmetic : forall bits a b, 0 < bits ->
  let k := 8 * ((bits + 7) / 8) in
  exact_or_panic (badd bits true a b) (a + b) (1 - 2 ^ k) (2 ^ bits - 1) /\
  exact_or_panic (bsub bits true a b) (a - b) (1 - 2 ^ k) (2 ^ bits - 1) /\
  exact_or_panic (bmul bits true a b) (a * b) (1 - 2 ^ k) (2 ^ bits - 1) /\
  (b <> 0 -> exists q r, trunc_div a b q r /\
     exact_or_panic (bdiv bits true a b) q (1 - 2 ^ k) (2 ^ bits - 1) /\
     exact_or_panic (brem bits true a b) r (1 - 2 ^ k) (2 ^ bits - 1)) /\
  (b = 0 -> panics (bdiv bits true a b) /\ panics (brem bits true a b)).
Proof.
  intros bits a b Hb k.
  assert (Ek : 2 ^ k = 256 ^ Z.of_nat (blen bits)).
  { rewrite pow256_2. unfold blen, k. rewrite Z2Nat.id by (apply Z.div_pos; lia). reflexivity. }
  assert (F : forall x, exact_or_panic (bfrom bits true x) x (1 - 2 ^ k) (2 ^ bits - 1)).
  { intros x. split; intros H.
    - apply bfrom_spec; [assumption|]. lia.
    - destruct (bfrom bits true x) as [y|p] eqn:E; [|now exists p]. apply bfrom_spec in E; [|assumption]. lia. }
  assert (G : forall x, exact_or_panic (if bmax bits <? x then Panic PExplicit else bfrom bits true x) x (1 - 2 ^ k) (2 ^ bits - 1)).
  { intros x. rewrite bmax_eq by lia. destruct (Z.ltb_spec (2 ^ bits - 1) x); [|apply F].
    split; intros; [lia|now exists PExplicit]. }
  conjs.
  - apply G. - apply F. - apply G.
  - intros N. exists (Z.quot a b), (Z.rem a b). conjs.
    + unfold trunc_div. conjs.
      * apply Z.quot_rem; assumption.
      * apply Z.rem_bound_abs; assumption.
      * apply Z.rem_sign_mul; assumption.
    + unfold bdiv. destruct (Z.eqb_spec b 0); [contradiction|]. apply F.
    + unfold brem. destruct (Z.eqb_spec b 0); [contradiction|]. apply F.
  - intros ->. split; eexists; reflexivity.
Qed.
Example C24_signed_ex : bsub 8 true 3 5 = Ok (-2) /\ bdiv 8 true (-7) 2 = Ok (-3) /\ brem 8 true (-7) 2 = Ok (-1) /\
  bsub 8 true (-200) 55 = Ok (-255) /\ panics (bsub 8 true (-200) 56).
Proof. repeat split; try (eexists; reflexivity). Qed.

(** The stored bytes and sign denote exactly the value, so working with values loses nothing. *)
Theorem C24_representation_exact : forall bits signed x, 0 < bits ->
  (is_ok (brep_of bits signed x) <-> is_ok (bfrom bits signed x)) /\
  (forall r, brep_of bits signed x = Ok r ->
     Z.of_nat (length (rb r)) = (bits + 7) / 8 /\ bytes (rb r) /\ brep_val r = x) /\
  brep_val (brep_default bits) = 0.
Proof.
  intros. conjs.
  - apply brep_ok_iff.
  - intros r E. apply brep_of_val in E. destruct E as (A & B & C). conjs; auto.
    { rewrite A. unfold blen. rewrite Z2Nat.id by (apply Z.div_pos; lia). reflexivity. }
    intros b Hb. unfold is_bytes in B. rewrite Forall_forall in B. now apply B.
  - unfold brep_val, brep_default. cbn [rb rsign]. unfold seq_new.
    rewrite <- (app_nil_r (repeat 0 _)). rewrite be_val_zeros. reflexivity.
Qed.
Example C24_representation_ex : brep_of 20 true (-258) = Ok {| rb := [0; 1; 2]; rsign := SMinus |}.
Proof. reflexivity. Qed.

(** *** C25: the documented maximum is not representable *)
Theorem C25_full_range_refuted : exists bits, 0 < bits /\ bmax bits = 2 ^ bits - 1 /\
  panics (bfrom_literal bits false (bmax bits)) /\ panics (badd bits false (bmax bits - 1) 1).
Proof. exists 8. split; [lia|]. split; [reflexivity|]. split; eexists; reflexivity. Qed.
(** For every size: all values below max() are accepted, max() itself never is. *)
Theorem C25_all_below_max : forall bits, 0 < bits ->
  panics (bfrom bits false (2 ^ bits - 1)) /\ panics (bfrom bits true (2 ^ bits - 1)) /\
  forall x, 0 <= x < 2 ^ bits - 1 -> bfrom bits false x = Ok x /\ bfrom bits true x = Ok x.
Proof.
  intros bits Hb. conjs.
  - apply bfrom_panics; [assumption|lia].
  - destruct (bfrom bits true (2 ^ bits - 1)) as [y|p] eqn:E; [|now exists p]. apply bfrom_spec in E; [lia|assumption].
  - intros x Hx. split; apply bfrom_spec; auto; [lia|]. pose proof (pow256_pos (blen bits)). lia.
Qed.
Example C25_ex : bfrom 1 false 0 = Ok 0 /\ panics (bfrom 1 false 1) /\ bfrom 8 false 254 = Ok 254.
Proof. repeat split; try (eexists; reflexivity). Qed.

(** *** C26: encodings of bounded integers *)
Theorem C26_le_bytes_roundtrip : forall bits x, 0 < bits -> 0 <= x < 2 ^ bits - 1 ->
  bfrom_le_bytes bits (bto_le_bytes x) = Ok x /\
  bytes (bto_le_bytes x) /\
  (forall j, nth j (bto_le_bytes x) 0 = (x / 256 ^ Z.of_nat j) mod 256) /\
  Z.of_nat (length (bto_le_bytes x)) <= (bits + 7) / 8 /\
  (0 < x -> 0 < last (bto_le_bytes x) 0).
Proof.
  intros bits x Hb Hx. pose proof (nbytes_bound x) as NB. rewrite Z.abs_eq in NB by lia.
  pose proof (nbytes_pos x) as NP. conjs.
  - unfold bfrom_le_bytes. rewrite le_bytes_nbytes by lia. apply bfrom_Ok; lia.
  - intros b Hb'. pose proof (bto_le_bytes_bytes x) as B. unfold is_bytes in B. rewrite Forall_forall in B. now apply B.
  - intros j. unfold bto_le_bytes. destruct (Nat.lt_ge_cases j (nbytes x)) as [L|L].
    + now apply nth_le_bytes.
    + rewrite nth_overflow by now rewrite le_bytes_length. rewrite Z.div_small; [reflexivity|].
      split; [lia|]. apply Z.lt_le_trans with (1 := NB). apply Z.pow_le_mono_r; lia.
  - replace ((bits + 7) / 8) with (Z.of_nat (blen bits)) by (unfold blen; rewrite Z2Nat.id by (apply Z.div_pos; lia); reflexivity).
    rewrite bto_le_bytes_length. apply inj_le, nbytes_le; [now apply blen_pos|].
    rewrite Z.abs_eq by lia. pose proof (pow_blen bits Hb). lia.
  - intros Px. assert (last (bto_le_bytes x) 0 = nth (nbytes x - 1) (bto_le_bytes x) 0) as ->.
    { rewrite <- bto_le_bytes_length. generalize (bto_le_bytes x) as l. intros l.
      induction l as [|a l IH]; [reflexivity|]. destruct l; [reflexivity|].
      change (last (a :: z :: l) 0) with (last (z :: l) 0). rewrite IH.
      cbn [length]. replace (S (S (length l)) - 1)%nat with (S (length l)) by lia.
      replace (S (length l) - 1)%nat with (length l) by lia. reflexivity. }
    unfold bto_le_bytes. rewrite nth_le_bytes by lia.
    assert (1 <= x / 256 ^ Z.of_nat (nbytes x - 1) < 256).
    { pose proof (pow256_pos (nbytes x - 1)) as PP. split.
      - apply Z.div_le_lower_bound; [lia|]. rewrite Z.mul_1_r.
        destruct (Nat.eq_dec (nbytes x) 1) as [E|E].
        + rewrite E. change (256 ^ Z.of_nat (1 - 1)) with 1. lia.
        + rewrite <- (Z.abs_eq x) at 2 by lia. apply nbytes_minimal. lia.
      - apply Z.div_lt_upper_bound; [lia|]. rewrite Z.mul_comm, <- pow256_S.
        replace (S (nbytes x - 1)) with (nbytes x) by lia. assumption. }
    rewrite Z.mod_small; lia.
Qed.
(** The hex text of x (any even number of digits, either case) parses to x. *)
Theorem C26_hex_roundtrip : forall bits x s ds, 0 < bits -> 0 <= x < 2 ^ bits - 1 ->
  Forall2 hexval s ds -> Nat.even (length s) = true -> horner 16 ds = x -> bfrom_hex bits s = Ok x.
Proof.
  intros bits x s ds Hb Hx F E <-.
  destruct (C24_unsigned_construction bits Hb) as (_ & _ & _ & H & _).
  apply (H s ds F E). lia.
Qed.
Theorem C26_bit_is_binary_digit : forall bits x i, 0 < bits -> 0 <= x < 2 ^ bits - 1 ->
  (Z.of_nat i < 8 * ((bits + 7) / 8) -> bbit bits x i = Ok (negb ((x / 2 ^ Z.of_nat i) mod 2 =? 0))) /\
  (8 * ((bits + 7) / 8) <= Z.of_nat i -> panics (bbit bits x i)).
Proof.
  intros bits x i Hb Hx.
  replace ((bits + 7) / 8) with (Z.of_nat (blen bits)) by (unfold blen; rewrite Z2Nat.id by (apply Z.div_pos; lia); reflexivity).
  unfold bbit. split; intros H.
  - rewrite assert_true by (apply Nat.ltb_lt; lia). cbn [bind]. f_equal.
    rewrite Z.shiftr_div_pow2 by lia. change 1 with (Z.ones 1). rewrite Z.land_ones by lia.
    change (2 ^ 1) with 2. change (Z.ones 1) with 1.
    pose proof (Z.mod_pos_bound (x / 2 ^ Z.of_nat i) 2).
    destruct (Z.eqb_spec ((x / 2 ^ Z.of_nat i) mod 2) 1), (Z.eqb_spec ((x / 2 ^ Z.of_nat i) mod 2) 0); cbn; lia || reflexivity.
  - rewrite assert_false by (apply Nat.ltb_ge; lia). eexists; reflexivity.
Qed.
Example C26_ex : bto_le_bytes 66051 = [3; 2; 1] /\ bto_le_bytes 0 = [0] /\ bfrom_le_bytes 32 [3; 2; 1] = Ok 66051 /\
  bbit 16 5 2 = Ok true /\ bbit 16 5 1 = Ok false /\ panics (bbit 16 5 16).
Proof. repeat split; try (eexists; reflexivity). Qed.

(** Signed from_hex with an empty sign string drops the digits. *)
Theorem C26_signed_hex_empty_sign_refuted : exists bits s r, 0 < bits /\
  bhex_to_bytes s = Ok [255] /\ bsfrom_hex bits None s = Ok r /\ r <> 255 /\ r <> -255.
Proof. exists 16, [102; 102], 0. repeat split; lia. Qed.

(** *** C27: modular integers form the ring Z/n *)
Lemma residue_mod n x : 0 < n -> residue n x (x mod n).
Proof.
  intros Hn. split; [now apply Z.mod_pos_bound|]. exists (- (x / n)). rewrite Z.mod_eq by lia. ring.
Qed.
Theorem C27_ring_operations : forall bits n a b, 0 < bits -> 0 < n < 2 ^ bits - 1 -> 0 <= a < n -> 0 <= b < n ->
  (exists r, nm_add bits n a b = Ok r /\ residue n (a + b) r) /\
  (exists r, nm_sub bits n a b = Ok r /\ residue n (a - b) r) /\
  (exists r, nm_mul bits n a b = Ok r /\ residue n (a * b) r).
Proof.
  intros bits n a b Hb Hn Ha Hb'. conjs.
  - rewrite nm_add_Ok by assumption. eexists; split; [reflexivity|apply residue_mod; lia].
  - rewrite nm_sub_Ok by (assumption || lia). eexists; split; [reflexivity|apply residue_mod; lia].
  - rewrite nm_mul_Ok by assumption. eexists; split; [reflexivity|apply residue_mod; lia].
Qed.
(** The ring laws, stated on the operations themselves. *)
Theorem C27_ring_laws : forall bits n a b c, 0 < bits -> 1 < n < 2 ^ bits - 1 ->
  0 <= a < n -> 0 <= b < n -> 0 <= c < n ->
  nm_add bits n a b = nm_add bits n b a /\
  nm_mul bits n a b = nm_mul bits n b a /\
  bind (nm_add bits n a b) (fun s => nm_add bits n s c) = bind (nm_add bits n b c) (fun s => nm_add bits n a s) /\
  bind (nm_mul bits n a b) (fun s => nm_mul bits n s c) = bind (nm_mul bits n b c) (fun s => nm_mul bits n a s) /\
  bind (nm_add bits n b c) (fun s => nm_mul bits n a s) =
    bind (nm_mul bits n a b) (fun u => bind (nm_mul bits n a c) (fun v => nm_add bits n u v)) /\
  nm_add bits n a 0 = Ok a /\ nm_mul bits n a 1 = Ok a /\
  bind (nm_sub bits n 0 a) (fun m => nm_add bits n a m) = Ok 0 /\
  nm_sub bits n a b = bind (nm_sub bits n 0 b) (fun m => nm_add bits n a m).
Proof.
  intros bits n a b c Hb Hn Ha Hb' Hc.
  assert (N0 : n <> 0) by lia. assert (Hn' : 0 < n < 2 ^ bits - 1) by lia.
  repeat first [ rewrite (nm_add_Ok bits n Hb Hn') | rewrite (nm_mul_Ok bits n Hb Hn')
               | rewrite (nm_sub_Ok bits n Hb Hn') by lia ]. cbn [bind].
  repeat first [ rewrite (nm_add_Ok bits n Hb Hn') | rewrite (nm_mul_Ok bits n Hb Hn') ].
  cbn [bind]. rewrite ?(nm_add_Ok bits n Hb Hn').
  conjs; f_equal;
    rewrite ?Z.add_mod_idemp_l, ?Z.add_mod_idemp_r, ?Z.mul_mod_idemp_l, ?Z.mul_mod_idemp_r by assumption.
  - now rewrite Z.add_comm.
  - now rewrite Z.mul_comm.
  - now rewrite Z.add_assoc.
  - now rewrite Z.mul_assoc.
  - rewrite ?Z.add_mod_idemp_l, ?Z.add_mod_idemp_r by assumption. now rewrite Z.mul_add_distr_l.
  - rewrite Z.add_0_r. now apply Z.mod_small.
  - rewrite Z.mul_1_r. now apply Z.mod_small.
  - replace (a + (0 - a)) with 0 by lia. now apply Z.mod_0_l.
  - f_equal.
Qed.
Example C27_ex : nm_add 272 (2 ^ 130 - 5) (2 ^ 130 - 6) 2 = Ok 1 /\ nm_sub 8 7 3 5 = Ok 5 /\ nm_mul 8 7 6 6 = Ok 1.
Proof. repeat split. Qed.

(** The / operator of modular integers is not field division: 1/2 is 0, not the inverse of 2. *)
Theorem C27_division_is_integer_division : forall bits n a b, 0 < bits -> 0 < n < 2 ^ bits - 1 -> 0 <= a < n -> 0 < b < n ->
  exists q r, trunc_div a b q r /\ nm_div bits n a b = Ok q /\ nm_rem bits n a b = Ok r.
Proof.
  intros bits n a b Hb Hn Ha Hb'. exists (a / b), (a mod b).
  pose proof (Z.div_mod a b ltac:(lia)). pose proof (Z.mod_pos_bound a b ltac:(lia)).
  pose proof (Z.div_pos a b ltac:(lia) ltac:(lia)).
  assert (a / b <= a) by (apply Z.div_le_upper_bound; nia).
  unfold trunc_div. conjs; try lia; try nia.
  - rewrite nm_div_Ok by (assumption || lia). rewrite Z.mod_small by lia. reflexivity.
  - rewrite nm_rem_Ok by (assumption || lia). rewrite (Z.mod_small (a mod b)) by lia. reflexivity.
Qed.
Example C27_division_ex : nm_div 8 7 1 2 = Ok 0 /\ nm_inv 8 7 2 = Ok 4.
Proof. split; reflexivity. Qed.

(** *** C28: field inversion *)
Theorem C28_inverse : forall bits p x, 0 < bits -> prime p -> p < 2 ^ bits - 1 -> 0 < x < p ->
  exists y, nm_inv bits p x = Ok y /\ 0 < y < p /\ nm_mul bits p x y = Ok 1 /\ nm_mul bits p y x = Ok 1.
Proof.
  intros bits p x Hb Hp Hp2 Hx. pose proof (prime_ge_2 p Hp).
  exists (x ^ (p - 2) mod p). rewrite nm_inv_Ok by (assumption || lia).
  pose proof (prime_inverse p x Hp Hx) as I.
  conjs; [reflexivity|..].
  - pose proof (Z.mod_pos_bound (x ^ (p - 2)) p ltac:(lia)).
    assert (x ^ (p - 2) mod p <> 0); [|lia]. intros E. rewrite E, Z.mul_0_r, Z.mod_0_l in I; lia.
  - apply Z.mod_pos_bound. lia.
  - rewrite nm_mul_Ok by (assumption || lia). now rewrite I.
  - rewrite nm_mul_Ok by (assumption || lia). now rewrite Z.mul_comm, I.
Qed.
Theorem C28_powers : forall bits n x e, 0 < bits -> 1 < n < 2 ^ bits - 1 -> 0 <= x < n -> 0 <= e ->
  (exists r, nm_pow_felem bits n x e = Ok r /\ residue n (x ^ e) r) /\
  (e < 2 ^ bits - 1 -> exists r, nm_pow bits n x e = Ok r /\ residue n (x ^ e) r) /\
  (2 ^ bits - 1 <= e -> panics (nm_pow bits n x e)).
Proof.
  intros bits n x e Hb Hn Hx He. conjs.
  - rewrite nm_pow_felem_Ok by (assumption || lia). eexists; split; [reflexivity|apply residue_mod; lia].
  - intros L. rewrite nm_pow_Ok by (assumption || lia). eexists; split; [reflexivity|apply residue_mod; lia].
  - intros L. unfold nm_pow. rewrite nm_max_Ok by lia. cbn [bind]. unfold bpow.
    destruct (bfrom_panics bits e Hb ltac:(lia)) as [p Ep]. rewrite Ep. now exists p.
Qed.
(** The moduli of the three shipped fields, as written in the sources, are prime and fit
    their canvas: curve25519.rs:4-9, p256.rs:4, poly1305.rs:16-21. *)
Theorem C28_shipped_moduli_prime :
  (prime (2 ^ 255 - 19) /\ 2 ^ 255 - 19 < 2 ^ 256 - 1 /\ nm_max 256 (2 ^ 255 - 19) = Ok (2 ^ 255 - 19)) /\
  (prime (2 ^ 256 - 2 ^ 224 + 2 ^ 192 + 2 ^ 96 - 1) /\
     nm_max 256 (2 ^ 256 - 2 ^ 224 + 2 ^ 192 + 2 ^ 96 - 1) = Ok (2 ^ 256 - 2 ^ 224 + 2 ^ 192 + 2 ^ 96 - 1)) /\
  (prime (2 ^ 130 - 5) /\ nm_max 272 (2 ^ 130 - 5) = Ok (2 ^ 130 - 5)).
Proof.
  conjs; first [apply prime_25519 | apply prime_p256 | apply prime_1305 | reflexivity].
Qed.
Example C28_ex : nm_inv 16 251 2 = Ok 126 /\ nm_mul 256 (2 ^ 255 - 19) 2 (2 ^ 254 - 9) = Ok 1.
Proof. split; vm_compute; reflexivity. Qed.

(** *** C29: literals of modular types *)
Theorem C29_literals_canonical_refuted : exists bits n x r, 0 < bits /\ 1 < n < 2 ^ bits - 1 /\
  0 <= x < 2 ^ 128 /\ nm_from_literal bits n x = Ok r /\ ~ residue n x r /\ nm_eqb r 0 = false /\ residue n x 0.
Proof.
  exists 8, 7, 7, 7. split; [lia|]. split; [lia|]. split; [lia|]. split; [reflexivity|].
  split; [unfold residue; lia|]. split; [reflexivity|]. split; [lia|]. exists (-1). lia.
Qed.
Theorem C29_negative_literals_refuted : exists bits n x r, 0 < bits /\ 1 < n < 2 ^ bits - 1 /\
  - 2 ^ 127 <= x < 0 /\ nm_from_signed_literal bits n x = Ok r /\ 0 <= r < n /\ ~ residue n x r.
Proof.
  exists 256, (2 ^ 255 - 19), (-1), (2 ^ 128 - 1). conjs; try lia; [vm_compute; reflexivity|].
  unfold residue. intros [_ [k Hk]]. lia.
Qed.
(** What does hold: literals below n are exact, n itself is stored unreduced, larger ones panic. *)
Theorem C29_literals : forall bits n x, 0 < bits -> 1 < n < 2 ^ bits - 1 -> 0 <= x ->
  (x < n -> exists r, nm_from_literal bits n x = Ok r /\ residue n x r) /\
  (x = n -> nm_from_literal bits n x = Ok n) /\
  (n < x -> panics (nm_from_literal bits n x)).
Proof.
  intros bits n x Hb Hn Hx. conjs; intros L.
  - rewrite nm_from_literal_Ok by lia. exists x. split; [reflexivity|]. split; [lia|]. exists 0. lia.
  - subst. now rewrite nm_from_literal_Ok by lia.
  - unfold nm_from_literal. rewrite nm_max_Ok by lia. cbn [bind].
    destruct (Z.ltb_spec n x); [eexists; reflexivity|lia].
Qed.
Example C29_ex : nm_from_literal 8 7 5 = Ok 5 /\ nm_from_literal 8 7 7 = Ok 7 /\ panics (nm_from_literal 8 7 8).
Proof. repeat split; eexists; reflexivity. Qed.
(** A modulus equal to the largest value of the canvas makes every operation panic. *)
Theorem C29_modulus_must_fit : forall bits n a b, 0 < bits -> 2 ^ bits - 1 <= n ->
  panics (nm_add bits n a b) /\ panics (nm_sub bits n a b) /\ panics (nm_mul bits n a b) /\ panics (nm_from_literal bits n a).
Proof.
  intros bits n a b Hb Hn.
  destruct (bfrom_panics bits n Hb ltac:(lia)) as [p Ep].
  unfold nm_add, nm_mul, nm_reduce, nm_sub, nm_from_literal, nm_max. rewrite Ep. cbn [bind].
  conjs; now exists p.
Qed.
Example C29_modulus_ex : panics (nm_add 8 255 1 1).
Proof. eexists; reflexivity. Qed.

(** *** C30: serialisation of modular integers *)
Theorem C30_roundtrip : forall bits n x, 0 < bits -> 0 < n < 2 ^ bits - 1 -> 0 <= x < n ->
  nm_from_byte_seq_le bits n (nm_to_byte_seq_le x) = Ok x /\
  nm_from_le_bytes bits n (nm_to_public_byte_seq_le x) = Ok x /\
  Z.of_nat (length (nm_to_byte_seq_le x)) <= (bits + 7) / 8 /\ bytes (nm_to_byte_seq_le x).
Proof.
  intros bits n x Hb Hn Hx.
  pose proof (C26_le_bytes_roundtrip bits x Hb ltac:(lia)) as (_ & B & _ & L & _).
  unfold nm_from_byte_seq_le, nm_to_byte_seq_le, nm_to_public_byte_seq_le, nm_to_le_bytes.
  assert (I : forall l, map classify l = l) by (intros l; unfold classify; apply map_id).
  assert (J : forall l, map declassify l = l) by (intros l; unfold declassify; apply map_id).
  rewrite I, J. conjs; auto.
  all: rewrite nm_from_le_bytes_Ok; try assumption; [|apply bto_le_bytes_bytes|rewrite le_bytes_nbytes; lia];
    rewrite le_bytes_nbytes by lia; f_equal; apply Z.mod_small; lia.
Qed.
Theorem C30_decode : forall bits n v, 0 < bits -> 0 < n < 2 ^ bits - 1 -> bytes v ->
  (horner 256 (rev v) < 2 ^ bits - 1 -> exists r, nm_from_byte_seq_le bits n v = Ok r /\ residue n (horner 256 (rev v)) r) /\
  (2 ^ bits - 1 <= horner 256 (rev v) -> panics (nm_from_byte_seq_le bits n v)).
Proof.
  intros bits n v Hb Hn B. assert (B' : is_bytes v) by (apply Forall_forall; exact B).
  unfold nm_from_byte_seq_le. replace (map declassify v) with v by (unfold declassify; symmetry; apply map_id).
  rewrite <- le_val_horner. split; intros L.
  - rewrite nm_from_le_bytes_Ok by assumption. eexists; split; [reflexivity|apply residue_mod; lia].
  - unfold nm_from_le_bytes, bfrom_le_bytes. destruct (bfrom_panics bits (le_val v) Hb ltac:(lia)) as [p Ep].
    rewrite Ep. now exists p.
Qed.
Example C30_ex : nm_to_byte_seq_le 66051 = [3; 2; 1] /\ nm_from_byte_seq_le 32 65537 [3; 2; 1; 0] = Ok 514.
Proof. split; reflexivity. Qed.

Print Assumptions C24_unsigned_arithmetic.
Print Assumptions C24_unsigned_construction.
Print Assumptions C24_signed_literal_refuted.
Print Assumptions C24_negative_literal.
Print Assumptions C24_signed_arithmetic.
Print Assumptions C24_representation_exact.
Print Assumptions C25_full_range_refuted.
Print Assumptions C25_all_below_max.
Print Assumptions C26_le_bytes_roundtrip.
Print Assumptions C26_hex_roundtrip.
Print Assumptions C26_bit_is_binary_digit.
Print Assumptions C26_signed_hex_empty_sign_refuted.
Print Assumptions C27_ring_operations.
Print Assumptions C27_ring_laws.
Print Assumptions C27_division_is_integer_division.
Print Assumptions C28_inverse.
Print Assumptions C28_powers.
Print Assumptions C28_shipped_moduli_prime.
Print Assumptions C29_literals_canonical_refuted.
Print Assumptions C29_negative_literals_refuted.
Print Assumptions C29_literals.
Print Assumptions C29_modulus_must_fit.
Print Assumptions C30_roundtrip.
Print Assumptions C30_decode.
