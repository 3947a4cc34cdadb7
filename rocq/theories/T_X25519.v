(** Theorems on X25519 (curve25519.rs): C58, C59, C60 and C71. *)
From Coq Require Import ZArith Znumtheory List Bool Arith Lia Field.
From Verif Require Import Base P_Base M_Int M_Seq M_Bytes M_BigInt M_NatMod M_X25519.
From Verif Require Import P_Seq P_Bytes P_BigInt P_Prime P_Mod S_Curve P_Curve P_X25519 S_X25519 P_X25519M P_X25519D T_ChaCha T_AES.
Import ListNotations.
Open Scope Z_scope.

(** a string of 32 bytes *)
Definition bytes32 (l : list Z) : Prop := length l = 32%nat /\ Forall (fun b => 0 <= b < 256) l.
Lemma bytes32_check l : forallb (fun b => (0 <=? b) && (b <? 256)) l && (length l =? 32)%nat = true -> bytes32 l.
Proof.
  intros H. apply andb_prop in H as [F L]. split; [now apply Nat.eqb_eq|]. rewrite forallb_forall in F. apply Forall_forall.
  intros x Hx. specialize (F x Hx). lia.
Qed.
Lemma add_lor a b : Z.land a b = 0 -> a + b = Z.lor a b.
Proof. intros H. rewrite Z.add_nocarry_lxor by exact H. now apply Z.lxor_lor. Qed.
Lemma testbit_high x n i : 0 <= x < 2 ^ n -> 0 <= n <= i -> Z.testbit x i = false.
Proof.
  intros H Hn. rewrite <- (Z.mod_small x (2 ^ n)) by exact H. apply Z.mod_pow2_bits_high. exact Hn.
Qed.
(** Test vectors of curve25519.rs:106-133 and tests/test_curve25519.rs:10-26 *)
Definition kat_x_s : list Z := [0xa5; 0x46; 0xe3; 0x6b; 0xf0; 0x52; 0x7c; 0x9d; 0x3b; 0x16; 0x15; 0x4b; 0x82; 0x46; 0x5e;
  0xdd; 0x62; 0x14; 0x4c; 0x0a; 0xc1; 0xfc; 0x5a; 0x18; 0x50; 0x6a; 0x22; 0x44; 0xba; 0x44; 0x9a; 0xc4].
Definition kat_x_u : list Z := [0xe6; 0xdb; 0x68; 0x67; 0x58; 0x30; 0x30; 0xdb; 0x35; 0x94; 0xc1; 0xa4; 0x24; 0xb1; 0x5f;
  0x7c; 0x72; 0x66; 0x24; 0xec; 0x26; 0xb3; 0x35; 0x3b; 0x10; 0xa9; 0x03; 0xa6; 0xd0; 0xab; 0x1c; 0x4c].
(** 2^256 - 1: the top bit is ignored and the rest is above the modulus *)
Definition kat_x_ff : list Z := repeat 255 32.
(** abscissa 9, padded to 32 bytes *)
Definition base9 : list Z := 9 :: repeat 0 31.

(** * C58: decoding and encoding *)
(** The scalar is the integer whose bits 3 to 253 are those of the string, with bit 254 set and all
    others clear: a multiple of 8 in [2^254, 2^255). *)
Theorem C58_decode_scalar : forall s, bytes32 s ->
  exists k, decode_scalar s = Ok k /\ 2 ^ 254 <= k < 2 ^ 255 /\ (8 | k) /\
    forall i, 0 <= i -> Z.testbit k i =
      if (i =? 254) then true else (3 <=? i) && (i <? 254) && Z.testbit (nth (Z.to_nat (i / 8)) s 0) (i mod 8).
Proof.
  intros s [L F]. exists (rfc_decode_scalar s). split; [now apply decode_scalar_Ok|]. split; [apply scalar_range|]. split.
  { exists (2 ^ 251 + le_decode s mod 2 ^ 254 / 8). unfold rfc_decode_scalar. ring. }
  intros i Hi. unfold rfc_decode_scalar.
  assert (BV : forall l j, Forall (fun b => 0 <= b < 256) l -> 0 <= j ->
    Z.testbit (le_decode l) j = Z.testbit (nth (Z.to_nat (j / 8)) l 0) (j mod 8)).
  { induction l as [|x l IH]; intros j Fl Hj; [cbn; destruct (Z.to_nat (j / 8)); now rewrite !Z.bits_0|].
    inversion_clear Fl as [|? ? Hx Hl]. cbn [le_decode].
    assert (E : x + 256 * le_decode l = Z.lor x (Z.shiftl (le_decode l) 8)).
    { rewrite Z.shiftl_mul_pow2 by lia. change (2 ^ 8) with 256. rewrite Z.mul_comm. apply add_lor. apply Z.bits_inj'. intros n Hn. rewrite Z.land_spec, Z.bits_0. change 256 with (2 ^ 8).
      destruct (Z_lt_le_dec n 8) as [G|G]; [rewrite Z.mul_pow2_bits_low by lia; apply andb_false_r|].
      replace (Z.testbit x n) with false; [reflexivity|]. symmetry. apply (testbit_high x 8); lia. }
    rewrite E, Z.lor_spec. destruct (Z_lt_le_dec j 8) as [G|G].
    - rewrite Z.shiftl_spec_low by lia. rewrite orb_false_r. rewrite Z.div_small, Z.mod_small by lia. reflexivity.
    - rewrite Z.shiftl_spec by lia. rewrite (testbit_high x 8 j) by lia. cbn [orb]. rewrite IH by (assumption || lia).
      replace j with ((j - 8) + 1 * 8) at 3 4 by lia. rewrite Z.div_add, Z.mod_add by lia.
      replace (Z.to_nat ((j - 8) / 8 + 1)) with (S (Z.to_nat ((j - 8) / 8))) by (pose proof (Z.div_pos (j - 8) 8); lia). reflexivity. }
  pose proof (Z.mod_pos_bound (le_decode s) (2 ^ 254) ltac:(reflexivity)) as R.
  set (m := le_decode s mod 2 ^ 254) in *.
  assert (Hm : 0 <= 8 * (m / 8) < 2 ^ 254).
  { pose proof (Z.mul_div_le m 8 ltac:(lia)). pose proof (Z.div_pos m 8 ltac:(lia) ltac:(lia)). lia. }
  assert (E : 2 ^ 254 + 8 * (m / 8) = Z.lor (2 ^ 254) (Z.shiftl (Z.shiftr m 3) 3)).
  { rewrite Z.shiftr_div_pow2, Z.shiftl_mul_pow2 by lia. change (2 ^ 3) with 8. rewrite (Z.mul_comm (m / 8) 8).
    apply add_lor. apply Z.bits_inj'. intros n Hn. rewrite Z.land_spec, Z.bits_0, Z.pow2_bits_eqb by lia.
    destruct (Z.eqb_spec 254 n) as [<-|]; [|reflexivity]. apply (testbit_high (8 * (m / 8)) 254); lia. }
  rewrite E, Z.lor_spec, Z.pow2_bits_eqb, (Z.eqb_sym 254) by lia. destruct (Z.eqb_spec i 254) as [->|N]; [reflexivity|]. cbn [orb].
  destruct (Z.leb_spec 3 i) as [G|G]; [|now rewrite Z.shiftl_spec_low by lia]. cbn [andb].
  rewrite Z.shiftl_spec, Z.shiftr_spec by lia. replace (i - 3 + 3) with i by lia. unfold m.
  destruct (Z.ltb_spec i 254) as [G2|G2]; [|now rewrite Z.mod_pow2_bits_high by lia].
  rewrite Z.mod_pow2_bits_low by lia. cbn [andb]. now apply BV.
Qed.
Example C58_decode_scalar_ex : bytes32 kat_x_s /\
  decode_scalar kat_x_s = Ok 0x449a44ba44226a50185afcc10a4c1462dd5e46824b15163b9d7c52f06be346a0.
Proof. split; [now apply bytes32_check|vm_compute; reflexivity]. Qed.

(** Two strings give the same scalar exactly when they agree in bits 3 to 253. *)
Theorem C58_decode_scalar_unclamped_bits : forall s t, bytes32 s -> bytes32 t ->
  (decode_scalar s = decode_scalar t <-> (le_decode s / 8) mod 2 ^ 251 = (le_decode t / 8) mod 2 ^ 251).
Proof.
  intros s t [Ls Fs] [Lt Ft]. rewrite !decode_scalar_Ok by assumption.
  assert (E : forall v, v mod 2 ^ 254 / 8 = (v / 8) mod 2 ^ 251).
  { intros v. change (2 ^ 254) with (8 * 2 ^ 251). rewrite Z.rem_mul_r by lia. rewrite (Z.mul_comm 8).
    rewrite Z.div_add by lia. rewrite Z.div_small by (apply Z.mod_pos_bound; lia). lia. }
  unfold rfc_decode_scalar. rewrite !E.
  assert (I : forall A B : Z, Ok A = Ok B -> A = B) by (intros A B H; now injection H).
  split; intros H; [apply I in H; lia|now rewrite H].
Qed.
Example C58_decode_scalar_unclamped_bits_ex : let t := 0xa7 :: tl kat_x_s in
  bytes32 t /\ t <> kat_x_s /\ decode_scalar t = decode_scalar kat_x_s /\ decode_scalar (0xad :: tl kat_x_s) <> decode_scalar kat_x_s.
Proof.
  split; [now apply bytes32_check|]. split; [discriminate|]. split; [vm_compute; reflexivity|vm_compute; discriminate].
Qed.

(** The abscissa is the string's value without bit 255, reduced modulo 2^255-19; the second coordinate is 1. *)
Theorem C58_decode_point : forall u, bytes32 u ->
  decode_point u = Ok ((le_decode u mod 2 ^ 255) mod (2 ^ 255 - 19), 1).
Proof.
  intros u [L F]. rewrite decode_point_Ok by assumption. rewrite fval_of. unfold rfc_decode_u. now rewrite Zmod_mod.
Qed.
Example C58_decode_point_ex : bytes32 kat_x_ff /\ decode_point kat_x_ff = Ok (18, 1) /\
  decode_point kat_x_u = Ok (0x4c1cabd0a603a9103b35b326ec2466727c5fb124a4c19435db3030586768dbe6, 1).
Proof. split; [now apply bytes32_check|]. split; vm_compute; reflexivity. Qed.

(** The encoding of (x : z) is the 32-byte little-endian string of the canonical residue x/z, 0 if z = 0. *)
Theorem C58_encode_point : forall x z, 0 <= x < 2 ^ 255 - 19 -> 0 <= z < 2 ^ 255 - 19 ->
  exists r, encode_point (x, z) = Ok r /\ bytes32 r /\ le_decode r < 2 ^ 255 - 19 /\
    (z <> 0 -> (le_decode r * z) mod (2 ^ 255 - 19) = x) /\ (z = 0 -> le_decode r = 0).
Proof.
  intros x z Hx Hz. change (2 ^ 255 - 19) with p25519 in *.
  pose proof (encode_point_Ok (fof _ x, fof _ z)) as E. unfold pval in E. cbn [fst snd] in E.
  rewrite !fval_of, !Z.mod_small in E by assumption. rewrite E.
  set (w := fmul (fof p25519 x) (finv (fof p25519 z))) in *.
  assert (R : 0 <= fval w < p25519) by (apply fval_range; reflexivity).
  assert (V : le_decode (le_encode 32 (fval w)) = fval w).
  { rewrite le_decode_val, le_encode_bytes, le_val_le_bytes. apply Z.mod_small. change (256 ^ Z.of_nat 32) with (2 ^ 256). assert (p25519 < 2 ^ 256) by reflexivity. lia. }
  eexists. split; [reflexivity|]. split; [split; [apply le_encode_length|apply le_encode_is_bytes]|]. rewrite V.
  split; [lia|]. split; intros N.
  - assert (NZ : fof p25519 z <> fof _ 0).
    { intros H. apply (f_equal fval) in H. rewrite !fval_of, !Z.mod_small in H by (assumption || (split; [discriminate|reflexivity])). contradiction. }
    assert (W : fmul w (fof _ z) = fof _ x).
    { unfold w. field. exact NZ. }
    apply (f_equal fval) in W. unfold fmul in W. rewrite !fval_of in W. rewrite Zmult_mod_idemp_r in W. now rewrite (Z.mod_small x) in W by assumption.
  - subst z. unfold w. rewrite (finv_0 p25519 x_p_prime x_p_odd). replace (fmul (fof p25519 x) (fof _ 0)) with (fof p25519 0) by ring.
    vm_compute. reflexivity.
Qed.
Example C58_encode_point_ex : encode_point (10, 2) = Ok (5 :: repeat 0 31) /\ encode_point (7, 0) = Ok (repeat 0 32).
Proof. split; vm_compute; reflexivity. Qed.
(** Encoding after decoding gives the canonical string of the same abscissa. *)
Theorem C58_encode_decode : forall u, bytes32 u ->
  exists q r, decode_point u = Ok q /\ encode_point q = Ok r /\ bytes32 r /\
    le_decode r = (le_decode u mod 2 ^ 255) mod (2 ^ 255 - 19) /\
    (le_decode u < 2 ^ 255 - 19 -> r = u).
Proof.
  intros u H. set (v := (le_decode u mod 2 ^ 255) mod (2 ^ 255 - 19)).
  assert (R : 0 <= v < 2 ^ 255 - 19) by (apply Z.mod_pos_bound; reflexivity).
  destruct (C58_encode_point v 1 R ltac:(lia)) as (r & E & [L F] & C & M & _).
  exists (v, 1), r. split; [now apply C58_decode_point|]. split; [exact E|]. split; [now split|].
  assert (V : le_decode r = v).
  { pose proof (le_val_range r F) as P. change (le_val r) with (le_decode r) in P. rewrite Z.mul_1_r in M.
    specialize (M ltac:(lia)). rewrite Z.mod_small in M by lia. exact M. }
  split; [exact V|]. intros G. destruct H as [Lu Fu]. pose proof (le_val_range u Fu) as P. change (le_val u) with (le_decode u) in P.
  apply le_val_inj; [congruence|exact F|exact Fu|]. change (le_decode r = le_decode u). rewrite V. unfold v.
  rewrite (Z.mod_small _ (2 ^ 255)) by lia. apply Z.mod_small. lia.
Qed.
Example C58_encode_decode_ex : bytes32 kat_x_u /\ le_decode kat_x_u < 2 ^ 255 - 19 /\
  bind (decode_point kat_x_u) encode_point = Ok kat_x_u /\
  bytes32 kat_x_ff /\ bind (decode_point kat_x_ff) encode_point = Ok (18 :: repeat 0 31).
Proof.
  split; [now apply bytes32_check|]. split; [reflexivity|]. split; [vm_compute; reflexivity|].
  split; [now apply bytes32_check|vm_compute; reflexivity].
Qed.

(** * C59: the ladder *)
(** For every scalar and point string the code returns what RFC 7748's pseudo-code returns; in particular
    it never panics. *)
Theorem C59_scalarmult_is_rfc7748 : forall s u, bytes32 s -> bytes32 u -> scalarmult s u = Ok (rfc_x25519 s u).
Proof. intros s u [Ls Fs] [Lu Fu]. now apply scalarmult_rfc. Qed.
Example C59_scalarmult_is_rfc7748_ex : bytes32 kat_x_s /\ bytes32 kat_x_u /\ bytes32 kat_x_ff.
Proof. split; [|split]; now apply bytes32_check. Qed.

(** The same for the ladder alone, for every scalar below 2^255 and every abscissa. *)
Theorem C59_ladder_is_rfc7748 : forall k u, 0 <= k < 2 ^ 255 -> 0 <= u < 2 ^ 255 - 19 ->
  exists q r, x_montgomery_ladder k (u, 1) = Ok q /\ encode_point q = Ok r /\ bytes32 r /\ le_decode r = rfc_ladder k u.
Proof.
  intros k u Hk Hu. change (2 ^ 255 - 19) with p25519 in Hu.
  assert (E : u = fval (fof p25519 u)) by (rewrite fval_of; symmetry; now apply Z.mod_small).
  rewrite E. rewrite ladder_Ok by lia. rewrite rfc_ladder_ok. eexists. eexists. split; [reflexivity|].
  rewrite encode_point_Ok. split; [reflexivity|]. split; [split; [apply le_encode_length|apply le_encode_is_bytes]|].
  destruct (lift (fof _ u)) as (d & y & Nd & O).
  pose proof (ladder25519 d _ y (kbits 256 k) Nd O) as L1. pose proof (ladder25519 d _ y (kbits 255 k) Nd O) as L2.
  rewrite bits_small in L1 by (change (Z.of_nat 256) with 256; lia). rewrite bits_small in L2 by (change (Z.of_nat 255) with 255; lia).
  rewrite L2, <- L1. unfold lout. rewrite le_decode_val, le_encode_bytes, le_val_le_bytes. apply Z.mod_small.
  match goal with |- 0 <= fval ?w < _ => pose proof (fval_range p25519 w ltac:(reflexivity)) as R end.
  change (256 ^ Z.of_nat 32) with (2 ^ 256). assert (p25519 < 2 ^ 256) by reflexivity. lia.
Qed.
Example C59_ladder_is_rfc7748_ex : 0 <= 2 ^ 254 + 8 < 2 ^ 255 /\ 0 <= 9 < 2 ^ 255 - 19.
Proof. lia. Qed.

(** The chord-and-tangent sum makes the points of d*y^2 = x^3 + 486662*x^2 + x an abelian group. *)
Theorem C59_curve_is_a_group : forall d, d <> fof p25519 0 ->
  (forall P Q, on25519 d P -> on25519 d Q -> on25519 d (add25519 d P Q)) /\
  (forall P Q, on25519 d P -> on25519 d Q -> add25519 d P Q = add25519 d Q P) /\
  (forall P Q R, on25519 d P -> on25519 d Q -> on25519 d R ->
     add25519 d (add25519 d P Q) R = add25519 d P (add25519 d Q R)) /\
  (forall P, add25519 d P Inf = P) /\
  (forall P, on25519 d P -> on25519 d (pneg p25519 P) /\ add25519 d P (pneg p25519 P) = Inf).
Proof.
  intros d Nd. pose proof nonsing25519 as NS. repeat split.
  - intros P Q OP OQ. exact (on_add p25519 x_p_prime x_p_odd _ _ _ d Nd P Q OP OQ).
  - intros P Q OP OQ. exact (add_comm p25519 x_p_prime _ _ _ d Nd P Q OP OQ).
  - intros P Q R OP OQ OR. exact (add_assoc p25519 x_p_prime x_p_odd _ _ _ d Nd NS P Q R OP OQ OR).
  - intros P. apply add_inf_r.
  - exact (on_neg p25519 x_p_prime _ _ _ d P H).
  - exact (add_neg p25519 x_p_prime _ _ d P).
Qed.
(** The base point of RFC 7748, section 4.1 *)
Definition base_y : Z := 14781619447589544791020593568409986887264606134616475288964881837755586237401.
Lemma on_check d u y : (fval (fmul d (fmul y y)) =? fval (cubic p25519 (fof _ 486662) (fof _ 1) (fof _ 0) u)) = true ->
  on25519 d (Aff u y).
Proof. intros H. apply Z.eqb_eq in H. now apply fval_inj. Qed.
Lemma ne0_check (x : Fp p25519) : (fval x =? 0) = false -> x <> fof _ 0.
Proof. intros H ->. discriminate. Qed.
Example C59_curve_is_a_group_ex : let d := fof p25519 1 in let B := Aff (fof p25519 9) (fof p25519 base_y) in
  d <> fof _ 0 /\ on25519 d B /\ on25519 d (pneg p25519 B) /\ pneg p25519 B <> B /\ add25519 d B B <> Inf.
Proof.
  split; [now apply ne0_check|]. split; [apply on_check; vm_compute; reflexivity|].
  split; [apply on_check; vm_compute; reflexivity|]. split.
  - intros H. apply (f_equal (fun P => match P with Aff _ v => fval v | Inf => 0 end)) in H. vm_compute in H. discriminate.
  - unfold add25519, padd. rewrite (feqb_refl p25519).
    replace (feqb (fof p25519 base_y) (fopp (fof p25519 base_y))) with false by (vm_compute; reflexivity). discriminate.
Qed.

Lemma projective_rep (x z : Fp p25519) P : projective (fval x) (fval z) P <-> rep p25519 x z P.
Proof.
  destruct P as [|u y]; cbn [projective rep]; rewrite !fval_mod.
  - split; intros [A B]; split.
    + now apply fval_inj.
    + intros H. apply B. now rewrite H.
    + now rewrite A.
    + intros H. apply B. now apply fval_inj.
  - split; intros [A B]; split.
    + intros H. apply A. now rewrite H.
    + apply fval_inj. rewrite B. reflexivity.
    + intros H. apply A. now apply fval_inj.
    + now rewrite B.
Qed.
(** One step: from abscissas (x2 : z2) of P and (x3 : z3) of P + D, where D is the input point, it makes
    abscissas of 2P and of 2P + D. *)
Theorem C59_ladder_step : forall d u y w P x2 z2 x3 z3,
  d <> fof p25519 0 -> on25519 d P -> on25519 d (Aff u y) -> u <> fof _ 0 ->
  0 <= x2 < p25519 -> 0 <= z2 < p25519 -> 0 <= x3 < p25519 -> 0 <= z3 < p25519 ->
  projective x2 z2 P -> projective x3 z3 (add25519 d P (Aff u y)) ->
  exists a2 b2 a3 b3, point_add_and_double (fval u, w) ((x2, z2), (x3, z3)) = Ok ((a2, b2), (a3, b3)) /\
    projective a2 b2 (add25519 d P P) /\ projective a3 b3 (add25519 d (add25519 d P P) (Aff u y)).
Proof.
  intros d u y w P x2 z2 x3 z3 Nd OP OD Nu H2 H3 H4 H5 R2 R3.
  assert (L : forall v, 0 <= v < p25519 -> exists f : Fp p25519, v = fval f).
  { intros v Hv. exists (fof _ v). rewrite fval_of. symmetry. now apply Z.mod_small. }
  destruct (L x2 H2) as [fx2 ->]. destruct (L z2 H3) as [fz2 ->]. destruct (L x3 H4) as [fx3 ->]. destruct (L z3 H5) as [fz3 ->].
  apply projective_rep in R2. apply projective_rep in R3.
  pose proof (step_Ok u w ((fx2, fz2), (fx3, fz3))) as S. unfold sval, pval in S. cbn [fst snd lstep] in S.
  do 4 eexists. split; [exact S|]. rewrite !projective_rep.
  destruct (C59_curve_is_a_group d Nd) as (_ & _ & AS & _). rewrite AS by assumption.
  unfold add25519, on25519 in *. rewrite <- A_eq in *. split.
  - apply dbl_rep; [exact x_p_prime|exact x_p_odd|exact Nd|exact A_ok|exact OP|exact R2].
  - apply dadd_rep; [exact x_p_prime|exact x_p_odd|exact Nd|exact A_ok|exact OP|exact OD|exact Nu|exact R2|exact R3].
Qed.
Example C59_ladder_step_ex : let d := fof p25519 1 in let B := Aff (fof p25519 9) (fof p25519 base_y) in
  d <> fof _ 0 /\ on25519 d Inf /\ on25519 d B /\ fof p25519 9 <> fof _ 0 /\
  projective 1 0 (@Inf p25519) /\ projective 9 1 (add25519 d Inf B) /\
  point_add_and_double (9, 1) ((1, 0), (9, 1)) = Ok ((1, 0), (324, 36)).
Proof.
  split; [now apply ne0_check|]. split; [exact I|]. split; [apply on_check; vm_compute; reflexivity|].
  split; [now apply ne0_check|]. split; [split; [reflexivity|discriminate]|].
  split; [split; [discriminate|vm_compute; reflexivity]|vm_compute; reflexivity].
Qed.

(** Every 32-byte string decodes to the abscissa of a point of curve25519 (d = 1) or of its twist (d = 2). *)
Theorem C59_every_string_is_an_abscissa : forall u, exists y,
  on25519 (fof _ 1) (Aff (fof _ (rfc_decode_u u)) y) \/ on25519 (fof _ 2) (Aff (fof _ (rfc_decode_u u)) y).
Proof. intros u. apply on_either. Qed.
Example C59_every_string_is_an_abscissa_ex : on25519 (fof _ 1) (Aff (fof _ (rfc_decode_u base9)) (fof _ base_y)).
Proof. apply on_check. vm_compute. reflexivity. Qed.

(** The code multiplies points: whenever (u, y) is on the curve or its twist (any non-zero d), the result
    is the abscissa of [k](u, y), 0 if that is the point at infinity. *)
Theorem C59_scalarmult_multiplies : forall s u d y, bytes32 s -> bytes32 u ->
  d <> fof p25519 0 -> on25519 d (Aff (fof _ (rfc_decode_u u)) y) ->
  exists r, scalarmult s u = Ok r /\ bytes32 r /\
    le_decode r = abscissa (mul25519 d (Z.to_nat (rfc_decode_scalar s)) (Aff (fof _ (rfc_decode_u u)) y)).
Proof.
  intros s u d y [Ls Fs] [Lu Fu] Nd O. eexists. split; [now apply (scalarmult_is s u d y)|].
  split; [split; [apply le_encode_length|apply le_encode_is_bytes]|].
  match goal with |- context [abscissa ?P] => pose proof (abscissa_range P) as R; set (v := abscissa P) in * end.
  rewrite le_decode_val, le_encode_bytes, le_val_le_bytes. apply Z.mod_small.
  change (256 ^ Z.of_nat 32) with (2 ^ 256). assert (p25519 < 2 ^ 256) by reflexivity. lia.
Qed.
Example C59_scalarmult_multiplies_ex : bytes32 kat_x_s /\ bytes32 base9 /\ fof p25519 1 <> fof _ 0 /\
  on25519 (fof _ 1) (Aff (fof _ (rfc_decode_u base9)) (fof _ base_y)).
Proof.
  split; [now apply bytes32_check|]. split; [now apply bytes32_check|]. split; [now apply ne0_check|].
  apply on_check. vm_compute. reflexivity.
Qed.

(** * C71: Diffie-Hellman agreement *)
(** For all secrets a and b and every public string u, both orders give the same shared string. *)
Theorem C71_diffie_hellman : forall a b u, bytes32 a -> bytes32 b -> bytes32 u ->
  exists qa qb r, scalarmult a u = Ok qa /\ scalarmult b u = Ok qb /\
    scalarmult a qb = Ok r /\ scalarmult b qa = Ok r /\ bytes32 r.
Proof.
  intros a b u [La Fa] [Lb Fb] [Lu Fu]. destruct (lift (fof _ (rfc_decode_u u))) as (d & y & Nd & O).
  pose proof (scalarmult_twice a b u d y La Fa Lb Fb Lu Fu Nd O) as AB.
  pose proof (scalarmult_twice b a u d y Lb Fb La Fa Lu Fu Nd O) as BA.
  rewrite (scalarmult_is b u d y) in AB by assumption. rewrite (scalarmult_is a u d y) in BA by assumption. cbn [bind] in AB, BA.
  do 3 eexists. split; [now apply (scalarmult_is a u d y)|]. split; [now apply (scalarmult_is b u d y)|].
  split; [exact AB|]. split; [rewrite BA; now rewrite Nat.mul_comm|].
  split; [apply le_encode_length|apply le_encode_is_bytes].
Qed.
Example C71_diffie_hellman_ex : bytes32 kat_x_s /\ bytes32 kat_x_ff /\ bytes32 base9.
Proof. split; [|split]; now apply bytes32_check. Qed.
(** More generally the order of any two scalars is irrelevant and scalars multiply. *)
Theorem C71_scalars_multiply : forall a b u d y, bytes32 a -> bytes32 b -> bytes32 u ->
  d <> fof p25519 0 -> on25519 d (Aff (fof _ (rfc_decode_u u)) y) ->
  exists q r, scalarmult b u = Ok q /\ scalarmult a q = Ok r /\ bytes32 r /\
    le_decode r = abscissa (mul25519 d (Z.to_nat (rfc_decode_scalar a * rfc_decode_scalar b)) (Aff (fof _ (rfc_decode_u u)) y)).
Proof.
  intros a b u d y [La Fa] [Lb Fb] [Lu Fu] Nd O.
  pose proof (scalarmult_twice a b u d y La Fa Lb Fb Lu Fu Nd O) as AB.
  rewrite (scalarmult_is b u d y) in AB by assumption. cbn [bind] in AB.
  eexists. eexists. split; [now apply (scalarmult_is b u d y)|]. split; [exact AB|].
  split; [split; [apply le_encode_length|apply le_encode_is_bytes]|].
  pose proof (scalar_range a). pose proof (scalar_range b). rewrite Z2Nat.inj_mul by lia.
  match goal with |- context [abscissa ?P] => pose proof (abscissa_range P) as R; set (v := abscissa P) in * end.
  rewrite le_decode_val, le_encode_bytes, le_val_le_bytes. apply Z.mod_small.
  change (256 ^ Z.of_nat 32) with (2 ^ 256). assert (p25519 < 2 ^ 256) by reflexivity. lia.
Qed.
Example C71_scalars_multiply_ex : bytes32 kat_x_s /\ bytes32 kat_x_ff /\ bytes32 base9 /\ fof p25519 1 <> fof _ 0 /\
  on25519 (fof _ 1) (Aff (fof _ (rfc_decode_u base9)) (fof _ base_y)).
Proof.
  split; [now apply bytes32_check|]. split; [now apply bytes32_check|]. split; [now apply bytes32_check|].
  split; [now apply ne0_check|]. apply on_check. vm_compute. reflexivity.
Qed.

(** * C60: public keys *)
(** "09" is one byte and the array type wants 32: the function panics for every secret. *)
Theorem C60_secret_to_public_always_panics : forall s, exists e, secret_to_public s = Panic e.
Proof. intros s. eexists. reflexivity. Qed.
Example C60_secret_to_public_always_panics_ex : secret_to_public kat_x_s = Panic PAssert.
Proof. reflexivity. Qed.
(** Full statement of C60: forall s, bytes32 s -> secret_to_public s = scalarmult s base9. *)
Theorem C60_secret_to_public_refuted : exists s, bytes32 s /\
  (exists r, scalarmult s base9 = Ok r) /\ secret_to_public s <> scalarmult s base9.
Proof.
  exists kat_x_s. assert (B : bytes32 kat_x_s) by now apply bytes32_check.
  assert (B9 : bytes32 base9) by now apply bytes32_check. split; [exact B|].
  rewrite (C59_scalarmult_is_rfc7748 _ _ B B9). split; [eexists; reflexivity|].
  destruct (C60_secret_to_public_always_panics kat_x_s) as [e ->]. discriminate.
Qed.
Print Assumptions C58_decode_scalar.
Print Assumptions C58_decode_scalar_unclamped_bits.
Print Assumptions C58_decode_point.
Print Assumptions C58_encode_point.
Print Assumptions C58_encode_decode.
Print Assumptions C59_scalarmult_is_rfc7748.
Print Assumptions C59_ladder_is_rfc7748.
Print Assumptions C59_curve_is_a_group.
Print Assumptions C59_ladder_step.
Print Assumptions C59_every_string_is_an_abscissa.
Print Assumptions C59_scalarmult_multiplies.
Print Assumptions C71_diffie_hellman.
Print Assumptions C71_scalars_multiply.
Print Assumptions C60_secret_to_public_always_panics.
Print Assumptions C60_secret_to_public_refuted.
