(** X25519 as a whole: equality with the RFC's function, multiplication of points, Diffie-Hellman. *)
From Coq Require Import ZArith Znumtheory Lia Bool List.
From Verif Require Import Base P_Base M_Int M_Seq M_Bytes M_BigInt M_NatMod M_X25519.
From Verif Require Import P_Seq P_Bytes P_BigInt P_Prime P_Mod P_Poly1305 S_Curve P_Curve P_Square P_X25519 S_X25519 P_X25519M.
Import ListNotations.
Open Scope Z_scope.

Add Field F25519 : (fp_field p25519 x_p_prime) (morphism (fp_morph p25519), constants [fp_const]).
Lemma A_eq : mA p25519 e25519 = fof p25519 486662.
Proof. apply fval_inj. vm_compute. reflexivity. Qed.
Lemma A_ok : fmul e25519 (fadd e25519 (fof _ 1)) <> fof p25519 0.
Proof. intros H. apply (f_equal fval) in H. vm_compute in H. discriminate. Qed.
Lemma nonsing25519 : nonsingular p25519 (fof _ 486662) (fof _ 1) (fof _ 0).
Proof. rewrite <- A_eq. apply mont_nonsingular; [exact x_p_prime|exact x_p_odd|exact A_ok]. Qed.
Lemma one_ne : fof p25519 1 <> fof p25519 0.
Proof. intros H. apply (f_equal fval) in H. vm_compute in H. discriminate. Qed.
Lemma two_ne25519 : fof p25519 2 <> fof p25519 0.
Proof. intros H. apply (f_equal fval) in H. vm_compute in H. discriminate. Qed.
Lemma xc_abscissa (P : point p25519) : fval (xc p25519 P) = abscissa P.
Proof. destruct P; [vm_compute; reflexivity|reflexivity]. Qed.

Lemma ladder25519 d (u y : Fq) bs : d <> fof _ 0 -> on25519 d (Aff u y) ->
  fval (lout p25519 (fold_left (lturn p25519 e25519 u) bs (linit p25519 u))) = abscissa (mul25519 d (bval 0 bs) (Aff u y)).
Proof.
  intros Nd O. rewrite <- xc_abscissa. f_equal. unfold mul25519, on25519 in *. rewrite <- A_eq in *.
  apply ladder_mul; [exact x_p_prime|exact x_p_odd|exact Nd|exact A_ok|exact O].
Qed.
(** every residue is the abscissa of a point of the curve or of its twist *)
Lemma on_either (u : Fq) : exists y, on25519 (fof _ 1) (Aff u y) \/ on25519 (fof _ 2) (Aff u y).
Proof.
  destruct (square_or_twice p25519 x_p_prime ((p25519 - 1) / 4) ((p25519 + 3) / 8) eq_refl eq_refl) with
    (z := cubic p25519 (fof _ 486662) (fof _ 1) (fof _ 0) u) as [y E].
  { unfold fpw. apply fval_inj. rewrite fval_of. change (fval (fof p25519 2)) with 2.
    rewrite <- fpow_spec; [vm_compute; reflexivity|discriminate|vm_compute; discriminate]. }
  exists y. unfold on25519, on_curve. destruct E as [E|E]; rewrite E; [left; ring|right; reflexivity].
Qed.
Lemma lift (u : Fq) : exists d y, d <> fof _ 0 /\ on25519 d (Aff u y).
Proof.
  destruct (on_either u) as (y & [H|H]); [exists (fof _ 1), y|exists (fof _ 2), y]; (split; [|exact H]).
  - apply one_ne.
  - apply two_ne25519.
Qed.

Lemma bits_small n k : 0 <= k < 2 ^ Z.of_nat n -> bval 0 (kbits n k) = Z.to_nat k.
Proof. intros H. rewrite bval_kbits by lia. now rewrite Z.mod_small by exact H. Qed.

Lemma scalarmult_is s u d y : length s = 32%nat -> is_bytes s -> length u = 32%nat -> is_bytes u ->
  d <> fof _ 0 -> on25519 d (Aff (fof _ (rfc_decode_u u)) y) ->
  scalarmult s u = Ok (le_encode 32 (abscissa (mul25519 d (Z.to_nat (rfc_decode_scalar s)) (Aff (fof _ (rfc_decode_u u)) y)))).
Proof.
  intros Ls Bs Lu Bu Nd O. unfold scalarmult. rewrite decode_scalar_Ok by assumption. cbn [bind].
  rewrite decode_point_Ok by assumption. cbn [bind]. pose proof (scalar_range s) as R.
  rewrite ladder_Ok by lia. cbn [bind]. rewrite encode_point_Ok. do 2 f_equal.
  etransitivity; [exact (ladder25519 d _ y _ Nd O)|]. rewrite bits_small by (change (Z.of_nat 256) with 256; lia). reflexivity.
Qed.
Lemma scalarmult_rfc s u : length s = 32%nat -> is_bytes s -> length u = 32%nat -> is_bytes u ->
  scalarmult s u = Ok (rfc_x25519 s u).
Proof.
  intros Ls Bs Lu Bu. destruct (lift (fof _ (rfc_decode_u u))) as (d & y & Nd & O).
  rewrite (scalarmult_is s u d y) by assumption. unfold rfc_x25519. do 2 f_equal.
  assert (E : rfc_decode_u u = fval (fof p25519 (rfc_decode_u u))).
  { rewrite fval_of. symmetry. apply Z.mod_small. apply Z.mod_pos_bound. reflexivity. }
  transitivity (rfc_ladder (rfc_decode_scalar s) (fval (fof p25519 (rfc_decode_u u)))); [|now rewrite <- E].
  rewrite rfc_ladder_ok. rewrite (ladder25519 d _ y) by assumption.
  pose proof (scalar_range s) as R. rewrite bits_small by (change (Z.of_nat 255) with 255; lia). reflexivity.
Qed.

Lemma abscissa_range (P : point p25519) : 0 <= abscissa P < p25519.
Proof. destruct P; [split; [discriminate|reflexivity]|]. apply fval_range. reflexivity. Qed.
Lemma decode_encode v : 0 <= v < p25519 -> rfc_decode_u (le_encode 32 v) = v.
Proof.
  intros H. unfold rfc_decode_u. rewrite le_decode_val, le_encode_bytes, le_val_le_bytes.
  change (256 ^ Z.of_nat 32) with (2 ^ 256). unfold p25519 in H.
  rewrite (Z.mod_small v (2 ^ 256)) by lia. rewrite (Z.mod_small v (2 ^ 255)) by lia. apply Z.mod_small. exact H.
Qed.
Lemma le_encode_length n v : length (le_encode n v) = n.
Proof. rewrite le_encode_bytes. apply le_bytes_length. Qed.
Lemma le_encode_is_bytes n v : is_bytes (le_encode n v).
Proof. rewrite le_encode_bytes. apply le_bytes_is_bytes. Qed.

Lemma mul_mul25519 d m n P : d <> fof _ 0 -> on25519 d P -> mul25519 d m (mul25519 d n P) = mul25519 d (m * n) P.
Proof.
  intros Nd O. exact (mul_mul p25519 x_p_prime x_p_odd _ _ _ d Nd nonsing25519 m n P O).
Qed.
Lemma on_mul25519 d n P : d <> fof _ 0 -> on25519 d P -> on25519 d (mul25519 d n P).
Proof. intros Nd O. exact (on_mul p25519 x_p_prime x_p_odd _ _ _ d Nd n P O). Qed.

(** the result of a second multiplication *)
Lemma scalarmult_twice a b u d y : length a = 32%nat -> is_bytes a -> length b = 32%nat -> is_bytes b ->
  length u = 32%nat -> is_bytes u -> d <> fof _ 0 -> on25519 d (Aff (fof _ (rfc_decode_u u)) y) ->
  bind (scalarmult b u) (scalarmult a) =
  Ok (le_encode 32 (abscissa (mul25519 d (Z.to_nat (rfc_decode_scalar a) * Z.to_nat (rfc_decode_scalar b)) (Aff (fof _ (rfc_decode_u u)) y)))).
Proof.
  intros La Ba Lb Bb Lu Bu Nd O. rewrite (scalarmult_is b u d y) by assumption. cbn [bind].
  rewrite <- mul_mul25519 by assumption. pose proof (on_mul25519 d (Z.to_nat (rfc_decode_scalar b)) _ Nd O) as OQ.
  set (Q := mul25519 d (Z.to_nat (rfc_decode_scalar b)) _) in *. clearbody Q.
  pose proof (decode_encode (abscissa Q) (abscissa_range Q)) as DE.
  assert (OZ : on25519 d (Aff (fof _ 0) (fof _ 0))) by (unfold on25519, on_curve, cubic; ring).
  destruct Q as [|x z].
  - rewrite (scalarmult_is a _ d (fof _ 0)); [|assumption|assumption|apply le_encode_length|apply le_encode_is_bytes|assumption|rewrite DE; exact OZ].
    do 2 f_equal. rewrite DE. cbn [abscissa].
    replace (mul25519 d (Z.to_nat (rfc_decode_scalar a)) Inf) with (@Inf p25519) by (symmetry; apply mul_inf). cbn [abscissa].
    unfold mul25519. rewrite <- A_eq. destruct (torsion_mul p25519 x_p_prime e25519 d (Z.to_nat (rfc_decode_scalar a))) as [-> | ->];
      [reflexivity|vm_compute; reflexivity].
  - assert (EX : fof p25519 (rfc_decode_u (le_encode 32 (fval x))) = x) by (cbn [abscissa] in DE; rewrite DE; apply fof_val).
    cbn [abscissa]. rewrite (scalarmult_is a _ d z); [|assumption|assumption|apply le_encode_length|apply le_encode_is_bytes|assumption|].
    + now rewrite EX.
    + now rewrite EX.
Qed.
