(** The X25519 model computes with residues modulo 2^255-19 and never panics. *)
From Coq Require Import ZArith Znumtheory Lia Bool List.
From Verif Require Import Base P_Base M_Int M_Seq M_Bytes M_BigInt M_NatMod M_X25519.
From Verif Require Import P_Seq P_Bytes P_BigInt P_Prime P_Mod P_Poly1305 S_Curve P_Curve P_X25519 S_X25519.
Import ListNotations.
Open Scope Z_scope.

Lemma x_p_eq : x_p = p25519. Proof. reflexivity. Qed.
Lemma x_p_prime : prime p25519. Proof. exact prime_25519. Qed.
Lemma x_p_odd : p25519 <> 2. Proof. discriminate. Qed.
Lemma x_p_range : 0 < p25519 < 2 ^ 256 - 1. Proof. split; reflexivity. Qed.
Lemma x_n_range : 0 < x_n < 2 ^ 256 - 1. Proof. split; reflexivity. Qed.

Notation Fq := (Fp p25519).
Definition e25519 : Fq := fof p25519 121665.

Section Ops.
  Let B : 0 < 256 := eq_refl.
  Lemma xadd_Ok (a b : Fq) : nm_add 256 x_p (fval a) (fval b) = Ok (fval (fadd a b)).
  Proof. rewrite x_p_eq. exact (nm_add_Ok 256 p25519 B x_p_range _ _). Qed.
  Lemma xmul_Ok (a b : Fq) : nm_mul 256 x_p (fval a) (fval b) = Ok (fval (fmul a b)).
  Proof. rewrite x_p_eq. exact (nm_mul_Ok 256 p25519 B x_p_range _ _). Qed.
  Lemma xsub_Ok (a b : Fq) : nm_sub 256 x_p (fval a) (fval b) = Ok (fval (fsub a b)).
  Proof.
    rewrite x_p_eq. apply (nm_sub_Ok 256 p25519 B x_p_range).
    pose proof (fval_range p25519 b ltac:(reflexivity)). lia.
  Qed.
  Lemma xsq_Ok (a : Fq) : nm_pow 256 x_p (fval a) 2 = Ok (fval (fmul a a)).
  Proof.
    rewrite x_p_eq. rewrite (nm_pow_Ok 256 p25519 B x_p_range) by (split; [discriminate|reflexivity]).
    rewrite Z.pow_2_r. reflexivity.
  Qed.
  Lemma xinv_Ok (a : Fq) : nm_inv 256 x_p (fval a) = Ok (fval (finv a)).
  Proof. rewrite x_p_eq. rewrite (nm_inv_Ok 256 p25519 B x_p_range) by discriminate. reflexivity. Qed.
  Lemma xlit_Ok c : 0 <= c < p25519 -> nm_from_literal 256 x_p c = Ok (fval (fof p25519 c)).
  Proof.
    intros H. rewrite x_p_eq. rewrite (nm_from_literal_Ok 256 p25519 B x_p_range) by lia.
    rewrite fval_of, Z.mod_small by assumption. reflexivity.
  Qed.
End Ops.

Definition pval (q : Fq * Fq) : xpoint := (fval (fst q), fval (snd q)).
Definition sval (s : lpair p25519) : xpoint * xpoint := (pval (fst s), pval (snd s)).

Lemma step_Ok (u : Fq) (z : Z) (s : lpair p25519) :
  point_add_and_double (fval u, z) (sval s) = Ok (sval (lstep p25519 e25519 u s)).
Proof.
  destruct s as [[a2 b2] [a3 b3]]. unfold sval, pval, point_add_and_double. cbn [fst snd].
  rewrite xadd_Ok. cbn [bind]. rewrite xsq_Ok. cbn [bind]. rewrite xsub_Ok. cbn [bind].
  rewrite xmul_Ok. cbn [bind]. rewrite xsub_Ok. cbn [bind]. rewrite xadd_Ok. cbn [bind].
  rewrite xsub_Ok. cbn [bind]. rewrite xmul_Ok. cbn [bind]. rewrite xmul_Ok. cbn [bind].
  rewrite xadd_Ok. cbn [bind]. rewrite xsq_Ok. cbn [bind]. rewrite xsub_Ok. cbn [bind].
  rewrite xsq_Ok. cbn [bind]. rewrite xmul_Ok. cbn [bind]. rewrite xmul_Ok. cbn [bind].
  rewrite xlit_Ok by (split; [discriminate|reflexivity]). cbn [bind].
  rewrite xmul_Ok. cbn [bind]. rewrite xadd_Ok. cbn [bind]. rewrite xmul_Ok. cbn [bind].
  reflexivity.
Qed.

(** bits of k, the most significant of n first *)
Definition kbits (n : nat) (k : Z) : list bool := map (fun i => Z.testbit k (Z.of_nat (n - 1 - i))) (seq 0 n).
Lemma bval_app m a b : bval m (a ++ b) = bval (bval m a) b.
Proof. apply fold_left_app. Qed.
Lemma bval_kbits n k : 0 <= k -> bval 0 (kbits n k) = Z.to_nat (k mod 2 ^ Z.of_nat n).
Proof.
  revert k. induction n as [|n IH]; intros k Hk.
  - cbn. now rewrite Z.mod_1_r.
  - assert (E : kbits (S n) k = kbits n (k / 2) ++ [Z.testbit k 0]).
    { unfold kbits. rewrite seq_S, map_app. f_equal.
      - apply map_ext_in. intros i Hi. apply in_seq in Hi. rewrite Z.div2_bits by lia.
        f_equal. lia.
      - cbn [map]. do 2 f_equal. lia. }
    rewrite E, bval_app, IH by (apply Z.div_pos; lia). cbn [bval fold_left].
    rewrite Nat2Z.inj_succ, Z.pow_succ_r by lia.
    assert (0 < 2 ^ Z.of_nat n) by (apply Z.pow_pos_nonneg; lia).
    rewrite Z.rem_mul_r by lia. pose proof (Z.mod_pos_bound (k / 2) (2 ^ Z.of_nat n) ltac:(lia)).
    rewrite Z.bit0_odd. pose proof (Zmod_odd k) as O. rewrite O. destruct (Z.odd k); cbn [Nat.b2n]; lia.
Qed.
Lemma bit_Ok k j : (j < 256)%nat -> nm_bit 256 k j = Ok (Z.testbit k (Z.of_nat j)).
Proof.
  intros H. unfold nm_bit, bbit. rewrite assert_true; [|apply Nat.ltb_lt; change (blen 256 * 8)%nat with 256%nat; exact H].
  cbn [bind]. f_equal. rewrite Z.testbit_odd. change 1 with (Z.ones 1) at 1. rewrite Z.land_ones by lia.
  change (2 ^ 1) with 2. rewrite Zmod_odd. now destruct (Z.odd _).
Qed.
Lemma turn_Ok k u z i (s : lpair p25519) : (i < 256)%nat ->
  x_ladder_step k (fval u, z) i (sval s) = Ok (sval (lturn p25519 e25519 u s (Z.testbit k (Z.of_nat (255 - i))))).
Proof.
  intros H. unfold x_ladder_step. rewrite usub_Ok by lia. cbn [bind]. rewrite bit_Ok by lia. cbn [bind].
  unfold lturn. destruct (Z.testbit _ _); [|apply step_Ok].
  change (xswap (sval s)) with (sval (lswap p25519 s)). cbv zeta. rewrite step_Ok. cbn [bind]. reflexivity.
Qed.
Lemma for_range_fold {S A} (f : nat -> S -> res S) (g : A -> bool -> A) (h : A -> S) (c : nat -> bool) n :
  forall start a, (forall i a, (start <= i < start + n)%nat -> f i (h a) = Ok (h (g a (c i)))) ->
  for_range start n f (h a) = Ok (h (fold_left g (map c (seq start n)) a)).
Proof.
  induction n as [|n IH]; intros start a H; [reflexivity|]. cbn [for_range seq map fold_left].
  rewrite H by lia. cbn [bind]. apply IH. intros i a' Hi. apply H. lia.
Qed.
Lemma ladder_Ok k u : 0 <= k ->
  x_montgomery_ladder k (fval u, 1) =
    Ok (pval (fst (fold_left (lturn p25519 e25519 u) (kbits 256 k) (linit p25519 u)))).
Proof.
  intros Hk. unfold x_montgomery_ladder. rewrite !xlit_Ok by (split; [discriminate|reflexivity]). cbn [bind].
  pose proof (for_range_fold (x_ladder_step k (fval u, 1)) (lturn p25519 e25519 u) sval
    (fun i => Z.testbit k (Z.of_nat (255 - i))) 256 0 (linit p25519 u)) as L.
  match goal with |- bind ?X ?g = _ => assert (EX : X = Ok (sval (fold_left (lturn p25519 e25519 u)
    (map (fun i => Z.testbit k (Z.of_nat (255 - i))) (seq 0 256)) (linit p25519 u)))) end.
  { apply L. intros i a Hi. apply turn_Ok. lia. }
  rewrite EX. cbn [bind]. reflexivity.
Qed.

(** ** Decoding and encoding *)
Lemma le_decode_val l : le_decode l = le_val l.
Proof. induction l as [|x l IH]; [reflexivity|]. cbn. now rewrite IH. Qed.
Lemma le_encode_bytes n v : le_encode n v = le_bytes n v.
Proof. revert v; induction n as [|n IH]; intros v; [reflexivity|]. cbn. now rewrite IH. Qed.
Lemma le_val_set_nth l i v : (i < length l)%nat ->
  le_val (set_nth l i v) = le_val l + 256 ^ Z.of_nat i * (v - nth i l 0).
Proof.
  revert i; induction l as [|x l IH]; intros i H; cbn in H; [lia|]. destruct i as [|i].
  - cbn [set_nth le_val nth]. change (256 ^ Z.of_nat 0) with 1. ring.
  - cbn [set_nth le_val nth]. rewrite IH by lia. rewrite pow256_S. ring.
Qed.
Lemma mask_low b : 0 <= b < 256 -> Z.land b 248 = 8 * (b / 8).
Proof.
  intros H. assert (C : forallb (fun n => Z.land (Z.of_nat n) 248 =? 8 * (Z.of_nat n / 8)) (seq 0 256) = true) by (vm_compute; reflexivity).
  rewrite forallb_forall in C. specialize (C (Z.to_nat b)). rewrite in_seq in C. specialize (C ltac:(lia)).
  rewrite Z2Nat.id in C by lia. now apply Z.eqb_eq.
Qed.
Lemma mask_top b : 0 <= b < 256 -> Z.lor (Z.land b 127) 64 = 64 + b mod 64.
Proof.
  intros H. assert (C : forallb (fun n => Z.lor (Z.land (Z.of_nat n) 127) 64 =? 64 + Z.of_nat n mod 64) (seq 0 256) = true) by (vm_compute; reflexivity).
  rewrite forallb_forall in C. specialize (C (Z.to_nat b)). rewrite in_seq in C. specialize (C ltac:(lia)).
  rewrite Z2Nat.id in C by lia. now apply Z.eqb_eq.
Qed.
Lemma mask_127 b : 0 <= b < 256 -> Z.land b 127 = b mod 128.
Proof. intros H. change 127 with (Z.ones 7). now rewrite Z.land_ones by lia. Qed.
Lemma nth_byte l i : is_bytes l -> (i < length l)%nat -> 0 <= nth i l 0 < 256.
Proof. intros B H. unfold is_bytes in B. rewrite Forall_forall in B. apply B. now apply nth_In. Qed.
Lemma le_val_split l : length l = 32%nat -> is_bytes l -> exists m, 0 <= m < 256 ^ 30 /\
  le_val l = nth 0 l 0 + 256 * m + 256 ^ 31 * nth 31 l 0.
Proof.
  intros L B. destruct l as [|x l]; [discriminate|]. injection L as L.
  destruct (exists_last (l := l)) as (m & y & ->); [intros ->; discriminate|]. rewrite app_length in L. cbn in L.
  exists (le_val m). apply Forall_inv_tail in B. apply Forall_app in B as [B _]. pose proof (le_val_range m B) as R.
  assert (Lm : length m = 30%nat) by lia. rewrite Lm in R. split; [exact R|].
  cbn [le_val nth]. rewrite le_val_app, Lm. rewrite app_nth2 by lia. rewrite Lm. cbn [Nat.sub nth le_val].
  change (256 ^ 31) with (256 * 256 ^ Z.of_nat 30). ring.
Qed.
Lemma mask_scalar_Ok s : length s = 32%nat -> is_bytes s ->
  exists k, mask_scalar s = Ok k /\ length k = 32%nat /\ is_bytes k /\ le_val k = rfc_decode_scalar s.
Proof.
  intros L B. unfold mask_scalar, op_and, op_or.
  pose proof (nth_byte s 0 B ltac:(lia)) as B0. pose proof (nth_byte s 31 B ltac:(lia)) as B31.
  rewrite (idx_Ok _ _ 0) by lia. cbn [bind]. rewrite upd_Ok by lia. cbn [bind].
  set (s1 := set_nth s 0 _). assert (L1 : length s1 = 32%nat) by (unfold s1; now rewrite set_nth_length).
  rewrite (idx_Ok _ _ 0) by lia. cbn [bind]. rewrite upd_Ok by lia. cbn [bind].
  set (s2 := set_nth s1 31 _). assert (L2 : length s2 = 32%nat) by (unfold s2; now rewrite set_nth_length).
  rewrite (idx_Ok _ _ 0) by lia. cbn [bind]. rewrite upd_Ok by lia.
  assert (N1 : nth 31 s1 0 = nth 31 s 0).
  { unfold s1. rewrite nth_set_nth. reflexivity. }
  assert (N2 : nth 31 s2 0 = Z.land (nth 31 s 0) 127).
  { unfold s2. rewrite nth_set_nth. rewrite N1, L1. reflexivity. }
  eexists. split; [reflexivity|]. split; [now rewrite set_nth_length|].
  rewrite N2, mask_top by assumption.
  assert (B1 : is_bytes s1).
  { apply Forall_set_nth; [assumption|]. rewrite mask_low by assumption. pose proof (Z.div_pos (nth 0 s 0) 8). 
    pose proof (Z.mul_div_le (nth 0 s 0) 8). lia. }
  assert (B2 : is_bytes s2).
  { apply Forall_set_nth; [assumption|]. rewrite N1, mask_127 by assumption. pose proof (Z.mod_pos_bound (nth 31 s 0) 128). lia. }
  split.
  { apply Forall_set_nth; [assumption|]. pose proof (Z.mod_pos_bound (nth 31 s 0) 64). lia. }
  rewrite le_val_set_nth by lia. rewrite N2. unfold s2. rewrite le_val_set_nth by lia. rewrite N1.
  unfold s1. rewrite le_val_set_nth by lia. rewrite mask_low, mask_127 by assumption.
  unfold rfc_decode_scalar. change (le_decode s) with (le_val s).
  destruct (le_val_split s L B) as (m & Hm & ->).
  clear N1 N2 B1 B2 L1 L2 s2 s1. generalize dependent (nth 0 s 0). generalize dependent (nth 31 s 0). intros y B31 x B0.
  change (Z.of_nat 0) with 0. change (256 ^ 0) with 1. change (256 ^ Z.of_nat 31) with (256 ^ 31).
  pose proof (Z.div_mod x 8 ltac:(lia)). pose proof (Z.mod_pos_bound x 8 ltac:(lia)).
  pose proof (Z.div_mod y 64 ltac:(lia)). pose proof (Z.mod_pos_bound y 64 ltac:(lia)).
  assert (Q : (x + 256 * m + 256 ^ 31 * y) mod 2 ^ 254 = x + 256 * m + 256 ^ 31 * (y mod 64)).
  { symmetry. apply Z.mod_unique with (q := y / 64). { left. change (2 ^ 254) with (256 ^ 31 * 64). change (256 ^ 31) with (256 * 256 ^ 30) in *. nia. }
    change (2 ^ 254) with (256 ^ 31 * 64). nia. }
  rewrite Q.
  assert (Q2 : (x + 256 * m + 256 ^ 31 * (y mod 64)) / 8 = x / 8 + 32 * m + 32 * 256 ^ 30 * (y mod 64)).
  { symmetry. apply Z.div_unique with (r := x mod 8); [left; lia|]. change (256 ^ 31) with (256 * 256 ^ 30). lia. }
  rewrite Q2. change (2 ^ 254) with (256 ^ 31 * 64). change (256 ^ 31) with (256 * 256 ^ 30). lia.
Qed.
Lemma scalar_range s : 2 ^ 254 <= rfc_decode_scalar s < 2 ^ 255.
Proof.
  unfold rfc_decode_scalar. pose proof (Z.mod_pos_bound (le_decode s) (2 ^ 254) ltac:(reflexivity)).
  pose proof (Z.mul_div_le (le_decode s mod 2 ^ 254) 8 ltac:(lia)).
  pose proof (Z.div_pos (le_decode s mod 2 ^ 254) 8 ltac:(lia) ltac:(lia)). lia.
Qed.
Lemma decode_scalar_Ok s : length s = 32%nat -> is_bytes s -> decode_scalar s = Ok (rfc_decode_scalar s).
Proof.
  intros L B. unfold decode_scalar. destruct (mask_scalar_Ok s L B) as (k & -> & Lk & Bk & V). cbn [bind].
  unfold nm_from_byte_seq_le. replace (map declassify k) with k by (unfold declassify; symmetry; apply map_id).
  pose proof (scalar_range s). rewrite (nm_from_le_bytes_Ok 256 x_n eq_refl x_n_range); [|assumption|lia].
  rewrite V. f_equal. apply Z.mod_small. change x_n with (2 ^ 255). lia.
Qed.
Lemma decode_point_Ok u : length u = 32%nat -> is_bytes u -> decode_point u = Ok (fval (fof p25519 (rfc_decode_u u)), 1).
Proof.
  intros L B. unfold decode_point, op_and. pose proof (nth_byte u 31 B ltac:(lia)) as B31.
  rewrite (idx_Ok _ _ 0) by lia. cbn [bind]. rewrite upd_Ok by lia. cbn [bind]. rewrite mask_127 by assumption.
  set (u1 := set_nth u 31 _). assert (L1 : length u1 = 32%nat) by (unfold u1; now rewrite set_nth_length).
  pose proof (Z.mod_pos_bound (nth 31 u 0) 128 ltac:(lia)).
  assert (B1 : is_bytes u1) by (apply Forall_set_nth; [assumption|lia]).
  assert (V : le_val u1 = le_decode u mod 2 ^ 255).
  { unfold u1. rewrite le_val_set_nth by lia. change (le_decode u) with (le_val u).
    destruct (le_val_split u L B) as (m & Hm & ->). pose proof (nth_byte u 0 B ltac:(lia)).
    pose proof (Z.div_mod (nth 31 u 0) 128 ltac:(lia)).
    apply Z.mod_unique with (q := nth 31 u 0 / 128).
    - left. change (2 ^ 255) with (256 ^ 31 * 128). change (256 ^ Z.of_nat 31) with (256 ^ 31).
      change (256 ^ 31) with (256 * 256 ^ 30) in *. nia.
    - change (2 ^ 255) with (256 ^ 31 * 128). change (256 ^ Z.of_nat 31) with (256 ^ 31). nia. }
  unfold nm_from_byte_seq_le. replace (map declassify u1) with u1 by (unfold declassify; symmetry; apply map_id).
  rewrite x_p_eq. pose proof (Z.mod_pos_bound (le_decode u) (2 ^ 255) ltac:(reflexivity)) as R. rewrite <- V in R.
  rewrite (nm_from_le_bytes_Ok 256 p25519 eq_refl x_p_range); [|assumption|lia]. cbn [bind].
  rewrite (nm_from_literal_Ok 256 p25519 eq_refl x_p_range) by (split; discriminate). cbn [bind].
  rewrite V. unfold rfc_decode_u. rewrite fval_of, Zmod_mod. reflexivity.
Qed.
Lemma encode_point_Ok (q : Fq * Fq) : encode_point (pval q) = Ok (le_encode 32 (fval (fmul (fst q) (finv (snd q))))).
Proof.
  destruct q as [x z]. unfold encode_point, pval. cbn [fst snd]. rewrite xinv_Ok. cbn [bind]. rewrite xmul_Ok. cbn [bind].
  set (v := fval _). assert (R : 0 <= v < p25519) by (apply fval_range; reflexivity).
  unfold nm_to_byte_seq_le, nm_to_le_bytes. replace (map classify (bto_le_bytes v)) with (bto_le_bytes v) by (unfold classify; symmetry; apply map_id).
  assert (NB : (nbytes v <= 32)%nat) by (apply nbytes_le; [lia|]; change (256 ^ Z.of_nat 32) with (2 ^ 256); unfold p25519 in R; lia).
  rewrite (update_start_Ok 0) by (unfold seq_new; rewrite repeat_length, bto_le_bytes_length; exact NB).
  f_equal. rewrite le_encode_bytes. apply le_val_inj.
  - rewrite app_length, skipn_length, le_bytes_length, bto_le_bytes_length. unfold seq_new. rewrite repeat_length. lia.
  - apply Forall_app. split; [apply bto_le_bytes_bytes|]. apply Forall_skipn. apply Forall_forall. intros b Hb. apply repeat_spec in Hb. lia.
  - apply le_bytes_is_bytes.
  - rewrite bto_le_bytes_length.
    replace (skipn (nbytes v) (seq_new 0 32)) with (repeat 0 (32 - nbytes v)).
    + rewrite le_val_zeros, le_bytes_nbytes by lia. rewrite le_val_le_bytes. symmetry. apply Z.mod_small.
      change (256 ^ Z.of_nat 32) with (2 ^ 256). unfold p25519 in R. lia.
    + unfold seq_new. replace 32%nat with (nbytes v + (32 - nbytes v))%nat at 2 by lia.
      rewrite repeat_app, skipn_app, repeat_length, Nat.sub_diag, skipn_all2 by (rewrite repeat_length; lia). reflexivity.
Qed.

(** ** The pseudo-code of the RFC *)
Definition of_rfc (s : rfc_state) (t : lpair p25519) : Prop :=
  let w := if sw s =? 1 then lswap p25519 t else t in
  (sw s = 0 \/ sw s = 1) /\ x2 s = fval (fst (fst w)) /\ z2 s = fval (snd (fst w)) /\
  x3 s = fval (fst (snd w)) /\ z3 s = fval (snd (snd w)).
Lemma rfc_bit k t : Z.land (Z.shiftr k (Z.of_nat t)) 1 = Z.b2z (Z.testbit k (Z.of_nat t)).
Proof.
  change 1 with (Z.ones 1). rewrite Z.land_ones by lia. change (2 ^ 1) with 2.
  rewrite Z.testbit_odd. rewrite Zmod_odd. now destruct (Z.odd _).
Qed.
Lemma rfc_turn_ok k u s t j : of_rfc s t ->
  of_rfc (rfc_turn k (fval u) s j) (lturn p25519 e25519 u t (Z.testbit k (Z.of_nat j))).
Proof.
  intros (S & X2 & Z2 & X3 & Z3). unfold rfc_turn. rewrite rfc_bit. set (b := Z.testbit k (Z.of_nat j)).
  assert (E : exists w, w = (if b then lswap p25519 t else t) /\ rfc_swap s (Z.lxor (sw s) (Z.b2z b)) =
    {| x2 := fval (fst (fst w)); z2 := fval (snd (fst w)); x3 := fval (fst (snd w)); z3 := fval (snd (snd w)); sw := Z.lxor (sw s) (Z.b2z b) |}).
  { eexists. split; [reflexivity|]. unfold rfc_swap, cswap. rewrite X2, Z2, X3, Z3. destruct t as [[a2 b2] [a3 b3]].
    destruct S as [-> | ->]; destruct b; reflexivity. }
  destruct E as (w & Ew & ->). cbn [x2 z2 x3 z3 sw]. clear X2 Z2 X3 Z3 S.
  assert (L : (if b then lswap p25519 (lturn p25519 e25519 u t b) else lturn p25519 e25519 u t b) = lstep p25519 e25519 u w).
  { rewrite Ew. destruct b; [|reflexivity]. unfold lturn. destruct (lstep p25519 e25519 u (lswap p25519 t)) as [? ?]. reflexivity. }
  unfold of_rfc. cbn [x2 z2 x3 z3 sw].
  assert (BE : (Z.b2z b =? 1) = b) by now destruct b. rewrite BE, L. destruct w as [[a2 b2] [a3 b3]]. cbn [fst snd lstep].
  assert (M : forall X (f : Fq), fof p25519 X = f -> X mod p25519 = fval f) by (intros X f <-; reflexivity).
  split; [destruct b; auto|].
  assert (P : forall X (Y : Fq), X = fval Y -> fof p25519 X = Y) by (intros X Y ->; apply fof_val).
  repeat split; apply M; rewrite ?Z.pow_2_r; repeat (rewrite ?fof_mul, ?fof_add, ?fof_sub, ?fof_val); reflexivity.
Qed.
Lemma rfc_fold_ok k u ts : forall s t, of_rfc s t ->
  of_rfc (fold_left (rfc_turn k (fval u)) ts s)
         (fold_left (lturn p25519 e25519 u) (map (fun j => Z.testbit k (Z.of_nat j)) ts) t).
Proof.
  induction ts as [|j ts IH]; intros s t H; [exact H|]. cbn [fold_left map]. apply IH. now apply rfc_turn_ok.
Qed.
Lemma rfc_ladder_ok k (u : Fq) :
  rfc_ladder k (fval u) = fval (lout p25519 (fold_left (lturn p25519 e25519 u) (kbits 255 k) (linit p25519 u))).
Proof.
  assert (I : of_rfc {| x2 := 1; z2 := 0; x3 := fval u; z3 := 1; sw := 0 |} (linit p25519 u)) by (unfold of_rfc; cbn; auto).
  pose proof (rfc_fold_ok k u (rev (seq 0 255)) _ _ I) as H. clear I.
  replace (map (fun j => Z.testbit k (Z.of_nat j)) (rev (seq 0 255))) with (kbits 255 k) in H.
  2: { unfold kbits. change (rev (seq 0 255)) with (map (fun i => (255 - 1 - i)%nat) (seq 0 255)). now rewrite map_map. }
  unfold rfc_ladder, rfc_loop. revert H. generalize (fold_left (rfc_turn k (fval u)) (rev (seq 0 255)) {| x2 := 1; z2 := 0; x3 := fval u; z3 := 1; sw := 0 |}).
  generalize (fold_left (lturn p25519 e25519 u) (kbits 255 k) (linit p25519 u)). intros t s (S & X2 & Z2 & X3 & Z3).
  destruct t as [[a2 b2] [a3 b3]].
  assert (E : x2 (rfc_swap s (sw s)) = fval a2 /\ z2 (rfc_swap s (sw s)) = fval b2).
  { unfold rfc_swap, cswap. rewrite X2, Z2, X3, Z3. destruct S as [-> | ->]; split; reflexivity. }
  destruct E as [-> ->]. unfold lout, fmul, finv. cbn [fst snd]. rewrite !fval_of. now rewrite Zmult_mod_idemp_r.
Qed.
