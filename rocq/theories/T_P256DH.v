(** Diffie-Hellman over P-256 with the functions of p256.rs: C81. *)
From Coq Require Import ZArith Znumtheory List Bool Arith Lia Field.
From Verif Require Import Base M_Int M_NatMod M_P256 P_Prime S_Curve P_Curve P_Jacobian P_Group P_Order S_P256 P_P256 P_OrderP256 T_P256 T_OrderP256.
Import ListNotations.
Open Scope Z_scope.
#[local] Opaque Z.to_nat.

(** The ladder started at the affine point (x, y, 1), converted back to affine coordinates. *)
Lemma ladder_affine u v k : on256 (Aff u v) -> 0 <= k < 2 ^ 256 ->
  (let* j := ec_montgomery_ladder k (fval u, fval v, 1) in jacobian_to_affine j) =
  Ok (coordinates (mul256 (Z.to_nat k) (Aff u v))).
Proof.
  intros O Hk.
  assert (V : forall c, 0 <= c < p256 -> fval (fof p256 c) = c) by (intros c Hc; rewrite fval_of; now apply Z.mod_small).
  assert (R1 : jrep p256 (u, v, fof _ 1) (Aff u v)).
  { cbn [jrep]. split; [exact ec_one|]. split; ring. }
  destruct (ec_ladder_Ok (Aff u v) k _ O Hk R1) as (w & E & R). unfold jv in E at 1.
  rewrite (V 1) in E by (split; [discriminate|reflexivity]). rewrite E. cbn [bind].
  rewrite affine_Ok. rewrite (jaff_rep p256 ec_prime ec_odd w _ R). destruct (mul256 _ _); cbn [acoord coordinates fst snd]; [|reflexivity].
  rewrite !V by (split; [discriminate|reflexivity]). reflexivity.
Qed.
Lemma coordinates_aff P : coordinates P <> (0, 0) -> exists u v, P = Aff u v.
Proof. destruct P as [|u v]; [intros H; now destruct H|]. intros _. now exists u, v. Qed.
Lemma mul256_mul i j P : on256 P -> mul256 i (mul256 j P) = mul256 (i * j) P.
Proof. exact (g_mul_mul p256 ec_prime ec_odd _ _ _ _ ec_one nonsing256 i j P). Qed.
Lemma mul256_G_mod k : 0 <= k -> mul256 (Z.to_nat k) G256 = mul256 (Z.to_nat (k mod n256)) G256.
Proof.
  intros Hk. assert (0 < n256) by reflexivity. pose proof (Z.mod_pos_bound k n256 ltac:(lia)).
  apply (g_order_mod p256 ec_prime ec_odd _ _ _ _ ec_one nonsing256 G256 nn _ _ on_G256 order_G).
  apply mod_nat_gen; [reflexivity|lia|lia|]. now rewrite Zmod_mod.
Qed.
Lemma ladder_of_point_mul a b x y : 0 <= a < 2 ^ 256 -> 0 <= b < 2 ^ 256 ->
  point_mul b = Ok (x, y) -> (x, y) <> (0, 0) ->
  (let* j := ec_montgomery_ladder a (x, y, 1) in jacobian_to_affine j) =
    Ok (coordinates (mul256 (Z.to_nat ((a * b) mod n256)) G256)).
Proof.
  intros Ha Hb E N. rewrite (C62_point_mul b Hb) in E. 
  assert (C : coordinates (mul256 (Z.to_nat b) G256) = (x, y)) by congruence.
  pose proof (on_mul256 (Z.to_nat b) G256 on_G256) as O.
  destruct (coordinates_aff (mul256 (Z.to_nat b) G256)) as (u & v & P); [now rewrite C|].
  rewrite P in C, O. cbn [coordinates] in C. injection C as <- <-.
  rewrite (ladder_affine u v a O Ha), <- P, mul256_mul by exact on_G256.
  rewrite <- Z2Nat.inj_mul by lia. now rewrite <- (mul256_G_mod (a * b)) by nia.
Qed.

(** Both sides of the exchange obtain the point [ab]G, which is not the (0, 0) standing for infinity, and which
    point_mul computes from the product of the scalars modulo n. *)
Theorem C81_diffie_hellman : forall a b xa ya xb yb, 0 <= a < 2 ^ 256 -> 0 <= b < 2 ^ 256 ->
  point_mul a = Ok (xa, ya) -> point_mul b = Ok (xb, yb) -> (xa, ya) <> (0, 0) -> (xb, yb) <> (0, 0) ->
  exists s, s <> (0, 0) /\
    (let* j := ec_montgomery_ladder a (xb, yb, 1) in jacobian_to_affine j) = Ok s /\
    (let* j := ec_montgomery_ladder b (xa, ya, 1) in jacobian_to_affine j) = Ok s /\
    point_mul ((a * b) mod n256) = Ok s.
Proof.
  intros a b xa ya xb yb Ha Hb Ea Eb Na Nb.
  assert (N0 : 0 < n256 < 2 ^ 256) by (split; reflexivity).
  pose proof (Z.mod_pos_bound (a * b) n256 ltac:(lia)) as Hm.
  assert (Hm' : 0 <= (a * b) mod n256 < 2 ^ 256) by lia.
  exists (coordinates (mul256 (Z.to_nat ((a * b) mod n256)) G256)).
  split; [|split; [|split]].
  - intros E. assert (Z0 : point_mul ((a * b) mod n256) = Ok (0, 0)) by (rewrite (C62_point_mul _ Hm'), E; reflexivity).
    apply (C72_point_mul_zero_iff _ Hm') in Z0. destruct C72_group_order as [PR _].
    assert (D : (n256 | a * b)).
    { apply Z.mod_divide; [lia|]. apply Z.mod_divide in Z0; [|lia]. now rewrite Zmod_mod in Z0. }
    apply prime_mult in D; [|exact PR].
    destruct D as [D|D]; [apply Na|apply Nb].
    + apply (C72_point_mul_zero_iff a Ha) in D. congruence.
    + apply (C72_point_mul_zero_iff b Hb) in D. congruence.
  - now apply ladder_of_point_mul.
  - rewrite Z.mul_comm. now apply ladder_of_point_mul.
  - now apply C62_point_mul.
Qed.
(** The map is one to one on public keys: equal shared points come from equal public keys. *)
Theorem C81_shared_point_injective : forall a b c xb yb xc yc, 0 <= a < 2 ^ 256 -> 0 <= b < 2 ^ 256 -> 0 <= c < 2 ^ 256 ->
  point_mul a <> Ok (0, 0) ->
  point_mul b = Ok (xb, yb) -> point_mul c = Ok (xc, yc) -> (xb, yb) <> (0, 0) -> (xc, yc) <> (0, 0) ->
  (let* j := ec_montgomery_ladder a (xb, yb, 1) in jacobian_to_affine j) =
  (let* j := ec_montgomery_ladder a (xc, yc, 1) in jacobian_to_affine j) -> (xb, yb) = (xc, yc).
Proof.
  intros a b c xb yb xc yc Ha Hb Hc NA Eb Ec Nb Nc E.
  assert (N0 : 0 < n256 < 2 ^ 256) by (split; reflexivity).
  pose proof (Z.mod_pos_bound (a * b) n256 ltac:(lia)) as Hm1. pose proof (Z.mod_pos_bound (a * c) n256 ltac:(lia)) as Hm2.
  rewrite (ladder_of_point_mul a b xb yb), (ladder_of_point_mul a c xc yc) in E by assumption.
  rewrite <- !C62_point_mul in E by lia. apply C72_point_mul_equal_iff in E; [|lia|lia]. rewrite !Zmod_mod in E.
  assert (D : (n256 | a * (b - c))).
  { apply Z.mod_divide; [lia|]. rewrite Z.mul_sub_distr_l, Zminus_mod, E, Z.sub_diag. reflexivity. }
  apply prime_mult in D; [|exact (proj1 C72_group_order)]. destruct D as [D|D].
  - exfalso. apply NA. now apply (C72_point_mul_zero_iff a Ha).
  - assert (M : point_mul b = point_mul c); [|congruence].
    apply C72_point_mul_equal_iff; trivial. apply Z.mod_divide in D; [|lia].
    rewrite <- (Z.sub_add c b) at 1. rewrite Zplus_mod, D, Z.add_0_l, Zmod_mod. reflexivity.
Qed.
Lemma mul256_last k : mul256 (S k) G256 = Inf -> mul256 k G256 = pneg p256 G256.
Proof.
  intros S1. destruct C61_curve_is_a_group as (_ & CM & AS & ID & NG). pose proof (on_mul256 k G256 on_G256) as O.
  destruct (NG G256 on_G256) as [On Eg].
  assert (S2 : add256 (mul256 k G256) G256 = Inf) by (rewrite <- S1; unfold mul256, add256; now rewrite mul_S).
  pose proof (AS (mul256 k G256) G256 (pneg p256 G256) O on_G256 On) as A.
  rewrite Eg, ID, S2 in A. rewrite <- A, CM by (exact I || exact On). apply ID.
Qed.
(** The public keys of 1 and n - 1 are G and -G. *)
Example C81_ex : exists y, point_mul 1 = Ok (gx256, gy256) /\ point_mul (n256 - 1) = Ok (gx256, y) /\
  (gx256, gy256) <> (0, 0) /\ (gx256, y) <> (0, 0) /\ y <> gy256 /\ 0 <= n256 - 1 < 2 ^ 256.
Proof.
  exists (p256 - gy256).
  assert (R1 : 0 <= 1 < 2 ^ 256) by (split; [lia|reflexivity]). assert (Rn : 0 <= n256 - 1 < 2 ^ 256) by (split; [discriminate|reflexivity]).
  split; [rewrite (C62_point_mul 1 R1); change (Z.to_nat 1) with 1%nat; apply f_equal; exact (proj1 (proj2 C62_point_mul_ex))|].
  split; [|split; [discriminate|split; [discriminate|split; [discriminate|exact Rn]]]].
  rewrite (C62_point_mul _ Rn).
  assert (S1 : mul256 (S (Z.to_nat (n256 - 1))) G256 = Inf).
  { apply order_G. replace (S (Z.to_nat (n256 - 1))) with nn; [apply Nat.divide_refl|].
    apply Nat2Z.inj. rewrite nn_eq, Nat2Z.inj_succ, Z2Nat.id by lia. reflexivity. }
  pose proof (mul256_last _ S1) as M1.
  rewrite M1. vm_compute. reflexivity.
Qed.
Print Assumptions C81_diffie_hellman.
Print Assumptions C81_shared_point_injective.
