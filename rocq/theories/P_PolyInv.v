(** The constant-time polynomial inversion (division steps) computes inverses. *)
From Coq Require Import ZArith Znumtheory List Bool Lia Setoid Morphisms Ring.
From Verif Require Import Base P_Base M_Int P_Int M_MathUtil P_MathUtil P_Mod S_Seq M_Poly P_PolyRing P_Poly.
Import ListNotations.
Open Scope Z_scope.

(** deg (p / x^a) <= B / 2, modulo n *)
Definition ldeg (n : Z) (p : list Z) (a : nat) (B : Z) : Prop :=
  forall k, B < 2 * (Z.of_nat k - Z.of_nat a) -> (n | coef p k).

Lemma coef_const_mul c p k : coef (pmul [c] p) k = c * coef p k.
Proof. rewrite coef_pmul_cons. destruct k; rewrite ?coef_pmul_nil; lia. Qed.
Lemma ldeg_le n p a B B' : B <= B' -> ldeg n p a B -> ldeg n p a B'.
Proof. intros H D k Hk. apply D. lia. Qed.
Lemma ldeg_proper n p q a B : peq n p q -> ldeg n p a B -> ldeg n q a B.
Proof.
  intros H D k Hk. specialize (D k Hk). specialize (H k).
  replace (coef q k) with (coef p k - (coef p k - coef q k)) by lia. now apply Z.divide_sub_r.
Qed.
Lemma ldeg_step n p q a b cd f0 g0 Bp Bq : ldeg n p a Bp -> ldeg n q b Bq -> (Bp <= Bq \/ (n | g0)) ->
  (a <= cd)%nat -> (b <= cd)%nat ->
  ldeg n (psub (pmul (xk (cd - b)) (pscale f0 q)) (pmul (xk (cd - a)) (pscale g0 p))) (cd + 1) (Bq - 2).
Proof.
  intros Dp Dq O Ha Hb k Hk. rewrite coef_psub, !coef_pmul_xk, !coef_pscale.
  apply Z.divide_sub_r.
  - destruct (Nat.ltb_spec k (cd - b)); [apply Z.divide_0_r|]. apply Z.divide_mul_r. apply Dq. lia.
  - destruct (Nat.ltb_spec k (cd - a)); [apply Z.divide_0_r|].
    destruct O as [O|O]; [|now apply Z.divide_mul_l]. apply Z.divide_mul_r. apply Dp. lia.
Qed.

Section Prime.
Variable n : Z.
Hypothesis Hp : prime n.
Lemma n_gt_1 : 1 < n.
Proof. now destruct Hp. Qed.
Lemma unit_of a : ~ (n | a) -> Z.gcd a n = 1.
Proof.
  intros H. apply Zgcd_1_rel_prime. apply rel_prime_sym. now apply prime_rel_prime.
Qed.
Lemma unit_not_div a : Z.gcd a n = 1 -> ~ (n | a).
Proof.
  intros G D. pose proof (n_gt_1). assert (n | 1); [|apply Z.divide_1_r_nonneg in H0; lia].
  rewrite <- G. apply Z.gcd_greatest; [exact D|apply Z.divide_refl].
Qed.
Lemma unit_congr a b : (n | a - b) -> Z.gcd b n = 1 -> Z.gcd a n = 1.
Proof.
  intros D G. apply unit_of. intros Da. apply (unit_not_div b G).
  replace b with (a - (a - b)) by lia. now apply Z.divide_sub_r.
Qed.
Lemma unit_mul a b : Z.gcd a n = 1 -> Z.gcd b n = 1 -> Z.gcd (a * b) n = 1.
Proof.
  intros Ga Gb. apply unit_of. intros D. apply prime_mult in D; [|exact Hp].
  destruct D as [D|D]; [now apply (unit_not_div a)|now apply (unit_not_div b)].
Qed.
Lemma unit_opp a : Z.gcd a n = 1 -> Z.gcd (- a) n = 1.
Proof. intros G. now rewrite Z.gcd_opp_l. Qed.
End Prime.

Section Inv.
Variables (fuel : nat) (t : ity) (n : Z).
Hypotheses (Hb : 0 < bits t <= wlim t) (Hp : prime n) (Hnn : n * n <= imax t + 1)
  (Hf : (Z.to_nat (n + n * n) <= fuel)%nat).
Add Ring polyring2 : (poly_ring_theory n) (setoid (peq_equiv n) (poly_ring_ext n)).
Notation "p == q" := (peq n p q) (at level 70).

Lemma fuel_n : (Z.to_nat n < fuel)%nat.
Proof. pose proof (n_gt_1 n Hp). nia. Qed.
Lemma mul_Ok x y : canon n x -> canon n y ->
  exists r, poly_mul fuel t x y n = Ok r /\ length r = (length x + length y)%nat /\ canon n r /\ r == pmul x y.
Proof.
  intros Cx Cy. pose proof (n_gt_1 n Hp). pose proof fuel_n. apply poly_mul_gen; [lia|..].
  - intros a b Ha Hb'. now apply add_mod_canon.
  - intros a b Ha Hb'. apply In_nth with (d := 0) in Ha as (ka & _ & <-). apply In_nth with (d := 0) in Hb' as (kb & _ & <-).
    apply mul_mod_canon; trivial; [apply Cx|apply Cy].
Qed.
Lemma sub_Ok x y : canon n x -> canon n y ->
  exists r, poly_sub fuel t x y n = Ok r /\ length r = Nat.max (length x) (length y) /\ canon n r /\ r == psub x y.
Proof. intros Cx Cy. pose proof (n_gt_1 n Hp). pose proof fuel_n. now apply poly_sub_Ok. Qed.

Lemma canon_single c : 0 <= c < n -> canon n [c].
Proof. intros H [|k]; [exact H|]. rewrite coef_cons_S, coef_nil. pose proof (n_gt_1 n Hp). lia. Qed.
Lemma mulx_loop x k a : canon n a -> canon n x -> x == xk 1 ->
  exists r, for_range 0 k (fun _ a => poly_mul fuel t a x n) a = Ok r /\ canon n r /\ r == pmul (xk k) a.
Proof.
  intros Ca Cx Ex.
  destruct (for_range_inv (fun k r => canon n r /\ r == pmul (xk k) a)
    (fun _ a => poly_mul fuel t a x n) 0 k a) as (r & E & C & P).
  - split; [exact Ca|]. rewrite xk_0. ring.
  - intros i r _ [C P]. destruct (mul_Ok r x C Cx) as (r' & E' & _ & C' & P').
    exists r'. split; [exact E'|]. split; [exact C'|]. rewrite P', P, Ex, (xk_S n i). ring.
  - exists r. auto.
Qed.
Lemma quot_sub_Ok an ad bn bd : canon n an -> canon n bn ->
  exists r, quot_sub fuel t an ad bn bd n = Ok (r, Nat.max ad bd) /\ canon n r /\
    r == psub (pmul (xk (Nat.max ad bd - ad)) an) (pmul (xk (Nat.max ad bd - bd)) bn).
Proof.
  intros Ca Cb. pose proof (n_gt_1 n Hp) as Hn. unfold quot_sub. set (cd := Nat.max ad bd).
  destruct (monomial_Ok 1 1) as (x & Ex & Lx & Cx). rewrite Ex. cbn [bind].
  assert (Hcx : canon n x) by (intros k; rewrite Cx; destruct (k =? 1)%nat; lia).
  assert (Hx : x == xk 1) by (apply peq_Z; intros k; now rewrite Cx, coef_xk).
  rewrite usub_Ok by lia. cbn [bind].
  destruct (mulx_loop x (cd - ad) an Ca Hcx Hx) as (a & Ea & Ca' & Pa). rewrite Ea. cbn [bind].
  rewrite usub_Ok by lia. cbn [bind].
  destruct (mulx_loop x (cd - bd) bn Cb Hcx Hx) as (b & Eb & Cb' & Pb). rewrite Eb. cbn [bind].
  destruct (sub_Ok a b Ca' Cb') as (r & Er & _ & Cr & Pr). rewrite Er. cbn [bind].
  exists r. split; [reflexivity|]. split; [exact Cr|]. now rewrite Pr, Pa, Pb.
Qed.
Lemma divx_Ok v : (0 < length v)%nat -> exists r, poly_divx v = Ok r /\ length r = (length v - 1)%nat /\
  forall k, coef r k = coef v (S k).
Proof.
  intros L. unfold poly_divx. rewrite usub_Ok by lia. cbn [bind]. eexists; split; [reflexivity|].
  split; [apply mfl_length|]. intros k. rewrite coef_mfl. destruct v as [|a v]; [cbn in L; lia|].
  cbn [skipn length]. rewrite coef_cons_S. destruct (Nat.ltb_spec k (S (length v) - 1)); [reflexivity|].
  rewrite coef_overflow; lia.
Qed.

(** ** The invariant *)
Variables (F G : list Z) (d : nat).
Let nn := (2 * d - 1)%nat.

(** [i]: number of steps done, [prec]: number of correct coefficients of f. *)
Record DInv (i precf precg : nat) (delta : Z) (pf pg : list Z) (U V Q R : list Z) (a b : nat)
    (f g : list Z) (e : Z) (m : nat) : Prop := {
  di_cf : canon n pf; di_cg : canon n pg;
  di_cu : canon n U; di_cv : canon n V; di_cq : canon n Q; di_cr : canon n R;
  di_pf : forall k, (k < precf)%nat -> (n | coef pf k - coef f k);
  di_pg : forall k, (k < precg)%nat -> (n | coef pg k - coef g k);
  di_f : pmul (xk a) f == padd (pmul U F) (pmul V G);
  di_g : pmul (xk b) g == padd (pmul Q F) (pmul R G);
  di_f0 : Z.gcd (coef f 0) n = 1;
  di_df : ldeg n f 0 (2 * Z.of_nat d - 1 - Z.of_nat i + delta);
  di_dg : ldeg n g 0 (2 * Z.of_nat d - 1 - Z.of_nat i - delta);
  di_du : ldeg n U a (-1 - Z.of_nat i + delta);
  di_dq : ldeg n Q b (-1 - Z.of_nat i - delta);
  di_dv : ldeg n V a (1 - Z.of_nat i + delta);
  di_dr : ldeg n R b (1 - Z.of_nat i - delta);
  di_u0 : ldeg n U a 0; di_v0 : ldeg n V a 0; di_q0 : ldeg n Q b 0; di_r0 : ldeg n R b 0;
  di_det : psub (pmul U R) (pmul V Q) == pmul [e] (xk m);
  di_e : Z.gcd e n = 1 }.

Lemma mfl_trunc p a L : (a < L)%nat -> ldeg n p a 0 -> make_fixed_length p L == p.
Proof.
  intros H D k. rewrite coef_mfl. destruct (Nat.ltb_spec k L).
  - rewrite Z.sub_diag. apply Z.divide_0_r.
  - apply Z.divide_sub_r; [apply Z.divide_0_r|]. apply D. lia.
Qed.

(** Truncation to the working precision. *)
Lemma DInv_trunc i precf precg delta pf pg U V Q R a b f g e m L T :
  DInv i precf precg delta pf pg U V Q R a b f g e m -> (a < T)%nat -> (b < T)%nat ->
  (L <= precf)%nat -> (L <= precg)%nat ->
  DInv i L L delta (make_fixed_length pf L) (make_fixed_length pg L)
    (make_fixed_length U T) (make_fixed_length V T) (make_fixed_length Q T) (make_fixed_length R T) a b f g e m.
Proof.
  intros [] Ha Hb' Hl1 Hl2. pose proof (n_gt_1 n Hp) as Hn.
  assert (EU : make_fixed_length U T == U) by now apply mfl_trunc with a.
  assert (EV : make_fixed_length V T == V) by now apply mfl_trunc with a.
  assert (EQ : make_fixed_length Q T == Q) by now apply mfl_trunc with b.
  assert (ER : make_fixed_length R T == R) by now apply mfl_trunc with b.
  split; try (apply canon_mfl; [lia|assumption]); trivial.
  - intros k Hk. rewrite coef_mfl. destruct (Nat.ltb_spec k L); [|lia]. apply di_pf0. lia.
  - intros k Hk. rewrite coef_mfl. destruct (Nat.ltb_spec k L); [|lia]. apply di_pg0. lia.
  - rewrite EU, EV. exact di_f1.
  - rewrite EQ, ER. exact di_g0.
  - apply (ldeg_proper n U); [now symmetry|assumption].
  - apply (ldeg_proper n Q); [now symmetry|assumption].
  - apply (ldeg_proper n V); [now symmetry|assumption].
  - apply (ldeg_proper n R); [now symmetry|assumption].
  - apply (ldeg_proper n U); [now symmetry|assumption].
  - apply (ldeg_proper n V); [now symmetry|assumption].
  - apply (ldeg_proper n Q); [now symmetry|assumption].
  - apply (ldeg_proper n R); [now symmetry|assumption].
  - rewrite EU, EV, EQ, ER. exact di_det0.
Qed.

(** The swap. *)
Lemma DInv_swap i L delta pf pg U V Q R a b f g e m :
  DInv i L L delta pf pg U V Q R a b f g e m -> Z.gcd (coef g 0) n = 1 ->
  DInv i L L (- delta) pg pf Q R U V b a g f (- e) m.
Proof.
  intros [] H. split; trivial.
  - replace (2 * Z.of_nat d - 1 - Z.of_nat i - - delta) with (2 * Z.of_nat d - 1 - Z.of_nat i + delta) by lia. assumption.
  - replace (-1 - Z.of_nat i - - delta) with (-1 - Z.of_nat i + delta) by lia. assumption.
  - replace (1 - Z.of_nat i - - delta) with (1 - Z.of_nat i + delta) by lia. assumption.
  - assert (E : [- e] == popp [e]) by (apply peq_Z; intros [|k]; rewrite coef_popp; [cbn; lia|rewrite !coef_cons_S, coef_nil; lia]).
    rewrite E. transitivity (popp (pmul [e] (xk m))); [|ring]. rewrite <- di_det0. ring.
  - now apply unit_opp.
Qed.

(** The update of g, q and r. *)
Lemma DInv_update i L delta pf pg U V Q R a b f g e m pg' Q' R' :
  DInv i (S L) (S L) delta pf pg U V Q R a b f g e m ->
  (delta <= 0 \/ (n | coef g 0)) ->
  canon n pg' -> canon n Q' -> canon n R' ->
  let f0 := coef pf 0 in let g0 := coef pg 0 in
  let cd := Nat.max b a in
  (forall k, (n | coef pg' k - (f0 * coef pg (S k) - g0 * coef pf (S k)))) ->
  Q' == psub (pmul (xk (cd - b)) (pscale f0 Q)) (pmul (xk (cd - a)) (pscale g0 U)) ->
  R' == psub (pmul (xk (cd - b)) (pscale f0 R)) (pmul (xk (cd - a)) (pscale g0 V)) ->
  exists g' e' m', DInv (S i) (S L) L (delta + 1) pf pg' U V Q' R' a (cd + 1) f g' e' m'.
Proof.
  intros [] O Cg' CQ' CR' f0 g0 cd Eg EQ ER.
  assert (Df0 : (n | f0 - coef f 0)) by (apply di_pf0; lia).
  assert (Dg0 : (n | g0 - coef g 0)) by (apply di_pg0; lia).
  assert (O' : delta <= 0 \/ (n | g0)).
  { destruct O as [O|O]; [now left|right]. replace g0 with ((g0 - coef g 0) + coef g 0) by lia. now apply Z.divide_add_r. }
  set (h := psub (pscale f0 g) (pscale g0 f)).
  assert (Ch : forall k, coef h k = f0 * coef g k - g0 * coef f k).
  { intros k. unfold h. now rewrite coef_psub, !coef_pscale. }
  assert (H0 : (n | coef h 0)).
  { rewrite Ch. destruct Df0 as [u Hu], Dg0 as [v Hv]. exists (u * coef g 0 - v * coef f 0). nia. }
  assert (Ht : pmul (xk 1) (skipn 1 h) == h).
  { intros k. rewrite coef_pmul_xk. destruct k as [|k].
    - cbn [Nat.ltb Nat.leb]. apply Z.divide_sub_r; [apply Z.divide_0_r|exact H0].
    - cbn [Nat.ltb Nat.leb]. replace (S k - 1)%nat with k by lia.
      destruct h; [cbn [skipn]; rewrite !coef_nil; apply Z.divide_0_r|].
      cbn [skipn]. rewrite coef_cons_S, Z.sub_diag. apply Z.divide_0_r. }
  assert (Cs : forall k, coef (skipn 1 h) k = coef h (S k)).
  { intros k. destruct h; cbn [skipn]; [now rewrite !coef_nil|reflexivity]. }
  assert (Gf0 : Z.gcd f0 n = 1) by now apply (unit_congr n Hp _ (coef f 0)).
  exists (skipn 1 h), (f0 * e), (cd - b + m)%nat.
  assert (Eh : pmul (xk cd) h ==
     psub (pmul (xk (cd - b)) (pscale f0 (pmul (xk b) g))) (pmul (xk (cd - a)) (pscale g0 (pmul (xk a) f)))).
  { unfold h. rewrite !(pscale_pmul n).
    assert (E1 : xk cd == pmul (xk (cd - b)) (xk b)).
    { rewrite <- xk_add. replace (cd - b + b)%nat with cd by lia. reflexivity. }
    assert (E2 : xk cd == pmul (xk (cd - a)) (xk a)).
    { rewrite <- xk_add. replace (cd - a + a)%nat with cd by lia. reflexivity. }
    transitivity (psub (pmul (xk cd) (pmul [f0] g)) (pmul (xk cd) (pmul [g0] f))); [ring|].
    rewrite E1 at 1. rewrite E2. ring. }
  split; trivial.
  - intros k Hk. rewrite Cs, Ch. specialize (Eg k).
    pose proof (di_pg0 (S k) ltac:(lia)) as [u Hu]. pose proof (di_pf0 (S k) ltac:(lia)) as [v Hv].
    match goal with |- (_ | ?x) => replace x with
      ((coef pg' k - (f0 * coef pg (S k) - g0 * coef pf (S k)))
        + (f0 * (coef pg (S k) - coef g (S k)) - g0 * (coef pf (S k) - coef f (S k)))) by ring end.
    apply Z.divide_add_r; [exact Eg|]. rewrite Hu, Hv. exists (f0 * u - g0 * v). ring.
  - rewrite (xk_add n cd 1). transitivity (pmul (xk cd) h); [rewrite <- Ht at 2; ring|].
    rewrite Eh, di_f1, di_g0, EQ, ER, !(pscale_pmul n). ring.
  - replace (2 * Z.of_nat d - 1 - Z.of_nat (S i) + (delta + 1)) with (2 * Z.of_nat d - 1 - Z.of_nat i + delta) by lia. assumption.
  - intros k Hk. rewrite Cs, Ch. apply Z.divide_sub_r.
    + apply Z.divide_mul_r. apply di_dg0. lia.
    + destruct O' as [O'|O']; [|now apply Z.divide_mul_l]. apply Z.divide_mul_r. apply di_df0. lia.
  - replace (-1 - Z.of_nat (S i) + (delta + 1)) with (-1 - Z.of_nat i + delta) by lia. assumption.
  - apply (ldeg_proper n _ _ _ _ (symmetry EQ)).
    replace (-1 - Z.of_nat (S i) - (delta + 1)) with ((-1 - Z.of_nat i - delta) - 2) by lia.
    apply ldeg_step with (Bp := -1 - Z.of_nat i + delta); trivial; try lia. destruct O'; [left; lia|now right].
  - replace (1 - Z.of_nat (S i) + (delta + 1)) with (1 - Z.of_nat i + delta) by lia. assumption.
  - apply (ldeg_proper n _ _ _ _ (symmetry ER)).
    replace (1 - Z.of_nat (S i) - (delta + 1)) with ((1 - Z.of_nat i - delta) - 2) by lia.
    apply ldeg_step with (Bp := 1 - Z.of_nat i + delta); trivial; try lia. destruct O'; [left; lia|now right].
  - apply (ldeg_proper n _ _ _ _ (symmetry EQ)). apply ldeg_le with (0 - 2); [lia|].
    apply ldeg_step with (Bp := 0); trivial; try lia.
  - apply (ldeg_proper n _ _ _ _ (symmetry ER)). apply ldeg_le with (0 - 2); [lia|].
    apply ldeg_step with (Bp := 0); trivial; try lia.
  - rewrite EQ, ER, (xk_add n (cd - b) m), !(pscale_pmul n).
    transitivity (pmul (pmul [f0] (xk (cd - b))) (psub (pmul U R) (pmul V Q))); [ring|].
    rewrite di_det0, <- (pconst_mul n f0 e). ring.
  - now apply (unit_mul n Hp).
Qed.

(** The invariant on program states after [i] steps. *)
Definition SInv (i : nat) (s : dst) : Prop :=
  (0 < length (ds_f s))%nat /\
  snd (ds_u s) = snd (ds_v s) /\ snd (ds_q s) = snd (ds_r s) /\
  (snd (ds_v s) <= i - 1)%nat /\ (snd (ds_r s) <= i)%nat /\
  exists f g e m,
  DInv i (nn + 1 - i) (nn - i) (ds_delta s) (ds_f s) (ds_g s)
    (fst (ds_u s)) (fst (ds_v s)) (fst (ds_q s)) (fst (ds_r s)) (snd (ds_v s)) (snd (ds_r s)) f g e m.

Lemma update_prog L pf pg (u v q r : list Z * nat) : (0 < L)%nat -> length pf = L -> length pg = L ->
  canon n pf -> canon n pg -> canon n (fst u) -> canon n (fst v) -> canon n (fst q) -> canon n (fst r) ->
  exists pg' Q' R',
  (forall D, (let* f0 := idx pf 0 in let* f0 := monomial f0 0 in
  let* g0 := idx pg 0 in let* g0 := monomial g0 0 in
  let* t0 := poly_mul fuel t f0 pg n in
  let* t1 := poly_mul fuel t g0 pf n in
  let* g := poly_sub fuel t t0 t1 n in
  let* g := poly_divx g in
  let* t0 := poly_mul fuel t f0 (fst q) n in
  let* t1 := poly_mul fuel t g0 (fst u) n in
  let* q := quot_sub fuel t t0 (snd q) t1 (snd u) n in
  let q := (fst q, snd q + 1)%nat in
  let* t0 := poly_mul fuel t f0 (fst r) n in
  let* t1 := poly_mul fuel t g0 (fst v) n in
  let* r := quot_sub fuel t t0 (snd r) t1 (snd v) n in
  let r := (fst r, snd r + 1)%nat in
  Ok (mkdst D pf g u v q r)) = Ok (mkdst D pf pg' u v (Q', Nat.max (snd q) (snd u) + 1)%nat (R', Nat.max (snd r) (snd v) + 1)%nat)) /\
  canon n pg' /\ canon n Q' /\ canon n R' /\
  (forall k, (n | coef pg' k - (coef pf 0 * coef pg (S k) - coef pg 0 * coef pf (S k)))) /\
  Q' == psub (pmul (xk (Nat.max (snd q) (snd u) - snd q)) (pscale (coef pf 0) (fst q)))
             (pmul (xk (Nat.max (snd q) (snd u) - snd u)) (pscale (coef pg 0) (fst u))) /\
  R' == psub (pmul (xk (Nat.max (snd r) (snd v) - snd r)) (pscale (coef pf 0) (fst r)))
             (pmul (xk (Nat.max (snd r) (snd v) - snd v)) (pscale (coef pg 0) (fst v))).
Proof.
  intros HL Lf Lg Cf Cg Cu Cv Cq Cr.
  rewrite (idx_Ok pf 0 0), (idx_Ok pg 0 0) by lia. cbn [bind].
  change (nth 0 pf 0) with (coef pf 0). change (nth 0 pg 0) with (coef pg 0).
  set (f0 := coef pf 0). set (g0 := coef pg 0).
  assert (Hf0 : 0 <= f0 < n) by apply Cf. assert (Hg0 : 0 <= g0 < n) by apply Cg.
  assert (Mf : monomial f0 0 = Ok [f0]) by reflexivity. assert (Mg : monomial g0 0 = Ok [g0]) by reflexivity.
  rewrite Mf, Mg. cbn [bind].
  pose proof (canon_single f0 Hf0) as C1. pose proof (canon_single g0 Hg0) as C2.
  destruct (mul_Ok [f0] pg C1 Cg) as (t0 & E0 & L0 & CT0 & P0). rewrite E0. cbn [bind].
  destruct (mul_Ok [g0] pf C2 Cf) as (t1 & E1 & L1 & CT1 & P1). rewrite E1. cbn [bind].
  destruct (sub_Ok t0 t1 CT0 CT1) as (h & Eh & Lh & Ch & Ph). rewrite Eh. cbn [bind].
  cbn [length] in L0, L1.
  destruct (divx_Ok h ltac:(lia)) as (pg' & Eg & Lg' & Cg'). rewrite Eg. cbn [bind].
  destruct (mul_Ok [f0] (fst q) C1 Cq) as (t2 & E2 & _ & CT2 & P2). rewrite E2. cbn [bind].
  destruct (mul_Ok [g0] (fst u) C2 Cu) as (t3 & E3 & _ & CT3 & P3). rewrite E3. cbn [bind].
  destruct (quot_sub_Ok t2 (snd q) t3 (snd u) CT2 CT3) as (Q' & EQ & CQ & PQ). rewrite EQ. cbn [bind].
  destruct (mul_Ok [f0] (fst r) C1 Cr) as (t4 & E4 & _ & CT4 & P4). rewrite E4. cbn [bind].
  destruct (mul_Ok [g0] (fst v) C2 Cv) as (t5 & E5 & _ & CT5 & P5). rewrite E5. cbn [bind].
  destruct (quot_sub_Ok t4 (snd r) t5 (snd v) CT4 CT5) as (R' & ER & CR & PR). rewrite ER. cbn [bind].
  exists pg', Q', R'. split; [intros D; reflexivity|]. conjs; trivial.
  - intros k. rewrite Cg'. apply Ch.
  - intros k. rewrite Cg'. pose proof (Ph (S k)) as A1. pose proof (P0 (S k)) as A2. pose proof (P1 (S k)) as A3.
    rewrite coef_psub in A1. rewrite coef_const_mul in A2, A3.
    match goal with |- (_ | ?x) => replace x with
      ((coef h (S k) - (coef t0 (S k) - coef t1 (S k))) + ((coef t0 (S k) - f0 * coef pg (S k)) - (coef t1 (S k) - g0 * coef pf (S k)))) by ring end.
    apply Z.divide_add_r; [exact A1|]. now apply Z.divide_sub_r.
  - rewrite PQ, P2, P3, !(pscale_pmul n). reflexivity.
  - rewrite PR, P4, P5, !(pscale_pmul n). reflexivity.
Qed.

Lemma divstep_Ok i s : (i < nn)%nat -> SInv i s ->
  exists s', divstep fuel t nn nn n i s = Ok s' /\ SInv (S i) s'.
Proof.
  intros Hi (Lf & Huv & Hqr & Ha & Hb' & f & g & e & m & D).
  destruct s as [delta pf pg [U a'] [V a] [Q b'] [R b]]. cbn [ds_delta ds_f ds_g ds_u ds_v ds_q ds_r fst snd] in *.
  subst a' b'.
  apply (DInv_trunc _ _ _ _ _ _ _ _ _ _ _ _ _ _ _ _ (nn - i) nn) in D; [|lia..].
  unfold divstep. cbn [ds_delta ds_f ds_g ds_u ds_v ds_q ds_r fst snd].
  rewrite usub_Ok by lia. cbn [bind].
  set (pf1 := make_fixed_length pf (nn - i)) in *. set (pg1 := make_fixed_length pg (nn - i)) in *.
  set (U1 := make_fixed_length U nn) in *. set (V1 := make_fixed_length V nn) in *.
  set (Q1 := make_fixed_length Q nn) in *. set (R1 := make_fixed_length R nn) in *.
  assert (Lpf : length pf1 = (nn - i)%nat) by apply mfl_length.
  assert (Lpg : length pg1 = (nn - i)%nat) by apply mfl_length.
  rewrite (idx_Ok pg1 0 0) by lia. change (nth 0 pg1 0) with (coef pg1 0). unfold num_equal. cbn [bind].
  assert (Hsw : exists sw : bool, (if 0 <? delta then Ok (negb (coef pg1 0 =? 0)) else Ok false) = Ok sw /\
     (sw = true -> Z.gcd (coef g 0) n = 1 /\ 0 < delta) /\ (sw = false -> delta <= 0 \/ (n | coef g 0))).
  { assert (P0 : (n | coef pg1 0 - coef g 0)) by (apply (di_pg _ _ _ _ _ _ _ _ _ _ _ _ _ _ _ _ D); lia).
    pose proof (di_cg _ _ _ _ _ _ _ _ _ _ _ _ _ _ _ _ D 0%nat) as C0.
    destruct (Z.ltb_spec 0 delta).
    - eexists; split; [reflexivity|]. destruct (Z.eqb_spec (coef pg1 0) 0) as [E0|E0]; cbn [negb]; split; try discriminate.
      + intros _. right. rewrite E0 in P0. destruct P0 as [z Hz]. exists (- z). lia.
      + intros _. split; [|assumption]. apply (unit_of n Hp). intros Dg. apply E0.
        assert (Dp : (n | coef pg1 0)).
        { replace (coef pg1 0) with ((coef pg1 0 - coef g 0) + coef g 0) by lia. now apply Z.divide_add_r. }
        destruct (Z.eq_dec (coef pg1 0) 0) as [|N]; [assumption|]. apply Z.divide_pos_le in Dp; lia.
    - exists false. split; [reflexivity|]. split; [discriminate|]. now left. }
  destruct Hsw as (sw & Esw & Hs1 & Hs2). rewrite Esw. cbn [bind].
  assert (HD : exists delta2 pf2 pg2 U2 V2 Q2 R2 a2 b2 f2 g2 e2,
    (if sw then mkdst (- delta) pg1 pf1 (Q1, b) (R1, b) (U1, a) (V1, a) else mkdst delta pf1 pg1 (U1, a) (V1, a) (Q1, b) (R1, b))
      = mkdst delta2 pf2 pg2 (U2, a2) (V2, a2) (Q2, b2) (R2, b2) /\
    DInv i (nn - i) (nn - i) delta2 pf2 pg2 U2 V2 Q2 R2 a2 b2 f2 g2 e2 m /\
    (delta2 <= 0 \/ (n | coef g2 0)) /\ length pf2 = (nn - i)%nat /\ length pg2 = (nn - i)%nat /\
    (a2 <= i)%nat /\ (b2 <= i)%nat).
  { destruct sw.
    - destruct (Hs1 eq_refl) as [G0 Hd]. apply (DInv_swap _ _ _ _ _ _ _ _ _ _ _ _ _ _ _ D) in G0.
      do 12 eexists. split; [reflexivity|]. split; [exact G0|]. conjs; trivial; lia.
    - do 12 eexists. split; [reflexivity|]. split; [exact D|]. conjs; auto; lia. }
  clear D. destruct HD as (delta2 & pf2 & pg2 & U2 & V2 & Q2 & R2 & a2 & b2 & f2 & g2 & e2 & ES & D & O & L2 & L3 & Ha2 & Hb2).
  rewrite ES. cbn [ds_delta ds_f ds_g ds_u ds_v ds_q ds_r].
  destruct (update_prog (nn - i) pf2 pg2 (U2, a2) (V2, a2) (Q2, b2) (R2, b2)) as
    (pg' & Q' & R' & EU & C1 & C2 & C3 & P1 & P2 & P3); try apply D; trivial; [lia|].
  rewrite EU. eexists; split; [reflexivity|]. cbn [fst snd] in *.
  replace (nn - i)%nat with (S (nn - S i)) in D by lia.
  destruct (DInv_update _ _ _ _ _ _ _ _ _ _ _ _ _ _ _ pg' Q' R' D O C1 C2 C3) as (g' & e' & m' & D'); [exact P1|exact P2|exact P3|].
  unfold SInv. cbn [ds_delta ds_f ds_g ds_u ds_v ds_q ds_r fst snd].
  conjs; trivial; try lia. exists f2, g', e', m'.
  replace (nn + 1 - S i)%nat with (S (nn - S i)) by lia. exact D'.
Qed.

Lemma divsteps_Ok : (0 < d)%nat -> length F = (d + 1)%nat -> length G = d -> canon n F -> canon n G ->
  Z.gcd (coef F 0) n = 1 ->
  exists s, divstepsx fuel t nn nn F G n = Ok (ds_delta s, ds_f s, ds_g s, ds_v s) /\ SInv nn s.
Proof.
  intros Hd LF LG CF CG GF. unfold divstepsx. rewrite Nat.leb_refl. cbn [assert_ bind].
  pose proof (n_gt_1 n Hp) as Hn.
  destruct (for_range_inv SInv (divstep fuel t nn nn n) 0 nn
     (mkdst 1 F G ([1], 0%nat) ([0], 0%nat) ([0], 0%nat) ([1], 0%nat))) as (s & E & I).
  - unfold SInv. cbn [ds_delta ds_f ds_g ds_u ds_v ds_q ds_r fst snd].
    conjs; trivial; try lia. exists F, G, 1, 0%nat.
    assert (C0 : forall c, canon n [c] <-> 0 <= c < n) by (intros c; split; [intros H; apply (H 0%nat)|apply canon_single]).
    assert (Z0 : [0] == []) by (apply peq_Z; intros [|k]; [reflexivity|rewrite coef_cons_S, !coef_nil; reflexivity]).
    assert (D1 : forall c B, 0 <= B -> ldeg n [c] 0 B).
    { intros c B HB [|k] Hk; [lia|]. rewrite coef_cons_S, coef_nil. apply Z.divide_0_r. }
    assert (D0 : forall a B, ldeg n [0] a B).
    { intros a B k _. replace (coef [0] k) with 0; [apply Z.divide_0_r|]. destruct k; [reflexivity|]. rewrite coef_cons_S. symmetry. apply coef_nil. }
    split; trivial; try (apply canon_single; lia); try (apply D0); try (apply D1; lia).
    + intros k _. rewrite Z.sub_diag. apply Z.divide_0_r.
    + intros k _. rewrite Z.sub_diag. apply Z.divide_0_r.
    + rewrite Z0, (xk_0 n). ring.
    + rewrite Z0, (xk_0 n). ring.
    + intros k Hk. rewrite coef_overflow by lia. apply Z.divide_0_r.
    + intros k Hk. rewrite coef_overflow by lia. apply Z.divide_0_r.
    + rewrite Z0, (xk_0 n). ring.
    + apply Z.gcd_1_l.
  - intros i s Hi I. apply divstep_Ok; [lia|exact I].
  - rewrite E. cbn [bind]. exists s. split; [reflexivity|exact I].
Qed.
End Inv.

Section Euclid.
Variables (fuel : nat) (t : ity) (n : Z).
Hypotheses (Hb : 0 < bits t <= wlim t) (Hp : prime n) (Hnn : n * n <= imax t + 1)
  (Hf : (Z.to_nat (n + n * n) <= fuel)%nat).
Add Ring polyring3 : (poly_ring_theory n) (setoid (peq_equiv n) (poly_ring_ext n)).
Notation "p == q" := (peq n p q) (at level 70).

(** Reversing U F + V G at degree a when the degrees of U and V are small. *)
Lemma reverse_identity U V X Y c a d : (0 < d)%nat -> length X = d -> length Y = (d + 1)%nat ->
  length U = (a + 1 - d)%nat -> length V = (a + 2 - d)%nat -> (d <= a + 1)%nat ->
  pmul [c] (xk a) == padd (pmul U (rev Y)) (pmul V (rev X)) ->
  [c] == padd (pmul (rev U) Y) (pmul (rev V) X).
Proof.
  intros Hd LX LY LU LV Ha E k.
  assert (R : forall P Q k, (length P + length Q = a + 2)%nat ->
     coef (pmul (rev P) Q) k = if (k <=? a)%nat then coef (pmul P (rev Q)) (a - k) else 0).
  { intros P Q k0 L. destruct (Nat.leb_spec k0 a).
    - replace Q with (rev (rev Q)) at 1 by apply rev_involutive.
      rewrite pmul_rev by (rewrite rev_length; lia). rewrite rev_length. f_equal. lia.
    - destruct P as [|p0 P]; [apply coef_pmul_nil|]. destruct Q as [|q0 Q]; [apply pmul_nil_r|].
      apply coef_overflow. rewrite pmul_length, rev_length; [lia| |discriminate].
      intros Z0. apply (f_equal (@length Z)) in Z0. rewrite rev_length in Z0. discriminate. }
  rewrite coef_padd, !R by lia. destruct (Nat.leb_spec k a).
  - specialize (E (a - k)%nat). rewrite coef_padd in E.
    pose proof (coef_const_mul c (xk a) (a - k)) as Hz. rewrite coef_xk in Hz.
    replace (coef [c] k) with (coef (pmul [c] (xk a)) (a - k)); [exact E|].
    destruct (Nat.eqb_spec (a - k) a).
    + replace k with 0%nat by lia. rewrite coef_cons_0. replace (a - 0)%nat with (a - k)%nat by lia. lia.
    + destruct k; [lia|]. rewrite coef_cons_S, coef_nil. lia.
  - destruct k; [lia|]. rewrite coef_cons_S, coef_nil. exists 0. lia.
Qed.

Lemma ldeg_trunc p a B L : ldeg n p a B -> (B < 2 * (Z.of_nat L - Z.of_nat a)) -> make_fixed_length p L == p.
Proof.
  intros D H k. rewrite coef_mfl. destruct (Nat.ltb_spec k L).
  - rewrite Z.sub_diag. apply Z.divide_0_r.
  - apply Z.divide_sub_r; [apply Z.divide_0_r|]. apply D. lia.
Qed.
Lemma const_xk_nonzero c a : Z.gcd c n = 1 -> ~ pmul [c] (xk a) == [].
Proof.
  intros G E. specialize (E a). pose proof (coef_const_mul c (xk a) a) as Hz.
  rewrite coef_xk, Nat.eqb_refl in Hz. rewrite coef_nil in E.
  apply (unit_not_div n Hp c G). replace c with (coef (pmul [c] (xk a)) a - 0) by lia. exact E.
Qed.

Lemma extended_euclid_Ok x y d c : canon n x -> canon n y -> leading_coefficient y = (d, c) ->
  (length x <= d)%nat -> (0 < d)%nat ->
  exists o, extended_euclid fuel t x y n = Ok o /\
  match o with
  | Some v => length v = d /\ canon n v /\ exists s, padd (pmul x v) (pmul s y) == [1]
  | None => forall w s, ~ padd (pmul x w) (pmul s y) == [1]
  end.
Proof.
  intros Cx Cy E Lx Hd. unfold extended_euclid. rewrite E.
  pose proof (n_gt_1 n Hp) as Hn.
  pose proof (leading_coefficient_spec _ _ _ E) as [(Z0 & _)|(Hc & Hdl & Ec & Ty)]; [lia|].
  destruct (Nat.leb_spec (length x) d); [|lia]. destruct (Nat.ltb_spec 0 d); [|lia]. cbn [assert_ bind].
  set (Y := make_fixed_length y (d + 1)). set (X := make_fixed_length x d).
  assert (LY : length Y = (d + 1)%nat) by apply mfl_length. assert (LX : length X = d) by apply mfl_length.
  assert (CY : canon n Y) by (apply canon_mfl; [lia|trivial]). assert (CX : canon n X) by (apply canon_mfl; [lia|trivial]).
  assert (EY : Y == y).
  { apply peq_Z. intros k. unfold Y. rewrite coef_mfl. destruct (Nat.ltb_spec k (d + 1)); [reflexivity|]. symmetry. apply Ty. lia. }
  assert (EX : X == x).
  { apply peq_Z. intros k. unfold X. rewrite coef_mfl. destruct (Nat.ltb_spec k d); [reflexivity|]. symmetry. apply coef_overflow. lia. }
  assert (Crev : forall p, canon n p -> canon n (rev p)).
  { intros p C k. destruct (lt_dec k (length p)).
    - rewrite coef_rev by assumption. apply C.
    - rewrite coef_overflow by (rewrite rev_length; lia). lia. }
  assert (Gc : Z.gcd c n = 1).
  { apply unit_of; [exact Hp|]. intros D. pose proof (Cy d) as B. rewrite Ec in B. apply Z.divide_pos_le in D; lia. }
  assert (EY0 : coef (rev Y) 0 = c).
  { rewrite coef_rev by lia. rewrite LY. replace (d + 1 - 1)%nat with d by lia. unfold Y. rewrite coef_mfl.
    destruct (Nat.ltb_spec d (d + 1)); [exact Ec|lia]. }
  rewrite usub_Ok by lia. cbn [bind].
  destruct (divsteps_Ok fuel t n Hb Hp Hnn Hf (rev Y) (rev X) d Hd) as (s & ED & SI);
    [rewrite rev_length; lia|rewrite rev_length; lia|auto..|now rewrite EY0|].
  replace (d + (d + 0) - 1)%nat with (2 * d - 1)%nat in * by lia.
  rewrite ED. cbn [bind].
  destruct SI as (Lf & Huv & Hqr & Ha & Hb' & f & g & e & m & D).
  destruct s as [delta pf pg [U a'] [V a] [Q b'] [R b]]. cbn [ds_delta ds_f ds_g ds_u ds_v ds_q ds_r fst snd] in *.
  subst a' b'. destruct D.
  assert (Hpf0 : (n | coef pf 0 - coef f 0)) by (apply di_pf0; lia).
  assert (Gpf : Z.gcd (coef pf 0) n = 1) by now apply (unit_congr n Hp _ (coef f 0)).
  destruct (Z.eqb_spec delta 0) as [->|Hdelta]; cbn [negb].
  - (* inverse *)
    rewrite (idx_Ok _ _ 0) by lia. cbn [bind]. change (nth 0 pf 0) with (coef pf 0). set (c0 := coef pf 0) in *.
    destruct (inv_Ok fuel t c0 n) as (ci & Ei & Ri & Di); trivial; try lia; [apply di_cf0|].
    rewrite Ei. cbn [bind]. rewrite usub_Ok by lia. cbn [bind]. rewrite usub_Ok by lia. cbn [bind].
    destruct (monomial_Ok ci (2 * d - 2 - a)) as (tt & Et & Lt & Ct).
    replace (d + (d + 0) - 2 - a)%nat with (2 * d - 2 - a)%nat by lia. rewrite Et. cbn [bind].
    assert (Ctt : canon n tt) by (intros k; rewrite Ct; destruct (k =? _)%nat; lia).
    destruct (mul_Ok fuel t n Hb Hp Hnn Hf tt V Ctt di_cv0) as (rr & Er & Lr & Cr & Pr). rewrite Er. cbn [bind].
    eexists; split; [reflexivity|]. cbn beta iota.
    split; [rewrite rev_length; apply mfl_length|].
    split; [apply Crev; apply canon_mfl; [lia|exact Cr]|].
    assert (Ef : f == [c0]).
    { intros [|k]; [rewrite coef_cons_0; destruct Hpf0 as [z Hz]; exists (- z); lia|].
      rewrite coef_cons_S, coef_nil, Z.sub_0_r. apply di_df0. lia. }
    set (U' := make_fixed_length U (a + 1 - d)). set (V' := make_fixed_length V (a + 2 - d)).
    assert (EU : U' == U) by (apply ldeg_trunc with a (-1 - Z.of_nat (2 * d - 1) + 0); [assumption|lia]).
    assert (EV : V' == V) by (apply ldeg_trunc with a (1 - Z.of_nat (2 * d - 1) + 0); [assumption|lia]).
    assert (EI : pmul [c0] (xk a) == padd (pmul U' (rev Y)) (pmul V' (rev X))).
    { rewrite EU, EV, <- di_f1, Ef. ring. }
    assert (Had : (d <= a + 1)%nat).
    { destruct (le_lt_dec d (a + 1)); [assumption|exfalso]. apply (const_xk_nonzero c0 a Gpf). rewrite EI.
      assert (U' = []) as -> by (unfold U'; replace (a + 1 - d)%nat with 0%nat by lia; reflexivity).
      assert (V' = []) as -> by (unfold V'; replace (a + 2 - d)%nat with 0%nat by lia; reflexivity). reflexivity. }
    pose proof (reverse_identity U' V' X Y c0 a d Hd LX LY ltac:(apply mfl_length) ltac:(apply mfl_length) Had EI) as RI.
    assert (EO : rev (make_fixed_length rr d) == pmul [ci] (rev V')).
    { rewrite <- (pscale_pmul n). intros k. rewrite coef_pscale. specialize (Pr (d - S k)%nat).
      assert (LV' : length V' = (a + 2 - d)%nat) by apply mfl_length.
      assert (Cc : forall j, coef (pmul tt V) j = ci * (if (j <? 2 * d - 2 - a)%nat then 0 else coef V (j - (2 * d - 2 - a)))).
      { intros j. rewrite <- coef_pmul_xk, <- pmul_pscale_l.
        assert (QQ : peq 0 (pmul tt V) (pmul (pscale ci (xk (2 * d - 2 - a))) V)).
        { apply pmul_proper; [|reflexivity]. apply peq_Z. intros i. rewrite Ct, coef_pscale, coef_xk. destruct (i =? _)%nat; lia. }
        destruct (QQ j) as [z Hz]. lia. }
      rewrite Cc in Pr. destruct (le_lt_dec d k).
      - rewrite !coef_overflow by (rewrite ?rev_length, ?mfl_length; lia). exists 0. lia.
      - rewrite coef_rev by (rewrite mfl_length; lia). rewrite mfl_length, coef_mfl.
        destruct (Nat.ltb_spec (d - S k) d); [|lia].
        destruct (le_lt_dec (a + 2 - d) k).
        + rewrite (coef_overflow (rev V')) by (rewrite rev_length; lia).
          destruct (Nat.ltb_spec (d - S k) (2 * d - 2 - a)); [|lia]. exact Pr.
        + rewrite coef_rev by lia. rewrite LV'. unfold V'. rewrite coef_mfl.
          destruct (Nat.ltb_spec (a + 2 - d - S k) (a + 2 - d)); [|lia].
          destruct (Nat.ltb_spec (d - S k) (2 * d - 2 - a)); [lia|].
          replace (d - S k - (2 * d - 2 - a))%nat with (a + 2 - d - S k)%nat in Pr by lia. exact Pr. }
    exists (pmul [ci] (rev U')). rewrite EO, <- EX, <- EY.
    transitivity (pmul [ci] (padd (pmul (rev U') Y) (pmul (rev V') X))); [ring|].
    rewrite <- RI, pconst_mul. intros [|k]; [|rewrite !coef_cons_S, coef_nil; apply Z.divide_0_r].
    rewrite !coef_cons_0. replace (ci * c0) with (c0 * ci) by lia. exact Di.
  - (* not invertible *)
    eexists; split; [reflexivity|]. cbn beta iota. intros w s Hw.
    assert (Hd1 : 1 <= delta).
    { destruct (Z_lt_le_dec delta 0); [exfalso|lia]. apply (unit_not_div n Hp (coef f 0) di_f2). apply di_df0. lia. }
    assert (Eg : g == []) by (apply peq_0_coef; intros k; apply di_dg0; lia).
    set (Q' := make_fixed_length Q (b - d)). set (R' := make_fixed_length R (b + 1 - d)).
    assert (EQ : Q' == Q) by (apply ldeg_trunc with b (-1 - Z.of_nat (2 * d - 1) - delta); [assumption|lia]).
    assert (ER : R' == R) by (apply ldeg_trunc with b (1 - Z.of_nat (2 * d - 1) - delta); [assumption|lia]).
    assert (EI : padd (pmul Q' (rev Y)) (pmul R' (rev X)) == []).
    { rewrite EQ, ER, <- di_g0, Eg. ring. }
    assert (ER0 : R' == []).
    { destruct (le_lt_dec d b) as [Hdb|Hdb].
      2:{ unfold R'. replace (b + 1 - d)%nat with 0%nat by lia. reflexivity. }
      destruct b as [|b]; [lia|].
      pose proof (reverse_identity Q' R' X Y 0 b d Hd LX LY) as RI.
      assert (Zc : pmul [0] (xk b) == []).
      { rewrite <- (pscale_pmul n). apply peq_Z. intros k. rewrite coef_pscale, coef_nil. lia. }
      assert (Z1 : [0] == []) by (apply peq_Z; intros [|k]; [reflexivity|rewrite coef_cons_S, !coef_nil; reflexivity]).
      rewrite Zc, EI, Z1 in RI.
      specialize (RI ltac:(unfold Q'; rewrite mfl_length; lia) ltac:(unfold R'; rewrite mfl_length; lia) ltac:(lia) ltac:(reflexivity)).
      assert (LR : length (rev R') = (S b + 1 - d)%nat) by (rewrite rev_length; apply mfl_length).
      assert (A : rev R' == pmul y (padd (pmul (rev R') s) (popp (pmul (rev Q') w)))).
      { transitivity (pmul (rev R') [1]); [ring|]. rewrite <- Hw.
        transitivity (padd (pmul (pmul (rev R') X) w) (pmul (pmul (rev R') s) y)); [rewrite EX; ring|].
        assert (B : pmul (rev R') X == popp (pmul (rev Q') Y)).
        { transitivity (padd (padd (pmul (rev Q') Y) (pmul (rev R') X)) (popp (pmul (rev Q') Y))); [ring|]. rewrite <- RI. ring. }
        rewrite B, EY. ring. }
      assert (B : padd (pmul (rev R') s) (popp (pmul (rev Q') w)) == []).
      { apply pmul_lead_zero with y d; [now rewrite Ec|intros k Hk; rewrite Ty by lia; apply Z.divide_0_r|].
        apply (dlt_proper n (rev R')); [exact A|]. apply dlt_le with (length (rev R')); [lia|apply dlt_length]. }
      assert (Z2 : rev R' == []) by (rewrite A, B; ring).
      apply peq_0_coef. rewrite peq_0_coef in Z2. intros k.
      destruct (lt_dec k (length R')) as [Lk|Lk]; [|rewrite coef_overflow by lia; apply Z.divide_0_r].
      specialize (Z2 (length R' - S k)%nat). rewrite coef_rev in Z2 by lia.
      replace (length R' - S (length R' - S k))%nat with k in Z2 by lia. exact Z2. }
    assert (EQ0 : Q' == []).
    { apply pmul_unit0_zero with (rev Y); [now rewrite EY0|].
      transitivity (padd (pmul Q' (rev Y)) (pmul R' (rev X))); [rewrite ER0; ring|exact EI]. }
    apply (const_xk_nonzero e m di_e0). rewrite <- di_det0, <- EQ, <- ER, EQ0, ER0. ring.
Qed.
End Euclid.
