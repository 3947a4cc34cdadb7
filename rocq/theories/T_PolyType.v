(** The poly! types: constructors, comparison and division (C82), and when such a type is a field (C83). *)
From Coq Require Import ZArith Znumtheory List Bool Lia Arith Setoid Ring.
From Verif Require Import Base P_Base M_Int P_Int S_Int S_Seq S_BigInt M_MathUtil M_Poly P_PolyRing P_Poly S_Poly T_Poly.
From Verif Require T_Int.
Import ListNotations.
Open Scope Z_scope.

(** *** C82 *)
(** The coefficient a list of (index, coefficient) pairs gives to x^k: the last pair wins. *)
Definition given (p : list (nat * Z)) (k : nat) : Z :=
  fold_left (fun acc ic => if (fst ic =? k)%nat then snd ic else acc) p 0.

Lemma fill_sparse_Ok l m : (forall i c, In (i, c) m -> (i < l)%nat) ->
  exists r, fill_sparse l m = Ok r /\ length r = l /\ forall k, nth k r 0 = given m k.
Proof.
  unfold fill_sparse, given. intros H.
  assert (G : forall s, length s = l -> exists r, for_each m (fun '(i, c) a => upd a i c) s = Ok r /\ length r = l /\
    forall k, nth k r 0 = fold_left (fun acc ic => if (fst ic =? k)%nat then snd ic else acc) m (nth k s 0)).
  { revert H. induction m as [|[i c] m IH]; intros H s L; [exists s; now repeat split|].
    cbn [for_each fold_left]. rewrite upd_Ok by (rewrite L; apply (H i c); now left). cbn [bind].
    destruct (IH (fun i' c' Hi => H i' c' (or_intror Hi)) (set_nth s i c)) as (r & E & Lr & R); [now rewrite set_nth_length|].
    exists r. split; [exact E|]. split; [exact Lr|]. intros k. rewrite R, nth_set_nth. cbn [fst snd].
    assert (i < length s)%nat as Hi by (rewrite L; apply (H i c); now left). apply Nat.ltb_lt in Hi. rewrite Hi, andb_true_r.
    now rewrite (Nat.eqb_sym k i). }
  destruct (G (repeat 0 l)) as (r & E & L & R); [apply repeat_length|]. exists r. split; [exact E|]. split; [exact L|].
  intros k. rewrite R. now rewrite nth_repeat.
Qed.
Lemma fill_sparse_panic l m : (exists i c, In (i, c) m /\ (l <= i)%nat) -> fill_sparse l m = Panic PIndex.
Proof.
  unfold fill_sparse. intros H.
  assert (G : forall s, length s = l -> for_each m (fun '(i, c) a => upd a i c) s = Panic PIndex).
  { destruct H as (i & c & Hi & Hl). induction m as [|[i' c'] m IH]; [contradiction|]. intros s L. cbn [for_each].
    destruct (le_lt_dec (length s) i').
    - now rewrite upd_panic.
    - rewrite upd_Ok by assumption. cbn [bind]. apply IH; [|now rewrite set_nth_length].
      destruct Hi as [E|Hi]; [injection E as -> ->; lia|exact Hi]. }
  apply G, repeat_length.
Qed.
(** new(p): the polynomial has the coefficients given by p, the modulus polynomial those of the type's m, which may
    have the extra power x^l. *)
Theorem C82_new : forall l n m p, (forall i c, In (i, c) p -> (i < l)%nat) -> (forall i c, In (i, c) m -> (i <= l)%nat) ->
  exists r, poly_new l n m p = Ok r /\ p_n r = n /\ length (p_poly r) = l /\ length (p_irr r) = S l /\
    forall k, nth k (p_poly r) 0 = given p k /\ nth k (p_irr r) 0 = given m k.
Proof.
  intros l n m p Hp Hm. destruct (fill_sparse_Ok l p Hp) as (a & Ea & La & Ra).
  destruct (fill_sparse_Ok (l + 1) m) as (b & Eb & Lb & Rb).
  { intros i c H. apply Hm in H. lia. }
  exists (mkpoly a b n). unfold poly_new. rewrite Ea, Eb. cbn [bind p_n p_poly p_irr].
  split; [reflexivity|]. split; [reflexivity|]. split; [exact La|]. split; [lia|]. intros k. split; auto.
Qed.
Theorem C82_new_index_panics : forall l n m p,
  (exists i c, In (i, c) p /\ (l <= i)%nat) \/ (exists i c, In (i, c) m /\ (l < i)%nat) ->
  poly_new l n m p = Panic PIndex.
Proof.
  intros l n m p H. unfold poly_new.
  destruct (Exists_dec (fun ic => (l <= fst ic)%nat) p (fun ic => le_dec l (fst ic))) as [X|X].
  - apply Exists_exists in X as ([i c] & Hi & Hl). rewrite fill_sparse_panic by (now exists i, c). reflexivity.
  - assert (Hp : forall i c, In (i, c) p -> (i < l)%nat).
    { intros i c Hi. destruct (le_lt_dec l i); [|assumption]. destruct X. apply Exists_exists. now exists (i, c). }
    destruct (fill_sparse_Ok l p Hp) as (a & -> & _). cbn [bind]. destruct H as [(i & c & Hi & Hl)|(i & c & Hi & Hl)].
    + apply Hp in Hi. lia.
    + rewrite fill_sparse_panic; [reflexivity|]. exists i, c. split; [exact Hi|lia].
Qed.
(** new_full takes the array as it is. *)
Theorem C82_new_full : forall l n m p, (forall i c, In (i, c) m -> (i <= l)%nat) ->
  exists irr, poly_new_full l n m p = Ok (mkpoly p irr n) /\ length irr = S l /\ forall k, nth k irr 0 = given m k.
Proof.
  intros l n m p Hm. destruct (fill_sparse_Ok (l + 1) m) as (b & Eb & Lb & Rb).
  { intros i c H. apply Hm in H. lia. }
  exists b. unfold poly_new_full. rewrite Eb. cbn [bind]. split; [reflexivity|]. split; [lia|exact Rb].
Qed.
Lemma forallb_combine_eq (a b : list Z) : length a = length b ->
  forallb (fun '(x, y) => x =? y) (combine a b) = true -> a = b.
Proof.
  revert b. induction a as [|x a IH]; intros [|y b] L; try discriminate; [reflexivity|].
  cbn [combine forallb]. intros H. apply andb_prop in H as [H1 H2]. apply Z.eqb_eq in H1. injection L as L.
  rewrite H1. f_equal. now apply IH.
Qed.
Lemma forallb_combine_refl (a : list Z) : forallb (fun '(x, y) => x =? y) (combine a a) = true.
Proof. induction a as [|x a IH]; [reflexivity|]. cbn [combine forallb]. now rewrite Z.eqb_refl, IH. Qed.
(** == holds exactly of equal values, whatever their types. *)
Theorem C82_eq : forall a b, polyt_eqb a b = true <-> a = b.
Proof.
  intros [a ia na] [b ib nb]. unfold polyt_eqb, poly_compatible. cbn [p_n p_irr p_poly]. split.
  - intros H. apply andb_prop in H as [H1 H2].
    destruct (Z.eqb_spec na nb) as [->|]; cbn [negb] in H1; [|discriminate].
    destruct (Nat.eqb_spec (length ia) (length ib)) as [Li|]; cbn [negb] in H1; [|discriminate].
    destruct (Nat.eqb_spec (length a) (length b)) as [La|]; cbn [negb] in H1; [|discriminate].
    apply forallb_combine_eq in H1, H2; trivial. now subst.
  - intros E. injection E as <- <- <-. rewrite Z.eqb_refl, !Nat.eqb_refl. cbn [negb]. now rewrite !forallb_combine_refl.
Qed.
(** The zero test of poly.rs accepts exactly the lists whose every coefficient is zero. *)
Theorem C82_is_zero : forall v, poly_is_zero v = true <-> forall i, nth i v 0 = 0.
Proof.
  unfold poly_is_zero. induction v as [|x v IH]; cbn [forallb].
  - split; [intros _ [|i]; reflexivity|reflexivity].
  - rewrite andb_true_iff, IH. unfold num_equal. rewrite Z.eqb_eq. split.
    + intros [H0 H] [|i]; [exact H0|apply H].
    + intros H. split; [exact (H 0%nat)|intros i; exact (H (S i))].
Qed.
(** poly_z_inv over a prime modulus: every coefficient is replaced by its inverse, zero by zero. *)
Theorem C82_z_inv : forall w (s c : bool) fuel n v, 0 < w -> prime n -> n * n <= (if s then 2 ^ (w - 1) else 2 ^ w) ->
  Forall (fun x => 0 <= x < n) v -> (Z.to_nat (n + n * n) < fuel)%nat ->
  exists r, poly_z_inv fuel (mkity w s c) v n = Ok r /\ length r = length v /\
    forall i, (i < length v)%nat -> 0 <= nth i r 0 < n /\
      (nth i v 0 <> 0 -> (nth i v 0 * nth i r 0) mod n = 1) /\ (nth i v 0 = 0 -> nth i r 0 = 0).
Proof.
  intros w s c fuel n v Hw Hp Hn F Hf. pose proof (prime_ge_2 n Hp) as N2. unfold poly_z_inv.
  induction v as [|x v IH]; cbn [mapM].
  - exists []. split; [reflexivity|]. split; [reflexivity|]. intros i Hi. cbn in Hi. lia.
  - inversion F as [|? ? X Fv]; subst. destruct (IH Fv) as (r & E & L & R).
    assert (V : val w s x) by (unfold val, uval, sval; destruct s; nia).
    assert (Fx : (Z.to_nat (x + n * n) < fuel)%nat) by lia.
    assert (Y : exists y, num_inv fuel (mkity w s c) x n = Ok y /\ 0 <= y < n /\ (x <> 0 -> (x * y) mod n = 1) /\ (x = 0 -> y = 0)).
    { destruct (Z.eq_dec x 0) as [->|Hx].
      - exists 0. split; [|split; [lia|split; [easy|reflexivity]]].
        apply (T_Int.C13_noninvertible_exact w s c fuel 0 n _ Hw ltac:(lia) Hn V ltac:(lia) Fx). rewrite Z.gcd_0_l. lia.
      - destruct (T_Int.C12_extended_euclid_inverse w s c fuel x n false Hw ltac:(lia) Hn V ltac:(lia) Fx) as [I _].
        destruct I as (y & Ey & Ry & My).
        + apply Zgcd_1_rel_prime, rel_prime_sym, prime_rel_prime; [exact Hp|]. intros D. apply Z.divide_pos_le in D; lia.
        + exists y. split; [exact Ey|]. split; [exact Ry|]. split; [intros _; exact My|contradiction]. }
    destruct Y as (y & Ey & Ry & My & Zy). rewrite Ey. cbn [bind]. rewrite E. cbn [bind]. exists (y :: r).
    split; [reflexivity|]. split; [cbn; now rewrite L|]. intros [|i] Hi; [cbn [nth]; now split|]. cbn [nth]. apply R. cbn in Hi. lia.
Qed.
(** a / b over a prime modulus: the quotient and remainder as values of the type. *)
Theorem C82_div : forall fuel w s c l n m irr a b d, rust_width w -> prime n ->
  n * n * n <= ty_max w s + 1 -> (Z.to_nat (n + n * n) <= fuel)%nat ->
  fill_sparse (l + 1) m = Ok irr -> poly_value l n irr a -> poly_value l n irr b -> is_degree (p_poly b) d ->
  exists q r, polyt_div fuel (mkity w s c) l m a b = Ok (q, r) /\ poly_value l n irr q /\ poly_value l n irr r /\
    div_identity n (p_poly a) (p_poly b) (p_poly q) (p_poly r) /\ forall k, (d <= k)%nat -> nth k (p_poly r) 0 = 0.
Proof.
  intros fuel w s c l n m irr a b d Hw Hp H3 Hf Hm Ha Hb Db. pose proof (prime_ge_2 n Hp).
  unfold polyt_div. rewrite (compatible_values _ _ _ _ _ Ha Hb). cbn [assert_ bind].
  destruct Ha as (A1 & A2 & A3 & A4), Hb as (B1 & B2 & B3 & B4).
  destruct (C33_division_identity fuel w s c (p_poly a) (p_poly b) n d) as (q & r & E & Zq & Zr & Lq & Lr & ID & _); trivial; try lia.
  { exact (lead_unit n (p_poly b) d Hp B4 Db). }
  rewrite A2, E. cbn [bind].
  assert (dl : (d < l)%nat).
  { destruct (le_lt_dec l d); [|assumption]. destruct Db as [D0 _]. rewrite nth_overflow in D0 by lia. congruence. }
  destruct (from_vec_Ok l n m irr q Hm) as (q' & Eq & Vq & Cq); [lia|apply Zn_canon; [lia|trivial]|intros k Hk; apply coef_overflow; lia|].
  destruct (from_vec_Ok l n m irr r Hm) as (r' & Er & Vr & Cr); [lia|apply Zn_canon; [lia|trivial]|intros k Hk; apply coef_overflow; lia|].
  rewrite Eq, Er. cbn [bind]. exists q', r'. split; [reflexivity|]. split; [exact Vq|]. split; [exact Vr|].
  assert (Q : p_poly q' = q) by (apply coef_ext; [destruct Vq as (_ & _ & ? & _); lia|exact Cq]).
  split.
  - rewrite Q. intros k. change (nth k (p_poly r') 0) with (coef (p_poly r') k). rewrite Cr. apply ID.
  - intros k Hk. change (nth k (p_poly r') 0) with (coef (p_poly r') k). rewrite Cr. apply coef_overflow. lia.
Qed.
(** from_vec keeps a vector whose degree is below l ... *)
Theorem C82_from_vec : forall l n m v, (forall i c, In (i, c) m -> (i <= l)%nat) ->
  ((forall k, (l <= k)%nat -> nth k v 0 = 0) ->
   exists r, poly_from_vec l n m v = Ok r /\ p_n r = n /\ length (p_poly r) = l /\
     (forall k, nth k (p_poly r) 0 = nth k v 0) /\ forall k, nth k (p_irr r) 0 = given m k) /\
  (forall d, is_degree v d -> (l < d)%nat -> poly_from_vec l n m v = Panic PAssert).
Proof.
  intros l n m v Hm. split.
  - intros Hv. destruct (fill_sparse_Ok (l + 1) m) as (b & Eb & Lb & Rb).
    { intros i c H. apply Hm in H. lia. }
    unfold poly_from_vec. destruct (leading_coefficient v) as [d c0] eqn:E. apply leading_coefficient_spec in E.
    assert (D : (d <= l)%nat).
    { destruct E as [(-> & _)|(H1 & H2 & H3 & _)]; [lia|]. destruct (le_lt_dec d l); [assumption|].
      unfold coef in H3. rewrite Hv in H3 by lia. congruence. }
    apply Nat.leb_le in D. rewrite D, Eb. cbn [assert_ bind]. eexists; split; [reflexivity|]. cbn [p_n p_poly p_irr].
    split; [reflexivity|]. split; [apply mfl_length|]. split; [|exact Rb].
    intros k. change (coef (make_fixed_length v l) k = coef v k). rewrite coef_mfl. destruct (Nat.ltb_spec k l); [reflexivity|].
    symmetry. now apply Hv.
  - intros d Dv Hd. unfold poly_from_vec. rewrite (degree_lead v d Dv).
    assert (F : (d <=? l)%nat = false) by (apply Nat.leb_gt; lia). now rewrite F.
Qed.
(** ... but its check lets degree l through, and then drops the leading coefficient. *)
Theorem C82_from_vec_keeps_the_value_refuted : exists l n m v d r, is_degree v d /\ Zn n v /\
  (forall i c, In (i, c) m -> (i <= l)%nat) /\ poly_from_vec l n m v = Ok r /\
  ~ (forall k, nth k (p_poly r) 0 = nth k v 0) /\
  (* and it is not the reduction modulo the type's polynomial either *)
  ~ represents n (p_irr r) (fun k => nth k v 0) (p_poly r).
Proof.
  exists 3%nat, 3, [(0%nat, 2); (1%nat, 2); (3%nat, 1)], [0; 0; 0; 1], 3%nat, (mkpoly [0; 0; 0] [2; 2; 0; 1] 3).
  split; [split; [discriminate|intros [|[|[|[|[|k]]]]] Hk; try lia; reflexivity]|].
  split; [intros c H; cbn in H; lia|].
  split; [intros i c H; cbn in H; destruct H as [H|[H|[H|[]]]]; injection H as <- <-; lia|].
  split; [reflexivity|]. split; [intros H; specialize (H 3%nat); discriminate|]. cbn [p_irr p_poly].
  assert (D : is_degree [2; 2; 0; 1] 3) by (split; [discriminate|intros [|[|[|[|[|k]]]]] Hk; try lia; reflexivity]).
  assert (Z1 : Zn 3 [2; 2; 0; 1]) by (intros c H; cbn in H; lia).
  intros R. assert (R' : represents 3 [2; 2; 0; 1] (fun k => nth k [0; 0; 0; 1] 0) [1; 1; 0]).
  { exists [1]. intros [|[|[|[|k]]]]; rewrite <- pmul_conv; cbn; try (destruct k; cbn); apply Z.mod_divide; try lia; reflexivity. }
  pose proof (represents_unique 100 3 3 [2; 2; 0; 1] prime_3 ltac:(cbn; lia) ltac:(lia) Z1 D (fun k => nth k [0; 0; 0; 1] 0) [0; 0; 0] [1; 1; 0]) as U.
  specialize (U ltac:(intros [|[|[|[|k]]]]; cbn; lia) ltac:(intros [|[|[|[|k]]]]; cbn; lia) ltac:(cbn; lia) ltac:(cbn; lia) R R' 0%nat).
  discriminate.
Qed.

(** *** C83 *)
(** irr, of degree above zero, has no factorisation modulo n into two polynomials that both have a degree above zero. *)
Definition irreducible (n : Z) (irr : list Z) : Prop :=
  forall f g df dg, Zn n f -> Zn n g -> is_degree f df -> is_degree g dg ->
    (forall k, (n | conv_coeff f g k - nth k irr 0)) -> df = 0%nat \/ dg = 0%nat.

Lemma lead_product n (Hp : prime n) f g df dg : Zn n f -> Zn n g -> is_degree f df -> is_degree g dg ->
  ~ (n | coef (pmul f g) (df + dg)).
Proof.
  intros Zf Zg [F0 F1] [G0 G1] D. pose proof (prime_ge_2 n Hp).
  assert (C : (n | coef (pmul f g) (df + dg) - coef f df * coef g (df + dg - df))).
  { apply conv_one; [lia|]. intros i Hi Hne. destruct (le_lt_dec (S df) i).
    - unfold coef. rewrite F1 by lia. apply Z.divide_0_r.
    - unfold coef. rewrite (G1 (df + dg - i)%nat) by lia. rewrite Z.mul_0_r. apply Z.divide_0_r. }
  replace (df + dg - df)%nat with dg in C by lia.
  assert (P : (n | coef f df * coef g dg)).
  { replace (coef f df * coef g dg) with (coef (pmul f g) (df + dg) - (coef (pmul f g) (df + dg) - coef f df * coef g dg)) by lia.
    now apply Z.divide_sub_r. }
  pose proof (Zn_canon n f ltac:(lia) Zf df). pose proof (Zn_canon n g ltac:(lia) Zg dg). unfold coef in *.
  apply prime_mult in P; [|exact Hp]. destruct P as [P|P]; apply Z.divide_pos_le in P; lia.
Qed.
Section Field.
Variables (fuel : nat) (w : Z) (s c : bool) (l : nat) (n : Z) (m : list (nat * Z)) (irr : list Z).
Hypotheses (Hw : rust_width w) (Hp : prime n) (H3 : n * n * n <= ty_max w s + 1)
  (Hf : (Z.to_nat (n + n * n) <= fuel)%nat) (Hl : (0 < l)%nat)
  (Hm : fill_sparse (l + 1) m = Ok irr) (Hz : Zn n irr) (Hd : is_degree irr l).
Add Ring polyring4 : (poly_ring_theory n) (setoid (peq_equiv n) (poly_ring_ext n)).
Local Notation "p == q" := (peq n p q) (at level 70).
Lemma degree_exists p : Zn n p -> (exists k, nth k p 0 <> 0) -> exists d, is_degree p d /\ (d < length p)%nat.
Proof.
  intros Z0 [k Hk]. destruct (leading_coefficient p) as [d c0] eqn:E. apply leading_coefficient_spec in E.
  destruct E as [(_ & _ & E)|(E0 & L & E1 & E2)].
  - exfalso. apply Hk, E.
  - exists d. split; [|exact L]. split; [unfold coef in *; congruence|exact E2].
Qed.
Lemma unit_of_nonzero z : 0 < z < n -> exists v, (n | z * v - 1).
Proof.
  intros Hz0. assert (R : rel_prime z n).
  { apply rel_prime_sym, prime_rel_prime; [exact Hp|]. intros D. apply Z.divide_pos_le in D; lia. }
  destruct (rel_prime_bezout _ _ R) as [u v E]. exists u. exists (- v). lia.
Qed.
(** If some non-zero polynomial of degree below l is a multiple of a modulo irr then so is 1. *)
Lemma descend (I : irreducible n irr) a : forall e d u q, Zn n d -> is_degree d e -> (e < l)%nat ->
  d == padd (pmul a u) (pmul q irr) -> exists v, is_inverse n irr a v.
Proof.
  intros e. induction e as [e IH] using lt_wf_ind. intros d u q Zd De El E. pose proof (prime_ge_2 n Hp).
  destruct (Nat.eq_dec e 0) as [->|N].
  - destruct De as [D0 D1].
    assert (B : 0 <= coef d 0 < n) by (apply (Zn_canon n d); [lia|exact Zd]). change (nth 0 d 0) with (coef d 0) in D0.
    destruct (unit_of_nonzero (coef d 0)) as [z Hz0]; [lia|].
    exists (pmul [z] u). apply (inverse_peq n irr). exists (pmul [z] q).
    transitivity (pmul [z] (padd (pmul a u) (pmul q irr))); [ring|]. rewrite <- E, <- pscale_pmul.
    intros k.
    destruct k as [|k].
    + rewrite coef_pscale. cbn. destruct Hz0 as [x Hx]. exists x. lia.
    + rewrite coef_pscale. assert (coef d (S k) = 0) as -> by (apply D1; lia). rewrite Z.mul_0_r. destruct k; cbn; apply Z.divide_0_r.
  - destruct (C33_division_identity_prime fuel w s c irr d n e) as (q' & r & _ & Zq & Zr & Lr & ID); trivial.
    assert (ER : irr == padd (pmul q' d) r).
    { intros k. rewrite coef_padd, pmul_conv. apply ID. }
    destruct (Forall_Exists_dec (fun x => x = 0) (fun x => Z.eq_dec x 0) r) as [R0|R1].
    + exfalso. assert (Rz : r == []).
      { intros k. rewrite coef_nil. unfold coef. rewrite Forall_forall in R0. destruct (le_lt_dec (length r) k).
        - rewrite nth_overflow by assumption. apply Z.divide_0_r.
        - rewrite (R0 (nth k r 0)) by (now apply nth_In). apply Z.divide_0_r. }
      rewrite Rz in ER.
      assert (EI : irr == pmul q' d) by (rewrite ER; ring).
      assert (Qn : exists k, nth k q' 0 <> 0).
      { destruct (Forall_Exists_dec (fun x => x = 0) (fun x => Z.eq_dec x 0) q') as [Q0|Q1].
        - exfalso. assert (Qz : q' == []).
          { intros k. rewrite coef_nil. unfold coef. rewrite Forall_forall in Q0. destruct (le_lt_dec (length q') k).
            - rewrite nth_overflow by assumption. apply Z.divide_0_r.
            - rewrite (Q0 (nth k q' 0)) by (now apply nth_In). apply Z.divide_0_r. }
          rewrite Qz in EI. specialize (EI l). cbn [pmul] in EI. rewrite coef_nil, Z.sub_0_r in EI.
          destruct Hd as [Hd0 _]. assert (B : 0 <= coef irr l < n) by (apply (Zn_canon n irr); [lia|exact Hz]).
          apply Z.divide_pos_le in EI; unfold coef in *; lia.
        - apply Exists_exists in Q1 as (x & Hx & Nx). apply (In_nth q' x 0) in Hx as (k & _ & <-). now exists k. }
      destruct (degree_exists q' Zq Qn) as (dq & Dq & _).
      destruct (I q' d dq e Zq Zd Dq De) as [H0|H0]; [|subst dq|contradiction].
      { intros k. specialize (EI k). rewrite pmul_conv in EI. destruct EI as [x EI]. exists (- x). unfold coef in EI. lia. }
      (* q' is a constant, so irr has degree e *)
      specialize (EI l). assert (C1 : coef (pmul q' d) l = coef q' 0 * coef d l).
      { destruct q' as [|q0 q']; [rewrite coef_pmul_nil, coef_nil; lia|]. rewrite coef_pmul_cons.
        assert (Qt : forall k, coef q' k = 0) by (intros k; destruct Dq as [_ Dq]; apply (Dq (S k)); lia).
        assert (P0 : forall k, coef (pmul q' d) k = 0).
        { clear -Qt. induction q' as [|x q' IHq]; intros k; [apply coef_pmul_nil|]. rewrite coef_pmul_cons.
          pose proof (Qt 0%nat) as X. cbn in X. subst x. destruct k; [lia|]. rewrite IHq; [lia|]. intros j. apply (Qt (S j)). }
        rewrite coef_cons_0. destruct l; [lia|]. rewrite P0. lia. }
      rewrite C1 in EI. assert (Dl : coef d l = 0) by (apply De; lia). rewrite Dl, Z.mul_0_r, Z.sub_0_r in EI.
      destruct Hd as [Hd0 _]. assert (B : 0 <= coef irr l < n) by (apply (Zn_canon n irr); [lia|exact Hz]).
      apply Z.divide_pos_le in EI; unfold coef in *; lia.
    + apply Exists_exists in R1 as (x & Hx & Nx). apply (In_nth r x 0) in Hx as (k & _ & <-).
      destruct (degree_exists r Zr) as (e' & Dr & Le); [now exists k|].
      apply (IH e' ltac:(lia) r (popp (pmul q' u)) (psub [1] (pmul q' q)) Zr Dr ltac:(lia)).
      transitivity (psub irr (pmul q' d)); [rewrite ER; ring|]. rewrite E. ring.
Qed.
Lemma field_inverse (I : irreducible n irr) a : poly_value l n irr a -> (exists k, nth k (p_poly a) 0 <> 0) ->
  exists v, is_inverse n irr (p_poly a) v.
Proof.
  intros (A1 & A2 & A3 & A4) N. destruct (degree_exists _ A4 N) as (d & D & L).
  apply (descend I (p_poly a) d (p_poly a) [1] []); trivial; [lia|]. ring.
Qed.
Lemma field_irreducible :
  (forall a, poly_value l n irr a -> (exists k, nth k (p_poly a) 0 <> 0) -> exists v, is_inverse n irr (p_poly a) v) ->
  irreducible n irr.
Proof.
  intros F f g df dg Zf Zg Df Dg E. pose proof (prime_ge_2 n Hp).
  destruct (Nat.eq_dec df 0) as [|Nf]; [now left|]. destruct (Nat.eq_dec dg 0) as [|Ng]; [now right|]. exfalso.
  assert (EI : irr == pmul f g).
  { intros k. rewrite pmul_conv. destruct (E k) as [x Ex]. exists (- x). unfold coef. lia. }
  assert (S : (df + dg <= l)%nat).
  { destruct (le_lt_dec (df + dg) l); [assumption|]. exfalso. apply (lead_product n Hp f g df dg Zf Zg Df Dg).
    specialize (EI (df + dg)%nat). unfold coef at 1 in EI. destruct Hd as [_ Ht]. rewrite Ht in EI by lia.
    apply Z.divide_opp_r. now rewrite <- Z.sub_0_l. }
  destruct (F (mkpoly (make_fixed_length f l) irr n)) as [v V].
  { unfold poly_value. cbn [p_irr p_n p_poly]. split; [reflexivity|]. split; [reflexivity|]. split; [apply mfl_length|].
    apply canon_Zn, canon_mfl; [lia|]. apply Zn_canon; [lia|exact Zf]. }
  { exists df. cbn [p_poly]. change (coef (make_fixed_length f l) df <> 0). rewrite coef_mfl.
    destruct (Nat.ltb_spec df l); [apply Df|lia]. }
  cbn [p_poly] in V. apply inverse_peq in V as [t V].
  assert (Ef : make_fixed_length f l == f).
  { apply peq_Z. intros k. rewrite coef_mfl. destruct (Nat.ltb_spec k l); [reflexivity|]. symmetry. apply Df. lia. }
  rewrite Ef in V.
  assert (G : g == pmul (padd v (pmul t g)) irr).
  { transitivity (pmul (padd (pmul f v) (pmul t irr)) g); [rewrite V; ring|]. rewrite EI. ring. }
  assert (G0 : g == []).
  { apply (small_multiple n irr l Hp Hz Hd _ _ G). intros k Hk. assert (coef g k = 0) as -> by (apply Dg; lia). apply Z.divide_0_r. }
  specialize (G0 dg). rewrite coef_nil, Z.sub_0_r in G0. pose proof (Zn_canon n g ltac:(lia) Zg dg). destruct Dg as [Dg _].
  unfold coef in *. apply Z.divide_pos_le in G0; lia.
Qed.
End Field.

(** A poly! type over a prime modulus is a field exactly when its polynomial is irreducible: then and only then inv
    succeeds on every value other than zero, with a * a.inv() = 1. *)
Theorem C83_field_iff_irreducible : forall fuel w s c l n m irr, rust_width w -> prime n ->
  n * n * n <= ty_max w s + 1 -> (Z.to_nat (n + n * n) <= fuel)%nat -> (0 < l)%nat ->
  fill_sparse (l + 1) m = Ok irr -> Zn n irr -> is_degree irr l ->
  let t := mkity w s c in
  irreducible n irr <->
  (forall a, poly_value l n irr a -> p_poly a <> repeat 0 l ->
     exists v, polyt_inv fuel t l m a = Ok v /\ poly_value l n irr v /\
       exists r, polyt_mul fuel t l m a v = Ok r /\ p_poly r = 1 :: repeat 0 (l - 1)).
Proof.
  intros fuel w s c l n m irr Hw Hp H3 Hf Hl Hm Hz Hd t. pose proof (prime_ge_2 n Hp) as P2.
  assert (NZ : forall a, poly_value l n irr a -> p_poly a <> repeat 0 l -> exists k, nth k (p_poly a) 0 <> 0).
  { intros a (_ & _ & L & _) N.
    destruct (Forall_Exists_dec (fun x => x = 0) (fun x => Z.eq_dec x 0) (p_poly a)) as [F|F].
    - exfalso. apply N. rewrite <- L. clear -F. induction F as [|x p -> F IH]; [reflexivity|]. cbn [length repeat]. now f_equal.
    - apply Exists_exists in F as (x & Hx & Nx). apply (In_nth _ x 0) in Hx as (k & _ & <-). now exists k. }
  assert (SQ : n * n <= ty_max w s + 1) by (generalize dependent (ty_max w s); intros; nia).
  split.
  - intros I a Va N. destruct (field_inverse fuel w s c l n m irr Hw Hp H3 Hf Hl Hm Hz Hd I a Va (NZ a Va N)) as [v V].
    destruct (polyt_inv_Ok fuel w s c l n m irr (rust_width_ok w s Hw) Hp H3 Hf Hl Hm Hz Hd a Va) as [H|[E H]]; [exact H|]. exfalso.
    destruct Va as (A1 & A2 & A3 & A4).
    destruct (C34_extended_euclid fuel w s c (p_poly a) irr n l) as (o & Eo & S); trivial; try lia.
    unfold polyt_inv in E. rewrite A1, A2, Eo in E. cbn [bind] in E. destruct o as [x|]; [|exact (S v V)].
    destruct S as (Lx & Zx & _). destruct (from_vec_Ok l n m irr x Hm) as (p & Ep & _); [lia|apply Zn_canon; [lia|trivial]|intros k Hk; apply coef_overflow; lia|].
    congruence.
  - intros F. eapply field_irreducible; eauto. intros a Va [k Nk].
    destruct (F a Va) as (v & E & Vv & _).
    { intros Z0. apply Nk. rewrite Z0. apply nth_repeat. }
    destruct Va as (A1 & A2 & A3 & A4).
    destruct (C34_extended_euclid fuel w s c (p_poly a) irr n l) as (o & Eo & S); trivial; try lia.
    destruct o as [x|]; [exists x; apply S|]. exfalso. unfold polyt_inv in E. unfold t in E. rewrite A1, A2, Eo in E. discriminate.
Qed.

(** *** Concrete cases *)
Example C82_z_inv_ex : Forall (fun x => 0 <= x < 13) [5; 0; 12] /\ poly_z_inv 200 (mkity 8 false true) [5; 0; 12] 13 = Ok [8; 0; 12] /\
  poly_is_zero [0; 0] = true /\ poly_is_zero [0; 0; 3] = false.
Proof. split; [repeat constructor; discriminate|]. repeat split; vm_compute; reflexivity. Qed.
Example C82_ex : (forall i c, In (i, c) [(0%nat, 1); (2%nat, 2); (0%nat, 2)] -> (i < 3)%nat) /\
  (forall i c, In (i, c) [(0%nat, 2); (1%nat, 2); (3%nat, 1)] -> (i <= 3)%nat) /\
  poly_new 3 3 [(0%nat, 2); (1%nat, 2); (3%nat, 1)] [(0%nat, 1); (2%nat, 2); (0%nat, 2)] = Ok (mkpoly [2; 0; 2] [2; 2; 0; 1] 3) /\
  poly_new 3 3 [(0%nat, 2)] [(3%nat, 1)] = Panic PIndex /\
  poly_from_vec 3 3 [(0%nat, 2)] [1; 2; 0; 0; 0] = Ok (mkpoly [1; 2; 0] [2; 0; 0; 0] 3) /\
  poly_from_vec 3 3 [(0%nat, 2)] [1; 2; 0; 0; 1] = Panic PAssert /\
  polyt_eqb (mkpoly [1; 2] [0; 0; 1] 3) (mkpoly [1; 2] [0; 1; 1] 3) = false.
Proof.
  split; [intros i c [H|[H|[H|[]]]]; injection H as <- <-; lia|].
  split; [intros i c [H|[H|[H|[]]]]; injection H as <- <-; lia|].
  repeat split.
Qed.
(** The type of hacspec/tests/test_poly.rs: x^3 + 2x + 2 is irreducible modulo 3, so this is the field of 27 elements. *)
Example C83_ex : irreducible 3 [2; 2; 0; 1] /\ ~ irreducible 3 [0; 1; 0; 1].
Proof.
  split.
  - intros f g df dg Zf Zg Df Dg E.
    destruct (Nat.eq_dec df 0) as [|Nf]; [now left|]. destruct (Nat.eq_dec dg 0) as [|Ng]; [now right|]. exfalso.
    assert (S : (df + dg <= 3)%nat).
    { destruct (le_lt_dec (df + dg) 3); [assumption|]. exfalso. apply (lead_product 3 prime_3 f g df dg Zf Zg Df Dg).
      rewrite pmul_conv. specialize (E (df + dg)%nat). rewrite (nth_overflow [2; 2; 0; 1]) in E by (cbn; lia). now rewrite Z.sub_0_r in E. }
    assert (T : (forall k, (3 <= k)%nat -> nth k f 0 = 0) /\ (forall k, (3 <= k)%nat -> nth k g 0 = 0) /\
      ((nth 2 f 0 = 0) \/ (nth 2 g 0 = 0))).
    { destruct Df as [_ Df], Dg as [_ Dg]. split; [intros k Hk; apply Df; lia|]. split; [intros k Hk; apply Dg; lia|].
      destruct (le_lt_dec df 1); [left; apply Df; lia|right; apply Dg; lia]. }
    destruct T as (Tf & Tg & T2).
    pose proof (E 0%nat) as E0. pose proof (E 1%nat) as E1. pose proof (E 2%nat) as E2. pose proof (E 3%nat) as E3.
    unfold conv_coeff in E0, E1, E2, E3. cbn [seq map fold_right Nat.sub] in E0, E1, E2, E3.
    rewrite (Tf 3%nat), (Tg 3%nat) in E3 by lia.
    change (nth 0 [2; 2; 0; 1] 0) with 2 in E0. change (nth 1 [2; 2; 0; 1] 0) with 2 in E1.
    change (nth 2 [2; 2; 0; 1] 0) with 0 in E2. change (nth 3 [2; 2; 0; 1] 0) with 1 in E3.
    assert (B : forall p k, Zn 3 p -> nth k p 0 = 0 \/ nth k p 0 = 1 \/ nth k p 0 = 2).
    { intros p k Zp. pose proof (Zn_canon 3 p ltac:(lia) Zp k) as X. unfold coef in X. lia. }
    apply Z.mod_divide in E0, E1, E2, E3; try lia.
    destruct (B f 0%nat Zf) as [H|[H|H]]; rewrite H in *; destruct (B g 0%nat Zg) as [H'|[H'|H']]; rewrite H' in *; try discriminate E0;
    destruct (B f 1%nat Zf) as [K|[K|K]]; rewrite K in *; destruct (B g 1%nat Zg) as [K'|[K'|K']]; rewrite K' in *; 
    destruct (B f 2%nat Zf) as [L|[L|L]]; rewrite L in *; destruct (B g 2%nat Zg) as [L'|[L'|L']]; rewrite L' in *;
      try (destruct T2; discriminate); try discriminate E1; try discriminate E2; discriminate E3.
  - intros I. destruct (I [0; 1] [1; 0; 1] 1%nat 2%nat) as [H|H]; try discriminate.
    + intros c H; cbn in H; lia.
    + intros c H; cbn in H; lia.
    + split; [discriminate|intros [|[|[|k]]] Hk; try lia; reflexivity].
    + split; [discriminate|intros [|[|[|[|k]]]] Hk; try lia; reflexivity].
    + intros k. rewrite <- pmul_conv. do 5 (destruct k as [|k]; [exists 0; reflexivity|]). exists 0. unfold coef. cbn. destruct k; reflexivity.
Qed.
Print Assumptions C82_new.
Print Assumptions C82_new_index_panics.
Print Assumptions C82_new_full.
Print Assumptions C82_eq.
Print Assumptions C82_is_zero.
Print Assumptions C82_z_inv.
Print Assumptions C82_div.
Print Assumptions C82_from_vec.
Print Assumptions C82_from_vec_keeps_the_value_refuted.
Print Assumptions C83_field_iff_irreducible.
