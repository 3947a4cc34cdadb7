(** The ring of polynomials over Z (lists of coefficients, constant term first) modulo n. *)
From Coq Require Import ZArith Znumtheory List Bool Lia Setoid Morphisms Ring.
From Verif Require Import Base P_Base S_Seq.
Import ListNotations.
Open Scope Z_scope.

Definition coef (p : list Z) (k : nat) : Z := nth k p 0.
Fixpoint padd (p q : list Z) : list Z :=
  match p, q with
  | [], _ => q
  | _, [] => p
  | a :: p', b :: q' => (a + b) :: padd p' q'
  end.
Definition pscale (a : Z) (p : list Z) : list Z := map (Z.mul a) p.
Definition popp (p : list Z) : list Z := pscale (-1) p.
Definition psub (p q : list Z) : list Z := padd p (popp q).
Fixpoint pmul (p q : list Z) : list Z :=
  match p with
  | [] => []
  | a :: p' => padd (pscale a q) (0 :: pmul p' q)
  end.
(** x^k *)
Definition xk (k : nat) : list Z := repeat 0 k ++ [1].
(** Equality modulo n of all coefficients. *)
Definition peq (n : Z) (p q : list Z) : Prop := forall k, (n | coef p k - coef q k).

Lemma coef_nil k : coef [] k = 0.
Proof. destruct k; reflexivity. Qed.
Lemma coef_cons_0 a p : coef (a :: p) 0 = a.
Proof. reflexivity. Qed.
Lemma coef_cons_S a p k : coef (a :: p) (S k) = coef p k.
Proof. reflexivity. Qed.
Lemma coef_overflow p k : (length p <= k)%nat -> coef p k = 0.
Proof. apply nth_overflow. Qed.
Lemma coef_padd p q k : coef (padd p q) k = coef p k + coef q k.
Proof.
  revert q k. induction p as [|a p IH]; intros q k; cbn [padd]; [rewrite coef_nil; lia|].
  destruct q as [|b q]; [rewrite coef_nil; lia|].
  destruct k; [reflexivity|]. rewrite !coef_cons_S. apply IH.
Qed.
Lemma coef_pscale a p k : coef (pscale a p) k = a * coef p k.
Proof.
  unfold coef, pscale. replace 0 with (a * 0) at 1 by lia. apply map_nth.
Qed.
Lemma coef_popp p k : coef (popp p) k = - coef p k.
Proof. unfold popp. rewrite coef_pscale. lia. Qed.
Lemma coef_psub p q k : coef (psub p q) k = coef p k - coef q k.
Proof. unfold psub. rewrite coef_padd, coef_popp. lia. Qed.
Lemma coef_pmul_cons a p q k :
  coef (pmul (a :: p) q) k = a * coef q k + match k with O => 0 | S k' => coef (pmul p q) k' end.
Proof. cbn [pmul]. rewrite coef_padd, coef_pscale. destruct k; reflexivity. Qed.
Lemma coef_pmul_nil q k : coef (pmul [] q) k = 0.
Proof. apply coef_nil. Qed.

(** ** Ring laws, coefficientwise over Z *)
Lemma pmul_nil_r p k : coef (pmul p []) k = 0.
Proof.
  revert k. induction p as [|a p IH]; intros k; [apply coef_nil|].
  rewrite coef_pmul_cons, coef_nil. destruct k; [lia|]. rewrite IH. lia.
Qed.
Lemma pmul_cons_r p b q k :
  coef (pmul p (b :: q)) k = b * coef p k + match k with O => 0 | S k' => coef (pmul p q) k' end.
Proof.
  revert k. induction p as [|a p IH]; intros k.
  - rewrite coef_pmul_nil, coef_nil. destruct k; rewrite ?coef_pmul_nil; lia.
  - rewrite coef_pmul_cons. destruct k; [cbn [coef nth]; unfold coef; cbn; lia|].
    rewrite !coef_cons_S, IH, coef_pmul_cons. destruct k; lia.
Qed.
Lemma pmul_comm p q k : coef (pmul p q) k = coef (pmul q p) k.
Proof.
  revert q k. induction p as [|a p IH]; intros q k.
  - rewrite coef_pmul_nil, pmul_nil_r. reflexivity.
  - rewrite coef_pmul_cons, pmul_cons_r. destruct k; [lia|]. rewrite IH. lia.
Qed.
Lemma pmul_padd_l p q r k : coef (pmul (padd p q) r) k = coef (pmul p r) k + coef (pmul q r) k.
Proof.
  revert q k. induction p as [|a p IH]; intros q k; [cbn [padd]; rewrite coef_pmul_nil; lia|].
  destruct q as [|b q]; [cbn [padd]; rewrite coef_pmul_nil; lia|].
  cbn [padd]. rewrite !coef_pmul_cons. destruct k; [lia|]. rewrite IH. lia.
Qed.
Lemma pmul_pscale_l a p q k : coef (pmul (pscale a p) q) k = a * coef (pmul p q) k.
Proof.
  revert k. induction p as [|b p IH]; intros k; [cbn [pscale map]; rewrite coef_pmul_nil; lia|].
  cbn [pscale map]. rewrite !coef_pmul_cons. destruct k; [lia|].
  change (map (Z.mul a) p) with (pscale a p). rewrite IH. lia.
Qed.
Lemma pmul_shift_l p q k : coef (pmul (0 :: p) q) k = match k with O => 0 | S k' => coef (pmul p q) k' end.
Proof. rewrite coef_pmul_cons. destruct k; lia. Qed.
Lemma pmul_assoc p q r k : coef (pmul p (pmul q r)) k = coef (pmul (pmul p q) r) k.
Proof.
  revert k. induction p as [|a p IH]; intros k; [reflexivity|].
  rewrite coef_pmul_cons. cbn [pmul]. rewrite pmul_padd_l, pmul_pscale_l, pmul_shift_l.
  destruct k; [lia|]. rewrite IH. lia.
Qed.

(** ** The coefficients of a product as a convolution sum *)
Lemma fold_add_app l m : fold_right Z.add 0 (l ++ m) = fold_right Z.add 0 l + fold_right Z.add 0 m.
Proof. induction l as [|a l IH]; cbn [app fold_right]; lia. Qed.
Lemma conv_coeff_0 a p q : conv_coeff (a :: p) q 0 = a * nth 0 q 0.
Proof. unfold conv_coeff. cbn [seq map fold_right Nat.sub nth]. lia. Qed.
Lemma conv_coeff_S a p q k : conv_coeff (a :: p) q (S k) = a * nth (S k) q 0 + conv_coeff p q k.
Proof.
  unfold conv_coeff. cbn [seq map fold_right Nat.sub nth]. f_equal.
  rewrite <- seq_shift, map_map. reflexivity.
Qed.
Lemma conv_coeff_nil q k : conv_coeff [] q k = 0.
Proof.
  unfold conv_coeff. induction (seq 0 (S k)) as [|i l IH]; [reflexivity|].
  cbn [map fold_right]. rewrite IH. destruct i; cbn [nth]; lia.
Qed.
Lemma pmul_conv p q k : coef (pmul p q) k = conv_coeff p q k.
Proof.
  revert k. induction p as [|a p IH]; intros k.
  - rewrite coef_pmul_nil, conv_coeff_nil. reflexivity.
  - rewrite coef_pmul_cons. destruct k; [rewrite conv_coeff_0; unfold coef; lia|].
    rewrite conv_coeff_S, IH. reflexivity.
Qed.

(** ** The ring modulo n *)
Section Mod.
Variable n : Z.
Notation "p == q" := (peq n p q) (at level 70).

Global Instance peq_equiv : Equivalence (peq n).
Proof.
  split.
  - intros p k. rewrite Z.sub_diag. apply Z.divide_0_r.
  - intros p q H k. destruct (H k) as [c E]. exists (- c). lia.
  - intros p q r H1 H2 k. destruct (H1 k) as [c E], (H2 k) as [d F]. exists (c + d). lia.
Qed.
Lemma peq_Z p q : (forall k, coef p k = coef q k) -> p == q.
Proof. intros H k. rewrite H, Z.sub_diag. apply Z.divide_0_r. Qed.
Global Instance padd_proper : Proper (peq n ==> peq n ==> peq n) padd.
Proof.
  intros p p' H q q' H' k. rewrite !coef_padd. destruct (H k) as [c E], (H' k) as [d F].
  exists (c + d). lia.
Qed.
Global Instance pscale_proper a : Proper (peq n ==> peq n) (pscale a).
Proof.
  intros p p' H k. rewrite !coef_pscale. destruct (H k) as [c E]. exists (a * c).
  rewrite <- Z.mul_sub_distr_l, E. ring.
Qed.
Global Instance popp_proper : Proper (peq n ==> peq n) popp.
Proof. intros p p' H. unfold popp. now rewrite H. Qed.
Global Instance psub_proper : Proper (peq n ==> peq n ==> peq n) psub.
Proof. intros p p' H q q' H'. unfold psub. now rewrite H, H'. Qed.
Lemma peq_cons a p b q : (n | a - b) -> p == q -> a :: p == b :: q.
Proof. intros H H' [|k]; [exact H|apply H']. Qed.
Lemma pmul_proper_r p q q' : q == q' -> pmul p q == pmul p q'.
Proof.
  intros H. induction p as [|a p IH]; [reflexivity|].
  cbn [pmul]. apply padd_proper; [now apply pscale_proper|]. apply peq_cons; [|exact IH].
  rewrite Z.sub_diag. apply Z.divide_0_r.
Qed.
Global Instance pmul_proper : Proper (peq n ==> peq n ==> peq n) pmul.
Proof.
  intros p p' H q q' H'. rewrite (pmul_proper_r p q q' H').
  rewrite (peq_Z (pmul p q') (pmul q' p) (pmul_comm _ _)).
  rewrite (peq_Z (pmul p' q') (pmul q' p') (pmul_comm _ _)). now apply pmul_proper_r.
Qed.
Lemma pmul_1_l p : pmul [1] p == p.
Proof. apply peq_Z. intros k. rewrite coef_pmul_cons. destruct k; rewrite ?coef_pmul_nil; lia. Qed.

Lemma poly_ring_theory : ring_theory [] [1] padd pmul psub popp (peq n).
Proof.
  split.
  - reflexivity.
  - intros; apply peq_Z; intros; rewrite !coef_padd; lia.
  - intros; apply peq_Z; intros; rewrite !coef_padd; lia.
  - apply pmul_1_l.
  - intros; apply peq_Z; intros; apply pmul_comm.
  - intros; apply peq_Z; intros; apply pmul_assoc.
  - intros; apply peq_Z; intros; rewrite coef_padd; apply pmul_padd_l.
  - reflexivity.
  - intros; apply peq_Z; intros k; rewrite coef_padd, coef_popp, coef_nil; lia.
Qed.
Lemma poly_ring_ext : ring_eq_ext padd pmul popp (peq n).
Proof. split; [apply padd_proper|apply pmul_proper|apply popp_proper]. Qed.
End Mod.

Section Mod2.
Variable n : Z.
Add Ring polyring : (poly_ring_theory n) (setoid (peq_equiv n) (poly_ring_ext n)).
Notation "p == q" := (peq n p q) (at level 70).

Lemma pscale_pmul a p : pscale a p == pmul [a] p.
Proof.
  apply peq_Z. intros k. rewrite coef_pscale, coef_pmul_cons.
  destruct k; rewrite ?coef_pmul_nil; lia.
Qed.
Lemma pconst_mul a b : pmul [a] [b] == [a * b].
Proof. rewrite <- pscale_pmul. reflexivity. Qed.
Lemma xk_0 : xk 0 == [1].
Proof. reflexivity. Qed.
Lemma coef_pmul_xk m p k : coef (pmul (xk m) p) k = if (k <? m)%nat then 0 else coef p (k - m).
Proof.
  revert k. induction m as [|m IH]; intros k.
  - cbn [xk repeat app]. rewrite coef_pmul_cons. rewrite Nat.sub_0_r.
    destruct k; rewrite ?coef_pmul_nil; cbn [Nat.ltb Nat.leb]; lia.
  - change (xk (S m)) with (0 :: xk m). rewrite pmul_shift_l.
    destruct k; [reflexivity|]. rewrite IH. cbn [Nat.sub]. reflexivity.
Qed.
Lemma coef_xk m k : coef (xk m) k = if (k =? m)%nat then 1 else 0.
Proof.
  revert k. induction m as [|m IH]; intros [|k]; try reflexivity.
  - cbn [xk repeat app]. rewrite coef_cons_S. apply coef_nil.
  - change (xk (S m)) with (0 :: xk m). rewrite coef_cons_S. apply IH.
Qed.
Lemma xk_add a b : xk (a + b) == pmul (xk a) (xk b).
Proof.
  apply peq_Z. intros k. rewrite coef_pmul_xk, !coef_xk.
  destruct (Nat.ltb_spec k a), (Nat.eqb_spec k (a + b)), (Nat.eqb_spec (k - a) b); lia.
Qed.
Lemma xk_S a : xk (S a) == pmul (xk 1) (xk a).
Proof. apply (xk_add 1 a). Qed.
Lemma pmul_xk_inj m p q : pmul (xk m) p == pmul (xk m) q -> p == q.
Proof.
  intros H k. specialize (H (m + k)%nat). rewrite !coef_pmul_xk in H.
  destruct (Nat.ltb_spec (m + k) m); [lia|].
  replace (m + k - m)%nat with k in H by lia. exact H.
Qed.
Lemma peq_0_coef p : p == [] <-> forall k, (n | coef p k).
Proof.
  split; intros H k; specialize (H k).
  - rewrite coef_nil, Z.sub_0_r in H. exact H.
  - rewrite coef_nil, Z.sub_0_r. exact H.
Qed.

(** A factor with invertible constant term can be cancelled. *)
Lemma pmul_unit0_zero f p : Z.gcd (coef f 0) n = 1 -> pmul f p == [] -> p == [].
Proof.
  intros G H. apply peq_0_coef. rewrite peq_0_coef in H.
  intros k. induction k as [k IH] using lt_wf_ind.
  specialize (H k). rewrite pmul_conv in H. unfold conv_coeff in H.
  cbn [seq map fold_right] in H. rewrite Nat.sub_0_r in H.
  assert (D : (n | fold_right Z.add 0 (map (fun i => nth i f 0 * nth (k - i) p 0) (seq 1 k)))).
  { clear H. assert (W : forall i, In i (seq 1 k) -> (1 <= i <= k)%nat) by (intros i Hi; apply in_seq in Hi; lia).
    induction (seq 1 k) as [|i l IHl]; cbn [map fold_right]; [apply Z.divide_0_r|].
    apply Z.divide_add_r.
    - apply Z.divide_mul_r. apply IH. specialize (W i (or_introl eq_refl)). lia.
    - apply IHl. intros j Hj. apply W. now right. }
  assert (D2 : (n | nth 0 f 0 * nth k p 0)).
  { apply Z.divide_add_cancel_r with (fold_right Z.add 0 (map (fun i => nth i f 0 * nth (k - i) p 0) (seq 1 k)));
      [exact D|]. now rewrite Z.add_comm. }
  apply Gauss with (nth 0 f 0); [exact D2|].
  apply Zgcd_1_rel_prime. now rewrite Z.gcd_comm.
Qed.

(** A product with a polynomial of degree d with invertible leading coefficient has no small
    degree unless it is zero. *)
Definition dlt (p : list Z) (m : nat) : Prop := forall k, (m <= k)%nat -> (n | coef p k).
Lemma dlt_length p : dlt p (length p).
Proof. intros k Hk. rewrite coef_overflow by exact Hk. apply Z.divide_0_r. Qed.
Lemma dlt_proper p q m : p == q -> dlt p m -> dlt q m.
Proof.
  intros H D k Hk. specialize (D k Hk). specialize (H k).
  replace (coef q k) with (coef p k - (coef p k - coef q k)) by lia. now apply Z.divide_sub_r.
Qed.
Lemma dlt_le p m m' : (m <= m')%nat -> dlt p m -> dlt p m'.
Proof. intros H D k Hk. apply D. lia. Qed.
Lemma dlt_0 p : dlt p 0 <-> p == [].
Proof. rewrite peq_0_coef. split; [intros H k; apply H; lia|intros H k _; apply H]. Qed.
Lemma fold_add_divide l : (forall z, In z l -> (n | z)) -> (n | fold_right Z.add 0 l).
Proof.
  induction l as [|a l IH]; intros H; cbn [fold_right]; [apply Z.divide_0_r|].
  apply Z.divide_add_r; [apply H; now left|]. apply IH. intros z Hz. apply H. now right.
Qed.
Lemma conv_one p q k i0 : (i0 <= k)%nat ->
  (forall i, (i <= k)%nat -> i <> i0 -> (n | coef p i * coef q (k - i))) ->
  (n | coef (pmul p q) k - coef p i0 * coef q (k - i0)).
Proof.
  intros Hi H. rewrite pmul_conv. unfold conv_coeff.
  replace (S k) with (i0 + S (k - i0))%nat by lia. rewrite seq_app, map_app, fold_add_app.
  cbn [seq map fold_right]. rewrite Nat.add_0_l.
  match goal with |- (_ | ?a + (?b + ?c) - ?d) => replace (a + (b + c) - d) with (a + c) by (unfold coef; lia) end.
  apply Z.divide_add_r; apply fold_add_divide; intros z Hz; apply in_map_iff in Hz;
    destruct Hz as (i & <- & Hi2); apply in_seq in Hi2; apply H; lia.
Qed.
Lemma pmul_lead_zero y p d : Z.gcd (coef y d) n = 1 -> dlt y (S d) -> dlt (pmul y p) d -> p == [].
Proof.
  intros G Dy H. apply dlt_0.
  assert (A : forall m, dlt p m -> dlt p 0).
  { intros m; induction m as [|m IH]; intros Dm; [exact Dm|]. apply IH.
    intros k Hk. destruct (Nat.eq_dec k m) as [->|]; [|apply Dm; lia].
    assert (C : (n | coef (pmul y p) (d + m) - coef y d * coef p (d + m - d))).
    { apply conv_one; [lia|]. intros i Hi Hne. destruct (le_lt_dec (S d) i).
      - apply Z.divide_mul_l. now apply Dy.
      - apply Z.divide_mul_r. apply Dm. lia. }
    replace (d + m - d)%nat with m in C by lia.
    specialize (H (d + m)%nat ltac:(lia)).
    apply Gauss with (coef y d); [|apply Zgcd_1_rel_prime; now rewrite Z.gcd_comm].
    replace (coef y d * coef p m) with (coef (pmul y p) (d + m) - (coef (pmul y p) (d + m) - coef y d * coef p m)) by lia.
    now apply Z.divide_sub_r. }
  apply (A _ (dlt_length p)).
Qed.

(** ** Reversal *)
Lemma pmul_length p q : p <> [] -> q <> [] -> length (pmul p q) = (length p + length q - 1)%nat.
Proof.
  intros Hp Hq. destruct p as [|a p]; [congruence|]. clear Hp. revert a.
  assert (LA : forall u v, length (padd u v) = Nat.max (length u) (length v)).
  { induction u as [|x u IH]; intros [|y v]; cbn [padd length]; rewrite ?IH; lia. }
  induction p as [|b p IH]; intros a.
  - cbn [pmul]. rewrite LA. unfold pscale. rewrite map_length. destruct q; [congruence|]. cbn [length]. lia.
  - change (pmul (a :: b :: p) q) with (padd (pscale a q) (0 :: pmul (b :: p) q)).
    rewrite LA. unfold pscale. rewrite map_length. cbn [length]. rewrite IH.
    destruct q; [congruence|]. cbn [length]. lia.
Qed.
Lemma coef_app p q k : coef (p ++ q) k = if (k <? length p)%nat then coef p k else coef q (k - length p).
Proof.
  unfold coef. destruct (Nat.ltb_spec k (length p)); [now apply app_nth1|now apply app_nth2].
Qed.
Lemma coef_rev p k : (k < length p)%nat -> coef (rev p) k = coef p (length p - S k).
Proof. apply rev_nth. Qed.
Lemma pmul_snoc p a q k : coef (pmul (p ++ [a]) q) k =
  coef (pmul p q) k + if (k <? length p)%nat then 0 else a * coef q (k - length p).
Proof.
  revert k. induction p as [|b p IH]; intros k.
  - cbn [app length]. rewrite coef_pmul_cons, coef_pmul_nil, Nat.sub_0_r.
    destruct k; rewrite ?coef_pmul_nil; cbn [Nat.ltb Nat.leb]; lia.
  - cbn [app length]. rewrite !coef_pmul_cons. destruct k; [cbn [Nat.ltb Nat.leb]; lia|].
    rewrite IH. cbn [Nat.sub]. change (S k <? S (length p))%nat with (k <? length p)%nat. lia.
Qed.
Lemma pmul_rev p q k : (S k < length p + length q)%nat ->
  coef (pmul (rev p) (rev q)) k = coef (pmul p q) (length p + length q - 2 - k).
Proof.
  destruct q as [|b0 q0] eqn:Eq0; [intros _; cbn [rev]; rewrite !pmul_nil_r; reflexivity|].
  rewrite <- Eq0. assert (Hq : (0 < length q)%nat) by (subst; cbn; lia). clear Eq0 b0 q0.
  revert k. induction p as [|a p IH]; intros k Hk; [cbn [rev]; rewrite !coef_pmul_nil; reflexivity|].
  cbn [rev length] in *. rewrite pmul_snoc, coef_pmul_cons, rev_length.
  destruct (Nat.ltb_spec k (length p)) as [L|L].
  - rewrite IH by lia. rewrite (coef_overflow q) by lia.
    replace (S (length p) + length q - 2 - k)%nat with (S (length p + length q - 2 - k)) by lia. lia.
  - rewrite coef_rev by lia.
    replace (length q - S (k - length p))%nat with (S (length p) + length q - 2 - k)%nat by lia.
    destruct (S (length p) + length q - 2 - k)%nat as [|j] eqn:Ej.
    + rewrite (coef_overflow (pmul (rev p) (rev q))); [lia|].
      destruct p as [|b p]; [cbn [rev pmul length]; lia|].
      rewrite pmul_length; rewrite ?rev_length; [cbn [length] in *; lia|..];
        intros E; apply (f_equal (@length Z)) in E; rewrite rev_length in E; cbn [length] in E; lia.
    + rewrite IH by lia. replace (length p + length q - 2 - k)%nat with j by lia. lia.
Qed.
End Mod2.
