(** C98, C99: polynomial arithmetic over the public unsigned types u8..u128, for every modulus. The
    totality theorems of T_Poly.v need n^2 or n^3 to fit in the coefficient type. Here there is no
    such bound: whatever the modulus, a value that is returned is the right one. *)
From Coq Require Import ZArith List Bool Arith Lia Znumtheory.
From Verif Require Import Base P_Base M_Int P_Int M_MathUtil M_Poly S_Seq S_Int S_BigInt S_Poly P_Word P_PolyRing P_Poly P_PolyInv T_Poly
  P_Release T_Exact.
Import ListNotations.
Open Scope Z_scope.

(** ** A wider type and more fuel return the same values *)
Lemma refines_for_each {A S} (f g : A -> S -> res S) : (forall a s, refines (f a s) (g a s)) -> forall l s,
  refines (for_each l f s) (for_each l g s).
Proof.
  intros H. induction l as [|a l IH]; intros s; [apply refines_refl|]. cbn [for_each].
  apply refines_bind; [apply H|]. intros b _. apply IH.
Qed.
Lemma refines_zipM {A B C} (f g : A -> B -> res C) : (forall a b, refines (f a b) (g a b)) -> forall l m,
  refines (zipM f l m) (zipM g l m).
Proof.
  intros H. induction l as [|a l IH]; intros m; [apply refines_refl|]. destruct m as [|b m]; [apply refines_refl|].
  cbn [zipM]. apply refines_bind; [apply H|]. intros c _. apply refines_bind; [apply IH|]. intros cs _. apply refines_refl.
Qed.
Lemma while_more {S} c (f g : S -> res S) : (forall s, refines (f s) (g s)) -> forall fuel fuel' s, (fuel <= fuel')%nat ->
  refines (while_ fuel c f s) (while_ fuel' c g s).
Proof.
  intros H. induction fuel as [|k IH]; intros fuel' s L; [intros v E; discriminate E|].
  destruct fuel' as [|k']; [lia|]. cbn [while_].
  destruct (c s); [|apply refines_refl]. apply refines_bind; [apply H|]. intros a _. apply IH. lia.
Qed.

(** Two coefficient types (and fuels) such that the second returns what the first returns. *)
Record refines_type (fuel fuel' : nat) (t t' : ity) : Prop := {
  r_add : forall a b, refines (op_add t a b) (op_add t' a b);
  r_sub : forall a b, refines (op_sub t a b) (op_sub t' a b);
  r_mul : forall a b, refines (op_mul t a b) (op_mul t' a b);
  r_div : forall a b, refines (num_div t a b) (num_div t' a b);
  r_add_mod : forall a b n, refines (add_mod fuel t a b n) (add_mod fuel' t' a b n);
  r_sub_mod : forall a b n, refines (sub_mod fuel t a b n) (sub_mod fuel' t' a b n);
  r_mul_mod : forall a b n, refines (mul_mod fuel t a b n) (mul_mod fuel' t' a b n);
  r_inv : forall x n, refines (num_inv fuel t x n) (num_inv fuel' t' x n) }.
Section Refine.
Variables (fuel fuel' : nat) (t t' : ity).
Hypothesis RT : refines_type fuel fuel' t t'.
Lemma r_poly_zip (f g : Z -> Z -> res Z) x y : (forall a b, refines (f a b) (g a b)) -> refines (poly_zip f x y) (poly_zip g x y).
Proof.
  intros H. unfold poly_zip. destruct (normalize x y) as [a b]. apply refines_bind; [apply refines_refl|]. intros _ _.
  now apply refines_zipM.
Qed.
Lemma r_poly_add x y n : refines (poly_add fuel t x y n) (poly_add fuel' t' x y n).
Proof. apply r_poly_zip. intros a b. destruct (num_equal n 0); [apply (r_add _ _ _ _ RT)|apply (r_add_mod _ _ _ _ RT)]. Qed.
Lemma r_poly_sub x y n : refines (poly_sub fuel t x y n) (poly_sub fuel' t' x y n).
Proof. apply r_poly_zip. intros a b. destruct (num_equal n 0); [apply (r_sub _ _ _ _ RT)|apply (r_sub_mod _ _ _ _ RT)]. Qed.
Lemma r_poly_mul x y n : refines (poly_mul fuel t x y n) (poly_mul fuel' t' x y n).
Proof.
  apply refines_for_each. intros [i a] o. apply refines_for_each. intros [j b] o'.
  apply refines_bind; [apply refines_refl|]. intros oo _. apply refines_bind; [apply (r_mul_mod _ _ _ _ RT)|]. intros p _.
  apply refines_bind; [apply (r_add_mod _ _ _ _ RT)|]. intros s _. apply refines_refl.
Qed.
Lemma r_poly_mul_op_scanning x y n : refines (poly_mul_op_scanning fuel t x y n) (poly_mul_op_scanning fuel' t' x y n).
Proof.
  apply refines_for. intros i o. apply refines_for. intros j o'.
  do 3 (apply refines_bind; [apply refines_refl|]; intros ? _). apply refines_bind; [apply (r_mul_mod _ _ _ _ RT)|]. intros p _.
  apply refines_bind; [apply (r_add_mod _ _ _ _ RT)|]. intros s _. apply refines_refl.
Qed.
Ltac same := apply refines_bind; [apply refines_refl|]; intros ? _.
Ltac wmul := apply refines_bind; [apply r_poly_mul|]; intros ? _.
Lemma r_poly_div_step y n c dist rlen i s :
  refines (poly_div_step fuel t y n c dist rlen i s) (poly_div_step fuel' t' y n c dist rlen i s).
Proof.
  destruct s as [quo rem]. unfold poly_div_step. same. same. same.
  apply refines_bind.
  { destruct (num_equal n 0); [apply (r_div _ _ _ _ RT)|]. apply refines_bind; [apply (r_inv _ _ _ _ RT)|]. intros ci _. apply (r_mul _ _ _ _ RT). }
  intros q _. same. same. same. same. wmul.
  apply refines_bind; [apply r_poly_add|]; intros ? _. apply refines_bind; [apply r_poly_sub|]; intros ? _. apply refines_refl.
Qed.
Lemma r_poly_div x y n : refines (poly_div fuel t x y n) (poly_div fuel' t' x y n).
Proof.
  unfold poly_div. destruct (normalize x y) as [a b]. destruct (leading_coefficient b) as [yd c]. same.
  apply refines_bind; [apply refines_for; intros; apply r_poly_div_step|]. intros [quo rem] _. apply refines_refl.
Qed.
Lemma r_quot_sub an ad bn bd n : refines (quot_sub fuel t an ad bn bd n) (quot_sub fuel' t' an ad bn bd n).
Proof.
  unfold quot_sub. cbv zeta. same. same. apply refines_bind; [apply refines_for; intros; apply r_poly_mul|]. intros ? _.
  same. apply refines_bind; [apply refines_for; intros; apply r_poly_mul|]. intros ? _.
  apply refines_bind; [apply r_poly_sub|]; intros ? _. apply refines_refl.
Qed.
Lemma r_divstep nn l n i s : refines (divstep fuel t nn l n i s) (divstep fuel' t' nn l n i s).
Proof.
  unfold divstep. cbv zeta. same. same. same. same. same. same. wmul. wmul.
  apply refines_bind; [apply r_poly_sub|]; intros ? _. same. wmul. wmul.
  apply refines_bind; [apply r_quot_sub|]; intros ? _. wmul. wmul.
  apply refines_bind; [apply r_quot_sub|]; intros ? _. apply refines_refl.
Qed.
Lemma r_extended_euclid x y n : refines (extended_euclid fuel t x y n) (extended_euclid fuel' t' x y n).
Proof.
  unfold extended_euclid. destruct (leading_coefficient y) as [yd c]. same. same. cbv zeta. same.
  apply refines_bind.
  { unfold divstepsx. same. apply refines_bind; [apply refines_for; intros; apply r_divstep|]. intros ? _. apply refines_refl. }
  intros [[[delta f] g] v] _. destruct (negb (delta =? 0)); [apply refines_refl|]. same.
  apply refines_bind; [apply (r_inv _ _ _ _ RT)|]. intros ? _. same. same. same. wmul. apply refines_refl.
Qed.
Lemma r_polyt_add l m a b : refines (polyt_add fuel t l m a b) (polyt_add fuel' t' l m a b).
Proof. unfold polyt_add. same. apply refines_bind; [apply r_poly_add|]. intros ? _. apply refines_refl. Qed.
Lemma r_polyt_sub l m a b : refines (polyt_sub fuel t l m a b) (polyt_sub fuel' t' l m a b).
Proof. unfold polyt_sub. same. apply refines_bind; [apply r_poly_sub|]. intros ? _. apply refines_refl. Qed.
Lemma r_polyt_mul l m a b : refines (polyt_mul fuel t l m a b) (polyt_mul fuel' t' l m a b).
Proof.
  unfold polyt_mul. same. wmul. apply refines_bind; [apply r_poly_div|]. intros [q r] _. apply refines_refl.
Qed.
Lemma r_polyt_inv l m a : refines (polyt_inv fuel t l m a) (polyt_inv fuel' t' l m a).
Proof. unfold polyt_inv. apply refines_bind; [apply r_extended_euclid|]. intros ? _. apply refines_refl. Qed.
End Refine.

Section Wider.
Variables (w w' : Z) (fuel fuel' : nat).
Hypotheses (Hw : 0 < w <= w') (Hf : (fuel <= fuel')%nat).
Let t := mkity w false false.
Let t' := mkity w' false false.
Lemma in_wider z : in_tyb t z = true -> in_tyb t' z = true.
Proof.
  rewrite !in_tyb_spec. unfold in_ty, t, t'. cbn [imin imax sgn bits].
  pose proof (Z.pow_le_mono_r 2 w w' ltac:(lia) ltac:(lia)). lia.
Qed.
Lemma w_chk z : refines (chk t z) (chk t' z).
Proof.
  intros v E. unfold chk in *. destruct (in_tyb t z) eqn:I; [|discriminate E]. now rewrite (in_wider z I).
Qed.
Lemma w_add a b : refines (op_add t a b) (op_add t' a b). Proof. apply w_chk. Qed.
Lemma w_sub a b : refines (op_sub t a b) (op_sub t' a b). Proof. apply w_chk. Qed.
Lemma w_mul a b : refines (op_mul t a b) (op_mul t' a b). Proof. apply w_chk. Qed.
Lemma w_div a b : refines (num_div t a b) (num_div t' a b).
Proof. unfold num_div, op_div. destruct (b =? 0); [apply refines_refl|apply w_chk]. Qed.
Lemma w_rem a b : refines (op_rem t a b) (op_rem t' a b).
Proof.
  unfold op_rem. destruct (b =? 0); [apply refines_refl|]. destruct (in_tyb t (a ÷ b)) eqn:I; [|intros v E; discriminate E].
  rewrite (in_wider _ I). apply refines_refl.
Qed.
Lemma w_add_mod a b n : refines (add_mod fuel t a b n) (add_mod fuel' t' a b n).
Proof. apply refines_bind; [apply w_add|]. intros d _. apply w_rem. Qed.
Lemma w_mul_mod a b n : refines (mul_mod fuel t a b n) (mul_mod fuel' t' a b n).
Proof. apply refines_bind; [apply w_mul|]. intros d _. apply w_rem. Qed.
Lemma w_sub_mod a b n : refines (sub_mod fuel t a b n) (sub_mod fuel' t' a b n).
Proof.
  apply refines_bind; [apply while_more; [intros; apply w_add|exact Hf]|]. intros tmp _.
  apply refines_bind; [apply w_sub|]. intros d _. apply w_rem.
Qed.
Lemma w_eea_step n s : refines (eea_step fuel t n s) (eea_step fuel' t' n s).
Proof.
  unfold eea_step. apply refines_bind; [apply w_div|]. intros q _. cbv zeta.
  apply refines_bind; [apply w_mul|]. intros tp _.
  apply refines_bind; [apply while_more; [intros; apply w_add|exact Hf]|]. intros tr _.
  apply refines_bind; [apply w_sub|]. intros nr _. apply refines_bind; [apply w_mul|]. intros tp2 _.
  apply refines_bind; [apply while_more; [intros; apply w_add|exact Hf]|]. intros tt _.
  apply refines_bind; [apply w_sub|]. intros nt _. apply refines_refl.
Qed.
Lemma w_inv x n : refines (num_inv fuel t x n) (num_inv fuel' t' x n).
Proof.
  unfold num_inv, extended_euclid_invert. apply refines_bind; [apply while_more; [intros; apply w_eea_step|exact Hf]|].
  intros s _. destruct (_ && _)%bool; [apply refines_refl|]. destruct (num_less_than _ _); [apply w_add|apply refines_refl].
Qed.
Lemma wider_refines : refines_type fuel fuel' t t'.
Proof.
  constructor; intros; [apply w_add|apply w_sub|apply w_mul|apply w_div|apply w_add_mod|apply w_sub_mod|apply w_mul_mod|apply w_inv].
Qed.
End Wider.

(** A secret type returns what the public one returns: only the operators differ, and they agree unless the public one
    overflows. *)
Lemma secret_refines fuel w s : 0 < w -> refines_type fuel fuel (mkity w s false) (mkity w s true).
Proof.
  intros Hw. set (t := mkity w s false). set (t' := mkity w s true). assert (B : 0 < bits t) by exact Hw.
  assert (A1 : forall a b, refines (op_add t a b) (op_add t' a b)) by (intros; exact (ref_add t a b B)).
  assert (A2 : forall a b, refines (op_sub t a b) (op_sub t' a b)) by (intros; exact (ref_sub t a b B)).
  assert (A3 : forall a b, refines (op_mul t a b) (op_mul t' a b)) by (intros; exact (ref_mul t a b B)).
  assert (W : forall n b x, refines (while_ fuel (fun x => num_less_than x b) (fun x => op_add t x n) x)
     (while_ fuel (fun x => num_less_than x b) (fun x => op_add t' x n) x)) by (intros; apply refines_while; intros; apply A1).
  constructor; auto; intros; try apply refines_refl.
  unfold num_inv, extended_euclid_invert. apply refines_bind.
  - apply refines_while. intros st. unfold eea_step. apply refines_bind; [apply refines_refl|]. intros q _. cbv zeta.
    apply refines_bind; [apply A3|]. intros tp _. apply refines_bind; [apply W|]. intros tr _.
    apply refines_bind; [apply A2|]. intros nr _. apply refines_bind; [apply A3|]. intros tp2 _.
    apply refines_bind; [apply W|]. intros tt _. apply refines_bind; [apply A2|]. intros nt _. apply refines_refl.
  - intros st _. destruct (_ && _)%bool; [apply refines_refl|]. destruct (num_less_than _ _); [apply A1|apply refines_refl].
Qed.

(** ** C98 *)
Section Never.
Variables (w : Z) (n : Z).
Hypotheses (Hw : 0 < w) (Hn : 1 < n) (Vn : uval w n).
Lemma wide_cube : n * n * n <= ty_max (3 * w) false + 1.
Proof.
  cbn [ty_max]. replace (3 * w) with (w + w + w) by lia. rewrite !Z.pow_add_r by lia. unfold uval in Vn.
  assert (n * n <= 2 ^ w * 2 ^ w) by (apply Z.mul_le_mono_nonneg; lia).
  assert (n * n * n <= 2 ^ w * 2 ^ w * 2 ^ w) by (apply Z.mul_le_mono_nonneg; nia). lia.
Qed.
Lemma wide_square a b : uval w a -> uval w b -> a * b <= ty_max (3 * w) false.
Proof.
  clear - Hw. intros Va Vb. cbn [ty_max]. replace (3 * w) with (w + w + w) by lia. rewrite !Z.pow_add_r by lia.
  unfold uval in *. assert (1 <= 2 ^ w) by lia. nia.
Qed.
Lemma wide_small : 0 < n <= ty_max (3 * w) false /\ 2 * n - 2 <= ty_max (3 * w) false /\ n * n <= ty_max (3 * w) false + 1.
Proof. pose proof wide_cube. generalize dependent (ty_max (3 * w) false). intros; nia. Qed.
Lemma wide_ok : width_ok (3 * w) false.
Proof. clear - Hw. unfold width_ok. lia. Qed.
End Never.

(** Sums and differences modulo n. *)
Theorem C98_add_sub : forall w fuel x y n r, rust_width w -> 1 < n -> uval w n -> Zn n x -> Zn n y ->
  (poly_add fuel (mkity w false false) x y n = Ok r -> length r = Nat.max (length x) (length y) /\
     forall k, residue n (nth k x 0 + nth k y 0) (nth k r 0)) /\
  (poly_sub fuel (mkity w false false) x y n = Ok r -> length r = Nat.max (length x) (length y) /\
     forall k, residue n (nth k x 0 - nth k y 0) (nth k r 0)).
Proof.
  intros w fuel x y n r Rw Hn Vn Zx Zy. pose proof (width_bound w Rw) as Hw.
  set (fuel' := Nat.max fuel (Z.to_nat n + 2)).
  pose proof (wider_refines w (3 * w) fuel fuel' ltac:(lia) ltac:(unfold fuel'; lia)) as WR. pose proof (wide_small w n ltac:(lia) Hn Vn) as (B1 & B2 & _).
  destruct (C31_mod_add_sub_gen fuel' (3 * w) false false x y n) as [(a & Ea & A) (b & Eb & B)]; trivial;
    [apply wide_ok; lia|unfold fuel'; lia|].
  split; intros E.
  - apply (r_poly_add fuel fuel' _ _ WR) in E. rewrite Ea in E. injection E as <-. exact A.
  - apply (r_poly_sub fuel fuel' _ _ WR) in E. rewrite Eb in E. injection E as <-. exact B.
Qed.
(** Products modulo n, of any two lists of values of the type. *)
Theorem C98_mul : forall w fuel x y n r, rust_width w -> 1 < n -> uval w n ->
  (forall a, In a x -> uval w a) -> (forall b, In b y -> uval w b) ->
  poly_mul fuel (mkity w false false) x y n = Ok r \/ poly_mul_op_scanning fuel (mkity w false false) x y n = Ok r ->
  length r = (length x + length y)%nat /\ forall k, residue n (conv_coeff x y k) (nth k r 0).
Proof.
  intros w fuel x y n r Rw Hn Vn Vx Vy E. pose proof (width_bound w Rw) as Hw.
  set (fuel' := Nat.max fuel 2).
  pose proof (wider_refines w (3 * w) fuel fuel' ltac:(lia) ltac:(unfold fuel'; lia)) as WR. pose proof (wide_small w n ltac:(lia) Hn Vn) as (B1 & B2 & _).
  assert (V : forall a, uval w a -> val (3 * w) false a).
  { intros a Va. cbn [val]. unfold uval in *. pose proof (Z.pow_le_mono_r 2 w (3 * w) ltac:(lia) ltac:(lia)). lia. }
  destruct (C32_mul_mod_gen fuel' (3 * w) false false x y n) as [(a & Ea & A) (b & Eb & B)]; trivial;
    try solve [auto|apply wide_ok; lia|unfold fuel'; lia].
  { intros a b Ha Hb. apply wide_square; auto; lia. }
  destruct E as [E|E].
  - apply (r_poly_mul fuel fuel' _ _ WR) in E. rewrite Ea in E. injection E as <-. exact A.
  - apply (r_poly_mul_op_scanning fuel fuel' _ _ WR) in E.
    rewrite Eb in E. injection E as <-. exact B.
Qed.
(** A division that returns has a divisor with invertible leading coefficient. *)
Lemma div_unit w s fuel x y n d qr : 1 < n -> Zn n y -> is_degree y d ->
  poly_div fuel (mkity w s false) x y n = Ok qr -> Z.gcd (nth d y 0) n = 1.
Proof.
  intros Hn Zy Dy E. unfold poly_div in E. unfold normalize in E.
  set (L := Nat.max (length x) (length y)) in E.
  assert (D' : is_degree (pad y L) d).
  { destruct Dy as [D1 D2]. split; [|intros k Hk]; change (coef (pad y L) d <> 0) || change (coef (pad y L) k = 0);
      rewrite coef_pad; [exact D1|now apply D2]. }
  rewrite (degree_lead _ _ D') in E.
  assert (Ld : (d < length y)%nat).
  { destruct (Nat.lt_ge_cases d (length y)) as [H|H]; [exact H|]. destruct Dy as [D1 _]. rewrite nth_overflow in D1 by lia. lia. }
  assert (Lx : length (pad x L) = L). { unfold pad. rewrite app_length, repeat_length. unfold L. lia. }
  rewrite Lx in E. unfold usub in E at 1. destruct (Nat.leb_spec d L) as [H|H]; [|unfold L in H; lia]. cbn [bind] in E.
  destruct (L - d)%nat as [|k] eqn:K; [unfold L in K; lia|]. cbn [for_range] in E.
  destruct (poly_div_step fuel (mkity w s false) (pad y L) n (nth d (pad y L) 0) (S k) L 0 _) as [st|] eqn:P;
    [|discriminate E]. clear E. unfold poly_div_step in P.
  destruct (usub L 1) as [k1|]; [|discriminate P]. cbn [bind] in P.
  destruct (usub k1 0) as [k2|]; [|discriminate P]. cbn [bind] in P.
  destruct (idx (pad x L) k2) as [ri|]; [|discriminate P]. cbn [bind] in P.
  unfold num_equal at 1 in P. destruct (Z.eqb_spec n 0); [lia|].
  change (nth d (pad y L) 0) with (coef (pad y L) d) in P. rewrite coef_pad in P.
  change (coef y d) with (nth d y 0) in P.
  destruct (num_inv fuel (mkity w s false) (nth d y 0) n) as [ci|] eqn:I; [|discriminate P].
  assert (0 < nth d y 0). { pose proof (Zn_canon n y ltac:(lia) Zy d) as Bd. unfold coef in Bd. destruct Dy. lia. }
  exact (proj1 (C65_public_never_wrong w s fuel (nth d y 0) n false ci Hn H0 I)).
Qed.
(** Division returns only if the leading coefficient of the divisor is invertible; the quotient and
    the remainder are then right. *)
Theorem C98_division : forall w fuel x y n d q r, rust_width w -> 1 < n -> uval w n -> Zn n x -> Zn n y ->
  is_degree y d -> poly_div fuel (mkity w false false) x y n = Ok (q, r) ->
  Z.gcd (nth d y 0) n = 1 /\ Zn n q /\ Zn n r /\ length r = d /\ div_identity n x y q r /\
  forall q' r', Zn n q' -> Zn n r' -> (length r' <= d)%nat -> div_identity n x y q' r' ->
    forall k, nth k q' 0 = nth k q 0 /\ nth k r' 0 = nth k r 0.
Proof.
  intros w fuel x y n d q r Rw Hn Vn Zx Zy Dy E. pose proof (width_bound w Rw) as Hw.
  assert (G : Z.gcd (nth d y 0) n = 1).
  { exact (div_unit w false fuel x y n d (q, r) Hn Zy Dy E). }
  split; [exact G|].
  set (fuel' := Nat.max fuel (Z.to_nat (n + n * n))).
  pose proof (wider_refines w (3 * w) fuel fuel' ltac:(lia) ltac:(unfold fuel'; lia)) as WR.
  destruct (C33_division_identity_gen fuel' (3 * w) false false x y n d) as (q1 & r1 & E1 & Zq & Zr & _ & Lr & ID & U); trivial;
    try solve [apply wide_ok; lia|apply wide_cube; trivial; lia|unfold fuel'; lia].
  apply (r_poly_div fuel fuel' _ _ WR) in E. rewrite E1 in E. injection E as <- <-.
  conjs; auto.
Qed.
(** Inversion modulo (n, y) for a prime n. *)
Theorem C98_inverse : forall w fuel x y n d o, rust_width w -> prime n -> uval w n -> Zn n x -> Zn n y ->
  is_degree y d -> (length x <= d)%nat -> (0 < d)%nat -> extended_euclid fuel (mkity w false false) x y n = Ok o ->
  match o with
  | Some v => length v = d /\ Zn n v /\ is_inverse n y x v /\
      forall v', Zn n v' -> (length v' <= d)%nat -> is_inverse n y x v' -> forall k, nth k v' 0 = nth k v 0
  | None => forall v, ~ is_inverse n y x v
  end.
Proof.
  intros w fuel x y n d o Rw Hp Vn Zx Zy Dy Lx Hd E. pose proof (width_bound w Rw) as Hw. pose proof (prime_ge_2 n Hp).
  set (fuel' := Nat.max fuel (Z.to_nat (n + n * n))).
  pose proof (wider_refines w (3 * w) fuel fuel' ltac:(lia) ltac:(unfold fuel'; lia)) as WR.
  destruct (C34_extended_euclid_gen fuel' (3 * w) false false x y n d) as (o' & E1 & S); trivial;
    try solve [apply wide_ok; lia|apply wide_small; trivial; lia|unfold fuel'; lia].
  apply (r_extended_euclid fuel fuel' _ _ WR) in E. rewrite E1 in E. injection E as <-. exact S.
Qed.
(** The operators of a poly! type over a prime modulus. *)
Theorem C98_poly_type : forall w fuel l n m irr a b r, rust_width w -> prime n -> uval w n -> (0 < l)%nat ->
  fill_sparse (l + 1) m = Ok irr -> Zn n irr -> is_degree irr l -> poly_value l n irr a -> poly_value l n irr b ->
  let t := mkity w false false in
  let is z := poly_value l n irr r /\ represents n irr z (p_poly r) /\
    forall r', length r' = l -> Zn n r' -> represents n irr z r' -> r' = p_poly r in
  (polyt_add fuel t l m a b = Ok r -> is (fun k => nth k (p_poly a) 0 + nth k (p_poly b) 0)) /\
  (polyt_sub fuel t l m a b = Ok r -> is (fun k => nth k (p_poly a) 0 - nth k (p_poly b) 0)) /\
  (polyt_mul fuel t l m a b = Ok r -> is (conv_coeff (p_poly a) (p_poly b))) /\
  (polyt_inv fuel t l m a = Ok r -> poly_value l n irr r /\
     represents n irr (conv_coeff (p_poly a) (p_poly r)) (1 :: repeat 0 (l - 1))).
Proof.
  intros w fuel l n m irr a b r Rw Hp Vn Hl Hm Hz Hd Ha Hb t is. pose proof (width_bound w Rw) as Hw.
  pose proof (prime_ge_2 n Hp).
  set (fuel' := Nat.max fuel (Z.to_nat (n + n * n))).
  pose proof (wider_refines w (3 * w) fuel fuel' ltac:(lia) ltac:(unfold fuel'; lia)) as WR.
  assert (Hf : (Z.to_nat (n + n * n) <= fuel')%nat) by (unfold fuel'; lia).
  assert (Hff : (fuel <= fuel')%nat) by (unfold fuel'; lia).
  assert (H3 : n * n * n <= ty_max (3 * w) false + 1) by (apply wide_cube; trivial; lia).
  pose proof (wide_ok w ltac:(lia)) as Ho.
  destruct (C33_poly_type_ring_gen fuel' (3 * w) false false l n m irr a b Ho Hp H3 Hf Hl Hm Hz Hd Ha Hb)
    as ((r1 & E1 & I1) & (r2 & E2 & I2) & (r3 & E3 & I3)).
  conjs; intros E.
  - apply (r_polyt_add fuel fuel' _ _ WR) in E. rewrite E1 in E. injection E as <-. exact I1.
  - apply (r_polyt_sub fuel fuel' _ _ WR) in E. rewrite E2 in E. injection E as <-. exact I2.
  - apply (r_polyt_mul fuel fuel' _ _ WR) in E. rewrite E3 in E. injection E as <-. exact I3.
  - apply (r_polyt_inv fuel fuel' _ _ WR) in E.
    destruct (C34_poly_type_inverse_gen fuel' (3 * w) false false l n m irr a Ho Hp H3 Hf Hl Hm Hz Hd Ha)
      as [(v & Ev & Vv & r4 & E4 & O)|((p & Ep & _) & _)]; [|rewrite Ep in E; discriminate E].
    rewrite Ev in E. injection E as <-. split; [exact Vv|].
    destruct (C33_poly_type_ring_gen fuel' (3 * w) false false l n m irr a v Ho Hp H3 Hf Hl Hm Hz Hd Ha Vv)
      as (_ & _ & (r5 & E5 & I5)). rewrite E4 in E5. injection E5 as <-. rewrite <- O. exact (proj1 (proj2 I5)).
Qed.

(** Over a secret type (signed or not) every operation returns what it returns over the public type of the same width and
    sign, wherever that returns. With the theorems above: on u8..u128 and U8..U128 a wrong value needs an overflow that the
    public type reports. *)
Theorem C99_secret : forall w s fuel x y n, rust_width w -> let p := mkity w s false in let t := mkity w s true in
  (forall r, poly_add fuel p x y n = Ok r -> poly_add fuel t x y n = Ok r) /\
  (forall r, poly_sub fuel p x y n = Ok r -> poly_sub fuel t x y n = Ok r) /\
  (forall r, poly_mul fuel p x y n = Ok r -> poly_mul fuel t x y n = Ok r) /\
  (forall r, poly_div fuel p x y n = Ok r -> poly_div fuel t x y n = Ok r) /\
  (forall r, extended_euclid fuel p x y n = Ok r -> extended_euclid fuel t x y n = Ok r).
Proof.
  intros w s fuel x y n Rw p t. pose proof (width_bound w Rw) as Hw. pose proof (secret_refines fuel w s ltac:(lia)) as R.
  conjs; [apply (r_poly_add _ _ _ _ R)|apply (r_poly_sub _ _ _ _ R)|apply (r_poly_mul _ _ _ _ R)|apply (r_poly_div _ _ _ _ R)
    |apply (r_extended_euclid _ _ _ _ R)].
Qed.
(** The overflow is real: over U8 modulo the prime 19 the constant 15 divided by 18 is given as 14, with remainder 0; the public
    type panics. *)
Theorem C99_secret_division_refuted : exists x y n q r, prime n /\ uval 8 n /\ Zn n x /\ Zn n y /\ is_degree y 0 /\
  poly_div 300 U8 x y n = Ok (q, r) /\ ~ div_identity n x y q r /\ panics (poly_div 300 u8 x y n).
Proof.
  exists [15], [18], 19, [14], []. split; [|unfold uval; split; [lia|]].
  { apply prime_intro; [lia|]. intros k Hk. apply Zgcd_1_rel_prime.
    assert (K : In k (map Z.of_nat (seq 1 18))) by (apply in_map_iff; exists (Z.to_nat k); split; [lia|apply in_seq; lia]).
    revert k K Hk. assert (F : forallb (fun k => Z.gcd k 19 =? 1) (map Z.of_nat (seq 1 18)) = true) by reflexivity.
    rewrite forallb_forall in F. intros k K _. apply Z.eqb_eq. now apply F. }
  split; [intros a [<-|[]]; lia|]. split; [intros a [<-|[]]; lia|].
  split; [split; [cbn; lia|intros [|[|k]] Hk; [lia|reflexivity|reflexivity]]|].
  split; [vm_compute; reflexivity|]. split; [|exists POverflow; vm_compute; reflexivity].
  intros H. specialize (H 0%nat). destruct H as [e H]. cbn in H. lia.
Qed.

(** *** Concrete cases *)
(** u8 with modulus 251: 251^2 does not fit in 8 bits, yet some operations return (and are right), while
    others panic. *)
Example C98_hypotheses : rust_width 8 /\ 1 < 251 /\ uval 8 251 /\ Zn 251 [3; 0; 7] /\ Zn 251 [5; 1] /\ is_degree [5; 1] 1 /\
  251 * 251 > ty_max 8 false + 1.
Proof.
  unfold rust_width, uval, Zn, is_degree. cbn [In ty_max]. repeat split; try lia; try (intros; lia).
  - cbn. lia.
  - intros [|[|k]] Hk; [lia|lia|cbn; destruct k; reflexivity].
Qed.
Example C98_mul_case : poly_mul 9 (mkity 8 false false) [3; 0; 7] [5; 1] 251 = Ok [15; 3; 35; 7; 0].
Proof. reflexivity. Qed.
Example C98_mul_panics_case : poly_mul 9 (mkity 8 false false) [30] [50] 251 = Panic POverflow.
Proof. reflexivity. Qed.
Example C98_division_case : poly_div 9 (mkity 8 false false) [14; 9; 1] [2; 1] 251 = Ok ([7; 1; 0], [0]).
Proof. vm_compute. reflexivity. Qed.
Example C98_inverse_case : extended_euclid 9 (mkity 8 false false) [3] [0; 1] 251 = Ok (Some [84]).
Proof. vm_compute. reflexivity. Qed.
Example C98_inverse_case2 : extended_euclid 30 (mkity 8 false false) [3; 1] [1; 0; 1] 19 = Ok (Some [6; 17]) /\
  19 * 19 > ty_max 8 false + 1.
Proof. split; [vm_compute; reflexivity|reflexivity]. Qed.
Example C98_inverse_panics_case : extended_euclid 300 (mkity 8 false false) [1; 1] [1; 0; 1] 251 = Panic POverflow.
Proof. vm_compute. reflexivity. Qed.
Print Assumptions C98_add_sub.
Print Assumptions C98_mul.
Print Assumptions C98_division.
Print Assumptions C98_inverse.
Print Assumptions C98_poly_type.
Print Assumptions C99_secret.
Print Assumptions C99_secret_division_refuted.
