(** Theorems about polynomials (C31-C35). *)
From Coq Require Import ZArith Znumtheory List Bool Lia Arith Setoid Ring.
From Verif Require Import Base P_Base M_Int P_Int M_MathUtil P_MathUtil P_Mod M_Seq M_Vec S_Int S_Seq S_BigInt
  M_Poly P_PolyRing P_Poly P_PolyInv S_Poly.
Import ListNotations.
Open Scope Z_scope.
Ltac conjs := repeat match goal with |- _ /\ _ => split end.

(** *** Bridging lemmas *)
Lemma Zn_canon n p : 0 < n -> Zn n p -> canon n p.
Proof.
  intros Hn H k. unfold coef. destruct (lt_dec k (length p)); [apply H, nth_In; lia|].
  rewrite nth_overflow by lia. lia.
Qed.
Lemma canon_Zn n p : canon n p -> Zn n p.
Proof. intros H c Hc. apply (In_nth p c 0) in Hc as (k & _ & <-). apply H. Qed.
Lemma imax_ty w s c : imax (mkity w s c) = ty_max w s.
Proof. reflexivity. Qed.
Lemma width_bound w : rust_width w -> 0 < w <= 128.
Proof. unfold rust_width. cbn [In]. lia. Qed.
Lemma degree_lead p d : is_degree p d -> leading_coefficient p = (d, nth d p 0).
Proof.
  intros [H1 H2]. destruct (leading_coefficient p) as [d' c'] eqn:E. apply leading_coefficient_spec in E.
  assert (L : lead_spec p d (nth d p 0)).
  { right. conjs; auto. destruct (lt_dec d (length p)); [assumption|].
    rewrite nth_overflow in H1 by lia. congruence. }
  destruct (lead_unique _ _ _ _ _ E L) as [-> ->]. reflexivity.
Qed.
Lemma residue_mod n x : 0 < n -> residue n x (x mod n).
Proof. intros H. split; [apply Z.mod_pos_bound; lia|now apply mod_divide]. Qed.
Lemma residue_unique n x r r' : residue n x r -> residue n x r' -> r = r'.
Proof. intros [B1 [q1 D1]] [B2 [q2 D2]]. assert (q1 = q2) by nia. subst. lia. Qed.
Lemma canon_eq n u v : 0 <= u < n -> 0 <= v < n -> (n | u - v) -> u = v.
Proof. intros Hu Hv [e He]. assert (e = 0) by nia. subst. lia. Qed.
Lemma width_of w s c : rust_width w -> 0 < bits (mkity w s c) <= wlim (mkity w s c).
Proof. intros H. apply wlim_intro, width_bound, H. Qed.
(** The widths the proofs below work for: any positive width of an unsigned type, up to 128 bits of a
    signed one (whose modular operations go through i128). T_PolyPublic.v uses them beyond 128 bits. *)
Definition width_ok (w : Z) (s : bool) : Prop := 0 < w <= (if s then 128 else w).
Lemma rust_width_ok w s : rust_width w -> width_ok w s.
Proof. intros H. apply width_bound in H. unfold width_ok. destruct s; lia. Qed.
Lemma width_of_ok w s c : width_ok w s -> 0 < bits (mkity w s c) <= wlim (mkity w s c).
Proof. intros H. exact H. Qed.

(** *** C31: addition and subtraction *)
Section AddSub.
Variables (fuel : nat) (t : ity) (n : Z).
Hypotheses (Hb : 0 < bits t <= wlim t) (Hn : 0 < n) (Hnn : 2 * n - 2 <= imax t) (Hi : n <= imax t)
  (Hf : (Z.to_nat n + 2 <= fuel)%nat).
Lemma canon_in' a : 0 <= a < n -> in_ty t a.
Proof. clear Hf. intros. apply nonneg_in; lia. Qed.
Lemma add_mod_canon' a b : 0 <= a < n -> 0 <= b < n -> add_mod fuel t a b n = Ok ((a + b) mod n).
Proof.
  intros Ha Hb'.
  apply add_mod_fits; trivial; try lia; try now apply canon_in'.
  - apply nonneg_in; lia.
  - apply in_wide; trivial. apply nonneg_in; lia.
Qed.
Lemma sub_mod_canon' a b : 0 <= a < n -> 0 <= b < n -> sub_mod fuel t a b n = Ok ((a - b) mod n).
Proof.
  intros Ha Hb'. assert (In : in_ty t n) by (apply nonneg_in; lia). destruct (sgn t) eqn:S.
  - destruct (signed_mods fuel t a b n) as (_ & E & _); trivial; try lia; [now apply wlim_signed|]. rewrite E.
    assert (I : in_ty i128 (a - b)).
    { assert (in_ty i128 a) by (apply (signed_in_i128 t); [now apply wlim_signed|trivial|now apply canon_in']).
      assert (in_ty i128 b) by (apply (signed_in_i128 t); [now apply wlim_signed|trivial|now apply canon_in']).
      unfold in_ty, imin, imax in *. cbn [sgn i128 bits] in *. lia. }
    apply in_tyb_spec in I. now rewrite I.
  - assert (St : steps a b n = if a <? b then 1 else 0).
    { pose proof (steps_bounds a b n ltac:(lia)) as [B1 B2]. unfold steps in *.
      destruct (Z.ltb_spec a b); nia. }
    rewrite sub_mod_unsigned; trivial; try lia; try now apply canon_in'.
    destruct (Z.leb_spec (a + steps a b n * n) (imax t)); [reflexivity|].
    rewrite St in *. destruct (Z.ltb_spec a b); lia.
Qed.
End AddSub.

(** Modulus n > 0, canonical operands, any operand lengths. The bound 2n-2 <= MAX says that
    a sum of two canonical residues does not overflow the coefficient type. *)
Lemma C31_mod_add_sub_gen : forall fuel w s c x y n, width_ok w s -> 0 < n <= ty_max w s ->
  2 * n - 2 <= ty_max w s -> (Z.to_nat n + 2 <= fuel)%nat -> Zn n x -> Zn n y ->
  (exists r, poly_add fuel (mkity w s c) x y n = Ok r /\ length r = Nat.max (length x) (length y) /\
     forall k, residue n (nth k x 0 + nth k y 0) (nth k r 0)) /\
  (exists r, poly_sub fuel (mkity w s c) x y n = Ok r /\ length r = Nat.max (length x) (length y) /\
     forall k, residue n (nth k x 0 - nth k y 0) (nth k r 0)).
Proof.
  intros fuel w s c x y n Hw Hn H2 Hf Zx Zy.
  rewrite <- (imax_ty w s c) in Hn, H2. set (t := mkity w s c) in *.
  pose proof (width_of_ok w s c Hw) as Hb. fold t in Hb.
  apply Zn_canon in Zx, Zy; try lia.
  assert (G : forall r op, length r = Nat.max (length x) (length y) ->
    (forall k, (k < Nat.max (length x) (length y))%nat -> coef r k = (op (coef x k) (coef y k)) mod n) ->
    op 0 0 = 0 ->
    forall k, residue n (op (nth k x 0) (nth k y 0)) (nth k r 0)).
  { intros r op L C O k. destruct (lt_dec k (Nat.max (length x) (length y))) as [Hk|Hk].
    - change (nth k r 0) with (coef r k). rewrite C by exact Hk. now apply residue_mod.
    - rewrite !nth_overflow by lia. rewrite O. split; [lia|]. apply Z.divide_0_r. }
  unfold poly_add, poly_sub, num_equal. destruct (Z.eqb_spec n 0); [lia|]. split.
  - destruct (poly_zip_coef (fun b c => add_mod fuel t b c n) (fun a b => (a + b) mod n) x y) as (r & E & L & C).
    { intros. apply add_mod_canon'; auto; lia. }
    exists r. conjs; try assumption. now apply (G r Z.add).
  - destruct (poly_zip_coef (fun b c => sub_mod fuel t b c n) (fun a b => (a - b) mod n) x y) as (r & E & L & C).
    { intros. apply sub_mod_canon'; auto; lia. }
    exists r. conjs; try assumption. now apply (G r Z.sub).
Qed.
Theorem C31_mod_add_sub : forall fuel w s c x y n, rust_width w -> 0 < n <= ty_max w s ->
  2 * n - 2 <= ty_max w s -> (Z.to_nat n + 2 <= fuel)%nat -> Zn n x -> Zn n y ->
  (exists r, poly_add fuel (mkity w s c) x y n = Ok r /\ length r = Nat.max (length x) (length y) /\
     forall k, residue n (nth k x 0 + nth k y 0) (nth k r 0)) /\
  (exists r, poly_sub fuel (mkity w s c) x y n = Ok r /\ length r = Nat.max (length x) (length y) /\
     forall k, residue n (nth k x 0 - nth k y 0) (nth k r 0)).
Proof. intros fuel w s c x y n Hw. exact (C31_mod_add_sub_gen fuel w s c x y n (rust_width_ok w s Hw)). Qed.

Lemma zipM_bad (op : Z -> Z -> res Z) x y k p : length x = length y -> (k < length x)%nat ->
  op (coef x k) (coef y k) = Panic p -> (forall a b q, op a b = Panic q -> q <> OutOfFuel) -> crashes (zipM op x y).
Proof.
  intros L Hk E HO. revert y k L Hk E. induction x as [|a x IH]; intros [|b y] k L Hk E; cbn [length] in *; try lia.
  cbn [zipM]. destruct (op a b) as [v|q] eqn:Ea; cbn [bind].
  - destruct k as [|k]; [rewrite !coef_cons_0 in E; congruence|]. rewrite !coef_cons_S in E.
    destruct (IH y k) as (q & Eq & Nq); try lia; [exact E|]. rewrite Eq. cbn [bind]. now exists q.
  - exists q. split; [reflexivity|]. now apply (HO a b).
Qed.
Lemma poly_zip_bad op x y k p : (k < Nat.max (length x) (length y))%nat ->
  op (coef x k) (coef y k) = Panic p -> (forall a b q, op a b = Panic q -> q <> OutOfFuel) -> crashes (poly_zip op x y).
Proof.
  intros Hk E HO. unfold poly_zip, normalize. set (m := Nat.max (length x) (length y)) in *.
  assert (Lx : length (pad x m) = m) by (rewrite pad_length; lia).
  assert (Ly : length (pad y m) = m) by (rewrite pad_length; lia).
  rewrite Lx, Ly, Nat.eqb_refl. cbn [assert_ bind].
  apply (zipM_bad op (pad x m) (pad y m) k p); try lia; [|exact HO]. now rewrite !coef_pad.
Qed.
Lemma chk_Ok t z : in_ty t z -> chk t z = Ok z.
Proof. intros H. unfold chk. apply in_tyb_spec in H. now rewrite H. Qed.
Lemma chk_bad t z : ~ in_ty t z -> chk t z = Panic POverflow.
Proof.
  intros H. unfold chk. destruct (in_tyb t z) eqn:E; [|reflexivity]. apply in_tyb_spec in E. contradiction.
Qed.
Lemma val_in_ty w s c x : val w s x <-> in_ty (mkity w s c) x.
Proof. unfold val, in_ty, sval, uval, imin, imax. cbn [bits sgn]. destruct s; lia. Qed.

(** No modulus (n = 0), public type: the exact integer sum and difference when all their
    coefficients are representable, a panic otherwise. *)
Theorem C31_integer_add_sub_public : forall fuel w s x y, rust_width w ->
  let exact op r := length r = Nat.max (length x) (length y) /\
     forall k, nth k r 0 = op (nth k x 0) (nth k y 0) in
  let fits op := forall k, val w s (op (nth k x 0) (nth k y 0)) in
  let t := mkity w s false in
  ((fits Z.add -> exists r, poly_add fuel t x y 0 = Ok r /\ exact Z.add r) /\
   ((exists k, ~ val w s (nth k x 0 + nth k y 0)) -> crashes (poly_add fuel t x y 0))) /\
  ((fits Z.sub -> exists r, poly_sub fuel t x y 0 = Ok r /\ exact Z.sub r) /\
   ((exists k, ~ val w s (nth k x 0 - nth k y 0)) -> crashes (poly_sub fuel t x y 0))).
Proof.
  intros fuel w s x y Hw exact fits t. pose proof (width_bound w Hw) as Hb.
  assert (V0 : val w s 0).
  { pose proof (pow2_pos (w - 1) ltac:(lia)). pose proof (pow2_pos w ltac:(lia)). unfold val, sval, uval. destruct s; lia. }
  assert (G : forall op (mop : Z -> Z -> res Z), op 0 0 = 0 -> (forall a b, mop a b = chk t (op a b)) ->
    (fits op -> exists r, poly_zip mop x y = Ok r /\ exact op r) /\
    ((exists k, ~ val w s (op (nth k x 0) (nth k y 0))) -> crashes (poly_zip mop x y))).
  { intros op mop O HM. split.
    - intros F. destruct (poly_zip_coef mop op x y) as (r & E & L & C).
      { intros k _. rewrite HM. apply chk_Ok. apply val_in_ty, F. }
      exists r. split; [assumption|]. split; [assumption|].
      intros k. destruct (lt_dec k (Nat.max (length x) (length y))) as [Hk|Hk].
      + now apply C.
      + rewrite !nth_overflow by lia. auto.
    - intros [k Hk]. apply (poly_zip_bad mop x y k POverflow).
      + destruct (lt_dec k (Nat.max (length x) (length y))); [assumption|]. exfalso. apply Hk.
        rewrite !nth_overflow by lia. now rewrite O.
      + rewrite HM. apply chk_bad. unfold t. now rewrite <- val_in_ty.
      + intros a b q. rewrite HM. unfold chk. destruct (in_tyb _ _); intros E; [discriminate|]. injection E as <-. discriminate. }
  split; apply G; reflexivity.
Qed.
(** Secret type: the result wraps. *)
Theorem C31_integer_add_sub_secret : forall fuel w s x y, rust_width w ->
  let t := mkity w s true in
  (exists r, poly_add fuel t x y 0 = Ok r /\ length r = Nat.max (length x) (length y) /\
     forall k, val w s (nth k r 0) /\ cong w (nth k r 0) (nth k x 0 + nth k y 0)) /\
  (exists r, poly_sub fuel t x y 0 = Ok r /\ length r = Nat.max (length x) (length y) /\
     forall k, val w s (nth k r 0) /\ cong w (nth k r 0) (nth k x 0 - nth k y 0)).
Proof.
  intros fuel w s x y Hw t. pose proof (width_bound w Hw) as Hb.
  assert (G : forall op (mop : Z -> Z -> res Z), op 0 0 = 0 -> (forall a b, mop a b = Ok (iwrap t (op a b))) ->
    exists r, poly_zip mop x y = Ok r /\ length r = Nat.max (length x) (length y) /\
     forall k, val w s (nth k r 0) /\ cong w (nth k r 0) (op (nth k x 0) (nth k y 0))).
  { intros op mop O HM.
    assert (W : forall z, val w s (iwrap t z) /\ cong w (iwrap t z) z).
    { intros z. split; [apply (val_in_ty w s true); apply iwrap_range; cbn; lia|].
      destruct (iwrap_congr t z ltac:(cbn; lia)) as [k E]. exists k. exact E. }
    destruct (poly_zip_coef mop (fun a b => iwrap t (op a b)) x y) as (r & E & L & C).
    { intros k _. apply HM. }
    exists r. conjs; auto. intros k. destruct (lt_dec k (Nat.max (length x) (length y))) as [Hk|Hk].
    + change (nth k r 0) with (coef r k). rewrite C by exact Hk. apply W.
    + rewrite !nth_overflow by lia. rewrite O.
      assert (Z0 : iwrap t 0 = 0) by (apply iwrap_id; [cbn; lia|]; unfold in_ty;
        pose proof (imin_le_0 t ltac:(cbn; lia)); pose proof (pow2_pos (w - 1) ltac:(lia)); pose proof (pow2_pos w ltac:(lia));
        unfold imax; cbn [sgn bits t]; destruct s; lia).
      pose proof (W 0) as W0. now rewrite Z0 in W0. }
  split; apply G; reflexivity.
Qed.

(** *** C32: multiplication *)
(** The modular multiplications, for operands of any length whose coefficient products are
    representable in the type in which the products are computed (the type itself when
    unsigned, i128 when signed). *)
Lemma C32_mul_mod_gen : forall fuel w s c x y n, width_ok w s -> 0 < n <= ty_max w s ->
  2 * n - 2 <= ty_max w s -> (2 <= fuel)%nat ->
  (forall a, In a x -> val w s a) -> (forall b, In b y -> val w s b) ->
  (forall a b, In a x -> In b y -> if s then val 128 true (a * b) else a * b <= ty_max w false) ->
  (exists r, poly_mul fuel (mkity w s c) x y n = Ok r /\ length r = (length x + length y)%nat /\
     forall k, residue n (conv_coeff x y k) (nth k r 0)) /\
  (exists r, poly_mul_op_scanning fuel (mkity w s c) x y n = Ok r /\ length r = (length x + length y)%nat /\
     forall k, residue n (conv_coeff x y k) (nth k r 0)).
Proof.
  intros fuel w s c x y n Hw Hn H2 Hf Vx Vy HP.
  pose proof (width_of_ok w s c Hw) as Hb. rewrite <- (imax_ty w s c) in Hn, H2.
  assert (I : in_ty (mkity w s c) n) by (apply nonneg_in; lia).
  assert (HA : forall a b, 0 <= a < n -> 0 <= b < n ->
     add_mod fuel (mkity w s c) a b n = Ok ((a + b) mod n)).
  { intros a b Ha Hb'. apply add_mod_fits; trivial; try lia; try (apply nonneg_in; lia).
    apply in_wide; trivial. apply nonneg_in; lia. }
  assert (HM : forall a b, In a x -> In b y -> mul_mod fuel (mkity w s c) a b n = Ok ((a * b) mod n)).
  { intros a b Ha Hb'. specialize (HP a b Ha Hb'). specialize (Vx a Ha). specialize (Vy b Hb').
    apply mul_mod_fits; trivial; try lia; try now apply val_in_ty.
    unfold wide. cbn [sgn]. destruct s; [now apply (val_in_ty 128 true false)|].
    unfold in_ty. cbn [imin imax sgn bits]. cbn [ty_max val] in *. unfold uval in *. nia. }
  assert (R : forall r, canon n r -> peq n r (pmul x y) -> forall k, residue n (conv_coeff x y k) (nth k r 0)).
  { intros r C P k. split; [apply C|]. rewrite <- pmul_conv. apply P. }
  split.
  - destruct (poly_mul_gen fuel (mkity w s c) n ltac:(lia) HA x y HM) as (r & E & L & C & P).
    exists r. split; [exact E|]. split; [exact L|]. now apply R.
  - destruct (poly_mul_op_scanning_gen fuel (mkity w s c) n x y ltac:(lia) HA HM) as (r & E & L & C & P).
    exists r. split; [exact E|]. split; [exact L|]. now apply R.
Qed.
Theorem C32_mul_mod : forall fuel w s c x y n, rust_width w -> 0 < n <= ty_max w s ->
  2 * n - 2 <= ty_max w s -> (2 <= fuel)%nat ->
  (forall a, In a x -> val w s a) -> (forall b, In b y -> val w s b) ->
  (forall a b, In a x -> In b y -> if s then val 128 true (a * b) else a * b <= ty_max w false) ->
  (exists r, poly_mul fuel (mkity w s c) x y n = Ok r /\ length r = (length x + length y)%nat /\
     forall k, residue n (conv_coeff x y k) (nth k r 0)) /\
  (exists r, poly_mul_op_scanning fuel (mkity w s c) x y n = Ok r /\ length r = (length x + length y)%nat /\
     forall k, residue n (conv_coeff x y k) (nth k r 0)).
Proof. intros fuel w s c x y n Hw. exact (C32_mul_mod_gen fuel w s c x y n (rust_width_ok w s Hw)). Qed.
(** The same for canonical operands when (n-1)^2 is representable. *)
Lemma C32_mul_mod_canonical_gen : forall fuel w s c x y n, width_ok w s -> 1 < n ->
  n * n <= ty_max w s + 1 -> (2 <= fuel)%nat -> Zn n x -> Zn n y ->
  exists r, poly_mul fuel (mkity w s c) x y n = Ok r /\
    poly_mul_op_scanning fuel (mkity w s c) x y n = Ok r /\ length r = (length x + length y)%nat /\
    forall k, residue n (conv_coeff x y k) (nth k r 0).
Proof.
  intros fuel w s c x y n Hw Hn H2 Hf Zx Zy.
  pose proof (width_of_ok w s c Hw) as Hb. pose proof (imax_ty w s c) as Em.
  assert (V : forall a, 0 <= a < n -> val w s a).
  { intros a Ha. apply (val_in_ty w s c). apply nonneg_in; nia. }
  assert (V2 : forall a, 0 <= a <= ty_max w s -> val w s a).
  { intros a Ha. apply (val_in_ty w s c). apply nonneg_in; lia. }
  assert (B : n <= ty_max w s /\ 2 * n - 2 <= ty_max w s) by (clear - Hn H2; generalize dependent (ty_max w s); intros; split; nia).
  destruct (C32_mul_mod_gen fuel w s c x y n) as [(r & E & L & R) (r' & E' & L' & R')]; trivial; try lia.
  - intros a Ha. apply V, Zx, Ha.
  - intros a Ha. apply V, Zy, Ha.
  - intros a b Ha Hb'. specialize (Zx a Ha). specialize (Zy b Hb').
    destruct s; [|nia].
    apply (val_in_ty 128 true false). apply (signed_in_i128 (mkity w true c)); trivial.
    apply val_in_ty, V2. nia.
  - exists r. conjs; auto. rewrite E'. f_equal. apply nth_ext with 0 0; [lia|].
    intros k _. exact (residue_unique _ _ _ _ (R' k) (R k)).
Qed.
Theorem C32_mul_mod_canonical : forall fuel w s c x y n, rust_width w -> 1 < n ->
  n * n <= ty_max w s + 1 -> (2 <= fuel)%nat -> Zn n x -> Zn n y ->
  exists r, poly_mul fuel (mkity w s c) x y n = Ok r /\
    poly_mul_op_scanning fuel (mkity w s c) x y n = Ok r /\ length r = (length x + length y)%nat /\
    forall k, residue n (conv_coeff x y k) (nth k r 0).
Proof. intros fuel w s c x y n Hw. exact (C32_mul_mod_canonical_gen fuel w s c x y n (rust_width_ok w s Hw)). Qed.

(** Plain multiplication over an unsigned public type: the exact product, or a panic when some
    coefficient of the product is not representable. *)
Theorem C32_plain_unsigned : forall w x y, rust_width w ->
  (forall a, In a x -> uval w a) -> (forall b, In b y -> uval w b) ->
  ((forall k, uval w (conv_coeff x y k)) ->
     exists r, poly_mul_plain (mkity w false false) x y = Ok r /\ length r = (length x + length y)%nat /\
       forall k, nth k r 0 = conv_coeff x y k) /\
  ((exists k, ~ uval w (conv_coeff x y k)) -> panics (poly_mul_plain (mkity w false false) x y)).
Proof.
  intros w x y Hw Vx Vy. pose proof (width_of w false false Hw) as Hb. split.
  - intros F. apply poly_mul_plain_public; trivial; try lia.
    + intros a Ha. now apply (val_in_ty w false), Vx.
    + intros a Ha. now apply (val_in_ty w false), Vy.
    + intros k. rewrite !map_abs_id; [|intros a Ha; specialize (Vy a Ha); unfold uval in Vy; lia
        |intros a Ha; specialize (Vx a Ha); unfold uval in Vx; lia].
      specialize (F k). unfold uval in F. cbn [imax sgn bits]. lia.
  - intros [k Hk]. destruct (poly_mul_plain (mkity w false false) x y) as [r|p] eqn:E; [|now exists p].
    exfalso. apply Hk. pose proof (poly_mul_plain_range _ _ _ _ (proj1 Hb) E k) as R.
    destruct (poly_mul_plain_sound (mkity w false false) x y r eq_refl E) as [_ C]. rewrite C in R.
    now apply (val_in_ty w false) in R.
Qed.
(** Over a signed public type: a result is always the exact product, and there is a result
    whenever the sums of the absolute values are representable. *)
Theorem C32_plain_signed : forall w x y, rust_width w ->
  (forall a, In a x -> sval w a) -> (forall b, In b y -> sval w b) ->
  (forall r, poly_mul_plain (mkity w true false) x y = Ok r ->
     length r = (length x + length y)%nat /\ forall k, nth k r 0 = conv_coeff x y k) /\
  ((forall k, conv_coeff (map Z.abs x) (map Z.abs y) k < 2 ^ (w - 1)) ->
     exists r, poly_mul_plain (mkity w true false) x y = Ok r).
Proof.
  intros w x y Hw Vx Vy. pose proof (width_of w true false Hw) as Hb. split.
  - intros r E. now apply (poly_mul_plain_sound (mkity w true false)).
  - intros F. destruct (poly_mul_plain_public (mkity w true false) x y) as (r & E & _); [lia|reflexivity|..].
    + intros a Ha. now apply (val_in_ty w true), Vx.
    + intros a Ha. now apply (val_in_ty w true), Vy.
    + intros k. specialize (F k). cbn [imax sgn bits]. lia.
    + now exists r.
Qed.
(** Over a secret type: the product modulo 2^w. *)
Theorem C32_plain_secret : forall w s x y, rust_width w ->
  exists r, poly_mul_plain (mkity w s true) x y = Ok r /\ length r = (length x + length y)%nat /\
    forall k, val w s (nth k r 0) /\ cong w (nth k r 0) (conv_coeff x y k).
Proof.
  intros w s x y Hw. pose proof (width_of w s true Hw) as Hb.
  destruct (poly_mul_plain_secret (mkity w s true) x y) as (r & E & L & V & P); [lia|reflexivity|].
  exists r. split; [exact E|]. split; [exact L|]. intros k. split; [exact (proj2 (val_in_ty w s true _) (V k))|].
  specialize (P k). rewrite pmul_conv in P. destruct P as [q P]. exists q. cbn [bits] in P.
  change (nth k r 0) with (coef r k). lia.
Qed.

(** *** C33: division *)
Lemma C33_division_identity_gen : forall fuel w s c x y n d, width_ok w s -> 1 < n ->
  n * n * n <= ty_max w s + 1 -> (Z.to_nat (n + n * n) <= fuel)%nat ->
  Zn n x -> Zn n y -> is_degree y d -> Z.gcd (nth d y 0) n = 1 ->
  exists q r, poly_div fuel (mkity w s c) x y n = Ok (q, r) /\ Zn n q /\ Zn n r /\
    length q = Nat.max (length x) (length y) /\ length r = d /\ div_identity n x y q r /\
    (* quotient and remainder are the only ones *)
    forall q' r', Zn n q' -> Zn n r' -> (length r' <= d)%nat -> div_identity n x y q' r' ->
      forall k, nth k q' 0 = nth k q 0 /\ nth k r' 0 = nth k r 0.
Proof.
  intros fuel w s c x y n d Hw Hn H3 Hf Zx Zy Dy G.
  pose proof (width_of_ok w s c Hw) as Hb. rewrite <- (imax_ty w s c) in H3.
  apply Zn_canon in Zx, Zy; try lia.
  destruct (poly_div_Ok fuel (mkity w s c) n Hb Hn H3 Hf x y d (nth d y 0) Zx Zy (degree_lead _ _ Dy) G)
    as (q & r & E & Cq & Cr & Lq & Lr & EQ).
  exists q, r. conjs; auto using canon_Zn.
  - intros k. specialize (EQ k). rewrite coef_padd, pmul_conv in EQ. exact EQ.
  - intros q' r' Zq' Zr' Lr' ID'. apply Zn_canon in Zq', Zr'; try lia.
    assert (EQ' : peq n x (padd (pmul q' y) r')).
    { intros k. specialize (ID' k). rewrite coef_padd, pmul_conv. exact ID'. }
    assert (D0 : peq n (padd (pmul (psub q' q) y) (psub r' r)) []).
    { intros k. specialize (EQ k). specialize (EQ' k). rewrite coef_padd in *. unfold psub at 1.
      rewrite pmul_padd_l. unfold popp. rewrite pmul_pscale_l, coef_psub, coef_nil.
      destruct EQ as [e1 EQ], EQ' as [e2 EQ']. exists (e1 - e2). lia. }
    assert (Q0 : peq n (psub q' q) []).
    { apply (pmul_lead_zero n y (psub q' q) d G).
      - intros k Hk. destruct Dy as [_ Ty]. unfold coef. rewrite Ty by lia. apply Z.divide_0_r.
      - intros k Hk. specialize (D0 k). rewrite coef_padd, coef_psub, (coef_overflow r'), (coef_overflow r), coef_nil in D0 by lia.
        rewrite pmul_comm in D0. destruct D0 as [e D0]. exists e. lia. }
    assert (QQ : forall k, coef q' k = coef q k).
    { intros k. apply (canon_eq n); [apply Zq'|apply Cq|]. specialize (Q0 k). rewrite coef_psub, coef_nil in Q0.
      destruct Q0 as [e Q0]. exists e. lia. }
    intros k. split; [apply QQ|]. apply (canon_eq n); [apply Zr'|apply Cr|].
    change (n | coef r' k - coef r k).
    assert (EC : coef (pmul q' y) k = coef (pmul q y) k).
    { rewrite !pmul_conv. unfold conv_coeff. f_equal. apply map_ext. intros i.
      change (nth i q' 0) with (coef q' i). now rewrite QQ. }
    specialize (EQ k). specialize (EQ' k). rewrite coef_padd in *. rewrite EC in EQ'.
    destruct EQ as [e1 EQ], EQ' as [e2 EQ']. exists (e1 - e2). lia.
Qed.
Theorem C33_division_identity : forall fuel w s c x y n d, rust_width w -> 1 < n ->
  n * n * n <= ty_max w s + 1 -> (Z.to_nat (n + n * n) <= fuel)%nat ->
  Zn n x -> Zn n y -> is_degree y d -> Z.gcd (nth d y 0) n = 1 ->
  exists q r, poly_div fuel (mkity w s c) x y n = Ok (q, r) /\ Zn n q /\ Zn n r /\
    length q = Nat.max (length x) (length y) /\ length r = d /\ div_identity n x y q r /\
    (* quotient and remainder are the only ones *)
    forall q' r', Zn n q' -> Zn n r' -> (length r' <= d)%nat -> div_identity n x y q' r' ->
      forall k, nth k q' 0 = nth k q 0 /\ nth k r' 0 = nth k r 0.
Proof. intros fuel w s c x y n d Hw. exact (C33_division_identity_gen fuel w s c x y n d (rust_width_ok w s Hw)). Qed.
(** For a prime modulus every divisor other than 0 qualifies. *)
Lemma C33_division_identity_prime_gen : forall fuel w s c x y n d, width_ok w s -> prime n ->
  n * n * n <= ty_max w s + 1 -> (Z.to_nat (n + n * n) <= fuel)%nat ->
  Zn n x -> Zn n y -> is_degree y d ->
  exists q r, poly_div fuel (mkity w s c) x y n = Ok (q, r) /\ Zn n q /\ Zn n r /\
    length r = d /\ div_identity n x y q r.
Proof.
  intros fuel w s c x y n d Hw Hp H3 Hf Zx Zy Dy. pose proof (prime_ge_2 n Hp).
  destruct (C33_division_identity_gen fuel w s c x y n d) as (q & r & E & Zq & Zr & _ & Lr & ID & _); trivial; try lia.
  - destruct Dy as [H0 Ty]. assert (0 <= nth d y 0 < n).
    { apply (Zn_canon n y); [lia|exact Zy]. }
    apply Zgcd_1_rel_prime, rel_prime_sym, prime_rel_prime; [exact Hp|]. intros D. apply Z.divide_pos_le in D; lia.
  - exists q, r. conjs; auto.
Qed.
Theorem C33_division_identity_prime : forall fuel w s c x y n d, rust_width w -> prime n ->
  n * n * n <= ty_max w s + 1 -> (Z.to_nat (n + n * n) <= fuel)%nat ->
  Zn n x -> Zn n y -> is_degree y d ->
  exists q r, poly_div fuel (mkity w s c) x y n = Ok (q, r) /\ Zn n q /\ Zn n r /\
    length r = d /\ div_identity n x y q r.
Proof. intros fuel w s c x y n d Hw. exact (C33_division_identity_prime_gen fuel w s c x y n d (rust_width_ok w s Hw)). Qed.
(** The bound cannot be weakened to the one that suffices for multiplication: the quotient
    coefficient is not reduced before it is used. *)
Theorem C33_division_no_overflow_refuted : exists fuel x y n,
  1 < n /\ n * n <= ty_max 128 false + 1 /\ Zn n x /\ Zn n y /\ is_degree y 1 /\ Z.gcd (nth 1 y 0) n = 1 /\
  poly_div fuel (mkity 128 false false) x y n = Panic POverflow.
Proof.
  exists 50%nat, [0; 2305843009213693950], [2305843009213693950; 2], 2305843009213693951.
  conjs.
  - lia.
  - cbn [ty_max]. lia.
  - intros c [<-|[<-|[]]]; lia.
  - intros c [<-|[<-|[]]]; lia.
  - split; [cbn; lia|]. intros [|[|[|k]]] Hk; try lia; reflexivity.
  - reflexivity.
  - vm_compute. reflexivity.
Qed.

(** Dividing by the zero polynomial, and dividing without a modulus. *)
Lemma nonzero_terms_zero p : (forall k, coef p k = 0) -> nonzero_terms p = [].
Proof.
  intros H. unfold nonzero_terms, enumerate. generalize 0%nat at 1.
  induction p as [|a p IH]; intros i; [reflexivity|].
  cbn [length seq combine filter]. pose proof (H 0%nat) as H0. cbn in H0. subst a. cbn [num_equal Z.eqb negb].
  apply IH. intros k. apply (H (S k)).
Qed.
Lemma nonzero_terms_cons p k : coef p k <> 0 -> exists i a l, nonzero_terms p = (i, a) :: l /\ (i < length p)%nat.
Proof.
  unfold nonzero_terms, enumerate. intros H.
  assert (G : forall s, exists i a l, filter (fun '(_, x) => negb (num_equal x 0)) (combine (seq s (length p)) p) = (i, a) :: l
     /\ (i < s + length p)%nat).
  { revert k H. induction p as [|b p IH]; intros k H s; [rewrite coef_nil in H; congruence|].
    cbn [length seq combine filter]. unfold num_equal at 1. destruct (Z.eqb_spec b 0) as [->|Hb]; cbn [negb].
    - destruct k as [|k]; [rewrite coef_cons_0 in H; congruence|]. rewrite coef_cons_S in H.
      destruct (IH k H (S s)) as (i & a & l & E & L). exists i, a, l. split; [exact E|lia].
    - eexists _, _, _. split; [reflexivity|]. lia. }
  exact (G 0%nat).
Qed.
Lemma poly_mul_zero_l fuel t x y n : (forall k, coef x k = 0) -> poly_mul fuel t x y n = Ok (repeat 0 (length x + length y)).
Proof. intros H. unfold poly_mul. now rewrite nonzero_terms_zero. Qed.
Lemma mul_mod_0 fuel t a b : crashes (mul_mod fuel t a b 0).
Proof.
  assert (C : forall t, crashes (let* d := chk t (a * b) in op_rem t d 0)).
  { intros u. unfold chk. destruct (in_tyb u (a * b)); [exists PDivZero|exists POverflow]; split; (reflexivity || discriminate). }
  unfold mul_mod, signed_mod, op_mul. destruct (sgn t).
  - cbn [sec i128]. destruct (C i128) as (p & E & N). exists p. split; [|exact N].
    destruct (chk i128 (a * b)) as [d|q]; cbn [bind] in *; [|congruence].
    destruct (op_rem i128 d 0); cbn [bind]; congruence.
  - apply C.
Qed.
Lemma poly_mul_0 fuel t x y i j : coef x i <> 0 -> coef y j <> 0 -> crashes (poly_mul fuel t x y 0).
Proof.
  intros Hx Hy. apply nonzero_terms_cons in Hx as (i0 & a & lx & Ex & Lx).
  apply nonzero_terms_cons in Hy as (j0 & b & ly & Ey & Ly).
  unfold poly_mul. rewrite Ex, Ey. cbn [for_each].
  rewrite (idx_Ok _ _ 0) by (rewrite repeat_length; lia). cbn [bind].
  destruct (mul_mod_0 fuel t a b) as (p & E & N). exists p. rewrite E. split; [reflexivity|exact N].
Qed.

Section Walk.
Variables (fuel : nat) (t : ity) (n : Z) (x y : list Z) (c : Z) (dist L : nat).
Hypothesis Hadd : (if num_equal n 0 then op_add t 0 0 else add_mod fuel t 0 0 n) = Ok 0.
Hypothesis Hsub : forall k, (if num_equal n 0 then op_sub t (coef x k) 0 else sub_mod fuel t (coef x k) 0 n) = Ok (coef x k).
Hypothesis Hlen : (dist <= L)%nat.
Let quot r := if num_equal n 0 then num_div t r c else let* ci := num_inv fuel t c n in op_mul t r ci.
Definition walk_inv '((q, r) : list Z * list Z) :=
  length q = L /\ (forall k, coef q k = 0) /\ (L <= length r)%nat /\ forall k, coef r k = coef x k.
Lemma walk_zero i s : (i < dist)%nat -> walk_inv s -> coef x (L - 1 - i) = 0 -> quot 0 = Ok 0 ->
  exists s', poly_div_step fuel t y n c dist L i s = Ok s' /\ walk_inv s'.
Proof.
  intros Hi W Z0 Q0. destruct s as [q r]. destruct W as (Lq & Cq & Lr & Cr). unfold poly_div_step.
  rewrite usub_Ok by lia. cbn [bind]. rewrite usub_Ok by lia. cbn [bind].
  rewrite (idx_Ok _ _ 0) by lia. cbn [bind]. change (nth (L - 1 - i) r 0) with (coef r (L - 1 - i)).
  rewrite Cr, Z0. fold (quot 0). rewrite Q0. cbn [bind num_equal Z.eqb negb andb].
  rewrite usub_Ok by lia. cbn [bind]. rewrite usub_Ok by lia. cbn [bind].
  destruct (monomial_Ok 0 (dist - i - 1)) as (m & Em & Lm & Cm). rewrite Em. cbn [bind].
  assert (Zm : forall k, coef m k = 0) by (intros k; rewrite Cm; now destruct (k =? _)%nat).
  rewrite poly_mul_zero_l by exact Zm. cbn [bind].
  unfold poly_add, poly_sub.
  destruct (poly_zip_coef (fun b c => if num_equal n 0 then op_add t b c else add_mod fuel t b c n) (fun _ _ => 0) q m) as (q' & Eq & Lq' & Cq').
  { intros k _. now rewrite Cq, Zm, Hadd. }
  rewrite Eq. cbn [bind].
  destruct (poly_zip_coef (fun b c => if num_equal n 0 then op_sub t b c else sub_mod fuel t b c n) (fun b _ => b) r (repeat 0 (length m + length y))) as (r' & Er & Lr' & Cr').
  { intros k _. now rewrite Cr, coef_repeat, Hsub. }
  rewrite Er. cbn [bind]. eexists; split; [reflexivity|]. unfold walk_inv. conjs.
  - lia.
  - intros k. destruct (lt_dec k (length q')); [|apply coef_overflow; lia]. apply Cq'. lia.
  - lia.
  - intros k. destruct (lt_dec k (length r')).
    + rewrite Cr' by lia. apply Cr.
    + rewrite coef_overflow by lia. rewrite <- Cr. symmetry. apply coef_overflow. lia.
Qed.
Lemma walk_crash i s : (i < dist)%nat -> walk_inv s -> coef x (L - 1 - i) <> 0 ->
  (crashes (quot (coef x (L - 1 - i))) \/ quot (coef x (L - 1 - i)) = Ok 0 \/
   exists q, quot (coef x (L - 1 - i)) = Ok q /\ forall s e, monomial q e = Ok s -> crashes (poly_mul fuel t s y n)) ->
  crashes (poly_div_step fuel t y n c dist L i s).
Proof.
  intros Hi W NZ Q. destruct s as [q r]. destruct W as (Lq & Cq & Lr & Cr). unfold poly_div_step.
  rewrite usub_Ok by lia. cbn [bind]. rewrite usub_Ok by lia. cbn [bind].
  rewrite (idx_Ok _ _ 0) by lia. cbn [bind]. change (nth (L - 1 - i) r 0) with (coef r (L - 1 - i)).
  rewrite Cr. fold (quot (coef x (L - 1 - i))). destruct Q as [(p & E & N)|[E|(z & E & H)]]; rewrite E; cbn [bind].
  - now exists p.
  - unfold num_equal at 1 2. destruct (Z.eqb_spec (coef x (L - 1 - i)) 0); [contradiction|].
    cbn [Z.eqb negb andb bind]. exists PExplicit. split; [reflexivity|discriminate].
  - destruct (num_equal z 0 && negb (num_equal (coef x (L - 1 - i)) 0)); cbn [bind].
    { exists PExplicit. split; [reflexivity|discriminate]. }
    rewrite usub_Ok by lia. cbn [bind]. rewrite usub_Ok by lia. cbn [bind].
    destruct (monomial_Ok z (dist - i - 1)) as (m & Em & _). rewrite Em. cbn [bind].
    destruct (H _ _ Em) as (p & Ep & N). rewrite Ep. cbn [bind]. now exists p.
Qed.
Lemma walk_run : forall count i s, (i + count = dist)%nat -> walk_inv s ->
  (forall k, (L - dist <= k)%nat -> quot 0 = Ok 0 \/ coef x k <> 0 \/ crashes (quot 0)) ->
  (forall r, r <> 0 -> crashes (quot r) \/ quot r = Ok 0 \/
     exists q, quot r = Ok q /\ forall s e, monomial q e = Ok s -> crashes (poly_mul fuel t s y n)) ->
  (exists k, (L - dist <= k < L - i)%nat /\ coef x k <> 0) ->
  crashes (for_range i count (poly_div_step fuel t y n c dist L) s).
Proof.
  induction count as [|cnt IH]; intros i s Hc W Q0 Q (k & Hk & NZ); [lia|].
  cbn [for_range]. destruct (Z.eq_dec (coef x (L - 1 - i)) 0) as [Z0|NZ'].
  - destruct (Q0 (L - 1 - i)%nat) as [E|[E|(p & E & N)]]; [lia| |contradiction|].
    + destruct (walk_zero i s ltac:(lia) W Z0 E) as (s' & Es & W'). rewrite Es. cbn [bind].
      apply IH; try assumption; [lia|]. exists k. split; [|exact NZ].
      destruct (Nat.eq_dec k (L - 1 - i)) as [->|]; [contradiction|lia].
    + exists p. split; [|exact N]. unfold poly_div_step. destruct s as [q r].
      destruct W as (Lq & Cq & Lr & Cr). rewrite usub_Ok by lia. cbn [bind]. rewrite usub_Ok by lia. cbn [bind].
      rewrite (idx_Ok _ _ 0) by lia. cbn [bind]. change (nth (L - 1 - i) r 0) with (coef r (L - 1 - i)).
      rewrite Cr, Z0. fold (quot 0). rewrite E. reflexivity.
  - destruct (walk_crash i s ltac:(lia) W NZ' (Q _ NZ')) as (p & E & N). rewrite E. cbn [bind]. now exists p.
Qed.
End Walk.

Lemma for_range_panic {S} i count (f : nat -> S -> res S) s {B} (g : S -> res B) :
  crashes (for_range i count f s) -> crashes (let* s := for_range i count f s in g s).
Proof. intros (p & E & N). exists p. rewrite E. now split. Qed.

Theorem C33_zero_divisor_panics : forall fuel w s c x y n, rust_width w -> 1 < n ->
  2 * n - 2 <= ty_max w s -> (Z.to_nat n + 2 <= fuel)%nat ->
  Zn n x -> (exists k, nth k x 0 <> 0) -> (forall k, nth k y 0 = 0) ->
  crashes (poly_div fuel (mkity w s c) x y n).
Proof.
  intros fuel w s c x y n Hw Hn H2 Hf Zx [k NZ] Z0.
  pose proof (width_of w s c Hw) as Hb. rewrite <- (imax_ty w s c) in H2. set (t := mkity w s c) in *.
  apply Zn_canon in Zx; [|lia].
  unfold poly_div, normalize. set (L := Nat.max (length x) (length y)).
  assert (Ey : leading_coefficient (pad y L) = (0%nat, 0)).
  { destruct (leading_coefficient (pad y L)) as [d e] eqn:E. apply leading_coefficient_spec in E.
    destruct (lead_unique _ _ _ 0%nat 0 E) as [-> ->]; [|reflexivity]. left. conjs; auto.
    intros j. rewrite coef_pad. apply Z0. }
  rewrite Ey. assert (Lx : length (pad x L) = L) by (rewrite pad_length; lia). rewrite Lx.
  rewrite usub_Ok by lia. cbn [bind]. apply for_range_panic.
  assert (Hk : (k < length x)%nat).
  { destruct (lt_dec k (length x)); [assumption|]. rewrite nth_overflow in NZ by lia. congruence. }
  assert (En : num_equal n 0 = false) by (unfold num_equal; apply Z.eqb_neq; lia).
  assert (Ei : num_inv fuel t 0 n = Ok 0).
  { unfold num_inv, extended_euclid_invert. destruct fuel as [|f]; [lia|]. cbn [while_ ee_new_r num_equal Z.eqb negb bind].
    now rewrite andb_false_r. }
  assert (Em : forall r, op_mul t r 0 = Ok 0).
  { intros r. unfold op_mul. rewrite Z.mul_0_r.
    assert (in_ty t 0) by (apply nonneg_in; lia).
    destruct (sec t); [now rewrite iwrap_id by (trivial; lia)|now apply chk_Ok]. }
  refine (walk_run fuel t n x (pad y L) 0 (L - 0) L _ _ _ (L - 0) 0 _ _ _ _ _ _); try lia.
  - rewrite En. rewrite add_mod_canon' by lia. reflexivity.
  - intros j. rewrite En. pose proof (Zx j). rewrite sub_mod_canon' by lia. now rewrite Z.sub_0_r, Z.mod_small.
  - unfold walk_inv. rewrite repeat_length, Lx. conjs; try lia; [apply coef_repeat|apply coef_pad].
  - intros j _. left. rewrite En, Ei. cbn [bind]. apply Em.
  - intros r _. right; left. rewrite En, Ei. cbn [bind]. apply Em.
  - exists k. split; [lia|exact NZ].
Qed.

(** *** C35: polynomials over the integers (n = 0) *)
(** Multiplication works only when one operand is zero, and panics otherwise. *)
Theorem C35_integer_mul_panics : forall fuel t x y,
  (exists i, nth i x 0 <> 0) -> (exists j, nth j y 0 <> 0) -> crashes (poly_mul fuel t x y 0).
Proof. intros fuel t x y [i Hi] [j Hj]. now apply (poly_mul_0 fuel t x y i j). Qed.
Theorem C35_integer_polynomials_can_be_multiplied_refuted : exists x y,
  (forall c, In c x -> val 128 true c) /\ (forall c, In c y -> val 128 true c) /\
  (forall k, val 128 true (conv_coeff x y k)) /\
  forall fuel, ~ is_ok (poly_mul fuel (mkity 128 true false) x y 0).
Proof.
  exists [1; 1], [2]. conjs.
  - intros c [<-|[<-|[]]]; vm_compute; intuition congruence.
  - intros c [<-|[]]; vm_compute; intuition congruence.
  - intros k. assert (E : conv_coeff [1; 1] [2] k = match k with 0%nat | 1%nat => 2 | _ => 0 end).
    { rewrite <- pmul_conv. destruct k as [|[|k]]; reflexivity || (cbn; apply coef_nil). }
    rewrite E. destruct k as [|[|k]]; vm_compute; intuition congruence.
  - intros fuel [r E]. destruct (C35_integer_mul_panics fuel (mkity 128 true false) [1; 1] [2]) as (p & E' & _);
      [exists 0%nat; discriminate|exists 0%nat; discriminate|congruence].
Qed.
(** Division panics whenever the dividend's degree is at least the divisor's. *)
Theorem C35_integer_div_panics : forall fuel w s c x y d k, rust_width w ->
  (forall a, In a x -> val w s a) -> (d <= k)%nat -> nth k x 0 <> 0 -> is_degree y d ->
  crashes (poly_div fuel (mkity w s c) x y 0).
Proof.
  intros fuel w s c x y d k Hw Vx Hdk NZ Dy.
  pose proof (width_of w s c Hw) as Hb. set (t := mkity w s c) in *.
  unfold poly_div, normalize. set (L := Nat.max (length x) (length y)).
  assert (Lx : length (pad x L) = L) by (rewrite pad_length; lia).
  assert (Hk : (k < length x)%nat).
  { destruct (lt_dec k (length x)); [assumption|]. rewrite nth_overflow in NZ by lia. congruence. }
  assert (Ey : leading_coefficient (pad y L) = (d, nth d y 0)).
  { assert (D : is_degree (pad y L) d).
    { destruct Dy as [A B]. split; [change (coef (pad y L) d <> 0); now rewrite coef_pad|].
      intros j Hj. change (coef (pad y L) j = 0). rewrite coef_pad. now apply B. }
    rewrite (degree_lead _ _ D). f_equal. apply coef_pad. }
  rewrite Ey, Lx. rewrite usub_Ok by lia. cbn [bind]. apply for_range_panic.
  assert (I0 : in_ty t 0).
  { pose proof (width_bound w Hw). pose proof (pow2_pos (w - 1)). pose proof (pow2_pos w).
    apply nonneg_in; [lia|]. unfold imax, t. cbn [sgn bits]. destruct s; lia. }
  destruct Dy as [D1 D2].
  refine (walk_run fuel t 0 x (pad y L) (nth d y 0) (L - d) L _ _ _ (L - d) 0 _ _ _ _ _ _); try lia; cbn [num_equal Z.eqb].
  - unfold op_add. cbn [Z.add]. destruct (sec t); [now rewrite iwrap_id by (trivial; lia)|now apply chk_Ok].
  - intros j. unfold op_sub. rewrite Z.sub_0_r. assert (I : in_ty t (coef x j)).
    { unfold coef. destruct (lt_dec j (length x)); [apply (val_in_ty w s c), Vx, nth_In; lia|].
      rewrite nth_overflow by lia. exact I0. }
    destruct (sec t); [now rewrite iwrap_id by (trivial; lia)|now apply chk_Ok].
  - unfold walk_inv. rewrite repeat_length, Lx. conjs; try lia; [apply coef_repeat|apply coef_pad].
  - intros j _. left. unfold num_div, op_div. destruct (Z.eqb_spec (nth d y 0) 0); [contradiction|].
    rewrite Z.quot_0_l by assumption. now apply chk_Ok.
  - intros r Hr. unfold num_div, op_div. destruct (Z.eqb_spec (nth d y 0) 0); [contradiction|].
    unfold chk. destruct (in_tyb t (r ÷ nth d y 0)); [right|left; exists POverflow; split; [reflexivity|discriminate]].
    destruct (Z.eq_dec (r ÷ nth d y 0) 0) as [->|Nq]; [now left|right].
    eexists; split; [reflexivity|]. intros m e Em.
    destruct (monomial_Ok (r ÷ nth d y 0) e) as (m' & Em' & _ & Cm). rewrite Em in Em'. injection Em' as <-.
    apply (poly_mul_0 fuel t m (pad y L) e d); [now rewrite Cm, Nat.eqb_refl|]. now rewrite coef_pad.
  - exists k. split; [lia|exact NZ].
Qed.

(** *** C34: inversion *)
Section Inverse.
Variables (n : Z) (y : list Z) (d : nat).
Hypotheses (Hp : prime n) (Zy : Zn n y) (Dy : is_degree y d).
Add Ring polyring2 : (poly_ring_theory n) (setoid (peq_equiv n) (poly_ring_ext n)).
Local Notation "p == q" := (peq n p q) (at level 70).
Lemma inverse_peq a v : is_inverse n y a v <-> exists s, padd (pmul a v) (pmul s y) == [1].
Proof.
  split; intros [s H]; exists s; intros k; specialize (H k).
  - rewrite coef_padd, !pmul_conv. replace (coef [1] k) with (one_coeff k); [exact H|].
    unfold one_coeff. destruct k; [reflexivity|]. cbn. now destruct k.
  - rewrite coef_padd, !pmul_conv in H. replace (one_coeff k) with (coef [1] k); [exact H|].
    unfold one_coeff. destruct k; [reflexivity|]. cbn. now destruct k.
Qed.
Lemma lead_unit : Z.gcd (coef y d) n = 1.
Proof.
  pose proof (prime_ge_2 n Hp). pose proof (Zn_canon n y ltac:(lia) Zy d) as B. destruct Dy as [H0 _].
  change (nth d y 0) with (coef y d) in H0.
  apply Zgcd_1_rel_prime, rel_prime_sym, prime_rel_prime; [exact Hp|]. intros D. apply Z.divide_pos_le in D; lia.
Qed.
Lemma dlt_y : dlt n y (S d).
Proof. intros k Hk. destruct Dy as [_ Ty]. unfold coef. rewrite Ty by lia. apply Z.divide_0_r. Qed.
(** A multiple of y of degree below d is zero. *)
Lemma small_multiple p q : p == pmul q y -> dlt n p d -> p == [].
Proof.
  intros E D. assert (Q : q == []).
  { apply (pmul_lead_zero n y q d lead_unit dlt_y). apply (dlt_proper n p); [|exact D]. rewrite E. ring. }
  rewrite E, Q. ring.
Qed.
Lemma canon_peq_eq p q : canon n p -> canon n q -> p == q -> forall k, coef p k = coef q k.
Proof. intros Cp Cq E k. apply (canon_eq n); auto. Qed.
Lemma inverse_unique a v v' : canon n v -> canon n v' -> (length v <= d)%nat -> (length v' <= d)%nat ->
  is_inverse n y a v -> is_inverse n y a v' -> forall k, coef v' k = coef v k.
Proof.
  intros Cv Cv' Lv Lv' I I'. apply inverse_peq in I as [s I], I' as [s' I'].
  apply canon_peq_eq; trivial.
  assert (E : psub v' v == pmul (psub (pmul v' s) (pmul v s')) y).
  { transitivity (psub (pmul v' (padd (pmul a v) (pmul s y))) (pmul v (padd (pmul a v') (pmul s' y)))); [|ring].
    rewrite I, I'. ring. }
  assert (D : psub v' v == []).
  { apply (small_multiple _ _ E). intros k Hk. rewrite coef_psub, !coef_overflow by lia. apply Z.divide_0_r. }
  transitivity (padd (psub v' v) v); [ring|]. rewrite D. ring.
Qed.
Lemma zero_not_invertible a v : (0 < d)%nat -> (forall k, nth k a 0 = 0) -> ~ is_inverse n y a v.
Proof.
  intros Hd Za I. apply inverse_peq in I as [s I].
  assert (A0 : a == []) by (apply peq_Z; intros k; rewrite coef_nil; apply Za).
  assert (E : [1] == pmul s y).
  { rewrite <- I, A0. ring. }
  assert (E1 : [1] == []).
  { apply (small_multiple _ _ E). intros k Hk. destruct k; [lia|]. cbn. destruct k; apply Z.divide_0_r. }
  specialize (E1 0%nat). cbn in E1. pose proof (prime_ge_2 n Hp). apply Z.divide_1_r_nonneg in E1; lia.
Qed.
End Inverse.

(** The inverse is found exactly when there is one; it is canonical, of degree below the
    modulus polynomial's, and the only such inverse. *)
Lemma C34_extended_euclid_gen : forall fuel w s c x y n d, width_ok w s -> prime n ->
  n * n <= ty_max w s + 1 -> (Z.to_nat (n + n * n) <= fuel)%nat ->
  Zn n x -> Zn n y -> is_degree y d -> (length x <= d)%nat -> (0 < d)%nat ->
  exists o, extended_euclid fuel (mkity w s c) x y n = Ok o /\
  match o with
  | Some v => length v = d /\ Zn n v /\ is_inverse n y x v /\
      forall v', Zn n v' -> (length v' <= d)%nat -> is_inverse n y x v' -> forall k, nth k v' 0 = nth k v 0
  | None => forall v, ~ is_inverse n y x v
  end.
Proof.
  intros fuel w s c x y n d Hw Hp H2 Hf Zx Zy Dy Lx Hd.
  pose proof (width_of_ok w s c Hw) as Hb. rewrite <- (imax_ty w s c) in H2. pose proof (prime_ge_2 n Hp).
  pose proof (Zn_canon n x ltac:(lia) Zx) as Cx. pose proof (Zn_canon n y ltac:(lia) Zy) as Cy.
  destruct (extended_euclid_Ok fuel (mkity w s c) n Hb Hp H2 Hf x y d (nth d y 0) Cx Cy (degree_lead _ _ Dy) Lx Hd)
    as (o & E & S). exists o. split; [exact E|]. destruct o as [v|].
  - destruct S as (Lv & Cv & Iv). apply inverse_peq in Iv. conjs; auto using canon_Zn.
    intros v' Zv' Lv' I' k. apply (inverse_unique n y d Hp Zy Dy x v v'); trivial; try lia. apply Zn_canon; [lia|trivial].
  - intros v Iv. apply inverse_peq in Iv as [s' Iv]. exact (S v s' Iv).
Qed.
Theorem C34_extended_euclid : forall fuel w s c x y n d, rust_width w -> prime n ->
  n * n <= ty_max w s + 1 -> (Z.to_nat (n + n * n) <= fuel)%nat ->
  Zn n x -> Zn n y -> is_degree y d -> (length x <= d)%nat -> (0 < d)%nat ->
  exists o, extended_euclid fuel (mkity w s c) x y n = Ok o /\
  match o with
  | Some v => length v = d /\ Zn n v /\ is_inverse n y x v /\
      forall v', Zn n v' -> (length v' <= d)%nat -> is_inverse n y x v' -> forall k, nth k v' 0 = nth k v 0
  | None => forall v, ~ is_inverse n y x v
  end.
Proof. intros fuel w s c x y n d Hw. exact (C34_extended_euclid_gen fuel w s c x y n d (rust_width_ok w s Hw)). Qed.
Theorem C34_zero_has_no_inverse : forall fuel w s c x y n d, rust_width w -> prime n ->
  n * n <= ty_max w s + 1 -> (Z.to_nat (n + n * n) <= fuel)%nat ->
  Zn n y -> is_degree y d -> (length x <= d)%nat -> (0 < d)%nat -> (forall k, nth k x 0 = 0) ->
  extended_euclid fuel (mkity w s c) x y n = Ok None.
Proof.
  intros fuel w s c x y n d Hw Hp H2 Hf Zy Dy Lx Hd Z0. pose proof (prime_ge_2 n Hp).
  destruct (C34_extended_euclid fuel w s c x y n d) as (o & E & S); trivial.
  - intros a Ha. apply (In_nth x a 0) in Ha as (k & _ & <-). rewrite Z0. lia.
  - destruct o as [v|]; [|exact E]. destruct S as (_ & _ & I & _).
    exfalso. exact (zero_not_invertible n y d Hp Zy Dy x v Hd Z0 I).
Qed.

(** *** The poly! types: the quotient ring Z_n[x]/(irr) *)
(** a is a value of the poly! type with l coefficients, modulus n and polynomial irr. *)
Definition poly_value (l : nat) (n : Z) (irr : list Z) (a : polyt) : Prop :=
  p_irr a = irr /\ p_n a = n /\ length (p_poly a) = l /\ Zn n (p_poly a).
(** r represents z modulo irr and n. *)
Definition represents (n : Z) (irr : list Z) (z : nat -> Z) (r : list Z) : Prop :=
  exists q, forall k, (n | z k - (conv_coeff q irr k + nth k r 0)).

Lemma fill_sparse_length l m r : fill_sparse l m = Ok r -> length r = l.
Proof.
  unfold fill_sparse. assert (G : forall m (s r : list Z), for_each m (fun '(i, c) a => upd a i c) s = Ok r -> length r = length s).
  { clear. induction m as [|[i c] m IH]; intros s r E; cbn [for_each] in E; [now injection E as <-|].
    apply bind_Ok in E as (s' & E1 & E2). apply IH in E2. unfold upd in E1.
    destruct (_ <? _)%nat; [|discriminate]. injection E1 as <-. now rewrite set_nth_length in E2. }
  intros E. apply G in E. now rewrite repeat_length in E.
Qed.
Lemma compatible_values l n irr a b : poly_value l n irr a -> poly_value l n irr b -> poly_compatible a b = true.
Proof.
  intros (A1 & A2 & A3 & _) (B1 & B2 & B3 & _). unfold poly_compatible.
  rewrite A2, B2, A1, B1, A3, B3, Z.eqb_refl, !Nat.eqb_refl. cbn [negb].
  apply forallb_forall. intros [u v] H. clear -H. induction irr as [|i irr IH]; [contradiction|].
  destruct H as [E|H]; [injection E as <- <-; apply Z.eqb_refl|now apply IH].
Qed.
Lemma from_vec_Ok l n m irr r : fill_sparse (l + 1) m = Ok irr -> 0 < n -> canon n r -> (forall k, (l <= k)%nat -> coef r k = 0) ->
  exists p, poly_from_vec l n m r = Ok p /\ poly_value l n irr p /\ forall k, coef (p_poly p) k = coef r k.
Proof.
  intros F Hn C T. unfold poly_from_vec. destruct (leading_coefficient r) as [d c0] eqn:E.
  apply leading_coefficient_spec in E.
  assert (D : (d <= l)%nat).
  { destruct E as [(-> & _)|(H1 & H2 & H3 & _)]; [lia|]. destruct (le_lt_dec d l); [assumption|].
    rewrite T in H3 by lia. congruence. }
  apply Nat.leb_le in D. rewrite D, F. cbn [assert_ bind]. eexists; split; [reflexivity|].
  assert (X : forall k, coef (make_fixed_length r l) k = coef r k).
  { intros k. rewrite coef_mfl. destruct (Nat.ltb_spec k l); [reflexivity|]. now rewrite T. }
  split; [|exact X]. unfold poly_value. cbn [p_irr p_n p_poly]. conjs; trivial; [apply mfl_length|].
  apply canon_Zn, canon_mfl; [lia|exact C].
Qed.

Section PolyType.
Variables (fuel : nat) (w : Z) (s c : bool) (l : nat) (n : Z) (m : list (nat * Z)) (irr : list Z).
Hypotheses (Hw : width_ok w s) (Hp : prime n) (H3 : n * n * n <= ty_max w s + 1)
  (Hf : (Z.to_nat (n + n * n) <= fuel)%nat) (Hl : (0 < l)%nat)
  (Hm : fill_sparse (l + 1) m = Ok irr) (Hz : Zn n irr) (Hd : is_degree irr l).
Let t := mkity w s c.
Lemma sq_bound : n * n <= ty_max w s + 1 /\ n <= ty_max w s /\ 2 * n - 2 <= ty_max w s.
Proof. pose proof (prime_ge_2 n Hp). clear - H H3. generalize dependent (ty_max w s). intros; repeat split; nia. Qed.
Lemma fuel_bound : (Z.to_nat n + 2 <= fuel)%nat.
Proof. pose proof (prime_ge_2 n Hp). clear - H Hf. nia. Qed.

Lemma polyt_add_Ok a b : poly_value l n irr a -> poly_value l n irr b ->
  exists r, polyt_add fuel t l m a b = Ok r /\ poly_value l n irr r /\
    forall k, residue n (nth k (p_poly a) 0 + nth k (p_poly b) 0) (nth k (p_poly r) 0).
Proof.
  intros Ha Hb. unfold polyt_add. rewrite (compatible_values _ _ _ _ _ Ha Hb). cbn [assert_ bind].
  destruct Ha as (A1 & A2 & A3 & A4), Hb as (B1 & B2 & B3 & B4). pose proof sq_bound. pose proof (prime_ge_2 n Hp).
  pose proof fuel_bound.
  destruct (C31_mod_add_sub_gen fuel w s c (p_poly a) (p_poly b) n) as [(r & E & L & R) _]; trivial; try lia.
  rewrite A2. fold t in E. rewrite E. cbn [bind].
  destruct (from_vec_Ok l n m irr r Hm) as (p & Ep & Vp & Cp); [lia|intros k; apply R|intros k Hk; apply coef_overflow; lia|].
  exists p. split; [exact Ep|]. split; [exact Vp|]. intros k. change (nth k (p_poly p) 0) with (coef (p_poly p) k).
  rewrite Cp. apply R.
Qed.
Lemma polyt_sub_Ok a b : poly_value l n irr a -> poly_value l n irr b ->
  exists r, polyt_sub fuel t l m a b = Ok r /\ poly_value l n irr r /\
    forall k, residue n (nth k (p_poly a) 0 - nth k (p_poly b) 0) (nth k (p_poly r) 0).
Proof.
  intros Ha Hb. unfold polyt_sub. rewrite (compatible_values _ _ _ _ _ Ha Hb). cbn [assert_ bind].
  destruct Ha as (A1 & A2 & A3 & A4), Hb as (B1 & B2 & B3 & B4). pose proof sq_bound. pose proof (prime_ge_2 n Hp).
  pose proof fuel_bound.
  destruct (C31_mod_add_sub_gen fuel w s c (p_poly a) (p_poly b) n) as [_ (r & E & L & R)]; trivial; try lia.
  rewrite A2. fold t in E. rewrite E. cbn [bind].
  destruct (from_vec_Ok l n m irr r Hm) as (p & Ep & Vp & Cp); [lia|intros k; apply R|intros k Hk; apply coef_overflow; lia|].
  exists p. split; [exact Ep|]. split; [exact Vp|]. intros k. change (nth k (p_poly p) 0) with (coef (p_poly p) k).
  rewrite Cp. apply R.
Qed.
Lemma polyt_mul_Ok a b : poly_value l n irr a -> poly_value l n irr b ->
  exists r, polyt_mul fuel t l m a b = Ok r /\ poly_value l n irr r /\
    represents n irr (conv_coeff (p_poly a) (p_poly b)) (p_poly r).
Proof.
  intros Ha Hb. unfold polyt_mul. rewrite (compatible_values _ _ _ _ _ Ha Hb). cbn [assert_ bind].
  destruct Ha as (A1 & A2 & A3 & A4), Hb as (B1 & B2 & B3 & B4). pose proof sq_bound. pose proof (prime_ge_2 n Hp).
  pose proof fuel_bound.
  destruct (C32_mul_mod_canonical_gen fuel w s c (p_poly a) (p_poly b) n) as (x & E & _ & L & R); trivial; try lia.
  rewrite A2, A1. fold t in E. rewrite E. cbn [bind].
  assert (Zx : Zn n x) by (apply canon_Zn; intros k; apply R).
  destruct (C33_division_identity_prime_gen fuel w s c x irr n l) as (q & r & Ed & Zq & Zr & Lr & ID); trivial.
  fold t in Ed. rewrite Ed. cbn [bind].
  destruct (from_vec_Ok l n m irr r Hm) as (p & Ep & Vp & Cp); [lia|apply Zn_canon; [lia|trivial]|intros k Hk; apply coef_overflow; lia|].
  exists p. split; [exact Ep|]. split; [exact Vp|]. exists q. intros k. change (nth k (p_poly p) 0) with (coef (p_poly p) k).
  rewrite Cp. specialize (ID k). destruct (R k) as [_ [e1 R1]]. destruct ID as [e2 ID].
  exists (e2 - e1). unfold coef. lia.
Qed.
Lemma represents_unique z r r' : canon n r -> canon n r' -> (length r <= l)%nat -> (length r' <= l)%nat ->
  represents n irr z r -> represents n irr z r' -> forall k, coef r k = coef r' k.
Proof.
  intros Cr Cr' L L' [q Q] [q' Q']. apply (canon_peq_eq n); trivial.
  assert (E : peq n (psub r r') (pmul (psub q' q) irr)).
  { intros k. specialize (Q k). specialize (Q' k). unfold psub at 2. rewrite pmul_padd_l. unfold popp.
    rewrite pmul_pscale_l, coef_psub, !pmul_conv. destruct Q as [e Q], Q' as [e' Q']. exists (e' - e). unfold coef. lia. }
  assert (D : peq n (psub r r') []).
  { apply (small_multiple n irr l Hp Hz Hd _ _ E). intros k Hk. rewrite coef_psub, !coef_overflow by lia. apply Z.divide_0_r. }
  intros k. specialize (D k). rewrite coef_psub, coef_nil, Z.sub_0_r in D. exact D.
Qed.
Lemma polyt_inv_Ok a : poly_value l n irr a ->
  (exists v, polyt_inv fuel t l m a = Ok v /\ poly_value l n irr v /\
     exists r, polyt_mul fuel t l m a v = Ok r /\ p_poly r = 1 :: repeat 0 (l - 1)) \/
  (polyt_inv fuel t l m a = Panic PExplicit /\
   forall v, poly_value l n irr v -> forall r, polyt_mul fuel t l m a v = Ok r -> p_poly r <> 1 :: repeat 0 (l - 1)).
Proof.
  intros Ha. pose proof Ha as (A1 & A2 & A3 & A4). pose proof sq_bound. pose proof (prime_ge_2 n Hp).
  destruct (C34_extended_euclid_gen fuel w s c (p_poly a) irr n l) as (o & E & S); trivial; try lia.
  unfold polyt_inv. rewrite A1, A2. fold t in E. rewrite E. cbn [bind].
  assert (K : forall v, poly_value l n irr v -> exists r, polyt_mul fuel t l m a v = Ok r /\
    (p_poly r = 1 :: repeat 0 (l - 1) <-> is_inverse n irr (p_poly a) (p_poly v))).
  { intros v Hv. destruct (polyt_mul_Ok a v Ha Hv) as (r & Er & Hr & Rr). exists r. split; [exact Er|].
    assert (O : forall k, nth k (1 :: repeat 0 (l - 1)) 0 = one_coeff k).
    { intros [|k]; [reflexivity|]. cbn [nth one_coeff Nat.eqb]. apply (coef_repeat (l - 1) k). }
    destruct Hr as (R1 & R2 & R3 & R4). split.
    - intros Eq. destruct Rr as [q Q]. exists (popp q). intros k. specialize (Q k). rewrite Eq, O in Q.
      rewrite <- (pmul_conv (popp q)). unfold popp. rewrite pmul_pscale_l, pmul_conv.
      destruct Q as [e Q]. exists e. lia.
    - intros [q Q]. apply coef_ext; [cbn [length]; rewrite repeat_length; lia|].
      apply (represents_unique (conv_coeff (p_poly a) (p_poly v))); trivial.
      + apply Zn_canon; [lia|trivial].
      + intros k. unfold coef. rewrite O. unfold one_coeff. destruct (k =? 0)%nat; lia.
      + lia.
      + cbn [length]. rewrite repeat_length. lia.
      + exists (popp q). intros k. specialize (Q k). rewrite O.
        rewrite <- (pmul_conv (popp q)). unfold popp. rewrite pmul_pscale_l, pmul_conv.
        destruct Q as [e Q]. exists e. lia. }
  destruct o as [v|].
  - left. destruct S as (Lv & Zv & Iv & _).
    destruct (from_vec_Ok l n m irr v Hm) as (p & Ep & Vp & Cp); [lia|apply Zn_canon; [lia|trivial]|intros k Hk; apply coef_overflow; lia|].
    assert (p_poly p = v) as Epv.
    { apply coef_ext; [|exact Cp]. destruct Vp as (_ & _ & P3 & _). lia. }
    exists p. split; [exact Ep|]. split; [exact Vp|]. destruct (K p Vp) as (r & Er & I). exists r.
    split; [exact Er|]. apply I. now rewrite Epv.
  - right. split; [reflexivity|]. intros v Hv r Er Eq. destruct (K v Hv) as (r' & Er' & I).
    assert (r' = r) by congruence. subst r'. apply (S (p_poly v)). now apply I.
Qed.
End PolyType.

(** Arithmetic of a poly! type over a prime modulus: sums, differences and products are the
    representatives of degree below l in Z_n[x]/(irr), and representatives are unique. *)
Lemma C33_poly_type_ring_gen : forall fuel w s c l n m irr a b, width_ok w s -> prime n ->
  n * n * n <= ty_max w s + 1 -> (Z.to_nat (n + n * n) <= fuel)%nat -> (0 < l)%nat ->
  fill_sparse (l + 1) m = Ok irr -> Zn n irr -> is_degree irr l ->
  poly_value l n irr a -> poly_value l n irr b ->
  let t := mkity w s c in
  let is r z := poly_value l n irr r /\ represents n irr z (p_poly r) /\
    forall r', length r' = l -> Zn n r' -> represents n irr z r' -> r' = p_poly r in
  (exists r, polyt_add fuel t l m a b = Ok r /\ is r (fun k => nth k (p_poly a) 0 + nth k (p_poly b) 0)) /\
  (exists r, polyt_sub fuel t l m a b = Ok r /\ is r (fun k => nth k (p_poly a) 0 - nth k (p_poly b) 0)) /\
  (exists r, polyt_mul fuel t l m a b = Ok r /\ is r (conv_coeff (p_poly a) (p_poly b))).
Proof.
  intros fuel w s c l n m irr a b Hw Hp H3 Hf Hl Hm Hz Hd Ha Hb t is. pose proof (prime_ge_2 n Hp).
  assert (U : forall r z, poly_value l n irr r -> represents n irr z (p_poly r) -> is r z).
  { intros r z V R. split; [exact V|]. split; [exact R|]. intros r' L' Z' R'. destruct V as (_ & _ & V3 & V4).
    apply coef_ext; [lia|]. apply (represents_unique fuel l n irr Hp Hf Hl Hz Hd z); trivial; try lia; apply Zn_canon; trivial; lia. }
  assert (P : forall z r, (forall k, residue n (z k) (nth k r 0)) -> represents n irr z r).
  { intros z r R. exists []. intros k. rewrite conv_coeff_nil. destruct (R k) as [_ [e E]]. exists (- e). lia. }
  conjs.
  - destruct (polyt_add_Ok fuel w s c l n m irr Hw Hp H3 Hf Hl Hm a b Ha Hb) as (r & E & V & R). exists r. auto.
  - destruct (polyt_sub_Ok fuel w s c l n m irr Hw Hp H3 Hf Hl Hm a b Ha Hb) as (r & E & V & R). exists r. auto.
  - destruct (polyt_mul_Ok fuel w s c l n m irr Hw Hp H3 Hf Hl Hm Hz Hd a b Ha Hb) as (r & E & V & R). exists r. auto.
Qed.
Theorem C33_poly_type_ring : forall fuel w s c l n m irr a b, rust_width w -> prime n ->
  n * n * n <= ty_max w s + 1 -> (Z.to_nat (n + n * n) <= fuel)%nat -> (0 < l)%nat ->
  fill_sparse (l + 1) m = Ok irr -> Zn n irr -> is_degree irr l ->
  poly_value l n irr a -> poly_value l n irr b ->
  let t := mkity w s c in
  let is r z := poly_value l n irr r /\ represents n irr z (p_poly r) /\
    forall r', length r' = l -> Zn n r' -> represents n irr z r' -> r' = p_poly r in
  (exists r, polyt_add fuel t l m a b = Ok r /\ is r (fun k => nth k (p_poly a) 0 + nth k (p_poly b) 0)) /\
  (exists r, polyt_sub fuel t l m a b = Ok r /\ is r (fun k => nth k (p_poly a) 0 - nth k (p_poly b) 0)) /\
  (exists r, polyt_mul fuel t l m a b = Ok r /\ is r (conv_coeff (p_poly a) (p_poly b))).
Proof. intros fuel w s c l n m irr a b Hw. exact (C33_poly_type_ring_gen fuel w s c l n m irr a b (rust_width_ok w s Hw)). Qed.
(** inv of a poly! type: a * a.inv() = 1, and inv panics exactly when no inverse exists. *)
Lemma C34_poly_type_inverse_gen : forall fuel w s c l n m irr a, width_ok w s -> prime n ->
  n * n * n <= ty_max w s + 1 -> (Z.to_nat (n + n * n) <= fuel)%nat -> (0 < l)%nat ->
  fill_sparse (l + 1) m = Ok irr -> Zn n irr -> is_degree irr l -> poly_value l n irr a ->
  let t := mkity w s c in let one := 1 :: repeat 0 (l - 1) in
  (exists v, polyt_inv fuel t l m a = Ok v /\ poly_value l n irr v /\
     exists r, polyt_mul fuel t l m a v = Ok r /\ p_poly r = one) \/
  (crashes (polyt_inv fuel t l m a) /\
   forall v, poly_value l n irr v -> forall r, polyt_mul fuel t l m a v = Ok r -> p_poly r <> one).
Proof.
  intros fuel w s c l n m irr a Hw Hp H3 Hf Hl Hm Hz Hd Ha t one.
  destruct (polyt_inv_Ok fuel w s c l n m irr Hw Hp H3 Hf Hl Hm Hz Hd a Ha) as [H|[E H]]; [now left|right].
  split; [|exact H]. exists PExplicit. split; [exact E|discriminate].
Qed.
Theorem C34_poly_type_inverse : forall fuel w s c l n m irr a, rust_width w -> prime n ->
  n * n * n <= ty_max w s + 1 -> (Z.to_nat (n + n * n) <= fuel)%nat -> (0 < l)%nat ->
  fill_sparse (l + 1) m = Ok irr -> Zn n irr -> is_degree irr l -> poly_value l n irr a ->
  let t := mkity w s c in let one := 1 :: repeat 0 (l - 1) in
  (exists v, polyt_inv fuel t l m a = Ok v /\ poly_value l n irr v /\
     exists r, polyt_mul fuel t l m a v = Ok r /\ p_poly r = one) \/
  (crashes (polyt_inv fuel t l m a) /\
   forall v, poly_value l n irr v -> forall r, polyt_mul fuel t l m a v = Ok r -> p_poly r <> one).
Proof. intros fuel w s c l n m irr a Hw. exact (C34_poly_type_inverse_gen fuel w s c l n m irr a (rust_width_ok w s Hw)). Qed.

(** *** Concrete cases *)
(** Hypotheses of the theorems for the type used in hacspec/tests/test_poly.rs: u128, n = 3,
    irr = x^3 + 2x + 2, operand 2 + 2x. *)
Example C33_C34_hypotheses : rust_width 128 /\ prime 3 /\ 3 * 3 * 3 <= ty_max 128 false + 1 /\
  (Z.to_nat (3 + 3 * 3) <= 100)%nat /\ fill_sparse 4 [(0%nat, 2); (1%nat, 2); (3%nat, 1)] = Ok [2; 2; 0; 1] /\
  Zn 3 [2; 2; 0; 1] /\ is_degree [2; 2; 0; 1] 3 /\ poly_value 3 3 [2; 2; 0; 1] (mkpoly [2; 2; 0] [2; 2; 0; 1] 3).
Proof.
  conjs; try (cbn; lia); try reflexivity.
  - apply prime_3.
  - intros c H. cbn in H. lia.
  - split; [discriminate|]. intros [|[|[|[|[|k]]]]] Hk; try lia; reflexivity.
  - unfold poly_value. cbn [p_irr p_n p_poly]. conjs; try reflexivity. intros c H. cbn in H. lia.
Qed.
Example C31_add_example : poly_add 9 u8 [5; 6] [4; 3; 1] 7 = Ok [2; 2; 1] /\ poly_sub 9 u8 [1] [4; 3] 7 = Ok [4; 4] /\
  poly_add 9 u8 [200] [100] 0 = Panic POverflow /\ poly_add 9 (mkity 8 false true) [200] [100] 0 = Ok [44] /\
  poly_sub 9 (mkity 8 true false) [1] [4; 3] 0 = Ok [-3; -3].
Proof. vm_compute. intuition reflexivity. Qed.
Example C32_mul_example : poly_mul 9 u128 [1; 0; 2] [0; 1; 1] 11 = Ok [0; 1; 1; 2; 2; 0] /\
  poly_mul_op_scanning 9 u128 [1; 0; 2] [0; 1; 1] 11 = Ok [0; 1; 1; 2; 2; 0] /\
  poly_mul 9 (mkity 8 true false) [-3; 5] [1; -2] 11 = Ok [8; 0; 1; 0] /\
  poly_mul_plain (mkity 8 true false) [-3; 5] [1; -2] = Ok [-3; 11; -10; 0] /\
  poly_mul_plain u8 [16; 1] [16] = Panic POverflow /\
  poly_mul_plain (mkity 8 false true) [16; 1] [16] = Ok [0; 16; 0].
Proof. vm_compute. intuition reflexivity. Qed.
Example C33_div_example : poly_div 100 u128 [1; 0; 2] [0; 1; 1] 3 = Ok ([2; 0; 0], [1; 1]) /\
  crashes (poly_div 100 u128 [1; 0; 2] [0; 0] 3).
Proof. split; [vm_compute; reflexivity|]. exists PExplicit. split; [vm_compute; reflexivity|discriminate]. Qed.
Example C34_inv_example :
  extended_euclid 100 u128 [2; 2; 0] [2; 2; 0; 1] 3 = Ok (Some [0; 1; 2]) /\
  polyt_inv 100 u128 3 [(0%nat, 2); (1%nat, 2); (3%nat, 1)] (mkpoly [2; 2; 0] [2; 2; 0; 1] 3) =
    Ok (mkpoly [0; 1; 2] [2; 2; 0; 1] 3) /\
  polyt_mul 100 u128 3 [(0%nat, 2); (1%nat, 2); (3%nat, 1)] (mkpoly [2; 2; 0] [2; 2; 0; 1] 3)
    (mkpoly [0; 1; 2] [2; 2; 0; 1] 3) = Ok (mkpoly [1; 0; 0] [2; 2; 0; 1] 3) /\
  (* x is not invertible modulo x^3 + x *)
  extended_euclid 100 u128 [0; 1] [0; 1; 0; 1] 3 = Ok None.
Proof. vm_compute. intuition reflexivity. Qed.
Example C35_div_example : is_degree [2; 1] 1 /\ poly_div 9 u128 [3; 4; 5] [2; 1] 0 = Panic PDivZero.
Proof. split; [|reflexivity]. split; [discriminate|]. intros [|[|[|k]]] Hk; try lia; reflexivity. Qed.

Print Assumptions C31_mod_add_sub.
Print Assumptions C31_integer_add_sub_public.
Print Assumptions C31_integer_add_sub_secret.
Print Assumptions C32_mul_mod.
Print Assumptions C32_mul_mod_canonical.
Print Assumptions C32_plain_unsigned.
Print Assumptions C32_plain_signed.
Print Assumptions C32_plain_secret.
Print Assumptions C33_division_identity.
Print Assumptions C33_division_identity_prime.
Print Assumptions C33_division_no_overflow_refuted.
Print Assumptions C33_zero_divisor_panics.
Print Assumptions C33_poly_type_ring.
Print Assumptions C34_extended_euclid.
Print Assumptions C34_zero_has_no_inverse.
Print Assumptions C34_poly_type_inverse.
Print Assumptions C35_integer_mul_panics.
Print Assumptions C35_integer_polynomials_can_be_multiplied_refuted.
Print Assumptions C35_integer_div_panics.
