(** C100, C101: the release profile of poly.rs (M_ReleasePoly.v). Wherever the debug profile returns a value the release profile returns
    the same value, so the correctness theorems of T_Poly.v carry over with their bounds. Outside those bounds the release profile
    returns wrong polynomials where the debug profile panics. *)
From Coq Require Import ZArith List Bool Arith Lia Znumtheory.
From Verif Require Import Base P_Base M_Int P_Int M_MathUtil M_Poly M_Release M_ReleasePoly S_Seq S_Int S_BigInt S_Poly P_Word P_PolyRing
  P_Poly P_PolyInv T_Poly P_Release T_Exact T_PolyPublic.
Import ListNotations.
Open Scope Z_scope.

(** ** The release profile returns what the debug profile returns *)
Section Release.
Variables (fuel : nat) (t : ity).
Hypothesis Ht : 0 < bits t.
Lemma q_zip (f g : Z -> Z -> res Z) x y : (forall a b, refines (f a b) (g a b)) -> refines (poly_zip f x y) (rpoly_zip g x y).
Proof.
  intros H. unfold poly_zip, rpoly_zip. destruct (normalize x y) as [a b]. apply refines_assert. now apply refines_zipM.
Qed.
Lemma q_num_inv x n : refines (num_inv fuel t x n) (rnum_inv fuel t x n).
Proof. now apply ref_inv. Qed.
Lemma q_poly_add x y n : refines (poly_add fuel t x y n) (rpoly_add fuel t x y n).
Proof. apply q_zip. intros a b. destruct (num_equal n 0); [now apply ref_add|now apply ref_add_mod]. Qed.
Lemma q_poly_sub x y n : refines (poly_sub fuel t x y n) (rpoly_sub fuel t x y n).
Proof. apply q_zip. intros a b. destruct (num_equal n 0); [now apply ref_sub|now apply ref_sub_mod]. Qed.
Lemma q_poly_mul_plain x y : refines (poly_mul_plain t x y) (rpoly_mul_plain t x y).
Proof.
  apply refines_for. intros i o. apply refines_for. intros j o'.
  do 3 (apply refines_bind; [apply refines_refl|]; intros ? _).
  refine (refines_Ok_l _ (rop_mul t _ _) _ (fun p => upd o' (i + j) (rop_add t _ p)) (ref_mul t _ _ Ht) _). intros p.
  refine (refines_Ok_l _ (rop_add t _ p) _ (fun s => upd o' (i + j) s) (ref_add t _ _ Ht) _). intros s. apply refines_refl.
Qed.
Lemma q_poly_mul_op_scanning x y n : refines (poly_mul_op_scanning fuel t x y n) (rpoly_mul_op_scanning fuel t x y n).
Proof.
  apply refines_for. intros i o. apply refines_for. intros j o'.
  do 3 (apply refines_bind; [apply refines_refl|]; intros ? _). apply refines_bind; [now apply ref_mul_mod|]. intros p _.
  apply refines_bind; [now apply ref_add_mod|]. intros s _. apply refines_refl.
Qed.
Lemma q_poly_mul x y n : refines (poly_mul fuel t x y n) (rpoly_mul fuel t x y n).
Proof.
  apply refines_for_each. intros [i a] o. apply refines_for_each. intros [j b] o'.
  apply refines_bind; [apply refines_refl|]. intros oo _. apply refines_bind; [now apply ref_mul_mod|]. intros p _.
  apply refines_bind; [now apply ref_add_mod|]. intros s _. apply refines_refl.
Qed.
Ltac same := apply refines_bind; [apply refines_refl|]; intros ? _.
Ltac wmul := apply refines_bind; [apply q_poly_mul|]; intros ? _.
Lemma q_poly_div_step y n c dist rlen i s :
  refines (poly_div_step fuel t y n c dist rlen i s) (rpoly_div_step fuel t y n c dist rlen i s).
Proof.
  destruct s as [quo rem]. unfold poly_div_step, rpoly_div_step. same. same. same.
  apply refines_bind.
  { destruct (num_equal n 0); [apply refines_refl|]. apply refines_bind; [apply q_num_inv|]. intros ci _. now apply ref_mul. }
  intros q _. same. same. same. same. wmul.
  apply refines_bind; [apply q_poly_add|]; intros ? _. apply refines_bind; [apply q_poly_sub|]; intros ? _. apply refines_refl.
Qed.
Lemma q_poly_div x y n : refines (poly_div fuel t x y n) (rpoly_div fuel t x y n).
Proof.
  unfold poly_div, rpoly_div. destruct (normalize x y) as [a b]. destruct (leading_coefficient b) as [yd c]. same.
  apply refines_bind; [apply refines_for; intros; apply q_poly_div_step|]. intros [quo rem] _. apply refines_refl.
Qed.
Lemma q_quot_sub an ad bn bd n : refines (quot_sub fuel t an ad bn bd n) (rquot_sub fuel t an ad bn bd n).
Proof.
  unfold quot_sub, rquot_sub. cbv zeta. same. same. apply refines_bind; [apply refines_for; intros; apply q_poly_mul|]. intros ? _.
  same. apply refines_bind; [apply refines_for; intros; apply q_poly_mul|]. intros ? _.
  apply refines_bind; [apply q_poly_sub|]; intros ? _. apply refines_refl.
Qed.
Lemma q_divstep nn l n i s : refines (divstep fuel t nn l n i s) (rdivstep fuel t nn l n i s).
Proof.
  unfold divstep, rdivstep. cbv zeta. same. same. same. same. same. same. wmul. wmul.
  apply refines_bind; [apply q_poly_sub|]; intros ? _. same. wmul. wmul.
  apply refines_bind; [apply q_quot_sub|]; intros ? _. wmul. wmul.
  apply refines_bind; [apply q_quot_sub|]; intros ? _. apply refines_refl.
Qed.
Lemma q_extended_euclid x y n : refines (extended_euclid fuel t x y n) (rextended_euclid fuel t x y n).
Proof.
  unfold extended_euclid, rextended_euclid. destruct (leading_coefficient y) as [yd c]. apply refines_assert, refines_assert. cbv zeta. same.
  apply refines_bind.
  { unfold divstepsx, rdivstepsx. apply refines_assert. apply refines_bind; [apply refines_for; intros; apply q_divstep|].
    intros ? _. apply refines_refl. }
  intros [[[delta f] g] v] _. destruct (negb (delta =? 0)); [apply refines_refl|]. same.
  apply refines_bind; [apply q_num_inv|]. intros ? _. same. same. same. wmul. apply refines_refl.
Qed.
Lemma q_poly_z_inv v n : refines (poly_z_inv fuel t v n) (rpoly_z_inv fuel t v n).
Proof.
  unfold poly_z_inv, rpoly_z_inv. induction v as [|a v IH]; [apply refines_refl|]. cbn [mapM].
  apply refines_bind; [apply q_num_inv|]. intros ? _. apply refines_bind; [exact IH|]. intros ? _. apply refines_refl.
Qed.
Lemma q_from_vec l n m v : refines (poly_from_vec l n m v) (rpoly_from_vec l n m v).
Proof.
  clear Ht. unfold poly_from_vec, rpoly_from_vec. destruct (leading_coefficient v) as [d c]. apply refines_assert, refines_refl.
Qed.
Lemma q_polyt_add l m a b : refines (polyt_add fuel t l m a b) (rpolyt_add fuel t l m a b).
Proof. unfold polyt_add. apply refines_assert, refines_bind; [apply q_poly_add|]. intros ? _. apply q_from_vec. Qed.
Lemma q_polyt_sub l m a b : refines (polyt_sub fuel t l m a b) (rpolyt_sub fuel t l m a b).
Proof. unfold polyt_sub. apply refines_assert, refines_bind; [apply q_poly_sub|]. intros ? _. apply q_from_vec. Qed.
Lemma q_polyt_mul l m a b : refines (polyt_mul fuel t l m a b) (rpolyt_mul fuel t l m a b).
Proof.
  unfold polyt_mul. apply refines_assert. wmul. apply refines_bind; [apply q_poly_div|]. intros [q r] _. apply q_from_vec.
Qed.
Lemma q_polyt_div l m a b : refines (polyt_div fuel t l m a b) (rpolyt_div fuel t l m a b).
Proof.
  unfold polyt_div. apply refines_assert, refines_bind; [apply q_poly_div|]. intros [q r] _.
  apply refines_bind; [apply q_from_vec|]. intros ? _. apply refines_bind; [apply q_from_vec|]. intros ? _. apply refines_refl.
Qed.
Lemma q_polyt_inv l m a : refines (polyt_inv fuel t l m a) (rpolyt_inv fuel t l m a).
Proof. unfold polyt_inv. apply refines_bind; [apply q_extended_euclid|]. intros [v|] _; [apply q_from_vec|apply refines_refl]. Qed.
End Release.

Theorem C100_functions : forall fuel w s c x y n, rust_width w -> let t := mkity w s c in
  (forall r, poly_add fuel t x y n = Ok r -> rpoly_add fuel t x y n = Ok r) /\
  (forall r, poly_sub fuel t x y n = Ok r -> rpoly_sub fuel t x y n = Ok r) /\
  (forall r, poly_mul fuel t x y n = Ok r -> rpoly_mul fuel t x y n = Ok r) /\
  (forall r, poly_mul_op_scanning fuel t x y n = Ok r -> rpoly_mul_op_scanning fuel t x y n = Ok r) /\
  (forall r, poly_mul_plain t x y = Ok r -> rpoly_mul_plain t x y = Ok r) /\
  (forall r, poly_div fuel t x y n = Ok r -> rpoly_div fuel t x y n = Ok r) /\
  (forall r, poly_z_inv fuel t x n = Ok r -> rpoly_z_inv fuel t x n = Ok r) /\
  (forall r, extended_euclid fuel t x y n = Ok r -> rextended_euclid fuel t x y n = Ok r).
Proof.
  intros fuel w s c x y n Rw t. assert (Ht : 0 < bits t) by (pose proof (width_bound w Rw); cbn; lia).
  conjs; [now apply q_poly_add|now apply q_poly_sub|now apply q_poly_mul|now apply q_poly_mul_op_scanning|now apply q_poly_mul_plain
    |now apply q_poly_div|now apply q_poly_z_inv|now apply q_extended_euclid].
Qed.
Theorem C100_operators : forall fuel w s c l m a b, rust_width w -> let t := mkity w s c in
  (forall r, polyt_add fuel t l m a b = Ok r -> rpolyt_add fuel t l m a b = Ok r) /\
  (forall r, polyt_sub fuel t l m a b = Ok r -> rpolyt_sub fuel t l m a b = Ok r) /\
  (forall r, polyt_mul fuel t l m a b = Ok r -> rpolyt_mul fuel t l m a b = Ok r) /\
  (forall r, polyt_div fuel t l m a b = Ok r -> rpolyt_div fuel t l m a b = Ok r) /\
  (forall r, polyt_inv fuel t l m a = Ok r -> rpolyt_inv fuel t l m a = Ok r) /\
  (forall n v r, poly_from_vec l n m v = Ok r -> rpoly_from_vec l n m v = Ok r).
Proof.
  intros fuel w s c l m a b Rw t. assert (Ht : 0 < bits t) by (pose proof (width_bound w Rw); cbn; lia).
  conjs; [now apply q_polyt_add|now apply q_polyt_sub|now apply q_polyt_mul|now apply q_polyt_div|now apply q_polyt_inv
    |intros n v; apply q_from_vec].
Qed.

(** ** Right results in the release profile *)
Theorem C100_add_sub : forall fuel w s c x y n, rust_width w -> 0 < n <= ty_max w s ->
  2 * n - 2 <= ty_max w s -> (Z.to_nat n + 2 <= fuel)%nat -> Zn n x -> Zn n y ->
  (exists r, rpoly_add fuel (mkity w s c) x y n = Ok r /\ length r = Nat.max (length x) (length y) /\
     forall k, residue n (nth k x 0 + nth k y 0) (nth k r 0)) /\
  (exists r, rpoly_sub fuel (mkity w s c) x y n = Ok r /\ length r = Nat.max (length x) (length y) /\
     forall k, residue n (nth k x 0 - nth k y 0) (nth k r 0)).
Proof.
  intros fuel w s c x y n Rw H1 H2 H3 Zx Zy. destruct (C100_functions fuel w s c x y n Rw) as (A & S & _).
  destruct (C31_mod_add_sub fuel w s c x y n Rw H1 H2 H3 Zx Zy) as [(r & E & P) (r' & E' & P')].
  split; [exists r|exists r']; auto.
Qed.
Theorem C100_mul : forall fuel w s c x y n, rust_width w -> 0 < n <= ty_max w s ->
  2 * n - 2 <= ty_max w s -> (2 <= fuel)%nat ->
  (forall a, In a x -> val w s a) -> (forall b, In b y -> val w s b) ->
  (forall a b, In a x -> In b y -> if s then val 128 true (a * b) else a * b <= ty_max w false) ->
  (exists r, rpoly_mul fuel (mkity w s c) x y n = Ok r /\ length r = (length x + length y)%nat /\
     forall k, residue n (conv_coeff x y k) (nth k r 0)) /\
  (exists r, rpoly_mul_op_scanning fuel (mkity w s c) x y n = Ok r /\ length r = (length x + length y)%nat /\
     forall k, residue n (conv_coeff x y k) (nth k r 0)).
Proof.
  intros fuel w s c x y n Rw H1 H2 H3 Vx Vy V. destruct (C100_functions fuel w s c x y n Rw) as (_ & _ & M & O & _).
  destruct (C32_mul_mod fuel w s c x y n Rw H1 H2 H3 Vx Vy V) as [(r & E & P) (r' & E' & P')].
  split; [exists r|exists r']; auto.
Qed.
Theorem C100_division : forall fuel w s c x y n d, rust_width w -> 1 < n ->
  n * n * n <= ty_max w s + 1 -> (Z.to_nat (n + n * n) <= fuel)%nat ->
  Zn n x -> Zn n y -> is_degree y d -> Z.gcd (nth d y 0) n = 1 ->
  exists q r, rpoly_div fuel (mkity w s c) x y n = Ok (q, r) /\ Zn n q /\ Zn n r /\
    length q = Nat.max (length x) (length y) /\ length r = d /\ div_identity n x y q r /\
    forall q' r', Zn n q' -> Zn n r' -> (length r' <= d)%nat -> div_identity n x y q' r' ->
      forall k, nth k q' 0 = nth k q 0 /\ nth k r' 0 = nth k r 0.
Proof.
  intros fuel w s c x y n d Rw H1 H2 H3 Zx Zy D G. destruct (C100_functions fuel w s c x y n Rw) as (_ & _ & _ & _ & _ & V & _).
  destruct (C33_division_identity fuel w s c x y n d Rw H1 H2 H3 Zx Zy D G) as (q & r & E & P). exists q, r. auto.
Qed.
Theorem C100_inverse : forall fuel w s c x y n d, rust_width w -> prime n ->
  n * n <= ty_max w s + 1 -> (Z.to_nat (n + n * n) <= fuel)%nat ->
  Zn n x -> Zn n y -> is_degree y d -> (length x <= d)%nat -> (0 < d)%nat ->
  exists o, rextended_euclid fuel (mkity w s c) x y n = Ok o /\
  match o with
  | Some v => length v = d /\ Zn n v /\ is_inverse n y x v /\
      forall v', Zn n v' -> (length v' <= d)%nat -> is_inverse n y x v' -> forall k, nth k v' 0 = nth k v 0
  | None => forall v, ~ is_inverse n y x v
  end.
Proof.
  intros fuel w s c x y n d Rw H1 H2 H3 Zx Zy D L Hd.
  destruct (C100_functions fuel w s c x y n Rw) as (_ & _ & _ & _ & _ & _ & _ & V).
  destruct (C34_extended_euclid fuel w s c x y n d Rw H1 H2 H3 Zx Zy D L Hd) as (o & E & P). exists o. auto.
Qed.
Theorem C100_poly_type : forall fuel w s c l n m irr a b, rust_width w -> prime n ->
  n * n * n <= ty_max w s + 1 -> (Z.to_nat (n + n * n) <= fuel)%nat -> (0 < l)%nat ->
  fill_sparse (l + 1) m = Ok irr -> Zn n irr -> is_degree irr l ->
  poly_value l n irr a -> poly_value l n irr b ->
  let t := mkity w s c in
  let is r z := poly_value l n irr r /\ represents n irr z (p_poly r) /\
    forall r', length r' = l -> Zn n r' -> represents n irr z r' -> r' = p_poly r in
  (exists r, rpolyt_add fuel t l m a b = Ok r /\ is r (fun k => nth k (p_poly a) 0 + nth k (p_poly b) 0)) /\
  (exists r, rpolyt_sub fuel t l m a b = Ok r /\ is r (fun k => nth k (p_poly a) 0 - nth k (p_poly b) 0)) /\
  (exists r, rpolyt_mul fuel t l m a b = Ok r /\ is r (conv_coeff (p_poly a) (p_poly b))) /\
  ((exists v r, rpolyt_inv fuel t l m a = Ok v /\ poly_value l n irr v /\ rpolyt_mul fuel t l m a v = Ok r /\
      p_poly r = 1 :: repeat 0 (l - 1)) \/
   (panics (rpolyt_inv fuel t l m a) /\ forall v, ~ is_inverse n irr (p_poly a) v)).
Proof.
  intros fuel w s c l n m irr a b Rw H1 H2 H3 Hl Hm Zi Di Ha Hb t is.
  destruct (C33_poly_type_ring fuel w s c l n m irr a b Rw H1 H2 H3 Hl Hm Zi Di Ha Hb) as ((r1 & E1 & P1) & (r2 & E2 & P2) & (r3 & E3 & P3)).
  destruct (C100_operators fuel w s c l m a b Rw) as (A & S & M & _ & I & _).
  split; [exists r1; auto|]. split; [exists r2; auto|]. split; [exists r3; auto|].
  destruct (C34_poly_type_inverse fuel w s c l n m irr a Rw H1 H2 H3 Hl Hm Zi Di Ha) as [(v & E & V & r & Er & Pr)|[(p & E & N) _]].
  - left. exists v, r. destruct (C100_operators fuel w s c l m a v Rw) as (_ & _ & M' & _). auto.
  - right. pose proof (prime_ge_2 n H1) as Hn. destruct Ha as (Ea1 & Ea2 & Ea3 & Ea4).
    destruct (C34_extended_euclid fuel w s c (p_poly a) irr n l Rw H1) as (o & Eo & Po); trivial; try lia; [nia|].
    unfold polyt_inv in E. unfold rpolyt_inv. subst t.
    destruct (C100_functions fuel w s c (p_poly a) irr n Rw) as (_ & _ & _ & _ & _ & _ & _ & V).
    replace (p_irr a) with irr in * by congruence. replace (p_n a) with n in * by congruence.
    rewrite (V _ Eo). rewrite Eo in E. cbn [bind] in E |- *. destruct o as [v|].
    + exfalso. destruct Po as (Lv & Zv & _).
      unfold poly_from_vec in E. destruct (leading_coefficient v) as [dv cv] eqn:El. rewrite Hm in E.
      assert (dv <= l)%nat.
      { apply leading_coefficient_spec in El. destruct El as [(-> & _)|El]; [lia|].
        destruct (le_dec dv l); [lia|]. destruct El as (_ & El & _). lia. }
      rewrite (proj2 (Nat.leb_le dv l)) in E by assumption. cbn in E. congruence.
    + split; [exists PExplicit; reflexivity|exact Po].
Qed.

(** ** What the missing checks cost *)
(** Addition, subtraction and plain multiplication of integer polynomials never panic: every coefficient is the exact one reduced to
    the width of the type. *)
Theorem C101_integer_wraps : forall fuel w s c x y, rust_width w -> let t := mkity w s c in
  let wraps r len z := length r = len /\ forall k, val w s (nth k r 0) /\ cong w (nth k r 0) (z k) in
  (exists r, rpoly_add fuel t x y 0 = Ok r /\ wraps r (Nat.max (length x) (length y)) (fun k => nth k x 0 + nth k y 0)) /\
  (exists r, rpoly_sub fuel t x y 0 = Ok r /\ wraps r (Nat.max (length x) (length y)) (fun k => nth k x 0 - nth k y 0)) /\
  (exists r, rpoly_mul_plain t x y = Ok r /\ wraps r (length x + length y)%nat (conv_coeff x y)).
Proof.
  intros fuel w s c x y Rw t wraps.
  assert (Ht : 0 < bits (mkity w s true)) by (pose proof (width_bound w Rw); cbn; lia).
  destruct (C31_integer_add_sub_secret fuel w s x y Rw) as [(a & Ea & Pa) (b & Eb & Pb)].
  destruct (C32_plain_secret w s x y Rw) as (m & Em & Pm).
  apply q_poly_add in Ea; [|exact Ht]. apply q_poly_sub in Eb; [|exact Ht]. apply q_poly_mul_plain in Em; [|exact Ht].
  split; [exists a|split; [exists b|exists m]]; (split; [|assumption]); assumption.
Qed.

(** The check that x is reduced is gone from extended_euclid: the leading coefficients of x are dropped. *)
Lemma mfl_firstn d : forall x, make_fixed_length (firstn d x) d = make_fixed_length x d.
Proof.
  induction d as [|d IH]; intros x; [reflexivity|]. destruct x as [|a x]; [reflexivity|]. cbn. now rewrite IH.
Qed.
Theorem C101_inverse_truncates : forall fuel w s c x y n d, rust_width w -> prime n ->
  n * n <= ty_max w s + 1 -> (Z.to_nat (n + n * n) <= fuel)%nat ->
  Zn n x -> Zn n y -> is_degree y d -> (0 < d)%nat ->
  ((d < length x)%nat -> panics (extended_euclid fuel (mkity w s c) x y n)) /\
  exists o, rextended_euclid fuel (mkity w s c) x y n = Ok o /\
  match o with
  | Some v => length v = d /\ Zn n v /\ is_inverse n y (firstn d x) v
  | None => forall v, ~ is_inverse n y (firstn d x) v
  end.
Proof.
  intros fuel w s c x y n d Rw Hp H2 H3 Zx Zy D Hd. split.
  - intros L. exists PAssert. unfold extended_euclid. rewrite (degree_lead y d D).
    rewrite (proj2 (Nat.leb_gt (length x) d)) by exact L. reflexivity.
  - destruct (C100_inverse fuel w s c (firstn d x) y n d) as (o & E & P); trivial.
    + intros a Ha. apply Zx. rewrite <- (firstn_skipn d x). apply in_or_app. now left.
    + rewrite firstn_length. lia.
    + exists o. split; [|destruct o; [tauto|exact P]]. rewrite <- E. unfold rextended_euclid. rewrite (degree_lead y d D).
      now rewrite mfl_firstn.
Qed.
Section Ring.
Variable n : Z.
Add Ring polyring3 : (poly_ring_theory n) (setoid (peq_equiv n) (poly_ring_ext n)).
Lemma self_not_invertible y v : is_inverse n y y v -> is_inverse n y [] v.
Proof.
  intros I. apply inverse_peq in I as [s I]. apply inverse_peq. exists (padd v s). rewrite <- I. ring.
Qed.
End Ring.
(** So a multiple of the modulus polynomial, which has no inverse, is given one. *)
Theorem C101_inverse_refuted : exists x y n d v, prime n /\ Zn n x /\ Zn n y /\ is_degree y d /\ (0 < d)%nat /\
  rextended_euclid 30 u128 x y n = Ok (Some v) /\ (forall v', ~ is_inverse n y x v') /\ panics (extended_euclid 30 u128 x y n).
Proof.
  exists [1; 0; 1], [1; 0; 1], 3, 2%nat, [1; 0]. conjs.
  - exact prime_3.
  - intros a [<-|[<-|[<-|[]]]]; lia.
  - intros a [<-|[<-|[<-|[]]]]; lia.
  - split; [cbn; lia|]. intros [|[|[|[|k]]]] Hk; try lia; reflexivity.
  - lia.
  - vm_compute. reflexivity.
  - intros v' I. refine (zero_not_invertible 3 [1; 0; 1] 2 prime_3 _ _ [] v' _ _ (self_not_invertible 3 [1; 0; 1] v' I)).
    + intros a [<-|[<-|[<-|[]]]]; lia.
    + split; [cbn; lia|]. intros [|[|[|[|k]]]] Hk; try lia; reflexivity.
    + lia.
    + now intros [|k].
  - exists PAssert. vm_compute. reflexivity.
Qed.

(** from_vec keeps the first l coefficients, whatever the degree; the debug profile panics when the degree is above l. *)
Theorem C101_from_vec : forall l n m irr v, fill_sparse (l + 1) m = Ok irr ->
  (exists r, rpoly_from_vec l n m v = Ok r /\ p_irr r = irr /\ p_n r = n /\ length (p_poly r) = l /\
     forall k, (k < l)%nat -> nth k (p_poly r) 0 = nth k v 0) /\
  (forall d, is_degree v d -> (l < d)%nat -> panics (poly_from_vec l n m v)).
Proof.
  intros l n m irr v Hm. split.
  - unfold rpoly_from_vec. destruct (leading_coefficient v) as [d c]. rewrite Hm. cbn [bind]. eexists; split; [reflexivity|]. cbn.
    conjs; trivial; [apply mfl_length|]. intros k Hk. change (coef (make_fixed_length v l) k = coef v k). rewrite coef_mfl.
    now rewrite (proj2 (Nat.ltb_lt k l)).
  - intros d D L. exists PAssert. unfold poly_from_vec. rewrite (degree_lead v d D).
    now rewrite (proj2 (Nat.leb_gt d l)).
Qed.

(** Products that do not fit in the coefficient type are silently wrong: over u8 modulo the prime 251. *)
Theorem C101_mul_refuted : exists x y n r, uval 8 n /\ Zn n x /\ Zn n y /\
  rpoly_mul 9 u8 x y n = Ok r /\ ~ residue n (conv_coeff x y 0) (nth 0 r 0) /\ panics (poly_mul 9 u8 x y n).
Proof.
  exists [30], [50], 251, [220; 0]. conjs.
  - unfold uval. lia.
  - intros a [<-|[]]; lia.
  - intros a [<-|[]]; lia.
  - vm_compute. reflexivity.
  - intros [_ [e He]]. cbn in He. lia.
  - exists POverflow. vm_compute. reflexivity.
Qed.
Theorem C101_division_refuted : exists x y n q r, uval 8 n /\ Zn n x /\ Zn n y /\ is_degree y 1 /\ Z.gcd (nth 1 y 0) n = 1 /\
  rpoly_div 300 u8 x y n = Ok (q, r) /\ ~ div_identity n x y q r /\ panics (poly_div 300 u8 x y n).
Proof.
  exists [15; 3], [7; 18], 19, [16; 0], [7]. conjs.
  - unfold uval. lia.
  - intros a [<-|[<-|[]]]; lia.
  - intros a [<-|[<-|[]]]; lia.
  - split; [cbn; lia|]. intros [|[|[|k]]] Hk; try lia; reflexivity.
  - reflexivity.
  - vm_compute. reflexivity.
  - intros H. specialize (H 0%nat). destruct H as [e H]. cbn in H. lia.
  - exists POverflow. vm_compute. reflexivity.
Qed.

(** ** Concrete cases *)
Example C100_functions_case : rpoly_mul 9 u128 [1; 2] [2; 2] 3 = Ok [2; 0; 1; 0] /\ poly_mul 9 u128 [1; 2] [2; 2] 3 = Ok [2; 0; 1; 0] /\
  rpoly_div 99 (mkity 8 true true) [1; 2; 1] [2; 1] 3 = Ok ([0; 1; 0], [1]) /\ rpoly_z_inv 30 u8 [1; 2] 3 = Ok [1; 2] /\
  rextended_euclid 100 u128 [2; 2; 0] [2; 2; 0; 1] 3 = Ok (Some [0; 1; 2]) /\ rextended_euclid 100 u128 [0; 1] [0; 1; 0; 1] 3 = Ok None.
Proof. vm_compute. intuition reflexivity. Qed.
(** The hypotheses of C100_poly_type are those of C33_C34_hypotheses. *)
Example C100_poly_type_case : let irr := [2; 2; 0; 1] in let m := [(0%nat, 2); (1%nat, 2); (3%nat, 1)] in
  let a := mkpoly [2; 2; 0] irr 3 in let b := mkpoly [1; 0; 2] irr 3 in
  poly_value 3 3 irr a /\ poly_value 3 3 irr b /\ rpolyt_add 30 u128 3 m a b = Ok (mkpoly [0; 2; 2] irr 3) /\
  rpolyt_sub 30 u128 3 m a b = Ok (mkpoly [1; 2; 1] irr 3) /\ rpolyt_mul 30 u128 3 m a b = Ok (mkpoly [0; 0; 1] irr 3) /\
  rpolyt_inv 30 u128 3 m a = Ok (mkpoly [0; 1; 2] irr 3) /\ rpolyt_inv 30 u128 3 m (mkpoly [0; 0; 0] irr 3) = Panic PExplicit.
Proof.
  conjs; try (vm_compute; reflexivity); unfold poly_value; cbn [p_irr p_n p_poly]; conjs; try reflexivity; intros c H; cbn in H; lia.
Qed.
Example C101_integer_case : rpoly_mul_plain i8 [100] [2; -100] = Ok [-56; -16; 0] /\ rpoly_add 3 u8 [200] [100; 1] 0 = Ok [44; 1] /\
  poly_add 3 u8 [200] [100; 1] 0 = Panic POverflow.
Proof. vm_compute. intuition reflexivity. Qed.
Example C101_inverse_case : rextended_euclid 30 u128 [2; 2; 0; 1; 2] [2; 2; 0; 1] 3 = Ok (Some [0; 1; 2]) /\
  extended_euclid 30 u128 [2; 2; 0; 1; 2] [2; 2; 0; 1] 3 = Panic PAssert.
Proof. vm_compute. intuition reflexivity. Qed.
Example C101_from_vec_case : rpoly_from_vec 2 3 [(0%nat, 2); (2%nat, 1)] [1; 2; 1; 1] = Ok (mkpoly [1; 2] [2; 0; 1] 3) /\
  is_degree [1; 2; 1; 1] 3 /\ poly_from_vec 2 3 [(0%nat, 2); (2%nat, 1)] [1; 2; 1; 1] = Panic PAssert.
Proof.
  split; [reflexivity|]. split; [|reflexivity]. split; [discriminate|]. intros [|[|[|[|[|k]]]]] Hk; try lia; reflexivity.
Qed.

Print Assumptions C100_functions.
Print Assumptions C100_operators.
Print Assumptions C100_add_sub.
Print Assumptions C100_mul.
Print Assumptions C100_division.
Print Assumptions C100_inverse.
Print Assumptions C100_poly_type.
Print Assumptions C101_integer_wraps.
Print Assumptions C101_inverse_truncates.
Print Assumptions C101_inverse_refuted.
Print Assumptions C101_from_vec.
Print Assumptions C101_mul_refuted.
Print Assumptions C101_division_refuted.
