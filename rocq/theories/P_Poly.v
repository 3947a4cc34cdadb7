(** Lemmas about the polynomial functions. *)
From Coq Require Import ZArith Znumtheory List Bool Lia Setoid Morphisms Ring.
From Verif Require Import Base P_Base M_Int P_Int M_MathUtil P_MathUtil P_Mod S_Seq M_Poly P_PolyRing.
Import ListNotations.
Open Scope Z_scope.

Ltac conjs := repeat match goal with |- _ /\ _ => split end.

Definition canon (n : Z) (p : list Z) : Prop := forall k, 0 <= coef p k < n.
(** The type in which the modular operations compute. *)
Definition wide (t : ity) : ity := if sgn t then i128 else t.

(** A bound on the width, for the signed types only: these compute in i128. *)
Definition wlim (t : ity) : Z := if sgn t then 128 else bits t.
Lemma wlim_signed t : sgn t = true -> 0 < bits t <= wlim t -> 0 < bits t <= 128.
Proof. unfold wlim. intros ->. auto. Qed.
Lemma wlim_intro t : 0 < bits t <= 128 -> 0 < bits t <= wlim t.
Proof. unfold wlim. destruct (sgn t); lia. Qed.

(** ** Coefficient operations *)
Lemma mul_mod_fits fuel t a b n : 0 < bits t <= wlim t -> in_ty t n -> 0 < n -> (2 <= fuel)%nat ->
  in_ty t a -> in_ty t b -> in_ty (wide t) (a * b) -> mul_mod fuel t a b n = Ok ((a * b) mod n).
Proof.
  intros H Hn Hp Hf Ha Hb Hab. unfold wide in Hab. destruct (sgn t) eqn:S.
  - destruct (signed_mods fuel t a b n) as (_ & _ & E & _); trivial; [now apply wlim_signed|]. rewrite E.
    apply in_tyb_spec in Hab. now rewrite Hab.
  - rewrite mul_mod_unsigned by trivial. unfold in_ty in Hab.
    destruct (Z.leb_spec (a * b) (imax t)); [reflexivity|lia].
Qed.
Lemma add_mod_fits fuel t a b n : 0 < bits t <= wlim t -> in_ty t n -> 0 < n -> (2 <= fuel)%nat ->
  in_ty t a -> in_ty t b -> in_ty (wide t) (a + b) -> add_mod fuel t a b n = Ok ((a + b) mod n).
Proof.
  intros H Hn Hp Hf Ha Hb Hab. unfold wide in Hab. destruct (sgn t) eqn:S.
  - destruct (signed_mods fuel t a b n) as (E & _); trivial; [now apply wlim_signed|]. rewrite E.
    apply in_tyb_spec in Hab. now rewrite Hab.
  - rewrite add_mod_unsigned by trivial. unfold in_ty in Hab.
    destruct (Z.leb_spec (a + b) (imax t)); [reflexivity|lia].
Qed.
Lemma nonneg_in t z : 0 < bits t -> 0 <= z <= imax t -> in_ty t z.
Proof. intros H Hz. pose proof (imin_le_0 t H). unfold in_ty. lia. Qed.
Lemma in_wide t z : 0 < bits t <= wlim t -> in_ty t z -> in_ty (wide t) z.
Proof.
  intros H Hz. unfold wide. destruct (sgn t) eqn:S; [|exact Hz]. apply (signed_in_i128 t); trivial. now apply wlim_signed.
Qed.

Section Coef.
Variables (fuel : nat) (t : ity) (n : Z).
Hypotheses (Hb : 0 < bits t <= wlim t) (Hn : 1 < n) (Hnn : n * n <= imax t + 1) (Hf : (Z.to_nat n < fuel)%nat).

Lemma n_in : in_ty t n.
Proof. apply nonneg_in; nia. Qed.
Lemma canon_in a : 0 <= a < n -> in_ty t a.
Proof. intros. apply nonneg_in; nia. Qed.
Lemma mul_mod_canon a b : 0 <= a < n -> 0 <= b < n -> mul_mod fuel t a b n = Ok ((a * b) mod n).
Proof.
  intros Ha Hb'. pose proof n_in.
  apply mul_mod_fits; trivial; try lia; try now apply canon_in.
  apply in_wide; trivial. apply nonneg_in; nia.
Qed.
Lemma add_mod_canon a b : 0 <= a < n -> 0 <= b < n -> add_mod fuel t a b n = Ok ((a + b) mod n).
Proof.
  intros Ha Hb'. pose proof n_in.
  apply add_mod_fits; trivial; try lia; try now apply canon_in.
  apply in_wide; trivial. apply nonneg_in; nia.
Qed.
Lemma sub_mod_canon a b : 0 <= a < n -> 0 <= b < n -> sub_mod fuel t a b n = Ok ((a - b) mod n).
Proof.
  intros Ha Hb'. pose proof n_in. destruct (sgn t) eqn:S.
  - destruct (signed_mods fuel t a b n) as (_ & E & _); trivial; try lia; [now apply wlim_signed|]. rewrite E.
    assert (I : in_ty i128 (a - b)).
    { assert (in_ty i128 a) by (apply (signed_in_i128 t); [now apply wlim_signed|trivial|now apply canon_in]).
      assert (in_ty i128 b) by (apply (signed_in_i128 t); [now apply wlim_signed|trivial|now apply canon_in]).
      unfold in_ty, imin, imax in *. cbn [sgn i128 bits] in *. lia. }
    apply in_tyb_spec in I. now rewrite I.
  - rewrite sub_mod_unsigned; trivial; try lia; try now apply canon_in.
    pose proof (steps_bounds a b n ltac:(lia)) as [B1 B2].
    destruct (Z.leb_spec (a + steps a b n * n) (imax t)); [reflexivity|].
    unfold steps in *. destruct (Z.ltb_spec a b); nia.
Qed.
End Coef.

(** ** List helpers *)
Lemma mod_divide a n : 0 < n -> (n | a mod n - a).
Proof. intros H. exists (- (a / n)). pose proof (Z.div_mod a n). lia. Qed.
Lemma coef_set_nth p i v k : (i < length p)%nat ->
  coef (set_nth p i v) k = if (k =? i)%nat then v else coef p k.
Proof.
  intros H. unfold coef. rewrite nth_set_nth. apply Nat.ltb_lt in H. rewrite H, andb_true_r. reflexivity.
Qed.
Lemma coef_repeat m k : coef (repeat 0 m) k = 0.
Proof. unfold coef. revert k; induction m; intros [|k]; cbn; auto. Qed.
Lemma canon_repeat n m : 0 < n -> canon n (repeat 0 m).
Proof. intros H k. rewrite coef_repeat. lia. Qed.
Lemma mfl_length v t : length (make_fixed_length v t) = t.
Proof. revert v; induction t as [|t IH]; intros v; [reflexivity|]. destruct v; cbn; now rewrite IH. Qed.
Lemma coef_mfl v t k : coef (make_fixed_length v t) k = if (k <? t)%nat then coef v k else 0.
Proof.
  revert v k; induction t as [|t IH]; intros v k; [apply coef_nil|].
  destruct v as [|b v]; cbn [make_fixed_length]; destruct k; try reflexivity;
    rewrite ?coef_cons_S, IH; [|reflexivity].
  rewrite !coef_nil. now destruct (S k <? S t)%nat, (k <? t)%nat.
Qed.
Lemma canon_mfl n v t : 0 < n -> canon n v -> canon n (make_fixed_length v t).
Proof. intros H C k. rewrite coef_mfl. destruct (k <? t)%nat; [apply C|lia]. Qed.
Lemma pad_length v l : length (pad v l) = Nat.max (length v) l.
Proof. unfold pad. rewrite app_length, repeat_length. lia. Qed.
Lemma coef_pad v l k : coef (pad v l) k = coef v k.
Proof.
  unfold pad. rewrite coef_app. destruct (Nat.ltb_spec k (length v)); [reflexivity|].
  rewrite coef_repeat, coef_overflow; lia.
Qed.
Lemma monomial_Ok c d : exists s, monomial c d = Ok s /\ length s = (d + 1)%nat /\
  forall k, coef s k = if (k =? d)%nat then c else 0.
Proof.
  unfold monomial. rewrite upd_Ok by (rewrite repeat_length; lia).
  eexists; split; [reflexivity|]. split; [rewrite set_nth_length; apply repeat_length|].
  intros k. rewrite coef_set_nth by (rewrite repeat_length; lia). now rewrite coef_repeat.
Qed.
Lemma coef_ext p q : length p = length q -> (forall k, coef p k = coef q k) -> p = q.
Proof. intros H E. apply nth_ext with 0 0; auto. intros; apply E. Qed.

(** ** leading_coefficient *)
Definition lead_spec (x : list Z) (d : nat) (c : Z) : Prop :=
  (d = 0%nat /\ c = 0 /\ forall k, coef x k = 0) \/
  (c <> 0 /\ (d < length x)%nat /\ coef x d = c /\ forall k, (d < k)%nat -> coef x k = 0).
Lemma combine_app_ {A B} (l1 l2 : list A) (m1 m2 : list B) : length l1 = length m1 ->
  combine (l1 ++ l2) (m1 ++ m2) = combine l1 m1 ++ combine l2 m2.
Proof.
  revert m1; induction l1 as [|a l1 IH]; intros [|b m1] H; try discriminate; [reflexivity|].
  cbn [app combine]. f_equal. apply IH. now injection H.
Qed.
Lemma enumerate_app {A} (l m : list A) :
  enumerate (l ++ m) = enumerate l ++ combine (seq (length l) (length m)) m.
Proof.
  unfold enumerate. rewrite app_length, seq_app, combine_app_; [reflexivity|].
  now rewrite seq_length.
Qed.
Lemma leading_coefficient_spec x d c : leading_coefficient x = (d, c) -> lead_spec x d c.
Proof.
  unfold leading_coefficient. revert d c.
  induction x as [|a x IH] using rev_ind; intros d c E.
  - cbn in E. injection E as <- <-. left. repeat split; auto. intros; apply coef_nil.
  - rewrite enumerate_app, fold_left_app in E. cbn [length seq combine fold_left] in E.
    destruct (fold_left _ (enumerate x) (0%nat, 0)) as [d0 c0] eqn:E0. specialize (IH _ _ eq_refl).
    unfold num_equal in E. destruct (Z.eqb_spec a 0) as [->|Ha]; cbn [negb] in E; injection E as <- <-.
    + assert (Ex : forall k, coef (x ++ [0]) k = coef x k).
      { intros k. rewrite coef_app. destruct (Nat.ltb_spec k (length x)); [reflexivity|].
        rewrite (coef_overflow x) by lia. destruct (k - length x)%nat as [|j]; [reflexivity|].
        rewrite coef_cons_S. apply coef_nil. }
      destruct IH as [(-> & -> & H)|(H1 & H2 & H3 & H4)]; [left|right].
      * repeat split; auto. intros k. now rewrite Ex.
      * rewrite app_length, Ex. repeat split; auto; [cbn [length]; lia|]. intros k Hk. rewrite Ex. now apply H4.
    + right. rewrite app_length, coef_app. cbn [length].
      destruct (Nat.ltb_spec (length x) (length x)); [lia|]. rewrite Nat.sub_diag.
      repeat split; auto; [lia|]. intros k Hk. apply coef_overflow. rewrite app_length. cbn [length]. lia.
Qed.
Lemma lead_unique x d c d' c' : lead_spec x d c -> lead_spec x d' c' -> d = d' /\ c = c'.
Proof.
  intros [(-> & -> & H)|(H1 & H2 & H3 & H4)] [(-> & -> & H')|(H1' & H2' & H3' & H4')].
  - auto.
  - rewrite H in H3'. congruence.
  - rewrite H' in H3. congruence.
  - assert (d = d') as ->; [|split; congruence].
    destruct (lt_eq_lt_dec d d') as [[L|E]|L]; trivial; [rewrite (H4 _ L) in H3'|rewrite (H4' _ L) in H3]; congruence.
Qed.

(** ** poly_add / poly_sub *)
Lemma zipM_coef (op : Z -> Z -> res Z) f x y : length x = length y ->
  (forall k, (k < length x)%nat -> op (coef x k) (coef y k) = Ok (f (coef x k) (coef y k))) ->
  exists r, zipM op x y = Ok r /\ length r = length x /\
    forall k, (k < length x)%nat -> coef r k = f (coef x k) (coef y k).
Proof.
  revert y. induction x as [|a x IH]; intros [|b y] L H; cbn [length] in L; try lia.
  - exists []. repeat split. intros k Hk. cbn in Hk. lia.
  - cbn [zipM]. pose proof (H 0%nat ltac:(cbn; lia)) as H0. rewrite !coef_cons_0 in H0. rewrite H0. cbn [bind].
    destruct (IH y) as (r & E & Lr & C); [lia| |].
    { intros k Hk. apply (H (S k)). cbn; lia. }
    rewrite E. cbn [bind]. eexists; split; [reflexivity|]. cbn [length]. split; [lia|].
    intros [|k] Hk; [reflexivity|]. rewrite !coef_cons_S. apply C. lia.
Qed.
Lemma poly_zip_coef op f x y :
  (forall k, (k < Nat.max (length x) (length y))%nat -> op (coef x k) (coef y k) = Ok (f (coef x k) (coef y k))) ->
  exists r, poly_zip op x y = Ok r /\ length r = Nat.max (length x) (length y) /\
    forall k, (k < Nat.max (length x) (length y))%nat -> coef r k = f (coef x k) (coef y k).
Proof.
  intros H. unfold poly_zip, normalize.
  set (m := Nat.max (length x) (length y)) in *.
  assert (Lx : length (pad x m) = m) by (rewrite pad_length; lia).
  assert (Ly : length (pad y m) = m) by (rewrite pad_length; lia).
  rewrite Lx, Ly, Nat.eqb_refl. cbn [assert_ bind].
  destruct (zipM_coef op f (pad x m) (pad y m)) as (r & E & L & C); [congruence| |].
  { intros k Hk. rewrite !coef_pad. apply H. lia. }
  rewrite E. eexists; split; [reflexivity|]. split; [lia|]. intros k Hk.
  rewrite C by lia. now rewrite !coef_pad.
Qed.

Section Ops.
Variables (fuel : nat) (t : ity) (n : Z).
Hypotheses (Hb : 0 < bits t <= wlim t) (Hn : 1 < n) (Hnn : n * n <= imax t + 1) (Hf : (Z.to_nat n < fuel)%nat).

Lemma poly_add_gen x y : (forall k, (k < Nat.max (length x) (length y))%nat ->
    add_mod fuel t (coef x k) (coef y k) n = Ok ((coef x k + coef y k) mod n)) ->
  exists r, poly_add fuel t x y n = Ok r /\ length r = Nat.max (length x) (length y) /\
    canon n r /\ peq n r (padd x y).
Proof.
  intros H. unfold poly_add, num_equal. destruct (Z.eqb_spec n 0); [lia|].
  destruct (poly_zip_coef (fun b c => add_mod fuel t b c n) (fun a b => (a + b) mod n) x y) as (r & E & L & C).
  { exact H. }
  exists r. rewrite E. split; [reflexivity|]. split; [exact L|]. split.
  - intros k. destruct (lt_dec k (length r)); [|rewrite coef_overflow; lia].
    rewrite C by lia. apply Z.mod_pos_bound. lia.
  - intros k. rewrite coef_padd. destruct (lt_dec k (length r)).
    + rewrite C by lia. apply mod_divide. lia.
    + rewrite !coef_overflow by lia. apply Z.divide_0_r.
Qed.
Lemma poly_add_Ok x y : canon n x -> canon n y ->
  exists r, poly_add fuel t x y n = Ok r /\ length r = Nat.max (length x) (length y) /\
    canon n r /\ peq n r (padd x y).
Proof. intros Cx Cy. apply poly_add_gen. intros. apply add_mod_canon; auto. Qed.
Lemma poly_sub_Ok x y : canon n x -> canon n y ->
  exists r, poly_sub fuel t x y n = Ok r /\ length r = Nat.max (length x) (length y) /\
    canon n r /\ peq n r (psub x y).
Proof.
  intros Cx Cy. unfold poly_sub, num_equal. destruct (Z.eqb_spec n 0); [lia|].
  destruct (poly_zip_coef (fun b c => sub_mod fuel t b c n) (fun a b => (a - b) mod n) x y) as (r & E & L & C).
  { intros. apply sub_mod_canon; auto. }
  exists r. rewrite E. split; [reflexivity|]. split; [exact L|]. split.
  - intros k. destruct (lt_dec k (length r)); [|rewrite coef_overflow; lia].
    rewrite C by lia. apply Z.mod_pos_bound. lia.
  - intros k. rewrite coef_psub. destruct (lt_dec k (length r)).
    + rewrite C by lia. apply mod_divide. lia.
    + rewrite !coef_overflow by lia. apply Z.divide_0_r.
Qed.
End Ops.

(** ** poly_mul *)
Section Mul.
Variables (fuel : nat) (t : ity) (n : Z).
Hypotheses (Hn : 0 < n).
Hypothesis Hadd : forall a b, 0 <= a < n -> 0 <= b < n -> add_mod fuel t a b n = Ok ((a + b) mod n).

Definition mul_body (i : nat) (a : Z) '((j, b) : nat * Z) (out : list Z) : res (list Z) :=
  let* o := idx out (i + j) in
  let* p := mul_mod fuel t a b n in
  let* s := add_mod fuel t o p n in
  upd out (i + j) s.
Lemma mul_body_Ok i a j b out : mul_mod fuel t a b n = Ok ((a * b) mod n) -> canon n out -> (i + j < length out)%nat ->
  exists out', mul_body i a (j, b) out = Ok out' /\ length out' = length out /\ canon n out' /\
    forall k, (n | coef out' k - (coef out k + if (k =? i + j)%nat then a * b else 0)).
Proof.
  intros M C L. unfold mul_body. rewrite (idx_Ok _ _ 0) by exact L. cbn [bind].
  rewrite M. cbn [bind]. rewrite Hadd; [|apply C|apply Z.mod_pos_bound; lia]. cbn [bind].
  rewrite upd_Ok by exact L. eexists; split; [reflexivity|]. split; [apply set_nth_length|].
  change (nth (i + j) out 0) with (coef out (i + j)).
  split; intros k; rewrite coef_set_nth by exact L; destruct (Nat.eqb_spec k (i + j)) as [->|].
  - apply Z.mod_pos_bound. lia.
  - apply C.
  - rewrite Zplus_mod_idemp_r. apply mod_divide. lia.
  - replace (coef out k - (coef out k + 0)) with 0 by lia. apply Z.divide_0_r.
Qed.

Definition filt (l : list (nat * Z)) := filter (fun '(_, x) => negb (num_equal x 0)) l.
Lemma mul_inner i a y : forall s out, canon n out -> (i + s + length y <= length out)%nat ->
  (forall b, In b y -> mul_mod fuel t a b n = Ok ((a * b) mod n)) ->
  exists out', for_each (filt (combine (seq s (length y)) y)) (mul_body i a) out = Ok out' /\
    length out' = length out /\ canon n out' /\
    forall k, (n | coef out' k - (coef out k + if (k <? i + s)%nat then 0 else a * coef y (k - (i + s)))).
Proof.
  induction y as [|b y IH]; intros s out C L M.
  - cbn [length seq combine filt filter for_each]. exists out. conjs; auto. intros k. rewrite coef_nil.
    match goal with |- (_ | ?e) => replace e with 0 by (destruct (_ <? _)%nat; lia) end. apply Z.divide_0_r.
  - cbn [length seq combine filt filter]. unfold num_equal at 1.
    change (filter _ (combine (seq (S s) (length y)) y)) with (filt (combine (seq (S s) (length y)) y)).
    cbn [length] in L.
    destruct (Z.eqb_spec b 0) as [->|Hb]; cbn [negb].
    + destruct (IH (S s) out C) as (out' & E & L' & C' & P); [lia|intros; apply M; now right|].
      exists out'. rewrite E. conjs; auto. intros k. specialize (P k).
      replace (if (k <? i + s)%nat then 0 else a * coef (0 :: y) (k - (i + s)))
        with (if (k <? i + S s)%nat then 0 else a * coef y (k - (i + S s))); [exact P|].
      destruct (Nat.ltb_spec k (i + s)), (Nat.ltb_spec k (i + S s)); try lia.
      * replace (k - (i + s))%nat with 0%nat by lia. cbn. lia.
      * replace (k - (i + s))%nat with (S (k - (i + S s))) by lia. reflexivity.
    + cbn [for_each].
      destruct (mul_body_Ok i a s b out) as (out1 & E1 & L1 & C1 & P1); [apply M; now left|trivial|lia|].
      rewrite E1. cbn [bind].
      destruct (IH (S s) out1 C1) as (out' & E & L' & C' & P); [lia|intros; apply M; now right|].
      exists out'. rewrite E. conjs; auto; [lia|]. intros k. specialize (P k). specialize (P1 k).
      match goal with |- (_ | ?e) => replace e with
        ((coef out' k - (coef out1 k + (if (k <? i + S s)%nat then 0 else a * coef y (k - (i + S s)))))
         + (coef out1 k - (coef out k + (if (k =? i + s)%nat then a * b else 0)))) end;
      [now apply Z.divide_add_r|].
      destruct (Nat.ltb_spec k (i + s)), (Nat.ltb_spec k (i + S s)), (Nat.eqb_spec k (i + s)); try lia.
      * replace (k - (i + s))%nat with 0%nat by lia. rewrite coef_cons_0. lia.
      * replace (k - (i + s))%nat with (S (k - (i + S s))) by lia. rewrite coef_cons_S. lia.
Qed.
Lemma mul_outer y x : forall s out, canon n out -> (s + length x + length y <= length out)%nat ->
  (forall a b, In a x -> In b y -> mul_mod fuel t a b n = Ok ((a * b) mod n)) ->
  exists out', for_each (filt (combine (seq s (length x)) x))
      (fun '(i, a) out => for_each (nonzero_terms y) (mul_body i a) out) out = Ok out' /\
    length out' = length out /\ canon n out' /\
    forall k, (n | coef out' k - (coef out k + if (k <? s)%nat then 0 else coef (pmul x y) (k - s))).
Proof.
  induction x as [|a x IH]; intros s out C L M.
  - cbn [length seq combine filt filter for_each]. exists out. conjs; auto. intros k. rewrite coef_nil.
    match goal with |- (_ | ?e) => replace e with 0 by (destruct (_ <? _)%nat; lia) end. apply Z.divide_0_r.
  - cbn [length seq combine filt filter]. unfold num_equal at 1.
    change (filter _ (combine (seq (S s) (length x)) x)) with (filt (combine (seq (S s) (length x)) x)).
    cbn [length] in L.
    assert (R : forall k, (if (k <? s)%nat then 0 else coef (pmul (a :: x) y) (k - s)) =
      (if (k <? s)%nat then 0 else a * coef y (k - s)) + (if (k <? S s)%nat then 0 else coef (pmul x y) (k - S s))).
    { intros k. rewrite coef_pmul_cons. destruct (Nat.ltb_spec k s), (Nat.ltb_spec k (S s)); try lia.
      - replace (k - s)%nat with 0%nat by lia. lia.
      - replace (k - s)%nat with (S (k - S s)) by lia. lia. }
    destruct (Z.eqb_spec a 0) as [->|Ha]; cbn [negb].
    + destruct (IH (S s) out C) as (out' & E & L' & C' & P); [lia|intros; apply M; auto; now right|].
      exists out'. rewrite E. conjs; auto. intros k. specialize (P k). rewrite R.
      match goal with |- (_ | ?e) => replace e with
        (coef out' k - (coef out k + (if (k <? S s)%nat then 0 else coef (pmul x y) (k - S s))))
        by (destruct (k <? s)%nat; lia) end. exact P.
    + cbn [for_each].
      destruct (mul_inner s a y 0%nat out C) as (out1 & E1 & L1 & C1 & P1);
        [lia|intros; apply M; auto; now left|].
      change (for_each (nonzero_terms y) (mul_body s a) out)
        with (for_each (filt (combine (seq 0 (length y)) y)) (mul_body s a) out).
      rewrite E1. cbn [bind].
      destruct (IH (S s) out1 C1) as (out' & E & L' & C' & P); [lia|intros; apply M; auto; now right|].
      rewrite E.
      exists out'. conjs; auto; [lia|]. intros k. specialize (P k). specialize (P1 k).
      rewrite R. rewrite Nat.add_0_r in P1.
      match goal with |- (_ | ?e) => replace e with
        ((coef out' k - (coef out1 k + (if (k <? S s)%nat then 0 else coef (pmul x y) (k - S s))))
         + (coef out1 k - (coef out k + (if (k <? s)%nat then 0 else a * coef y (k - s))))) by lia end.
      now apply Z.divide_add_r.
Qed.
Lemma poly_mul_gen x y : (forall a b, In a x -> In b y -> mul_mod fuel t a b n = Ok ((a * b) mod n)) ->
  exists r, poly_mul fuel t x y n = Ok r /\ length r = (length x + length y)%nat /\ canon n r /\
    peq n r (pmul x y).
Proof.
  intros M. destruct (mul_outer y x 0%nat (repeat 0 (length x + length y))) as (r & E & L & C & P).
  - now apply canon_repeat.
  - rewrite repeat_length. lia.
  - exact M.
  - exists r. split; [exact E|]. rewrite repeat_length in L. conjs; auto.
    intros k. specialize (P k). rewrite coef_repeat, Z.add_0_l, Nat.sub_0_r in P. exact P.
Qed.

(** Operand scanning *)
Lemma firstn_snoc (l : list Z) i : (i < length l)%nat -> firstn (S i) l = firstn i l ++ [coef l i].
Proof.
  revert i; induction l as [|a l IH]; intros i H; cbn [length] in H; [lia|].
  destruct i; [reflexivity|]. cbn [firstn app]. f_equal. rewrite coef_cons_S. apply IH. lia.
Qed.
End Mul.

Lemma for_range_sound {S} (I : nat -> S -> Prop) f start count s s' :
  for_range start count f s = Ok s' -> I start s ->
  (forall i s s1, (start <= i < start + count)%nat -> I i s -> f i s = Ok s1 -> I (Datatypes.S i) s1) ->
  I (start + count)%nat s'.
Proof.
  revert start s; induction count as [|c IH]; intros start s E H0 Hs; cbn [for_range] in E.
  - injection E as <-. now rewrite Nat.add_0_r.
  - apply bind_Ok in E as (s1 & E1 & E). replace (start + Datatypes.S c)%nat with (Datatypes.S start + c)%nat by lia.
    apply (IH _ _ E); [apply (Hs start s); [lia|exact H0|exact E1]|].
    intros i s2 s3 Hi. apply Hs. lia.
Qed.

(** The two nested index loops, for any accumulation operation. *)
Definition scan (acc : Z -> Z -> Z -> res Z) (x y : list Z) : res (list Z) :=
  for_range 0 (length x) (fun i out => for_range 0 (length y) (fun j out =>
      let* o := idx out (i + j) in let* a := idx x i in let* b := idx y j in
      let* s := acc o a b in upd out (i + j) s) out) (repeat 0 (length x + length y)).
Lemma scan_gen acc (n : Z) (P : Z -> Prop) x y : P 0 ->
  (forall i j o, (i < length x)%nat -> (j < length y)%nat -> P o ->
     (n | o - coef (pmul (firstn i x) y) (i + j)) ->
     exists o', acc o (coef x i) (coef y j) = Ok o' /\ P o' /\ (n | o' - (o + coef x i * coef y j))) ->
  exists r, scan acc x y = Ok r /\ length r = (length x + length y)%nat /\ (forall k, P (coef r k)) /\
    peq n r (pmul x y).
Proof.
  intros P0 HA. unfold scan.
  destruct (for_range_inv (fun i out => length out = (length x + length y)%nat /\ (forall k, P (coef out k)) /\
      forall k, (n | coef out k - coef (pmul (firstn i x) y) k))
    (fun i out => for_range 0 (length y) (fun j out =>
      let* o := idx out (i + j) in let* a := idx x i in let* b := idx y j in
      let* s := acc o a b in upd out (i + j) s) out)
    0 (length x) (repeat 0 (length x + length y))) as (r & E & L & C & D).
  - split; [apply repeat_length|]. split; [intros k; now rewrite coef_repeat|]. intros k.
    rewrite coef_repeat. cbn [firstn]. rewrite coef_pmul_nil. apply Z.divide_0_r.
  - intros i out Hi (L & C & D).
    destruct (for_range_inv (fun j out' => length out' = length out /\ (forall k, P (coef out' k)) /\
        (forall k, (i + j <= k)%nat -> coef out' k = coef out k) /\
        forall k, (n | coef out' k - (coef out k + if (k <? i)%nat then 0 else if (k <? i + j)%nat then coef x i * coef y (k - i) else 0)))
      (fun j out => let* o := idx out (i + j) in let* a := idx x i in let* b := idx y j in
        let* s := acc o a b in upd out (i + j) s)
      0 (length y) out) as (r & E & L' & C' & _ & D').
    + conjs; auto. intros k.
      match goal with |- (_ | ?e) => replace e with 0 end; [apply Z.divide_0_r|].
      destruct (Nat.ltb_spec k i), (Nat.ltb_spec k (i + 0)); lia.
    + intros j o1 Hj (L1 & C1 & U1 & D1).
      destruct (HA i j (coef o1 (i + j))) as (v & Ev & Pv & Dv); [lia|lia|apply C1| |].
      { rewrite U1 by lia. apply D. }
      rewrite (idx_Ok o1 _ 0), (idx_Ok x i 0), (idx_Ok y j 0) by lia. cbn [bind].
      change (nth (i + j) o1 0) with (coef o1 (i + j)). change (nth i x 0) with (coef x i).
      change (nth j y 0) with (coef y j). rewrite Ev. cbn [bind].
      rewrite upd_Ok by lia. eexists; split; [reflexivity|].
      split; [rewrite set_nth_length; lia|].
      split; [intros k; rewrite coef_set_nth by lia; destruct (k =? i + j)%nat; auto|].
      split; [intros k Hk; rewrite coef_set_nth by lia; destruct (Nat.eqb_spec k (i + j)); [lia|apply U1; lia]|].
      intros k. rewrite coef_set_nth by lia. specialize (D1 k).
      destruct (Nat.eqb_spec k (i + j)) as [->|].
      * rewrite U1 in Dv by lia.
        destruct (Nat.ltb_spec (i + j) i), (Nat.ltb_spec (i + j) (i + S j)); try lia.
        replace (i + j - i)%nat with j by lia. exact Dv.
      * match goal with |- (_ | ?e) => match type of D1 with (_ | ?e2) => replace e with e2 end end; [exact D1|].
        destruct (Nat.ltb_spec k i), (Nat.ltb_spec k (i + j)), (Nat.ltb_spec k (i + S j)); lia.
    + exists r. split; [exact E|]. split; [lia|]. split; [exact C'|]. intros k.
      specialize (D k). specialize (D' k). rewrite firstn_snoc by lia. rewrite pmul_snoc, firstn_length_le by lia.
      pose proof (Z.divide_add_r _ _ _ D D') as P3.
      match goal with |- (_ | ?e) => match type of P3 with (_ | ?e2) => replace e with e2 end end; [exact P3|].
      destruct (Nat.ltb_spec k i); [lia|]. destruct (Nat.ltb_spec k (i + (0 + length y))); [lia|].
      rewrite (coef_overflow y) by lia. lia.
  - rewrite E. exists r. split; [reflexivity|]. split; [exact L|]. split; [exact C|].
    intros k. specialize (D k). rewrite Nat.add_0_l, firstn_all in D. exact D.
Qed.

Lemma op_scanning_scan fuel t x y n : poly_mul_op_scanning fuel t x y n =
  scan (fun o a b => let* p := mul_mod fuel t a b n in add_mod fuel t o p n) x y.
Proof.
  apply for_range_ext. intros i out _. apply for_range_ext. intros j o1 _.
  destruct (idx o1 (i + j)); [|reflexivity]. cbn [bind]. destruct (idx x i); [|reflexivity]. cbn [bind].
  destruct (idx y j); [|reflexivity]. cbn [bind]. now rewrite bind_assoc.
Qed.
Lemma plain_scan t x y : poly_mul_plain t x y =
  scan (fun o a b => let* p := op_mul t a b in op_add t o p) x y.
Proof.
  apply for_range_ext. intros i out _. apply for_range_ext. intros j o1 _.
  destruct (idx o1 (i + j)); [|reflexivity]. cbn [bind]. destruct (idx x i); [|reflexivity]. cbn [bind].
  destruct (idx y j); [|reflexivity]. cbn [bind]. now rewrite bind_assoc.
Qed.
Lemma poly_mul_op_scanning_gen fuel t n x y : 0 < n ->
  (forall a b, 0 <= a < n -> 0 <= b < n -> add_mod fuel t a b n = Ok ((a + b) mod n)) ->
  (forall a b, In a x -> In b y -> mul_mod fuel t a b n = Ok ((a * b) mod n)) ->
  exists r, poly_mul_op_scanning fuel t x y n = Ok r /\ length r = (length x + length y)%nat /\ canon n r /\
    peq n r (pmul x y).
Proof.
  intros Hn HA M. rewrite op_scanning_scan.
  apply (scan_gen _ n (fun z => 0 <= z < n)); [lia|].
  intros i j o Hi Hj Ho _. rewrite M; [|apply nth_In; lia..]. cbn [bind].
  rewrite HA; [|exact Ho|apply Z.mod_pos_bound; lia]. eexists; split; [reflexivity|].
  split; [apply Z.mod_pos_bound; lia|]. rewrite Zplus_mod_idemp_r. now apply mod_divide.
Qed.
(** Plain multiplication of wrapping (secret) integers *)
Lemma poly_mul_plain_secret t x y : 0 < bits t -> sec t = true ->
  exists r, poly_mul_plain t x y = Ok r /\ length r = (length x + length y)%nat /\
    (forall k, in_ty t (coef r k)) /\ peq (2 ^ bits t) r (pmul x y).
Proof.
  intros Hb S. rewrite plain_scan. apply scan_gen.
  - unfold in_ty. pose proof (imin_le_0 t Hb). split; [lia|]. unfold imax.
    pose proof (pow2_pos (bits t - 1)). pose proof (pow2_pos (bits t)). destruct (sgn t); lia.
  - intros i j o Hi Hj Ho _. unfold op_mul, op_add. rewrite S. cbn [bind]. eexists; split; [reflexivity|].
    split; [now apply iwrap_range|].
    destruct (iwrap_congr t (coef x i * coef y j) Hb) as [k1 E1].
    destruct (iwrap_congr t (o + iwrap t (coef x i * coef y j)) Hb) as [k2 E2].
    exists (k1 + k2). lia.
Qed.
Lemma coef_map_abs p k : coef (map Z.abs p) k = Z.abs (coef p k).
Proof. unfold coef. replace 0 with (Z.abs 0) at 1 by reflexivity. apply map_nth. Qed.
Lemma pmul_abs_nonneg p q k : 0 <= coef (pmul (map Z.abs p) (map Z.abs q)) k.
Proof.
  revert k; induction p as [|a p IH]; intros k; [rewrite coef_pmul_nil; lia|].
  cbn [map]. rewrite coef_pmul_cons, coef_map_abs. destruct k; [nia|]. specialize (IH k). nia.
Qed.
Lemma pmul_abs p q k : Z.abs (coef (pmul p q) k) <= coef (pmul (map Z.abs p) (map Z.abs q)) k.
Proof.
  revert k; induction p as [|a p IH]; intros k; [rewrite coef_pmul_nil; cbn [map]; rewrite coef_pmul_nil; lia|].
  cbn [map]. rewrite !coef_pmul_cons, coef_map_abs.
  pose proof (Z.abs_mul a (coef q k)).
  destruct k; [lia|]. specialize (IH k). lia.
Qed.
Lemma pmul_abs_firstn i p q k :
  coef (pmul (map Z.abs (firstn i p)) (map Z.abs q)) k <= coef (pmul (map Z.abs p) (map Z.abs q)) k.
Proof.
  revert p k; induction i as [|i IH]; intros p k.
  - cbn [firstn map]. rewrite coef_pmul_nil. apply pmul_abs_nonneg.
  - destruct p as [|a p]; [cbn [firstn]; lia|]. cbn [firstn map]. rewrite !coef_pmul_cons.
    destruct k; [lia|]. specialize (IH p k). lia.
Qed.
(** Plain multiplication of checked (public) integers *)
Lemma map_abs_id p : (forall a, In a p -> 0 <= a) -> map Z.abs p = p.
Proof.
  intros H. rewrite <- (map_id p) at 2. apply map_ext_in. intros a Ha. specialize (H a Ha). lia.
Qed.
Lemma poly_mul_plain_public t x y : 0 < bits t -> sec t = false ->
  (forall a, In a x -> in_ty t a) -> (forall a, In a y -> in_ty t a) ->
  (forall k, conv_coeff (map Z.abs x) (map Z.abs y) k <= imax t) ->
  exists r, poly_mul_plain t x y = Ok r /\ length r = (length x + length y)%nat /\
    forall k, coef r k = conv_coeff x y k.
Proof.
  intros Hb S Hx Hy B. rewrite plain_scan.
  destruct (scan_gen (fun o a b => let* p := op_mul t a b in op_add t o p) 0 (fun _ => True) x y I)
    as (r & E & L & _ & D).
  - intros i j o Hi Hj _ [c Ho]. rewrite Z.mul_0_r in Ho. assert (Eo : o = coef (pmul (firstn i x) y) (i + j)) by lia.
    assert (Es : o + coef x i * coef y j = coef (pmul (firstn (Datatypes.S i) x) y) (i + j)).
    { rewrite firstn_snoc, pmul_snoc, firstn_length_le by lia. destruct (Nat.ltb_spec (i + j) i); [lia|].
      replace (i + j - i)%nat with j by lia. lia. }
    assert (B1 : forall m, Z.abs (coef (pmul (firstn m x) y) (i + j)) <= imax t).
    { intros m. etransitivity; [apply pmul_abs|]. etransitivity; [apply pmul_abs_firstn|].
      rewrite pmul_conv. apply B. }
    assert (B2 : Z.abs (coef x i * coef y j) <= imax t).
    { etransitivity; [|apply (B (i + j)%nat)]. rewrite <- pmul_conv.
      etransitivity; [|apply (pmul_abs_firstn (Datatypes.S i))]. rewrite firstn_snoc by lia.
      rewrite map_app. cbn [map]. rewrite pmul_snoc, map_length, firstn_length_le by lia.
      destruct (Nat.ltb_spec (i + j) i); [lia|]. replace (i + j - i)%nat with j by lia.
      rewrite coef_map_abs, Z.abs_mul. pose proof (pmul_abs_nonneg (firstn i x) y (i + j)). lia. }
    assert (F : forall z, Z.abs z <= imax t -> in_ty t z \/ z < 0 /\ sgn t = false).
    { intros z Hz. unfold in_ty, imin, imax in *. destruct (sgn t) eqn:St; [left; lia|].
      destruct (Z_lt_le_dec z 0); [right; auto|left; lia]. }
    assert (N : sgn t = false -> (forall a, In a x -> 0 <= a) /\ (forall a, In a y -> 0 <= a)).
    { intros St. split; intros a Ha; [specialize (Hx a Ha)|specialize (Hy a Ha)]; unfold in_ty, imin in *;
        rewrite St in *; lia. }
    pose proof (B1 (Datatypes.S i)) as B3. rewrite <- Es in B3.
    exists (o + coef x i * coef y j). split; [|split; [trivial|exists 0; lia]].
    unfold op_mul, op_add. rewrite S.
    destruct (F _ B2) as [F1|[F1 F2]].
    + rewrite (chk_Ok t _ F1). cbn [bind].
      destruct (F _ B3) as [F3|[F3 F4]]; [now rewrite chk_Ok|]. exfalso.
      rewrite Es in F3. specialize (N F4). destruct N as [Nx Ny].
      rewrite <- (map_abs_id (firstn _ x)), <- (map_abs_id y) in F3; trivial.
      * pose proof (pmul_abs_nonneg (firstn (Datatypes.S i) x) y (i + j)). lia.
      * intros a Ha. apply Nx. rewrite <- (firstn_skipn (Datatypes.S i) x). apply in_or_app. now left.
    + specialize (N F2). destruct N as [Nx Ny].
      specialize (Nx (coef x i) ltac:(apply nth_In; lia)). specialize (Ny (coef y j) ltac:(apply nth_In; lia)). nia.
  - exists r. rewrite E. split; [reflexivity|]. split; [exact L|]. intros k.
    destruct (D k) as [c Hc]. rewrite <- pmul_conv. lia.
Qed.

(** Partial correctness of the loops: whatever is returned is the product. *)
Lemma scan_sound acc x y r :
  (forall o a b o', acc o a b = Ok o' -> o' = o + a * b) ->
  scan acc x y = Ok r -> length r = (length x + length y)%nat /\ forall k, coef r k = conv_coeff x y k.
Proof.
  intros HA E. unfold scan in E.
  apply (for_range_sound (fun i out => length out = (length x + length y)%nat /\
      forall k, coef out k = coef (pmul (firstn i x) y) k)) in E.
  - rewrite Nat.add_0_l, firstn_all in E. destruct E as [L E]. split; [exact L|].
    intros k. now rewrite E, pmul_conv.
  - split; [apply repeat_length|]. intros k. cbn [firstn]. now rewrite coef_repeat, coef_pmul_nil.
  - intros i out out1 Hi (L & C) E1.
    apply (for_range_sound (fun j out' => length out' = length out /\
        forall k, coef out' k = coef out k + if (k <? i)%nat then 0 else if (k <? i + j)%nat then coef x i * coef y (k - i) else 0)) in E1.
    + destruct E1 as [L1 C1]. split; [lia|]. intros k. rewrite C1, C, firstn_snoc, pmul_snoc, firstn_length_le by lia.
      f_equal. destruct (Nat.ltb_spec k i); [lia|]. destruct (Nat.ltb_spec k (i + (0 + length y))); [lia|].
      rewrite (coef_overflow y) by lia. lia.
    + split; [reflexivity|]. intros k. destruct (Nat.ltb_spec k i), (Nat.ltb_spec k (i + 0)); lia.
    + intros j o1 o2 Hj (L1 & C1) E2.
      rewrite (idx_Ok o1 _ 0), (idx_Ok x i 0), (idx_Ok y j 0) in E2 by lia. cbn [bind] in E2.
      apply bind_Ok in E2 as (v & Ev & E2). apply HA in Ev. rewrite upd_Ok in E2 by lia. injection E2 as <-.
      split; [rewrite set_nth_length; lia|]. intros k. rewrite coef_set_nth by lia.
      specialize (C1 k). destruct (Nat.eqb_spec k (i + j)) as [->|].
      * subst v. change (nth (i + j) o1 0) with (coef o1 (i + j)). rewrite C1.
        change (nth i x 0) with (coef x i). change (nth j y 0) with (coef y j).
        destruct (Nat.ltb_spec (i + j) i), (Nat.ltb_spec (i + j) (i + j)), (Nat.ltb_spec (i + j) (i + S j)); try lia.
        replace (i + j - i)%nat with j by lia. lia.
      * rewrite C1. destruct (Nat.ltb_spec k i), (Nat.ltb_spec k (i + j)), (Nat.ltb_spec k (i + S j)); lia.
Qed.
Lemma poly_mul_plain_sound t x y r : sec t = false -> poly_mul_plain t x y = Ok r ->
  length r = (length x + length y)%nat /\ forall k, coef r k = conv_coeff x y k.
Proof.
  intros S E. rewrite plain_scan in E. revert E. apply scan_sound.
  intros o a b o' E. unfold op_mul, op_add in E. rewrite S in E.
  apply bind_Ok in E as (p & E1 & E2). apply chk_inv in E1 as [-> _]. apply chk_inv in E2 as [-> _]. reflexivity.
Qed.
Lemma scan_P acc (P : Z -> Prop) x y r : P 0 -> (forall o a b o', acc o a b = Ok o' -> P o') ->
  scan acc x y = Ok r -> forall k, P (coef r k).
Proof.
  intros P0 HA E. unfold scan in E.
  refine (for_range_sound (fun i out => forall k, P (coef out k)) _ _ _ _ _ E _ _); [intros k; now rewrite coef_repeat|].
  intros i out out1 _ C E1.
  refine (for_range_sound (fun j out => forall k, P (coef out k)) _ _ _ _ _ E1 C _).
  intros j o1 o2 _ C1 E2. apply bind_Ok in E2 as (? & _ & E2). apply bind_Ok in E2 as (? & _ & E2).
  apply bind_Ok in E2 as (? & _ & E2). apply bind_Ok in E2 as (v & Ev & E2).
  unfold upd in E2. destruct (Nat.ltb_spec (i + j) (length o1)); [|discriminate]. injection E2 as <-.
  intros k. rewrite coef_set_nth by assumption. destruct (k =? i + j)%nat; [now apply HA in Ev|apply C1].
Qed.
Lemma poly_mul_plain_range t x y r : 0 < bits t -> poly_mul_plain t x y = Ok r -> forall k, in_ty t (coef r k).
Proof.
  intros Hb E. rewrite plain_scan in E. revert E. apply scan_P.
  - unfold in_ty. pose proof (imin_le_0 t Hb). split; [lia|]. unfold imax.
    pose proof (pow2_pos (bits t - 1)). pose proof (pow2_pos (bits t)). destruct (sgn t); lia.
  - intros o a b o' E. apply bind_Ok in E as (p & _ & E2). unfold op_add in E2.
    destruct (sec t); [injection E2 as <-; now apply iwrap_range|]. now apply chk_inv in E2 as [-> ?].
Qed.

(** ** poly_div *)
Lemma inv_Ok fuel t c n : 0 < bits t -> 1 < n -> n * n <= imax t + 1 -> (Z.to_nat (n + n * n) <= fuel)%nat ->
  0 <= c < n -> Z.gcd c n = 1 -> exists ci, num_inv fuel t c n = Ok ci /\ 0 < ci < n /\ (n | c * ci - 1).
Proof.
  intros Hb Hn Hnn Hf Hc G. destruct (eea_spec fuel t c n false) as (I & _); trivial; try nia.
  destruct (I G) as (y & E & R & M). exists y. split; [exact E|].
  assert (D : (n | c * y - 1)).
  { exists (c * y / n). pose proof (Z.div_mod (c * y) n). lia. }
  split; [|exact D]. destruct (Z.eq_dec y 0) as [->|]; [|lia].
  rewrite Z.mul_0_r, Z.mod_0_l in M by lia. lia.
Qed.

Section Div.
Variables (fuel : nat) (t : ity) (n : Z).
Hypotheses (Hb : 0 < bits t <= wlim t) (Hn : 1 < n) (Hnnn : n * n * n <= imax t + 1)
  (Hf : (Z.to_nat (n + n * n) <= fuel)%nat).
Add Ring polyring1 : (poly_ring_theory n) (setoid (peq_equiv n) (poly_ring_ext n)).

Lemma Hnn_of : n * n <= imax t + 1.
Proof. nia. Qed.
Lemma Hf_of : (Z.to_nat n < fuel)%nat.
Proof. nia. Qed.

Lemma poly_div_step_Ok x y c yd L i quo rem :
  canon n y -> coef y yd = c -> (forall k, (yd < k)%nat -> coef y k = 0) -> Z.gcd c n = 1 ->
  length y = L -> (yd <= L)%nat -> (i < L - yd)%nat ->
  canon n quo -> length quo = L -> canon n rem -> (L <= length rem)%nat ->
  peq n x (padd (pmul quo y) rem) -> dlt n rem (L - i) ->
  exists quo' rem', poly_div_step fuel t y n c (L - yd) L i (quo, rem) = Ok (quo', rem') /\
    canon n quo' /\ length quo' = L /\ canon n rem' /\ (L <= length rem')%nat /\
    peq n x (padd (pmul quo' y) rem') /\ dlt n rem' (L - S i).
Proof.
  intros Cy Ec Ty G Ly Hyd Hi Cq Lq Cr Lr EQ D.
  pose proof Hnn_of as Hnn. pose proof Hf_of as Hf1.
  unfold poly_div_step. rewrite usub_Ok by lia. cbn [bind]. rewrite usub_Ok by lia. cbn [bind].
  rewrite (idx_Ok _ _ 0) by lia. cbn [bind].
  change (nth (L - 1 - i) rem 0) with (coef rem (L - 1 - i)). set (ri := coef rem (L - 1 - i)).
  unfold num_equal at 1. destruct (Z.eqb_spec n 0); [lia|].
  pose proof (Cy yd) as Hc0. rewrite Ec in Hc0.
  destruct (inv_Ok fuel t c n) as (ci & Ei & Ri & Di); trivial; try lia.
  rewrite Ei. cbn [bind].
  assert (Hri : 0 <= ri < n) by apply Cr.
  assert (Hq : 0 <= ri * ci <= (n - 1) * (n - 1)) by nia.
  assert (Hqt : in_ty t (ri * ci)) by (apply nonneg_in; nia).
  assert (Eop : op_mul t ri ci = Ok (ri * ci)).
  { unfold op_mul. destruct (sec t); [now rewrite iwrap_id by (trivial; lia)|now rewrite chk_Ok]. }
  rewrite Eop. cbn [bind].
  replace (num_equal (ri * ci) 0 && negb (num_equal ri 0)) with false.
  2:{ unfold num_equal. destruct (Z.eqb_spec ri 0) as [->|]; [now rewrite andb_false_r|].
      destruct (Z.eqb_spec (ri * ci) 0); [nia|reflexivity]. }
  cbn [bind]. rewrite usub_Ok by lia. cbn [bind]. rewrite usub_Ok by lia. cbn [bind].
  set (e := (L - yd - i - 1)%nat).
  destruct (monomial_Ok (ri * ci) e) as (s & Es & Ls & Cs). rewrite Es. cbn [bind].
  assert (Ss : forall k, coef s k = coef (pscale (ri * ci) (xk e)) k).
  { intros k. rewrite Cs, coef_pscale, coef_xk. destruct (k =? e)%nat; lia. }
  assert (Hs0 : forall k, 0 <= coef s k <= (n - 1) * (n - 1)).
  { intros k. rewrite Cs. destruct (k =? e)%nat; nia. }
  destruct (poly_mul_gen fuel t n ltac:(lia)) with (x := s) (y := y) as (sy & Esy & Lsy & Csy & Psy).
  { intros a b Ha Hb'. apply add_mod_canon; trivial. }
  { intros a b Ha Hb'. apply In_nth with (d := 0) in Ha as (ka & _ & <-). apply In_nth with (d := 0) in Hb' as (kb & _ & <-).
    specialize (Hs0 ka). pose proof (Cy kb). unfold coef in *.
    apply mul_mod_fits; trivial; try lia.
    - apply nonneg_in; nia.
    - apply nonneg_in; nia.
    - apply nonneg_in; nia.
    - apply in_wide; trivial. apply nonneg_in; [lia|].
      assert (nth ka s 0 * nth kb y 0 <= (n - 1) * (n - 1) * (n - 1)) by (apply Z.mul_le_mono_nonneg; lia). nia. }
  rewrite Esy. cbn [bind].
  destruct (poly_add_gen fuel t n) with (x := quo) (y := s) as (quo' & Eq & Lq' & Cq' & Pq); trivial.
  { intros k _. pose proof (Cq k). specialize (Hs0 k). apply add_mod_fits; trivial; try lia.
    - apply nonneg_in; nia.
    - apply nonneg_in; nia.
    - apply nonneg_in; nia.
    - apply in_wide; trivial. apply nonneg_in; nia. }
  rewrite Eq. cbn [bind].
  destruct (poly_sub_Ok fuel t n) with (x := rem) (y := sy) as (rem' & Er & Lr' & Cr' & Pr); trivial.
  rewrite Er. cbn [bind]. exists quo', rem'. split; [reflexivity|].
  conjs; trivial; try lia.
  - rewrite Pq, Pr, Psy, EQ. ring.
  - assert (Csyk : forall k, coef (pmul s y) k = ri * ci * (if (k <? e)%nat then 0 else coef y (k - e))).
    { intros k. rewrite <- coef_pmul_xk, <- pmul_pscale_l.
      assert (Q : peq 0 (pmul s y) (pmul (pscale (ri * ci) (xk e)) y)).
      { apply pmul_proper; [|reflexivity]. now apply peq_Z. }
      destruct (Q k) as [z Hz]. lia. }
    apply (dlt_proper n (psub rem (pmul s y))).
    { rewrite Pr, Psy. reflexivity. }
    intros k Hk. rewrite coef_psub, Csyk. destruct (Nat.ltb_spec k e); [lia|].
    destruct (Nat.eq_dec k (L - 1 - i)) as [->|].
    + replace (L - 1 - i - e)%nat with yd by lia. rewrite Ec. fold ri.
      destruct Di as [z Hz]. exists (- ri * z). nia.
    + rewrite Ty by lia. rewrite Z.mul_0_r, Z.sub_0_r. apply D. lia.
Qed.

Lemma poly_div_Ok x y yd c : canon n x -> canon n y -> leading_coefficient y = (yd, c) -> Z.gcd c n = 1 ->
  exists q r, poly_div fuel t x y n = Ok (q, r) /\ canon n q /\ canon n r /\
    length q = Nat.max (length x) (length y) /\ length r = yd /\
    peq n x (padd (pmul q y) r).
Proof.
  intros Cx Cy E G. unfold poly_div, normalize.
  set (L := Nat.max (length x) (length y)).
  pose proof (leading_coefficient_spec _ _ _ E) as LS.
  assert (LSp : lead_spec (pad y L) yd c).
  { destruct LS as [(-> & -> & H)|(H1 & H2 & H3 & H4)]; [left|right].
    - repeat split; auto. intros k. now rewrite coef_pad.
    - rewrite pad_length, coef_pad. repeat split; auto; [lia|]. intros k Hk. rewrite coef_pad. auto. }
  destruct (leading_coefficient (pad y L)) as [yd' c'] eqn:E'.
  pose proof (leading_coefficient_spec _ _ _ E') as LS'.
  destruct (lead_unique _ _ _ _ _ LS' LSp) as [-> ->].
  rewrite !pad_length. replace (Nat.max (length x) L) with L by lia.
  destruct LS as [(-> & -> & H)|(H1 & H2 & H3 & H4)].
  { rewrite Z.gcd_0_l, Z.abs_eq in G by lia. lia. }
  rewrite usub_Ok by lia. cbn [bind].
  assert (Exp : peq n x (pad x L)) by (apply peq_Z; intros; now rewrite coef_pad).
  assert (Eyp : peq n y (pad y L)) by (apply peq_Z; intros; now rewrite coef_pad).
  destruct (for_range_inv (fun i '(quo, rem) => canon n quo /\ length quo = L /\ canon n rem /\ (L <= length rem)%nat /\
       peq n x (padd (pmul quo (pad y L)) rem) /\ dlt n rem (L - i))
     (poly_div_step fuel t (pad y L) n c (L - yd) L) 0 (L - yd) (repeat 0 L, pad x L)) as ([quo rem] & El & I).
  - conjs.
    + apply canon_repeat. lia.
    + apply repeat_length.
    + intros k. rewrite coef_pad. apply Cx.
    + rewrite pad_length. lia.
    + intros k. rewrite coef_padd, coef_pad.
      assert (Z0 : peq 0 (pmul (repeat 0 L) (pad y L)) (pmul [] (pad y L))).
      { apply pmul_proper; [|reflexivity]. apply peq_Z. intros j. now rewrite coef_repeat, coef_nil. }
      destruct (Z0 k) as [z Hz]. rewrite coef_pmul_nil in Hz.
      match goal with |- (_ | ?e) => replace e with 0 by lia end. apply Z.divide_0_r.
    + intros k Hk. rewrite coef_pad, coef_overflow by lia. apply Z.divide_0_r.
  - intros i [quo rem] Hi (I1 & I2 & I3 & I4 & I5 & I6).
    destruct (poly_div_step_Ok x (pad y L) c yd L i quo rem) as (q' & r' & Es & J); trivial.
    + intros k. rewrite coef_pad. apply Cy.
    + now rewrite coef_pad.
    + intros k Hk. rewrite coef_pad. auto.
    + rewrite pad_length. lia.
    + lia.
    + lia.
    + exists (q', r'). split; [exact Es|exact J].
  - rewrite El. cbn [bind]. destruct I as (I1 & I2 & I3 & I4 & I5 & I6).
    exists quo, (make_fixed_length rem yd). split; [reflexivity|]. conjs; trivial.
    + apply canon_mfl; [lia|exact I3].
    + apply mfl_length.
    + rewrite Eyp. rewrite I5. apply padd_proper; [reflexivity|]. intros k. rewrite coef_mfl.
      destruct (Nat.ltb_spec k yd); [rewrite Z.sub_diag; apply Z.divide_0_r|].
      rewrite Z.sub_0_r. apply I6. lia.
Qed.
End Div.
