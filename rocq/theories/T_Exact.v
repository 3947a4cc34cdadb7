(** Exact characterisations of properties that fail on part of the input space:
    C05 (the trait's rotations on negative values) and C65 (inversion modulo an n
    whose square does not fit the type); the signed from_hex (C26). *)
From Coq Require Import ZArith Znumtheory String Ascii List Bool Lia.
From Verif Require Import Base P_Base M_Int P_Int M_MathUtil P_MathUtil P_Mod S_Int T_Int M_Seq M_Bytes M_BigInt P_BigInt S_Seq S_BigInt T_BigInt M_Fmt.
Import ListNotations.
Open Scope string_scope.
Open Scope Z_scope.

(** * C05 *)
Lemma neg_bits_high t a j : 0 < bits t -> in_ty t a -> a < 0 -> bits t <= j -> Z.testbit a j = true.
Proof.
  intros H Ha H0 Hj. unfold in_ty, imin, imax in Ha.
  pose proof (pow2_split (bits t) H). pose proof (pow2_pos (bits t - 1)).
  rewrite Z.bits_iff_neg_ex in H0. destruct (sgn t); [|destruct H0 as [k Hk]; exfalso].
  - replace a with (Z.lnot (Z.lnot a)) by apply Z.lnot_involutive.
    rewrite Z.lnot_spec by lia. rewrite (testbit_small _ (bits t)); [reflexivity| |lia].
    rewrite <- Z.bits_iff_neg_ex in H0. unfold Z.lnot. lia.
  - assert (a < 0) by (apply Z.bits_iff_neg_ex; eauto). lia.
Qed.

Lemma low_ones a m : 0 <= m -> ((a + 1) mod 2 ^ m = 0 <-> forall j, 0 <= j < m -> Z.testbit a j = true).
Proof.
  intros Hm. pose proof (pow2_pos m). assert (E : (a + 1) mod 2 ^ m = 0 <-> Z.lnot a mod 2 ^ m = 0).
  { rewrite !Z.mod_divide by lia. replace (a + 1) with (- Z.lnot a) by (unfold Z.lnot; lia).
    apply Z.divide_opp_r. }
  rewrite E. clear E. split.
  - intros E j Hj. assert (B : Z.testbit (Z.lnot a mod 2 ^ m) j = false) by (rewrite E; apply Z.testbit_0_l).
    rewrite Z.mod_pow2_bits_low, Z.lnot_spec in B by lia. now destruct (Z.testbit a j).
  - intros B. apply Z.bits_inj'. intros j Hj. rewrite Z.testbit_0_l.
    destruct (Z_lt_le_dec j m).
    + rewrite Z.mod_pow2_bits_low, Z.lnot_spec, B by lia. reflexivity.
    + apply Z.mod_pow2_bits_high. lia.
Qed.

(** Negative a, 0 < n < w: the n low bits are those of the rotation, every other bit is
    one.  So the result is the rotation exactly when the w - n low bits of a (n low bits
    for rotate_right) are all ones. *)
Theorem C05_trait_rotate_signed_exact : forall w c a n, rust_width w -> - 2 ^ (w - 1) <= a < 0 -> 0 < n < w ->
  let t := mkity w true c in
  (exists r, tr_rotate_left t a n = Ok r /\ sval w r /\
     (forall i, 0 <= i < w -> Z.testbit r i = if i <? n then Z.testbit a (i + w - n) else true) /\
     (is_rotl w a n r <-> (a + 1) mod 2 ^ (w - n) = 0)) /\
  (exists r, tr_rotate_right t a n = Ok r /\ sval w r /\
     (forall i, 0 <= i < w -> Z.testbit r i = if i <? w - n then Z.testbit a (i + n) else true) /\
     (is_rotr w a n r <-> (a + 1) mod 2 ^ n = 0)).
Proof.
  intros w c a n Hw Ha Hn t. destruct (rust_width_pow w Hw) as (k & Ek & Hk & Hb).
  assert (Hm : (- n) mod w = w - n) by (rewrite <- (Z_mod_plus_full _ 1), Z.mod_small; lia).
  assert (Ha' : in_ty t a) by (apply (val_in_ty w true c); unfold val, sval; pose proof (pow2_pos (w - 1)); lia).
  assert (Hh : forall j, w <= j -> Z.testbit a j = true) by (intros j Hj; apply (neg_bits_high t); cbn [bits t]; trivial; lia).
  split.
  - destruct (tr_rotate_left_bits t a n k Ek Hk ltac:(cbn [bits t]; lia) Ha') as (r & E & R & B).
    cbn [bits t] in B. rewrite Hm in B. exists r. split; [exact E|].
    split; [now apply (val_in_ty w true c) in R|].
    assert (B' : forall i, 0 <= i < w -> Z.testbit r i = if i <? n then Z.testbit a (i + w - n) else true).
    { intros i Hi. rewrite B by lia. destruct (Z.ltb_spec i n).
      - rewrite Z.testbit_neg_r by lia. cbn [orb]. f_equal. lia.
      - rewrite (Hh (i + (w - n))) by lia. apply orb_true_r. }
    split; [exact B'|]. rewrite low_ones by lia. split.
    + intros Rot j Hj. specialize (Rot (j + n) ltac:(lia)). rewrite B' in Rot by lia.
      destruct (Z.ltb_spec (j + n) n); [lia|]. rewrite Z.mod_small in Rot by lia.
      replace (j + n - n) with j in Rot by lia. now symmetry.
    + intros L i Hi. rewrite B' by lia. destruct (Z.ltb_spec i n).
      * rewrite <- (Z_mod_plus_full (i - n) 1), Z.mod_small by lia. f_equal. lia.
      * rewrite Z.mod_small by lia. symmetry. apply L. lia.
  - destruct (tr_rotate_right_bits t a n k Ek Hk ltac:(cbn [bits t]; lia) Ha') as (r & E & R & B).
    cbn [bits t] in B. rewrite Hm in B. exists r. split; [exact E|].
    split; [now apply (val_in_ty w true c) in R|].
    assert (B' : forall i, 0 <= i < w -> Z.testbit r i = if i <? w - n then Z.testbit a (i + n) else true).
    { intros i Hi. rewrite B by lia. destruct (Z.ltb_spec i (w - n)).
      - rewrite (Z.testbit_neg_r _ (i - (w - n))) by lia. apply orb_false_r.
      - rewrite (Hh (i + n)) by lia. reflexivity. }
    split; [exact B'|]. rewrite low_ones by lia. split.
    + intros Rot j Hj. specialize (Rot (j + w - n) ltac:(lia)). rewrite B' in Rot by lia.
      destruct (Z.ltb_spec (j + w - n) (w - n)); [lia|].
      replace (j + w - n + n) with (j + 1 * w) in Rot by lia.
      rewrite Z_mod_plus_full, Z.mod_small in Rot by lia. now symmetry.
    + intros L i Hi. rewrite B' by lia. destruct (Z.ltb_spec i (w - n)).
      * rewrite Z.mod_small by lia. reflexivity.
      * rewrite <- (Z_mod_plus_full (i + n) (-1)), Z.mod_small by lia. symmetry. apply L. lia.
Qed.
Print Assumptions C05_trait_rotate_signed_exact.
(** -1 (and -65 by 1 to the right: its low bit is set) rotate correctly, -128 by 1 does not. *)
Example C05_exact_ex : tr_rotate_left i8 (-1) 3 = Ok (-1) /\ tr_rotate_right i8 (-65) 1 = Ok (-33) /\
  (-65 + 1) mod 2 ^ 1 = 0 /\ tr_rotate_left i8 (-128) 1 = Ok (-1) /\ (-128 + 1) mod 2 ^ 7 <> 0.
Proof. vm_compute. repeat split; discriminate. Qed.

(** * C65 *)
(** What the public version does for every modulus: it never returns a wrong value.  The
    loops are over the exact integers as long as no operation overflows. *)
Lemma while_add_inv t b n : sec t = false -> 0 < n -> forall fuel a r,
  while_ fuel (fun x => num_less_than x b) (fun x => op_add t x n) a = Ok r ->
  exists k, 0 <= k /\ r = a + k * n /\ b <= r /\ (b <= a -> k = 0) /\ (a < b -> r < b + n).
Proof.
  intros S Hn. induction fuel as [|f IH]; intros a r E; cbn [while_] in E; [discriminate E|].
  unfold num_less_than in *. destruct (Z.ltb_spec a b).
  - unfold op_add at 1 in E. rewrite S in E. destruct (chk t (a + n)) as [v|] eqn:C; cbn [bind] in E; [|discriminate E].
    apply chk_inv in C. destruct C as (-> & _).
    apply IH in E. destruct E as (k & K0 & -> & K1 & K2 & K3). exists (k + 1).
    assert (a + (k + 1) * n < b + n) by (destruct (Z_lt_le_dec (a + n) b); [lia|]; rewrite (K2 ltac:(lia)); lia).
    repeat split; lia.
  - injection E as <-. exists 0. lia.
Qed.

Definition eea_ok (g x n : Z) (s : eea) : Prop :=
  0 <= ee_t s < n /\ 0 <= ee_new_t s < n /\ 0 < ee_r s /\ 0 <= ee_new_r s /\
  (n | ee_t s * x - ee_r s) /\ (n | ee_new_t s * x - ee_new_r s) /\
  Z.gcd (ee_r s) (ee_new_r s) = g.

Lemma eea_step_ok fuel t g x n s s' : sec t = false -> 1 < n -> eea_ok g x n s -> ee_new_r s <> 0 ->
  eea_step fuel t n s = Ok s' -> eea_ok g x n s'.
Proof.
  intros S Hn I Hnz E. destruct s as [t0 r nt nr]. unfold eea_ok in I. cbn [ee_t ee_r ee_new_t ee_new_r] in *.
  destruct I as (It & Int & Ir & Inr & D1 & D2 & G).
  unfold eea_step in E. cbn [ee_t ee_r ee_new_t ee_new_r] in E. unfold num_div, op_div in E.
  destruct (Z.eqb_spec nr 0); [contradiction|]. rewrite Z.quot_div_nonneg in E by lia.
  set (q := r / nr) in *.
  pose proof (Z.div_mod r nr Hnz) as DM. pose proof (Z.mod_pos_bound r nr) as MB. fold q in DM.
  assert (Hq0 : 0 <= q) by (apply Z.div_pos; lia).
  destruct (chk t q) as [v|] eqn:C; cbn [bind] in E; [|discriminate E]. apply chk_inv in C. destruct C as (-> & _).
  unfold op_mul, op_sub in E. rewrite S in E.
  destruct (chk t (q * nr)) as [v|] eqn:C; cbn [bind] in E; [|discriminate E]. apply chk_inv in C. destruct C as (-> & _).
  destruct (while_ fuel _ _ r) as [v|] eqn:W; cbn [bind] in E; [|discriminate E].
  apply while_add_inv in W; trivial; [|lia]. destruct W as (k & _ & -> & _ & K0 & _). rewrite (K0 ltac:(nia)) in E. clear k K0.
  replace (r + 0 * n) with r in E by lia.
  destruct (chk t (r - q * nr)) as [v|] eqn:C; cbn [bind] in E; [|discriminate E]. apply chk_inv in C. destruct C as (-> & _).
  destruct (chk t (q * nt)) as [v|] eqn:C; cbn [bind] in E; [|discriminate E]. apply chk_inv in C. destruct C as (-> & _).
  destruct (while_ fuel _ _ t0) as [v|] eqn:W; cbn [bind] in E; [|discriminate E].
  apply while_add_inv in W; trivial; [|lia]. destruct W as (k & K & -> & K1 & K2 & K3).
  destruct (chk t (t0 + k * n - q * nt)) as [v|] eqn:C; cbn [bind] in E; [|discriminate E]. apply chk_inv in C. destruct C as (-> & _).
  injection E as <-. unfold eea_ok. cbn [ee_t ee_r ee_new_t ee_new_r].
  assert (E1 : r - q * nr = r mod nr) by lia.
  assert (Hk : t0 + k * n - q * nt < n).
  { destruct (Z_lt_le_dec t0 (q * nt)); [lia|]. rewrite (K2 ltac:(lia)). nia. }
  rewrite E1. conjs; try lia.
  - assumption.
  - destruct D1 as [c1 D1], D2 as [c2 D2]. rewrite <- E1. exists (c1 - q * c2 + k * x). nia.
  - rewrite Z.gcd_comm, Z.gcd_mod by assumption. rewrite <- G. apply Z.gcd_comm.
Qed.

Lemma eea_loop_ok fuel2 t g x n : sec t = false -> 1 < n -> forall fuel s s', eea_ok g x n s ->
  while_ fuel (fun s => negb (num_equal (ee_new_r s) 0)) (eea_step fuel2 t n) s = Ok s' ->
  eea_ok g x n s' /\ ee_new_r s' = 0.
Proof.
  intros S Hn. induction fuel as [|f IH]; intros s s' I E; cbn [while_] in E; [discriminate E|].
  unfold num_equal in *. destruct (Z.eqb_spec (ee_new_r s) 0) as [Z0|N]; cbn [negb] in E.
  - injection E as <-. auto.
  - destruct (eea_step fuel2 t n s) as [s1|] eqn:E1; cbn [bind] in E; [|discriminate E].
    apply (IH s1); trivial. eapply eea_step_ok; eauto.
Qed.

(** Public types, every modulus above 1, no bound on its square: a returned value is the
    inverse, below n, and x was coprime to n; in particular x not coprime to n, x <> 0,
    always panics.  (fuel is the loop bound of the model: any.) *)
Theorem C65_public_never_wrong : forall w s fuel x n sg y, 1 < n -> 0 < x ->
  extended_euclid_invert fuel (mkity w s false) x n sg = Ok y ->
  Z.gcd x n = 1 /\ 0 <= y < n /\ (x * y) mod n = 1.
Proof.
  intros w s fuel x n sg y Hn Hx E. unfold extended_euclid_invert in E.
  destruct (while_ _ _ _ _) as [st|] eqn:W; cbn [bind] in E; [|discriminate E].
  apply (eea_loop_ok fuel (mkity w s false) (Z.gcd x n) x n eq_refl Hn) in W.
  2:{ unfold eea_ok. cbn [ee_t ee_r ee_new_t ee_new_r]. repeat split; try lia.
      - exists (-1). lia.
      - exists 0. lia.
      - apply Z.gcd_comm. }
  destruct W as ((It & Int & Ir & Inr & D1 & D2 & G) & Z0).
  rewrite Z0, Z.gcd_0_r, Z.abs_eq in G by lia.
  unfold num_greater_than, num_equal, num_less_than in E.
  destruct (Z.eqb_spec x 0); [lia|]. destruct (Z.ltb_spec (ee_t st) 0); [lia|].
  destruct (Z.ltb_spec 1 (ee_r st)); cbn [andb negb] in E; [discriminate E|]. injection E as <-.
  assert (G1 : ee_r st = 1) by lia. split; [lia|]. split; [lia|].
  destruct D1 as [c D1]. rewrite G1 in D1. replace (x * ee_t st) with (1 + c * n) by lia.
  rewrite Z_mod_plus_full. apply Z.mod_1_l. lia.
Qed.
Print Assumptions C65_public_never_wrong.
(** 251^2 does not fit u8, yet 2 has an inverse there and 13 runs into the overflow panic. *)
Example C65_public_ex : num_inv 300 u8 2 251 = Ok 126 /\ num_inv 300 u8 13 251 = Panic POverflow.
Proof. vm_compute. auto. Qed.

(** The secret version agrees with the public one wherever the latter returns. *)
Lemma op_agree w s a b : 0 < w ->
  (forall r, op_add (mkity w s false) a b = Ok r -> op_add (mkity w s true) a b = Ok r) /\
  (forall r, op_sub (mkity w s false) a b = Ok r -> op_sub (mkity w s true) a b = Ok r) /\
  (forall r, op_mul (mkity w s false) a b = Ok r -> op_mul (mkity w s true) a b = Ok r).
Proof.
  intros H. unfold op_add, op_sub, op_mul. cbn [sec].
  repeat split; intros r E; apply chk_inv in E; destruct E as (-> & I); now rewrite iwrap_id.
Qed.
Lemma while_agree {S} (c : S -> bool) (f g : S -> res S) :
  (forall s r, f s = Ok r -> g s = Ok r) -> forall fuel s r, while_ fuel c f s = Ok r -> while_ fuel c g s = Ok r.
Proof.
  intros A. induction fuel as [|k IH]; intros s r E; cbn [while_] in *; [discriminate E|].
  destruct (c s); [|exact E]. destruct (f s) as [v|] eqn:F; cbn [bind] in E; [|discriminate E].
  rewrite (A _ _ F). cbn [bind]. now apply IH.
Qed.
Lemma eea_step_agree fuel w s n st r : 0 < w ->
  eea_step fuel (mkity w s false) n st = Ok r -> eea_step fuel (mkity w s true) n st = Ok r.
Proof.
  intros H E. unfold eea_step in *.
  change (num_div (mkity w s true)) with (num_div (mkity w s false)).
  destruct (num_div _ _ _) as [q|]; cbn [bind] in *; [|discriminate E].
  destruct (op_mul (mkity w s false) q (ee_new_r st)) as [v1|] eqn:M1; cbn [bind] in E; [|discriminate E].
  apply op_agree in M1; trivial. rewrite M1. cbn [bind].
  destruct (while_ _ _ _ (ee_r st)) as [v2|] eqn:W1; cbn [bind] in E; [|discriminate E].
  apply (while_agree _ _ (fun x => op_add (mkity w s true) x n)) in W1; [|intros; now apply op_agree].
  rewrite W1. cbn [bind].
  destruct (op_sub (mkity w s false) v2 v1) as [v3|] eqn:M2; cbn [bind] in E; [|discriminate E].
  apply op_agree in M2; trivial. rewrite M2. cbn [bind].
  destruct (op_mul (mkity w s false) q (ee_new_t st)) as [v4|] eqn:M3; cbn [bind] in E; [|discriminate E].
  apply op_agree in M3; trivial. rewrite M3. cbn [bind].
  destruct (while_ _ _ _ (ee_t st)) as [v5|] eqn:W2; cbn [bind] in E; [|discriminate E].
  apply (while_agree _ _ (fun x => op_add (mkity w s true) x n)) in W2; [|intros; now apply op_agree].
  rewrite W2. cbn [bind].
  destruct (op_sub (mkity w s false) v5 v4) as [v6|] eqn:M4; cbn [bind] in E; [|discriminate E].
  apply op_agree in M4; trivial. rewrite M4. cbn [bind]. exact E.
Qed.
Theorem C65_secret_right_unless_overflow : forall w s fuel x n sg y, 0 < w -> 1 < n -> 0 < x ->
  extended_euclid_invert fuel (mkity w s false) x n sg = Ok y ->
  extended_euclid_invert fuel (mkity w s true) x n sg = Ok y /\ (x * y) mod n = 1.
Proof.
  intros w s fuel x n sg y Hw Hn Hx E. split; [|eapply C65_public_never_wrong; eauto].
  unfold extended_euclid_invert in *.
  destruct (while_ _ _ _ _) as [st|] eqn:W; cbn [bind] in E; [|discriminate E].
  apply (while_agree _ _ (eea_step fuel (mkity w s true) n)) in W; [|intros; now apply eea_step_agree].
  rewrite W. cbn [bind]. destruct (_ && _); [exact E|]. destruct (num_less_than _ _); [|exact E].
  destruct sg; [exact E|]. now apply op_agree.
Qed.
Print Assumptions C65_secret_right_unless_overflow.
Example C65_secret_ex : num_inv 300 U8 2 251 = Ok 126 /\ num_inv 300 U8 13 251 = Ok 68.
Proof. vm_compute. auto. Qed.

(** * C26 *)
(** from_hex of the signed types: "+" and "-" give the number written or panic, "" gives 0, any
    other sign text panics. *)
Lemma bfrom_signed_eop bits x : 0 < bits ->
  exact_or_panic (bfrom bits true x) x (1 - 2 ^ (8 * ((bits + 7) / 8))) (2 ^ bits - 1).
Proof.
  intros Hb. assert (P : 256 ^ Z.of_nat (blen bits) = 2 ^ (8 * ((bits + 7) / 8))).
  { unfold blen. rewrite Z2Nat.id by (apply Z.div_pos; lia). change 256 with (2 ^ 8). rewrite <- Z.pow_mul_r; [reflexivity|lia|].
    apply Z.div_pos; lia. }
  unfold exact_or_panic. split.
  - intros Hx. apply bfrom_spec; trivial. split; [reflexivity|]. rewrite P. lia.
  - intros Hx. destruct (bfrom bits true x) as [y|e] eqn:E; [|now exists e].
    apply bfrom_spec in E; trivial. rewrite P in E. lia.
Qed.
Theorem C26_signed_hex : forall bits sign s ds, 0 < bits -> Forall2 hexval s ds -> Nat.even (length s) = true ->
  let lo := 1 - 2 ^ (8 * ((bits + 7) / 8)) in
  let hi := 2 ^ bits - 1 in
  exact_or_panic (bsfrom_hex_str bits (codes "+") s) (horner 16 ds) lo hi /\
  exact_or_panic (bsfrom_hex_str bits (codes "-") s) (- horner 16 ds) lo hi /\
  exact_or_panic (bsfrom_hex_str bits (codes "") s) 0 lo hi /\
  (sign <> codes "+" -> sign <> codes "-" -> sign <> codes "" -> panics (bsfrom_hex_str bits sign s)).
Proof.
  intros bits sign s ds Hb F E lo hi.
  destruct (parse_hex_horner s ds F E) as (bs & Ep & Eb & _).
  assert (Eh : bhex_to_bytes s = Ok bs).
  { unfold bhex_to_bytes, hex_string_to_bytes. rewrite assert_true; [exact Ep|].
    apply Nat.eqb_eq. apply Nat.even_spec in E. destruct E as [m ->]. rewrite Nat.mul_comm. apply Nat.mod_mul. lia. }
  change (codes "+") with [43]. change (codes "-") with [45]. change (codes "") with (@nil Z).
  unfold bsfrom_hex_str, bsfrom_hex. rewrite Eh. cbn [bind]. rewrite Eb.
  conjs; try (now apply bfrom_signed_eop).
  intros N1 N2 N3. destruct sign as [|c [|d l]]; [contradiction| |].
  - destruct (Z.eq_dec c 43) as [->|M1]; [contradiction|]. destruct (Z.eq_dec c 45) as [->|M2]; [contradiction|].
    exists PExplicit. destruct c as [|c|c]; try reflexivity.
    do 6 (destruct c as [c|c|]; try reflexivity); lia.
  - exists PExplicit. destruct c as [|c|c]; try reflexivity.
    do 6 (destruct c as [c|c|]; try reflexivity).
Qed.
Print Assumptions C26_signed_hex.
Example C26_signed_hex_ex : bsfrom_hex_str 16 (codes "-") (codes "0a1B") = Ok (-2587) /\
  bsfrom_hex_str 16 (codes "+") (codes "0a1B") = Ok 2587 /\ bsfrom_hex_str 16 (codes "x") (codes "0a1B") = Panic PExplicit /\
  panics (bsfrom_hex_str 8 (codes "+") (codes "0a1B")).
Proof. conjs; try reflexivity. exists PAssert. reflexivity. Qed.

(** * C09 *)
(** The comparisons returning bool decide the relations, and the *_bm masks of the unsigned types are all ones exactly when they
    say true. *)
Theorem C09_bool_comparisons : forall w c a b, 0 < w -> uval w a -> uval w b ->
  let t := mkity w false c in let m (x : bool) := if x then 2 ^ w - 1 else 0 in
  ((num_equal a b = true <-> a = b) /\ equal_bm t a b = Ok (m (num_equal a b))) /\
  ((num_greater_than a b = true <-> a > b) /\ greater_than_bm t a b = Ok (m (num_greater_than a b))) /\
  ((num_greater_than_or_qual a b = true <-> a >= b) /\ greater_than_or_qual_bm t a b = Ok (m (num_greater_than_or_qual a b))) /\
  ((num_less_than a b = true <-> a < b) /\ less_than_bm t a b = Ok (m (num_less_than a b))) /\
  ((num_less_than_or_equal a b = true <-> a <= b) /\ less_than_or_equal_bm t a b = Ok (m (num_less_than_or_equal a b))).
Proof.
  intros w c a b Hw Ha Hb t m.
  destruct (C09_bm_masks_unsigned w c a b Hw Ha Hb) as ((m1 & E1 & M1) & _ & (m2 & E2 & M2) & (m3 & E3 & M3) & (m4 & E4 & M4) & (m5 & E5 & M5)).
  assert (K : forall P z x, is_mask w false P z -> (x = true <-> P) -> z = m x).
  { intros P z x [M1' M2'] I. unfold m. destruct x; [apply M1'; now apply I|]. apply M2'. intros HP. apply I in HP. discriminate HP. }
  unfold num_equal, num_greater_than, num_greater_than_or_qual, num_less_than, num_less_than_or_equal.
  assert (I1 : (a =? b) = true <-> a = b) by apply Z.eqb_eq.
  assert (I2 : (b <=? a) = true <-> a >= b) by (rewrite Z.leb_le; lia).
  assert (I3 : (b <? a) = true <-> a > b) by (rewrite Z.ltb_lt; lia).
  assert (I4 : (a <=? b) = true <-> a <= b) by apply Z.leb_le.
  assert (I5 : (a <? b) = true <-> a < b) by apply Z.ltb_lt.
  rewrite <- (K _ _ _ M1 I1), <- (K _ _ _ M2 I2), <- (K _ _ _ M3 I3), <- (K _ _ _ M4 I4), <- (K _ _ _ M5 I5).
  tauto.
Qed.
Example C09_bool_comparisons_ex : num_greater_than_or_qual 7 7 = true /\ greater_than_or_qual_bm U8 7 7 = Ok 255 /\
  num_less_than 7 7 = false /\ less_than_bm U8 7 7 = Ok 0.
Proof. repeat split. Qed.
Print Assumptions C09_bool_comparisons.
