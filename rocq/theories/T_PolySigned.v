(** C98 for the public signed types i8..i128: polynomial arithmetic for every modulus n > 1. The modular operations of these types
    compute in i128; a value that is returned is the right one. *)
From Coq Require Import ZArith List Bool Arith Lia Znumtheory.
From Verif Require Import Base P_Base M_Int P_Int M_MathUtil M_Poly S_Seq S_Int S_BigInt S_Poly P_Word P_Mod P_PolyRing P_Poly P_PolyInv
  T_Poly P_Release T_Exact T_PolyPublic.
Import ListNotations.
Open Scope Z_scope.

(** ** More fuel returns the same values *)
Lemma more_fuel fuel fuel' t : (fuel <= fuel')%nat -> refines_type fuel fuel' t t.
Proof.
  intros Hf.
  assert (S : forall x n, refines (signed_mod fuel x n) (signed_mod fuel' x n)).
  { intros x n. apply refines_bind; [apply refines_refl|]. intros r _. apply while_more; [intros; apply refines_refl|exact Hf]. }
  assert (W : forall ty n b x, refines (while_ fuel (fun x => num_less_than x b) (fun x => op_add ty x n) x)
     (while_ fuel' (fun x => num_less_than x b) (fun x => op_add ty x n) x)).
  { intros. apply while_more; [intros; apply refines_refl|exact Hf]. }
  constructor; intros; try apply refines_refl.
  - unfold add_mod. destruct (sgn t); [|apply refines_refl].
    apply refines_bind; [apply refines_refl|]. intros d _. apply refines_bind; [apply S|]. intros r _. apply refines_refl.
  - unfold sub_mod. destruct (sgn t).
    + apply refines_bind; [apply refines_refl|]. intros d _. apply refines_bind; [apply S|]. intros r _. apply refines_refl.
    + apply refines_bind; [apply W|]. intros tmp _. apply refines_refl.
  - unfold mul_mod. destruct (sgn t); [|apply refines_refl].
    apply refines_bind; [apply refines_refl|]. intros d _. apply refines_bind; [apply S|]. intros r _. apply refines_refl.
  - unfold num_inv, extended_euclid_invert. apply refines_bind; [|intros; apply refines_refl].
    apply while_more; [|exact Hf]. intros st. unfold eea_step. apply refines_bind; [apply refines_refl|]. intros q _. cbv zeta.
    apply refines_bind; [apply refines_refl|]. intros tp _. apply refines_bind; [apply W|]. intros tr _.
    apply refines_bind; [apply refines_refl|]. intros nr _. apply refines_bind; [apply refines_refl|]. intros tp2 _.
    apply refines_bind; [apply W|]. intros tt _. apply refines_refl.
Qed.

(** ** The same value, with a property *)
Definition refP {A} (P : A -> Prop) (x y : res A) : Prop := forall v, x = Ok v -> y = Ok v /\ P v.
Lemma refP_bind {A B} (P : A -> Prop) (Q : B -> Prop) x y f g : refP P x y -> (forall a, P a -> refP Q (f a) (g a)) ->
  refP Q (bind x f) (bind y g).
Proof.
  intros H K v E. apply bind_Ok in E as (a & Ea & E). destruct (H a Ea) as [E' Pa]. rewrite E'. cbn [bind]. exact (K a Pa v E).
Qed.
Lemma refP_same {A} (P : A -> Prop) (x : res A) : (forall v, x = Ok v -> P v) -> refP P x x.
Proof. intros H v E. auto. Qed.
Lemma refP_Ok {A} (P : A -> Prop) (x : A) : P x -> refP P (Ok x) (Ok x).
Proof. intros H v E. injection E as <-. auto. Qed.
Lemma refP_for {S} (I : S -> Prop) (f g : nat -> S -> res S) : (forall i s, I s -> refP I (f i s) (g i s)) ->
  forall k i s, I s -> refP I (for_range i k f s) (for_range i k g s).
Proof.
  intros H. induction k as [|k IH]; intros i s Is; cbn [for_range]; [now apply refP_Ok|].
  apply (refP_bind I); [now apply H|]. intros a Ia. now apply IH.
Qed.
Lemma refP_for_each {A S} (I : S -> Prop) (K : A -> Prop) (f g : A -> S -> res S) :
  (forall a s, K a -> I s -> refP I (f a s) (g a s)) ->
  forall l s, (forall a, In a l -> K a) -> I s -> refP I (for_each l f s) (for_each l g s).
Proof.
  intros H. induction l as [|a l IH]; intros s Kl Is; cbn [for_each]; [now apply refP_Ok|].
  apply (refP_bind I); [apply H; [apply Kl; now left|exact Is]|]. intros b Ib. apply IH; [intros; apply Kl; now right|exact Ib].
Qed.

Definition NN (l : list Z) : Prop := forall c, In c l -> 0 <= c.
Section Signed.
Variables (w w' : Z) (fuel : nat) (n : Z).
Hypotheses (Hw : 0 < w <= 128) (Hw' : 128 <= w') (Hn : 1 < n) (Vn : sval w n)
  (H3 : n * n * n <= ty_max w' false + 1) (Hf : (Z.to_nat (n + n * n) <= fuel)%nat).
Let t := mkity w true false.
Let t' := mkity w' false false.
Let cn (z : Z) := 0 <= z < n.
Lemma sg_f2 : (2 <= fuel)%nat. Proof. nia. Qed.
Lemma sg_n : in_ty t n.
Proof. exact (proj1 (val_in_ty w true false n) Vn). Qed.
Lemma big z : 0 <= z -> in_tyb i128 z = true -> in_tyb t' z = true.
Proof.
  rewrite !in_tyb_spec. unfold in_ty, t', imin, imax. cbn [sgn bits i128].
  pose proof (Z.pow_le_mono_r 2 128 w' ltac:(lia) Hw'). intros H0 [_ H1]. split; [lia|].
  assert (2 ^ (128 - 1) <= 2 ^ 128) by (apply Z.pow_le_mono_r; lia). lia.
Qed.
Lemma n_t' : in_ty t' n.
Proof. unfold in_ty, t', imin, imax. cbn [sgn bits]. cbn [ty_max] in H3. nia. Qed.
Lemma rem_t' z : 0 <= z -> in_tyb t' z = true -> op_rem t' z n = Ok (z mod n).
Proof.
  intros H I. unfold op_rem. destruct (Z.eqb_spec n 0); [lia|].
  assert (E : in_tyb t' (z ÷ n) = true).
  { apply in_tyb_spec. apply in_tyb_spec in I. unfold in_ty, t', imin, imax in *. cbn [sgn bits] in *.
    rewrite Z.quot_div_nonneg by lia. pose proof (Z.div_pos z n H ltac:(lia)). pose proof (Z.div_le_upper_bound z n z ltac:(lia) ltac:(nia)). lia. }
  rewrite E. now rewrite Z.rem_mod_nonneg by lia.
Qed.
Lemma s_add_mod a b : 0 <= a -> 0 <= b -> refP cn (add_mod fuel t a b n) (add_mod fuel t' a b n).
Proof.
  intros Ha Hb v E. destruct (signed_mods fuel t a b n) as (A & _); [exact Hw|reflexivity|exact sg_n|lia|exact sg_f2|].
  rewrite A in E. destruct (in_tyb i128 (a + b)) eqn:I; [|discriminate E]. injection E as <-. apply big in I; [|lia].
  split; [|apply Z.mod_pos_bound; lia]. unfold add_mod, t'. cbn [sgn]. change (pub (mkity w' false false)) with t'.
  unfold op_add. cbn [sec t']. unfold chk. rewrite I. cbn [bind]. apply rem_t'; [lia|exact I].
Qed.
Lemma s_mul_mod a b : 0 <= a -> 0 <= b -> refP cn (mul_mod fuel t a b n) (mul_mod fuel t' a b n).
Proof.
  intros Ha Hb v E. destruct (signed_mods fuel t a b n) as (_ & _ & A & _); [exact Hw|reflexivity|exact sg_n|lia|exact sg_f2|].
  rewrite A in E. destruct (in_tyb i128 (a * b)) eqn:I; [|discriminate E]. injection E as <-. apply big in I; [|nia].
  split; [|apply Z.mod_pos_bound; lia]. unfold mul_mod, t'. cbn [sgn]. change (pub (mkity w' false false)) with t'.
  unfold op_mul. cbn [sec t']. unfold chk. rewrite I. cbn [bind]. apply rem_t'; [nia|exact I].
Qed.
Lemma s_sub_mod a b : cn a -> cn b -> refP cn (sub_mod fuel t a b n) (sub_mod fuel t' a b n).
Proof.
  intros Ha Hb v E. destruct (signed_mods fuel t a b n) as (_ & A & _); [exact Hw|reflexivity|exact sg_n|lia|exact sg_f2|].
  rewrite A in E. destruct (in_tyb i128 (a - b)) eqn:I; [|discriminate E]. injection E as <-.
  split; [|apply Z.mod_pos_bound; lia]. apply sub_mod_canon'; trivial; unfold wlim; cbn [sgn bits t']; try lia.
  - change (imax t') with (ty_max w' false). nia.
  - change (imax t') with (ty_max w' false). nia.
Qed.
Lemma s_mul a b : 0 <= a -> 0 <= b -> refP (fun z => 0 <= z) (op_mul t a b) (op_mul t' a b).
Proof.
  intros Ha Hb v E. unfold op_mul in *. cbn [sec t t'] in *. apply chk_inv in E as [-> I]. split; [|nia].
  apply chk_Ok. apply in_tyb_spec, big; [nia|]. apply in_tyb_spec. apply (signed_in_i128 t); [exact Hw|reflexivity|exact I].
Qed.
Lemma s_inv c : cn c -> refP cn (num_inv fuel t c n) (num_inv fuel t' c n).
Proof.
  intros Hc v E. destruct (Z.eq_dec c 0) as [->|].
  - unfold num_inv, extended_euclid_invert in *. pose proof sg_f2. destruct fuel as [|f]; [lia|].
    cbn [while_ ee_new_r num_equal Z.eqb negb bind] in *. rewrite andb_false_r in *. injection E as <-. split; [reflexivity|]. cbn. unfold cn. lia.
  - assert (P : 0 < c) by (unfold cn in Hc; lia).
    destruct (C65_public_never_wrong w true fuel c n false v Hn P E) as (G & Rv & Mv). split; [|exact Rv].
    destruct (inv_Ok fuel t' c n) as (ci & Ei & Ri & Di); trivial; try (cbn; lia).
    { change (imax t') with (ty_max w' false). nia. }
    rewrite Ei. f_equal.
    assert (D : (n | ci - v)).
    { apply (Gauss n c); [|apply Zgcd_1_rel_prime; now rewrite Z.gcd_comm].
      assert (Dv : (n | c * v - 1)) by (exists (c * v / n); pose proof (Z.div_mod (c * v) n); lia).
      replace (c * (ci - v)) with (c * ci - 1 - (c * v - 1)) by lia. now apply Z.divide_sub_r. }
    destruct D as [e De]. unfold cn in *. assert (e = 0) by nia. subst e. lia.
Qed.

(** Lists *)
Lemma Zn_NN l : Zn n l -> NN l. Proof. intros H c Hc. specialize (H c Hc). lia. Qed.
Lemma Zn_repeat k : Zn n (repeat 0 k). Proof. intros c Hc. apply repeat_spec in Hc. lia. Qed.
Lemma NN_pad l k : NN l -> NN (pad l k).
Proof. intros H c Hc. apply in_app_or in Hc as [Hc|Hc]; [auto|]. apply repeat_spec in Hc. lia. Qed.
Lemma Zn_pad l k : Zn n l -> Zn n (pad l k).
Proof. intros H c Hc. apply in_app_or in Hc as [Hc|Hc]; [auto|]. apply repeat_spec in Hc. lia. Qed.
Lemma Zn_mfl l k : Zn n l -> Zn n (make_fixed_length l k).
Proof. intros H. apply canon_Zn, canon_mfl; [lia|]. apply Zn_canon; [lia|exact H]. Qed.
Lemma Zn_idx l i : Zn n l -> refP cn (idx l i) (idx l i).
Proof. intros H. apply refP_same. intros v E. unfold idx in E. destruct (nth_error l i) eqn:N; [|discriminate E]. injection E as <-. apply H. now apply nth_error_In in N. Qed.
Lemma Zn_upd l i v : Zn n l -> cn v -> refP (Zn n) (upd l i v) (upd l i v).
Proof.
  intros H Hv. apply refP_same. intros r E. unfold upd in E. destruct (i <? length l)%nat eqn:L; [|discriminate E]. injection E as <-.
  apply canon_Zn. intros k. apply Nat.ltb_lt in L. rewrite coef_set_nth by exact L. destruct (k =? i)%nat; [exact Hv|].
  apply Zn_canon; [lia|exact H].
Qed.
Lemma NN_monomial c d : 0 <= c -> refP NN (monomial c d) (monomial c d).
Proof.
  intros H. apply refP_same. intros v E. destruct (monomial_Ok c d) as (s & Es & _ & C). rewrite Es in E. injection E as <-.
  intros z Hz. apply (In_nth s z 0) in Hz as (k & _ & <-). change (0 <= coef s k). rewrite C. destruct (k =? d)%nat; lia.
Qed.
Lemma Zn_monomial c d : cn c -> refP (Zn n) (monomial c d) (monomial c d).
Proof.
  intros H. apply refP_same. intros v E. destruct (monomial_Ok c d) as (s & Es & _ & C). rewrite Es in E. injection E as <-.
  intros z Hz. apply (In_nth s z 0) in Hz as (k & _ & <-). change (0 <= coef s k < n). rewrite C. destruct (k =? d)%nat; [exact H|lia].
Qed.
Lemma refP_any {A} (x : res A) : refP (fun _ => True) x x. Proof. now apply refP_same. Qed.
Lemma s_zipM (f g : Z -> Z -> res Z) (P : Z -> Prop) : (forall a b, P a -> P b -> refP cn (f a b) (g a b)) -> forall l m,
  (forall c, In c l -> P c) -> (forall c, In c m -> P c) -> refP (Zn n) (zipM f l m) (zipM g l m).
Proof.
  intros H. induction l as [|a l IH]; intros m Hl Hm; cbn [zipM]; [apply refP_Ok; intros c []|].
  destruct m as [|b m]; [apply refP_Ok; intros c []|].
  apply (refP_bind cn); [apply H; [apply Hl|apply Hm]; now left|]. intros c Hc.
  apply (refP_bind (Zn n)); [apply IH; intros; [apply Hl|apply Hm]; now right|]. intros cs Hcs. apply refP_Ok.
  intros z [<-|Hz]; [exact Hc|auto].
Qed.
Lemma n0 : num_equal n 0 = false. Proof. unfold num_equal. apply Z.eqb_neq. lia. Qed.
Lemma s_poly_add x y : NN x -> NN y -> refP (Zn n) (poly_add fuel t x y n) (poly_add fuel t' x y n).
Proof.
  intros Hx Hy. unfold poly_add, poly_zip, normalize. apply (refP_bind (fun _ => True)); [apply refP_any|]. intros _ _.
  apply (s_zipM _ _ (fun z => 0 <= z)); [|now apply NN_pad|now apply NN_pad]. intros a b Ha Hb. rewrite n0. now apply s_add_mod.
Qed.
Lemma s_poly_sub x y : Zn n x -> Zn n y -> refP (Zn n) (poly_sub fuel t x y n) (poly_sub fuel t' x y n).
Proof.
  intros Hx Hy. unfold poly_sub, poly_zip, normalize. apply (refP_bind (fun _ => True)); [apply refP_any|]. intros _ _.
  apply (s_zipM _ _ cn); [|now apply Zn_pad|now apply Zn_pad]. intros a b Ha Hb. rewrite n0. now apply s_sub_mod.
Qed.
Lemma terms_NN x : NN x -> forall a, In a (nonzero_terms x) -> 0 <= snd a.
Proof.
  intros H [i a] Ha. unfold nonzero_terms in Ha. apply filter_In in Ha as [Ha _]. apply in_combine_r in Ha. now apply H.
Qed.
Lemma s_poly_mul x y : NN x -> NN y -> refP (Zn n) (poly_mul fuel t x y n) (poly_mul fuel t' x y n).
Proof.
  intros Hx Hy. unfold poly_mul. apply (refP_for_each (Zn n) (fun a => 0 <= snd a)); [|now apply terms_NN|apply Zn_repeat].
  intros [i a] o Ha Ho. cbn [snd] in Ha. apply (refP_for_each (Zn n) (fun a => 0 <= snd a)); [|now apply terms_NN|exact Ho].
  intros [j b] o' Hb Ho'. cbn [snd] in Hb. apply (refP_bind cn); [now apply Zn_idx|]. intros v Hv.
  apply (refP_bind cn); [now apply s_mul_mod|]. intros p Hp. unfold cn in Hv, Hp. apply (refP_bind cn); [apply s_add_mod; lia|]. intros s Hs.
  now apply Zn_upd.
Qed.
Ltac any := apply (refP_bind (fun _ => True)); [apply refP_any|]; intros ? _.
Ltac smul := apply (refP_bind (Zn n)); [apply s_poly_mul; auto using Zn_NN|]; intros ? ?.
Ltac ssub := apply (refP_bind (Zn n)); [apply s_poly_sub; auto|]; intros ? ?.
Lemma s_poly_div_step y c dist rlen i s : Zn n y -> cn c -> Zn n (fst s) /\ Zn n (snd s) ->
  refP (fun s => Zn n (fst s) /\ Zn n (snd s)) (poly_div_step fuel t y n c dist rlen i s) (poly_div_step fuel t' y n c dist rlen i s).
Proof.
  intros Hy Hc. destruct s as [quo rem]. cbn [fst snd]. intros [Hq Hr]. unfold poly_div_step. rewrite !n0. any. any.
  apply (refP_bind cn); [now apply Zn_idx|]. intros ri Hri.
  apply (refP_bind (fun z => 0 <= z)).
  { apply (refP_bind cn); [now apply s_inv|]. intros ci Hci. unfold cn in Hri, Hci. apply s_mul; lia. }
  intros q Hq0. any. any. any. apply (refP_bind NN); [now apply NN_monomial|]. intros s Hs. smul.
  apply (refP_bind (Zn n)); [apply s_poly_add; auto using Zn_NN|]. intros ? ?. ssub. now apply refP_Ok.
Qed.
Lemma Zn_lead y yd c : Zn n y -> leading_coefficient y = (yd, c) -> cn c.
Proof.
  intros Hy E. apply leading_coefficient_spec in E. destruct E as [(_ & -> & _)|(_ & _ & <- & _)]; [unfold cn; lia|].
  apply (Zn_canon n y); [lia|exact Hy].
Qed.
Lemma s_poly_div x y : Zn n x -> Zn n y ->
  refP (fun s => Zn n (fst s) /\ Zn n (snd s)) (poly_div fuel t x y n) (poly_div fuel t' x y n).
Proof.
  intros Hx Hy. unfold poly_div. unfold normalize. destruct (leading_coefficient (pad y _)) as [yd c] eqn:E. cbv zeta. any.
  assert (Hc : cn c) by (apply (Zn_lead _ _ _ (Zn_pad _ _ Hy) E)).
  apply (refP_bind (fun s => Zn n (fst s) /\ Zn n (snd s))).
  { apply refP_for; [|cbn; split; [apply Zn_repeat|now apply Zn_pad]]. intros i s Hs. apply s_poly_div_step; auto. now apply Zn_pad. }
  intros [quo rem] [Hq Hr]. apply refP_Ok. cbn in *. split; [exact Hq|]. now apply Zn_mfl.
Qed.
Lemma s_quot_sub an ad bn bd : Zn n an -> Zn n bn ->
  refP (fun r => Zn n (fst r)) (quot_sub fuel t an ad bn bd n) (quot_sub fuel t' an ad bn bd n).
Proof.
  intros Ha Hb. unfold quot_sub. cbv zeta. apply (refP_bind (Zn n)); [apply Zn_monomial; unfold cn; lia|]. intros x Hx. any.
  apply (refP_bind (Zn n)); [apply refP_for; [|exact Ha]; intros; apply s_poly_mul; auto using Zn_NN|]. intros a' Ha'. any.
  apply (refP_bind (Zn n)); [apply refP_for; [|exact Hb]; intros; apply s_poly_mul; auto using Zn_NN|]. intros b' Hb'.
  ssub. now apply refP_Ok.
Qed.
Definition dst_Zn (s : dst) : Prop := Zn n (ds_f s) /\ Zn n (ds_g s) /\ Zn n (fst (ds_u s)) /\ Zn n (fst (ds_v s)) /\
  Zn n (fst (ds_q s)) /\ Zn n (fst (ds_r s)).
Lemma Zn_divx l : Zn n l -> refP (Zn n) (poly_divx l) (poly_divx l).
Proof.
  intros H. apply refP_same. intros v E. unfold poly_divx in E. destruct (usub (length l) 1) as [k|]; [|discriminate E].
  assert (E' : v = make_fixed_length (skipn 1 l) k) by (cbn [bind] in E; congruence). rewrite E'. apply Zn_mfl.
  intros z Hz. apply H. rewrite <- (firstn_skipn 1 l). apply in_or_app. now right.
Qed.
Lemma s_divstep nn l i s : dst_Zn s -> refP dst_Zn (divstep fuel t nn l n i s) (divstep fuel t' nn l n i s).
Proof.
  intros (Hf0 & Hg & Hu & Hv & Hq & Hr). unfold divstep. cbv zeta. any. any.
  match goal with |- context [if ?b then mkdst ?d1 ?f1 ?g1 ?u1 ?v1 ?q1 ?r1 else ?s2] =>
    assert (K : dst_Zn (if b then mkdst d1 f1 g1 u1 v1 q1 r1 else s2));
    [|set (st := if b then mkdst d1 f1 g1 u1 v1 q1 r1 else s2) in *] end.
  { match goal with |- dst_Zn (if ?b then _ else _) => destruct b end; unfold dst_Zn; cbn [ds_f ds_g ds_u ds_v ds_q ds_r fst]; auto 10 using Zn_mfl. }
  destruct K as (Kf & Kg & Ku & Kv & Kq & Kr).
  apply (refP_bind cn); [now apply Zn_idx|]. intros f0 Hf1. apply (refP_bind (Zn n)); [now apply Zn_monomial|]. intros f0' Hf2.
  apply (refP_bind cn); [now apply Zn_idx|]. intros g0 Hg1. apply (refP_bind (Zn n)); [now apply Zn_monomial|]. intros g0' Hg2.
  smul. smul. ssub.
  apply (refP_bind (Zn n)); [now apply Zn_divx|].
  intros ? ?. smul. smul. apply (refP_bind (fun r => Zn n (fst r))); [apply s_quot_sub; auto|]. intros ? ?.
  smul. smul. apply (refP_bind (fun r => Zn n (fst r))); [apply s_quot_sub; auto|]. intros ? ?.
  apply refP_Ok. unfold dst_Zn. cbn [ds_f ds_g ds_u ds_v ds_q ds_r fst]. auto 10.
Qed.
Lemma Zn_rev l : Zn n l -> Zn n (rev l). Proof. intros H c Hc. apply H. now apply in_rev. Qed.
Lemma s_extended_euclid x y : Zn n x -> Zn n y ->
  refP (fun o => match o with Some v => Zn n v | None => True end) (extended_euclid fuel t x y n) (extended_euclid fuel t' x y n).
Proof.
  intros Hx Hy. unfold extended_euclid. destruct (leading_coefficient y) as [yd c]. any. any. cbv zeta. any.
  apply (refP_bind (fun r => Zn n (snd (fst (fst r))) /\ Zn n (fst (snd r)))).
  { unfold divstepsx. any. apply (refP_bind dst_Zn).
    - apply refP_for; [intros; now apply s_divstep|]. unfold dst_Zn. cbn [ds_f ds_g ds_u ds_v ds_q ds_r fst].
      conjs; try (now apply Zn_rev, Zn_mfl); intros z [<-|[]]; lia.
    - intros s (A & _ & _ & B & _). now apply refP_Ok. }
  intros [[[delta f] g] v] [Hf0 Hv]. cbn [fst snd] in *. destruct (negb (delta =? 0)); [now apply refP_Ok|].
  apply (refP_bind cn); [now apply Zn_idx|]. intros f0 Hf1. apply (refP_bind cn); [now apply s_inv|]. intros fi Hfi. any. any.
  apply (refP_bind (Zn n)); [now apply Zn_monomial|]. intros tt Ht. smul. apply refP_Ok. now apply Zn_rev, Zn_mfl.
Qed.
Lemma s_polyt_add l m a b : p_n a = n -> Zn n (p_poly a) -> Zn n (p_poly b) ->
  refines (polyt_add fuel t l m a b) (polyt_add fuel t' l m a b).
Proof.
  intros E Ha Hb. unfold polyt_add. apply refines_bind; [apply refines_refl|]. intros _ _. rewrite E.
  apply refines_bind; [intros v Ev; apply s_poly_add in Ev; auto using Zn_NN; tauto|]. intros ? _. apply refines_refl.
Qed.
Lemma s_polyt_sub l m a b : p_n a = n -> Zn n (p_poly a) -> Zn n (p_poly b) ->
  refines (polyt_sub fuel t l m a b) (polyt_sub fuel t' l m a b).
Proof.
  intros E Ha Hb. unfold polyt_sub. apply refines_bind; [apply refines_refl|]. intros _ _. rewrite E.
  apply refines_bind; [intros v Ev; apply s_poly_sub in Ev; auto; tauto|]. intros ? _. apply refines_refl.
Qed.
Lemma s_polyt_mul l m a b : p_n a = n -> Zn n (p_irr a) -> Zn n (p_poly a) -> Zn n (p_poly b) ->
  refines (polyt_mul fuel t l m a b) (polyt_mul fuel t' l m a b).
Proof.
  intros E Hi Ha Hb. unfold polyt_mul. apply refines_bind; [apply refines_refl|]. intros _ _. rewrite E.
  intros v Ev. apply bind_Ok in Ev as (r & Er & Ev). apply s_poly_mul in Er as [Er Hr]; auto using Zn_NN. rewrite Er. cbn [bind].
  apply bind_Ok in Ev as (qr & Eq & Ev). apply s_poly_div in Eq as [Eq _]; auto. rewrite Eq. exact Ev.
Qed.
Lemma s_polyt_inv l m a : p_n a = n -> Zn n (p_irr a) -> Zn n (p_poly a) ->
  refines (polyt_inv fuel t l m a) (polyt_inv fuel t' l m a).
Proof.
  intros E Hi Ha. unfold polyt_inv. rewrite E.
  apply refines_bind; [intros v Ev; apply s_extended_euclid in Ev; auto; tauto|]. intros ? _. apply refines_refl.
Qed.
End Signed.

(** ** Products of arbitrary (also negative or unreduced) operands: whatever is returned is right *)
Section Sound.
Variables (fuel : nat) (t : ity) (n : Z).
Hypotheses (Hn : 0 < n)
  (Hadd : forall a b r, add_mod fuel t a b n = Ok r -> 0 <= r < n /\ (n | r - (a + b)))
  (Hmul : forall a b r, mul_mod fuel t a b n = Ok r -> (n | r - a * b)).
Lemma body_sound i a j b out out' : mul_body fuel t n i a (j, b) out = Ok out' -> canon n out ->
  length out' = length out /\ canon n out' /\ forall k, (n | coef out' k - (coef out k + if (k =? i + j)%nat then a * b else 0)).
Proof.
  intros E C. unfold mul_body in E. apply bind_Ok in E as (o & Eo & E). apply bind_Ok in E as (p & Ep & E).
  apply bind_Ok in E as (s & Es & E). unfold upd in E. destruct (Nat.ltb_spec (i + j) (length out)) as [L|]; [|discriminate E].
  injection E as <-. rewrite (idx_Ok out (i + j) 0) in Eo by exact L. injection Eo as <-. apply Hmul in Ep. apply Hadd in Es as [R Ds].
  split; [apply set_nth_length|]. split; intros k; rewrite coef_set_nth by exact L; destruct (Nat.eqb_spec k (i + j)) as [->|].
  - exact R.
  - apply C.
  - change (nth (i + j) out 0) with (coef out (i + j)) in Ds. pose proof (Z.divide_add_r _ _ _ Ds Ep) as D.
    match goal with |- (_ | ?e) => match type of D with (_ | ?e2) => replace e with e2 by lia end end. exact D.
  - replace (coef out k - (coef out k + 0)) with 0 by lia. apply Z.divide_0_r.
Qed.
Lemma inner_sound i a y : forall s out out', for_each (filt (combine (seq s (length y)) y)) (mul_body fuel t n i a) out = Ok out' ->
  canon n out -> length out' = length out /\ canon n out' /\
    forall k, (n | coef out' k - (coef out k + if (k <? i + s)%nat then 0 else a * coef y (k - (i + s)))).
Proof.
  induction y as [|b y IH]; intros s out out' E C.
  - cbn [length seq combine filt filter for_each] in E. injection E as <-. conjs; auto. intros k. rewrite coef_nil.
    match goal with |- (_ | ?e) => replace e with 0 by (destruct (_ <? _)%nat; lia) end. apply Z.divide_0_r.
  - cbn [length seq combine filt filter] in E. unfold num_equal at 1 in E.
    change (filter _ (combine (seq (S s) (length y)) y)) with (filt (combine (seq (S s) (length y)) y)) in E.
    destruct (Z.eqb_spec b 0) as [->|Hb]; cbn [negb] in E.
    + destruct (IH (S s) out out' E C) as (L' & C' & P). conjs; auto. intros k. specialize (P k).
      replace (if (k <? i + s)%nat then 0 else a * coef (0 :: y) (k - (i + s)))
        with (if (k <? i + S s)%nat then 0 else a * coef y (k - (i + S s))); [exact P|].
      destruct (Nat.ltb_spec k (i + s)), (Nat.ltb_spec k (i + S s)); try lia.
      * replace (k - (i + s))%nat with 0%nat by lia. cbn. lia.
      * replace (k - (i + s))%nat with (S (k - (i + S s))) by lia. reflexivity.
    + cbn [for_each] in E. apply bind_Ok in E as (out1 & E1 & E). destruct (body_sound _ _ _ _ _ _ E1 C) as (L1 & C1 & P1).
      destruct (IH (S s) out1 out' E C1) as (L' & C' & P). conjs; auto; [lia|]. intros k. specialize (P k). specialize (P1 k).
      match goal with |- (_ | ?e) => replace e with
        ((coef out' k - (coef out1 k + (if (k <? i + S s)%nat then 0 else a * coef y (k - (i + S s)))))
         + (coef out1 k - (coef out k + (if (k =? i + s)%nat then a * b else 0)))) end;
      [now apply Z.divide_add_r|].
      destruct (Nat.ltb_spec k (i + s)), (Nat.ltb_spec k (i + S s)), (Nat.eqb_spec k (i + s)); try lia.
      * replace (k - (i + s))%nat with 0%nat by lia. rewrite coef_cons_0. lia.
      * replace (k - (i + s))%nat with (S (k - (i + S s))) by lia. rewrite coef_cons_S. lia.
Qed.
Lemma outer_sound y x : forall s out out', for_each (filt (combine (seq s (length x)) x))
      (fun '(i, a) out => for_each (nonzero_terms y) (mul_body fuel t n i a) out) out = Ok out' -> canon n out ->
  length out' = length out /\ canon n out' /\
    forall k, (n | coef out' k - (coef out k + if (k <? s)%nat then 0 else coef (pmul x y) (k - s))).
Proof.
  induction x as [|a x IH]; intros s out out' E C.
  - cbn [length seq combine filt filter for_each] in E. injection E as <-. conjs; auto. intros k. rewrite coef_nil.
    match goal with |- (_ | ?e) => replace e with 0 by (destruct (_ <? _)%nat; lia) end. apply Z.divide_0_r.
  - cbn [length seq combine filt filter] in E. unfold num_equal at 1 in E.
    change (filter _ (combine (seq (S s) (length x)) x)) with (filt (combine (seq (S s) (length x)) x)) in E.
    assert (R : forall k, (if (k <? s)%nat then 0 else coef (pmul (a :: x) y) (k - s)) =
      (if (k <? s)%nat then 0 else a * coef y (k - s)) + (if (k <? S s)%nat then 0 else coef (pmul x y) (k - S s))).
    { intros k. rewrite coef_pmul_cons. destruct (Nat.ltb_spec k s), (Nat.ltb_spec k (S s)); try lia.
      - replace (k - s)%nat with 0%nat by lia. lia.
      - replace (k - s)%nat with (S (k - S s)) by lia. lia. }
    destruct (Z.eqb_spec a 0) as [->|Ha]; cbn [negb] in E.
    + destruct (IH (S s) out out' E C) as (L' & C' & P). conjs; auto. intros k. specialize (P k). rewrite R.
      match goal with |- (_ | ?e) => replace e with
        (coef out' k - (coef out k + (if (k <? S s)%nat then 0 else coef (pmul x y) (k - S s))))
        by (destruct (k <? s)%nat; lia) end. exact P.
    + cbn [for_each] in E. apply bind_Ok in E as (out1 & E1 & E).
      destruct (inner_sound s a y 0%nat out out1 E1 C) as (L1 & C1 & P1).
      destruct (IH (S s) out1 out' E C1) as (L' & C' & P). conjs; auto; [lia|]. intros k. specialize (P k). specialize (P1 k).
      rewrite R. rewrite Nat.add_0_r in P1.
      match goal with |- (_ | ?e) => replace e with
        ((coef out' k - (coef out1 k + (if (k <? S s)%nat then 0 else coef (pmul x y) (k - S s))))
         + (coef out1 k - (coef out k + (if (k <? s)%nat then 0 else a * coef y (k - s))))) by lia end.
      now apply Z.divide_add_r.
Qed.
Lemma poly_mul_sound x y r : poly_mul fuel t x y n = Ok r -> length r = (length x + length y)%nat /\
  forall k, residue n (conv_coeff x y k) (nth k r 0).
Proof.
  intros E. destruct (outer_sound y x 0%nat _ _ E) as (L & C & P); [now apply canon_repeat|].
  rewrite repeat_length in L. split; [exact L|]. intros k. split; [apply C|]. specialize (P k).
  rewrite coef_repeat, Z.add_0_l, Nat.sub_0_r, pmul_conv in P. exact P.
Qed.
Lemma op_scanning_sound x y r : poly_mul_op_scanning fuel t x y n = Ok r -> length r = (length x + length y)%nat /\
  forall k, residue n (conv_coeff x y k) (nth k r 0).
Proof.
  intros E. rewrite op_scanning_scan in E. set (acc := fun o a b : Z => _) in E.
  assert (HA : forall o a b o', acc o a b = Ok o' -> 0 <= o' < n /\ (n | o' - (o + a * b))).
  { intros o a b o' Ea. apply bind_Ok in Ea as (p & Ep & Ea). apply Hmul in Ep. apply Hadd in Ea as [R D]. split; [exact R|].
    pose proof (Z.divide_add_r _ _ _ D Ep) as D2. match goal with |- (_ | ?e) => match type of D2 with (_ | ?e2) => replace e with e2 by lia end end. exact D2. }
  assert (R : forall k, 0 <= coef r k < n) by (refine (scan_P acc (fun z => 0 <= z < n) x y r _ _ E); [lia|intros; now apply HA in H]).
  unfold scan in E.
  apply (for_range_sound (fun i out => length out = (length x + length y)%nat /\
      forall k, (n | coef out k - coef (pmul (firstn i x) y) k))) in E.
  - rewrite Nat.add_0_l, firstn_all in E. destruct E as [L E]. split; [exact L|].
    intros k. split; [apply R|]. specialize (E k). rewrite pmul_conv in E. exact E.
  - split; [apply repeat_length|]. intros k. cbn [firstn]. rewrite coef_repeat, coef_pmul_nil. apply Z.divide_0_r.
  - intros i out out1 Hi (L & C) E1.
    apply (for_range_sound (fun j out' => length out' = length out /\
        (forall k, (i + j <= k)%nat -> coef out' k = coef out k) /\
        forall k, (n | coef out' k - (coef out k + if (k <? i)%nat then 0 else if (k <? i + j)%nat then coef x i * coef y (k - i) else 0)))) in E1.
    + destruct E1 as (L1 & _ & C1). split; [lia|]. intros k. specialize (C k). specialize (C1 k).
      rewrite firstn_snoc, pmul_snoc, firstn_length_le by lia. pose proof (Z.divide_add_r _ _ _ C C1) as D.
      match goal with |- (_ | ?e) => match type of D with (_ | ?e2) => replace e with e2 end end; [exact D|].
      destruct (Nat.ltb_spec k i); [lia|]. destruct (Nat.ltb_spec k (i + (0 + length y))); [lia|].
      rewrite (coef_overflow y) by lia. lia.
    + conjs; auto. intros k. match goal with |- (_ | ?e) => replace e with 0 end; [apply Z.divide_0_r|].
      destruct (Nat.ltb_spec k i), (Nat.ltb_spec k (i + 0)); lia.
    + intros j o1 o2 Hj (L1 & U1 & C1) E2.
      rewrite (idx_Ok o1 _ 0), (idx_Ok x i 0), (idx_Ok y j 0) in E2 by lia. cbn [bind] in E2.
      apply bind_Ok in E2 as (v & Ev & E2). apply HA in Ev as [_ Dv]. rewrite upd_Ok in E2 by lia. injection E2 as <-.
      change (nth (i + j) o1 0) with (coef o1 (i + j)) in Dv. change (nth i x 0) with (coef x i) in Dv. change (nth j y 0) with (coef y j) in Dv.
      split; [rewrite set_nth_length; lia|].
      split; [intros k Hk; rewrite coef_set_nth by lia; destruct (Nat.eqb_spec k (i + j)); [lia|apply U1; lia]|].
      intros k. rewrite coef_set_nth by lia. specialize (C1 k). destruct (Nat.eqb_spec k (i + j)) as [->|].
      * rewrite U1 in Dv by lia.
        destruct (Nat.ltb_spec (i + j) i), (Nat.ltb_spec (i + j) (i + S j)); try lia.
        replace (i + j - i)%nat with j by lia. exact Dv.
      * match goal with |- (_ | ?e) => match type of C1 with (_ | ?e2) => replace e with e2 end end; [exact C1|].
        destruct (Nat.ltb_spec k i), (Nat.ltb_spec k (i + j)), (Nat.ltb_spec k (i + S j)); lia.
Qed.
End Sound.

(** ** C98, signed *)
Lemma cube w n : 0 < w <= 128 -> 1 < n -> sval w n -> n * n * n <= ty_max 384 false + 1.
Proof.
  intros Hw Hn Vn. cbn [ty_max]. change (2 ^ 384) with (2 ^ 128 * 2 ^ 128 * 2 ^ 128).
  assert (n <= 2 ^ 128). { destruct Vn as [_ V]. pose proof (Z.pow_le_mono_r 2 (w - 1) 128 ltac:(lia) ltac:(lia)). lia. }
  set (B := 2 ^ 128) in *. clearbody B. assert (n * n <= B * B) by (apply Z.mul_le_mono_nonneg; lia).
  assert (n * n * n <= B * B * B) by (apply Z.mul_le_mono_nonneg; nia). lia.
Qed.
Lemma ok384 : width_ok 384 false. Proof. unfold width_ok. lia. Qed.
Lemma zip_sound (op : Z -> Z -> res Z) (f : Z -> Z -> Z) n x y r : 0 < n -> f 0 0 = 0 ->
  (forall a b v, op a b = Ok v -> residue n (f a b) v) -> poly_zip op x y = Ok r ->
  length r = Nat.max (length x) (length y) /\ forall k, residue n (f (nth k x 0) (nth k y 0)) (nth k r 0).
Proof.
  intros Hn F0 H E. unfold poly_zip, normalize in E. set (L := Nat.max (length x) (length y)) in *.
  assert (Lx : length (pad x L) = L) by (rewrite pad_length; lia). assert (Ly : length (pad y L) = L) by (rewrite pad_length; lia).
  apply bind_Ok in E as (? & _ & E).
  assert (G : forall l m r, length l = length m -> zipM op l m = Ok r -> length r = length l /\
    forall k, (k < length l)%nat -> residue n (f (coef l k) (coef m k)) (coef r k)).
  { clear - H. induction l as [|a l IH]; intros [|b m] r L E; cbn [length] in L; try discriminate L; cbn [zipM] in E.
    - injection E as <-. split; [reflexivity|]. cbn. intros k K. lia.
    - apply bind_Ok in E as (c & Ec & E). apply bind_Ok in E as (cs & Ecs & E). injection E as <-.
      destruct (IH m cs) as [L1 R]; [lia|exact Ecs|]. cbn [length]. split; [lia|]. intros [|k] K; [exact (H a b c Ec)|]. rewrite !coef_cons_S. apply R. lia. }
  destruct (G _ _ _ (eq_trans Lx (eq_sym Ly)) E) as [Lr R]. rewrite Lx in *. split; [exact Lr|]. intros k.
  destruct (Nat.lt_ge_cases k L) as [K|K].
  - specialize (R k K). rewrite !coef_pad in R. exact R.
  - rewrite !nth_overflow by (unfold L in K; lia). rewrite F0. split; [lia|]. apply Z.divide_0_r.
Qed.
(** Sums and differences modulo n, of any operands. *)
Theorem C98_signed_add_sub : forall w fuel x y n r, rust_width w -> 0 < n -> sval w n ->
  (poly_add fuel (mkity w true false) x y n = Ok r -> length r = Nat.max (length x) (length y) /\
     forall k, residue n (nth k x 0 + nth k y 0) (nth k r 0)) /\
  (poly_sub fuel (mkity w true false) x y n = Ok r -> length r = Nat.max (length x) (length y) /\
     forall k, residue n (nth k x 0 - nth k y 0) (nth k r 0)).
Proof.
  intros w fuel x y n r Rw Hn Vn. pose proof (width_bound w Rw) as Hw.
  set (fuel' := Nat.max fuel 2). assert (Hf : (2 <= fuel')%nat) by (unfold fuel'; lia).
  pose proof (more_fuel fuel fuel' (mkity w true false) ltac:(unfold fuel'; lia)) as MF. set (t := mkity w true false) in *.
  assert (In : in_ty t n) by exact (proj1 (val_in_ty w true false n) Vn).
  assert (E0 : num_equal n 0 = false) by (unfold num_equal; apply Z.eqb_neq; lia).
  split; intros E; [apply (r_poly_add _ _ _ _ MF) in E|apply (r_poly_sub _ _ _ _ MF) in E].
  - refine (zip_sound _ Z.add n x y r Hn eq_refl _ E). cbn beta. rewrite E0. intros a b v Ea.
    destruct (signed_mods fuel' t a b n) as (S & _); trivial. rewrite S in Ea.
    destruct (in_tyb i128 (a + b)); [|discriminate Ea]. injection Ea as <-. split; [apply Z.mod_pos_bound; lia|now apply mod_divide].
  - refine (zip_sound _ Z.sub n x y r Hn eq_refl _ E). cbn beta. rewrite E0. intros a b v Ea.
    destruct (signed_mods fuel' t a b n) as (_ & S & _); trivial. rewrite S in Ea.
    destruct (in_tyb i128 (a - b)); [|discriminate Ea]. injection Ea as <-. split; [apply Z.mod_pos_bound; lia|now apply mod_divide].
Qed.
(** Products modulo n, of any operands. *)
Theorem C98_signed_mul : forall w fuel x y n r, rust_width w -> 0 < n -> sval w n ->
  poly_mul fuel (mkity w true false) x y n = Ok r \/ poly_mul_op_scanning fuel (mkity w true false) x y n = Ok r ->
  length r = (length x + length y)%nat /\ forall k, residue n (conv_coeff x y k) (nth k r 0).
Proof.
  intros w fuel x y n r Rw Hn Vn E. pose proof (width_bound w Rw) as Hw.
  set (fuel' := Nat.max fuel 2). assert (Hf : (2 <= fuel')%nat) by (unfold fuel'; lia).
  pose proof (more_fuel fuel fuel' (mkity w true false) ltac:(unfold fuel'; lia)) as MF. set (t := mkity w true false) in *.
  assert (In : in_ty t n) by exact (proj1 (val_in_ty w true false n) Vn).
  assert (A : forall a b r, add_mod fuel' t a b n = Ok r -> 0 <= r < n /\ (n | r - (a + b))).
  { intros a b r0 Ea. destruct (signed_mods fuel' t a b n) as (S & _); trivial. rewrite S in Ea.
    destruct (in_tyb i128 (a + b)); [|discriminate Ea]. injection Ea as <-. split; [apply Z.mod_pos_bound; lia|now apply mod_divide]. }
  assert (M : forall a b r, mul_mod fuel' t a b n = Ok r -> (n | r - a * b)).
  { intros a b r0 Ea. destruct (signed_mods fuel' t a b n) as (_ & _ & S & _); trivial. rewrite S in Ea.
    destruct (in_tyb i128 (a * b)); [|discriminate Ea]. injection Ea as <-. now apply mod_divide. }
  destruct E as [E|E].
  - apply (r_poly_mul _ _ _ _ MF) in E. exact (poly_mul_sound fuel' t n Hn A M x y r E).
  - apply (r_poly_mul_op_scanning _ _ _ _ MF) in E. exact (op_scanning_sound fuel' t n Hn A M x y r E).
Qed.
(** Below 128 bits sums, differences and products never panic: i128 holds every intermediate value. *)
Theorem C98_signed_total : forall w fuel x y n, rust_width w -> w < 128 -> 0 < n -> sval w n -> (2 <= fuel)%nat ->
  (forall a, In a x -> sval w a) -> (forall b, In b y -> sval w b) ->
  let t := mkity w true false in
  is_ok (poly_add fuel t x y n) /\ is_ok (poly_sub fuel t x y n) /\ is_ok (poly_mul fuel t x y n) /\ is_ok (poly_mul_op_scanning fuel t x y n).
Proof.
  intros w fuel x y n Rw W Hn Vn Hf Vx Vy t. pose proof (width_bound w Rw) as Hw.
  assert (In : in_ty t n) by exact (proj1 (val_in_ty w true false n) Vn).
  assert (E0 : num_equal n 0 = false) by (unfold num_equal; apply Z.eqb_neq; lia).
  assert (W64 : w <= 64). { destruct Rw as [<-|[<-|[<-|[<-|[<-|[]]]]]]; lia. }
  assert (S : forall a b, - 2 ^ 63 <= a <= 2 ^ 63 -> - 2 ^ 63 <= b <= 2 ^ 63 ->
    add_mod fuel t a b n = Ok ((a + b) mod n) /\ sub_mod fuel t a b n = Ok ((a - b) mod n) /\ mul_mod fuel t a b n = Ok ((a * b) mod n)).
  { intros a b Ha Hb. destruct (signed_mods fuel t a b n) as (A & B & C & _); trivial. rewrite A, B, C.
    assert (I : forall z, - 2 ^ 126 <= z <= 2 ^ 126 -> in_tyb i128 z = true).
    { intros z Hz. apply in_tyb_spec. unfold in_ty, imin, imax. cbn [sgn bits i128]. lia. }
    rewrite !I; [auto|..]; try lia. change (2 ^ 126) with (2 ^ 63 * 2 ^ 63). set (B63 := 2 ^ 63) in *. clearbody B63.
    assert (Z.abs (a * b) <= B63 * B63) by (rewrite Z.abs_mul; apply Z.mul_le_mono_nonneg; lia). lia. }
  assert (B : forall z, sval w z -> - 2 ^ 63 <= z <= 2 ^ 63).
  { intros z Vz. unfold sval in Vz. pose proof (Z.pow_le_mono_r 2 (w - 1) 63 ltac:(lia) ltac:(lia)). lia. }
  assert (Bx : forall k, - 2 ^ 63 <= coef x k <= 2 ^ 63).
  { intros k. unfold coef. destruct (Nat.lt_ge_cases k (length x)); [apply B, Vx, nth_In; lia|rewrite nth_overflow by lia; lia]. }
  assert (By : forall k, - 2 ^ 63 <= coef y k <= 2 ^ 63).
  { intros k. unfold coef. destruct (Nat.lt_ge_cases k (length y)); [apply B, Vy, nth_In; lia|rewrite nth_overflow by lia; lia]. }
  pose proof (B n Vn) as Bn.
  assert (SA : forall a b, 0 <= a < n -> 0 <= b < n -> add_mod fuel t a b n = Ok ((a + b) mod n)) by (intros; apply S; lia).
  assert (SM : forall a b, List.In a x -> List.In b y -> mul_mod fuel t a b n = Ok ((a * b) mod n)) by (intros; apply S; auto).
  conjs.
  - destruct (poly_zip_coef (fun b c => if num_equal n 0 then op_add t b c else add_mod fuel t b c n) (fun a b => (a + b) mod n) x y)
      as (r & E & _); [|now exists r]. intros k _. rewrite E0. now apply S.
  - destruct (poly_zip_coef (fun b c => if num_equal n 0 then op_sub t b c else sub_mod fuel t b c n) (fun a b => (a - b) mod n) x y)
      as (r & E & _); [|now exists r]. intros k _. rewrite E0. now apply S.
  - destruct (poly_mul_gen fuel t n Hn SA x y SM) as (r & E & _). now exists r.
  - destruct (poly_mul_op_scanning_gen fuel t n x y Hn SA SM) as (r & E & _). now exists r.
Qed.
Theorem C98_signed_division : forall w fuel x y n d q r, rust_width w -> 1 < n -> sval w n -> Zn n x -> Zn n y ->
  is_degree y d -> poly_div fuel (mkity w true false) x y n = Ok (q, r) ->
  Z.gcd (nth d y 0) n = 1 /\ Zn n q /\ Zn n r /\ length r = d /\ div_identity n x y q r /\
  forall q' r', Zn n q' -> Zn n r' -> (length r' <= d)%nat -> div_identity n x y q' r' ->
    forall k, nth k q' 0 = nth k q 0 /\ nth k r' 0 = nth k r 0.
Proof.
  intros w fuel x y n d q r Rw Hn Vn Zx Zy Dy E. pose proof (div_unit w true fuel x y n d (q, r) Hn Zy Dy E) as G. pose proof (width_bound w Rw) as Hw. pose proof (cube w n ltac:(lia) Hn Vn) as H3.
  set (fuel' := Nat.max fuel (Z.to_nat (n + n * n))). assert (Hf : (Z.to_nat (n + n * n) <= fuel')%nat) by (unfold fuel'; lia).
  pose proof (more_fuel fuel fuel' (mkity w true false) ltac:(unfold fuel'; lia)) as MF.
  destruct (C33_division_identity_gen fuel' 384 false false x y n d) as (q1 & r1 & E1 & Zq & Zr & _ & Lr & ID & U); trivial; try apply ok384.
  apply (r_poly_div _ _ _ _ MF) in E. apply (s_poly_div w 384) in E as [E _]; auto; try lia.
  rewrite E1 in E. injection E as <- <-. conjs; auto.
Qed.
Theorem C98_signed_inverse : forall w fuel x y n d o, rust_width w -> prime n -> sval w n -> Zn n x -> Zn n y ->
  is_degree y d -> (length x <= d)%nat -> (0 < d)%nat -> extended_euclid fuel (mkity w true false) x y n = Ok o ->
  match o with
  | Some v => length v = d /\ Zn n v /\ is_inverse n y x v /\
      forall v', Zn n v' -> (length v' <= d)%nat -> is_inverse n y x v' -> forall k, nth k v' 0 = nth k v 0
  | None => forall v, ~ is_inverse n y x v
  end.
Proof.
  intros w fuel x y n d o Rw Hp Vn Zx Zy Dy Lx Hd E. pose proof (width_bound w Rw) as Hw. pose proof (prime_ge_2 n Hp) as Hn.
  pose proof (cube w n ltac:(lia) ltac:(lia) Vn) as H3.
  set (fuel' := Nat.max fuel (Z.to_nat (n + n * n))). assert (Hf : (Z.to_nat (n + n * n) <= fuel')%nat) by (unfold fuel'; lia).
  pose proof (more_fuel fuel fuel' (mkity w true false) ltac:(unfold fuel'; lia)) as MF.
  destruct (C34_extended_euclid_gen fuel' 384 false false x y n d) as (o' & E1 & S); trivial; try apply ok384; try nia.
  apply (r_extended_euclid _ _ _ _ MF) in E. apply (s_extended_euclid w 384) in E as [E _]; auto; try lia.
  rewrite E1 in E. injection E as <-. exact S.
Qed.
Theorem C98_signed_poly_type : forall w fuel l n m irr a b r, rust_width w -> prime n -> sval w n -> (0 < l)%nat ->
  fill_sparse (l + 1) m = Ok irr -> Zn n irr -> is_degree irr l -> poly_value l n irr a -> poly_value l n irr b ->
  let t := mkity w true false in
  let is z := poly_value l n irr r /\ represents n irr z (p_poly r) /\
    forall r', length r' = l -> Zn n r' -> represents n irr z r' -> r' = p_poly r in
  (polyt_add fuel t l m a b = Ok r -> is (fun k => nth k (p_poly a) 0 + nth k (p_poly b) 0)) /\
  (polyt_sub fuel t l m a b = Ok r -> is (fun k => nth k (p_poly a) 0 - nth k (p_poly b) 0)) /\
  (polyt_mul fuel t l m a b = Ok r -> is (conv_coeff (p_poly a) (p_poly b))) /\
  (polyt_inv fuel t l m a = Ok r -> poly_value l n irr r /\
     represents n irr (conv_coeff (p_poly a) (p_poly r)) (1 :: repeat 0 (l - 1))).
Proof.
  intros w fuel l n m irr a b r Rw Hp Vn Hl Hm Hz Hd Ha Hb t is. pose proof (width_bound w Rw) as Hw.
  pose proof (prime_ge_2 n Hp) as Hn. pose proof (cube w n ltac:(lia) ltac:(lia) Vn) as H3.
  set (fuel' := Nat.max fuel (Z.to_nat (n + n * n))). assert (Hf : (Z.to_nat (n + n * n) <= fuel')%nat) by (unfold fuel'; lia).
  pose proof (more_fuel fuel fuel' t ltac:(unfold fuel'; lia)) as MF.
  destruct (C33_poly_type_ring_gen fuel' 384 false false l n m irr a b ok384 Hp H3 Hf Hl Hm Hz Hd Ha Hb)
    as ((r1 & E1 & I1) & (r2 & E2 & I2) & (r3 & E3 & I3)).
  pose proof Ha as (A1 & A2 & A3 & A4). pose proof Hb as (B1 & B2 & B3 & B4).
  assert (Zi : Zn n (p_irr a)) by (rewrite A1; exact Hz).
  conjs; intros E.
  - apply (r_polyt_add _ _ _ _ MF) in E. apply (s_polyt_add w 384 fuel' n) in E; auto; try lia. rewrite E1 in E. injection E as <-. exact I1.
  - apply (r_polyt_sub _ _ _ _ MF) in E. apply (s_polyt_sub w 384 fuel' n) in E; auto; try lia. rewrite E2 in E. injection E as <-. exact I2.
  - apply (r_polyt_mul _ _ _ _ MF) in E. apply (s_polyt_mul w 384 fuel' n) in E; auto; try lia. rewrite E3 in E. injection E as <-. exact I3.
  - apply (r_polyt_inv _ _ _ _ MF) in E. apply (s_polyt_inv w 384 fuel' n) in E; auto; try lia.
    destruct (C34_poly_type_inverse_gen fuel' 384 false false l n m irr a ok384 Hp H3 Hf Hl Hm Hz Hd Ha)
      as [(v & Ev & Vv & r4 & E4 & O)|((p & Ep & _) & _)]; [|rewrite Ep in E; discriminate E].
    rewrite Ev in E. injection E as <-. split; [exact Vv|].
    destruct (C33_poly_type_ring_gen fuel' 384 false false l n m irr a v ok384 Hp H3 Hf Hl Hm Hz Hd Ha Vv)
      as (_ & _ & (r5 & E5 & I5)). rewrite E4 in E5. injection E5 as <-. rewrite <- O. exact (proj1 (proj2 I5)).
Qed.

(** *** Concrete cases *)
Example C98_signed_hypotheses : rust_width 8 /\ prime 3 /\ sval 8 3 /\ Zn 3 [1; 0; 2] /\ is_degree [2; 2; 0; 1] 3 /\
  fill_sparse 4 [(0%nat, 2); (1%nat, 2); (3%nat, 1)] = Ok [2; 2; 0; 1] /\
  poly_value 3 3 [2; 2; 0; 1] (mkpoly [2; 2; 0] [2; 2; 0; 1] 3).
Proof.
  conjs; try (cbn; lia); try reflexivity; try (unfold sval; lia).
  - apply prime_3.
  - intros c H. cbn in H. lia.
  - split; [discriminate|]. intros [|[|[|[|[|k]]]]] Hk; try lia; reflexivity.
  - unfold poly_value. cbn [p_irr p_n p_poly]. conjs; try reflexivity. intros c H. cbn in H. lia.
Qed.
(** The sum 200 does not fit in i8; the residue does. *)
Example C98_signed_add_case : poly_add 2 i8 [100; -7] [100] 120 = Ok [80; 113] /\ poly_sub 2 i8 [5] [100; 1] 120 = Ok [25; 119].
Proof. vm_compute. intuition reflexivity. Qed.
Example C98_signed_mul_case : poly_mul 2 i8 [-100; 3] [99] 120 = Ok [60; 57; 0] /\
  poly_mul 2 i128 [2 ^ 100] [2 ^ 100] 7 = Panic POverflow.
Proof. vm_compute. intuition reflexivity. Qed.
Example C98_signed_division_case : poly_div 99 i8 [5; 1; 2] [1; 3] 7 = Ok ([4; 3; 0], [1]) /\ poly_div 300 i8 [15] [18] 19 = Panic POverflow.
Proof. vm_compute. intuition reflexivity. Qed.
Example C98_signed_inverse_case : extended_euclid 100 i8 [2; 2; 0] [2; 2; 0; 1] 3 = Ok (Some [0; 1; 2]) /\
  extended_euclid 300 i8 [1; 1] [1; 0; 1] 113 = Ok (Some [57; 56]).
Proof. vm_compute. intuition reflexivity. Qed.

Print Assumptions C98_signed_add_sub.
Print Assumptions C98_signed_mul.
Print Assumptions C98_signed_total.
Print Assumptions C98_signed_division.
Print Assumptions C98_signed_inverse.
Print Assumptions C98_signed_poly_type.
