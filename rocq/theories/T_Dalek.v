(** C63: the radix 2^51 field multiplication of secret-integers/examples/dalek.rs. *)
From Coq Require Import ZArith List Bool Lia.
From Verif Require Import Base P_Base M_Int M_Dalek S_Dalek P_Dalek.
Import ListNotations.
Open Scope Z_scope.

(** The five limbs of a model value, as a list. *)
Definition limb_list (a : fe64) : list Z := [l0 a; l1 a; l2 a; l3 a; l4 a].

(** Limbs below 2^54: the call succeeds, the result represents the product modulo 2^255 - 19, and
    its limbs are below 2^52, so that it can be multiplied again. *)
Theorem C63_mul_correct a b : limbs (2 ^ 54) (limb_list a) -> limbs (2 ^ 54) (limb_list b) ->
  exists r, fe_mul a b = Ok r /\ limbs (2 ^ 52) (limb_list r) /\
    val51 (limb_list r) mod (2 ^ 255 - 19) = (val51 (limb_list a) * val51 (limb_list b)) mod (2 ^ 255 - 19).
Proof.
  intros [La Ha] [Lb Hb]. destruct (fe_mul_Ok a b Ha Hb) as (r & E & V & _ & _ & B).
  exists r. split; [exact E|]. change (limb_list r) with (fe_list r). rewrite V. split.
  - split; [reflexivity|exact B].
  - apply exact_mul_val; assumption.
Qed.
(** No intermediate value wraps: every quantity the code stores in a U64 or U128 is, computed
    without any word size, below 2^64 or 2^128, and the result is the exact one. *)
Theorem C63_no_wrap a b : limbs (2 ^ 54) (limb_list a) -> limbs (2 ^ 54) (limb_list b) ->
  Forall (fun v => 0 <= v < 2 ^ 64) (fits64 (limb_list a) (limb_list b)) /\
  Forall (fun v => 0 <= v < 2 ^ 128) (fits128 (limb_list a) (limb_list b)) /\
  exists r, fe_mul a b = Ok r /\ limb_list r = exact_mul (limb_list a) (limb_list b).
Proof.
  intros [La Ha] [Lb Hb]. destruct (fe_mul_Ok a b Ha Hb) as (r & E & V & F & G & _).
  split; [exact F|]. split; [exact G|]. exists r. auto.
Qed.
Lemma panic_step {A B} (x : res A) (f : A -> res B) a : x = Ok a -> panics (f a) -> panics (bind x f).
Proof. now intros ->. Qed.
Lemma mul64_any u : op_mul U64 u 19 = Ok (iwrap U64 (u * 19)).
Proof. reflexivity. Qed.
Lemma panic_dsum {B} x0 y0 x1 y1 x2 y2 x3 y3 x4 y4 (f : Z -> res B) : (forall z, panics (f z)) ->
  panics (bind (dsum x0 y0 x1 y1 x2 y2 x3 y3 x4 y4) f).
Proof.
  intros H. assert (E : exists z, dsum x0 y0 x1 y1 x2 y2 x3 y3 x4 y4 = Ok z) by (eexists; reflexivity).
  destruct E as [z E]. rewrite E. apply H.
Qed.
Lemma panic_small {B} u (f : unit -> res B) : (u < 2 ^ 54 -> panics (f tt)) -> panics (bind (small_limb u) f).
Proof.
  intros H. unfold small_limb, assert_, declassify. destruct (Z.ltb_spec u (2 ^ 54)) as [L|L].
  - now apply H.
  - eexists. reflexivity.
Qed.
(** Some limb of 2^54 or more: the debug assertions stop the call. *)
Theorem C63_panics_iff a b : limbs (2 ^ 64) (limb_list a) -> limbs (2 ^ 64) (limb_list b) ->
  (panics (fe_mul a b) <-> exists x, In x (limb_list a ++ limb_list b) /\ 2 ^ 54 <= x).
Proof.
  intros [La Ha] [Lb Hb]. split.
  - intros [p Hp]. destruct (existsb (fun x => 2 ^ 54 <=? x) (limb_list a ++ limb_list b)) eqn:E.
    + apply existsb_exists in E as (x & Hx & Hl). exists x. split; [exact Hx|]. now apply Z.leb_le.
    + assert (N : forall x, In x (limb_list a ++ limb_list b) -> x < 2 ^ 54).
      { intros x Hx. destruct (Z.lt_ge_cases x (2 ^ 54)) as [C|C]; [exact C|exfalso].
        assert (T : existsb (fun x => 2 ^ 54 <=? x) (limb_list a ++ limb_list b) = true)
          by (apply existsb_exists; exists x; split; [exact Hx|now apply Z.leb_le]).
        rewrite T in E. discriminate. }
      rewrite Forall_forall in Ha, Hb.
      assert (Ha' : Forall (fun x => 0 <= x < 2 ^ 54) (fe_list a)).
      { apply Forall_forall. intros x Hx. pose proof (Ha x Hx). 
        assert (x < 2 ^ 54) by (apply N, in_or_app; now left). lia. }
      assert (Hb' : Forall (fun x => 0 <= x < 2 ^ 54) (fe_list b)).
      { apply Forall_forall. intros x Hx. pose proof (Hb x Hx). 
        assert (x < 2 ^ 54) by (apply N, in_or_app; now right). lia. }
      destruct (fe_mul_Ok a b Ha' Hb') as (r & E' & _). rewrite E' in Hp. discriminate.
  - intros (x & Hx & Hl). unfold fe_mul.
    do 4 (eapply panic_step; [apply mul64_any|cbv beta]).
    do 5 (apply panic_dsum; intros ?).
    do 10 (apply panic_small; intros ?).
    exfalso. unfold limb_list in Hx. cbn [app In] in Hx. lia.
Qed.
(** A chain of multiplications: any non-empty product of factors with limbs below 2^54 is computed
    without a panic, whatever its length. *)
Theorem C63_chain a bs : limbs (2 ^ 54) (limb_list a) -> Forall (fun b => limbs (2 ^ 54) (limb_list b)) bs ->
  exists r, fold_left (fun acc b => let* x := acc in fe_mul x b) bs (Ok a) = Ok r /\ limbs (2 ^ 54) (limb_list r) /\
    val51 (limb_list r) mod (2 ^ 255 - 19)
    = (fold_left (fun v b => v * val51 (limb_list b)) bs (val51 (limb_list a))) mod (2 ^ 255 - 19).
Proof.
  intros Ha Hbs. 
  assert (G : forall v, val51 (limb_list a) mod (2 ^ 255 - 19) = v mod (2 ^ 255 - 19) ->
    exists r, fold_left (fun acc b => let* x := acc in fe_mul x b) bs (Ok a) = Ok r /\ limbs (2 ^ 54) (limb_list r) /\
    val51 (limb_list r) mod (2 ^ 255 - 19)
    = (fold_left (fun v b => v * val51 (limb_list b)) bs v) mod (2 ^ 255 - 19)); [|now apply G].
  revert a Ha. induction Hbs as [|b bs Hb Hbs IH]; intros a Ha v Hv; cbn [fold_left].
  - exists a. auto.
  - destruct (C63_mul_correct a b Ha Hb) as (r & E & [Lr Br] & V). cbn [bind]. rewrite E.
    apply IH.
    + split; [exact Lr|]. eapply Forall_impl; [|exact Br]. cbn beta. lia.
    + rewrite V. rewrite Z.mul_mod, Hv, <- Z.mul_mod by discriminate. reflexivity.
Qed.

(** Test: the largest allowed limbs, and one limb too large. *)
Definition max54 : fe64 := let m := 2 ^ 54 - 1 in mkfe m m m m m.
Example C63_case : limbs (2 ^ 54) (limb_list max54) /\
  (exists r, fe_mul max54 max54 = Ok r /\
    val51 (limb_list r) mod (2 ^ 255 - 19) = (val51 (limb_list max54) * val51 (limb_list max54)) mod (2 ^ 255 - 19)) /\
  panics (fe_mul (mkfe 1 2 3 4 (2 ^ 54)) max54).
Proof.
  split; [split; [reflexivity|repeat constructor; vm_compute; congruence]|].
  split; [eexists; split; [vm_compute; reflexivity|vm_compute; reflexivity]|].
  eexists. vm_compute. reflexivity.
Qed.
Print Assumptions C63_mul_correct.
Print Assumptions C63_no_wrap.
Print Assumptions C63_panics_iff.
Print Assumptions C63_chain.
