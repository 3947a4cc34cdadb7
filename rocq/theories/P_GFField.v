(** GF(2)[x]/(x^128 + x^7 + x^2 + x + 1) is a field.
    Squaring is additive; its 128-th iterate is the identity (checked on x, which generates the ring), and its only
    fixed points are 0 and 1 (a left inverse, modulo constants, of a -> a^2 + a is given below and checked on the
    basis).  For a <> 0 the product of the conjugates of a is fixed by squaring and not 0, hence 1. *)
From Coq Require Import ZArith List Bool Arith Lia Eqdep_dec Ring_theory Ring.
From Verif Require Import P_Base P_Word S_GF2 P_GF2 P_GF128.
Import ListNotations.
Open Scope Z_scope.

(** ** Additive maps are determined by the powers of two *)
Lemma additive_ext n (f g : Z -> Z) :
  (forall a b, 0 <= a < 2 ^ Z.of_nat n -> 0 <= b < 2 ^ Z.of_nat n -> f (Z.lxor a b) = Z.lxor (f a) (f b)) ->
  (forall a b, 0 <= a < 2 ^ Z.of_nat n -> 0 <= b < 2 ^ Z.of_nat n -> g (Z.lxor a b) = Z.lxor (g a) (g b)) ->
  (forall i, (i < n)%nat -> f (2 ^ Z.of_nat i) = g (2 ^ Z.of_nat i)) ->
  forall a, 0 <= a < 2 ^ Z.of_nat n -> f a = g a.
Proof.
  intros Hf Hg Hb.
  assert (Z0 : 0 <= 0 < 2 ^ Z.of_nat n) by (split; [lia|apply Z.pow_pos_nonneg; lia]).
  assert (F0 : f 0 = 0). { pose proof (Hf 0 0 Z0 Z0) as E. rewrite (Z.lxor_nilpotent 0), Z.lxor_nilpotent in E. exact E. }
  assert (G0 : g 0 = 0). { pose proof (Hg 0 0 Z0 Z0) as E. rewrite (Z.lxor_nilpotent 0), Z.lxor_nilpotent in E. exact E. }
  assert (H : forall k, (k <= n)%nat -> forall a, 0 <= a < 2 ^ Z.of_nat k -> f a = g a).
  { induction k as [|k IH]; intros Hk a Ha.
    - cbn in Ha. replace a with 0 by lia. congruence.
    - assert (Pk : 0 < 2 ^ Z.of_nat k) by (apply Z.pow_pos_nonneg; lia).
      assert (Mk : 2 ^ Z.of_nat (S k) <= 2 ^ Z.of_nat n) by (apply Z.pow_le_mono_r; lia).
      assert (Sk : 2 ^ Z.of_nat (S k) = 2 * 2 ^ Z.of_nat k) by (rewrite Nat2Z.inj_succ, Z.pow_succ_r by lia; reflexivity).
      destruct (Z.lt_ge_cases a (2 ^ Z.of_nat k)) as [C|C]; [apply IH; lia|].
      set (b := Z.lxor a (2 ^ Z.of_nat k)).
      assert (Hb' : 0 <= b < 2 ^ Z.of_nat k).
      { apply lxor_clear; replace (Z.of_nat k + 1) with (Z.of_nat (S k)) by lia; lia. }
      replace a with (Z.lxor b (2 ^ Z.of_nat k)) by (unfold b; rewrite Z.lxor_assoc, Z.lxor_nilpotent; apply Z.lxor_0_r).
      rewrite Hf, Hg by lia. rewrite (IH ltac:(lia) b Hb'), (Hb k) by lia. reflexivity. }
  intros a Ha. now apply (H n).
Qed.

(** the additive map with the given images of 1, 2, 4, ... *)
Fixpoint lin (cs : list Z) (i : Z) (x : Z) : Z :=
  match cs with [] => 0 | c :: cs => Z.lxor (if Z.testbit x i then c else 0) (lin cs (i + 1) x) end.
Lemma lin_lxor cs : forall i x y, lin cs i (Z.lxor x y) = Z.lxor (lin cs i x) (lin cs i y).
Proof.
  induction cs as [|c cs IH]; intros i x y; cbn [lin]; [reflexivity|].
  rewrite IH, Z.lxor_spec.
  set (u := lin cs (i + 1) x). set (v := lin cs (i + 1) y). clearbody u v.
  destruct (Z.testbit x i), (Z.testbit y i); cbn [xorb]; apply Z.bits_inj'; intros k _; rewrite !Z.lxor_spec, ?Z.bits_0;
    destruct (Z.testbit c k), (Z.testbit u k), (Z.testbit v k); reflexivity.
Qed.

(** ** The ring as a type *)
Definition in128 (x : Z) : bool := (0 <=? x) && (x <? 2 ^ 128).
Definition G : Type := { x : Z | in128 x = true }.
Definition gval (x : G) : Z := proj1_sig x.
Lemma in128_iff x : in128 x = true <-> 0 <= x < 2 ^ 128.
Proof. unfold in128. rewrite andb_true_iff, Z.leb_le, Z.ltb_lt. reflexivity. Qed.
Lemma gval_range x : 0 <= gval x < 2 ^ 128.
Proof. apply in128_iff. exact (proj2_sig x). Qed.
Lemma gval_inj (x y : G) : gval x = gval y -> x = y.
Proof. destruct x as [x Hx], y as [y Hy]. cbn. intros <-. f_equal. apply (UIP_dec bool_dec). Qed.
Lemma gmul_ok (x y : G) : in128 (gf_mul 128 P128 (gval x) (gval y)) = true.
Proof. apply in128_iff, gf_mul_range; first [lia | apply P128_range | apply gval_range]. Qed.
Lemma gadd_ok (x y : G) : in128 (Z.lxor (gval x) (gval y)) = true.
Proof. apply in128_iff, lxor_lt_pow2; apply gval_range. Qed.
Definition gadd (x y : G) : G := exist _ _ (gadd_ok x y).
Definition gmul (x y : G) : G := exist _ _ (gmul_ok x y).
Definition g0 : G := exist _ 0 eq_refl.
Definition g1 : G := exist _ 1 eq_refl.
Definition gid (x : G) : G := x.
Lemma gval_add x y : gval (gadd x y) = Z.lxor (gval x) (gval y). Proof. reflexivity. Qed.
Lemma gval_mul x y : gval (gmul x y) = gf_mul 128 P128 (gval x) (gval y). Proof. reflexivity. Qed.
Lemma g_ring : ring_theory g0 g1 gadd gmul gadd gid eq.
Proof.
  assert (H : 0 < 128) by lia. pose proof P128_range as HP.
  split; intros; apply gval_inj; rewrite ?gval_add, ?gval_mul, ?gval_add, ?gval_mul; try (change (gval g0) with 0); try (change (gval g1) with 1).
  - apply Z.lxor_0_l.
  - apply Z.lxor_comm.
  - now rewrite Z.lxor_assoc.
  - apply gf_mul_1_l; trivial. apply gval_range.
  - apply gf_mul_comm; trivial; apply gval_range.
  - apply gf_mul_assoc; trivial; apply gval_range.
  - apply gf_mul_lxor_l; trivial; apply gval_range.
  - reflexivity.
  - unfold gid. apply Z.lxor_nilpotent.
Qed.
Add Ring Gring : g_ring.
Lemma g_char2 x : gadd x x = g0.
Proof. apply gval_inj. rewrite gval_add. apply Z.lxor_nilpotent. Qed.

(** ** Squaring *)
Definition gsq (x : G) : G := gmul x x.
Lemma gsq_add x y : gsq (gadd x y) = gadd (gsq x) (gsq y).
Proof.
  unfold gsq. transitivity (gadd (gadd (gmul x x) (gmul y y)) (gadd (gmul x y) (gmul x y))); [ring|].
  rewrite g_char2. ring.
Qed.
Lemma gsq_mul x y : gsq (gmul x y) = gmul (gsq x) (gsq y).
Proof. unfold gsq. ring. Qed.
Fixpoint frob (n : nat) (x : G) : G := match n with O => x | S n => gsq (frob n x) end.
Lemma frob_S n x : frob (S n) x = gsq (frob n x). Proof. reflexivity. Qed.
Lemma frob_add n x y : frob n (gadd x y) = gadd (frob n x) (frob n y).
Proof. induction n as [|n IH]; [reflexivity|]. now rewrite !frob_S, IH, gsq_add. Qed.
Lemma frob_mul n x y : frob n (gmul x y) = gmul (frob n x) (frob n y).
Proof. induction n as [|n IH]; [reflexivity|]. now rewrite !frob_S, IH, gsq_mul. Qed.

(** the integers below 2^128 as elements *)
Definition gof (x : Z) : G := exist _ (x mod 2 ^ 128) (proj2 (in128_iff _) (Z.mod_pos_bound x (2 ^ 128) eq_refl)).
Lemma gval_of x : 0 <= x < 2 ^ 128 -> gval (gof x) = x.
Proof. intros H. unfold gof. cbn [gval proj1_sig]. now apply Z.mod_small. Qed.
Lemma gof_val x : gof (gval x) = x.
Proof. apply gval_inj, gval_of, gval_range. Qed.
Lemma gof_add a b : 0 <= a < 2 ^ 128 -> 0 <= b < 2 ^ 128 -> gof (Z.lxor a b) = gadd (gof a) (gof b).
Proof. intros Ha Hb. apply gval_inj. rewrite gval_add, !gval_of; trivial. now apply lxor_lt_pow2. Qed.
Lemma gof_mul a b : 0 <= a < 2 ^ 128 -> 0 <= b < 2 ^ 128 -> gof (gf_mul 128 P128 a b) = gmul (gof a) (gof b).
Proof. intros Ha Hb. apply gval_inj. rewrite gval_mul, !gval_of; trivial. apply gf_mul_range; trivial; [lia|apply P128_range]. Qed.

(** x generates: x * x^i = x^(i+1) below degree 128 *)
Lemma x_steps : forallb (fun i => gf_mul 128 P128 2 (2 ^ Z.of_nat i) =? 2 ^ Z.of_nat (S i)) (seq 0 127) = true.
Proof. vm_compute. reflexivity. Qed.
Definition sq128 (x : Z) : Z := gf_mul 128 P128 x x.
Fixpoint sqn (n : nat) (x : Z) : Z := match n with O => x | S n => sq128 (sqn n x) end.
Lemma x_frob : sqn 128 2 = 2.
Proof. vm_compute. reflexivity. Qed.
Lemma frob_gval n x : gval (frob n x) = sqn n (gval x).
Proof. induction n as [|n IH]; [reflexivity|]. rewrite frob_S. unfold gsq. rewrite gval_mul, IH. change (sqn (S n) (gval x)) with (sq128 (sqn n (gval x))). unfold sq128. reflexivity. Qed.
Lemma pow2_lt128 i : (i < 128)%nat -> 0 <= 2 ^ Z.of_nat i < 2 ^ 128.
Proof. intros H. split; [apply Z.pow_nonneg; lia|apply Z.pow_lt_mono_r; lia]. Qed.
Lemma frob_x : frob 128 (gof 2) = gof 2.
Proof.
  apply gval_inj. rewrite frob_gval. rewrite gval_of by (split; [lia|reflexivity]). exact x_frob.
Qed.
Lemma frob_one n : frob n g1 = g1.
Proof. induction n as [|n IH]; [reflexivity|]. rewrite frob_S, IH. unfold gsq. ring. Qed.
Lemma frob_basis i : (i < 128)%nat -> frob 128 (gof (2 ^ Z.of_nat i)) = gof (2 ^ Z.of_nat i).
Proof.
  induction i as [|i IH]; intros Hi.
  - change (gof (2 ^ Z.of_nat 0)) with (gof 1). replace (gof 1) with g1; [apply frob_one|].
    apply gval_inj. now rewrite gval_of by (split; [lia|reflexivity]).
  - pose proof x_steps as S. rewrite forallb_forall in S. specialize (S i ltac:(apply in_seq; lia)).
    apply Z.eqb_eq in S. rewrite <- S. rewrite gof_mul by (first [apply pow2_lt128; lia | split; [lia|reflexivity]]).
    rewrite frob_mul, frob_x, IH by lia. reflexivity.
Qed.
Lemma frob_id x : frob 128 x = x.
Proof.
  rewrite <- (gof_val x). apply gval_inj. pose proof (gval_range x) as R. set (a := gval x) in *. clearbody a.
  apply (additive_ext 128 (fun a => gval (frob 128 (gof a))) (fun a => gval (gof a))); [| | |exact R]; cbv beta.
  - intros u v Hu Hv. rewrite gof_add, frob_add by assumption. reflexivity.
  - intros u v Hu Hv. rewrite gof_add by assumption. reflexivity.
  - intros i Hi. now rewrite frob_basis.
Qed.

(** ** The fixed points of squaring *)
(** images of 1, x, x^2, ... under a linear map L with L(a^2 + a) = a without its constant term *)
Definition sq_cert : list Z := [
  0x295ac0b1f4731af9676aac9fa4b20b08; 0xe5da5595ee970b89929959af766af404; 0xe5da5595ee970b89929959af766af406;
  0x4e9826c74350bfe67783f7333404a20c; 0xe5da5595ee970b89929959af766af402; 0x2aaea79ad7da34b07dc714cb83074e6a;
  0x4e9826c74350bfe67783f7333404a204; 0xcc8095241ae41171f5f3f531d2d9fe18; 0xe5da5595ee970b89929959af766af412;
  0x4e983687d159ce9677cb862e8ac85b44; 0x2aaea79ad7da34b07dc714cb83074e4a; 0xaae2ab6aaf144aaff73fcb3c06aaff56;
  0x4e9826c74350bfe67783f7333404a244; 0xe62f327ccd5792dd893fe9ca40603f62; 0xcc8095241ae41171f5f3f531d2d9fe98;
  0xab52f0323f47c90be1336bc7d453b626; 0xe5da5595ee970b89929959af766af512; 0x2abe34bad75338b479a6a089abf4573a;
  0x4e983687d159ce9677cb862e8ac85944; 0x1e8ccb9dcc72f2e1a9cbef8232562fc; 0x2aaea79ad7da34b07dc714cb83074a4a;
  0x2442c3221f3dc1a0ce869b24a80e48c; 0xaae2ab6aaf144aaff73fcb3c06aaf756; 0xcf64612f39c4323deb3ff936dd9aa228;
  0x4e9826c74350bfe67783f7333404b244; 0xcc911696880d4909f0d5382a57572458; 0xe62f327ccd5792dd893fe9ca40601f62;
  0x4d7cd7cc29d28cf2697f6478e5db2834; 0xcc8095241ae41171f5f3f531d2d9be98; 0xccc99127569146a7fc0956ca1a5b86a4;
  0xab52f0323f47c90be1336bc7d4533626; 0x65cece94dacd5b1c14f5986b001eeb82; 0xe5da5595ee970b89929959af766bf512;
  0x2b0e7fa2d509ca746fe27169c7c3e73a; 0x2abe34bad75338b479a6a089abf6573a; 0x65df4d264824132411d3553885980142;
  0x4e983687d159ce9677cb862e8acc5944; 0xcf74f70e70ef2af7ef6fd21d2af671a4; 0x1e8ccb9dcc72f2e1a9cbef8232d62fc;
  0xcec4b9173b16cdf9f91a9d8499490f58; 0x2aaea79ad7da34b07dc714cb83174a4a; 0x83f16f99175f624799a6cf206b513bdc;
  0x2442c3221f3dc1a0ce869b24aa0e48c; 0x3f562a96a2aa9081b9e27ebe84671c0; 0xaae2ab6aaf144aaff73fcb3c06eaf756;
  0xccc9c07ae11bcce3fcd6d526cddeebd4; 0xcf64612f39c4323deb3ff936dd1aa228; 0xa95fc803c09556f7e461dfebe8467196;
  0x4e9826c74350bfe67783f7333504b244; 0x4cdc1ab0f0ab5b2e7b20ee03c15c7384; 0xcc911696880d4909f0d5382a55572458;
  0xaaba68961da11d79fb48c8c7fe68cf6a; 0xe62f327ccd5792dd893fe9ca44601f62; 0xe5db5416ee209847938b5c70638d3bee;
  0x4d7cd7cc29d28cf2697f6478eddb2834; 0x6437818b95e2e76e0b49fa26a7e512ce; 0xcc8095241ae41171f5f3f531c2d9be98;
  0x4cd9020746184ba27868a299022ddf34; 0xccc99127569146a7fc0956ca3a5b86a4; 0x824171dcefbe4a8b8f1d24e407e8e76c;
  0xab52f0323f47c90be1336bc794533626; 0xe62e22af1f6bf32b88711e202cdc3b5e; 0x65cece94dacd5b1c14f5986b801eeb82;
  0x83f4672b23a92e499aadb85427b54520; 0xe5da5595ee970b89929959ae766bf512; 0x1040920971720048711dbeccf94c;
  0x2b0e7fa2d509ca746fe2716bc7c3e73a; 0x81edd40a7a7437cb99d6b267d0d7976c; 0x2abe34bad75338b479a6a08dabf6573a;
  0xe46a1e8deccdf96d84dd884d1a5d4462; 0x65df4d264824132411d3553085980142; 0x804c1cb1eac70f698ab1aeeb3a605920;
  0x4e983687d159ce9677cb863e8acc5944; 0xa94f4b3252499e01e04514377dbd55aa; 0xcf74f70e70ef2af7ef6fd23d2af671a4;
  0xe7d77da5831189d3978a93f3f56f619e; 0x1e8ccb9dcc72f2e1a9cbeb8232d62fc; 0x4cdd0f362b68e52a7a5109eab0a16ef4;
  0xcec4b9173b16cdf9f91a9d0499490f58; 0xe4329c3d7bf233698830781e88d05912; 0x2aaea79ad7da34b07dc715cb83174a4a;
  0x82082082597387418618bcbfcff334e0; 0x83f16f99175f624799a6cd206b513bdc; 0x294b124ed1181a846297e291f4adcc3a;
  0x2442c3221f3dc1a0ce86db24aa0e48c; 0xe78fff41144664939b696b666550119e; 0x3f562a96a2aa9081b9e2febe84671c0;
  0xcd78dbfd54a1436beb568d9e63d55a14; 0xaae2ab6aaf144aaff73fdb3c06eaf756; 0xccdd4e7b1ce38d0ffacabbbeed722b64;
  0xccc9c07ae11bcce3fcd6f526cddeebd4; 0x3e5e1ccb1bf89c61fb4754fa43bbf3c; 0xcf64612f39c4323deb3fb936dd1aa228;
  0xe5da00893461b455926f68f4172caea2; 0xa95fc803c09556f7e4615febe8467196; 0xe78ae2a77b3e87b1981cf1dccb9d1fd2;
  0x4e9826c74350bfe67782f7333504b244; 0x2912d4222a675b0a6fd777b6c15f72c6; 0x4cdc1ab0f0ab5b2e7b22ee03c15c7384;
  0xe7d6682e58d237f196f8740f85956fd2; 0xcc911696880d4909f0d1382a55572458; 0xab4366b0764a0b4be46143c933474626;
  0xaaba68961da11d79fb40c8c7fe68cf6a; 0xe7d77d718378aeb397849bb7f7de0d9e; 0xe62f327ccd5792dd892fe9ca44601f62;
  0x64231d9efb5729d60d13f9bd382e380e; 0xe5db5416ee20984793ab5c70638d3bee; 0x81b51ab7a5fe1499959811bd9a557220;
  0x4d7cd7cc29d28cf2693f6478eddb2834; 0x295ab4bb43072c12678a4ee975a08406; 0x6437818b95e2e76e0bc9fa26a7e512ce;
  0xab0eead38eb165ebef9e1acd25989a26; 0xcc8095241ae41171f4f3f531c2d9be98; 0x3ba7996db230c0010185b9b29b00000;
  0x4cd9020746184ba27a68a299022ddf34; 0x8210932010890d058261f45338765990; 0xccc99127569146a7f80956ca3a5b86a4;
  0x2a88e0fbb92f0c2c7f14722e3db361fa; 0x824171dcefbe4a8b871d24e407e8e76c; 0x29b11e87b8989fd86fb067f47d17578a;
  0xab52f0323f47c90bf1336bc794533626; 0x0; 0xe62e22af1f6bf32ba8711e202cdc3b5e;
  0x862e22af1f6bf32ba8711e202cdc3b6c; 0x65cece94dacd5b1c54f5986b801eeb82; 0x8e8cbdc6770aef73b1ef36f7c270bdac;
  0x83f4672b23a92e491aadb85427b54520; 0x38b21c09fae1613c0db7ed8c3891e6fa].
Lemma sq_cert_ok : forallb (fun i => lin sq_cert 0 (Z.lxor (sq128 (2 ^ Z.of_nat i)) (2 ^ Z.of_nat i))
   =? Z.shiftl (Z.shiftr (2 ^ Z.of_nat i) 1) 1) (seq 0 128) = true.
Proof. vm_compute. reflexivity. Qed.
Lemma lxor4 a b c d : Z.lxor (Z.lxor a b) (Z.lxor c d) = Z.lxor (Z.lxor a c) (Z.lxor b d).
Proof. apply Z.bits_inj'. intros k _. rewrite !Z.lxor_spec. destruct (Z.testbit a k), (Z.testbit b k), (Z.testbit c k), (Z.testbit d k); reflexivity. Qed.
Lemma sq128_lxor a b : 0 <= a < 2 ^ 128 -> 0 <= b < 2 ^ 128 -> sq128 (Z.lxor a b) = Z.lxor (sq128 a) (sq128 b).
Proof.
  intros Ha Hb. pose proof (gsq_add (gof a) (gof b)) as E. apply (f_equal gval) in E.
  unfold gsq in E. rewrite gval_add, !gval_mul, gval_add, !gval_of in E by assumption. exact E.
Qed.
Lemma sq_cert_all a : 0 <= a < 2 ^ 128 -> lin sq_cert 0 (Z.lxor (sq128 a) a) = Z.shiftl (Z.shiftr a 1) 1.
Proof.
  apply (additive_ext 128 (fun a => lin sq_cert 0 (Z.lxor (sq128 a) a)) (fun a => Z.shiftl (Z.shiftr a 1) 1)); cbv beta.
  - intros u v Hu Hv. rewrite sq128_lxor by assumption. rewrite lxor4. apply lin_lxor.
  - intros u v _ _. now rewrite Z.shiftr_lxor, Z.shiftl_lxor.
  - intros i Hi. pose proof sq_cert_ok as S. rewrite forallb_forall in S.
    specialize (S i ltac:(apply in_seq; lia)). now apply Z.eqb_eq in S.
Qed.
Lemma lin_0 cs : forall i, lin cs i 0 = 0.
Proof. induction cs as [|c cs IH]; intros i; cbn [lin]; [reflexivity|]. now rewrite IH, Z.bits_0. Qed.
Lemma gsq_fixed x : gsq x = x -> x = g0 \/ x = g1.
Proof.
  intros E. apply (f_equal gval) in E. unfold gsq in E. rewrite gval_mul in E. assert (E2 : sq128 (gval x) = gval x) by (unfold sq128; exact E). clear E; rename E2 into E.
  pose proof (gval_range x) as R. pose proof (sq_cert_all (gval x) R) as C. rewrite E, Z.lxor_nilpotent, lin_0 in C.
  symmetry in C. rewrite Z.shiftl_mul_pow2, Z.shiftr_div_pow2 in C by lia. change (2 ^ 1) with 2 in C.
  pose proof (Z.div_mod (gval x) 2 ltac:(lia)). pose proof (Z.mod_pos_bound (gval x) 2 ltac:(lia)).
  assert (D : gval x = 0 \/ gval x = 1) by lia.
  destruct D as [D|D]; [left|right]; apply gval_inj; exact D.
Qed.

(** ** Conjugates *)
Fixpoint conjs_of (n : nat) (x : G) : G := match n with O => g1 | S n => gmul (conjs_of n x) (frob (S n) x) end.
Lemma conj_S n x : conjs_of (S n) x = gmul (conjs_of n x) (frob (S n) x). Proof. reflexivity. Qed.
Lemma conj_sq n x : gsq (gmul x (conjs_of n x)) = conjs_of (S n) x.
Proof.
  induction n as [|n IH].
  - cbn [conjs_of]. rewrite frob_S. cbn [frob]. unfold gsq. ring.
  - rewrite (conj_S (S n)). transitivity (gmul (gsq (gmul x (conjs_of n x))) (gsq (frob (S n) x))).
    + rewrite conj_S. unfold gsq. ring.
    + now rewrite IH, (frob_S (S n)).
Qed.
Lemma conj_mul n x : gmul x (gmul x (conjs_of n x)) = frob (S n) x.
Proof.
  induction n as [|n IH].
  - cbn [conjs_of]. rewrite frob_S. cbn [frob]. unfold gsq. ring.
  - rewrite (frob_S (S n)), conj_S, <- IH. unfold gsq. ring.
Qed.
Definition ginv (x : G) : G := conjs_of 127 x.
Theorem g_inverse x : x <> g0 -> gmul x (ginv x) = g1.
Proof.
  intros N. unfold ginv. set (e := gmul x (conjs_of 127 x)).
  assert (F : gsq e = e).
  { unfold e. rewrite conj_sq, conj_S, frob_id. ring. }
  assert (M : gmul x e = x) by (unfold e; rewrite conj_mul; apply frob_id).
  destruct (gsq_fixed e F) as [E|E]; [|exact E]. exfalso. apply N. rewrite <- M, E. ring.
Qed.
Theorem g_domain a b : gmul a b = g0 -> a = g0 \/ b = g0.
Proof.
  intros E. destruct (Z.eq_dec (gval a) 0) as [Z|N].
  - left. now apply gval_inj.
  - right. assert (N' : a <> g0) by (intros ->; now apply N).
    transitivity (gmul (gmul a (ginv a)) b); [rewrite g_inverse by exact N'; ring|].
    transitivity (gmul (ginv a) (gmul a b)); [ring|]. rewrite E. ring.
Qed.
