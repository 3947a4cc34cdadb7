(** Lemmas about M_Dalek.v *)
From Coq Require Import ZArith List Bool Lia.
From Verif Require Import Base P_Base M_Int P_Int M_Dalek S_Dalek.
Import ListNotations.
Open Scope Z_scope.

Definition fe_list (a : fe64) : list Z := [l0 a; l1 a; l2 a; l3 a; l4 a].

Lemma dalek_w128 z : 0 <= z < 2 ^ 128 -> iwrap U128 z = z.
Proof. intros H. change (z mod 2 ^ 128 = z). now apply Z.mod_small. Qed.
Lemma dalek_w64 z : 0 <= z < 2 ^ 64 -> iwrap U64 z = z.
Proof. intros H. change (z mod 2 ^ 64 = z). now apply Z.mod_small. Qed.
Lemma prod_bound x y X Y : 0 <= x < X -> 0 <= y < Y -> 0 <= x * y < X * Y.
Proof. intros. split; [apply Z.mul_nonneg_nonneg; lia|]. apply Z.mul_lt_mono_nonneg; lia. Qed.
Lemma dm_Ok x y : 0 <= x < 2 ^ 54 -> 0 <= y < 19 * 2 ^ 54 -> dm x y = Ok (x * y) /\ 0 <= x * y < 19 * 2 ^ 108.
Proof.
  intros Hx Hy. pose proof (prod_bound _ _ _ _ Hx Hy) as P.
  change (2 ^ 54 * (19 * 2 ^ 54)) with (19 * 2 ^ 108) in P. split; [|exact P].
  unfold dm, cast. rewrite !dalek_w128 by lia. unfold op_mul. cbn [sec U128]. rewrite dalek_w128 by lia. reflexivity.
Qed.
Lemma dadd_Ok x y : 0 <= x -> 0 <= y -> x + y < 2 ^ 128 -> op_add U128 x y = Ok (x + y).
Proof. intros. unfold op_add. cbn [sec U128]. now rewrite dalek_w128 by lia. Qed.
Lemma dsum_Ok x0 y0 x1 y1 x2 y2 x3 y3 x4 y4 :
  Forall (fun x => 0 <= x < 2 ^ 54) [x0; x1; x2; x3; x4] -> Forall (fun y => 0 <= y < 19 * 2 ^ 54) [y0; y1; y2; y3; y4] ->
  dsum x0 y0 x1 y1 x2 y2 x3 y3 x4 y4 = Ok (x0 * y0 + x1 * y1 + x2 * y2 + x3 * y3 + x4 * y4)
  /\ 0 <= x0 * y0 + x1 * y1 + x2 * y2 + x3 * y3 + x4 * y4 < 95 * 2 ^ 108.
Proof.
  intros Hx Hy.
  repeat match goal with H : Forall _ (_ :: _) |- _ => inversion H; clear H; subst end.
  destruct (dm_Ok x0 y0) as [E0 B0]; try assumption. destruct (dm_Ok x1 y1) as [E1 B1]; try assumption.
  destruct (dm_Ok x2 y2) as [E2 B2]; try assumption. destruct (dm_Ok x3 y3) as [E3 B3]; try assumption.
  destruct (dm_Ok x4 y4) as [E4 B4]; try assumption.
  unfold dsum. rewrite E0, E1, E2, E3, E4. cbn [bind].
  set (p0 := x0 * y0) in *. set (p1 := x1 * y1) in *. set (p2 := x2 * y2) in *.
  set (p3 := x3 * y3) in *. set (p4 := x4 * y4) in *. clearbody p0 p1 p2 p3 p4.
  rewrite dadd_Ok by lia. cbn [bind]. rewrite dadd_Ok by lia. cbn [bind].
  rewrite dadd_Ok by lia. cbn [bind]. rewrite dadd_Ok by lia. split; [reflexivity|lia].
Qed.
Lemma low_limb_Ok c : 0 <= c -> low_limb c = c mod 2 ^ 51.
Proof.
  intros H. unfold low_limb, op_and, cast, low_51_bit_mask.
  change (Z.land (c mod 2 ^ 64) (Z.ones 51) = c mod 2 ^ 51). rewrite Z.land_ones by lia.
  symmetry. apply Znumtheory.Zmod_div_mod; [reflexivity|reflexivity|]. now exists (2 ^ 13).
Qed.
Lemma dshr_Ok c : op_shr U128 c 51 = Ok (c / 2 ^ 51).
Proof. unfold op_shr. change (51 <? bits U128) with true. cbn iota. now rewrite Z.shiftr_div_pow2 by lia. Qed.
Lemma add_carry_Ok c d : 0 <= c < 2 ^ 115 -> 0 <= d < 2 ^ 115 ->
  add_carry c d = Ok (c + d / 2 ^ 51) /\ 0 <= d / 2 ^ 51 < 2 ^ 64.
Proof.
  intros Hc Hd. assert (B : 0 <= d / 2 ^ 51 < 2 ^ 64)
    by (split; [apply Z.div_pos; lia|apply Z.div_lt_upper_bound; lia]).
  split; [|exact B]. unfold add_carry. rewrite dshr_Ok. cbn [bind]. unfold cast.
  rewrite dalek_w64, dalek_w128 by lia. now rewrite dadd_Ok by lia.
Qed.
Lemma mul19_Ok x : 0 <= x -> x * 19 < 2 ^ 64 -> op_mul U64 x 19 = Ok (x * 19).
Proof. intros. unfold op_mul. cbn [sec U64]. now rewrite dalek_w64 by lia. Qed.
Lemma small_limb_Ok x : x < 2 ^ 54 -> small_limb x = Ok tt.
Proof. intros H. apply assert_true. now apply Z.ltb_lt. Qed.

Lemma dalek_step {A B} (x : res A) (f : A -> res B) (a : A) (r : res B) : x = Ok a -> f a = r -> bind x f = r.
Proof. now intros -> <-. Qed.
Lemma dadd64_Ok x y : 0 <= x -> 0 <= y -> x + y < 2 ^ 64 -> op_add U64 x y = Ok (x + y).
Proof. intros. unfold op_add. cbn [sec U64]. now rewrite dalek_w64 by lia. Qed.
Lemma dshr64_Ok c : op_shr U64 c 51 = Ok (c / 2 ^ 51).
Proof. unfold op_shr. change (51 <? bits U64) with true. cbn iota. now rewrite Z.shiftr_div_pow2 by lia. Qed.
Lemma dalek_mask f : op_and f low_51_bit_mask = f mod 2 ^ 51.
Proof. unfold op_and, low_51_bit_mask. apply (Z.land_ones f 51). lia. Qed.

(** The tail of the function, from the coefficients on. *)
Definition dalek_tail (c0 c1 c2 c3 c4 : Z) : res fe64 :=
  let* c1 := add_carry c1 c0 in
  let o0 := low_limb c0 in
  let* c2 := add_carry c2 c1 in
  let o1 := low_limb c1 in
  let* c3 := add_carry c3 c2 in
  let o2 := low_limb c2 in
  let* c4 := add_carry c4 c3 in
  let o3 := low_limb c3 in
  let* carry := op_shr U128 c4 51 in
  let carry := cast U64 carry in
  let o4 := low_limb c4 in
  let* t := op_mul U64 carry 19 in
  let* o0 := op_add U64 o0 t in
  let* s := op_shr U64 o0 51 in
  let* o1 := op_add U64 o1 s in
  let o0 := op_and o0 low_51_bit_mask in
  Ok (mkfe o0 o1 o2 o3 o4).
Lemma dalek_tail_Ok c0 c1 c2 c3 c4 :
  0 <= c0 < 95 * 2 ^ 108 -> 0 <= c1 < 95 * 2 ^ 108 -> 0 <= c2 < 95 * 2 ^ 108 -> 0 <= c3 < 95 * 2 ^ 108 ->
  0 <= c4 < 5 * 2 ^ 108 ->
  let k0 := c0 / 2 ^ 51 in let d1 := c1 + k0 in let k1 := d1 / 2 ^ 51 in let d2 := c2 + k1 in
  let k2 := d2 / 2 ^ 51 in let d3 := c3 + k2 in let k3 := d3 / 2 ^ 51 in let d4 := c4 + k3 in
  let k4 := d4 / 2 ^ 51 in let f := c0 mod 2 ^ 51 + k4 * 19 in
  dalek_tail c0 c1 c2 c3 c4 = Ok (mkfe (f mod 2 ^ 51) (d1 mod 2 ^ 51 + f / 2 ^ 51) (d2 mod 2 ^ 51)
    (d3 mod 2 ^ 51) (d4 mod 2 ^ 51)) /\
  Forall (fun v => 0 <= v < 2 ^ 64) [k0; k1; k2; k3; k4; k4 * 19; f; d1 mod 2 ^ 51 + f / 2 ^ 51] /\
  Forall (fun v => 0 <= v < 2 ^ 128) [c0; c1; c2; c3; c4; d1; d2; d3; d4] /\
  Forall (fun v => 0 <= v < 2 ^ 52) [f mod 2 ^ 51; d1 mod 2 ^ 51 + f / 2 ^ 51; d2 mod 2 ^ 51;
    d3 mod 2 ^ 51; d4 mod 2 ^ 51].
Proof.
  intros B0 B1 B2 B3 B4. cbv zeta.
  assert (M : forall x, 0 <= x mod 2 ^ 51 < 2 ^ 51) by (intros; apply Z.mod_pos_bound; reflexivity).
  destruct (add_carry_Ok c1 c0) as [E0 K0]; [lia|lia|].
  remember (c0 / 2 ^ 51) as k0 eqn:Hk0. remember (c1 + k0) as d1 eqn:Hd1.
  destruct (add_carry_Ok c2 d1) as [E1 K1]; [lia|lia|].
  remember (d1 / 2 ^ 51) as k1 eqn:Hk1. remember (c2 + k1) as d2 eqn:Hd2.
  destruct (add_carry_Ok c3 d2) as [E2 K2]; [lia|lia|].
  remember (d2 / 2 ^ 51) as k2 eqn:Hk2. remember (c3 + k2) as d3 eqn:Hd3.
  destruct (add_carry_Ok c4 d3) as [E3 K3]; [lia|lia|].
  remember (d3 / 2 ^ 51) as k3 eqn:Hk3. remember (c4 + k3) as d4 eqn:Hd4.
  assert (K4 : 0 <= d4 / 2 ^ 51 < 5 * 2 ^ 57 + 2 ^ 14)
    by (split; [apply Z.div_pos; lia|apply Z.div_lt_upper_bound; lia]).
  pose proof (dshr_Ok d4) as E4. remember (d4 / 2 ^ 51) as k4 eqn:Hk4.
  pose proof (M c0). pose proof (M d1). pose proof (M d2). pose proof (M d3). pose proof (M d4).
  remember (c0 mod 2 ^ 51 + k4 * 19) as f eqn:Hf. pose proof (M f).
  assert (F51 : 0 <= f / 2 ^ 51 < 2 ^ 13)
    by (split; [apply Z.div_pos; lia|apply Z.div_lt_upper_bound; lia]).
  split; [|split; [repeat constructor; lia|]; split; [repeat constructor; lia|]; repeat constructor; lia].
  unfold dalek_tail. cbv zeta.
  eapply dalek_step; [exact E0|cbv beta]. eapply dalek_step; [exact E1|cbv beta].
  eapply dalek_step; [exact E2|cbv beta]. eapply dalek_step; [exact E3|cbv beta].
  eapply dalek_step; [exact E4|cbv beta].
  assert (C4 : cast U64 k4 = k4) by (apply dalek_w64; lia).
  eapply dalek_step; [rewrite C4; apply mul19_Ok; lia|cbv beta].
  eapply dalek_step; [rewrite low_limb_Ok by lia; apply dadd64_Ok; lia|cbv beta].
  rewrite <- Hf. eapply dalek_step; [apply dshr64_Ok|cbv beta].
  eapply dalek_step; [rewrite low_limb_Ok by lia; apply dadd64_Ok; lia|cbv beta].
  rewrite dalek_mask, !low_limb_Ok by lia. reflexivity.
Qed.

Lemma fe_mul_Ok a b : Forall (fun x => 0 <= x < 2 ^ 54) (fe_list a) -> Forall (fun x => 0 <= x < 2 ^ 54) (fe_list b) ->
  exists r, fe_mul a b = Ok r /\ fe_list r = exact_mul (fe_list a) (fe_list b) /\
    Forall (fun v => 0 <= v < 2 ^ 64) (fits64 (fe_list a) (fe_list b)) /\
    Forall (fun v => 0 <= v < 2 ^ 128) (fits128 (fe_list a) (fe_list b)) /\
    Forall (fun v => 0 <= v < 2 ^ 52) (exact_mul (fe_list a) (fe_list b)).
Proof.
  destruct a as [a0 a1 a2 a3 a4], b as [b0 b1 b2 b3 b4]. unfold fe_list. cbn [l0 l1 l2 l3 l4].
  intros Ha Hb.
  repeat match goal with H : Forall _ (_ :: _) |- _ => inversion H; clear H; subst end.
  repeat match goal with H : Forall _ [] |- _ => clear H end.
  destruct (dsum_Ok a0 b0 a4 (b1 * 19) a3 (b2 * 19) a2 (b3 * 19) a1 (b4 * 19)) as [E0 B0];
    [repeat constructor; lia|repeat constructor; lia|].
  destruct (dsum_Ok a1 b0 a0 b1 a4 (b2 * 19) a3 (b3 * 19) a2 (b4 * 19)) as [E1 B1];
    [repeat constructor; lia|repeat constructor; lia|].
  destruct (dsum_Ok a2 b0 a1 b1 a0 b2 a4 (b3 * 19) a3 (b4 * 19)) as [E2 B2];
    [repeat constructor; lia|repeat constructor; lia|].
  destruct (dsum_Ok a3 b0 a2 b1 a1 b2 a0 b3 a4 (b4 * 19)) as [E3 B3];
    [repeat constructor; lia|repeat constructor; lia|].
  destruct (dsum_Ok a4 b0 a3 b1 a2 b2 a1 b3 a0 b4) as [E4 B4];
    [repeat constructor; lia|repeat constructor; lia|]. clear B4.
  assert (B4 : 0 <= a4 * b0 + a3 * b1 + a2 * b2 + a1 * b3 + a0 * b4 < 5 * 2 ^ 108).
  { pose proof (prod_bound a4 b0 _ _ ltac:(eassumption) ltac:(eassumption)).
    pose proof (prod_bound a3 b1 _ _ ltac:(eassumption) ltac:(eassumption)).
    pose proof (prod_bound a2 b2 _ _ ltac:(eassumption) ltac:(eassumption)).
    pose proof (prod_bound a1 b3 _ _ ltac:(eassumption) ltac:(eassumption)).
    pose proof (prod_bound a0 b4 _ _ ltac:(eassumption) ltac:(eassumption)). lia. }
  pose proof (dalek_tail_Ok _ _ _ _ _ B0 B1 B2 B3 B4) as T. cbv zeta in T.
  set (la := [a0; a1; a2; a3; a4]). set (lb := [b0; b1; b2; b3; b4]).
  assert (V0 : conv la lb 0 = a0 * b0 + a4 * (b1 * 19) + a3 * (b2 * 19) + a2 * (b3 * 19) + a1 * (b4 * 19))
    by (unfold conv, conv_term, la, lb; cbn [Nat.leb nth Nat.sub Nat.add]; ring).
  assert (V1 : conv la lb 1 = a1 * b0 + a0 * b1 + a4 * (b2 * 19) + a3 * (b3 * 19) + a2 * (b4 * 19))
    by (unfold conv, conv_term, la, lb; cbn [Nat.leb nth Nat.sub Nat.add]; ring).
  assert (V2 : conv la lb 2 = a2 * b0 + a1 * b1 + a0 * b2 + a4 * (b3 * 19) + a3 * (b4 * 19))
    by (unfold conv, conv_term, la, lb; cbn [Nat.leb nth Nat.sub Nat.add]; ring).
  assert (V3 : conv la lb 3 = a3 * b0 + a2 * b1 + a1 * b2 + a0 * b3 + a4 * (b4 * 19))
    by (unfold conv, conv_term, la, lb; cbn [Nat.leb nth Nat.sub Nat.add]; ring).
  assert (V4 : conv la lb 4 = a4 * b0 + a3 * b1 + a2 * b2 + a1 * b3 + a0 * b4)
    by (unfold conv, conv_term, la, lb; cbn [Nat.leb nth Nat.sub Nat.add]; ring).
  assert (W0 : carried la lb 0 = conv la lb 0) by reflexivity.
  assert (W1 : carried la lb 1 = conv la lb 1 + conv la lb 0 / 2 ^ 51) by reflexivity.
  assert (W2 : carried la lb 2 = conv la lb 2 + carried la lb 1 / 2 ^ 51) by reflexivity.
  assert (W3 : carried la lb 3 = conv la lb 3 + carried la lb 2 / 2 ^ 51) by reflexivity.
  assert (W4 : carried la lb 4 = conv la lb 4 + carried la lb 3 / 2 ^ 51) by reflexivity.
  rewrite <- V0, <- V1, <- V2, <- V3, <- V4, <- W1, <- W2, <- W3, <- W4 in T.
  rewrite <- V0 in E0, B0. rewrite <- V1 in E1, B1. rewrite <- V2 in E2, B2.
  rewrite <- V3 in E3, B3. rewrite <- V4 in E4, B4. clear V0 V1 V2 V3 V4 W1 W2 W3 W4.
  destruct T as (T1 & T2 & T3 & T4). unfold exact_mul, fits64, fits128, folded. cbn [map app].
  rewrite W0. eexists. split; [|split; [|split; [|split]]].
  - unfold fe_mul. cbn [l0 l1 l2 l3 l4].
    eapply dalek_step; [apply mul19_Ok; lia|cbv beta]. eapply dalek_step; [apply mul19_Ok; lia|cbv beta].
    eapply dalek_step; [apply mul19_Ok; lia|cbv beta]. eapply dalek_step; [apply mul19_Ok; lia|cbv beta].
    eapply dalek_step; [exact E0|cbv beta]. eapply dalek_step; [exact E1|cbv beta].
    eapply dalek_step; [exact E2|cbv beta]. eapply dalek_step; [exact E3|cbv beta].
    eapply dalek_step; [exact E4|cbv beta].
    do 10 (eapply dalek_step; [apply small_limb_Ok; lia|cbv beta]).
    exact T1.
  - reflexivity.
  - unfold lb. cbn [nth].
    do 4 (constructor; [lia|]). exact T2.
  - clear - T3 W0. rewrite !Forall_cons_iff in *. tauto.
  - exact T4.
Qed.

Lemma exact_mul_val a b : length a = 5%nat -> length b = 5%nat ->
  (val51 (exact_mul a b)) mod (2 ^ 255 - 19) = (val51 a * val51 b) mod (2 ^ 255 - 19).
Proof.
  intros La Lb.
  do 6 (destruct a as [|? a]; try discriminate). do 6 (destruct b as [|? b]; try discriminate).
  rename z into a0, z0 into a1, z1 into a2, z2 into a3, z3 into a4.
  rename z4 into b0, z5 into b1, z6 into b2, z7 into b3, z8 into b4.
  clear La Lb. set (a := [a0; a1; a2; a3; a4]). set (b := [b0; b1; b2; b3; b4]).
  assert (V0 : conv a b 0 = a0 * b0 + 19 * (a1 * b4 + a2 * b3 + a3 * b2 + a4 * b1))
    by (unfold conv, conv_term, a, b; cbn [Nat.leb nth Nat.sub Nat.add]; ring).
  assert (V1 : conv a b 1 = a0 * b1 + a1 * b0 + 19 * (a2 * b4 + a3 * b3 + a4 * b2))
    by (unfold conv, conv_term, a, b; cbn [Nat.leb nth Nat.sub Nat.add]; ring).
  assert (V2 : conv a b 2 = a0 * b2 + a1 * b1 + a2 * b0 + 19 * (a3 * b4 + a4 * b3))
    by (unfold conv, conv_term, a, b; cbn [Nat.leb nth Nat.sub Nat.add]; ring).
  assert (V3 : conv a b 3 = a0 * b3 + a1 * b2 + a2 * b1 + a3 * b0 + 19 * (a4 * b4))
    by (unfold conv, conv_term, a, b; cbn [Nat.leb nth Nat.sub Nat.add]; ring).
  assert (V4 : conv a b 4 = a0 * b4 + a1 * b3 + a2 * b2 + a3 * b1 + a4 * b0)
    by (unfold conv, conv_term, a, b; cbn [Nat.leb nth Nat.sub Nat.add]; ring).
  unfold exact_mul, val51. cbn [nth].
  pose proof (Z.div_mod (folded a b) (2 ^ 51) ltac:(discriminate)) as F.
  set (fq := folded a b / 2 ^ 51) in *. set (fr := folded a b mod 2 ^ 51) in *. clearbody fq fr.
  unfold folded in F.
  assert (C1 : carried a b 1 = conv a b 1 + carried a b 0 / 2 ^ 51) by reflexivity.
  assert (C2 : carried a b 2 = conv a b 2 + carried a b 1 / 2 ^ 51) by reflexivity.
  assert (C3 : carried a b 3 = conv a b 3 + carried a b 2 / 2 ^ 51) by reflexivity.
  assert (C4 : carried a b 4 = conv a b 4 + carried a b 3 / 2 ^ 51) by reflexivity.
  assert (C0 : carried a b 0 = conv a b 0) by reflexivity.
  pose proof (Z.div_mod (carried a b 0) (2 ^ 51) ltac:(discriminate)) as D0.
  pose proof (Z.div_mod (carried a b 1) (2 ^ 51) ltac:(discriminate)) as D1.
  pose proof (Z.div_mod (carried a b 2) (2 ^ 51) ltac:(discriminate)) as D2.
  pose proof (Z.div_mod (carried a b 3) (2 ^ 51) ltac:(discriminate)) as D3.
  pose proof (Z.div_mod (carried a b 4) (2 ^ 51) ltac:(discriminate)) as D4.
  set (q0 := carried a b 0 / 2 ^ 51) in *. set (r0 := carried a b 0 mod 2 ^ 51) in *.
  set (q1 := carried a b 1 / 2 ^ 51) in *. set (r1 := carried a b 1 mod 2 ^ 51) in *.
  set (q2 := carried a b 2 / 2 ^ 51) in *. set (r2 := carried a b 2 mod 2 ^ 51) in *.
  set (q3 := carried a b 3 / 2 ^ 51) in *. set (r3 := carried a b 3 mod 2 ^ 51) in *.
  set (q4 := carried a b 4 / 2 ^ 51) in *. set (r4 := carried a b 4 mod 2 ^ 51) in *.
  clearbody q0 r0 q1 r1 q2 r2 q3 r3 q4 r4.
  rewrite C0, V0 in D0. rewrite C1, V1 in D1. rewrite C2, V2 in D2. rewrite C3, V3 in D3. rewrite C4, V4 in D4.
  unfold a, b. cbn [nth].
  set (X := (a0 + 2 ^ 51 * a1 + 2 ^ 102 * a2 + 2 ^ 153 * a3 + 2 ^ 204 * a4) *
            (b0 + 2 ^ 51 * b1 + 2 ^ 102 * b2 + 2 ^ 153 * b3 + 2 ^ 204 * b4)).
  set (K := a1 * b4 + a2 * b3 + a3 * b2 + a4 * b1 + 2 ^ 51 * (a2 * b4 + a3 * b3 + a4 * b2)
     + 2 ^ 102 * (a3 * b4 + a4 * b3) + 2 ^ 153 * (a4 * b4)).
  assert (EX : X = conv a b 0 + 2 ^ 51 * conv a b 1 + 2 ^ 102 * conv a b 2 + 2 ^ 153 * conv a b 3 + 2 ^ 204 * conv a b 4
     + (2 ^ 255 - 19) * K) by (rewrite V0, V1, V2, V3, V4; unfold X, K; ring).
  assert (EY : fr + 2 ^ 51 * (r1 + fq) + 2 ^ 102 * r2 + 2 ^ 153 * r3 + 2 ^ 204 * r4
     = X + (- K - q4) * (2 ^ 255 - 19)).
  { rewrite EX, V0, V1, V2, V3, V4. clear EX V0 V1 V2 V3 V4 C0 C1 C2 C3 C4. clearbody X K. lia. }
  rewrite EY. apply Z_mod_plus_full.
Qed.
