(** KECCAK-f is a bijection of the states. *)
From Coq Require Import ZArith List Bool Arith Lia.
From Verif Require Import Base P_Base M_Int P_Int P_Word S_Keccak M_Keccak P_Keccak.
Import ListNotations.
Local Open Scope nat_scope.

Definition pbij (f : list bool -> list bool) : Prop := exists g, forall S, length S = 1600 ->
  length (f S) = 1600 /\ length (g S) = 1600 /\ g (f S) = S /\ f (g S) = S.
Lemma pbij_compose f g : pbij f -> pbij g -> pbij (fun S => g (f S)).
Proof.
  intros (f' & F) (g' & G). exists (fun S => f' (g' S)). intros S L.
  destruct (F S L) as (F1 & F2 & F3 & F4). destruct (G (f S) F1) as (G1 & G2 & G3 & G4).
  destruct (G S L) as (H1 & H2 & H3 & H4). destruct (F (g' S) H2) as (K1 & K2 & K3 & K4).
  repeat split; trivial; [now rewrite G3|now rewrite K4].
Qed.
Lemma pbij_of_order f n : (forall S, length (f S) = 1600) ->
  (forall S, length S = 1600 -> Nat.iter (Datatypes.S n) f S = S) -> pbij f.
Proof.
  intros L H. exists (Nat.iter n f). intros S HS.
  assert (LI : length (Nat.iter n f S) = 1600) by (destruct n; [exact HS|apply L]).
  split; [apply L|]. split; [exact LI|]. split; [|exact (H S HS)].
  transitivity (Nat.iter (Datatypes.S n) f S); [|exact (H S HS)].
  clear. induction n; [reflexivity|].
  change (f (Nat.iter n f (f S)) = f (f (Nat.iter n f S))). f_equal. exact IHn.
Qed.
Lemma mod5 x : x mod 5 < 5.
Proof. apply Nat.mod_upper_bound. lia. Qed.
Lemma mod64 x : x mod 64 < 64.
Proof. apply Nat.mod_upper_bound. lia. Qed.

(** ** theta: the column parities are multiplied by 1 + x + x^4 z, whose 192nd power is 1 *)
Definition plane := nat -> nat -> bool.
Definition ceq (c c' : plane) : Prop := forall x z, x < 5 -> z < 64 -> c x z = c' x z.
Definition lin (a b r : nat) (c : plane) : plane :=
  fun x z => xorb (c x z) (xorb (c ((x + a) mod 5) z) (c ((x + b) mod 5) ((z + r) mod 64))).
Lemma lin_ext a b r c c' : ceq c c' -> ceq (lin a b r c) (lin a b r c').
Proof. intros H x z Hx Hz. unfold lin. rewrite !H; trivial; first [apply mod5 | apply mod64]. Qed.
Lemma lin_square a b r c : ceq (lin a b r (lin a b r c)) (lin (2 * a) (2 * b) (2 * r) c).
Proof.
  intros x z Hx Hz. unfold lin. rewrite !Nat.add_mod_idemp_l by lia.
  replace (x + a + a) with (x + 2 * a) by lia. replace (x + b + b) with (x + 2 * b) by lia.
  replace (z + r + r) with (z + 2 * r) by lia. replace (x + b + a) with (x + a + b) by lia.
  generalize (c x z) (c ((x + a) mod 5) z) (c ((x + b) mod 5) ((z + r) mod 64)) (c ((x + 2 * a) mod 5) z)
    (c ((x + a + b) mod 5) ((z + r) mod 64)) (c ((x + 2 * b) mod 5) ((z + 2 * r) mod 64)).
  intros b1 b2 b3 b4 b5 b6. destruct b1, b2, b3, b4, b5, b6; reflexivity.
Qed.
Lemma iter_ceq f n c c' : (forall c c', ceq c c' -> ceq (f c) (f c')) -> ceq c c' -> ceq (Nat.iter n f c) (Nat.iter n f c').
Proof. intros H E. induction n; [exact E|]. exact (H _ _ IHn). Qed.
Lemma iter_add {A} (f : A -> A) m n x : Nat.iter (m + n) f x = Nat.iter m f (Nat.iter n f x).
Proof.
  induction m; [reflexivity|]. change (f (Nat.iter (m + n) f x) = f (Nat.iter m f (Nat.iter n f x))). now rewrite IHm.
Qed.
Lemma lin_pow2 k a b r c : ceq (Nat.iter (2 ^ k) (lin a b r) c) (lin (2 ^ k * a) (2 ^ k * b) (2 ^ k * r) c).
Proof.
  revert c. induction k; intros c.
  - change (Nat.iter (2 ^ 0) (lin a b r) c) with (lin a b r c). change (2 ^ 0) with 1. rewrite !Nat.mul_1_l. now intros x z _ _.
  - replace (2 ^ S k) with (2 ^ k + 2 ^ k) by (cbn; lia). rewrite iter_add.
    intros x z Hx Hz.
    rewrite (iter_ceq (lin a b r) (2 ^ k) _ (lin (2 ^ k * a) (2 ^ k * b) (2 ^ k * r) c)); trivial; [|apply lin_ext].
    rewrite IHk by assumption. rewrite lin_square by assumption.
    replace (2 * (2 ^ k * a)) with ((2 ^ k + 2 ^ k) * a) by lia. replace (2 * (2 ^ k * b)) with ((2 ^ k + 2 ^ k) * b) by lia.
    now replace (2 * (2 ^ k * r)) with ((2 ^ k + 2 ^ k) * r) by lia.
Qed.
Lemma lin_cube a b r c : a mod 5 = 1 -> b mod 5 = 4 -> r mod 64 = 0 ->
  ceq (lin a b r (lin a b r (lin a b r c))) c.
Proof.
  intros Ha Hb Hr.
  assert (X : forall x, (x + a) mod 5 = (x + 1) mod 5) by (intros x; rewrite <- Nat.add_mod_idemp_r, Ha by lia; reflexivity).
  assert (Y : forall x, (x + b) mod 5 = (x + 4) mod 5) by (intros x; rewrite <- Nat.add_mod_idemp_r, Hb by lia; reflexivity).
  assert (Z : forall z, z < 64 -> (z + r) mod 64 = z)
    by (intros u Hu; rewrite <- Nat.add_mod_idemp_r, Hr, Nat.add_0_r by lia; now apply Nat.mod_small).
  intros x z Hx Hz. unfold lin. rewrite !Z by assumption. rewrite !X, !Y. clear X Y Z Ha Hb Hr.
  assert (R : c x z = match x with 0 => c 0 z | 1 => c 1 z | 2 => c 2 z | 3 => c 3 z | _ => c 4 z end)
    by (do 5 (destruct x as [|x]; [reflexivity|]); lia).
  do 5 (destruct x as [|x]; [clear R; cbn [Nat.add Nat.modulo Nat.divmod fst snd Nat.sub];
    generalize (c 0 z) (c 1 z) (c 2 z) (c 3 z) (c 4 z); clear; intros b0 b1 b2 b3 b4; destruct b0, b1, b2, b3, b4; reflexivity|]). lia.
Qed.
Lemma iter_mul {A} (f : A -> A) m n x : Nat.iter (m * n) f x = Nat.iter m (Nat.iter n f) x.
Proof. induction m; [reflexivity|]. cbn [Nat.mul]. rewrite iter_add, IHm. reflexivity. Qed.
Lemma lin_order c : ceq (Nat.iter 192 (lin 4 1 63) c) c.
Proof.
  change 192 with (2 ^ 6 + (2 ^ 6 + 2 ^ 6)). rewrite !iter_add. intros x z Hx Hz.
  rewrite (lin_pow2 6) by assumption.
  rewrite <- (lin_cube (2 ^ 6 * 4) (2 ^ 6 * 1) (2 ^ 6 * 63) c) by (reflexivity || assumption).
  apply lin_ext; trivial. intros x' z' Hx' Hz'. rewrite (lin_pow2 6) by assumption.
  apply lin_ext; trivial. intros x2 z2 Hx2 Hz2. now rewrite (lin_pow2 6) by assumption.
Qed.
Lemma theta_parity S : ceq (theta_C (k_theta S)) (lin 4 1 63 (theta_C S)).
Proof.
  intros x z Hx Hz. unfold theta_C at 1, k_theta. rewrite !rd_mk by lia. unfold lin, theta_D.
  unfold theta_C at 11.
  generalize (xorb (theta_C S ((x + 4) mod 5) z) (theta_C S ((x + 1) mod 5) ((z + 63) mod 64))).
  intros d. destruct d, (rd S x 0 z), (rd S x 1 z), (rd S x 2 z), (rd S x 3 z), (rd S x 4 z); reflexivity.
Qed.
Lemma iter_theta_parity n S : ceq (theta_C (Nat.iter n k_theta S)) (Nat.iter n (lin 4 1 63) (theta_C S)).
Proof.
  induction n; [now intros x z|]. intros x z Hx Hz. cbn [Nat.iter]. 
  change (theta_C (k_theta (Nat.iter n k_theta S)) x z = lin 4 1 63 (Nat.iter n (lin 4 1 63) (theta_C S)) x z).
  rewrite theta_parity by assumption. now apply lin_ext.
Qed.
Lemma iter_theta_rd n S x y z : x < 5 -> y < 5 -> z < 64 ->
  rd (Nat.iter n k_theta S) x y z = xorb (rd S x y z) (xorb (Nat.iter n (lin 4 1 63) (theta_C S) x z) (theta_C S x z)).
Proof.
  intros Hx Hy Hz. induction n; [cbn; now rewrite xorb_nilpotent, xorb_false_r|].
  change (rd (k_theta (Nat.iter n k_theta S)) x y z = xorb (rd S x y z) (xorb (lin 4 1 63 (Nat.iter n (lin 4 1 63) (theta_C S)) x z) (theta_C S x z))).
  unfold k_theta at 1. rewrite rd_mk, IHn by assumption. unfold theta_D.
  rewrite !iter_theta_parity; trivial; try apply mod5; try apply mod64. unfold lin at 4.
  generalize (Nat.iter n (lin 4 1 63) (theta_C S)). intros c.
  destruct (rd S x y z), (theta_C S x z), (c x z), (c ((x + 4) mod 5) z), (c ((x + 1) mod 5) ((z + 63) mod 64)); reflexivity.
Qed.
Lemma theta_pbij : pbij k_theta.
Proof.
  apply (pbij_of_order _ 191); [intros; apply mk_length|]. intros S L.
  apply bits_ext; [apply mk_length|exact L|]. intros x y z Hx Hy Hz.
  rewrite iter_theta_rd, lin_order by assumption. now rewrite xorb_nilpotent, xorb_false_r.
Qed.
(** ** The other steps *)
Lemma rho_pbij : pbij k_rho.
Proof.
  exists (fun S => mk (fun x y z => rd S x y ((z + rho_offset x y mod 64) mod 64))). intros S L.
  repeat split; try apply mk_length; apply bits_ext; trivial; try apply mk_length; intros x y z Hx Hy Hz;
    unfold k_rho; rewrite !rd_mk by (trivial; apply mod64); f_equal; rewrite Nat.add_mod_idemp_l by lia;
    pose proof (mod64 (rho_offset x y)).
  - replace (z + rho_offset x y mod 64 + (64 - rho_offset x y mod 64)) with (z + 1 * 64) by lia.
    rewrite Nat.mod_add by lia. now apply Nat.mod_small.
  - replace (z + (64 - rho_offset x y mod 64) + rho_offset x y mod 64) with (z + 1 * 64) by lia.
    rewrite Nat.mod_add by lia. now apply Nat.mod_small.
Qed.
Lemma pi_pbij : pbij k_pi.
Proof.
  assert (A : forall x y, x < 5 -> y < 5 -> (2 * ((x + 3 * y) mod 5 + 4 * x)) mod 5 = y).
  { intros x y Hx Hy. do 5 (destruct x as [|x]; [do 5 (destruct y as [|y]; [reflexivity|]); lia|]). lia. }
  assert (B : forall x y, x < 5 -> y < 5 -> (y + 3 * ((2 * (x + 4 * y)) mod 5)) mod 5 = x).
  { intros x y Hx Hy. do 5 (destruct x as [|x]; [do 5 (destruct y as [|y]; [reflexivity|]); lia|]). lia. }
  exists (fun S => mk (fun x y z => rd S y ((2 * (x + 4 * y)) mod 5) z)). intros S L.
  repeat split; try apply mk_length; apply bits_ext; trivial; try apply mk_length; intros x y z Hx Hy Hz;
    unfold k_pi; rewrite !rd_mk by (trivial; apply mod5).
  - now rewrite B.
  - now rewrite A.
Qed.
Lemma chi_rd S x y z : x < 5 -> y < 5 -> z < 64 ->
  rd (k_chi S) x y z = xorb (rd S x y z) (negb (rd S ((x + 1) mod 5) y z) && rd S ((x + 2) mod 5) y z).
Proof. intros. unfold k_chi. now rewrite rd_mk. Qed.
Lemma chi_pbij : pbij k_chi.
Proof.
  apply (pbij_of_order _ 3); [intros; apply mk_length|]. intros S L.
  apply bits_ext; [apply mk_length|exact L|]. intros x y z Hx Hy Hz.
  change (Nat.iter 4 k_chi S) with (k_chi (k_chi (k_chi (k_chi S)))).
  assert (E : forall T, (rd (k_chi T) 0 y z, rd (k_chi T) 1 y z, rd (k_chi T) 2 y z, rd (k_chi T) 3 y z, rd (k_chi T) 4 y z)
     = (xorb (rd T 0 y z) (negb (rd T 1 y z) && rd T 2 y z), xorb (rd T 1 y z) (negb (rd T 2 y z) && rd T 3 y z),
        xorb (rd T 2 y z) (negb (rd T 3 y z) && rd T 4 y z), xorb (rd T 3 y z) (negb (rd T 4 y z) && rd T 0 y z),
        xorb (rd T 4 y z) (negb (rd T 0 y z) && rd T 1 y z))).
  { intros T. now rewrite !chi_rd by lia. }
  pose proof (E S) as E1. pose proof (E (k_chi S)) as E2. pose proof (E (k_chi (k_chi S))) as E3.
  pose proof (E (k_chi (k_chi (k_chi S)))) as E4. clear E.
  injection E1 as A0 A1 A2 A3 A4. injection E2 as B0 B1 B2 B3 B4. injection E3 as C0 C1 C2 C3 C4. injection E4 as D0 D1 D2 D3 D4.
  rewrite A0, A1, A2, A3, A4 in *. rewrite B0, B1, B2, B3, B4 in *. rewrite C0, C1, C2, C3, C4 in *.
  do 5 (destruct x as [|x]; [first [rewrite D0 | rewrite D1 | rewrite D2 | rewrite D3 | rewrite D4]; clear;
    generalize (rd S 0 y z) (rd S 1 y z) (rd S 2 y z) (rd S 3 y z) (rd S 4 y z); clear; intros b0 b1 b2 b3 b4;
    destruct b0, b1, b2, b3, b4; reflexivity|]). lia.
Qed.
Lemma iota_pbij ir : pbij (k_iota ir).
Proof.
  apply (pbij_of_order _ 1); [intros; apply mk_length|]. intros S L.
  apply bits_ext; [apply mk_length|exact L|]. intros x y z Hx Hy Hz.
  change (Nat.iter 2 (k_iota ir) S) with (k_iota ir (k_iota ir S)). unfold k_iota. rewrite !rd_mk by assumption.
  now rewrite xorb_assoc, xorb_nilpotent, xorb_false_r.
Qed.
Lemma round_pbij ir : pbij (k_round ir).
Proof.
  unfold k_round. apply (pbij_compose _ (k_iota ir)); [|apply iota_pbij].
  apply (pbij_compose _ k_chi); [|apply chi_pbij]. apply (pbij_compose _ k_pi); [|apply pi_pbij].
  apply (pbij_compose _ k_rho); [apply theta_pbij|apply rho_pbij].
Qed.
Lemma pbij_fold (f : nat -> list bool -> list bool) : (forall i, pbij (f i)) -> forall l, pbij (fun S => fold_left (fun S i => f i S) l S).
Proof.
  intros H l. induction l as [|i l IH].
  - exists (fun S => S). intros S L. repeat split; trivial.
  - exact (pbij_compose (f i) (fun S => fold_left (fun S i => f i S) l S) (H i) IH).
Qed.
Lemma keccak_f_pbij : pbij keccak_f.
Proof. exact (pbij_fold k_round round_pbij (seq 0 24)). Qed.
(** ** On lanes *)
Lemma bij_lanes f g : pbij g -> (forall s, state s -> exists s', f s = Ok s' /\ state s' /\ lane_bits s' = g (lane_bits s)) ->
  bij_on state f.
Proof.
  intros (h & H) F. 
  assert (I : forall s s', state s -> state s' -> lane_bits s = lane_bits s' -> s = s').
  { intros s s' [L1 F1] [L2 F2] E. apply (string_bits_inj 64); trivial. congruence. }
  split; [|split].
  - intros s Hs. destruct (F s Hs) as (s' & E & Hs' & _). eauto.
  - intros s s' t Hs Hs' E E'. destruct (F s Hs) as (u & U & Hu & B), (F s' Hs') as (u' & U' & Hu' & B').
    assert (u = t) by congruence. assert (u' = t) by congruence. subst u u'. apply I; trivial.
    destruct (H _ (lane_bits_length s Hs)) as (_ & _ & X & _), (H _ (lane_bits_length s' Hs')) as (_ & _ & X' & _).
    rewrite <- X, <- X'. congruence.
  - intros t Ht. destruct (H _ (lane_bits_length t Ht)) as (_ & L & _ & X).
    set (s := pack 64 25 (h (lane_bits t))). exists s.
    assert (Hs : state s) by (apply pack_words; exact L). split; [exact Hs|].
    destruct (F s Hs) as (u & U & Hu & B). rewrite U. f_equal. apply I; trivial. rewrite B. unfold s, lane_bits at 1.
    rewrite pack_bits by exact L. exact X.
Qed.
