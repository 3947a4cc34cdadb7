(** Number theory used for the modular integers: fast modular powers, Fermat's
    little theorem, Pocklington's criterion and the primality of the moduli of the
    shipped specifications. *)
From Coq Require Import ZArith Znumtheory Zpow_facts List Bool Lia Permutation.
From Verif Require Import M_BigInt.
Import ListNotations.
Open Scope Z_scope.

Lemma modpow_pos_spec b e m : m <> 0 -> modpow_pos b e m = (b ^ Zpos e) mod m.
Proof.
  intros Hm. induction e as [e IH|e IH|]; cbn [modpow_pos].
  - rewrite IH. replace (Zpos (xI e)) with (Zpos e + Zpos e + 1) by lia.
    rewrite !Z.pow_add_r by lia. rewrite Z.pow_1_r.
    rewrite <- Z.mul_mod by assumption. rewrite Z.mul_mod_idemp_l by assumption. reflexivity.
  - rewrite IH. replace (Zpos (xO e)) with (Zpos e + Zpos e) by lia.
    rewrite Z.pow_add_r by lia. now rewrite <- Z.mul_mod by assumption.
  - now rewrite Z.pow_1_r.
Qed.
Lemma modpow_spec b e m : m <> 0 -> 0 <= e -> modpow b e m = (b ^ e) mod m.
Proof.
  intros Hm He. destruct e as [|e|e]; cbn [modpow]; [reflexivity| |lia].
  now apply modpow_pos_spec.
Qed.

(** A cheaper remainder and power for the certificates. *)
Definition red1 (m : positive) (r : N) : N :=
  match r with
  | N0 => N0
  | Npos r => match Pos.sub_mask r m with Pos.IsNul => N0 | Pos.IsPos d => Npos d | Pos.IsNeg => Npos r end
  end.
Fixpoint prem (k : nat) (a m : positive) : N :=
  match k, a with
  | S k', xO a' => red1 m (N.double (prem k' a' m))
  | S k', xI a' => red1 m (N.succ_double (prem k' a' m))
  | _, _ => let r := red1 m (Npos a) in if (r <? Npos m)%N then r else (r mod Npos m)%N
  end.
Lemma red1_cases m r : red1 m r = r /\ (r < Npos m)%N \/ Z.of_N (red1 m r) = Z.of_N r - Zpos m.
Proof.
  destruct r as [|r]; cbn [red1]; [left; split; [reflexivity|lia]|].
  destruct (Pos.sub_mask_spec r m) as [->|d E|d E].
  - right. cbn [Z.of_N]. lia.
  - right. cbn [Z.of_N]. lia.
  - left. split; [reflexivity|lia].
Qed.
Lemma red1_mod m r : (r < 2 * Npos m)%N -> Z.of_N (red1 m r) = Z.of_N r mod Zpos m.
Proof.
  intros H. destruct (red1_cases m r) as [[-> L]|E].
  - symmetry. apply Z.mod_small. lia.
  - rewrite E. assert (Z.of_N (red1 m r) >= 0) by lia. 
    replace (Z.of_N r) with ((Z.of_N r - Zpos m) + 1 * Zpos m) at 2 by lia.
    rewrite Z_mod_plus_full. symmetry. apply Z.mod_small. lia.
Qed.
Lemma prem_base m a : let r := red1 m (Npos a) in
  Z.of_N (if (r <? Npos m)%N then r else (r mod Npos m)%N) = Zpos a mod Zpos m.
Proof.
  cbv zeta. assert (E : Z.of_N (red1 m (Npos a)) mod Zpos m = Zpos a mod Zpos m).
  { destruct (red1_cases m (Npos a)) as [[-> L]|E]; [reflexivity|]. rewrite E. cbn [Z.of_N].
    replace (Zpos a - Zpos m) with (Zpos a + (-1) * Zpos m) by lia. apply Z_mod_plus_full. }
  destruct (N.ltb_spec (red1 m (Npos a)) (Npos m)) as [L|L].
  - rewrite <- E. symmetry. apply Z.mod_small. lia.
  - now rewrite N2Z.inj_mod.
Qed.
Lemma prem_spec m : forall k a, Z.of_N (prem k a m) = Zpos a mod Zpos m.
Proof.
  induction k as [|k IH]; intros a; [destruct a; apply prem_base|].
  destruct a as [a|a|]; cbn [prem]; [| |apply prem_base].
  - assert (B : (prem k a m < Npos m)%N) by (pose proof (IH a); pose proof (Z.mod_pos_bound (Zpos a) (Zpos m)); lia).
    rewrite red1_mod by lia. rewrite N.succ_double_spec, N2Z.inj_add, N2Z.inj_mul, IH.
    change (Z.of_N 2) with 2. change (Z.of_N 1) with 1.
    rewrite Z.add_mod, Z.mul_mod_idemp_r, <- Z.add_mod by lia. reflexivity.
  - assert (B : (prem k a m < Npos m)%N) by (pose proof (IH a); pose proof (Z.mod_pos_bound (Zpos a) (Zpos m)); lia).
    rewrite red1_mod by lia. rewrite N.double_spec, N2Z.inj_mul, IH.
    change (Z.of_N 2) with 2. rewrite Z.mul_mod_idemp_r by lia. reflexivity.
Qed.
Definition fmod (a m : Z) : Z :=
  match a, m with
  | Zpos a, Zpos m => Z.of_N (prem (Pos.size_nat a - Pos.size_nat m) a m)
  | _, _ => a mod m
  end.
Lemma fmod_spec a m : fmod a m = a mod m.
Proof. destruct a, m; try reflexivity. apply prem_spec. Qed.
Fixpoint fpow_pos (b : Z) (e : positive) (m : Z) : Z :=
  match e with
  | xH => fmod b m
  | xO e' => fmod (Z.square (fpow_pos b e' m)) m
  | xI e' => fmod (b * Z.square (fpow_pos b e' m)) m
  end.
Definition fpow (b e m : Z) : Z := match e with Zpos p => fpow_pos b p m | _ => 1 mod m end.
Lemma fpow_spec b e m : m <> 0 -> 0 <= e -> fpow b e m = (b ^ e) mod m.
Proof.
  intros Hm He. destruct e as [|e|e]; cbn [fpow]; [reflexivity| |lia]. clear He.
  rewrite <- modpow_pos_spec by assumption.
  induction e as [e IH|e IH|]; cbn [fpow_pos modpow_pos]; rewrite fmod_spec, ?Z.square_spec, ?IH; [|reflexivity..].
  rewrite Z.mul_mod_idemp_l by assumption. f_equal. ring.
Qed.

(** ** Fermat's little theorem *)
Definition zprod (l : list Z) : Z := fold_right Z.mul 1 l.
Lemma zprod_perm l m : Permutation l m -> zprod l = zprod m.
Proof. induction 1; cbn [zprod fold_right] in *; [reflexivity|unfold zprod in *; now rewrite IHPermutation|ring|congruence]. Qed.
Lemma zprod_map_mul a l : zprod (map (Z.mul a) l) = a ^ Z.of_nat (length l) * zprod l.
Proof.
  induction l as [|x l IH]; cbn [map zprod fold_right length]; [now rewrite Z.mul_1_r|].
  fold (zprod (map (Z.mul a) l)) (zprod l). rewrite IH, Nat2Z.inj_succ, Z.pow_succ_r by lia. ring.
Qed.
Lemma zprod_mod n l : n <> 0 -> zprod (map (fun x => x mod n) l) mod n = zprod l mod n.
Proof.
  intros Hn. induction l as [|x l IH]; cbn [map zprod fold_right]; [reflexivity|].
  fold (zprod (map (fun x => x mod n) l)) (zprod l).
  rewrite Z.mul_mod_idemp_l by assumption. rewrite Z.mul_mod, IH, <- Z.mul_mod by assumption. reflexivity.
Qed.
Lemma prime_not_div_prod p l : prime p -> (forall x, In x l -> ~ (p | x)) -> ~ (p | zprod l).
Proof.
  intros Hp H. induction l as [|x l IH]; cbn [zprod fold_right]; intros D.
  - pose proof (prime_ge_2 p Hp). apply Z.divide_1_r_nonneg in D; lia.
  - apply prime_mult in D; [|assumption]. destruct D as [D|D].
    + exact (H x (or_introl eq_refl) D).
    + apply IH; [intros; apply H; now right|exact D].
Qed.
Lemma mod_cancel p a x y : prime p -> ~ (p | a) -> (a * x) mod p = (a * y) mod p -> x mod p = y mod p.
Proof.
  intros Hp Ha E. pose proof (prime_ge_2 p Hp).
  assert (D : (p | a * (x - y))).
  { rewrite Z.mul_sub_distr_l. apply Z.mod_divide; [lia|]. rewrite Zminus_mod, E, Z.sub_diag. now apply Z.mod_0_l; lia. }
  apply prime_mult in D; [|assumption]. destruct D as [D|[k D]]; [contradiction|].
  replace x with (y + k * p) by lia. apply Z_mod_plus_full.
Qed.
Definition residues (p : Z) : list Z := map Z.of_nat (seq 1 (Z.to_nat (p - 1))).
Lemma in_residues p x : 1 < p -> In x (residues p) <-> 0 < x < p.
Proof.
  intros Hp. unfold residues. rewrite in_map_iff. split.
  - intros (k & <- & Hk). apply in_seq in Hk. lia.
  - intros Hx. exists (Z.to_nat x). split; [lia|]. apply in_seq. lia.
Qed.
Lemma NoDup_map_inj {A B} (f : A -> B) l : NoDup l ->
  (forall x y, In x l -> In y l -> f x = f y -> x = y) -> NoDup (map f l).
Proof.
  induction 1 as [|a l Ha Hl IH]; intros Hf; cbn; constructor.
  - intros Hin. apply in_map_iff in Hin. destruct Hin as (x & Ex & Hx).
    assert (x = a) by (apply Hf; [now right|now left|assumption]). congruence.
  - apply IH. intros x y Hx Hy. apply Hf; now right.
Qed.
Lemma residues_NoDup p : NoDup (residues p).
Proof. apply NoDup_map_inj; [apply seq_NoDup|]. intros; lia. Qed.

Theorem fermat_little p a : prime p -> ~ (p | a) -> a ^ (p - 1) mod p = 1.
Proof.
  intros Hp Ha. pose proof (prime_ge_2 p Hp) as P2.
  set (L := residues p). set (M := map (fun x => x mod p) (map (Z.mul a) L)).
  assert (LM : length M = length L) by (unfold M; now rewrite !map_length).
  assert (In_L : forall x, In x L <-> 0 < x < p) by (intros; apply in_residues; lia).
  assert (Perm : Permutation M L).
  { apply NoDup_Permutation_bis.
    - unfold M. rewrite map_map. apply NoDup_map_inj; [apply residues_NoDup|].
      intros x y Hx Hy E. apply In_L in Hx, Hy. apply (mod_cancel p a x y Hp Ha) in E.
      now rewrite !Z.mod_small in E by lia.
    - rewrite LM. lia.
    - intros y Hy. unfold M in Hy. rewrite map_map in Hy. apply in_map_iff in Hy.
      destruct Hy as (x & <- & Hx). apply In_L in Hx. apply In_L.
      pose proof (Z.mod_pos_bound (a * x) p ltac:(lia)).
      assert ((a * x) mod p <> 0); [|lia]. intros E.
      apply Z.mod_divide in E; [|lia]. apply prime_mult in E; [|assumption].
      destruct E as [E|E]; [contradiction|]. apply Z.divide_pos_le in E; lia. }
  assert (E : (a ^ (p - 1) * zprod L) mod p = zprod L mod p).
  { rewrite <- (zprod_perm _ _ Perm) at 2. unfold M. rewrite zprod_mod by lia.
    rewrite zprod_map_mul. do 3 f_equal. unfold L, residues. rewrite map_length, seq_length. lia. }
  rewrite <- (Z.mul_1_r (zprod L)) in E at 2. rewrite (Z.mul_comm _ (zprod L)) in E.
  apply mod_cancel in E; [|assumption|].
  - rewrite E. apply Z.mod_small. lia.
  - apply prime_not_div_prod; [assumption|]. intros x Hx D. apply In_L in Hx.
    apply Z.divide_pos_le in D; lia.
Qed.

Lemma pow_mod_1 b k r : 1 < r -> 0 <= k -> b mod r = 1 -> b ^ k mod r = 1.
Proof.
  intros Hr Hk Hb. rewrite Zpower_mod, Hb, Z.pow_1_l by lia. apply Z.mod_small. lia.
Qed.

(** If b^q = 1 and b <> 1 modulo the prime r, and q is prime, then q divides r - 1. *)
Lemma order_divides r q b : prime r -> prime q -> b ^ q mod r = 1 -> b mod r <> 1 -> (q | r - 1).
Proof.
  intros Hr Hq E N. pose proof (prime_ge_2 r Hr). pose proof (prime_ge_2 q Hq).
  destruct (Zdivide_dec q (r - 1)) as [D|D]; [assumption|exfalso].
  assert (Hb : ~ (r | b)).
  { intros [k Hk]. assert ((r | b ^ q)).
    { replace q with (1 + (q - 1)) by lia. rewrite Z.pow_add_r, Z.pow_1_r by lia.
      apply Z.divide_mul_l. now exists k. }
    apply Z.mod_divide in H1; lia. }
  pose proof (fermat_little r b Hr Hb) as F.
  assert (G : rel_prime q (r - 1)) by now apply prime_rel_prime.
  apply rel_prime_bezout in G. destruct G as [u v G].
  (* u q + v (r-1) = 1; shift u to be positive *)
  assert (Hk : exists k, 0 <= k /\ - u <= k /\ v <= k) by (exists (Z.abs u + Z.abs v); lia).
  destruct Hk as (k & Hk0 & Hku & Hkv).
  set (u' := u + k * (r - 1)). set (v' := k * q - v).
  assert (Hu : 0 <= u') by (unfold u'; assert (k <= k * (r - 1)) by (clear - Hk0 H; nia); lia).
  assert (Hv : 0 <= v') by (unfold v'; assert (k <= k * q) by (clear - Hk0 H0; nia); lia).
  assert (Euv : q * u' = 1 + (r - 1) * v') by (transitivity ((u * q + v * (r - 1)) + (r - 1) * v'); [unfold u', v'; ring|now rewrite G]).
  assert (b ^ (q * u') mod r = 1).
  { rewrite Z.pow_mul_r by lia. now apply pow_mod_1; lia. }
  assert (0 <= (r - 1) * v') by (apply Z.mul_nonneg_nonneg; lia).
  rewrite Euv, Z.pow_add_r, Z.pow_1_r, Z.pow_mul_r in H1 by lia.
  rewrite Z.mul_mod, (pow_mod_1 (b ^ (r - 1))), Z.mul_1_r, Z.mod_mod in H1 by lia. contradiction.
Qed.

Lemma exists_prime_divisor n : 1 < n -> exists r, prime r /\ (r | n).
Proof.
  intros H. assert (forall k, (0 <= k) -> forall n, 1 < n <= k -> exists r, prime r /\ (r | n)) as G.
  { intros k Hk. pattern k. apply Z_lt_induction; [|exact Hk]. clear k Hk. intros k IH m Hm.
    destruct (prime_dec m) as [P|P]; [exists m; split; [assumption|apply Z.divide_refl]|].
    apply not_prime_divide in P; [|lia]. destruct P as (d & Hd & D).
    destruct (IH d ltac:(lia) d ltac:(lia)) as (r & Pr & Dr). exists r. split; [assumption|].
    now apply Z.divide_trans with d. }
  apply (G n); lia.
Qed.

(** A divisor's square exceeds the number when every prime divisor is large. *)
Lemma large_divisors_prime n B : 1 < n -> n < B * B -> 0 < B ->
  (forall r, prime r -> (r | n) -> B <= r) -> prime n.
Proof.
  intros Hn HB HB0 H. destruct (prime_dec n) as [P|P]; [assumption|exfalso].
  apply not_prime_divide in P; [|lia]. destruct P as (d & Hd & [e He]).
  destruct (exists_prime_divisor d) as (r & Pr & Dr); [lia|].
  destruct (exists_prime_divisor e) as (s & Ps & Ds); [nia|].
  assert (B <= r) by (apply H; [assumption|]; apply Z.divide_trans with d; [assumption|now exists e]).
  assert (B <= s) by (apply H; [assumption|]; apply Z.divide_trans with e; [assumption|exists d; lia]).
  apply Z.divide_pos_le in Dr; [|lia]. apply Z.divide_pos_le in Ds; [|nia]. nia.
Qed.

Lemma coprime_prod_divides l m : (forall q, In q l -> (q | m)) ->
  (forall q, In q l -> prime q) -> NoDup l -> (zprod l | m).
Proof.
  induction l as [|q l IH]; intros H P N; cbn [zprod fold_right]; [apply Z.divide_1_l|].
  inversion N as [|? ? Hq Nl]; subst.
  assert (D : (zprod l | m)) by (apply IH; [intros; apply H; now right|intros; apply P; now right|assumption]).
  destruct D as [k Hk].
  assert (Pq : prime q) by (apply P; now left).
  assert (NQ : ~ (q | zprod l)).
  { apply prime_not_div_prod; [assumption|]. intros x Hx D. assert (prime x) by (apply P; now right).
    apply prime_div_prime in D; [|assumption..]. congruence. }
  assert (Dm : (q | m)) by (apply H; now left). rewrite Hk in Dm.
  apply prime_mult in Dm; [|assumption]. destruct Dm as [[j Hj]|]; [|contradiction].
  exists j. rewrite Hk, Hj. fold (zprod l). ring.
Qed.

(** Pocklington's criterion with a squarefree factored part. *)
Definition pock_check (n a : Z) (c : list Z) : bool :=
  (1 <? n) && (n <? zprod c * zprod c) && (0 <? zprod c) && (fpow a (n - 1) n =? 1) &&
  forallb (fun q => ((n - 1) mod q =? 0) && (Z.gcd (fpow a ((n - 1) / q) n - 1) n =? 1)) c.

Lemma pocklington n a c : (forall q, In q c -> prime q) -> NoDup c -> pock_check n a c = true -> prime n.
Proof.
  intros P N C. unfold pock_check in C. rewrite !andb_true_iff in C. destruct C as [[[[C1 C2] C3] A2] C4].
  apply Z.ltb_lt in C1, C2, C3. apply Z.eqb_eq in A2. set (F := zprod c) in *.
  apply (large_divisors_prime n F); [lia|lia|lia|]. intros r Pr Dr.
  pose proof (prime_ge_2 r Pr).
  assert ((F | r - 1)).
  { apply coprime_prod_divides; auto. intros q Hq. specialize (P q Hq).
    rewrite forallb_forall in C4. specialize (C4 _ Hq). cbv beta in C4.
    rewrite !andb_true_iff in C4. destruct C4 as [A1 A3].
    apply Z.eqb_eq in A1, A3. pose proof (prime_ge_2 q P).
    apply Z.mod_divide in A1; [|lia]. destruct A1 as [m Hm].
    assert (Dm : (n - 1) / q = m) by (rewrite Hm; apply Z.div_mul; lia).
    assert (0 <= m) by nia.
    rewrite Dm in A3. rewrite fpow_spec in A2, A3 by lia.
    assert (R : forall x, (x mod n) mod r = x mod r).
    { intros x. destruct Dr as [k Hk]. rewrite (Z.mod_eq x n) by lia. generalize (x / n) as d. intros d.
      replace (x - n * d) with (x + (- k * d) * r) by (rewrite Hk; ring).
      apply Z_mod_plus_full. }
    apply (order_divides r q (a ^ m)); auto.
    - rewrite <- Z.pow_mul_r by lia. rewrite <- Hm, <- R, A2. apply Z.mod_small; lia.
    - intros E. assert (G : (r | Z.gcd ((a ^ m) mod n - 1) n)).
      { apply Z.gcd_greatest; [|assumption]. apply Z.mod_divide; [lia|].
        rewrite Zminus_mod, R, E, (Z.mod_small 1) by lia. reflexivity. }
      rewrite A3 in G. apply Z.divide_1_r_nonneg in G; lia. }
  apply Z.divide_pos_le in H0; lia.
Qed.

(** Trial division for the leaves. *)
Fixpoint no_div (n : Z) (d : Z) (k : nat) : bool :=
  match k with
  | O => true
  | S k' => negb (n mod d =? 0) && no_div n (d + 1) k'
  end.
Lemma no_div_spec n d k : no_div n d k = true -> forall x, d <= x < d + Z.of_nat k -> n mod x <> 0.
Proof.
  revert d; induction k as [|k IH]; intros d H x Hx; [lia|].
  cbn [no_div] in H. apply andb_true_iff in H. destruct H as [H1 H2].
  destruct (Z.eq_dec x d) as [->|]; [now apply Z.eqb_neq, negb_true_iff|].
  apply (IH (d + 1)); [assumption|lia].
Qed.
Lemma trial_prime n k : 1 < n -> n < (2 + Z.of_nat k) * (2 + Z.of_nat k) -> no_div n 2 k = true -> prime n.
Proof.
  intros Hn Hk H. apply (large_divisors_prime n (2 + Z.of_nat k)); [lia|lia|lia|].
  intros r Pr Dr. pose proof (prime_ge_2 r Pr).
  destruct (Z_lt_le_dec r (2 + Z.of_nat k)) as [L|L]; [exfalso|assumption].
  apply (no_div_spec n 2 k H r); [lia|]. now apply Z.mod_divide; [lia|].
Qed.

(** A certificate: numbers in order, each proved by trial division (empty list) or by
    Pocklington from primes proved before. *)
Fixpoint nodupb (l : list Z) : bool :=
  match l with [] => true | x :: t => negb (existsb (Z.eqb x) t) && nodupb t end.
Lemma nodupb_spec l : nodupb l = true -> NoDup l.
Proof.
  induction l as [|x l IH]; cbn; intros H; constructor; apply andb_true_iff in H; destruct H as [H1 H2].
  - intros Hin. apply negb_true_iff in H1. apply (existsb_exists (Z.eqb x) l) in Hin || idtac.
    assert (existsb (Z.eqb x) l = true) by (apply existsb_exists; exists x; split; [assumption|apply Z.eqb_refl]).
    congruence.
  - auto.
Qed.
Fixpoint check_cert (known : list Z) (c : list (Z * list Z)) : bool :=
  match c with
  | [] => true
  | (n, qs) :: t =>
      (match qs with
       | [] => (1 <? n) && (n <? 1000000) && no_div n 2 (Z.to_nat (Z.min (Z.sqrt n) (n - 2)))
       | _ => forallb (fun q => existsb (Z.eqb q) known) qs && nodupb qs && pock_check n 2 qs
       end) && check_cert (n :: known) t
  end.
Lemma check_cert_spec c : forall known, (forall q, In q known -> prime q) -> check_cert known c = true ->
  forall n, In n (map fst c) -> prime n.
Proof.
  induction c as [|[n qs] c IH]; intros known K H m Hm; [destruct Hm|].
  cbn [check_cert] in H. apply andb_true_iff in H. destruct H as [H1 H2].
  assert (Pn : prime n).
  { destruct qs as [|qa qs].
    - rewrite !andb_true_iff in H1. destruct H1 as [[A1 A2] A3]. apply Z.ltb_lt in A1.
      apply (trial_prime n _ A1) in A3; [assumption|].
      pose proof (Z.sqrt_spec n ltac:(lia)). pose proof (Z.sqrt_nonneg n).
      destruct (Z.min_spec (Z.sqrt n) (n - 2)) as [[_ ->]|[_ ->]].
      + rewrite Z2Nat.id by lia. unfold Z.succ in *. lia.
      + rewrite Z2Nat.id by lia. nia.
    - rewrite !andb_true_iff in H1. destruct H1 as [[A1 A2] A3].
      apply (pocklington n 2 (qa :: qs)); [|now apply nodupb_spec|assumption].
      intros q Hq. rewrite forallb_forall in A1. specialize (A1 q Hq). apply existsb_exists in A1.
      destruct A1 as (x & Hx & E). apply Z.eqb_eq in E. subst x. auto. }
  destruct Hm as [<-|Hm]; [exact Pn|]. apply (IH (n :: known)); [|exact H2|exact Hm].
  intros q [<-|Hq]; auto.
Qed.

Definition certs : list (Z * list Z) := [
  (221101, []); (37003, []); (991, []); (103, []); (127, []); (569003, []); (430751, []); (4153, []);
  (704251, []); (78283, []); (3677, []); (197, []);
  (4024685905107147541, [221101; 37003]);
  (897064739519922787230182993783, [4024685905107147541]);
  (1361129467683753853853498429727072845819, [897064739519922787230182993783]);
  (8574133, [991; 103]);
  (1919519569386763, [8574133; 127]);
  (2773320623, [569003]);
  (72106336199, [2773320623]);
  (75445702479781427272750846543864801, [1919519569386763; 72106336199]);
  (31757755568855353, [430751; 4153]);
  (74058212732561358302231226437062788676166966415465897661863160754340907,
     [75445702479781427272750846543864801; 31757755568855353]);
  (57896044618658097711785492504343953926634992332820282019728792003956564819949,
     [74058212732561358302231226437062788676166966415465897661863160754340907]);
  (46076956964474543, [704251; 78283]);
  (66417393611, [3677; 197]);
  (11290956913871, [66417393611]);
  (774023187263532362759620327192479577272145303, [46076956964474543; 11290956913871]);
  (835945042244614951780389953367877943453916927241, [774023187263532362759620327192479577272145303]);
  (115792089210356248762697446949407573530086143415290314195533631308867097853951,
     [835945042244614951780389953367877943453916927241])].
Lemma certs_ok : check_cert [] certs = true.
Proof. vm_compute. reflexivity. Qed.
Lemma cert_prime n : existsb (Z.eqb n) (map fst certs) = true -> prime n.
Proof.
  intros H. apply (check_cert_spec certs []); [intros q []|exact certs_ok|].
  apply existsb_exists in H. destruct H as (x & Hx & E). apply Z.eqb_eq in E. now subst x.
Qed.

Lemma prime_25519 : prime (2 ^ 255 - 19).
Proof. apply cert_prime. vm_compute. reflexivity. Qed.
Lemma prime_p256 : prime (2 ^ 256 - 2 ^ 224 + 2 ^ 192 + 2 ^ 96 - 1).
Proof. apply cert_prime. vm_compute. reflexivity. Qed.
Lemma prime_1305 : prime (2 ^ 130 - 5).
Proof. apply cert_prime. vm_compute. reflexivity. Qed.
