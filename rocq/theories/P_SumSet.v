(** Sums c_1 a_1 + ... + c_k a_k modulo a prime with bounded c_i: if enough of the a_i are not zero, every residue is
    such a sum (Cauchy and Davenport's theorem for arithmetic progressions). Used for C102. *)
From Coq Require Import ZArith List Bool Arith Lia Znumtheory FinFun.
Import ListNotations.
Local Open Scope Z_scope.

Definition dot (cs as_ : list Z) : Z := fold_right Z.add 0 (map (fun x => fst x * snd x) (combine cs as_)).
Definition nonzeros (p : Z) (as_ : list Z) : nat := length (filter (fun a => negb (a mod p =? 0)) as_).

Section SumSet.
Variable p : Z.
Hypothesis Hp : prime p.
Let p1 : 1 < p. Proof. destruct Hp. lia. Qed.

Definition residues (l : list Z) : Prop := NoDup l /\ Forall (fun x => 0 <= x < p) l.
Definition all_residues : list Z := map Z.of_nat (seq 0 (Z.to_nat p)).
Lemma all_residues_ok : residues all_residues /\ Z.of_nat (length all_residues) = p /\ (forall x, 0 <= x < p -> In x all_residues).
Proof.
  unfold all_residues. split; [split|split].
  - apply Injective_map_NoDup; [intros x y; lia|apply seq_NoDup].
  - apply Forall_forall. intros x Hx. apply in_map_iff in Hx as (n & <- & Hn). apply in_seq in Hn. lia.
  - rewrite map_length, seq_length. lia.
  - intros x Hx. apply in_map_iff. exists (Z.to_nat x). split; [lia|]. apply in_seq. lia.
Qed.
Lemma residues_short l : residues l -> Z.of_nat (length l) <= p.
Proof.
  intros [N F]. destruct all_residues_ok as (_ & L & I). rewrite <- L. apply inj_le. apply NoDup_incl_length; trivial.
  intros x Hx. apply I. rewrite Forall_forall in F. now apply F.
Qed.
Lemma residues_full l x : residues l -> p <= Z.of_nat (length l) -> 0 <= x < p -> In x l.
Proof.
  intros R L Hx. destruct (in_dec Z.eq_dec x l) as [H|H]; trivial. exfalso.
  assert (R' : residues (x :: l)) by (destruct R; split; constructor; trivial).
  apply residues_short in R'. cbn [length] in R'. lia.
Qed.
Lemma invertible a : a mod p <> 0 -> exists i, 0 <= i /\ (a * i) mod p = 1.
Proof.
  intros N. assert (R : rel_prime a p).
  { apply rel_prime_sym. apply prime_rel_prime; trivial. intros D. apply N. now apply Zdivide_mod. }
  apply rel_prime_bezout in R as [u v E]. exists (u mod p). split; [apply Z.mod_pos_bound; lia|].
  rewrite Zmult_mod_idemp_r. replace (a * u) with (1 + (- v) * p) by lia. rewrite Z.mod_add by lia. apply Z.mod_small. lia.
Qed.
(** A set of residues that is neither empty nor full is left by some step of a. *)
Lemma leaves l a : residues l -> l <> [] -> Z.of_nat (length l) < p -> a mod p <> 0 ->
  exists x, In x l /\ ~ In ((x + a) mod p) l.
Proof.
  intros R N L Ha.
  destruct (Forall_Exists_dec (fun x => In ((x + a) mod p) l) (fun x => in_dec Z.eq_dec ((x + a) mod p) l) l) as [H|H].
  - exfalso. destruct l as [|x0 l0]; [now apply N|]. set (l := x0 :: l0) in *.
    assert (S : forall k : nat, In ((x0 + Z.of_nat k * a) mod p) l).
    { induction k as [|k IH].
      - replace (x0 + Z.of_nat 0 * a) with x0 by lia. destruct R as [_ F]. rewrite Forall_forall in F.
        rewrite Z.mod_small; [now left|]. apply F. now left.
      - rewrite Forall_forall in H. specialize (H _ IH). rewrite Zplus_mod_idemp_l in H.
        replace (x0 + Z.of_nat (S k) * a) with (x0 + Z.of_nat k * a + a) by lia. exact H. }
    destruct (invertible a Ha) as (i & Hi & E).
    assert (A : incl all_residues l).
    { intros y Hy. destruct all_residues_ok as ((_ & F) & _ & _). rewrite Forall_forall in F. specialize (F y Hy).
      specialize (S (Z.to_nat ((y - x0) * i mod p))). rewrite Z2Nat.id in S by (apply Z.mod_pos_bound; lia).
      replace ((x0 + (y - x0) * i mod p * a) mod p) with y in S; trivial.
      rewrite Zplus_mod, Zmult_mod_idemp_l, <- Zplus_mod.
      replace (x0 + (y - x0) * i * a) with (x0 + (y - x0) * (a * i)) by lia.
      rewrite <- Zplus_mod_idemp_r, <- Zmult_mod_idemp_r, E, Zplus_mod_idemp_r. replace (x0 + (y - x0) * 1) with y by lia.
      symmetry. now apply Z.mod_small. }
    destruct all_residues_ok as ((ND & _) & La & _). pose proof (NoDup_incl_length ND A). lia.
  - apply Exists_exists in H as (x & Hx & Q). now exists x.
Qed.
(** Adding c times a, 0 <= c <= m, gains m residues. *)
Lemma gain a m : a mod p <> 0 -> forall l, residues l -> l <> [] ->
  exists l', residues l' /\ Z.min p (Z.of_nat (length l) + Z.of_nat m) <= Z.of_nat (length l') /\ l' <> [] /\
    forall y, In y l' -> exists x c, In x l /\ 0 <= c <= Z.of_nat m /\ y = (x + c * a) mod p.
Proof.
  intros Ha l R N. induction m as [|m (l' & R' & L' & N' & I')].
  - exists l. split; trivial. split; [lia|]. split; trivial. intros y Hy. exists y, 0. split; trivial. split; [lia|].
    destruct R as [_ F]. rewrite Forall_forall in F. specialize (F y Hy). rewrite Z.mod_small; lia.
  - destruct (Z_lt_ge_dec (Z.of_nat (length l')) p) as [C|C].
    + destruct (leaves l' a R' N' C Ha) as (x & Hx & Nx). exists ((x + a) mod p :: l'). split; [|split; [|split]].
      * destruct R'. split; constructor; trivial. apply Z.mod_pos_bound. lia.
      * cbn [length]. lia.
      * discriminate.
      * intros y [<-|Hy].
        -- destruct (I' x Hx) as (x' & c & Hx' & Hc & E). exists x', (c + 1). split; trivial. split; [lia|].
           rewrite E, Zplus_mod_idemp_l. f_equal. lia.
        -- destruct (I' y Hy) as (x' & c & Hx' & Hc & E). exists x', c. split; trivial. split; [lia|]. exact E.
    + exists l'. split; trivial. split; [lia|]. split; trivial. intros y Hy.
      destruct (I' y Hy) as (x' & c & Hx' & Hc & E). exists x', c. split; trivial. split; [lia|]. exact E.
Qed.
Lemma sums m as_ : exists l, residues l /\ l <> [] /\ Z.min p (1 + Z.of_nat (nonzeros p as_) * Z.of_nat m) <= Z.of_nat (length l) /\
  forall y, In y l -> exists cs, length cs = length as_ /\ Forall (fun c => 0 <= c <= Z.of_nat m) cs /\ y = dot cs as_ mod p.
Proof.
  induction as_ as [|a as_ (l & R & N & L & I)].
  - exists [0]. split; [split; repeat constructor; [intros []|lia|lia]|]. split; [discriminate|]. split; [cbn; lia|].
    intros y [<-|[]]. exists []. split; trivial. split; [constructor|]. symmetry. apply Zmod_0_l.
  - unfold nonzeros in *. cbn [filter]. destruct (Z.eqb_spec (a mod p) 0) as [E|E]; cbn [negb].
    + exists l. split; trivial. split; trivial. split; trivial. intros y Hy. destruct (I y Hy) as (cs & Lc & F & Q).
      exists (0 :: cs). split; [cbn; lia|]. split; [constructor; [lia|exact F]|]. exact Q.
    + destruct (gain a m E l R N) as (l' & R' & L' & N' & I'). exists l'. split; trivial. split; trivial. split.
      * cbn [length]. lia.
      * intros y Hy. destruct (I' y Hy) as (x & c & Hx & Hc & ->). destruct (I x Hx) as (cs & Lc & F & ->).
        exists (c :: cs). split; [cbn; lia|]. split; [now constructor|]. rewrite Zplus_mod_idemp_l. f_equal. unfold dot. cbn [combine map fold_right fst snd]. lia.
Qed.
Theorem every_residue m as_ : p <= 1 + Z.of_nat (nonzeros p as_) * m -> 0 <= m -> forall t,
  exists cs, length cs = length as_ /\ Forall (fun c => 0 <= c <= m) cs /\ dot cs as_ mod p = t mod p.
Proof.
  intros B Hm t. destruct (sums (Z.to_nat m) as_) as (l & R & _ & L & I). rewrite Z2Nat.id in * by lia.
  destruct (I (t mod p)) as (cs & Lc & F & E).
  - apply residues_full; trivial; [lia|]. apply Z.mod_pos_bound. lia.
  - exists cs. split; trivial. split; trivial. now symmetry.
Qed.
End SumSet.
