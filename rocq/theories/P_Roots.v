(** A non-zero polynomial over an integral domain has fewer roots than coefficients. *)
From Coq Require Import List Arith Lia Bool Ring_theory Ring.
Import ListNotations.

Section Roots.
  Variable F : Type.
  Variables (f0 f1 : F) (fadd fmul fsub : F -> F -> F) (fopp : F -> F).
  Hypothesis Rth : ring_theory f0 f1 fadd fmul fsub fopp eq.
  Hypothesis nzd : forall a b, fmul a b = f0 -> a = f0 \/ b = f0.
  Add Ring Froots : Rth.

  (** coefficients, constant term first *)
  Fixpoint peval (cs : list F) (x : F) : F :=
    match cs with [] => f0 | c :: cs => fadd c (fmul x (peval cs x)) end.
  Definition all_zero (cs : list F) : Prop := forall c, In c cs -> c = f0.
  Fixpoint pquot (cs : list F) (a : F) : list F :=
    match cs with
    | [] => []
    | c :: cs => match cs with [] => [] | _ => peval cs a :: pquot cs a end
    end.
  Lemma pquot_length cs a : length (pquot cs a) = (length cs - 1)%nat.
  Proof. induction cs as [|c [|c' cs] IH]; [reflexivity..|]. cbn [pquot length] in *. rewrite IH. lia. Qed.
  Lemma pquot_spec cs a x : peval cs x = fadd (peval cs a) (fmul (fsub x a) (peval (pquot cs a) x)).
  Proof.
    induction cs as [|c cs IH]; [cbn; ring|].
    destruct cs as [|c' cs]; [cbn; ring|].
    change (pquot (c :: c' :: cs) a) with (peval (c' :: cs) a :: pquot (c' :: cs) a).
    change (peval (c :: c' :: cs) x) with (fadd c (fmul x (peval (c' :: cs) x))).
    change (peval (c :: c' :: cs) a) with (fadd c (fmul a (peval (c' :: cs) a))).
    rewrite IH. cbn [peval]. ring.
  Qed.
  Lemma pquot_zero cs a : all_zero (pquot cs a) -> peval cs a = f0 -> all_zero cs.
  Proof.
    induction cs as [|c cs IH]; intros Z E; [intros ? []|].
    destruct cs as [|c' cs].
    - intros d [<-|[]]. rewrite <- E. cbn. ring.
    - change (pquot (c :: c' :: cs) a) with (peval (c' :: cs) a :: pquot (c' :: cs) a) in Z.
      change (peval (c :: c' :: cs) a) with (fadd c (fmul a (peval (c' :: cs) a))) in E.
      assert (E' : peval (c' :: cs) a = f0) by (apply Z; now left).
      assert (Z' : all_zero (c' :: cs)). { apply IH; [|exact E']. intros d Hd. apply Z. now right. }
      intros d [<-|Hd]; [|now apply Z']. rewrite E' in E. rewrite <- E. ring.
  Qed.
  Theorem few_roots : forall rs cs, NoDup rs -> (forall r, In r rs -> peval cs r = f0) -> ~ all_zero cs ->
    (length rs < length cs)%nat.
  Proof.
    induction rs as [|r rs IH]; intros cs ND R NZ.
    - destruct cs; cbn; [|lia]. exfalso. apply NZ. intros ? [].
    - inversion ND as [|? ? NI ND']; subst. pose proof (R r (or_introl eq_refl)) as E.
      assert (NQ : ~ all_zero (pquot cs r)) by (intros Z; apply NZ; now apply (pquot_zero cs r)).
      assert (H : (length rs < length (pquot cs r))%nat).
      { apply IH; [assumption| |exact NQ]. intros r' Hr'.
        pose proof (R r' (or_intror Hr')) as E'. rewrite (pquot_spec cs r r'), E in E'.
        assert (M : fmul (fsub r' r) (peval (pquot cs r) r') = f0) by (rewrite <- E'; ring).
        apply nzd in M as [D|Q]; [|exact Q]. exfalso. apply NI.
        replace r with r'; [exact Hr'|]. transitivity (fadd (fsub r' r) r); [ring|]. rewrite D. ring. }
      rewrite pquot_length in H. cbn [length]. lia.
  Qed.

  (** the difference of two polynomials *)
  Fixpoint psub (xs ys : list F) : list F :=
    match xs, ys with
    | [], ys => map fopp ys
    | xs, [] => xs
    | x :: xs, y :: ys => fsub x y :: psub xs ys
    end.
  Lemma peval_opp ys x : peval (map fopp ys) x = fopp (peval ys x).
  Proof. induction ys as [|y ys IH]; cbn; [ring|]. rewrite IH. ring. Qed.
  Lemma psub_eval xs : forall ys x, peval (psub xs ys) x = fsub (peval xs x) (peval ys x).
  Proof.
    induction xs as [|a xs IH]; intros [|b ys] x; cbn [psub]; [cbn; ring| |cbn; ring|].
    - rewrite peval_opp. cbn [peval]. ring.
    - cbn [peval]. rewrite IH. ring.
  Qed.
  Lemma psub_length xs : forall ys, length (psub xs ys) = Nat.max (length xs) (length ys).
  Proof. induction xs as [|a xs IH]; intros [|b ys]; cbn; rewrite ?map_length, ?IH; reflexivity. Qed.
  Lemma psub_zero xs : forall ys, all_zero (psub xs ys) -> forall i, nth i xs f0 = nth i ys f0.
  Proof.
    induction xs as [|a xs IH]; intros [|b ys] Z i.
    - reflexivity.
    - cbn [psub] in Z. replace (nth i [] f0) with f0 by (destruct i; reflexivity). symmetry.
      destruct (Nat.lt_ge_cases i (length (b :: ys))) as [L|L]; [|now apply nth_overflow].
      assert (E : fopp (nth i (b :: ys) f0) = f0). { apply Z. apply in_map. now apply nth_In. }
      transitivity (fopp (fopp (nth i (b :: ys) f0))); [ring|]. rewrite E. ring.
    - cbn [psub] in Z. replace (nth i [] f0) with f0 by (destruct i; reflexivity).
      destruct (Nat.lt_ge_cases i (length (a :: xs))) as [L|L]; [|now apply nth_overflow].
      apply Z. now apply nth_In.
    - destruct i as [|i]; cbn [nth].
      + assert (E : fsub a b = f0) by (apply Z; now left).
        transitivity (fadd (fsub a b) b); [ring|]. rewrite E. ring.
      + apply IH. intros c Hc. apply Z. now right.
  Qed.

  (** b_0 x^n + b_1 x^(n-1) + ... + b_(n-1) x, as computed block by block *)
  Definition mac (bs : list F) (x : F) : F := fold_left (fun acc b => fmul (fadd acc b) x) bs f0.
  Lemma mac_eval bs x : mac bs x = fmul x (peval (rev bs) x).
  Proof.
    unfold mac. rewrite <- (rev_involutive bs) at 1. generalize (rev bs) as cs. clear bs.
    induction cs as [|c cs IH]; cbn; [ring|]. rewrite fold_left_app. cbn [fold_left]. rewrite IH. ring.
  Qed.
  (** Two messages with different blocks (aligned at the end) have a given difference of hashes
      for at most as many keys as they have blocks. *)
  Theorem mac_universal : forall bs bs' d rs, NoDup rs ->
    (forall r, In r rs -> fsub (mac bs r) (mac bs' r) = d) ->
    ~ (forall i, nth i (rev bs) f0 = nth i (rev bs') f0) ->
    (length rs <= Nat.max (length bs) (length bs'))%nat.
  Proof.
    intros bs bs' d rs ND H Hi.
    assert (L : (length rs < length (fopp d :: psub (rev bs) (rev bs')))%nat).
    { apply few_roots; [exact ND| |].
      - intros r Hr. cbn [peval]. rewrite psub_eval. rewrite <- (H r Hr), !mac_eval. ring.
      - intros Z. apply Hi, psub_zero. intros c Hc. apply Z. now right. }
    cbn [length] in L. rewrite psub_length, !rev_length in L. lia.
  Qed.
End Roots.

(** Counting by classes. *)
Lemma NoDup_map_filter {A C} (g : A -> C) p (ks : list A) : NoDup (map g ks) -> NoDup (map g (filter p ks)).
Proof.
  induction ks as [|k ks IH]; cbn; intros H; [constructor|]. inversion H as [|? ? NI ND]; subst.
  destruct (p k); cbn; [|now apply IH]. constructor; [|now apply IH].
  intros I. apply NI. apply in_map_iff in I as (x & E & I). apply filter_In in I as [I _].
  rewrite <- E. now apply in_map.
Qed.
Lemma length_by_class {A B C} (dec : forall x y : B, {x = y} + {x <> y}) (f : A -> B) (g : A -> C) (L : nat) :
  forall (js : list B) (ks : list A), NoDup (map g ks) ->
  (forall k, In k ks -> In (f k) js) ->
  (forall j ks', In j js -> (forall k, In k ks' -> In k ks /\ f k = j) -> NoDup (map g ks') -> (length ks' <= L)%nat) ->
  (length ks <= length js * L)%nat.
Proof.
  induction js as [|j js IH]; intros ks ND Hin Hc.
  - destruct ks as [|k ks]; [cbn; lia|]. destruct (Hin k (or_introl eq_refl)).
  - set (p := fun k => if dec (f k) j then true else false).
    assert (E : length ks = (length (filter p ks) + length (filter (fun k => negb (p k)) ks))%nat).
    { clear. induction ks as [|k ks IH]; cbn; [reflexivity|]. destruct (p k); cbn; lia. }
    assert (H1 : (length (filter p ks) <= L)%nat).
    { apply (Hc j); [now left| |now apply NoDup_map_filter].
      intros k Hk. apply filter_In in Hk as [Hk Pk]. split; [exact Hk|]. unfold p in Pk. now destruct (dec (f k) j). }
    assert (H2 : (length (filter (fun k => negb (p k)) ks) <= length js * L)%nat).
    { apply IH; [now apply NoDup_map_filter| |].
      - intros k Hk. apply filter_In in Hk as [Hk Pk]. destruct (Hin k Hk) as [E'|E']; [|exact E'].
        unfold p in Pk. destruct (dec (f k) j); [discriminate|congruence].
      - intros j' ks' Hj' Hk' N. apply (Hc j'); [now right| |exact N].
        intros k Hk. destruct (Hk' k Hk) as [I ?]. apply filter_In in I as [I _]. now split. }
    cbn [length]. lia.
Qed.
