(** Lemmas about Base.v. *)
From Coq Require Import ZArith List Bool Lia.
From Verif Require Import Base.
Import ListNotations.
Open Scope Z_scope.

Lemma bind_Ok {A B} (x : res A) (f : A -> res B) b :
  bind x f = Ok b -> exists a, x = Ok a /\ f a = Ok b.
Proof. destruct x; cbn; intros; [eauto|discriminate]. Qed.

Lemma bind_assoc {A B C} (x : res A) (f : A -> res B) (g : B -> res C) :
  bind (bind x f) g = bind x (fun a => bind (f a) g).
Proof. now destruct x. Qed.

Lemma Ok_inj {A} (a b : A) : Ok a = Ok b -> a = b.
Proof. congruence. Qed.

Lemma assert_true b : b = true -> assert_ b = Ok tt.
Proof. now intros ->. Qed.
Lemma assert_false b : b = false -> assert_ b = Panic PAssert.
Proof. now intros ->. Qed.

(** Invariant rule for loops that succeed. *)
Lemma for_range_inv {S} (I : nat -> S -> Prop) f start count s :
  I start s ->
  (forall i s, (start <= i < start + count)%nat -> I i s -> exists s', f i s = Ok s' /\ I (Datatypes.S i) s') ->
  exists s', for_range start count f s = Ok s' /\ I (start + count)%nat s'.
Proof.
  revert start s; induction count as [|c IH]; intros start s H0 Hstep; cbn [for_range].
  - exists s. now rewrite Nat.add_0_r.
  - destruct (Hstep start s) as (s1 & E & H1); [lia|assumption|].
    rewrite E; cbn [bind].
    destruct (IH (Datatypes.S start) s1 H1) as (s2 & E2 & H2).
    + intros i s' Hi HI. apply Hstep; [lia|assumption].
    + exists s2. split; [assumption|]. now replace (start + Datatypes.S c)%nat with (Datatypes.S start + c)%nat by lia.
Qed.

Lemma for_pure_inv {S} (I : nat -> S -> Prop) f start count s :
  I start s ->
  (forall i s, (start <= i < start + count)%nat -> I i s -> I (Datatypes.S i) (f i s)) ->
  I (start + count)%nat (for_pure start count f s).
Proof.
  revert start s; induction count as [|c IH]; intros start s H0 Hstep; cbn [for_pure].
  - now rewrite Nat.add_0_r.
  - replace (start + Datatypes.S c)%nat with (Datatypes.S start + c)%nat by lia.
    apply IH; [apply Hstep; [lia|assumption]|].
    intros i s' Hi HI. apply Hstep; [lia|assumption].
Qed.

(** A loop whose body succeeds as a pure function is the pure loop,
    under an invariant. *)
Lemma for_range_pure {S} (I : nat -> S -> Prop) f g start count s :
  I start s ->
  (forall i s, (start <= i < start + count)%nat -> I i s -> f i s = Ok (g i s) /\ I (Datatypes.S i) (g i s)) ->
  for_range start count f s = Ok (for_pure start count g s).
Proof.
  revert start s; induction count as [|c IH]; intros start s H0 Hstep; cbn [for_range for_pure].
  - reflexivity.
  - destruct (Hstep start s) as (E & H1); [lia|assumption|]. rewrite E; cbn [bind].
    apply IH; [assumption|]. intros i s' Hi HI. apply Hstep; [lia|assumption].
Qed.

Lemma for_range_ext {S} (f g : nat -> S -> res S) start count s :
  (forall i s, (start <= i < start + count)%nat -> f i s = g i s) ->
  for_range start count f s = for_range start count g s.
Proof.
  revert start s; induction count as [|c IH]; intros start s H; cbn [for_range]; [reflexivity|].
  rewrite H by lia. destruct (g start s); cbn [bind]; [|reflexivity].
  apply IH. intros; apply H; lia.
Qed.

Lemma for_pure_ext {S} (f g : nat -> S -> S) start count s :
  (forall i s, (start <= i < start + count)%nat -> f i s = g i s) ->
  for_pure start count f s = for_pure start count g s.
Proof.
  revert start s; induction count as [|c IH]; intros start s H; cbn [for_pure]; [reflexivity|].
  rewrite H by lia. apply IH. intros; apply H; lia.
Qed.

Lemma for_range_shift {S} (f : nat -> S -> res S) start count s :
  for_range start count f s = for_range 0 count (fun i => f (start + i)%nat) s.
Proof.
  enough (H : forall k start, for_range (start + k) count f s
      = for_range k count (fun i => f (start + i)%nat) s).
  { rewrite <- (H 0%nat start). f_equal. lia. }
  revert s; clear start; induction count as [|c IH]; intros s k start; cbn [for_range]; [reflexivity|].
  destruct (f (start + k)%nat s); cbn [bind]; [|reflexivity].
  rewrite <- IH. f_equal. lia.
Qed.

Lemma for_range_app {S} (f : nat -> S -> res S) start c1 c2 s :
  for_range start (c1 + c2) f s = bind (for_range start c1 f s) (for_range (start + c1) c2 f).
Proof.
  revert start s; induction c1 as [|c IH]; intros start s; cbn [for_range Nat.add bind].
  - now rewrite Nat.add_0_r.
  - destruct (f start s); cbn [bind]; [|reflexivity]. rewrite IH. f_equal.
    now replace (start + Datatypes.S c)%nat with (Datatypes.S start + c)%nat by lia.
Qed.

Lemma for_pure_app {S} (f : nat -> S -> S) start c1 c2 s :
  for_pure start (c1 + c2) f s = for_pure (start + c1) c2 f (for_pure start c1 f s).
Proof.
  revert start s; induction c1 as [|c IH]; intros start s; cbn [for_pure Nat.add].
  - now rewrite Nat.add_0_r.
  - rewrite IH. now replace (start + Datatypes.S c)%nat with (Datatypes.S start + c)%nat by lia.
Qed.

Lemma for_pure_S {S} (f : nat -> S -> S) start c s :
  for_pure start (Datatypes.S c) f s = f (start + c)%nat (for_pure start c f s).
Proof.
  replace (Datatypes.S c) with (c + 1)%nat by lia. now rewrite for_pure_app.
Qed.

Lemma for_range_panics {S} (I : nat -> S -> Prop) f start count i s :
  (start <= i < start + count)%nat ->
  I start s ->
  (forall j s, (start <= j < i)%nat -> I j s -> exists s', f j s = Ok s' /\ I (Datatypes.S j) s') ->
  (forall s, I i s -> panics (f i s)) ->
  panics (for_range start count f s).
Proof.
  intros Hi H0 Hstep Hp.
  replace count with ((i - start) + (count - (i - start)))%nat by lia.
  rewrite for_range_app.
  destruct (for_range_inv I f start (i - start) s H0) as (s' & E & HI).
  - intros j s' Hj. apply Hstep. lia.
  - rewrite E; cbn [bind]. replace (start + (i - start))%nat with i in * by lia.
    destruct (count - (i - start))%nat eqn:Ec; [lia|]. cbn [for_range].
    destruct (Hp s' HI) as [p Ep]. rewrite Ep. now exists p.
Qed.

(** Lists *)
Lemma idx_Ok {A} (l : list A) i d : (i < length l)%nat -> idx l i = Ok (nth i l d).
Proof.
  unfold idx. intros H. destruct (nth_error l i) eqn:E.
  - f_equal. symmetry. now apply nth_error_nth.
  - apply nth_error_None in E. lia.
Qed.
Lemma idx_panic {A} (l : list A) i : (length l <= i)%nat -> idx l i = Panic PIndex.
Proof. intros H. unfold idx. apply nth_error_None in H. now rewrite H. Qed.
Lemma idx_inv {A} (l : list A) i a : idx l i = Ok a -> nth_error l i = Some a.
Proof. unfold idx. destruct (nth_error l i); congruence. Qed.

Lemma set_nth_length {A} (l : list A) i v : length (set_nth l i v) = length l.
Proof. revert i; induction l; destruct i; cbn; auto. Qed.
Lemma upd_Ok {A} (l : list A) i v : (i < length l)%nat -> upd l i v = Ok (set_nth l i v).
Proof. intros H. unfold upd. now apply Nat.ltb_lt in H as ->. Qed.
Lemma upd_panic {A} (l : list A) i v : (length l <= i)%nat -> upd l i v = Panic PIndex.
Proof. intros H. unfold upd. now apply Nat.ltb_ge in H as ->. Qed.
Lemma nth_set_nth {A} (l : list A) i j v d :
  nth j (set_nth l i v) d = if (Nat.eqb j i && Nat.ltb i (length l))%bool then v else nth j l d.
Proof.
  revert i j; induction l as [|h t IH]; intros i j.
  - rewrite andb_false_r. now destruct i, j.
  - destruct i, j; cbn [set_nth nth length]; try reflexivity. apply IH.
Qed.
Lemma nth_error_set_nth {A} (l : list A) i j v :
  nth_error (set_nth l i v) j = if (Nat.eqb j i && Nat.ltb i (length l))%bool then Some v else nth_error l j.
Proof.
  revert i j; induction l as [|h t IH]; intros i j.
  - rewrite andb_false_r. now destruct i, j.
  - destruct i, j; cbn [set_nth nth_error length]; try reflexivity. apply IH.
Qed.
Lemma set_nth_app {A} (l : list A) i v :
  (i < length l)%nat -> set_nth l i v = firstn i l ++ v :: skipn (S i) l.
Proof.
  revert i; induction l as [|h t IH]; intros i H; cbn in H; [lia|].
  destruct i; cbn; [reflexivity|]. f_equal. apply IH. lia.
Qed.
Lemma Forall_set_nth {A} (P : A -> Prop) l i v : Forall P l -> P v -> Forall P (set_nth l i v).
Proof.
  intros H Hv; revert i; induction H; intros i; destruct i; cbn; auto.
Qed.

Lemma usub_Ok a b : (b <= a)%nat -> usub a b = Ok (a - b)%nat.
Proof. intros H. unfold usub. now apply Nat.leb_le in H as ->. Qed.
Lemma usub_panic a b : (a < b)%nat -> usub a b = Panic POverflow.
Proof. intros H. unfold usub. now apply Nat.leb_gt in H as ->. Qed.

Lemma mapM_pure {A B} (f : A -> res B) g l :
  (forall a, In a l -> f a = Ok (g a)) -> mapM f l = Ok (map g l).
Proof.
  induction l as [|a t IH]; intros H; cbn [mapM map]; [reflexivity|].
  rewrite H by now left. cbn [bind]. rewrite IH; [reflexivity|]. intros; apply H; now right.
Qed.

Lemma zip_with_length {A B C} (f : A -> B -> C) l m :
  length (zip_with f l m) = Nat.min (length l) (length m).
Proof. unfold zip_with. now rewrite map_length, combine_length. Qed.
Lemma zip_with_cons {A B C} (f : A -> B -> C) a l b m :
  zip_with f (a :: l) (b :: m) = f a b :: zip_with f l m.
Proof. reflexivity. Qed.
Lemma nth_zip_with {A B C} (f : A -> B -> C) l m i da db dc :
  (i < length l)%nat -> (i < length m)%nat ->
  nth i (zip_with f l m) dc = f (nth i l da) (nth i m db).
Proof.
  revert m i; induction l as [|a t IH]; intros m i H1 H2; cbn in H1; [lia|].
  destruct m as [|b u]; cbn in H2; [lia|].
  rewrite zip_with_cons. destruct i; cbn [nth]; [reflexivity|]. apply IH; lia.
Qed.

Lemma nth_ext_eq {A} (l m : list A) d :
  length l = length m -> (forall i, (i < length l)%nat -> nth i l d = nth i m d) -> l = m.
Proof. intros; eapply nth_ext; eauto. Qed.
