(** Lemmas about M_Vec.v *)
From Coq Require Import ZArith List Bool Arith Lia.
From Verif Require Import Base P_Base M_Int P_Int M_MathUtil M_Seq P_Seq M_Vec.
Import ListNotations.
Open Scope Z_scope.

Lemma zip_with_map_seq {A B C} (f : A -> B -> C) x y da db :
  length x = length y ->
  map (fun i => f (nth i x da) (nth i y db)) (seq 0 (length x)) = zip_with f x y.
Proof.
  intros L. apply nth_error_ext. intros i. rewrite nth_error_map_seq.
  destruct (Nat.ltb_spec i (length x)).
  - symmetry. rewrite (nth_error_nth' _ (f da db)) by (rewrite zip_with_length; lia).
    f_equal. apply nth_zip_with; lia.
  - symmetry. apply nth_error_None. rewrite zip_with_length. lia.
Qed.

Lemma pointwise_Ok l f g x y : length x = l -> length y = l ->
  (forall i, (i < l)%nat -> f (nth i x 0) (nth i y 0) = Ok (g (nth i x 0) (nth i y 0))) ->
  pointwise l f x y = Ok (zip_with g x y).
Proof.
  intros Lx Ly H. unfold pointwise.
  rewrite (fill_gen (fun i => g (nth i x 0) (nth i y 0)) _ 0 (length x)).
  - cbn [firstn app Nat.add]. rewrite skipn_all2 by (rewrite seq_new_length; lia).
    rewrite app_nil_r, zip_with_map_seq by lia. reflexivity.
  - rewrite seq_new_length. lia.
  - intros i s' Hi L. rewrite seq_new_length in L.
    rewrite (idx_Ok x i 0), (idx_Ok y i 0) by lia. cbn [bind].
    rewrite H by lia. cbn [bind]. apply upd_Ok. lia.
Qed.

Lemma vec_poly_zero_Ok fm fw t create x y : length x = length y ->
  create (length x) = Ok (seq_new 0 (length x)) ->
  vec_poly fm fw t create x y 0 = Ok (zip_with (fw t) x y).
Proof.
  intros L C. unfold vec_poly. rewrite assert_true by now apply Nat.eqb_eq. cbn [bind].
  rewrite C. cbn [bind]. unfold num_equal. cbn [negb Z.eqb].
  rewrite (fill_gen (fun i => fw t (nth i x 0) (nth i y 0)) _ 0 (length x)).
  - cbn [firstn app Nat.add]. rewrite skipn_all2 by (rewrite seq_new_length; lia).
    rewrite app_nil_r, zip_with_map_seq by lia. reflexivity.
  - rewrite seq_new_length. lia.
  - intros i s' Hi Ls. rewrite seq_new_length in Ls.
    rewrite (idx_Ok x i 0), (idx_Ok y i 0) by lia. cbn [bind]. apply upd_Ok. lia.
Qed.
Lemma vec_poly_panic fm fw t create x y n : length x <> length y ->
  vec_poly fm fw t create x y n = Panic PAssert.
Proof. intros L. unfold vec_poly. now rewrite assert_false by now apply Nat.eqb_neq. Qed.

Lemma Forall_nth0 (P : Z -> Prop) l i : Forall P l -> (i < length l)%nat -> P (nth i l 0).
Proof. intros H Hi. rewrite Forall_forall in H. apply H, nth_In, Hi. Qed.
