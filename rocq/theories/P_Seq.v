(** Lemmas about M_Seq.v *)
From Coq Require Import ZArith List Bool Arith Lia.
From Verif Require Import Base P_Base M_Int M_Seq.
Import ListNotations.
Local Open Scope nat_scope.

Lemma nth_error_ext {A} (l m : list A) : (forall i, nth_error l i = nth_error m i) -> l = m.
Proof.
  revert m; induction l as [|a l IH]; intros [|b m] H.
  - reflexivity.
  - specialize (H 0); discriminate.
  - specialize (H 0); discriminate.
  - f_equal.
    + specialize (H 0). now injection H.
    + apply IH. intros i. exact (H (S i)).
Qed.

Lemma nth_error_firstn {A} (l : list A) n i :
  nth_error (firstn n l) i = if i <? n then nth_error l i else None.
Proof.
  revert n i; induction l as [|a l IH]; intros n i.
  - rewrite firstn_nil. destruct (i <? n); now destruct i.
  - destruct n; cbn [firstn].
    + now destruct i.
    + destruct i; cbn [nth_error]; [reflexivity|]. rewrite IH. reflexivity.
Qed.
Lemma nth_error_skipn {A} (l : list A) n i : nth_error (skipn n l) i = nth_error l (n + i).
Proof.
  revert n; induction l as [|a l IH]; intros n.
  - rewrite skipn_nil. now destruct i, n.
  - destruct n; cbn; [reflexivity|]. apply IH.
Qed.
Lemma nth_error_app {A} (l m : list A) i :
  nth_error (l ++ m) i = if i <? length l then nth_error l i else nth_error m (i - length l).
Proof.
  destruct (Nat.ltb_spec i (length l)); [now apply nth_error_app1 | now apply nth_error_app2].
Qed.
Lemma nth_error_map_seq {A} (h : nat -> A) n i :
  nth_error (map h (seq 0 n)) i = if i <? n then Some (h i) else None.
Proof.
  destruct (Nat.ltb_spec i n) as [H|H].
  - rewrite (map_nth_error h i (seq 0 n) (d := i)); [reflexivity|].
    rewrite (nth_error_nth' _ 0) by now rewrite seq_length.
    now rewrite seq_nth.
  - apply nth_error_None. now rewrite map_length, seq_length.
Qed.

Lemma nth_map_seq {A} (h : nat -> A) d n i : i < n -> nth i (map h (seq 0 n)) d = h i.
Proof.
  intros H. apply nth_error_nth. rewrite nth_error_map_seq.
  now destruct (Nat.ltb_spec i n); [|lia].
Qed.

(** A loop that writes h 0, h 1, ... from position [so] on. *)
Lemma fill_gen {A} (h : nat -> A) f so n s :
  so + n <= length s ->
  (forall i s', i < n -> length s' = length s -> f i s' = Ok (set_nth s' (so + i) (h i))) ->
  for_range 0 n f s = Ok (firstn so s ++ map h (seq 0 n) ++ skipn (so + n) s).
Proof.
  intros Hl Hf.
  destruct (for_range_inv (fun i r => length r = length s /\
     forall j, nth_error r j = if (so <=? j) && (j <? so + i) then Some (h (j - so)) else nth_error s j)
     f 0 n s) as (r & E & L & H).
  - split; [reflexivity|]. intros j. destruct (so <=? j) eqn:E1, (j <? so + 0) eqn:E2; try reflexivity.
    apply Nat.leb_le in E1. apply Nat.ltb_lt in E2. lia.
  - intros i r Hi [L H]. exists (set_nth r (so + i) (h i)). rewrite Hf by (cbn in *; lia || assumption).
    split; [reflexivity|]. rewrite set_nth_length. split; [assumption|].
    intros j. rewrite nth_error_set_nth, L, H.
    destruct (Nat.eqb_spec j (so + i)) as [->|Ne].
    + replace (so + i <? length s) with true by (symmetry; apply Nat.ltb_lt; lia). cbn [andb].
      replace (so <=? so + i) with true by (symmetry; apply Nat.leb_le; lia).
      replace (so + i <? so + S i) with true by (symmetry; apply Nat.ltb_lt; lia). cbn [andb].
      do 2 f_equal. lia.
    + cbn [andb]. destruct (Nat.leb_spec so j); cbn [andb]; [|reflexivity].
      destruct (Nat.ltb_spec j (so + i)), (Nat.ltb_spec j (so + S i)); try reflexivity; lia.
  - rewrite E. f_equal. apply nth_error_ext. intros j. rewrite H.
    assert (Lf : length (firstn so s) = so) by (rewrite firstn_length; lia).
    rewrite nth_error_app, Lf, nth_error_firstn, nth_error_app, map_length, seq_length,
      nth_error_map_seq, nth_error_skipn.
    cbn [Nat.add].
    destruct (Nat.ltb_spec j so), (Nat.leb_spec so j); cbn [andb]; try lia; [reflexivity|].
    destruct (Nat.ltb_spec j (so + n)), (Nat.ltb_spec (j - so) n); try lia; [reflexivity|].
    f_equal. lia.
Qed.

Lemma firstn_skipn_map_seq {A} (d : A) v si n : si + n <= length v ->
  map (fun i => nth (si + i) v d) (seq 0 n) = firstn n (skipn si v).
Proof.
  intros H. apply nth_error_ext. intros j.
  rewrite nth_error_map_seq, nth_error_firstn, nth_error_skipn.
  destruct (Nat.ltb_spec j n); [|reflexivity].
  symmetry. apply nth_error_nth'. lia.
Qed.

Section Elem.
Context {A : Type} (d : A).

Lemma update_sub_Ok (s : list A) so v si n :
  so + n <= length s -> si + n <= length v ->
  update_sub s so v si n = Ok (firstn so s ++ firstn n (skipn si v) ++ skipn (so + n) s).
Proof.
  intros H1 H2. unfold update_sub.
  rewrite !assert_true by now apply Nat.leb_le. cbn [bind].
  rewrite (fill_gen (fun i => nth (si + i) v d) _ so n s H1).
  - now rewrite firstn_skipn_map_seq.
  - intros i s' Hi L. rewrite (idx_Ok v _ d) by lia. cbn [bind]. apply upd_Ok. lia.
Qed.
Lemma update_sub_panic (s : list A) so v si n :
  length s < so + n \/ length v < si + n -> update_sub s so v si n = Panic PAssert.
Proof.
  intros H. unfold update_sub.
  destruct (Nat.leb_spec (so + n) (length s)); [|now rewrite assert_false].
  rewrite assert_true by reflexivity. cbn [bind].
  rewrite assert_false; [reflexivity|]. apply Nat.leb_gt. lia.
Qed.
Lemma update_sub_length (s : list A) so v si n r :
  update_sub s so v si n = Ok r -> length r = length s.
Proof.
  intros E. destruct (le_lt_dec (so + n) (length s)), (le_lt_dec (si + n) (length v));
    try (rewrite update_sub_panic in E by lia; discriminate).
  rewrite update_sub_Ok in E by lia. injection E as <-.
  rewrite !app_length, !firstn_length, !skipn_length. lia.
Qed.

Lemma update_Ok (s v : list A) so : so + length v <= length s ->
  update s so v = Ok (firstn so s ++ v ++ skipn (so + length v) s).
Proof.
  intros H. unfold update. rewrite update_sub_Ok by lia. cbn [skipn]. now rewrite firstn_all.
Qed.
Lemma update_start_Ok (s v : list A) : length v <= length s ->
  update_start s v = Ok (v ++ skipn (length v) s).
Proof.
  intros H. unfold update_start. rewrite update_sub_Ok by lia. cbn [skipn firstn app Nat.add].
  now rewrite firstn_all.
Qed.
Lemma seq_new_length l : length (seq_new d l) = l.
Proof. apply repeat_length. Qed.

Lemma from_sub_Ok (v : list A) si n : si + n <= length v ->
  from_sub d v si n = Ok (firstn n (skipn si v)).
Proof.
  intros H. unfold from_sub. rewrite update_sub_Ok by (rewrite ?seq_new_length; lia).
  cbn [firstn app Nat.add]. rewrite (skipn_all2 (seq_new d n)) by now rewrite seq_new_length.
  now rewrite app_nil_r.
Qed.
Lemma from_sub_panic (v : list A) si n : length v < si + n -> from_sub d v si n = Panic PAssert.
Proof. intros. apply update_sub_panic. now right. Qed.

Lemma copy_into_Ok (o x : list A) : length x <= length o ->
  copy_into o x = Ok (x ++ skipn (length x) o).
Proof.
  intros H. unfold copy_into.
  rewrite (fill_gen (fun i => nth (0 + i) x d) _ 0 (length x) o H).
  - rewrite firstn_skipn_map_seq by lia. cbn [firstn skipn app Nat.add]. now rewrite firstn_all.
  - intros i s' Hi L. rewrite (idx_Ok x _ d) by lia. cbn [bind]. apply upd_Ok. lia.
Qed.
Lemma seq_from_seq_Ok (x : list A) : seq_from_seq d x = Ok x.
Proof.
  unfold seq_from_seq. rewrite copy_into_Ok by now rewrite seq_new_length.
  rewrite skipn_all2 by now rewrite seq_new_length. now rewrite app_nil_r.
Qed.
Lemma arr_from_vec_Ok l (x : list A) : length x = l -> arr_from_vec d l x = Ok x.
Proof.
  intros H. unfold arr_from_vec. rewrite assert_true by now apply Nat.eqb_eq. cbn [bind].
  subst l. apply seq_from_seq_Ok.
Qed.
Lemma arr_from_vec_panic l (x : list A) : length x <> l -> arr_from_vec d l x = Panic PAssert.
Proof. intros H. unfold arr_from_vec. now rewrite assert_false by now apply Nat.eqb_neq. Qed.
Lemma skipn_repeat (n m : nat) : skipn n (repeat d m) = repeat d (m - n).
Proof. revert m; induction n; intros [|m]; cbn; auto. Qed.
Lemma arr_from_slice_Ok l (x : list A) : length x <= l ->
  arr_from_slice d l x = Ok (x ++ repeat d (l - length x)).
Proof.
  intros H. unfold arr_from_slice. rewrite assert_true by now apply Nat.leb_le. cbn [bind].
  rewrite copy_into_Ok by now rewrite seq_new_length. unfold seq_new. now rewrite skipn_repeat.
Qed.
Lemma arr_from_slice_exact l (x : list A) : length x = l -> arr_from_slice d l x = Ok x.
Proof.
  intros H. rewrite arr_from_slice_Ok by lia. rewrite H, Nat.sub_diag. cbn. now rewrite app_nil_r.
Qed.

(** ** Chunks *)
Lemma get_chunk_len_Ok (s : list A) cs cn : cs * cn <= length s ->
  get_chunk_len s cs cn = Ok (Nat.min cs (length s - cs * cn)).
Proof.
  intros H. unfold get_chunk_len. destruct (Nat.ltb_spec (length s) (cs * cn + cs)).
  - rewrite usub_Ok by lia. f_equal. lia.
  - f_equal. lia.
Qed.
Lemma get_chunk_len_panic (s : list A) cs cn : length s < cs * cn -> 
  get_chunk_len s cs cn = Panic POverflow.
Proof.
  intros H. unfold get_chunk_len. destruct (Nat.ltb_spec (length s) (cs * cn + cs)); [|lia].
  now apply usub_panic.
Qed.
Lemma get_chunk_Ok (s : list A) cs cn : cs * cn <= length s ->
  get_chunk d s cs cn = Ok (Nat.min cs (length s - cs * cn), firstn cs (skipn (cs * cn) s)).
Proof.
  intros H. unfold get_chunk. rewrite get_chunk_len_Ok by assumption. cbn [bind].
  unfold sub_. rewrite from_sub_Ok by lia. cbn [bind]. do 2 f_equal.
  apply nth_error_ext. intros i. rewrite !nth_error_firstn, !nth_error_skipn.
  destruct (Nat.ltb_spec i (Nat.min cs (length s - cs * cn))), (Nat.ltb_spec i cs); try reflexivity; [lia|].
  symmetry. apply nth_error_None. lia.
Qed.
Lemma set_chunk_Ok (s v : list A) cs cn : cs * cn <= length s ->
  length v = Nat.min cs (length s - cs * cn) ->
  set_chunk s cs cn v = Ok (firstn (cs * cn) s ++ v ++ skipn (cs * cn + length v) s).
Proof.
  intros H L. unfold set_chunk. rewrite get_chunk_len_Ok by assumption. cbn [bind].
  rewrite assert_true by now apply Nat.eqb_eq. cbn [bind].
  rewrite <- L. rewrite update_sub_Ok by lia. cbn [skipn]. now rewrite firstn_all.
Qed.

Lemma num_chunks_Ok (s : list A) cs : 0 < cs ->
  num_chunks s cs = Ok ((length s + cs - 1) / cs).
Proof.
  intros H. unfold num_chunks. rewrite usub_Ok by lia. cbn [bind]. unfold udiv.
  destruct (Nat.eqb_spec cs 0); [lia|reflexivity].
Qed.
Lemma num_chunks_bounds n cs : 0 < cs ->
  let k := (n + cs - 1) / cs in n <= cs * k /\ (n = 0 -> k = 0) /\ (0 < n -> 0 < k /\ cs * (k - 1) < n).
Proof.
  intros H k. pose proof (Nat.div_mod (n + cs - 1) cs ltac:(lia)) as E.
  pose proof (Nat.mod_upper_bound (n + cs - 1) cs ltac:(lia)) as B.
  fold k in E. split; [lia|]. split.
  - intros ->. apply Nat.div_small. lia.
  - intros P. assert (0 < k) by (destruct k; lia). split; [assumption|].
    rewrite Nat.mul_sub_distr_l. lia.
Qed.

Lemma concat_chunks (s : list A) cs k : 
  concat (map (fun i => firstn cs (skipn (cs * i) s)) (seq 0 k)) = firstn (cs * k) s.
Proof.
  induction k as [|k IH]; [now rewrite Nat.mul_0_r|].
  rewrite seq_S, map_app, concat_app, IH. cbn [map concat]. rewrite app_nil_r.
  cbn [Nat.add]. apply nth_error_ext. intros i.
  rewrite nth_error_app, firstn_length, !nth_error_firstn, nth_error_skipn.
  rewrite Nat.mul_succ_r.
  destruct (Nat.ltb_spec i (Nat.min (cs * k) (length s))).
  - destruct (Nat.ltb_spec i (cs * k)), (Nat.ltb_spec i (cs * k + cs)); try reflexivity; lia.
  - destruct (le_lt_dec (cs * k) (length s)).
    + rewrite Nat.min_l by lia.
      destruct (Nat.ltb_spec (i - cs * k) cs), (Nat.ltb_spec i (cs * k + cs)); try lia; [|reflexivity].
      f_equal. lia.
    + rewrite Nat.min_r by lia.
      assert (nth_error s (cs * k + (i - length s)) = None) as -> by (apply nth_error_None; lia).
      assert (nth_error s i = None) as -> by (apply nth_error_None; lia).
      destruct (Nat.ltb_spec (i - length s) cs), (Nat.ltb_spec i (cs * k + cs)); reflexivity.
Qed.
End Elem.

(** ** slice::chunks *)
Lemma chunks_aux_nil {A} f k : @chunks_aux A f k [] = [].
Proof. now destruct f. Qed.
Lemma chunks_aux_fuel {A} k f1 f2 (l : list A) : 0 < k -> length l <= f1 -> length l <= f2 ->
  chunks_aux f1 k l = chunks_aux f2 k l.
Proof.
  intros Hk. revert f2 l; induction f1 as [|f1 IH]; intros f2 l H1 H2.
  - destruct l; [|cbn in H1; lia]. now rewrite !chunks_aux_nil.
  - destruct l as [|a l]; [now rewrite !chunks_aux_nil|].
    destruct f2; [cbn in H2; lia|]. cbn [chunks_aux]. f_equal.
    apply IH; rewrite skipn_length; cbn [length] in *; lia.
Qed.
Lemma chunks_unfold {A} k (l : list A) : 0 < k -> l <> [] ->
  chunks k l = firstn k l :: chunks k (skipn k l).
Proof.
  intros Hk Hl. unfold chunks. destruct l as [|a l]; [congruence|].
  cbn [length chunks_aux]. f_equal. apply chunks_aux_fuel; [assumption| |lia].
  rewrite skipn_length. cbn [length]. lia.
Qed.
Lemma chunks_app {A} k (l m : list A) : 0 < k -> length l = k -> chunks k (l ++ m) = l :: chunks k m.
Proof.
  intros Hk L. rewrite chunks_unfold; [|assumption|destruct l; cbn in *; [lia|congruence]].
  rewrite <- L. rewrite firstn_app, Nat.sub_diag, firstn_all, firstn_O, app_nil_r.
  now rewrite skipn_app, Nat.sub_diag, skipn_all.
Qed.
Lemma chunks_concat {A} k (ls : list (list A)) : 0 < k -> Forall (fun l => length l = k) ls ->
  chunks k (concat ls) = ls.
Proof.
  intros Hk H. induction H as [|l ls L H IH]; [reflexivity|]. cbn [concat].
  now rewrite chunks_app, IH.
Qed.
(** A list whose length is a multiple of k splits into pieces of length k. *)
Lemma split_multiple {A} k n (l : list A) : length l = k * n ->
  exists ls, l = concat ls /\ Forall (fun x => length x = k) ls /\ length ls = n.
Proof.
  revert l; induction n as [|n IH]; intros l L.
  - exists []. rewrite Nat.mul_0_r in L. destruct l; [|discriminate]. auto.
  - destruct (IH (skipn k l)) as (ls & E & F & N).
    + rewrite skipn_length. lia.
    + exists (firstn k l :: ls). cbn [concat length]. rewrite <- E, firstn_skipn. repeat split; [|lia].
      constructor; [|assumption]. rewrite firstn_length. lia.
Qed.
Lemma concat_length_const {A} k (ls : list (list A)) : Forall (fun x => length x = k) ls ->
  length (concat ls) = k * length ls.
Proof. induction 1 as [|l ls L H IH]; cbn; [lia|]. rewrite app_length, L, IH. lia. Qed.

(** ** Equality and order *)
Lemma list_eqb_spec x y : list_eqb x y = true <-> x = y.
Proof.
  revert y; induction x as [|a x IH]; intros [|b y]; cbn; try (split; congruence).
  rewrite andb_true_iff, IH, Z.eqb_eq. split; [intros []; congruence|].
  intros E; injection E; auto.
Qed.
