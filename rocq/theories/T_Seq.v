(** Theorems of record about byte codecs, sequences and arrays: C03, C15-C23, C35, C67. *)
From Coq Require Import ZArith List Bool Arith Lia.
From Verif Require Import Base P_Base M_Int P_Int M_MathUtil M_Seq P_Seq M_Bytes P_Bytes M_Vec P_Vec S_Int S_Seq.
Import ListNotations.
Open Scope Z_scope.

Ltac conjs := repeat match goal with |- _ /\ _ => split end.
Lemma val_in_ty w s c x : val w s x <-> in_ty (mkity w s c) x.
Proof. unfold val, in_ty, imin, imax, sval, uval. cbn [sgn bits]. destruct s; lia. Qed.
Lemma bytes_is l : bytes l <-> is_bytes l.
Proof. unfold bytes, is_bytes. now rewrite Forall_forall. Qed.
Lemma vals_in_ty w s c l : (forall x, In x l -> val w s x) <-> Forall (in_ty (mkity w s c)) l.
Proof. rewrite Forall_forall. split; intros H x Hx; specialize (H x Hx); now apply (val_in_ty w s c). Qed.

(** * C03: byte codecs *)
(** k = bytes per word; word i occupies bytes k*i .. k*i+k-1; its digits in base 256 *)
Theorem C03_encode_positional : forall w s c ints, rust_width w ->
  let t := mkity w s c in let k := Z.to_nat (w / 8) in
  length (to_le_bytes t ints) = (k * length ints)%nat /\
  length (to_be_bytes t ints) = (k * length ints)%nat /\
  forall i j, (i < length ints)%nat -> (j < k)%nat ->
    nth (k * i + j) (to_le_bytes t ints) 0 = (nth i ints 0 / 256 ^ Z.of_nat j) mod 256 /\
    nth (k * i + (k - 1 - j)) (to_be_bytes t ints) 0 = (nth i ints 0 / 256 ^ Z.of_nat j) mod 256.
Proof.
  intros w s c ints H t k.
  assert (Fl : Forall (fun l => length l = k) (map (le_bytes k) ints)).
  { apply Forall_map, Forall_forall. intros; apply le_bytes_length. }
  assert (Fb : Forall (fun l => length l = k) (map (be_bytes k) ints)).
  { apply Forall_map, Forall_forall. intros; apply be_bytes_length. }
  unfold to_le_bytes, to_be_bytes, bytes_of. cbn [bits t]. fold k. rewrite !flat_map_concat_map.
  conjs; [now rewrite (concat_length_const k), map_length..|].
  intros i j Hi Hj. rewrite !nth_concat_const by (rewrite ?map_length; assumption || lia).
  rewrite (nth_indep _ [] (le_bytes k 0)) by now rewrite map_length.
  rewrite (nth_indep (map (be_bytes k) ints) [] (be_bytes k 0)) by now rewrite map_length.
  rewrite !map_nth, nth_le_bytes, nth_be_bytes by lia.
  now replace (k - 1 - (k - 1 - j))%nat with j by lia.
Qed.
Print Assumptions C03_encode_positional.

Theorem C03_decode_encode : forall w s c ints, rust_width w -> (forall x, In x ints -> val w s x) ->
  let t := mkity w s c in
  from_le_bytes t (to_le_bytes t ints) = Ok ints /\ from_be_bytes t (to_be_bytes t ints) = Ok ints.
Proof.
  intros w s c ints H V t. apply (vals_in_ty w s c) in V. pose proof (rust_aligned t H).
  split; [now apply to_from_le | now apply to_from_be].
Qed.
Print Assumptions C03_decode_encode.

Theorem C03_encode_decode : forall w s c bs, rust_width w -> bytes bs ->
  let t := mkity w s c in let k := Z.to_nat (w / 8) in
  ((length bs mod k = 0)%nat ->
    (exists ints, from_le_bytes t bs = Ok ints /\ length ints = (length bs / k)%nat /\
       (forall x, In x ints -> val w s x) /\ to_le_bytes t ints = bs) /\
    (exists ints, from_be_bytes t bs = Ok ints /\ length ints = (length bs / k)%nat /\
       (forall x, In x ints -> val w s x) /\ to_be_bytes t ints = bs)) /\
  ((length bs mod k <> 0)%nat -> panics (from_le_bytes t bs) /\ panics (from_be_bytes t bs)).
Proof.
  intros w s c bs H B t k. apply bytes_is in B. pose proof (rust_aligned t H) as Al.
  change k with (bytes_of t). split; intros M.
  - split.
    + destruct (from_to_le t bs Al B M) as (ints & E & L & V & R). exists ints. conjs; auto.
      now apply (vals_in_ty w s c).
    + destruct (from_to_be t bs Al B M) as (ints & E & L & V & R). exists ints. conjs; auto.
      now apply (vals_in_ty w s c).
  - rewrite from_le_bytes_alt, from_be_bytes_alt, !decode_panic by (assumption || apply Al).
    split; eexists; reflexivity.
Qed.
Print Assumptions C03_encode_decode.
Example C03_ex : to_be_bytes U32 [305419896; 1] = [18;52;86;120;0;0;0;1] /\
  from_le_bytes I16 [254;255;1;0] = Ok [-2;1] /\ panics (from_le_bytes U32 [1;2;3]).
Proof. vm_compute. split; [|split]; try reflexivity. eexists; reflexivity. Qed.

(** The single-word helpers of transmute.rs, secret and public, are the one-word case. *)
Theorem C03_single_word_helpers : forall w c x bs, rust_width w -> uval w x -> bytes bs ->
  let t := mkity w false c in let k := Z.to_nat (w / 8) in
  word_to_le_bytes t x = Ok (to_le_bytes t [x]) /\ word_to_be_bytes t x = Ok (to_be_bytes t [x]) /\
  pub_to_le_bytes t x = to_le_bytes t [x] /\ pub_to_be_bytes t x = to_be_bytes t [x] /\
  pub_from_le_bytes (pub_to_le_bytes t x) = x /\ pub_from_be_bytes (pub_to_be_bytes t x) = x /\
  word_from_le_bytes t (to_le_bytes t [x]) = Ok x /\ word_from_be_bytes t (to_be_bytes t [x]) = Ok x /\
  (length bs = k -> word_from_le_bytes t bs = Ok (pub_from_le_bytes bs) /\
                    word_from_be_bytes t bs = Ok (pub_from_be_bytes bs)).
Proof.
  intros w c x bs H X B t k. pose proof (rust_aligned t H) as Al. apply bytes_is in B.
  pose proof (aligned_pow t Al) as P. cbn [bits t] in P. unfold uval in X.
  rewrite word_to_le_Ok, word_to_be_Ok. unfold to_le_bytes, to_be_bytes. cbn [flat_map].
  rewrite !app_nil_r. unfold pub_to_le_bytes, pub_to_be_bytes, pub_from_le_bytes, pub_from_be_bytes.
  rewrite le_val_le_bytes, be_val_be_bytes, P, Z.mod_small by assumption.
  rewrite word_from_le_Ok, word_from_be_Ok by (assumption || apply le_bytes_length || apply be_bytes_length).
  rewrite le_val_le_bytes, be_val_be_bytes, P, Z.mod_small by assumption.
  assert (cast t x = x) as -> by (unfold cast, iwrap; cbn [sgn bits t]; now apply Z.mod_small).
  conjs; try reflexivity. intros L.
  rewrite word_from_le_Ok, word_from_be_Ok, cast_unsigned_le, cast_unsigned_be by (assumption || reflexivity).
  split; reflexivity.
Qed.
Print Assumptions C03_single_word_helpers.
Example C03_word_ex : word_to_be_bytes U32 305419896 = Ok [18;52;86;120] /\ word_from_le_bytes U16 [1;2] = Ok 513.
Proof. vm_compute. auto. Qed.

(** * C15: sequence updates *)
Theorem C15_update_sub : forall (A : Type) (self v : list A) so si n,
  ((so + n <= length self)%nat /\ (si + n <= length v)%nat ->
     exists r, update_sub self so v si n = Ok r /\ replaced self so v si n r) /\
  ((length self < so + n)%nat \/ (length v < si + n)%nat -> panics (update_sub self so v si n)).
Proof.
  intros A self v so si n. split.
  - intros [H1 H2]. destruct (Nat.eq_dec n 0) as [->|Hn].
    + exists self. split.
      * unfold update_sub. rewrite !assert_true by now apply Nat.leb_le. reflexivity.
      * unfold replaced. conjs; auto; intros j Hj; lia.
    + destruct v as [|d v'] eqn:Ev; [cbn in H2; lia|]. rewrite <- Ev in *. clear Ev v'.
      eexists. split; [now apply (update_sub_Ok d)|]. unfold replaced.
      assert (Lf : length (firstn so self) = so) by (rewrite firstn_length; lia).
      assert (Lm : length (firstn n (skipn si v)) = n) by (rewrite firstn_length, skipn_length; lia).
      conjs.
      * rewrite !app_length, Lf, Lm, skipn_length. lia.
      * intros j Hj. rewrite nth_error_app, Lf. destruct (Nat.ltb_spec (so + j) so); [lia|].
        rewrite nth_error_app, Lm. replace (so + j - so)%nat with j by lia.
        destruct (Nat.ltb_spec j n); [|lia]. rewrite nth_error_firstn, nth_error_skipn.
        now destruct (Nat.ltb_spec j n); [|lia].
      * intros j Hj. rewrite nth_error_app, Lf, nth_error_firstn.
        destruct (Nat.ltb_spec j so); [reflexivity|].
        rewrite nth_error_app, Lm, nth_error_skipn. destruct (Nat.ltb_spec (j - so) n); [lia|].
        f_equal. lia.
  - intros H. rewrite update_sub_panic by exact H. eexists. reflexivity.
Qed.
Print Assumptions C15_update_sub.
Example C15_ex : update_sub [1;2;3;4;5] 1 [10;20;30;40] 2 2 = Ok [1;30;40;4;5].
Proof. reflexivity. Qed.

Theorem C15_update_whole : forall (A : Type) (self v : list A) so,
  ((so + length v <= length self)%nat ->
     exists r, update self so v = Ok r /\ replaced self so v 0 (length v) r) /\
  ((length self < so + length v)%nat -> panics (update self so v)) /\
  update_start self v = update self 0 v.
Proof.
  intros A self v so. destruct (C15_update_sub A self v so 0 (length v)) as [H1 H2].
  split; [|split]; [intros H; apply H1; lia | intros H; apply H2; lia | reflexivity].
Qed.
Print Assumptions C15_update_whole.
Example C15_ex2 : update [1;2;3;4] 2 [7;8] = Ok [1;2;7;8] /\ update_start [1;2;3] [9] = Ok [9;2;3] /\
  panics (update [1;2;3;4] 3 [7;8]).
Proof. split; [|split]; try reflexivity. eexists; reflexivity. Qed.

(** Slices: sub, subr (range a..b), from_sub, and their array versions. *)
Theorem C15_sub_windows : forall (A : Type) (d : A) (v : list A) si n,
  ((si + n <= length v)%nat -> exists r, sub_ d v si n = Ok r /\ window v si n r) /\
  ((length v < si + n)%nat -> panics (sub_ d v si n)) /\
  from_sub d v si n = sub_ d v si n /\
  subr d v si (si + n) = sub_ d v si n /\
  from_sub_range d v si (si + n) = sub_ d v si n /\
  ((0 < n)%nat -> panics (subr d v (si + n) si) /\ panics (from_sub_range d v (si + n) si)) /\
  arr_from_sub d n v si n = sub_ d v si n /\
  arr_from_sub_range d n v si (si + n) = sub_ d v si n /\
  (forall l, l <> n -> panics (arr_from_sub d l v si n) /\ panics (arr_from_sub_range d l v si (si + n))).
Proof.
  intros A d v si n.
  assert (E : usub (si + n) si = Ok n) by (rewrite usub_Ok by lia; f_equal; lia).
  conjs.
  - intros H. eexists. split; [now apply from_sub_Ok|]. split.
    + rewrite firstn_length, skipn_length. lia.
    + intros j Hj. rewrite nth_error_firstn, nth_error_skipn. now destruct (Nat.ltb_spec j n); [|lia].
  - intros H. unfold sub_. rewrite from_sub_panic by assumption. eexists; reflexivity.
  - reflexivity.
  - unfold subr. now rewrite E.
  - unfold from_sub_range. now rewrite E.
  - intros Hn. unfold subr, from_sub_range. rewrite usub_panic by lia. split; eexists; reflexivity.
  - unfold arr_from_sub. rewrite Nat.eqb_refl. reflexivity.
  - unfold arr_from_sub_range. rewrite E. cbn [bind]. unfold arr_from_sub. rewrite Nat.eqb_refl. reflexivity.
  - intros l Hl. unfold arr_from_sub_range. rewrite E. cbn [bind]. unfold arr_from_sub.
    rewrite assert_false by (apply Nat.eqb_neq; congruence). split; eexists; reflexivity.
Qed.
Print Assumptions C15_sub_windows.
Example C15_ex3 : sub_ 0 [1;2;3;4;5] 1 3 = Ok [2;3;4] /\ subr 0 [1;2;3;4;5] 4 5 = Ok [5] /\ panics (sub_ 0 [1;2] 1 2).
Proof. split; [|split]; try reflexivity. eexists; reflexivity. Qed.

(** * C16: chunks *)
Theorem C16_chunks_partition : forall (A : Type) (d : A) (s : list A) cs, (0 < cs)%nat ->
  exists k cks, num_chunks s cs = Ok k /\ length cks = k /\ concat cks = s /\
    (forall i, (i < k)%nat -> exists c, nth_error cks i = Some c /\
        get_chunk d s cs i = Ok (length c, c) /\
        (0 < length c <= cs)%nat /\ ((S i < k)%nat -> length c = cs)).
Proof.
  intros A d s cs H. set (k := ((length s + cs - 1) / cs)%nat).
  destruct (num_chunks_bounds (length s) cs H) as (B1 & B2 & B3). fold k in B1, B2, B3.
  exists k, (map (fun i => firstn cs (skipn (cs * i) s)) (seq 0 k)). conjs.
  - now apply num_chunks_Ok.
  - now rewrite map_length, seq_length.
  - rewrite concat_chunks. now apply firstn_all2.
  - intros i Hi. exists (firstn cs (skipn (cs * i) s)). rewrite nth_error_map_seq.
    assert (cs * i < length s)%nat.
    { assert (0 < length s)%nat by (destruct (length s); [|lia]; specialize (B2 eq_refl); lia).
      destruct (B3 H0). nia. }
    assert (L : length (firstn cs (skipn (cs * i) s)) = Nat.min cs (length s - cs * i)).
    { now rewrite firstn_length, skipn_length. }
    conjs.
    + now destruct (Nat.ltb_spec i k); [|lia].
    + rewrite get_chunk_Ok by lia. now rewrite L.
    + lia.
    + lia.
    + intros Hk. rewrite L. apply Nat.min_l.
      assert (0 < length s)%nat by lia. destruct (B3 H1). nia.
Qed.
Print Assumptions C16_chunks_partition.
Example C16_ex : num_chunks [1;2;3;4;5] 2 = Ok 3%nat /\ get_chunk 0 [1;2;3;4;5] 2 2 = Ok (1%nat, [5]).
Proof. split; reflexivity. Qed.

(** Exactly which (size, number) pairs give a chunk; set_chunk's exact condition and effect. *)
Theorem C16_get_set_chunk : forall (A : Type) (d : A) (s c : list A) cs i,
  ((length s < cs * i)%nat -> panics (get_chunk d s cs i) /\ panics (set_chunk s cs i c)) /\
  ((cs * i <= length s)%nat ->
     exists ck, get_chunk d s cs i = Ok (length ck, ck) /\
       window s (cs * i) (Nat.min cs (length s - cs * i)) ck /\
       set_chunk s cs i ck = Ok s /\
       (length c <> length ck -> panics (set_chunk s cs i c)) /\
       (length c = length ck -> exists s', set_chunk s cs i c = Ok s' /\
          replaced s (cs * i) c 0 (length c) s' /\
          get_chunk d s' cs i = Ok (length c, c) /\
          forall j, j <> i -> get_chunk d s' cs j = get_chunk d s cs j)).
Proof.
  intros A d s c cs i. split.
  - intros H. unfold get_chunk, set_chunk. rewrite get_chunk_len_panic by assumption.
    split; eexists; reflexivity.
  - intros H. set (m := Nat.min cs (length s - cs * i)). exists (firstn cs (skipn (cs * i) s)).
    assert (L : length (firstn cs (skipn (cs * i) s)) = m) by now rewrite firstn_length, skipn_length.
    rewrite L. conjs.
    + now rewrite get_chunk_Ok.
    + split; [exact L|].
      intros j Hj. rewrite nth_error_firstn, nth_error_skipn. destruct (Nat.ltb_spec j cs); [reflexivity|lia].
    + rewrite (set_chunk_Ok d) by (assumption || exact L). f_equal. apply nth_error_ext. intros j.
      rewrite !nth_error_app, L, !nth_error_firstn, !nth_error_skipn, firstn_length, Nat.min_l by lia.
      destruct (Nat.ltb_spec j (cs * i)); [reflexivity|].
      destruct (Nat.ltb_spec (j - cs * i) m).
      * destruct (Nat.ltb_spec (j - cs * i) cs); [|lia]. f_equal. lia.
      * f_equal. lia.
    + intros Hc. unfold set_chunk. rewrite get_chunk_len_Ok by assumption. cbn [bind].
      rewrite assert_false by now apply Nat.eqb_neq. eexists; reflexivity.
    + intros Hc. assert (Hs := set_chunk_Ok d s c cs i H Hc).
      eexists. split; [exact Hs|].
      set (s' := firstn (cs * i) s ++ c ++ skipn (cs * i + length c) s) in *.
      assert (N : forall j, nth_error s' j = if (j <? cs * i)%nat then nth_error s j
                     else if (j <? cs * i + length c)%nat then nth_error c (j - cs * i) else nth_error s j).
      { intros j. unfold s'. rewrite !nth_error_app, nth_error_firstn, nth_error_skipn, firstn_length, Nat.min_l by lia.
        destruct (Nat.ltb_spec j (cs * i)); [reflexivity|].
        destruct (Nat.ltb_spec (j - cs * i) (length c)), (Nat.ltb_spec j (cs * i + length c)); try lia; [reflexivity|].
        f_equal. lia. }
      assert (Ls : length s' = length s).
      { unfold s'. rewrite !app_length, firstn_length, skipn_length. lia. }
      unfold replaced. conjs.
      * exact Ls.
      * intros j Hj. rewrite N. destruct (Nat.ltb_spec (cs * i + j) (cs * i)); [lia|].
        destruct (Nat.ltb_spec (cs * i + j) (cs * i + length c)); [|lia]. f_equal. lia.
      * intros j Hj. rewrite N. destruct (Nat.ltb_spec j (cs * i)); [reflexivity|].
        destruct (Nat.ltb_spec j (cs * i + length c)); [lia|reflexivity].
      * rewrite get_chunk_Ok, Ls by lia. fold m. rewrite <- Hc. do 2 f_equal.
        apply nth_error_ext. intros j. rewrite nth_error_firstn, nth_error_skipn, N.
        destruct (Nat.ltb_spec j cs).
        -- destruct (Nat.ltb_spec (cs * i + j) (cs * i)); [lia|].
           destruct (Nat.ltb_spec (cs * i + j) (cs * i + length c)).
           ++ f_equal. lia.
           ++ transitivity (@None A); [apply nth_error_None|symmetry; apply nth_error_None]; lia.
        -- symmetry. apply nth_error_None. lia.
      * intros j Hj. unfold get_chunk. 
        assert (get_chunk_len s' cs j = get_chunk_len s cs j) as -> by (unfold get_chunk_len; now rewrite Ls).
        destruct (le_lt_dec (cs * j) (length s)) as [Hl|Hl];
          [rewrite get_chunk_len_Ok by assumption | now rewrite get_chunk_len_panic by assumption].
        cbn [bind]. unfold sub_. rewrite !from_sub_Ok by lia. cbn [bind]. do 2 f_equal.
        apply nth_error_ext. intros q. rewrite !nth_error_firstn, !nth_error_skipn, N.
        destruct (Nat.ltb_spec q (Nat.min cs (length s - cs * j))); [|reflexivity].
        destruct (Nat.ltb_spec (cs * j + q) (cs * i)); [reflexivity|].
        destruct (Nat.ltb_spec (cs * j + q) (cs * i + length c)); [|reflexivity].
        exfalso. assert (j < i \/ i < j)%nat as [|] by lia; nia.
Qed.
Print Assumptions C16_get_set_chunk.
Example C16_ex2 : set_chunk [1;2;3;4;5] 2 1 [8;9] = Ok [1;2;8;9;5] /\ panics (get_chunk 0 [1;2;3;4;5] 2 3) /\
  panics (set_chunk [1;2;3;4;5] 2 2 [8;9]) /\ get_chunk 0 [1;2;3;4] 2 2 = Ok (0%nat, []).
Proof. split; [|split; [|split]]; try reflexivity; eexists; reflexivity. Qed.
Theorem C16_chunk_size_zero_panics : forall (A : Type) (s : list A), panics (num_chunks s 0).
Proof. intros A [|a s]; eexists; reflexivity. Qed.
Print Assumptions C16_chunk_size_zero_panics.

(** * C17: array conversions *)
Theorem C17_array_conversions : forall (A : Type) (d : A) (x : list A) l,
  (length x = l -> arr_from_vec d l x = Ok x /\ arr_from_seq d l x = Ok x) /\
  (length x <> l -> panics (arr_from_vec d l x) /\ panics (arr_from_seq d l x)) /\
  ((length x <= l)%nat -> exists r, arr_from_slice d l x = Ok r /\ length r = l /\
      (forall i, (i < length x)%nat -> nth_error r i = nth_error x i) /\
      (forall i, (length x <= i < l)%nat -> nth_error r i = Some d)) /\
  ((l < length x)%nat -> panics (arr_from_slice d l x)) /\
  seq_from_seq d x = Ok x /\ seq_from_vec x = x /\
  (forall n, is_ok (arr_create d l n) <-> n = l).
Proof.
  intros A d x l. conjs.
  - intros H. split; now apply arr_from_vec_Ok.
  - intros H. split; [|change (arr_from_seq d l x) with (arr_from_vec d l x)];
      rewrite arr_from_vec_panic by assumption; eexists; reflexivity.
  - intros H. eexists. split; [now apply arr_from_slice_Ok|]. conjs.
    + rewrite app_length, repeat_length. lia.
    + intros i Hi. now apply nth_error_app1.
    + intros i Hi. rewrite nth_error_app2 by lia.
      rewrite (nth_error_nth' _ d) by (rewrite repeat_length; lia). f_equal.
      apply nth_repeat.
  - intros H. unfold arr_from_slice. rewrite assert_false by now apply Nat.leb_gt. eexists; reflexivity.
  - apply seq_from_seq_Ok.
  - reflexivity.
  - intros n. unfold arr_create. destruct (Nat.eqb_spec n l); cbn; split; intros H; try congruence.
    + eexists; reflexivity.
    + destruct H; discriminate.
Qed.
Print Assumptions C17_array_conversions.
Example C17_ex : arr_from_slice 0 4 [7;8] = Ok [7;8;0;0] /\ panics (arr_from_vec 0 4 [7;8]).
Proof. split; [reflexivity|eexists; reflexivity]. Qed.

(** * C18: hex *)
Lemma hexval_digit c n : hexval c n <-> hex_digit c = Some n.
Proof.
  unfold hexval, hex_digit. split.
  - intros [[H ->]|[H [-> | ->]]].
    + replace ((48 <=? 48 + n) && (48 + n <=? 57)) with true by (symmetry; lia). f_equal. lia.
    + replace ((48 <=? 97 + (n - 10)) && (97 + (n - 10) <=? 57)) with false by (symmetry; lia).
      replace ((97 <=? 97 + (n - 10)) && (97 + (n - 10) <=? 102)) with true by (symmetry; lia). f_equal. lia.
    + replace ((48 <=? 65 + (n - 10)) && (65 + (n - 10) <=? 57)) with false by (symmetry; lia).
      replace ((97 <=? 65 + (n - 10)) && (65 + (n - 10) <=? 102)) with false by (symmetry; lia).
      replace ((65 <=? 65 + (n - 10)) && (65 + (n - 10) <=? 70)) with true by (symmetry; lia). f_equal. lia.
  - destruct ((48 <=? c) && (c <=? 57)) eqn:E1; [intros E; injection E as <-; lia|].
    destruct ((97 <=? c) && (c <=? 102)) eqn:E2; [intros E; injection E as <-; lia|].
    destruct ((65 <=? c) && (c <=? 70)) eqn:E3; [intros E; injection E as <-; lia|]. discriminate.
Qed.
Lemma lower_hex c n : hexval c n -> lower c = hex_char n.
Proof.
  unfold hexval, lower, hex_char. intros [[H ->]|[H [-> | ->]]].
  - replace ((65 <=? 48 + n) && (48 + n <=? 90)) with false by (symmetry; lia).
    now replace (n <? 10) with true by (symmetry; lia).
  - replace ((65 <=? 97 + (n - 10)) && (97 + (n - 10) <=? 90)) with false by (symmetry; lia).
    replace (n <? 10) with false by (symmetry; lia). lia.
  - replace ((65 <=? 65 + (n - 10)) && (65 + (n - 10) <=? 90)) with true by (symmetry; lia).
    replace (n <? 10) with false by (symmetry; lia). lia.
Qed.
Lemma pair_ind {A} (P : list A -> Prop) : P [] -> (forall a, P [a]) -> (forall a b t, P t -> P (a :: b :: t)) -> forall l, P l.
Proof.
  intros H0 H1 H2. enough (forall l, P l /\ forall a, P (a :: l)) by (intros l; apply H).
  induction l as [|b l [IH1 IH2]]; split; auto.
Qed.
Lemma parse_hex_digits s : (length s mod 2 = 0)%nat -> (forall c, In c s -> is_hex c) ->
  exists bs, parse_hex s = Ok bs /\ is_bytes bs /\ (length s = 2 * length bs)%nat /\ to_hex bs = map lower s.
Proof.
  induction s as [|a|a b s IH] using pair_ind.
  - intros _ _. exists []. conjs; try reflexivity. constructor.
  - intros E. cbn in E. discriminate.
  - intros E H. destruct IH as (bs & P & B & L & T).
    + cbn [length] in E. replace (S (S (length s)))%nat with (length s + 1 * 2)%nat in E by lia.
      now rewrite Nat.mod_add in E by lia.
    + intros c Hc. apply H. now right; right.
    + destruct (H a) as [x Hx]; [now left|]. destruct (H b) as [y Hy]; [now right; left|].
      assert (Ra := proj1 (hexval_digit a x) Hx). assert (Rb := proj1 (hexval_digit b y) Hy).
      pose proof (hex_digit_range _ _ Ra). pose proof (hex_digit_range _ _ Rb).
      exists (16 * x + y :: bs). cbn [parse_hex]. unfold parse_pair.
      destruct (Z.eqb_spec a 43) as [->|_]; [discriminate|]. rewrite Ra, Rb, P. cbn [bind]. conjs.
      * reflexivity.
      * constructor; [lia|assumption].
      * cbn [length]. lia.
      * unfold to_hex in *. cbn [flat_map byte_hex app map]. rewrite T.
        rewrite (lower_hex a x Hx), (lower_hex b y Hy).
        replace ((16 * x + y) / 16) with x by (rewrite Z.mul_comm, Z.div_add_l, (Z.div_small y) by lia; lia).
        replace ((16 * x + y) mod 16) with y
          by (rewrite Z.add_comm, Z.mul_comm, Z_mod_plus_full, Z.mod_small by lia; lia).
        reflexivity.
Qed.
Theorem C18_decode_encode : forall bs, bytes bs ->
  seq_from_hex (to_hex bs) = Ok bs /\ arr_from_hex 1 (length bs) (to_hex bs) = Ok bs /\
  forall l, l <> length bs -> panics (arr_from_hex 1 l (to_hex bs)).
Proof.
  intros bs B. apply bytes_is in B.
  assert (E : (length (to_hex bs) mod 2 = 0)%nat).
  { rewrite to_hex_length, Nat.mul_comm. now apply Nat.mod_mul. }
  conjs.
  - unfold seq_from_hex, hex_string_to_bytes. rewrite assert_true by now apply Nat.eqb_eq. cbn [bind].
    rewrite parse_to_hex by assumption. cbn [bind]. unfold classify. now rewrite map_id.
  - unfold arr_from_hex, hex_string_to_vec. rewrite Nat.mod_1_r. cbn [assert_ Nat.eqb bind].
    rewrite parse_to_hex by assumption. cbn [bind]. rewrite Nat.eqb_refl. cbn [assert_ bind].
    exact (seq_from_seq_Ok 0 bs).
  - intros l Hl. unfold arr_from_hex, hex_string_to_vec. rewrite Nat.mod_1_r. cbn [assert_ Nat.eqb bind].
    rewrite parse_to_hex by assumption. cbn [bind].
    rewrite assert_false by (apply Nat.eqb_neq; congruence). eexists; reflexivity.
Qed.
Print Assumptions C18_decode_encode.
Theorem C18_encode_decode : forall s, (length s mod 2 = 0)%nat -> (forall c, In c s -> is_hex c) ->
  exists bs, seq_from_hex s = Ok bs /\ bytes bs /\ (length s = 2 * length bs)%nat /\ to_hex bs = map lower s.
Proof.
  intros s E H. destruct (parse_hex_digits s E H) as (bs & P & B & L & T). exists bs.
  unfold seq_from_hex, hex_string_to_bytes. rewrite assert_true by now apply Nat.eqb_eq. cbn [bind].
  rewrite P. cbn [bind]. unfold classify. rewrite map_id. conjs; auto. now apply bytes_is.
Qed.
Print Assumptions C18_encode_decode.
(** "0aFF" *)
Example C18_ex : seq_from_hex [48;97;70;70] = Ok [10;255] /\ to_hex [10;255] = [48;97;102;102].
Proof. vm_compute. auto. Qed.

(** Exactly the accepted strings: even length, and every pair is two hex digits or
    a plus sign and a hex digit. *)
Definition pair_ok (a b : Z) : Prop := is_hex b /\ (is_hex a \/ a = 43).
Lemma parse_hex_exact s : is_ok (parse_hex s) <->
  (length s mod 2 = 0)%nat /\
  forall i a b, nth_error s (2 * i) = Some a -> nth_error s (2 * i + 1) = Some b -> pair_ok a b.
Proof.
  induction s as [|a|a b s IH] using pair_ind.
  - split; [|intros; eexists; reflexivity]. intros _. split; [reflexivity|].
    intros i a b H. apply nth_error_In in H. destruct H.
  - cbn. split; [intros [x Hx]; discriminate|]. intros [H _]; discriminate.
  - cbn [parse_hex length].
    assert (M : (S (S (length s)) mod 2 = length s mod 2)%nat).
    { replace (S (S (length s)))%nat with (length s + 1 * 2)%nat by lia. apply Nat.mod_add. lia. }
    rewrite M.
    assert (P : (exists x, parse_pair a b = Some x) <-> pair_ok a b).
    { unfold parse_pair, pair_ok, is_hex. setoid_rewrite hexval_digit.
      destruct (Z.eqb_spec a 43) as [->|Na].
      - split; [intros [x ->]; split; eauto|intros [H _]; exact H].
      - destruct (hex_digit a) as [x|] eqn:Ea, (hex_digit b) as [y|] eqn:Eb.
        + split; intros; eauto.
        + split; [intros [? H]; discriminate|intros [[? H] _]; discriminate].
        + split; [intros [? H]; discriminate|]. intros [_ [[? H]|H]]; [discriminate|congruence].
        + split; [intros [? H]; discriminate|intros [[? H] _]; discriminate]. }
    split.
    + intros [r Hr]. destruct (parse_pair a b) as [x|] eqn:Ep; [|discriminate].
      destruct (parse_hex s) as [t|] eqn:Et; [|discriminate].
      destruct (proj1 IH (ex_intro _ t eq_refl)) as [E H]. split; [assumption|].
      intros [|i] c e Hc He.
      * cbn in Hc, He. injection Hc as <-. injection He as <-. apply P. eauto.
      * apply (H i).
        -- replace (2 * S i)%nat with (S (S (2 * i))) in Hc by lia. exact Hc.
        -- replace (2 * S i + 1)%nat with (S (S (2 * i + 1))) in He by lia. exact He.
    + intros [E H]. destruct (proj2 P (H 0%nat a b eq_refl eq_refl)) as [x ->].
      destruct (proj2 IH) as [t ->]; [|eexists; reflexivity].
      split; [assumption|]. intros i c e Hc He. apply (H (S i)).
      * replace (2 * S i)%nat with (S (S (2 * i))) by lia. exact Hc.
      * replace (2 * S i + 1)%nat with (S (S (2 * i + 1))) by lia. exact He.
Qed.
Lemma is_ok_bind_map {A B} (x : res A) (f : A -> B) : is_ok (let* a := x in Ok (f a)) <-> is_ok x.
Proof. destruct x; cbn; split; intros [y H]; try discriminate; eexists; reflexivity. Qed.
Theorem C18_accepted_exactly : forall s, is_ok (seq_from_hex s) <->
  (length s mod 2 = 0)%nat /\
  forall i a b, nth_error s (2 * i) = Some a -> nth_error s (2 * i + 1) = Some b -> pair_ok a b.
Proof.
  intros s. unfold seq_from_hex. rewrite is_ok_bind_map, <- parse_hex_exact. unfold hex_string_to_bytes.
  destruct (Nat.eqb_spec (length s mod 2) 0) as [E|E]; cbn [assert_ bind]; [reflexivity|].
  split; [intros [? H]; discriminate|]. intros H. apply parse_hex_exact in H. tauto.
Qed.
Print Assumptions C18_accepted_exactly.
(** So the claim "non-hex characters panic" is false: "+f" is read as 0x0f. *)
Theorem C18_non_hex_panics_refuted : exists s c b, (length s mod 2 = 0)%nat /\ In c s /\ ~ is_hex c /\
  seq_from_hex s = Ok [b].
Proof.
  exists [43; 102], 43, 15. conjs; [reflexivity|now left| |reflexivity].
  intros [n H]. unfold hexval in H. lia.
Qed.
Print Assumptions C18_non_hex_panics_refuted.
(** from_hex of an array of 4-byte elements takes one element per two digits, but
    asserts the digit count divisible by 4: three elements are refused. *)
Theorem C18_wide_array_from_hex_refuted : exists bs, bytes bs /\ panics (arr_from_hex 4 (length bs) (to_hex bs)).
Proof. exists [1;2;3]. split; [intros b H; cbn in H; lia|]. eexists. reflexivity. Qed.
Print Assumptions C18_wide_array_from_hex_refuted.

(** * C19: word views *)
Theorem C19_word_views : forall w c bs, rust_width w -> bytes bs ->
  let t := mkity w false c in let k := Z.to_nat (w / 8) in
  ((length bs mod k = 0)%nat ->
    (exists ws, to_be_words t (length bs) bs = Ok ws /\ length ws = (length bs / k)%nat /\
       (forall x, In x ws -> uval w x) /\ arr_to_be_bytes t (length ws) ws = Ok bs /\
       to_pub_words be_val t (length bs) bs = Ok ws) /\
    (exists ws, to_le_words t (length bs) bs = Ok ws /\ length ws = (length bs / k)%nat /\
       (forall x, In x ws -> uval w x) /\ arr_to_le_bytes t (length ws) ws = Ok bs /\
       to_pub_words le_val t (length bs) bs = Ok ws)) /\
  ((length bs mod k <> 0)%nat ->
     panics (to_be_words t (length bs) bs) /\ panics (to_le_words t (length bs) bs) /\
     panics (to_pub_words be_val t (length bs) bs) /\ panics (to_pub_words le_val t (length bs) bs)).
Proof.
  intros w c bs H B t k. pose proof (rust_aligned t H) as Al. apply bytes_is in B.
  change k with (bytes_of t). split; intros M.
  - pose proof (Nat.div_mod (length bs) (bytes_of t) ltac:(destruct Al; lia)) as E.
    rewrite M, Nat.add_0_r in E.
    destruct (split_multiple (bytes_of t) _ bs E) as (ls & -> & F & N).
    assert (Bl : Forall is_bytes ls) by now apply Forall_concat_inv.
    assert (El : map (fun s => cast t (le_val s)) ls = map le_val ls).
    { apply map_ext_in. intros s Hs. rewrite Forall_forall in F, Bl. apply cast_unsigned_le; auto. }
    assert (Eb : map (fun s => cast t (be_val s)) ls = map be_val ls).
    { apply map_ext_in. intros s Hs. rewrite Forall_forall in F, Bl. apply cast_unsigned_be; auto. }
    pose proof (aligned_pow t Al) as P. cbn [bits t] in P.
    split.
    + exists (map be_val ls). conjs.
      * rewrite <- Eb. apply (to_words_Ok word_from_be_bytes); auto. intros s Ls. now apply word_from_be_Ok.
      * now rewrite map_length.
      * intros x Hx. apply in_map_iff in Hx. destruct Hx as (s & <- & Hs). rewrite Forall_forall in F, Bl.
        unfold uval. rewrite <- P, <- (F s Hs). now apply be_val_range, Bl.
      * rewrite arr_to_be_bytes_Ok by reflexivity. unfold to_be_bytes. rewrite flat_map_concat_map, map_map.
        do 2 f_equal. rewrite <- (map_id ls) at 2. apply map_ext_in. intros s Hs. rewrite Forall_forall in F, Bl.
        rewrite <- (F s Hs). now apply be_bytes_be_val, Bl.
      * now apply to_pub_words_Ok.
    + exists (map le_val ls). conjs.
      * rewrite <- El. apply (to_words_Ok word_from_le_bytes); auto. intros s Ls. now apply word_from_le_Ok.
      * now rewrite map_length.
      * intros x Hx. apply in_map_iff in Hx. destruct Hx as (s & <- & Hs). rewrite Forall_forall in F, Bl.
        unfold uval. rewrite <- P, <- (F s Hs). now apply le_val_range, Bl.
      * rewrite arr_to_le_bytes_Ok by reflexivity. unfold to_le_bytes. rewrite flat_map_concat_map, map_map.
        do 2 f_equal. rewrite <- (map_id ls) at 2. apply map_ext_in. intros s Hs. rewrite Forall_forall in F, Bl.
        rewrite <- (F s Hs). now apply le_bytes_le_val, Bl.
      * now apply to_pub_words_Ok.
  - conjs; (now apply to_words_panics) || (now apply to_pub_words_panics).
Qed.
Print Assumptions C19_word_views.
Example C19_ex : to_be_words U32 8 [18;52;86;120;0;0;0;1] = Ok [305419896; 1] /\
  arr_to_be_bytes U32 2 [305419896; 1] = Ok [18;52;86;120;0;0;0;1] /\ panics (to_le_words U32 5 [1;2;3;4;5]).
Proof. vm_compute. split; [|split]; try reflexivity. eexists; reflexivity. Qed.
(** And from words to bytes and back. *)
Theorem C19_words_bytes_words : forall w c ws, rust_width w -> (forall x, In x ws -> uval w x) ->
  let t := mkity w false c in
  (exists bs, arr_to_be_bytes t (length ws) ws = Ok bs /\ to_be_words t (length bs) bs = Ok ws) /\
  (exists bs, arr_to_le_bytes t (length ws) ws = Ok bs /\ to_le_words t (length bs) bs = Ok ws).
Proof.
  intros w c ws H V t. pose proof (rust_aligned t H) as Al.
  pose proof (aligned_pow t Al) as P. cbn [bits t] in P.
  assert (C : forall x, In x ws -> cast t x = x).
  { intros x Hx. unfold cast, iwrap. cbn [sgn bits t]. apply Z.mod_small. now apply V. }
  split; eexists; (split; [now apply arr_to_be_bytes_Ok || now apply arr_to_le_bytes_Ok|]).
  - unfold to_be_bytes. rewrite flat_map_concat_map. unfold to_be_words.
    rewrite (to_words_Ok word_from_be_bytes (fun s => cast t (be_val s)));
      [|exact Al|intros; now apply word_from_be_Ok|apply Forall_map, Forall_forall; intros; apply be_bytes_length].
    f_equal. rewrite map_map. rewrite <- (map_id ws) at 2. apply map_ext_in. intros x Hx.
    rewrite be_val_be_bytes, P, Z.mod_small by now apply V. auto.
  - unfold to_le_bytes. rewrite flat_map_concat_map. unfold to_le_words.
    rewrite (to_words_Ok word_from_le_bytes (fun s => cast t (le_val s)));
      [|exact Al|intros; now apply word_from_le_Ok|apply Forall_map, Forall_forall; intros; apply le_bytes_length].
    f_equal. rewrite map_map. rewrite <- (map_id ws) at 2. apply map_ext_in. intros x Hx.
    rewrite le_val_le_bytes, P, Z.mod_small by now apply V. auto.
Qed.
Print Assumptions C19_words_bytes_words.

(** * C20: equality *)
Theorem C20_equality_decides : forall x y, list_eqb x y = true <->
  length x = length y /\ forall i, (i < length x)%nat -> nth i x 0 = nth i y 0.
Proof.
  intros x y. rewrite list_eqb_spec. split.
  - intros ->. auto.
  - intros [L H]. now apply (nth_ext_eq x y 0).
Qed.
Print Assumptions C20_equality_decides.
Example C20_ex : list_eqb [1;2] [1;2] = true /\ list_eqb [1;2] [1;2;0] = false /\ list_eqb [1;2] [1;3] = false.
Proof. auto. Qed.

(** * C67: comparison of public arrays is the lexicographic order *)
Theorem C67_order_lexicographic : forall x y,
  (list_cmp x y = Eq <-> x = y) /\
  (list_cmp x y = Lt <-> exists p, (exists b t, x = p /\ y = p ++ b :: t) \/
       (exists a b s t, x = p ++ a :: s /\ y = p ++ b :: t /\ a < b)) /\
  (list_cmp x y = Gt <-> list_cmp y x = Lt).
Proof.
  intros x y. conjs.
  - revert y; induction x as [|a x IH]; intros [|b y]; cbn; try (split; congruence).
    destruct (Z.compare_spec a b) as [->|Hlt|Hgt].
    + rewrite IH. split; congruence.
    + split; [discriminate|]. intros E; injection E; lia.
    + split; [discriminate|]. intros E; injection E; lia.
  - revert y; induction x as [|a x IH]; intros [|b y]; cbn.
    + split; [discriminate|]. intros [p [(b & t & <- & H)|(c & e & s & t & H & _)]]; [discriminate|destruct p; discriminate].
    + split; [intros _|reflexivity]. exists []. left. exists b, y. auto.
    + split; [discriminate|]. intros [p [(c & t & _ & H)|(c & e & s & t & _ & H & _)]]; destruct p; discriminate.
    + destruct (Z.compare_spec a b) as [->|Hlt|Hgt].
      * rewrite IH. split.
        -- intros [p [(c & t & -> & ->)|(c & e & s & t & -> & -> & L)]]; exists (b :: p).
           ++ left. exists c, t. auto.
           ++ right. exists c, e, s, t. auto.
        -- intros [[|q p] [(c & t & H1 & H2)|(c & e & s & t & H1 & H2 & L)]]; cbn in *; try discriminate.
           ++ injection H1 as -> ->. injection H2 as -> ->. lia.
           ++ injection H1 as -> ->. injection H2 as ->. exists p. left. eauto.
           ++ injection H1 as -> ->. injection H2 as ->. exists p. right. exists c, e, s, t. auto.
      * split; [|reflexivity]. intros _. exists []. right. exists a, b, x, y. auto.
      * split; [discriminate|].
        intros [[|q p] [(c & t & H1 & H2)|(c & e & s & t & H1 & H2 & L)]]; cbn in *; try discriminate;
          injection H1; injection H2; intros; subst; lia.
  - revert y; induction x as [|a x IH]; intros [|b y]; cbn; try (split; congruence).
    rewrite (Z.compare_antisym a b). destruct (a ?= b); cbn; try (split; congruence). apply IH.
Qed.
Print Assumptions C67_order_lexicographic.
Example C67_ex : list_cmp [1;2;3] [1;3;0] = Lt /\ list_cmp [255] [0;1] = Gt.
Proof. auto. Qed.

(** * C21: element-wise arithmetic *)
(** r has length l and element i is f(x_i, y_i) modulo 2^w, in the range of the type *)
Definition pointwise_mod (w : Z) (s : bool) (f : Z -> Z -> Z) (l : nat) (x y r : list Z) : Prop :=
  length r = l /\ forall i, (i < l)%nat -> val w s (nth i r 0) /\ cong w (nth i r 0) (f (nth i x 0) (nth i y 0)).
Definition arr_of (w : Z) (s : bool) (l : nat) (x : list Z) : Prop :=
  length x = l /\ forall e, In e x -> val w s e.

Lemma zip_iwrap_pm w s c f l x y : 0 < w -> length x = l -> length y = l ->
  pointwise_mod w s f l x y (zip_with (fun a b => iwrap (mkity w s c) (f a b)) x y).
Proof.
  intros Hw Lx Ly. split; [rewrite zip_with_length; lia|]. intros i Hi.
  rewrite (nth_zip_with _ x y i 0 0) by lia. split.
  - apply (val_in_ty w s c). now apply iwrap_range.
  - exact (iwrap_congr (mkity w s c) _ Hw).
Qed.
Theorem C21_array_arithmetic : forall w s l x y, 0 < w -> arr_of w s l x -> arr_of w s l y ->
  let S := mkity w s true in let P := mkity w s false in
  (exists r, sarr_add S l x y = Ok r /\ pointwise_mod w s Z.add l x y r) /\
  (exists r, sarr_sub S l x y = Ok r /\ pointwise_mod w s Z.sub l x y r) /\
  (exists r, sarr_mul S l x y = Ok r /\ pointwise_mod w s Z.mul l x y r) /\
  (exists r, parr_add P l x y = Ok r /\ pointwise_mod w s Z.add l x y r) /\
  (exists r, parr_sub P l x y = Ok r /\ pointwise_mod w s Z.sub l x y r) /\
  (forall fuel, exists r, parr_mul fuel P l x y = Ok r /\ pointwise_mod w s Z.mul l x y r) /\
  (forall fuel, exists r, pseq_add fuel P x y = Ok r /\ pointwise_mod w s Z.add l x y r) /\
  (forall fuel, exists r, pseq_sub fuel P x y = Ok r /\ pointwise_mod w s Z.sub l x y r) /\
  (forall fuel, exists r, pseq_mul fuel P x y = Ok r /\ pointwise_mod w s Z.mul l x y r).
Proof.
  intros w s l x y Hw [Lx Vx] [Ly Vy] S P.
  assert (E : (length x =? length y)%nat = true) by (apply Nat.eqb_eq; congruence).
  unfold sarr_add, sarr_sub, sarr_mul, parr_add, parr_sub, parr_mul, pseq_add, pseq_sub, pseq_mul.
  rewrite assert_true by exact E. cbn [bind].
  conjs; try intros fuel; eexists; (split; [|apply (zip_iwrap_pm w s true) || apply (zip_iwrap_pm w s false); auto]).
  - apply (pointwise_Ok l _ (fun a b => iwrap S (a + b))); auto.
  - apply (pointwise_Ok l _ (fun a b => iwrap S (a - b))); auto.
  - apply (pointwise_Ok l _ (fun a b => iwrap S (a * b))); auto.
  - apply (pointwise_Ok l _ (fun a b => iwrap P (a + b))); auto.
  - apply (pointwise_Ok l _ (fun a b => iwrap P (a - b))); auto.
  - apply (vec_poly_zero_Ok _ wrap_mul P); [congruence|]. unfold arr_create. now rewrite Lx, Nat.eqb_refl.
  - apply (vec_poly_zero_Ok _ wrap_add P); [congruence|reflexivity].
  - apply (vec_poly_zero_Ok _ wrap_sub P); [congruence|reflexivity].
  - apply (vec_poly_zero_Ok _ wrap_mul P); [congruence|reflexivity].
Qed.
Print Assumptions C21_array_arithmetic.
Example C21_ex : sarr_add U8 2 [200; 1] [100; 2] = Ok [44; 3] /\ parr_mul 1 u8 2 [16; 3] [17; 5] = Ok [16; 15] /\
  pseq_sub 1 u8 [1] [2] = Ok [255].
Proof. auto. Qed.

Theorem C21_array_xor : forall w s l x y, 0 < w -> arr_of w s l x -> arr_of w s l y ->
  exists r, sarr_xor l x y = Ok r /\ parr_xor l x y = Ok r /\ arr_of w s l r /\
    (forall i j, (i < l)%nat -> 0 <= j -> Z.testbit (nth i r 0) j = xorb (Z.testbit (nth i x 0) j) (Z.testbit (nth i y 0) j)) /\
    sarr_xor l r y = Ok x.
Proof.
  intros w s l x y Hw [Lx Vx] [Ly Vy]. exists (zip_with Z.lxor x y).
  assert (Lr : length (zip_with Z.lxor x y) = l) by (rewrite zip_with_length; lia).
  conjs.
  - apply (pointwise_Ok l _ Z.lxor); auto.
  - unfold parr_xor. rewrite assert_true by (apply Nat.eqb_eq; congruence). cbn [bind].
    apply (pointwise_Ok l _ Z.lxor); auto.
  - split; [exact Lr|]. intros e He. apply In_nth with (d := 0) in He. destruct He as (i & Hi & <-).
    rewrite (nth_zip_with _ x y i 0 0) by lia. apply (val_in_ty w s true).
    apply in_ty_xor; [exact Hw|..]; apply (val_in_ty w s true); [apply Vx|apply Vy]; apply nth_In; lia.
  - intros i j Hi Hj. rewrite (nth_zip_with _ x y i 0 0) by lia. apply Z.lxor_spec.
  - unfold sarr_xor. rewrite (pointwise_Ok l _ Z.lxor); auto. f_equal. apply (nth_ext_eq _ _ 0).
    + rewrite zip_with_length. lia.
    + intros i Hi. rewrite zip_with_length in Hi. rewrite (nth_zip_with _ _ y i 0 0) by lia.
      rewrite (nth_zip_with _ x y i 0 0) by lia. rewrite Z.lxor_assoc, Z.lxor_nilpotent. apply Z.lxor_0_r.
Qed.
Print Assumptions C21_array_xor.
Example C21_xor_ex : sarr_xor 2 [5; 255] [3; 15] = Ok [6; 240].
Proof. reflexivity. Qed.
(** Sequences of different lengths are refused. *)
Theorem C21_length_mismatch_panics : forall t fuel x y, length x <> length y ->
  panics (pseq_add fuel t x y) /\ panics (pseq_sub fuel t x y) /\ panics (pseq_mul fuel t x y).
Proof.
  intros t fuel x y H. unfold pseq_add, pseq_sub, pseq_mul, vec_poly_add, vec_poly_sub, vec_poly_mul.
  rewrite !vec_poly_panic by assumption. conjs; eexists; reflexivity.
Qed.
Print Assumptions C21_length_mismatch_panics.
(** Division of public unsigned arrays is element-wise, and panics exactly when some divisor is zero. *)
Theorem C21_array_div : forall w l x y, 0 < w -> arr_of w false l x -> arr_of w false l y ->
  let P := mkity w false false in
  ((forall e, In e y -> e <> 0) -> exists r, parr_div P l x y = Ok r /\ length r = l /\
      forall i, (i < l)%nat -> nth i r 0 = nth i x 0 / nth i y 0) /\
  (In 0 y -> panics (parr_div P l x y)).
Proof.
  intros w l x y Hw [Lx Vx] [Ly Vy] P. unfold parr_div.
  rewrite assert_true by (apply Nat.eqb_eq; congruence). cbn [bind].
  assert (D : forall i, (i < l)%nat -> nth i y 0 <> 0 -> op_div P (nth i x 0) (nth i y 0) = Ok (nth i x 0 / nth i y 0)).
  { intros i Hi Hn. unfold op_div. destruct (Z.eqb_spec (nth i y 0) 0); [contradiction|].
    assert (X : uval w (nth i x 0)) by (apply Vx, nth_In; lia).
    assert (Y : uval w (nth i y 0)) by (apply Vy, nth_In; lia). unfold uval in *.
    rewrite Z.quot_div_nonneg by lia. apply chk_Ok. unfold in_ty, imin, imax. cbn [sgn bits P].
    split; [apply Z.div_pos; lia|]. assert (nth i x 0 / nth i y 0 <= nth i x 0) by (apply Z.div_le_upper_bound; nia). lia. }
  split.
  - intros Hn. exists (zip_with Z.div x y). conjs.
    + apply pointwise_Ok; auto. intros i Hi. apply D; [assumption|]. apply Hn, nth_In. lia.
    + rewrite zip_with_length. lia.
    + intros i Hi. apply nth_zip_with; lia.
  - intros H0. 
    assert (exists i, (i < l)%nat /\ nth i y 0 = 0 /\ forall j, (j < i)%nat -> nth j y 0 <> 0) as (i & Hi & Zi & Hj).
    { clear -H0 Ly. revert l Ly; induction y as [|e y IH]; intros l Ly; [destruct H0|].
      destruct (Z.eq_dec e 0) as [->|Ne].
      - exists 0%nat. cbn in *. conjs; [lia|reflexivity|lia].
      - destruct H0 as [?|H0]; [contradiction|]. destruct (IH H0 (length y) eq_refl) as (i & Hi & Zi & Hj).
        exists (S i). cbn in *. conjs; [lia|assumption|]. intros [|j] Hl; [assumption|apply Hj; lia]. }
    unfold pointwise. apply (for_range_panics (fun _ s => length s = l) _ 0 (length x) i).
    + lia.
    + apply seq_new_length.
    + intros j s Hjr Ls. rewrite (idx_Ok x j 0), (idx_Ok y j 0) by lia. cbn [bind].
      rewrite D by (lia || (apply Hj; lia)). cbn [bind]. rewrite upd_Ok by lia. eexists. split; [reflexivity|].
      now rewrite set_nth_length.
    + intros s Ls. rewrite (idx_Ok x i 0), (idx_Ok y i 0) by lia. cbn [bind]. unfold op_div. rewrite Zi.
      eexists; reflexivity.
Qed.
Print Assumptions C21_array_div.
Example C21_div_ex : parr_div u8 2 [200; 7] [3; 7] = Ok [66; 1] /\ panics (parr_div u8 2 [200; 7] [3; 0]).
Proof. split; [reflexivity|eexists; reflexivity]. Qed.

(** * C22 *)
Theorem C22_public_seq_xor_refuted : exists x y, length x = length y /\ length (pseq_xor x y) <> length x.
Proof. exists [1], [2]. cbn. split; [reflexivity|discriminate]. Qed.
Print Assumptions C22_public_seq_xor_refuted.
Theorem C22_public_seq_xor_always_empty : forall x y, pseq_xor x y = [].
Proof. intros [|] [|]; reflexivity. Qed.
Print Assumptions C22_public_seq_xor_always_empty.

(** * C23 *)
Theorem C23_public_secret_conversion : forall l x,
  (length x = l ->
     (exists s, from_public l x = Ok s /\ from_secret_declassify l s = Ok x /\
        length s = l /\ forall i, nth i s 0 = nth i x 0) /\
     (exists p, from_secret_declassify l x = Ok p /\ from_public l p = Ok x) /\
     from_public_slice l x = Ok x) /\
  (length x <> l -> panics (from_public l x) /\ panics (from_secret_declassify l x) /\ panics (from_public_slice l x)).
Proof.
  intros l x. unfold from_public, from_secret_declassify, from_public_slice, classify, declassify.
  rewrite !map_id. split; intros H.
  - rewrite arr_from_vec_Ok by assumption. conjs.
    + exists x. rewrite map_id, arr_from_vec_Ok by assumption. auto.
    + exists x. rewrite map_id, arr_from_vec_Ok by assumption. auto.
    + now rewrite assert_true by now apply Nat.eqb_eq.
  - rewrite arr_from_vec_panic by assumption. rewrite assert_false by now apply Nat.eqb_neq.
    conjs; eexists; reflexivity.
Qed.
Print Assumptions C23_public_secret_conversion.
Example C23_ex : from_public 2 [7; 250] = Ok [7; 250] /\ panics (from_public 3 [1]).
Proof. split; [reflexivity|eexists; reflexivity]. Qed.

(** * C35: "*" of public sequences is documented as multiplication in Z[x] *)
Theorem C35_seq_mul_is_polynomial_product_refuted : exists fuel x y r k,
  pseq_mul fuel u32 x y = Ok r /\ nth k r 0 <> conv_coeff x y k.
Proof. exists 1%nat, [0;1], [1;0], [0;0], 1%nat. split; [reflexivity|]. vm_compute. discriminate. Qed.
Print Assumptions C35_seq_mul_is_polynomial_product_refuted.
(** What it computes instead: the pointwise product modulo 2^w, of the length of the inputs. *)
Theorem C35_seq_mul_is_pointwise : forall fuel w s x y, 0 < w -> arr_of w s (length x) x -> arr_of w s (length x) y ->
  exists r, pseq_mul fuel (mkity w s false) x y = Ok r /\ pointwise_mod w s Z.mul (length x) x y r.
Proof. intros fuel w s x y Hw Hx Hy. now apply C21_array_arithmetic. Qed.
Print Assumptions C35_seq_mul_is_pointwise.
