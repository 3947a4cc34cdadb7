(** Lemmas relating the ChaCha20 model to the specification. *)
From Coq Require Import ZArith List Bool Arith Lia.
From Verif Require Import Base P_Base M_Int P_Int M_Seq M_Bytes M_Vec P_Seq P_Bytes P_Vec
  P_Word P_Stream M_BigInt M_NatMod M_ChaCha S_ChaCha.
Import ListNotations.
Open Scope Z_scope.

Lemma add32_op x y : op_add U32 x y = Ok (add32 x y).
Proof. reflexivity. Qed.
Lemma rotl32_op x n : word32 x -> 0 <= n < 32 -> rotate_left U32 x n = rotl32 x n.
Proof. intros Hx Hn. now apply rotate_left_arith. Qed.
Lemma add32_word x y : word32 (add32 x y).
Proof. apply Z.mod_pos_bound. reflexivity. Qed.
Lemma rotl_word x n : word32 (rotate_left U32 x n).
Proof.
  pose proof (rotate_left_range U32 x n eq_refl) as H. unfold in_ty in H. 
  change (imin U32) with 0 in H. change (imax U32) with (2 ^ 32 - 1) in H. unfold word32. lia.
Qed.
Lemma xor_word x y : word32 x -> word32 y -> word32 (Z.lxor x y).
Proof. apply lxor_range. lia. Qed.
Lemma rotl32_word x n : word32 x -> 0 <= n < 32 -> word32 (rotl32 x n).
Proof. intros H Hn. rewrite <- rotl32_op by assumption. apply rotl_word. Qed.
#[global] Hint Resolve add32_word rotl_word xor_word : w32.

Lemma qr_words a b c d : word32 a -> word32 b -> word32 c -> word32 d ->
  forall r, word32 (comp4 (rfc_quarter_round (a, b, c, d)) r).
Proof.
  intros Ha Hb Hc Hd r. unfold rfc_quarter_round, comp4.
  destruct r as [|[|[|r]]]; auto with w32;
  repeat (first [apply rotl32_word | apply xor_word | apply add32_word | assumption | lia]).
Qed.

Lemma Forall_nth_word (P : Z -> Prop) l i : Forall P l -> (i < length l)%nat -> P (nth i l 0).
Proof. apply Forall_nth0. Qed.

Lemma line_Ok a b d s st : (a < length st)%nat -> (b < length st)%nat -> (d < length st)%nat ->
  a <> d -> Forall word32 st -> 0 <= s < 32 ->
  line a b d s st = Ok (set_nth (set_nth st a (add32 (nth a st 0) (nth b st 0))) d
    (rotl32 (Z.lxor (nth d st 0) (add32 (nth a st 0) (nth b st 0))) s)).
Proof.
  intros Ha Hb Hd Had Hw Hs. unfold line.
  rewrite (idx_Ok _ _ 0), (idx_Ok _ _ 0) by assumption. cbn [bind]. rewrite add32_op. cbn [bind].
  rewrite upd_Ok by assumption. cbn [bind].
  rewrite !(idx_Ok _ _ 0) by (now rewrite set_nth_length). cbn [bind].
  rewrite !nth_set_nth, Nat.eqb_refl.
  replace (d =? a)%nat with false by (symmetry; apply Nat.eqb_neq; auto).
  replace (a <? length st)%nat with true by (symmetry; now apply Nat.ltb_lt). cbn [andb].
  rewrite upd_Ok by (now rewrite set_nth_length). cbn [bind].
  rewrite (idx_Ok _ _ 0) by (now rewrite !set_nth_length). cbn [bind].
  rewrite upd_Ok by (now rewrite !set_nth_length).
  rewrite nth_set_nth, Nat.eqb_refl, set_nth_length.
  replace (d <? length st)%nat with true by (symmetry; now apply Nat.ltb_lt). cbn [andb].
  unfold op_xor. rewrite rotl32_op; [|apply xor_word; [now apply Forall_nth_word|auto with w32]|assumption].
  f_equal. set (y := rotl32 _ _). set (x := Z.lxor _ _). clear.
  set (l := set_nth st a _). clearbody x y l. revert d; induction l; destruct d; cbn; f_equal; auto.
Qed.

Lemma set_nth_words l i v : Forall word32 l -> word32 v -> Forall word32 (set_nth l i v).
Proof. apply Forall_set_nth. Qed.

Definition st_ok (l : list Z) : Prop := words16 l.
Lemma st_nth l i : words16 l -> (i < 16)%nat -> word32 (nth i l 0).
Proof. intros [H1 H2] Hi. apply Forall_nth_word; [assumption|lia]. Qed.
Lemma st_set l i v : words16 l -> word32 v -> words16 (set_nth l i v).
Proof. intros [H1 H2] Hv. split; [now rewrite set_nth_length|now apply Forall_set_nth]. Qed.

(** quarter_round as four simultaneous assignments *)
Definition put4 (l : list Z) (a b c d : nat) (v : Z * Z * Z * Z) : list Z :=
  set_nth (set_nth (set_nth (set_nth l a (comp4 v 0)) b (comp4 v 1)) c (comp4 v 2)) d (comp4 v 3).
Definition get4 (l : list Z) (a b c d : nat) : Z * Z * Z * Z :=
  (nth a l 0, nth b l 0, nth c l 0, nth d l 0).

Lemma list16_ext (l m : list Z) : length l = length m -> (forall j, (j < length l)%nat -> nth j l 0 = nth j m 0) -> l = m.
Proof. apply nth_ext_eq. Qed.

Lemma quarter_round_Ok a b c d st : words16 st ->
  (a < 16)%nat -> (b < 16)%nat -> (c < 16)%nat -> (d < 16)%nat ->
  a <> b -> a <> c -> a <> d -> b <> c -> b <> d -> c <> d ->
  quarter_round a b c d st = Ok (put4 st a b c d (rfc_quarter_round (get4 st a b c d)))
  /\ words16 (put4 st a b c d (rfc_quarter_round (get4 st a b c d))).
Proof.
  intros Hst Ha Hb Hc Hd N1 N2 N3 N4 N5 N6.
  assert (Hq : forall r, word32 (comp4 (rfc_quarter_round (get4 st a b c d)) r))
    by (apply qr_words; now apply st_nth).
  split; [|unfold put4; repeat apply st_set; auto].
  destruct Hst as [HL HF].
  pose proof (Forall_nth_word _ _ a HF ltac:(lia)) as Wa.
  pose proof (Forall_nth_word _ _ b HF ltac:(lia)) as Wb.
  pose proof (Forall_nth_word _ _ c HF ltac:(lia)) as Wc.
  pose proof (Forall_nth_word _ _ d HF ltac:(lia)) as Wd.
  unfold quarter_round.
  repeat (rewrite line_Ok; cbn [bind];
    [ | rewrite ?set_nth_length; lia | rewrite ?set_nth_length; lia | rewrite ?set_nth_length; lia
      | auto
      | repeat apply set_nth_words; auto with w32;
        repeat (first [apply rotl32_word | apply xor_word | apply add32_word | assumption | lia
                      | apply Forall_nth_word; [repeat apply set_nth_words|rewrite ?set_nth_length; lia]])
      | lia]).
  f_equal. unfold put4. apply list16_ext; [now rewrite !set_nth_length|].
  intros j Hj. rewrite !set_nth_length in Hj.
  rewrite !nth_set_nth, !set_nth_length, HL.
  assert (E : forall k, (k < 16)%nat -> (k <? 16)%nat = true) by (intros; now apply Nat.ltb_lt).
  rewrite (E a), (E b), (E c), (E d) by assumption. rewrite !andb_true_r.
  assert (R : forall x y : nat, x <> y -> (x =? y)%nat = false) by (intros; now apply Nat.eqb_neq).
  rewrite !Nat.eqb_refl.
  rewrite ?(R a b), ?(R a c), ?(R a d), ?(R b a), ?(R b c), ?(R b d), ?(R c a), ?(R c b), ?(R c d),
    ?(R d a), ?(R d b), ?(R d c) by auto.
  unfold get4, rfc_quarter_round, comp4.
  destruct (j =? d)%nat eqn:Jd, (j =? b)%nat eqn:Jb, (j =? c)%nat eqn:Jc, (j =? a)%nat eqn:Ja;
    try reflexivity; exfalso;
    repeat match goal with H : (_ =? _)%nat = true |- _ => apply Nat.eqb_eq in H end; subst; auto.
Qed.

Lemma line_bij a b d s : (a < 16)%nat -> (b < 16)%nat -> (d < 16)%nat -> a <> b -> a <> d -> b <> d ->
  0 <= s < 32 -> bij_on words16 (line a b d s).
Proof.
  intros Ha Hb Hd N1 N2 N3 Hs.
  assert (E : forall k, (k < 16)%nat -> (k <? 16)%nat = true) by (intros; now apply Nat.ltb_lt).
  assert (R : forall x y : nat, x <> y -> (x =? y)%nat = false) by (intros; now apply Nat.eqb_neq).
  apply (bij_of_inverse _ _ (fun st => set_nth (set_nth st a (add32 (nth a st 0) (nth b st 0))) d
      (rotl32 (Z.lxor (nth d st 0) (add32 (nth a st 0) (nth b st 0))) s))
    (fun st => set_nth (set_nth st d (Z.lxor (rotate_right U32 (nth d st 0) s) (nth a st 0))) a
      ((nth a st 0 - nth b st 0) mod 2 ^ 32))).
  - intros st Hst. pose proof (st_nth _ a Hst Ha) as Wa. pose proof (st_nth _ b Hst Hb) as Wb.
    pose proof (st_nth _ d Hst Hd) as Wd. destruct Hst as [HL HF].
    assert (Wx : word32 (Z.lxor (nth d st 0) (add32 (nth a st 0) (nth b st 0)))) by auto with w32.
    conjs.
    + apply line_Ok; auto; lia.
    + repeat apply st_set; [split; assumption|auto with w32|now apply rotl32_word].
    + apply list16_ext; rewrite !set_nth_length; [reflexivity|]. intros j Hj. 
      rewrite !nth_set_nth, !set_nth_length, HL, !Nat.eqb_refl, ?(E a), ?(E b), ?(E d), ?(R a d), ?(R b a), ?(R b d) by auto.
      rewrite !andb_true_r. cbn [andb].
      destruct (j =? a)%nat eqn:Ja.
      * apply Nat.eqb_eq in Ja. subst j. unfold add32. rewrite Zminus_mod_idemp_l.
        replace (nth a st 0 + nth b st 0 - nth b st 0) with (nth a st 0) by lia.
        apply Z.mod_small, Wa.
      * destruct (j =? d)%nat eqn:Jd; [|reflexivity]. apply Nat.eqb_eq in Jd. subst j.
        rewrite <- rotl32_op by assumption. rewrite rotate_right_left.
        -- now rewrite Z.lxor_assoc, Z.lxor_nilpotent, Z.lxor_0_r.
        -- reflexivity.
        -- lia.
        -- unfold in_ty. change (imin U32) with 0. change (imax U32) with (2 ^ 32 - 1).
           destruct Wx. lia.
  - intros st Hst. pose proof (st_nth _ a Hst Ha) as Wa. pose proof (st_nth _ b Hst Hb) as Wb.
    pose proof (st_nth _ d Hst Hd) as Wd.
    assert (Wr : word32 (rotate_right U32 (nth d st 0) s)).
    { pose proof (rotate_right_range U32 (nth d st 0) s eq_refl) as H. unfold in_ty in H.
      change (imin U32) with 0 in H. change (imax U32) with (2 ^ 32 - 1) in H. unfold word32. lia. }
    split.
    + repeat apply st_set; [assumption|auto with w32|]. apply Z.mod_pos_bound. reflexivity.
    + destruct Hst as [HL HF]. apply list16_ext; rewrite !set_nth_length; [reflexivity|]. intros j Hj. 
      rewrite !nth_set_nth, !set_nth_length, HL, !Nat.eqb_refl, ?(E a), ?(E b), ?(E d), ?(R d a), ?(R b a), ?(R b d) by auto.
      rewrite !andb_true_r. cbn [andb]. 
      assert (A : add32 ((nth a st 0 - nth b st 0) mod 2 ^ 32) (nth b st 0) = nth a st 0).
      { unfold add32. rewrite Zplus_mod_idemp_l.
        replace (nth a st 0 - nth b st 0 + nth b st 0) with (nth a st 0) by lia. apply Z.mod_small, Wa. }
      rewrite A. destruct (j =? d)%nat eqn:Jd.
      * apply Nat.eqb_eq in Jd. subst j. 
        rewrite Z.lxor_assoc, Z.lxor_nilpotent, Z.lxor_0_r.
        rewrite <- rotl32_op by assumption. apply rotate_left_right; [reflexivity|lia|].
        unfold in_ty. change (imin U32) with 0. change (imax U32) with (2 ^ 32 - 1). destruct Wd. lia.
      * destruct (j =? a)%nat eqn:Ja; [|reflexivity]. apply Nat.eqb_eq in Ja. now subst j.
Qed.

Lemma quarter_round_bij a b c d : (a < 16)%nat -> (b < 16)%nat -> (c < 16)%nat -> (d < 16)%nat ->
  NoDup [a; b; c; d] -> bij_on words16 (quarter_round a b c d).
Proof.
  intros Ha Hb Hc Hd ND.
  inversion ND as [|? ? I1 ND1]; subst. inversion ND1 as [|? ? I2 ND2]; subst.
  inversion ND2 as [|? ? I3 _]; subst. cbn [In] in *.
  assert (L : forall x y z s, (x < 16)%nat -> (y < 16)%nat -> (z < 16)%nat -> x <> y -> x <> z -> y <> z ->
     0 <= s < 32 -> bij_on words16 (line x y z s)) by (intros; now apply line_bij).
  unfold quarter_round.
  repeat (apply bij_compose with (g := fun state => bind _ _) || apply bij_compose);
    apply L; try lia; intros ->; intuition.
Qed.

Lemma double_round_bij : bij_on words16 double_round.
Proof.
  assert (Q : forall a b c d, (a < 16)%nat -> (b < 16)%nat -> (c < 16)%nat -> (d < 16)%nat ->
     NoDup [a; b; c; d] -> bij_on words16 (quarter_round a b c d)) by apply quarter_round_bij.
  unfold double_round.
  do 7 (apply bij_compose; [apply Q; try lia; repeat constructor; cbn [In]; lia|]).
  apply Q; try lia; repeat constructor; cbn [In]; lia.
Qed.

(** ** Rounds *)
Definition eq4 (s s' : matrix) : Prop := forall r c, (r < 4)%nat -> (c < 4)%nat -> s r c = s' r c.
Lemma inner_block_ext s s' : eq4 s s' -> eq4 (inner_block s) (inner_block s').
Proof.
  intros H. assert (C : eq4 (column_round s) (column_round s')).
  { intros r c Hr Hc. unfold column_round. now rewrite !H by lia. }
  intros r c Hr Hc. unfold inner_block, diagonal_round.
  assert (M : forall x, (x mod 4 < 4)%nat) by (intros; apply Nat.mod_upper_bound; lia).
  now rewrite !C by (auto; lia).
Qed.
Lemma iter_ext n s s' : eq4 s s' -> eq4 (Nat.iter n inner_block s) (Nat.iter n inner_block s').
Proof. intros H. induction n; cbn [Nat.iter nat_rect]; [assumption|]. now apply inner_block_ext. Qed.
Lemma to_of_matrix s : eq4 (to_matrix (of_matrix s)) s.
Proof.
  intros r c Hr Hc. unfold to_matrix, of_matrix. rewrite nth_map_seq by lia.
  f_equal; [symmetry; apply (Nat.div_unique _ _ _ c)|symmetry; apply (Nat.mod_unique _ _ r)]; lia.
Qed.
Lemma of_matrix_ext s s' : eq4 s s' -> of_matrix s = of_matrix s'.
Proof.
  intros H. unfold of_matrix. apply map_ext_in. intros k Hk. apply in_seq in Hk.
  apply H; [apply Nat.div_lt_upper_bound|apply Nat.mod_upper_bound]; lia.
Qed.
Lemma of_to_matrix l : length l = 16%nat -> of_matrix (to_matrix l) = l.
Proof. do 17 (destruct l as [|? l]; try discriminate). reflexivity. Qed.

Lemma quarter_round_Ok' a b c d st : words16 st ->
  (a < 16)%nat -> (b < 16)%nat -> (c < 16)%nat -> (d < 16)%nat -> NoDup [a; b; c; d] ->
  exists v, v = rfc_quarter_round (get4 st a b c d) /\
  quarter_round a b c d st = Ok (put4 st a b c d v) /\ words16 (put4 st a b c d v).
Proof.
  intros. eexists; split; [reflexivity|]. inversion H4 as [|? ? I1 ND1]; subst. inversion ND1 as [|? ? I2 ND2]; subst.
  inversion ND2 as [|? ? I3 _]; subst. cbn [In] in *.
  apply quarter_round_Ok; auto; intros ->; intuition.
Qed.

Lemma double_round_Ok st : words16 st ->
  double_round st = Ok (of_matrix (inner_block (to_matrix st))) /\
  words16 (of_matrix (inner_block (to_matrix st))).
Proof.
  intros Hst. enough (E : double_round st = Ok (of_matrix (inner_block (to_matrix st)))).
  { split; [assumption|]. destruct double_round_bij as (T & _). destruct (T st Hst) as (y & Ey & Hy).
    rewrite Ey in E. injection E as <-. exact Hy. }
  destruct st as [|x0 [|x1 [|x2 [|x3 [|x4 [|x5 [|x6 [|x7 [|x8 [|x9 [|x10 [|x11 [|x12 [|x13 [|x14 [|x15 [|]]]]]]]]]]]]]]]]];
    try (destruct Hst as [HL _]; discriminate HL).
  assert (ND : forall a b c d : nat, a <> b -> a <> c -> a <> d -> b <> c -> b <> d -> c <> d -> NoDup [a; b; c; d])
    by (intros; repeat constructor; cbn [In]; lia).
  unfold double_round.
  Ltac qstep Hst :=
    match goal with |- context [quarter_round ?a ?b ?c ?d ?st] =>
      let v := fresh "v" in let Ev := fresh "Ev" in let E := fresh "E" in let H := fresh "H" in
      destruct (quarter_round_Ok' a b c d st Hst) as (v & Ev & E & H);
      [lia|lia|lia|lia| match goal with ND : _ |- _ => apply ND; lia end|];
      rewrite E; cbn [bind]; clear E; unfold get4 in Ev; cbn [nth] in Ev;
      unfold put4 in H |- *; cbn [set_nth] in H |- *; clear Hst; rename H into Hst
    end.
  do 8 qstep Hst.
  clear ND Hst. f_equal.
  unfold of_matrix. cbn [map seq]. unfold inner_block, diagonal_round, column_round, to_matrix.
  cbn [nth Nat.div Nat.modulo Nat.divmod Nat.sub Nat.add Nat.mul fst snd].
  rewrite <- Ev, <- Ev0, <- Ev1, <- Ev2. rewrite <- Ev3, <- Ev4, <- Ev5, <- Ev6. reflexivity.
Qed.

Lemma rounds_Ok n st : words16 st ->
  for_range 0 n (fun _ state => double_round state) st
  = Ok (of_matrix (Nat.iter n inner_block (to_matrix st))) /\
  words16 (of_matrix (Nat.iter n inner_block (to_matrix st))).
Proof.
  intros Hst.
  destruct (for_range_inv (fun i s => s = of_matrix (Nat.iter i inner_block (to_matrix st)) /\ words16 s)
    (fun _ state => double_round state) 0 n st) as (s' & E & -> & H).
  - cbn [Nat.iter nat_rect]. rewrite of_to_matrix by apply Hst. auto.
  - intros i s _ (-> & H). destruct (double_round_Ok _ H) as (E & H'). eexists. split; [exact E|].
    assert (X : of_matrix (inner_block (to_matrix (of_matrix (Nat.iter i inner_block (to_matrix st)))))
       = of_matrix (Nat.iter (S i) inner_block (to_matrix st))).
    { apply of_matrix_ext. cbn [Nat.iter nat_rect]. apply inner_block_ext, to_of_matrix. }
    split; [exact X|exact H'].
  - cbn [Nat.add] in *. auto.
Qed.

(** ** Loading and storing *)
Lemma firstn_skipn4 (l : list Z) k : (4 * k + 4 <= length l)%nat ->
  firstn 4 (skipn (4 * k) l) = [nth (4 * k) l 0; nth (4 * k + 1) l 0; nth (4 * k + 2) l 0; nth (4 * k + 3) l 0].
Proof.
  intros H. rewrite <- (firstn_skipn_map_seq 0) by lia. cbn [map seq].
  now rewrite Nat.add_0_r.
Qed.
Lemma load_word_Ok src k : Forall byte src -> (4 * k + 4 <= length src)%nat ->
  load_word src (4 * k) (4 * k + 4) = Ok (word_at src k) /\ word32 (word_at src k).
Proof.
  intros Hb H. unfold load_word, arr_from_sub_range. rewrite usub_Ok by lia. cbn [bind].
  replace (4 * k + 4 - 4 * k)%nat with 4%nat by lia. unfold arr_from_sub.
  change (assert_ (4 =? 4)%nat) with (Ok tt). cbn [bind].
  rewrite (update_sub_Ok 0) by (rewrite ?seq_new_length; lia). cbn [bind].
  change (firstn 0 (seq_new 0 4)) with (@nil Z). change (skipn (0 + 4) (seq_new 0 4)) with (@nil Z).
  rewrite app_nil_l, app_nil_r.
  rewrite firstn_skipn4 by assumption.
  set (w := [_; _; _; _]).
  assert (Hw : is_bytes w).
  { unfold w. repeat constructor; apply (Forall_nth_word byte); auto; lia. }
  assert (A : aligned U32) by (apply rust_aligned; red; cbn; auto).
  rewrite word_from_le_Ok by (try assumption; reflexivity).
  rewrite cast_unsigned_le by (try assumption; reflexivity).
  pose proof (le_val_range w Hw) as R. unfold w in *. cbn [le_val length] in *.
  unfold word_at, word32. 
  change (256 ^ Z.of_nat 4) with (2 ^ 32) in R.
  change (2 ^ 8) with 256. change (2 ^ 16) with 65536. change (2 ^ 24) with 16777216.
  split; [f_equal; ring|]. lia.
Qed.

Definition init_list (key : list Z) (ctr : Z) (iv : list Z) : list Z :=
  map (init_word key ctr iv) (seq 0 16).
Lemma block_init_Ok key ctr iv : bytes_n 32 key -> bytes_n 12 iv -> word32 ctr ->
  block_init key ctr iv = Ok (init_list key ctr iv) /\ words16 (init_list key ctr iv).
Proof.
  intros [K1 K2] [I1 I2] Hc. unfold block_init.
  assert (LK : forall k, (k < 8)%nat -> load_word key (4 * k) (4 * k + 4) = Ok (word_at key k) /\ word32 (word_at key k))
    by (intros; apply load_word_Ok; [assumption|lia]).
  assert (LI : forall k, (k < 3)%nat -> load_word iv (4 * k) (4 * k + 4) = Ok (word_at iv k) /\ word32 (word_at iv k))
    by (intros; apply load_word_Ok; [assumption|lia]).
  destruct (LK 0%nat ltac:(lia)) as [E0 W0]. destruct (LK 1%nat ltac:(lia)) as [E1 W1].
  destruct (LK 2%nat ltac:(lia)) as [E2 W2]. destruct (LK 3%nat ltac:(lia)) as [E3 W3].
  destruct (LK 4%nat ltac:(lia)) as [E4 W4]. destruct (LK 5%nat ltac:(lia)) as [E5 W5].
  destruct (LK 6%nat ltac:(lia)) as [E6 W6]. destruct (LK 7%nat ltac:(lia)) as [E7 W7].
  destruct (LI 0%nat ltac:(lia)) as [F0 V0]. destruct (LI 1%nat ltac:(lia)) as [F1 V1].
  destruct (LI 2%nat ltac:(lia)) as [F2 V2].
  cbn [Nat.mul Nat.add] in *.
  rewrite E0, E1, E2, E3, E4, E5, E6, E7. cbn [bind]. rewrite F0, F1, F2. cbn [bind].
  split; [reflexivity|]. split; [reflexivity|]. unfold init_list. cbn [map seq].
  unfold init_word. cbn [Nat.ltb Nat.leb Nat.eqb Nat.sub].
  repeat constructor; try assumption; try (apply W0 || apply W1 || apply W2 || apply W3 || apply W4
   || apply W5 || apply W6 || apply W7 || apply V0 || apply V1 || apply V2 || apply Hc); 
   vm_compute; discriminate.
Qed.

Lemma block_inner_Ok key ctr iv : bytes_n 32 key -> bytes_n 12 iv -> word32 ctr ->
  block_inner key ctr iv = Ok (map (rfc_block_word key ctr iv) (seq 0 16)).
Proof.
  intros Hk Hi Hc. unfold block_inner.
  destruct (block_init_Ok key ctr iv Hk Hi Hc) as [-> H]. cbn [bind].
  destruct (rounds_Ok 10 _ H) as [-> H']. cbn [bind].
  set (st := of_matrix _) in *. set (st0 := init_list key ctr iv) in *.
  destruct H as [L0 _]. destruct H' as [L1 _].
  assert (N0 : forall k, (k < 16)%nat -> nth k st0 0 = init_word key ctr iv k)
    by (intros; unfold st0, init_list; now rewrite nth_map_seq by lia).
  assert (N1 : forall k, (k < 16)%nat -> nth k st 0
    = Nat.iter 10 inner_block (fun r c => init_word key ctr iv (4 * r + c)%nat) (k / 4)%nat (k mod 4)%nat).
  { intros k Hk'. unfold st, of_matrix. rewrite nth_map_seq by lia.
    refine (iter_ext 10 _ _ _ _ _ _ _);
      [|apply Nat.div_lt_upper_bound; lia|apply Nat.mod_upper_bound; lia].
    intros r c Hr Hc'. unfold to_matrix. apply N0. lia. }
  clearbody st st0.
  assert (E : for_range 0 16 (fun i state => let* x := idx state i in let* y := idx st0 i in
      let* z := op_add U32 x y in upd state i z) st
    = Ok (map (fun i => add32 (nth i st 0) (nth i st0 0)) (seq 0 16))).
  { clear -L0 L1.
    do 17 (destruct st as [|? st]; try discriminate). do 17 (destruct st0 as [|? st0]; try discriminate).
    reflexivity. }
  rewrite E. apply (f_equal Ok). apply map_ext_in. intros k Hk'. apply in_seq in Hk'.
  unfold rfc_block_word. rewrite N0, N1 by lia. reflexivity.
Qed.

Lemma rfc_block_word_range key ctr iv k : word32 (rfc_block_word key ctr iv k).
Proof. apply add32_word. Qed.

Definition rfc_block (key : list Z) (ctr : Z) (iv : list Z) : list Z :=
  map (rfc_block_byte key ctr iv) (seq 0 64).

Lemma state_to_bytes_Ok x : length x = 16%nat ->
  state_to_bytes x = Ok (map (fun j => (nth (j / 4) x 0 / 2 ^ (8 * Z.of_nat (j mod 4))) mod 2 ^ 8) (seq 0 64)).
Proof.
  intros H. do 17 (destruct x as [|? x]; try discriminate). clear H.
  unfold state_to_bytes. cbn [length].
  assert (D : forall a b c, 0 < b -> 0 < c -> a / b / c = a / (b * c)) by (intros; apply Z.div_div; lia).
  cbn [for_range seq_new repeat].
  repeat (cbn [idx nth_error bind]; rewrite word_to_be_Ok; cbn [bind];
    change (bytes_of U32) with 4%nat; unfold be_bytes; cbn [le_bytes rev app idx nth_error bind Nat.mul Nat.add];
    unfold upd at 1 2 3 4; cbn [length Nat.ltb Nat.leb set_nth bind]).
  cbn [map seq Nat.div Nat.modulo Nat.divmod Nat.sub fst snd nth].
  f_equal. change (2 ^ 8) with 256. 
  rewrite !D by lia.
  repeat f_equal; try (change (2 ^ (8 * Z.of_nat 0)) with 1; now rewrite Z.div_1_r).
Qed.

Lemma block_Ok key ctr iv : bytes_n 32 key -> bytes_n 12 iv -> word32 ctr ->
  block key ctr iv = Ok (rfc_block key ctr iv).
Proof.
  intros Hk Hi Hc. unfold block. rewrite block_inner_Ok by assumption. cbn [bind].
  rewrite state_to_bytes_Ok by (now rewrite map_length, seq_length). apply (f_equal Ok).
  unfold rfc_block. apply map_ext_in. intros j Hj. apply in_seq in Hj.
  unfold rfc_block_byte. rewrite nth_map_seq; [reflexivity|]. apply Nat.div_lt_upper_bound; lia.
Qed.
Lemma rfc_block_length key ctr iv : length (rfc_block key ctr iv) = 64%nat.
Proof. unfold rfc_block. now rewrite map_length, seq_length. Qed.
Lemma nth_rfc_block key ctr iv j : (j < 64)%nat -> nth j (rfc_block key ctr iv) 0 = rfc_block_byte key ctr iv j.
Proof. apply nth_map_seq. Qed.
Lemma rfc_block_bytes key ctr iv : Forall byte (rfc_block key ctr iv).
Proof.
  apply Forall_forall. intros x Hx. apply in_map_iff in Hx as (j & <- & _).
  apply Z.mod_pos_bound. reflexivity.
Qed.

#[local] Opaque rfc_block_word rfc_block.
Definition ctr_at (i : nat) : Z := (1 + Z.of_nat i) mod 2 ^ 32.
Lemma chacha_Ok key iv m : bytes_n 32 key -> bytes_n 12 iv ->
  chacha key iv m = Ok (xor_ks 64 (fun i => rfc_block key (ctr_at i) iv) m).
Proof.
  intros Hk Hi. unfold chacha. rewrite num_chunks_Ok by lia. cbn [bind].
  change (seq_new 0 (length m), 1) with (seq_new 0 (length m), ctr_at 0).
  rewrite (stream_loop 64 (fun i => rfc_block key (ctr_at i) iv) ctr_at).
  - reflexivity.
  - lia.
  - intros. apply rfc_block_length.
  - intros i out Hlt Hl. rewrite get_chunk_Ok by lia. cbn [bind].
    rewrite block_Ok; [|assumption|assumption|apply Z.mod_pos_bound; reflexivity]. cbn [bind].
    set (chunk := firstn 64 (skipn (64 * i) m)).
    assert (Hc : length chunk = Nat.min 64 (length m - 64 * i))
      by (unfold chunk; rewrite firstn_length, skipn_length; reflexivity).
    rewrite <- Hc.
    pose proof (xor_pad_sub 64 chunk (rfc_block key (ctr_at i) iv) ltac:(lia) (rfc_block_length _ _ _)) as X.
    rewrite update_start_pad in * by lia. cbn [bind] in *.
    destruct (sarr_xor 64 _ _); cbn [bind] in *; [|discriminate]. rewrite X. cbn [bind].
    assert (Hz : length (zip_with Z.lxor chunk (rfc_block key (ctr_at i) iv)) = length chunk)
      by (rewrite zip_with_length, rfc_block_length; lia).
    rewrite (set_chunk_Ok 0) by lia. cbn [bind]. rewrite add32_op. cbn [bind].
    rewrite Hz. do 3 f_equal. unfold add32, ctr_at. rewrite Zplus_mod_idemp_l. f_equal. lia.
Qed.
