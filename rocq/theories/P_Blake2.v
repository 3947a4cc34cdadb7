(** Lemmas on the model of BLAKE2 (M_Blake2). *)
From Coq Require Import ZArith List Bool Arith Lia.
From Verif Require Import Base P_Base M_Int P_Int M_Seq P_Seq M_Bytes P_Bytes P_Word P_Stream S_ChaCha P_Poly1305 P_GCM P_AES P_HMAC S_Blake2 M_Blake2.
Import ListNotations.
Open Scope Z_scope.
Local Notation B := blake2b_params.
Definition word64 (x : Z) : Prop := 0 <= x < 2 ^ 64.
Definition words_n (n : nat) (v : list Z) : Prop := length v = n /\ Forall word64 v.

Lemma put_set v i x : (i < length v)%nat -> set_nth v i x = put v i x.
Proof. apply set_nth_app. Qed.
Lemma put_length v i x : (i < length v)%nat -> length (put v i x) = length v.
Proof. intros H. rewrite <- put_set by exact H. apply set_nth_length. Qed.
Lemma put_words n v i x : words_n n v -> (i < n)%nat -> word64 x -> words_n n (put v i x).
Proof.
  intros [L F] Hi Hx. split; [rewrite put_length; lia|]. rewrite <- put_set by lia. now apply Forall_set_nth.
Qed.
Lemma words_nth n v i : words_n n v -> word64 (nth i v 0).
Proof.
  intros [L F]. destruct (Nat.lt_ge_cases i (length v)) as [H|H].
  - rewrite Forall_forall in F. now apply F, nth_In.
  - rewrite nth_overflow by exact H. unfold word64. lia.
Qed.
Lemma plus_word x y : word64 (plus B x y).
Proof. unfold word64, plus. cbn [pw B]. apply Z.mod_pos_bound. lia. Qed.
Lemma add_Ok x y : op_add U64 x y = Ok (plus B x y).
Proof. reflexivity. Qed.
Lemma xor_word x y : word64 x -> word64 y -> word64 (Z.lxor x y).
Proof. unfold word64. intros. apply lxor_range; lia. Qed.
Lemma rotr_Ok x n : word64 x -> 0 < n < 64 -> tr_rotate_right U64 x n = Ok (rotr B x n) /\ word64 (rotr B x n).
Proof.
  intros Hx Hn. unfold word64 in *.
  rewrite (tr_rotate_right_spec U64 x n 6); try (cbn; lia); [|unfold in_ty; cbn; lia].
  rewrite rotate_right_arith by (cbn; trivial; lia). cbn [bits U64].
  assert (E : (x * 2 ^ (64 - n)) mod 2 ^ 64 = (x mod 2 ^ n) * 2 ^ (64 - n)).
  { replace (2 ^ 64) with (2 ^ n * 2 ^ (64 - n)) by (rewrite <- Z.pow_add_r by lia; f_equal; lia).
    apply Z.mul_mod_distr_r; apply Z.pow_nonzero; lia. }
  rewrite E. split; [reflexivity|]. unfold rotr. cbn [pw B].
  assert (P : 2 ^ 64 = 2 ^ n * 2 ^ (64 - n)) by (rewrite <- Z.pow_add_r by lia; f_equal; lia).
  assert (0 < 2 ^ n) by (apply Z.pow_pos_nonneg; lia). assert (0 < 2 ^ (64 - n)) by (apply Z.pow_pos_nonneg; lia).
  assert (0 <= x mod 2 ^ n < 2 ^ n) by (apply Z.mod_pos_bound; lia).
  assert (0 <= x / 2 ^ n < 2 ^ (64 - n)). { split; [apply Z.div_pos; lia|apply Z.div_lt_upper_bound; lia]. }
  rewrite P. nia.
Qed.
Ltac mstep H := (* one assignment of mix *)
  repeat rewrite (idx_Ok _ _ 0) by (destruct H as [? _]; lia); cbn [bind].
Lemma mix_Ok v a b c d x y : words_n 16 v -> (a < 16)%nat -> (b < 16)%nat -> (c < 16)%nat -> (d < 16)%nat ->
  mix U64 v a b c d x y = Ok (mix_G B v a b c d x y) /\ words_n 16 (mix_G B v a b c d x y).
Proof.
  intros H Ha Hb Hc Hd. unfold mix, mix_G. cbv zeta. cbn [R1 R2 R3 R4 B].
  mstep H. repeat (rewrite add_Ok; cbn [bind]). rewrite upd_Ok, put_set by (destruct H; lia). cbn [bind].
  set (v1 := put v a _). assert (H1 : words_n 16 v1) by (apply put_words; trivial; apply plus_word). clearbody v1. clear H v.
  mstep H1. unfold op_xor at 1. destruct (rotr_Ok (Z.lxor (nth d v1 0) (nth a v1 0)) 32) as [R W]; [|lia|].
  { apply xor_word; now apply (words_nth 16). }
  rewrite R. cbn [bind]. rewrite upd_Ok, put_set by (destruct H1; lia). cbn [bind]. clear R.
  set (v2 := put v1 d _). assert (H2 : words_n 16 v2) by (apply put_words; trivial). clearbody v2. clear H1 v1 W.
  mstep H2. repeat (rewrite add_Ok; cbn [bind]). rewrite upd_Ok, put_set by (destruct H2; lia). cbn [bind].
  set (v3 := put v2 c _). assert (H3 : words_n 16 v3) by (apply put_words; trivial; apply plus_word). clearbody v3. clear H2 v2.
  mstep H3. unfold op_xor at 1. destruct (rotr_Ok (Z.lxor (nth b v3 0) (nth c v3 0)) 24) as [R W]; [|lia|].
  { apply xor_word; now apply (words_nth 16). }
  rewrite R. cbn [bind]. rewrite upd_Ok, put_set by (destruct H3; lia). cbn [bind]. clear R.
  set (v4 := put v3 b _). assert (H4 : words_n 16 v4) by (apply put_words; trivial). clearbody v4. clear H3 v3 W.
  mstep H4. repeat (rewrite add_Ok; cbn [bind]). rewrite upd_Ok, put_set by (destruct H4; lia). cbn [bind].
  set (v5 := put v4 a _). assert (H5 : words_n 16 v5) by (apply put_words; trivial; apply plus_word). clearbody v5. clear H4 v4.
  mstep H5. unfold op_xor at 1. destruct (rotr_Ok (Z.lxor (nth d v5 0) (nth a v5 0)) 16) as [R W]; [|lia|].
  { apply xor_word; now apply (words_nth 16). }
  rewrite R. cbn [bind]. rewrite upd_Ok, put_set by (destruct H5; lia). cbn [bind]. clear R.
  set (v6 := put v5 d _). assert (H6 : words_n 16 v6) by (apply put_words; trivial). clearbody v6. clear H5 v5 W.
  mstep H6. repeat (rewrite add_Ok; cbn [bind]). rewrite upd_Ok, put_set by (destruct H6; lia). cbn [bind].
  set (v7 := put v6 c _). assert (H7 : words_n 16 v7) by (apply put_words; trivial; apply plus_word). clearbody v7. clear H6 v6.
  mstep H7. unfold op_xor at 1. destruct (rotr_Ok (Z.lxor (nth b v7 0) (nth c v7 0)) 63) as [R W]; [|lia|].
  { apply xor_word; now apply (words_nth 16). }
  rewrite R. cbn [bind]. rewrite upd_Ok, put_set by (destruct H7; lia). split; [reflexivity|].
  now apply put_words.
Qed.
Lemma sigma_table i k : (i < 12)%nat -> (k < 16)%nat ->
  idx blake_sigma (i * 16 + k) = Ok (sigma_at i k) /\ (sigma_at i k < 16)%nat.
Proof.
  intros Hi Hk.
  assert (C : forallb (fun i => forallb (fun k => match idx blake_sigma (i * 16 + k) with Ok x => (x =? sigma_at i k)%nat | _ => false end
     && (sigma_at i k <? 16)%nat) (seq 0 16)) (seq 0 12) = true) by (vm_compute; reflexivity).
  rewrite forallb_forall in C. specialize (C i). rewrite in_seq in C. specialize (C ltac:(lia)).
  rewrite forallb_forall in C. specialize (C k). rewrite in_seq in C. specialize (C ltac:(lia)).
  apply andb_prop in C as [C D]. destruct (idx blake_sigma (i * 16 + k)); [|discriminate].
  apply Nat.eqb_eq in C. apply Nat.ltb_lt in D. now subst.
Qed.
Lemma mix_call_Ok m i k v a b c d : words_n 16 v -> length m = 16%nat -> (i < 12)%nat -> (k < 15)%nat ->
  (a < 16)%nat -> (b < 16)%nat -> (c < 16)%nat -> (d < 16)%nat ->
  mix_call U64 m i k v a b c d = Ok (mix_G B v a b c d (nth (sigma_at i k) m 0) (nth (sigma_at i (k + 1)) m 0)) /\
  words_n 16 (mix_G B v a b c d (nth (sigma_at i k) m 0) (nth (sigma_at i (k + 1)) m 0)).
Proof.
  intros H L Hi Hk Ha Hb Hc Hd. unfold mix_call.
  destruct (sigma_table i k Hi ltac:(lia)) as [E1 L1]. destruct (sigma_table i (k + 1) Hi ltac:(lia)) as [E2 L2].
  rewrite E1. cbn [bind]. rewrite (idx_Ok m _ 0) by lia. cbn [bind]. rewrite E2. cbn [bind].
  rewrite (idx_Ok m _ 0) by lia. cbn [bind]. now apply mix_Ok.
Qed.
#[local] Opaque mix_G.
Lemma round_Ok m i v : words_n 16 v -> length m = 16%nat -> (i < 12)%nat ->
  compress_round U64 m i v = Ok (F_round B m v i) /\ words_n 16 (F_round B m v i).
Proof.
  intros H L Hi. unfold compress_round, F_round. cbn [seq fold_left nth G_cols Nat.mul Nat.add].
  do 8 (match goal with |- context [mix_call U64 m i ?k ?v ?a ?b ?c ?d] =>
    let E := fresh in let G := fresh in
    destruct (mix_call_Ok m i k v a b c d ltac:(assumption) L Hi ltac:(lia) ltac:(lia) ltac:(lia) ltac:(lia) ltac:(lia)) as [E G];
    rewrite E; cbn [bind Nat.add] in *; clear E end).
  split; [reflexivity|assumption].
Qed.
(** ** Filling an array from the left *)
Lemma fill_step (f : nat -> Z) n k : (k < n)%nat ->
  upd (map f (seq 0 k) ++ repeat 0 (n - k)) k (f k) = Ok (map f (seq 0 (S k)) ++ repeat 0 (n - S k)).
Proof.
  intros H. assert (L : length (map f (seq 0 k)) = k) by now rewrite map_length, seq_length.
  rewrite upd_Ok by (rewrite app_length, L, repeat_length; lia). f_equal.
  rewrite set_nth_app by (rewrite app_length, L, repeat_length; lia).
  rewrite firstn_app, L, Nat.sub_diag, firstn_O, app_nil_r, firstn_all2 by lia.
  rewrite skipn_app, L, (skipn_all2 (map f (seq 0 k))) by lia. replace (S k - k)%nat with 1%nat by lia.
  rewrite skipn_repeat. rewrite seq_S, map_app, <- app_assoc. cbn [app map Nat.add]. now replace (n - k - 1)%nat with (n - S k)%nat by lia.
Qed.
Lemma fill_loop (f : nat -> Z) body n : (forall i s, (i < n)%nat -> body i s = upd s i (f i)) ->
  for_range 0 n body (seq_new 0 n) = Ok (map f (seq 0 n)).
Proof.
  intros H.
  destruct (for_range_inv (fun i s => s = map f (seq 0 i) ++ repeat 0 (n - i)) body 0 n (seq_new 0 n)) as (s & E & ->).
  - cbn [seq map app]. now rewrite Nat.sub_0_r.
  - intros i s Hi ->. eexists. split; [|reflexivity]. rewrite H by lia. apply fill_step. lia.
  - rewrite E. cbn [Nat.add]. rewrite Nat.sub_diag. cbn [repeat]. now rewrite app_nil_r.
Qed.
Lemma fill_loop2 (f : nat -> Z) body n k : (forall i j s, (i < n)%nat -> (j < k)%nat -> body i j s = upd s (i * k + j) (f (i * k + j)%nat)) ->
  for_range 0 n (fun i s => for_range 0 k (fun j s => body i j s) s) (seq_new 0 (n * k)) = Ok (map f (seq 0 (n * k))).
Proof.
  intros H.
  destruct (for_range_inv (fun i s => s = map f (seq 0 (i * k)) ++ repeat 0 (n * k - i * k))
    (fun i s => for_range 0 k (fun j s => body i j s) s) 0 n (seq_new 0 (n * k))) as (s & E & ->).
  - cbn [seq map app Nat.mul]. now rewrite Nat.sub_0_r.
  - intros i s Hi ->.
    destruct (for_range_inv (fun j s => s = map f (seq 0 (i * k + j)) ++ repeat 0 (n * k - (i * k + j))) (fun j s => body i j s)
      0 k (map f (seq 0 (i * k)) ++ repeat 0 (n * k - i * k))) as (s & E & ->).
    + now rewrite Nat.add_0_r.
    + intros j s Hj ->. eexists. split; [|reflexivity]. rewrite H by lia.
      replace (i * k + S j)%nat with (S (i * k + j)) by lia. apply fill_step. nia.
    + eexists. split; [exact E|]. cbn [Nat.add Nat.mul]. now rewrite (Nat.add_comm k).
  - rewrite E. cbn [Nat.add]. rewrite Nat.sub_diag. cbn [repeat]. now rewrite app_nil_r.
Qed.
(** ** Message words *)
Definition blake_words (b : list Z) : list Z := map (fun k => le_num (firstn 8 (skipn (8 * k) b))) (seq 0 16).
Lemma sub_bytes_Forall (l : list Z) a k : Forall byte l -> Forall byte (firstn k (skipn a l)).
Proof.
  intros H. apply Forall_forall. intros x Hx. rewrite Forall_forall in H. apply H.
  rewrite <- (firstn_skipn a l). apply in_or_app. right. rewrite <- (firstn_skipn k (skipn a l)). apply in_or_app. now left.
Qed.
Lemma le_num_word b : bytes_n 8 b -> word64 (le_num b).
Proof. intros [L F]. rewrite le_num_val. apply bytes_is, le_val_range in F. now rewrite L in F. Qed.
Lemma make_array_Ok b : bytes_n 128 b -> make_array U64 b = Ok (blake_words b) /\ words_n 16 (blake_words b).
Proof.
  intros [L F].
  assert (W : forall k, (k < 16)%nat -> bytes_n 8 (firstn 8 (skipn (8 * k) b))).
  { intros k Hk. split; [rewrite firstn_length, skipn_length; lia|now apply sub_bytes_Forall]. }
  split.
  - unfold make_array. change (bytes_of U64) with 8%nat. rewrite L. change (128 / 8 =? 16)%nat with true. cbn [assert_ bind].
    apply (fill_loop (fun k => le_num (firstn 8 (skipn (8 * k) b)))). intros i s Hi.
    destruct (W i Hi) as [LW FW]. rewrite get_chunk_Ok by lia. cbn [bind].
    rewrite arr_from_seq_Ok by exact LW. cbn [bind]. rewrite (word_from_le_Ok U64 _ u64_aligned LW). cbn [bind].
    f_equal. rewrite <- le_num_val. pose proof (le_num_word _ (W i Hi)) as R. unfold word64 in R. unfold cast, iwrap. cbn [sgn bits U64].
    now apply Z.mod_small.
  - split; [now unfold blake_words; rewrite map_length, seq_length|]. apply Forall_forall. intros x Hx.
    apply in_map_iff in Hx as (k & <- & Hk). apply in_seq in Hk. apply le_num_word, W. lia.
Qed.
(** ** The compression function *)
Lemma iv_IV : iv U64 = IV B /\ words_n 8 (IV B).
Proof.
  split; [vm_compute; reflexivity|]. split; [reflexivity|]. apply Forall_forall. intros x Hx.
  assert (C : forallb (fun x => (0 <=? x) && (x <? 2 ^ 64)) (IV B) = true) by (vm_compute; reflexivity).
  rewrite forallb_forall in C. apply C in Hx. unfold word64. lia.
Qed.
Lemma not_xor x : word64 x -> op_not U64 x = Z.lxor x (2 ^ 64 - 1).
Proof.
  intros Hx. apply Z.bits_inj'. intros j Hj. change (2 ^ 64 - 1) with (Z.ones 64). rewrite Z.lxor_spec.
  destruct (Z.lt_ge_cases j 64) as [H|H].
  - rewrite op_not_testbit by (cbn; lia). rewrite Z.ones_spec_low by lia. now destruct (Z.testbit x j).
  - rewrite Z.ones_spec_high by lia. rewrite (testbit_small x 64) by (unfold word64 in Hx; lia).
    apply (testbit_small _ 64); [|lia]. unfold op_not, iwrap. cbn [sgn bits U64]. apply Z.mod_pos_bound. lia.
Qed.
Lemma rounds_Ok m v n : words_n 16 v -> length m = 16%nat -> (n <= 12)%nat ->
  for_range 0 n (compress_round U64 m) v = Ok (fold_left (F_round B m) (seq 0 n) v) /\
  words_n 16 (fold_left (F_round B m) (seq 0 n) v).
Proof.
  intros H L Hn. destruct (for_range_inv (fun i s => s = fold_left (F_round B m) (seq 0 i) v /\ words_n 16 s) (compress_round U64 m) 0 n v) as (s & E & -> & W).
  - now split.
  - intros i s Hi [-> W]. destruct (round_Ok m i _ W L ltac:(lia)) as [E G]. eexists. split; [exact E|].
    rewrite seq_S, fold_left_app. now split.
  - now split.
Qed.
#[local] Opaque F_round IV.
Lemma compress_Ok h b t f : words_n 8 h -> bytes_n 128 b -> word64 t ->
  compress U64 h b [t; 0] f Blake2B = Ok (blake_F B h (blake_words b) t f) /\ words_n 8 (blake_F B h (blake_words b) t f).
Proof.
  intros H Hb Ht. destruct (make_array_Ok b Hb) as [E [LM _]]. unfold compress, blake_F.
  rewrite E. cbn [bind]. clear E. set (m := blake_words b) in *. clearbody m. clear b Hb.
  destruct iv_IV as [-> HI]. pose proof H as [L F]. pose proof HI as [LI FI].
  rewrite (update_sub_Ok 0 (seq_new 0 16) 0 h 0 8) by (rewrite ?L; cbn; lia). cbn [bind Nat.add]. change (firstn 0 (seq_new 0 16)) with (@nil Z). rewrite app_nil_l.
  change (skipn 0 h) with h. rewrite (firstn_all2 h) by lia.
  change (skipn 8 (seq_new 0 16)) with (repeat 0 8).
  rewrite (update_sub_Ok 0 (h ++ repeat 0 8) 8 (IV B) 0 8) by (rewrite ?app_length, ?L, ?LI; cbn; lia). cbn [bind].
  change (skipn 0 (IV B)) with (IV B). rewrite (firstn_all2 (IV B)) by lia.
  rewrite firstn_app, L, Nat.sub_diag, firstn_O, app_nil_r, (firstn_all2 h) by lia.
  rewrite (skipn_all2 (h ++ repeat 0 8)) by (rewrite app_length, L; cbn; lia). rewrite app_nil_r.
  assert (HV : words_n 16 (h ++ IV B)) by (split; [now rewrite app_length, L, LI|now apply Forall_app]).
  set (v := h ++ IV B) in *. clearbody v.
  cbn [pw B]. rewrite (Z.mod_small t) by exact Ht. rewrite (Z.div_small t) by exact Ht.
  rewrite (idx_Ok v 12 0) by (destruct HV; lia). cbn [bind idx nth_error]. unfold classify, op_xor at 1.
  rewrite upd_Ok, put_set by (destruct HV; lia). cbn [bind].
  set (v1 := put v 12 _). assert (H1 : words_n 16 v1) by (apply put_words; trivial; [lia|]; apply xor_word; [now apply (words_nth 16)|exact Ht]).
  clearbody v1. clear v HV. rewrite (idx_Ok v1 13 0) by (destruct H1; lia). cbn [bind]. unfold op_xor at 1.
  rewrite upd_Ok, put_set by (destruct H1; lia). cbn [bind].
  set (v2 := put v1 13 _). assert (H2 : words_n 16 v2) by (apply put_words; trivial; [lia|]; apply xor_word; [now apply (words_nth 16)|unfold word64; lia]).
  clearbody v2. clear v1 H1.
  assert (E3 : (if f then let* old_v14 := idx v2 14 in upd v2 14 (op_not U64 old_v14) else Ok v2) =
     Ok (if f then put v2 14 (Z.lxor (nth 14 v2 0) (2 ^ 64 - 1)) else v2) /\
     words_n 16 (if f then put v2 14 (Z.lxor (nth 14 v2 0) (2 ^ 64 - 1)) else v2)).
  { destruct f; [|now split]. rewrite (idx_Ok v2 14 0) by (destruct H2; lia). cbn [bind].
    rewrite not_xor by now apply (words_nth 16). rewrite upd_Ok, put_set by (destruct H2; lia). split; [reflexivity|].
    apply put_words; trivial; [lia|]. apply xor_word; [now apply (words_nth 16)|unfold word64; lia]. }
  destruct E3 as [-> H3]. cbn [bind]. set (v3 := if f then _ else _) in *. clearbody v3. clear v2 H2.
  destruct (rounds_Ok m v3 12 H3 LM ltac:(lia)) as [E W]. rewrite E. cbn [bind]. cbn [rounds B].
  set (v := fold_left (F_round B m) (seq 0 12) v3) in *. clearbody v. split.
  - apply (fill_loop (fun i => Z.lxor (Z.lxor (nth i h 0) (nth i v 0)) (nth (i + 8) v 0))). intros i s Hi.
    rewrite !(idx_Ok _ _ 0) by (destruct W; lia). reflexivity.
  - split; [now rewrite map_length, seq_length|]. apply Forall_forall. intros x Hx. apply in_map_iff in Hx as (i & <- & _).
    repeat apply xor_word; eapply words_nth; eassumption.
Qed.
#[local] Opaque blake_F.
(** ** The counter *)
Lemma inc_counter_Ok t0 t1 x : 0 <= t0 -> 0 <= x -> t0 + x < 2 ^ 64 -> inc_counter u64 [t0; t1] x = Ok [t0 + x; 0].
Proof.
  intros H0 Hx H. unfold inc_counter. cbn [idx nth_error bind]. unfold op_add. cbn [sec u64]. unfold chk.
  replace (in_tyb u64 (t0 + x)) with true.
  - cbn [bind]. unfold num_less_than. destruct (Z.ltb_spec (t0 + x) x); [lia|]. reflexivity.
  - symmetry. apply in_tyb_spec. unfold in_ty. cbn. lia.
Qed.
(** ** The digest *)
Lemma get_byte_Ok x j : word64 x -> (j < 8)%nat -> blake_get_byte U64 x j = Ok (x / 256 ^ Z.of_nat j mod 256).
Proof.
  intros Hx Hj. unfold blake_get_byte, get_byte, chk.
  replace (in_tyb u32 (Z.of_nat j * 8)) with true by (symmetry; apply in_tyb_spec; unfold in_ty; cbn; lia). cbn [bind].
  unfold op_shr, op_shl. cbn [bits U64]. destruct (Z.ltb_spec (Z.of_nat j * 8) 64); [|lia].
  change (8 <? 64) with true. cbn [bind]. change (iwrap U64 (Z.shiftl 1 8)) with 256. change (op_sub U64 256 1) with (Ok 255). cbn [bind].
  rewrite word_to_le_Ok. cbn [bind]. unfold op_and. change 255 with (Z.ones 8). rewrite Z.land_ones by lia. change (2 ^ 8) with 256.
  rewrite Z.shiftr_div_pow2 by lia. change (bytes_of U64) with 8%nat. cbn [le_bytes idx nth_error]. rewrite Z.mod_mod by lia.
  change 256 with (2 ^ 8) at 2. rewrite <- Z.pow_mul_r by lia. now rewrite (Z.mul_comm 8).
Qed.
Lemma digest_Ok h : words_n 8 h -> for_range 0 8 (fun i d => for_range 0 8 (fun j d =>
      let* hi := idx h i in
      let* b := blake_get_byte U64 hi j in
      upd d (i * 8 + j) b) d) (seq_new 0 64) = Ok (blake_output B 64 h).
Proof.
  intros W. pose proof W as [L F].
  transitivity (Ok (map (fun p => nth (p / 8) h 0 / 256 ^ Z.of_nat (p mod 8) mod 256) (seq 0 (8 * 8)))).
  2: { f_equal. unfold blake_output. change (word_bytes B) with 8%nat.
    do 9 (destruct h as [|? h]; try discriminate L). reflexivity. }
  apply (fill_loop2 (fun p => nth (p / 8) h 0 / 256 ^ Z.of_nat (p mod 8) mod 256) (fun i j d => let* hi := idx h i in
      let* b := blake_get_byte U64 hi j in upd d (i * 8 + j) b) 8 8).
  intros i j s Hi Hj. rewrite (idx_Ok h i 0) by lia. cbn [bind].
  rewrite get_byte_Ok by (trivial; now apply (words_nth 8)). cbn [bind]. f_equal. f_equal. f_equal. f_equal.
  - f_equal. apply Nat.div_unique with j; lia.
  - f_equal. f_equal. apply Nat.mod_unique with i; lia.
Qed.
(** ** The hash *)
Lemma init_words : words_n 8 (blake_init B 64).
Proof.
  unfold blake_init. destruct iv_IV as [_ H]. apply put_words; trivial; [lia|].
  apply xor_word; [apply xor_word; [now apply (words_nth 8)|]|]; unfold word64; cbn; lia.
Qed.
Lemma chain_S msg n : blake_chain B 64 msg (S n) =
  blake_F B (blake_chain B 64 msg n) (blake_block B msg n) (Z.of_nat ((n + 1) * 128)) false.
Proof. unfold blake_chain. rewrite seq_S, fold_left_app. reflexivity. Qed.
Definition blake_step (data : list Z) (i : nat) (st : list Z * list Z) : res (list Z * list Z) :=
  let '(h, ctr) := st in
  let* ' (block_len, block) := get_chunk 0 data 128 i in
  if (block_len =? 128)%nat then
    let* ctr := inc_counter u64 ctr (from_literal u64 128) in
    let* b := seq_from_seq 0 block in
    let* h := compress U64 h b ctr false Blake2B in
    Ok (h, ctr)
  else
    let* ctr := inc_counter u64 ctr (from_literal u64 (Z.of_nat block_len)) in
    let* compress_input := update_start (seq_new 0 128) block in
    let* h := compress U64 h compress_input ctr true Blake2B in
    Ok (h, ctr).
Lemma block_full msg i : (128 * (i + 1) <= length msg)%nat ->
  blake_block B msg i = blake_words (firstn 128 (skipn (128 * i) msg)).
Proof.
  intros H. unfold blake_block, blake_words. change (block_bytes B) with 128%nat. change (word_bytes B) with 8%nat. cbv zeta.
  rewrite firstn_length, skipn_length, Nat.min_l by lia. rewrite Nat.sub_diag. cbn [repeat]. now rewrite app_nil_r.
Qed.
Lemma block_last msg i : (128 * i <= length msg < 128 * (i + 1))%nat ->
  blake_block B msg i = blake_words (skipn (128 * i) msg ++ repeat 0 (128 - (length msg - 128 * i))).
Proof.
  intros H. unfold blake_block, blake_words. change (block_bytes B) with 128%nat. change (word_bytes B) with 8%nat. cbv zeta.
  rewrite firstn_all2 by (rewrite skipn_length; lia). now rewrite skipn_length.
Qed.
Lemma full_blocks msg : Forall byte msg -> Z.of_nat (length msg) < 2 ^ 64 ->
  for_range 0 (length msg / 128) (blake_step msg) (blake_init B 64, [0; 0]) =
    Ok (blake_chain B 64 msg (length msg / 128), [128 * Z.of_nat (length msg / 128); 0]) /\
  words_n 8 (blake_chain B 64 msg (length msg / 128)).
Proof.
  intros F Hl. set (q := (length msg / 128)%nat).
  assert (D := Nat.div_mod_eq (length msg) 128). assert (M := Nat.mod_upper_bound (length msg) 128 ltac:(lia)). fold q in D.
  destruct (for_range_inv (fun i st => st = (blake_chain B 64 msg i, [128 * Z.of_nat i; 0]) /\ words_n 8 (blake_chain B 64 msg i))
     (blake_step msg) 0 q (blake_init B 64, [0; 0])) as (st & E & -> & W).
  - split; [reflexivity|]. apply init_words.
  - intros i st Hi [-> W]. eexists. split; [|split; [reflexivity|]].
    + unfold blake_step. rewrite get_chunk_Ok by lia. cbn [bind]. rewrite Nat.min_l by lia. cbn [Nat.eqb].
      change (from_literal u64 128) with 128. rewrite inc_counter_Ok by lia. cbn [bind]. rewrite seq_from_seq_Ok. cbn [bind].
      destruct (compress_Ok (blake_chain B 64 msg i) (firstn 128 (skipn (128 * i) msg)) (128 * Z.of_nat i + 128) false) as [E _]; trivial.
      * split; [rewrite firstn_length, skipn_length; lia|now apply sub_bytes_Forall].
      * unfold word64; lia.
      * rewrite E. cbn [bind]. rewrite chain_S, block_full by lia.
        replace (Z.of_nat ((i + 1) * 128)) with (128 * Z.of_nat i + 128) by lia. now replace (128 * Z.of_nat (S i)) with (128 * Z.of_nat i + 128) by lia.
    + rewrite chain_S, block_full by lia. apply compress_Ok; trivial.
      * split; [rewrite firstn_length, skipn_length; lia|now apply sub_bytes_Forall].
      * unfold word64; lia.
  - now split.
Qed.
(** The hash value of the code before the output: the last block is final only if it is not full. *)
Definition blake_state (msg : list Z) : list Z :=
  let q := (length msg / 128)%nat in
  if (length msg mod 128 =? 0)%nat then blake_chain B 64 msg q
  else blake_F B (blake_chain B 64 msg q) (blake_block B msg q) (Z.of_nat (length msg)) true.
Lemma blake_loop msg : Forall byte msg -> Z.of_nat (length msg) < 2 ^ 64 ->
  exists c, for_range 0 ((length msg + 128 - 1) / 128) (blake_step msg) (blake_init B 64, [0; 0]) = Ok (blake_state msg, c) /\
  words_n 8 (blake_state msg).
Proof.
  intros F Hl. destruct (full_blocks msg F Hl) as [E W]. unfold blake_state. cbv zeta.
  assert (D := Nat.div_mod_eq (length msg) 128). assert (M := Nat.mod_upper_bound (length msg) 128 ltac:(lia)).
  set (q := (length msg / 128)%nat) in *. destruct (Nat.eqb_spec (length msg mod 128) 0) as [R|R].
  - replace ((length msg + 128 - 1) / 128)%nat with q by (apply (Nat.div_unique _ _ _ 127); lia). eexists. split; [exact E|exact W].
  - replace ((length msg + 128 - 1) / 128)%nat with (q + 1)%nat by (apply (Nat.div_unique _ _ _ (length msg mod 128 - 1)); lia).
    rewrite for_range_app, E. cbn [bind for_range Nat.add]. unfold blake_step. rewrite get_chunk_Ok by lia. cbn [bind].
    rewrite Nat.min_r by lia. replace (length msg - 128 * q =? 128)%nat with false by (symmetry; apply Nat.eqb_neq; lia).
    replace (from_literal u64 (Z.of_nat (length msg - 128 * q))) with (Z.of_nat (length msg - 128 * q)).
    2: { unfold from_literal, iwrap. cbn [sgn bits u64]. rewrite Z.mod_small; [reflexivity|lia]. }
    rewrite inc_counter_Ok by lia. cbn [bind]. rewrite firstn_all2 by (rewrite skipn_length; lia).
    rewrite (update_start_Ok 0) by (rewrite skipn_length, seq_new_length; lia). cbn [bind].
    rewrite skipn_length. unfold seq_new at 1. rewrite skipn_repeat.
    destruct (compress_Ok (blake_chain B 64 msg q) (skipn (128 * q) msg ++ repeat 0 (128 - (length msg - 128 * q)))
       (128 * Z.of_nat q + Z.of_nat (length msg - 128 * q)) true) as [E' W']; trivial.
    + split; [rewrite app_length, skipn_length, repeat_length; lia|]. apply Forall_app. split.
      * rewrite <- (firstn_all (skipn (128 * q) msg)). now apply sub_bytes_Forall.
      * apply Forall_forall. intros x Hx. apply repeat_spec in Hx. subst. unfold byte; lia.
    + unfold word64; lia.
    + rewrite E'. cbn [bind]. rewrite block_last by lia.
      replace (Z.of_nat (length msg)) with (128 * Z.of_nat q + Z.of_nat (length msg - 128 * q)) by lia.
      eexists. split; [reflexivity|exact W'].
Qed.
Lemma blake_state_rfc msg : (length msg mod 128)%nat <> 0%nat -> blake_output B 64 (blake_state msg) = rfc_blake2 B 64 msg.
Proof.
  intros H. unfold rfc_blake2, blake_state, blake_dd. change (block_bytes B) with 128%nat.
  assert (D := Nat.div_mod_eq (length msg) 128). assert (M := Nat.mod_upper_bound (length msg) 128 ltac:(lia)).
  destruct (Nat.eqb_spec (length msg mod 128) 0) as [R|R]; [lia|]. cbv zeta.
  replace ((length msg + 128 - 1) / 128)%nat with (length msg / 128 + 1)%nat by (apply (Nat.div_unique _ _ _ (length msg mod 128 - 1)); lia).
  now replace (Nat.max 1 (length msg / 128 + 1) - 1)%nat with (length msg / 128)%nat by lia.
Qed.
#[local] Opaque blake_state compress blake_init.
Lemma init_upd : (let* h0 := idx (iv U64) 0 in upd (iv U64) 0 (op_xor (op_xor h0 (from_literal U64 0x01010000)) (from_literal U64 64)))
  = Ok (blake_init B 64).
Proof. vm_compute. reflexivity. Qed.
Lemma output_bytes n h : bytes_n n (blake_output B n h) \/ length (blake_output B n h) <> n.
Proof.
  destruct (Nat.eq_dec (length (blake_output B n h)) n) as [E|E]; [left|now right]. split; [exact E|].
  apply Forall_forall. intros x Hx. unfold blake_output in Hx. apply (or_introl (B := In x (skipn n (flat_map (le_bytes_of (word_bytes B)) h)))) in Hx.
  apply in_or_app in Hx. rewrite firstn_skipn in Hx. apply in_flat_map in Hx as (w & _ & Hx).
  apply in_map_iff in Hx as (j & <- & _). unfold byte. apply Z.mod_pos_bound. lia.
Qed.
Lemma blake2_Ok msg : Forall byte msg -> Z.of_nat (length msg) < 2 ^ 64 ->
  blake2 U64 msg Blake2B = Ok (blake_output B 64 (blake_state msg)) /\ bytes_n 64 (blake_output B 64 (blake_state msg)).
Proof.
  intros F Hl. destruct (blake_loop msg F Hl) as (c & E & W). split.
  - unfold blake2. change (public_version U64) with u64.
    pose proof init_upd as I. destruct (idx (iv U64) 0) as [h0|]; [|discriminate I]. cbn [bind] in I |- *.
    rewrite I. cbn [bind]. rewrite num_chunks_Ok by lia. cbn [bind].
    match goal with |- bind ?X ?g = _ => assert (EX : X = Ok (blake_state msg, c)) by exact E end.
    rewrite EX. cbn [bind]. now apply digest_Ok.
  - destruct (output_bytes 64 (blake_state msg)) as [H|H]; [exact H|]. exfalso. apply H. destruct W as [L _].
    generalize (blake_state msg) L. clear. intros h L. do 9 (destruct h as [|? h]; try discriminate L). reflexivity.
Qed.
