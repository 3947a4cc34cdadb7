(** Lemmas about the SHA-256 model. *)
From Coq Require Import ZArith List Bool Arith Lia.
From Verif Require Import Base P_Base M_Int P_Int M_Seq P_Seq M_Bytes P_Bytes M_Vec P_Word P_Stream
  S_ChaCha S_AES S_SHA2 P_AES P_Poly1305 P_GCM M_SHA2.
Import ListNotations.
Open Scope Z_scope.

(** Constants *)
Lemma k_table_eq : k_table = K256.
Proof. vm_compute. reflexivity. Qed.
Lemma sha256_init_eq : sha256_init = H256.
Proof. vm_compute. reflexivity. Qed.
Lemma K256_length : length K256 = 64%nat.
Proof. rewrite <- k_table_eq. reflexivity. Qed.
Lemma K256_words : Forall word32 K256.
Proof. rewrite <- k_table_eq. unfold k_table, word32. repeat (constructor; [lia|]). constructor. Qed.
Lemma H256_words8 : words8 H256.
Proof. rewrite <- sha256_init_eq. split; [reflexivity|]. unfold sha256_init, word32. repeat (constructor; [lia|]). constructor. Qed.

(** Words *)
Lemma bind_ret {A B} (a : A) (f : A -> res B) : bind (Ok a) f = f a.
Proof. reflexivity. Qed.
Lemma add_U32 x y : op_add U32 x y = Ok ((x + y) mod 2 ^ 32).
Proof. reflexivity. Qed.
Lemma word32_mod x : word32 (x mod 2 ^ 32).
Proof. apply Z.mod_pos_bound. lia. Qed.
Lemma not_Ok x : word32 x -> op_not U32 x = not32 x.
Proof.
  unfold word32, op_not, iwrap, not32. cbn [sgn bits U32]. intros H.
  replace (Z.lnot x) with (2 ^ 32 - 1 - x + (-1) * 2 ^ 32) by (unfold Z.lnot; lia).
  rewrite Z_mod_plus_full. apply Z.mod_small. lia.
Qed.
Lemma not32_word x : word32 x -> word32 (not32 x).
Proof. unfold word32, not32. lia. Qed.
Lemma ch_Ok x y z : word32 x -> ch x y z = Ch x y z.
Proof. intros H. unfold ch. rewrite not_Ok by assumption. reflexivity. Qed.
Lemma maj_Ok x y z : maj x y z = Maj x y z.
Proof. unfold maj, Maj, op_xor, op_and. now rewrite Z.lxor_assoc. Qed.
Lemma rotr_Ok x n : word32 x -> 0 <= n < 32 -> rotate_right U32 x n = rotr32 x n.
Proof.
  intros H Hn. rewrite rotate_right_arith by (trivial; cbn [bits U32]; lia). cbn [bits U32].
  unfold rotr32. f_equal. replace (2 ^ 32) with (2 ^ n * 2 ^ (32 - n)).
  - apply Z.mul_mod_distr_r; apply Z.pow_nonzero; lia.
  - rewrite <- Z.pow_add_r by lia. f_equal. lia.
Qed.
Lemma rotr32_word x n : word32 x -> 0 <= n < 32 -> word32 (rotr32 x n).
Proof. intros H Hn. rewrite <- rotr_Ok by assumption. unfold rotate_right, iwrap. apply word32_mod. Qed.
Lemma shr_Ok x n : 0 <= n < 32 -> op_shr U32 x n = Ok (shr32 x n).
Proof.
  intros Hn. unfold op_shr, shr32. cbn [bits U32]. destruct (Z.ltb_spec n 32); [|lia].
  now rewrite Z.shiftr_div_pow2 by lia.
Qed.
Lemma shr32_word x n : word32 x -> 0 <= n -> word32 (shr32 x n).
Proof.
  unfold word32, shr32. intros H Hn. split; [apply Z.div_pos; try lia; apply Z.pow_pos_nonneg; lia|].
  apply Z.div_lt_upper_bound; [apply Z.pow_pos_nonneg; lia|].
  assert (1 <= 2 ^ n) by (apply Z.lt_pred_le; apply Z.pow_pos_nonneg; lia). nia.
Qed.
Lemma lxor_word x y : word32 x -> word32 y -> word32 (Z.lxor x y).
Proof. apply lxor_range. lia. Qed.
Lemma sigma_Ok x : word32 x ->
  sigma x 0 1 = Ok (Sigma0 x) /\ sigma x 1 1 = Ok (Sigma1 x) /\
  sigma x 2 0 = Ok (sigma0 x) /\ sigma x 3 0 = Ok (sigma1 x).
Proof.
  intros H. unfold sigma, Sigma0, Sigma1, sigma0, sigma1, xor3.
  change (idx op_table (3 * 0)) with (@Ok Z 2). change (idx op_table (3 * 0 + 1)) with (@Ok Z 13).
  change (idx op_table (3 * 0 + 2)) with (@Ok Z 22). change (idx op_table (3 * 1)) with (@Ok Z 6).
  change (idx op_table (3 * 1 + 1)) with (@Ok Z 11). change (idx op_table (3 * 1 + 2)) with (@Ok Z 25).
  change (idx op_table (3 * 2)) with (@Ok Z 7). change (idx op_table (3 * 2 + 1)) with (@Ok Z 18).
  change (idx op_table (3 * 2 + 2)) with (@Ok Z 3). change (idx op_table (3 * 3)) with (@Ok Z 17).
  change (idx op_table (3 * 3 + 1)) with (@Ok Z 19). change (idx op_table (3 * 3 + 2)) with (@Ok Z 10).
  cbn [bind Nat.eqb]. rewrite !shr_Ok by lia. cbn [bind]. rewrite !rotr_Ok by (trivial; lia).
  conjs; reflexivity.
Qed.

(** Sums of reduced sums *)
Ltac modsum :=
  repeat (rewrite <- ?Z.add_assoc; first [rewrite Zplus_mod_idemp_l | rewrite Zplus_mod_idemp_r]);
  apply (f_equal (fun x => x mod 2 ^ 32)); ring.

(** Message schedule *)
Lemma msg_schedule_length b n : length (msg_schedule b n) = n.
Proof. induction n; cbn [msg_schedule]; [reflexivity|]. rewrite app_length, IHn. cbn. lia. Qed.
Lemma firstn_In {A} n (l : list A) x : In x (firstn n l) -> In x l.
Proof. intros H. rewrite <- (firstn_skipn n l). apply in_or_app. now left. Qed.
Lemma skipn_In {A} n (l : list A) x : In x (skipn n l) -> In x l.
Proof. intros H. rewrite <- (firstn_skipn n l). apply in_or_app. now right. Qed.
Lemma part_bytes i n b : Forall byte b -> Forall byte (firstn n (skipn i b)).
Proof.
  rewrite !Forall_forall. intros H x Hx. apply H. apply firstn_In in Hx. now apply skipn_In in Hx.
Qed.
Lemma be_word_word b k : Forall byte b -> word32 (be_word b k).
Proof.
  intros H. unfold be_word. rewrite be_num_val.
  set (l := firstn 4 (skipn (4 * k) b)).
  assert (F : Forall byte l) by now apply part_bytes.
  pose proof (be_val_range l F) as R. assert (L : (length l <= 4)%nat) by (unfold l; rewrite firstn_length; lia).
  split; [apply R|]. eapply Z.lt_le_trans; [apply R|]. change (2 ^ 32) with (256 ^ 4).
  apply Z.pow_le_mono_r; lia.
Qed.
Lemma Forall_nth0 (P : Z -> Prop) l i : Forall P l -> P 0 -> P (nth i l 0).
Proof.
  intros F H0. destruct (Nat.lt_ge_cases i (length l)).
  - rewrite Forall_forall in F. now apply F, nth_In.
  - now rewrite nth_overflow.
Qed.
Lemma word32_0 : word32 0.
Proof. unfold word32; lia. Qed.
Lemma msg_schedule_words b n : Forall byte b -> Forall word32 (msg_schedule b n).
Proof.
  intros H. induction n; cbn [msg_schedule]; [constructor|]. apply Forall_app. split; [assumption|].
  constructor; [|constructor]. destruct (n <? 16)%nat; [now apply be_word_word|apply word32_mod].
Qed.
Lemma block_words b : bytes_n 64 b -> to_be_words U32 64 b = Ok (map (be_word b) (seq 0 16)).
Proof.
  intros [L F]. set (ls := map (fun k => firstn 4 (skipn (4 * k) b)) (seq 0 16)).
  assert (E : concat ls = b).
  { unfold ls. rewrite concat_chunks. apply firstn_all2. lia. }
  assert (F4 : Forall (fun l => length l = bytes_of U32) ls).
  { apply Forall_forall. intros l Hl. apply in_map_iff in Hl as (k & <- & Hk). apply in_seq in Hk.
    rewrite firstn_length, skipn_length. change (bytes_of U32) with 4%nat. lia. }
  assert (Al : aligned U32) by (apply rust_aligned; red; cbn; auto 10).
  unfold to_be_words. rewrite <- L. rewrite <- E at 1 2.
  rewrite (to_words_Ok word_from_be_bytes (fun s => cast U32 (be_val s)) U32 ls).
  - f_equal. unfold ls. rewrite map_map. apply map_ext. intros k.
    pose proof (be_word_word b k F) as W. unfold be_word in *. rewrite be_num_val in *.
    unfold cast, iwrap. cbn [sgn U32 bits]. now apply Z.mod_small.
  - exact Al.
  - intros s Hs. now apply word_from_be_Ok.
  - exact F4.
Qed.
Lemma schedule_Ok b : bytes_n 64 b -> schedule b = Ok (msg_schedule b 64).
Proof.
  intros HB. unfold schedule. rewrite block_words by assumption. cbn [bind].
  pose proof (proj2 HB) as F.
  match goal with |- for_range 0 64 ?f ?s0 = _ =>
    destruct (for_range_inv (fun i s => s = msg_schedule b i ++ repeat 0 (64 - i)) f 0 64 s0) as (s' & E & I)
  end.
  - reflexivity.
  - intros i s Hi ->. eexists. split; [|reflexivity].
    pose proof (msg_schedule_length b i) as Li. pose proof (msg_schedule_words b i F) as Wi.
    set (W := msg_schedule b i) in *.
    assert (I : forall j, (j < i)%nat -> idx (W ++ repeat 0 (64 - i)) j = Ok (nth j W 0)).
    { intros j Hj. rewrite (idx_Ok _ _ 0) by (rewrite app_length, repeat_length; lia).
      rewrite app_nth1 by lia. reflexivity. }
    assert (U : forall v, upd (W ++ repeat 0 (64 - i)) i v = Ok ((W ++ [v]) ++ repeat 0 (64 - S i))).
    { intros v. rewrite upd_Ok by (rewrite app_length, repeat_length; lia).
      rewrite set_nth_app by (rewrite app_length, repeat_length; lia).
      rewrite firstn_app, Li, Nat.sub_diag. cbn [firstn]. rewrite app_nil_r, firstn_all2 by lia.
      rewrite skipn_app, Li, skipn_all2 by lia. rewrite skipn_repeat.
      rewrite <- app_assoc. cbn [app]. do 4 f_equal. lia. }
    assert (Wn : forall j, word32 (nth j W 0)) by (intros; apply Forall_nth0; [assumption|apply word32_0]).
    cbn [msg_schedule]. fold W.
    destruct (Nat.ltb_spec i 16).
    + rewrite (idx_Ok _ _ 0) by (rewrite map_length, seq_length; lia). cbn [bind].
      rewrite nth_map_seq by lia. apply U.
    + rewrite !usub_Ok by lia. cbn [bind]. rewrite !I by lia. cbn [bind].
      rewrite (proj2 (proj2 (proj2 (sigma_Ok _ (Wn _))))), (proj1 (proj2 (proj2 (sigma_Ok _ (Wn _))))).
      cbn [bind]. do 3 (rewrite add_U32; cbn [bind]). rewrite U. do 4 f_equal.
      modsum.
  - rewrite E, I. cbn [Nat.add Nat.sub repeat]. now rewrite app_nil_r.
Qed.

(** Rounds *)
Lemma Sigma_words x : word32 x -> word32 (Sigma0 x) /\ word32 (Sigma1 x).
Proof. intros H. unfold Sigma0, Sigma1, xor3. split; repeat apply lxor_word; apply rotr32_word; trivial; lia. Qed.
Lemma shuffle_step_Ok ws i h : (i < 64)%nat -> length ws = 64%nat -> words8 h ->
  shuffle_step ws i h = Ok (sha_round (nth i K256 0) (nth i ws 0) h) /\
  words8 (sha_round (nth i K256 0) (nth i ws 0) h).
Proof.
  intros Hi Lw [L8 W8].
  destruct h as [|a [|b [|c [|d [|e [|f [|g [|h [|]]]]]]]]]; try discriminate L8.
  repeat match goal with H : Forall _ (_ :: _) |- _ => apply Forall_cons_iff in H as [? H] end.
  unfold shuffle_step. rewrite k_table_eq. generalize K256_length. generalize K256. intros K LK.
  split.
  - assert (I0 : idx [a;b;c;d;e;f;g;h] 0 = Ok a) by reflexivity.
    assert (I1 : idx [a;b;c;d;e;f;g;h] 1 = Ok b) by reflexivity.
    assert (I2 : idx [a;b;c;d;e;f;g;h] 2 = Ok c) by reflexivity.
    assert (I3 : idx [a;b;c;d;e;f;g;h] 3 = Ok d) by reflexivity.
    assert (I4 : idx [a;b;c;d;e;f;g;h] 4 = Ok e) by reflexivity.
    assert (I5 : idx [a;b;c;d;e;f;g;h] 5 = Ok f) by reflexivity.
    assert (I6 : idx [a;b;c;d;e;f;g;h] 6 = Ok g) by reflexivity.
    assert (I7 : idx [a;b;c;d;e;f;g;h] 7 = Ok h) by reflexivity.
    rewrite I0, bind_ret, I1, bind_ret, I2, bind_ret, I3, bind_ret, I4, bind_ret, I5, bind_ret, I6, bind_ret, I7, bind_ret.
    rewrite (proj1 (proj2 (sigma_Ok e ltac:(assumption)))), bind_ret.
    repeat rewrite add_U32, bind_ret.
    rewrite (idx_Ok K i 0), bind_ret by lia.
    repeat rewrite add_U32, bind_ret.
    rewrite (idx_Ok ws i 0), bind_ret by lia.
    repeat rewrite add_U32, bind_ret.
    rewrite (proj1 (sigma_Ok a ltac:(assumption))), bind_ret.
    repeat rewrite add_U32, bind_ret.
    rewrite ch_Ok, maj_Ok by assumption. unfold sha_round.
    generalize (nth i K 0) (nth i ws 0) (Sigma1 e) (Sigma0 a) (Ch e f g) (Maj a b c). intros k w s1 s0 z y.
    replace ((((((h + s1) mod 2 ^ 32 + z) mod 2 ^ 32 + k) mod 2 ^ 32 + w) mod 2 ^ 32))
      with ((h + s1 + z + k + w) mod 2 ^ 32) by (symmetry; modsum).
    replace (((h + s1 + z + k + w) mod 2 ^ 32 + (s0 + y) mod 2 ^ 32) mod 2 ^ 32)
      with ((h + s1 + z + k + w + (s0 + y)) mod 2 ^ 32) by (symmetry; rewrite Zplus_mod_idemp_r; modsum).
    unfold upd. cbn [length Nat.ltb Nat.leb set_nth bind]. rewrite add_U32. cbn [length Nat.ltb Nat.leb set_nth bind].
    rewrite (Z.add_comm d ((h + s1 + z + k + w) mod 2 ^ 32)), Zplus_mod_idemp_l, (Z.add_comm _ d).
    generalize ((d + (h + s1 + z + k + w)) mod 2 ^ 32) ((h + s1 + z + k + w + (s0 + y)) mod 2 ^ 32). reflexivity.
  - unfold sha_round. split; [reflexivity|].
    repeat (apply Forall_cons; [first [assumption|apply word32_mod]|]). constructor.
Qed.
Lemma for_pure_fold {S} (f : nat -> S -> S) start n s :
  for_pure start n f s = fold_left (fun s i => f i s) (seq start n) s.
Proof. revert start s; induction n; intros; cbn; [reflexivity|]. apply IHn. Qed.
Lemma shuffle_Ok ws h : length ws = 64%nat -> words8 h ->
  shuffle ws h = Ok (fold_left (fun s t => sha_round (nth t K256 0) (nth t ws 0) s) (seq 0 64) h) /\
  words8 (fold_left (fun s t => sha_round (nth t K256 0) (nth t ws 0) s) (seq 0 64) h).
Proof.
  intros Lw W8. unfold shuffle. rewrite <- (for_pure_fold (fun t s => sha_round (nth t K256 0) (nth t ws 0) s)). split.
  - apply (for_range_pure (fun _ => words8)); [assumption|]. intros. apply shuffle_step_Ok; trivial; lia.
  - apply (for_pure_inv (fun _ => words8)); [assumption|]. intros. apply shuffle_step_Ok; trivial; lia.
Qed.
Lemma compress_Ok b h : bytes_n 64 b -> words8 h ->
  compress b h = Ok (sha_compress h b) /\ words8 (sha_compress h b).
Proof.
  intros HB HH. unfold compress, sha_compress. rewrite schedule_Ok by assumption. cbn [bind].
  destruct (shuffle_Ok (msg_schedule b 64) h (msg_schedule_length b 64) HH) as [-> HS]. cbn [bind].
  set (s := fold_left _ _ h) in *. clearbody s. split.
  - destruct HH as [L8 _], HS as [S8 _].
    destruct h as [|h0 [|h1 [|h2 [|h3 [|h4 [|h5 [|h6 [|h7 [|]]]]]]]]]; try discriminate L8.
    destruct s as [|s0 [|s1 [|s2 [|s3 [|s4 [|s5 [|s6 [|s7 [|]]]]]]]]]; try discriminate S8.
    reflexivity.
  - split; [reflexivity|]. apply Forall_forall. intros x Hx. apply in_map_iff in Hx as (i & <- & _). apply word32_mod.
Qed.

(** ** The loop over the blocks *)
(** What the code hashes: messages of whole blocks are not padded. *)
Definition code_pad (m : list Z) : list Z := if (length m mod 64 =? 0)%nat then m else sha_pad m.
Lemma sha_pad_length m : length (sha_pad m) =
  (64 * (length m / 64 + if (length m mod 64 <? 56)%nat then 1 else 2))%nat.
Proof.
  unfold sha_pad. rewrite !app_length, repeat_length, be_str_length. cbn [length].
  pose proof (Nat.div_mod (length m) 64 ltac:(lia)). pose proof (Nat.mod_upper_bound (length m) 64 ltac:(lia)).
  destruct (Nat.ltb_spec (length m mod 64) 56).
  - replace (119 - length m mod 64)%nat with (55 - length m mod 64 + 1 * 64)%nat by lia.
    rewrite Nat.mod_add, Nat.mod_small by lia. lia.
  - rewrite Nat.mod_small by lia. lia.
Qed.
Lemma sha_pad_bytes m : Forall byte m -> Forall byte (sha_pad m).
Proof.
  intros H. unfold sha_pad. apply Forall_app; split; [assumption|]. apply Forall_app; split.
  - repeat constructor; lia.
  - apply Forall_app; split; [apply Forall_forall; intros x Hx; apply repeat_spec in Hx; subst; unfold byte; lia|].
    apply be_str_bytes.
Qed.
Lemma sha_block_bytes p i : Forall byte p -> (64 * (i + 1) <= length p)%nat -> bytes_n 64 (sha_block p i).
Proof.
  intros F L. unfold sha_block. split; [rewrite firstn_length, skipn_length; lia|now apply part_bytes].
Qed.
Lemma sha_block_app m x i : (64 * (i + 1) <= length m)%nat -> sha_block (m ++ x) i = sha_block m i.
Proof.
  intros L. unfold sha_block. rewrite skipn_app, firstn_app, skipn_length.
  replace (64 - (length m - 64 * i))%nat with 0%nat by lia. cbn [firstn]. now rewrite app_nil_r.
Qed.
Definition sha_steps (p : list Z) (n : nat) (H : list Z) : list Z :=
  fold_left (fun H i => sha_compress H (sha_block p i)) (seq 0 n) H.
Lemma sha_steps_S p n H : sha_steps p (S n) H = sha_compress (sha_steps p n H) (sha_block p n).
Proof. unfold sha_steps. now rewrite seq_S, fold_left_app. Qed.
Lemma sha_steps_words p n H : words8 H -> Forall byte p -> (64 * n <= length p)%nat -> words8 (sha_steps p n H).
Proof.
  intros HH F L. induction n; [assumption|]. rewrite sha_steps_S. apply compress_Ok; [|apply IHn; lia].
  apply sha_block_bytes; trivial; lia.
Qed.
Lemma be_digest h : words8 h -> arr_to_be_bytes U32 8 h = Ok (sha_digest h) /\ bytes_n 32 (sha_digest h).
Proof.
  intros [L _]. rewrite arr_to_be_bytes_Ok by assumption. unfold sha_digest, to_be_bytes.
  rewrite flat_map_concat_map.
  assert (E : map (be_bytes (bytes_of U32)) h = map (be_str 4) h)
    by (apply map_ext; intros; symmetry; apply be_str_eq).
  split; [first [rewrite E; reflexivity | idtac]|].
  - split.
    + rewrite (concat_length_const 4), map_length, L; [reflexivity|]. apply Forall_forall. intros x Hx.
      apply in_map_iff in Hx as (y & <- & _). apply be_str_length.
    + apply Forall_concat. apply Forall_forall. intros x Hx. apply in_map_iff in Hx as (y & <- & _). apply be_str_bytes.
Qed.
#[local] Opaque sha_compress be_str.
Definition full_step (m : list Z) (i : nat) (h : list Z) : res (list Z) :=
  let* ' (block_len, block) := get_chunk 0 m 64 i in
  if (block_len <? 64)%nat then
    let last_block := seq_new 0 64 in
    let* block := update_start (seq_new 0 64) block in
    let* last_block := update last_block 0 block in
    let* last_block := upd last_block block_len 0x80 in
    let* len_bist := op_mul u64 (Z.of_nat (length m)) 8 in
    let* lb := word_to_be_bytes U64 (classify len_bist) in
    if (block_len <? 64 - 8)%nat then
      let* last_block := update last_block (64 - 8) lb in
      compress last_block h
    else
      let* pad_block := update (seq_new 0 64) (64 - 8) lb in
      let* h := compress last_block h in
      compress pad_block h
  else
    let* compress_input := update_start (seq_new 0 64) block in
    compress compress_input h.
Lemma full_step_full m i h : Forall byte m -> words8 h -> (64 * (i + 1) <= length m)%nat ->
  full_step m i h = Ok (sha_compress h (sha_block m i)).
Proof.
  intros F W L. unfold full_step. rewrite get_chunk_Ok by lia. cbn [bind].
  rewrite Nat.min_l by lia. change (64 <? 64)%nat with false. cbn iota.
  fold (sha_block m i). pose proof (sha_block_bytes m i F L) as B.
  rewrite update_start_pad by (rewrite (proj1 B); lia). rewrite (proj1 B). cbn [Nat.sub repeat].
  rewrite app_nil_r. cbn [bind]. now apply compress_Ok.
Qed.
Lemma op_mul_len n : Z.of_nat n < 2 ^ 61 -> op_mul u64 (Z.of_nat n) 8 = Ok (8 * Z.of_nat n).
Proof.
  intros H. unfold op_mul. cbn [sec u64]. unfold chk, in_tyb. cbn [sgn bits u64].
  destruct (_ && _)%bool eqn:E; [f_equal; lia|]. exfalso. revert E.
  unfold imin, imax. cbn [sgn bits u64]. rewrite andb_false_iff, Z.leb_gt, ?Z.leb_gt, ?Z.ltb_ge. lia.
Qed.
Lemma len_be x : word_to_be_bytes U64 x = Ok (be_str 8 x).
Proof. rewrite word_to_be_Ok by apply u64_aligned. now rewrite be_str_eq. Qed.
Lemma last_block_Ok t : (length t < 64)%nat ->
  (let* block := update_start (seq_new 0 64) t in
   let* last_block := update (seq_new 0 64) 0 block in
   upd last_block (length t) 0x80) = Ok (t ++ [0x80] ++ repeat 0 (63 - length t)).
Proof.
  intros L. rewrite update_start_pad by lia. cbn [bind].
  assert (L64 : length (t ++ repeat 0 (64 - length t)) = 64%nat) by (rewrite app_length, repeat_length; lia).
  rewrite (update_Ok 0) by (rewrite L64, seq_new_length; lia). rewrite L64. cbn [bind].
  change (firstn 0 (seq_new 0 64)) with (@nil Z). change (skipn (0 + 64) (seq_new 0 64)) with (@nil Z).
  rewrite app_nil_l, app_nil_r. rewrite upd_Ok by lia. rewrite set_nth_app by lia.
  rewrite firstn_app, Nat.sub_diag, firstn_all. cbn [firstn]. rewrite app_nil_r.
  rewrite skipn_app, skipn_all2 by lia. rewrite skipn_repeat, app_nil_l.
  cbn [app]. do 4 f_equal. lia.
Qed.
Lemma last_if m h : Forall byte m -> words8 h -> (length m mod 64 <> 0)%nat ->
  let q := (length m / 64)%nat in let r := (length m mod 64)%nat in
  let t := skipn (64 * q) m in let lb := be_str 8 (8 * Z.of_nat (length m)) in
  (if (r <? 56)%nat then let* last_block := update (t ++ [0x80] ++ repeat 0 (63 - r)) 56 lb in compress last_block h
   else let* pad_block := update (seq_new 0 64) 56 lb in
        let* h := compress (t ++ [0x80] ++ repeat 0 (63 - r)) h in compress pad_block h) =
  Ok (if (r <? 56)%nat then sha_compress h (sha_block (sha_pad m) q)
      else sha_compress (sha_compress h (sha_block (sha_pad m) q)) (sha_block (sha_pad m) (S q))).
Proof.
  intros F W R q r t lb. pose proof (Nat.div_mod (length m) 64 ltac:(lia)) as D.
  pose proof (Nat.mod_upper_bound (length m) 64 ltac:(lia)) as Ur. fold q in D. fold r in D, Ur, R.
  assert (Lt : length t = r) by (unfold t; rewrite skipn_length; lia).
  assert (Ft : Forall byte t).
  { apply Forall_forall. intros x Hx. rewrite Forall_forall in F. apply F. now apply skipn_In in Hx. }
  assert (Llb : length lb = 8%nat) by apply be_str_length.
  assert (Flb : Forall byte lb) by apply be_str_bytes.
  assert (SP : skipn (64 * q) (sha_pad m) = t ++ [0x80] ++ repeat 0 ((119 - r) mod 64) ++ lb).
  { unfold sha_pad. fold lb. fold r. rewrite skipn_app. fold t.
    replace (64 * q - length m)%nat with 0%nat by lia. reflexivity. }
  assert (Z0 : forall n, Forall byte (repeat 0 n)).
  { intros n. apply Forall_forall. intros x Hx. apply repeat_spec in Hx. subst. unfold byte; lia. }
  set (y := t ++ [0x80] ++ repeat 0 (63 - r)).
  assert (Ly : length y = 64%nat) by (unfold y; rewrite !app_length, repeat_length, Lt; cbn [length]; lia).
  destruct (Nat.ltb_spec r 56) as [Hr|Hr].
  - replace ((119 - r) mod 64)%nat with (55 - r)%nat in SP.
    2: { replace (119 - r)%nat with (55 - r + 1 * 64)%nat by lia. now rewrite Nat.mod_add, Nat.mod_small by lia. }
    rewrite (update_Ok 0) by lia. cbn [bind]. rewrite Llb. rewrite (skipn_all2 y) by lia. rewrite app_nil_r.
    assert (E1 : firstn 56 y ++ lb = sha_block (sha_pad m) q).
    { unfold sha_block. rewrite SP. rewrite (@firstn_all2 Z 64).
      2: { rewrite !app_length, repeat_length, Lt, Llb. cbn [length]. lia. }
      unfold y. rewrite !firstn_app, Lt. rewrite (firstn_all2 t) by lia. rewrite <- !app_assoc. do 2 f_equal.
      - cbn [length]. apply firstn_all2. cbn [length]. lia.
      - cbn [length]. f_equal. replace (63 - r)%nat with (55 - r + 8)%nat by lia.
        replace (56 - r - 1)%nat with (55 - r)%nat by lia.
        rewrite repeat_app, firstn_app, repeat_length, Nat.sub_diag. cbn [firstn]. rewrite app_nil_r.
        apply firstn_all2. rewrite repeat_length. lia. }
    rewrite E1. apply compress_Ok; [|assumption].
    apply sha_block_bytes; [now apply sha_pad_bytes|]. rewrite sha_pad_length. fold r q.
    destruct (Nat.ltb_spec r 56); lia.
  - replace ((119 - r) mod 64)%nat with (119 - r)%nat in SP by (rewrite Nat.mod_small; lia).
    rewrite (update_Ok 0) by (rewrite seq_new_length; lia). cbn [bind]. rewrite Llb.
    change (skipn (56 + 8) (seq_new 0 64)) with (@nil Z). rewrite app_nil_r.
    change (firstn 56 (seq_new 0 64)) with (repeat 0 56).
    assert (SP' : skipn (64 * q) (sha_pad m) = y ++ (repeat 0 56 ++ lb)).
    { rewrite SP. unfold y. rewrite <- !app_assoc. do 2 f_equal. rewrite app_assoc. rewrite <- repeat_app.
      do 2 f_equal. lia. }
    assert (E1 : y = sha_block (sha_pad m) q).
    { unfold sha_block. rewrite SP', firstn_app, Ly, Nat.sub_diag. rewrite <- Ly at 1. rewrite firstn_all. symmetry. apply app_nil_r. }
    assert (E2 : repeat 0 56 ++ lb = sha_block (sha_pad m) (S q)).
    { unfold sha_block. replace (64 * S q)%nat with (64 * q + 64)%nat by lia. rewrite <- skipn_add.
      rewrite SP', skipn_app, Ly, skipn_all2, Nat.sub_diag by lia. cbn [skipn app].
      symmetry. apply firstn_all2. rewrite app_length, repeat_length, Llb. lia. }
    rewrite E1, E2.
    assert (P : Forall byte (sha_pad m)) by now apply sha_pad_bytes.
    assert (LP := sha_pad_length m). fold r q in LP. destruct (Nat.ltb_spec r 56); [lia|].
    destruct (compress_Ok (sha_block (sha_pad m) q) h) as [-> W1]; [apply sha_block_bytes; trivial; lia|assumption|].
    cbn [bind]. apply compress_Ok; [|assumption]. apply sha_block_bytes; trivial; lia.
Qed.
Lemma full_step_last m h : Forall byte m -> words8 h -> (length m mod 64 <> 0)%nat ->
  Z.of_nat (length m) < 2 ^ 61 ->
  let q := (length m / 64)%nat in
  full_step m q h = Ok (if (length m mod 64 <? 56)%nat then sha_compress h (sha_block (sha_pad m) q)
                        else sha_compress (sha_compress h (sha_block (sha_pad m) q)) (sha_block (sha_pad m) (S q))).
Proof.
  intros F W R B q. pose proof (Nat.div_mod (length m) 64 ltac:(lia)) as D.
  pose proof (Nat.mod_upper_bound (length m) 64 ltac:(lia)) as Ur. fold q in D.
  set (r := (length m mod 64)%nat) in *.
  unfold full_step. rewrite get_chunk_Ok by lia. cbn [bind].
  replace (Nat.min 64 (length m - 64 * q)) with r by lia.
  destruct (Nat.ltb_spec r 64); [|lia].
  rewrite firstn_all2 by (rewrite skipn_length; lia).
  set (t := skipn (64 * q) m). assert (Lt : length t = r) by (unfold t; rewrite skipn_length; lia).
  pose proof (last_block_Ok t ltac:(lia)) as E. rewrite Lt in E.
  set (lb := be_str 8 (8 * Z.of_nat (length m))) in *.
  assert (X : (let* block := update_start (seq_new 0 64) t in
     let* last_block := update (seq_new 0 64) 0 block in
     let* last_block := upd last_block r 128 in
     let* len_bist := op_mul u64 (Z.of_nat (length m)) 8 in
     let* lb := word_to_be_bytes U64 (classify len_bist) in
     if (r <? 64 - 8)%nat then let* last_block := update last_block (64 - 8) lb in compress last_block h
     else let* pad_block := update (seq_new 0 64) (64 - 8) lb in
          let* h := compress last_block h in compress pad_block h) =
    (if (r <? 56)%nat then let* last_block := update (t ++ [0x80] ++ repeat 0 (63 - r)) 56 lb in compress last_block h
     else let* pad_block := update (seq_new 0 64) 56 lb in
          let* h := compress (t ++ [0x80] ++ repeat 0 (63 - r)) h in compress pad_block h)).
  { destruct (update_start (seq_new 0 64) t) as [b|]; [|discriminate E]. cbn [bind] in E |- *.
    destruct (update (seq_new 0 64) 0 b) as [b'|]; [|discriminate E]. cbn [bind] in E |- *. rewrite E. cbn [bind].
    rewrite op_mul_len by assumption. cbn [bind]. unfold classify. rewrite len_be. reflexivity. }
  rewrite X. exact (last_if m h F W R).
Qed.
Lemma sha_steps_app m x n H : (64 * n <= length m)%nat -> sha_steps (m ++ x) n H = sha_steps m n H.
Proof.
  intros L. induction n; [reflexivity|]. rewrite !sha_steps_S, IHn by lia. now rewrite sha_block_app by lia.
Qed.
Lemma full_blocks m q H : Forall byte m -> words8 H -> (64 * q <= length m)%nat ->
  for_range 0 q (full_step m) H = Ok (sha_steps m q H).
Proof.
  intros F W L. destruct (for_range_inv (fun i h => h = sha_steps m i H) (full_step m) 0 q H) as (s' & E & I).
  - reflexivity.
  - intros i s Hi ->. eexists. split; [|symmetry; apply sha_steps_S].
    apply full_step_full; [assumption| |lia]. apply sha_steps_words; [assumption|assumption|lia].
  - now rewrite E, I.
Qed.
Lemma sha_iter_steps p : sha_iter p = sha_steps p (length p / 64) H256.
Proof. unfold sha_iter, sha_steps. generalize H256. reflexivity. Qed.
Definition hash_pure (m : list Z) : list Z := sha_digest (sha_iter (code_pad m)).
Lemma code_pad_bytes m : Forall byte m -> Forall byte (code_pad m).
Proof. intros. unfold code_pad. destruct (_ =? _)%nat; [assumption|now apply sha_pad_bytes]. Qed.
Lemma sha_iter_words p : Forall byte p -> words8 (sha_iter p).
Proof.
  intros F. rewrite sha_iter_steps. apply sha_steps_words; [apply H256_words8|assumption|]. apply Nat.mul_div_le. lia.
Qed.
Lemma hash_pure_bytes m : Forall byte m -> bytes_n 32 (hash_pure m).
Proof. intros F. now apply be_digest, sha_iter_words, code_pad_bytes. Qed.
Lemma hash_Ok m : Forall byte m -> ((length m mod 64)%nat <> 0%nat -> Z.of_nat (length m) < 2 ^ 61) ->
  hash m = Ok (hash_pure m).
Proof.
  intros F B. unfold hash. rewrite num_chunks_Ok by lia. cbn [bind].
  pose proof (Nat.div_mod (length m) 64 ltac:(lia)) as D.
  pose proof (Nat.mod_upper_bound (length m) 64 ltac:(lia)) as Ur.
  set (q := (length m / 64)%nat) in *. set (r := (length m mod 64)%nat) in *.
  match goal with |- bind (for_range 0 ?n ?f ?s) ?g = _ => change f with (full_step m); set (k := n) end.
  rewrite sha256_init_eq.
  assert (Q : for_range 0 q (full_step m) H256 = Ok (sha_steps m q H256)).
  { apply full_blocks; [assumption|apply H256_words8|lia]. }
  assert (X : for_range 0 k (full_step m) H256 = Ok (sha_iter (code_pad m))).
  { assert (W : words8 (sha_steps m q H256)) by (apply sha_steps_words; [apply H256_words8|assumption|lia]).
    unfold code_pad. fold r. destruct (Nat.eqb_spec r 0) as [E|E].
    - replace k with q. 2: { unfold k. apply (Nat.div_unique _ _ _ 63); lia. }
      rewrite sha_iter_steps. exact Q.
    - replace k with (q + 1)%nat. 2: { unfold k. apply (Nat.div_unique _ _ _ (r - 1)); lia. }
      rewrite for_range_app, Q. cbn [bind Nat.add for_range].
      unfold q at 1. rewrite full_step_last; trivial; [|auto]. cbn [bind]. fold q r. f_equal.
      rewrite sha_iter_steps, sha_pad_length. fold q r.
      rewrite (Nat.mul_comm 64), Nat.div_mul by lia.
      assert (A : sha_steps (sha_pad m) q H256 = sha_steps m q H256) by (apply sha_steps_app; lia).
      destruct (r <? 56)%nat.
      + rewrite Nat.add_1_r, sha_steps_S, A. reflexivity.
      + replace (q + 2)%nat with (S (S q)) by lia. rewrite !sha_steps_S, A. reflexivity. }
  rewrite X. cbn [bind].
  destruct (be_digest (sha_iter (code_pad m))) as [-> L]; [now apply sha_iter_words, code_pad_bytes|].
  cbn [bind]. apply arr_from_seq_Ok, L.
Qed.
