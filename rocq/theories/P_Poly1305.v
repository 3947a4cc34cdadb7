(** Lemmas relating the Poly1305 and AEAD models to the specification. *)
From Coq Require Import ZArith List Bool Arith Lia.
From Verif Require Import Base P_Base M_Int P_Int M_Seq M_Bytes M_Vec P_Seq P_Bytes P_Vec
  P_Word P_Stream M_BigInt M_NatMod P_BigInt M_ChaCha S_ChaCha P_ChaCha.
Import ListNotations.
Open Scope Z_scope.

Lemma fe_mod_eq : fe_mod = P1305. Proof. reflexivity. Qed.
Lemma fe_bits_pos : 0 < fe_bits. Proof. reflexivity. Qed.
Lemma fe_mod_range : 0 < fe_mod < 2 ^ fe_bits - 1.
Proof. split; reflexivity. Qed.
Lemma le_num_val b : le_num b = le_val b.
Proof. induction b; cbn [le_num fold_right le_val]; [reflexivity|]. unfold le_num in IHb. now rewrite IHb. Qed.
Lemma bytes_is l : Forall byte l <-> is_bytes l.
Proof. reflexivity. Qed.

Lemma land_cons b m t u : 0 <= b < 256 -> 0 <= m < 256 ->
  Z.land (b + 256 * t) (m + 256 * u) = Z.land b m + 256 * Z.land t u.
Proof.
  intros Hb Hm.
  assert (R : 0 <= Z.land b m < 2 ^ 8) by (apply land_range; lia).
  assert (T : forall x y i, 0 <= x < 256 -> 0 <= i -> 
     Z.testbit (x + 256 * y) i = if i <? 8 then Z.testbit x i else Z.testbit y (i - 8)).
  { intros x y i Hx Hi. replace (x + 256 * y) with (x + y * 2 ^ 8) by lia.
    destruct (Z.ltb_spec i 8) as [C|C].
    - rewrite <- (Z.mod_pow2_bits_low _ 8) by lia. rewrite Z.mod_add by lia.
      rewrite Z.mod_pow2_bits_low by lia. reflexivity.
    - replace i with ((i - 8) + 8) at 1 by lia. rewrite <- Z.div_pow2_bits by lia.
      rewrite Z.div_add by lia. rewrite Z.div_small by lia. f_equal. }
  apply Z.bits_inj'. intros i Hi. rewrite Z.land_spec, !T by lia.
  destruct (i <? 8); now rewrite Z.land_spec.
Qed.

Lemma clamp_num r : bytes_n 16 r ->
  Z.land (le_val r) 0x0ffffffc0ffffffc0ffffffc0fffffff = le_num (clamp r).
Proof.
  intros [HL HF]. rewrite (le_num_val (clamp r)).
  change 0x0ffffffc0ffffffc0ffffffc0fffffff with
   (le_val [255; 255; 255; 15; 252; 255; 255; 15; 252; 255; 255; 15; 252; 255; 255; 15]).
  assert (B : forall x, byte x -> Z.land x 255 = x /\ Z.land x 15 = x mod 16 /\ Z.land x 252 = x - x mod 4).
  { intros x Hx.
    assert (K : forallb (fun x => (Z.land x 255 =? x) && (Z.land x 15 =? x mod 16) &&
        (Z.land x 252 =? x - x mod 4)) (map Z.of_nat (seq 0 256)) = true) by (vm_compute; reflexivity).
    rewrite forallb_forall in K. specialize (K x).
    rewrite !andb_true_iff, !Z.eqb_eq in K. intuition; apply K; apply in_map_iff;
      exists (Z.to_nat x); (split; [apply Z2Nat.id; apply Hx|apply in_seq; destruct Hx; lia]). }
  do 17 (destruct r as [|? r]; try discriminate). clear HL.
  unfold clamp. cbn [map seq nth]. unfold clamp_byte.
  cbn [Nat.modulo Nat.divmod Nat.sub fst snd Nat.eqb andb negb].
  repeat match goal with H : Forall _ (_ :: _) |- _ =>
    let h := fresh in let t := fresh in inversion H as [|? ? h t]; subst; clear H; 
    pose proof (B _ h) end.
  cbn [le_val].
  repeat (rewrite land_cons; [|assumption|lia]).
  repeat match goal with H : _ /\ _ |- _ => destruct H end. 
  repeat match goal with H : Z.land _ _ = _ |- _ => rewrite H; clear H end.
  reflexivity.
Qed.

Lemma u128_aligned : aligned U128. Proof. apply rust_aligned. red; cbn; auto 10. Qed.
Lemma u64_aligned : aligned U64. Proof. apply rust_aligned. red; cbn; auto 10. Qed.
Lemma u128_load s : bytes_n 16 s -> word_from_le_bytes U128 s = Ok (le_val s) /\ 0 <= le_val s < 2 ^ 128.
Proof.
  intros [HL HF]. rewrite word_from_le_Ok by (try apply u128_aligned; exact HL).
  rewrite cast_unsigned_le by (try apply u128_aligned; auto).
  split; [reflexivity|]. pose proof (le_val_range s HF) as R. rewrite HL in R. exact R.
Qed.
Lemma le_val_zeros l k : le_val (l ++ repeat 0 k) = le_val l.
Proof.
  rewrite le_val_app. replace (le_val (repeat 0 k)) with 0; [lia|].
  induction k; cbn [repeat le_val]; lia.
Qed.
Lemma fe_literal x : 0 <= x < 2 ^ 128 -> nm_from_secret_literal fe_bits fe_mod x = Ok x.
Proof.
  intros H. unfold nm_from_secret_literal, declassify.
  apply nm_from_literal_Ok; [apply fe_bits_pos|apply fe_mod_range|].
  rewrite fe_mod_eq. unfold P1305. assert (2 ^ 128 < 2 ^ 130 - 5) by reflexivity. lia.
Qed.

Lemma encode_r_Ok r : bytes_n 16 r -> encode_r r = Ok (le_num (clamp r)).
Proof.
  intros H. unfold encode_r.
  rewrite (update_sub_Ok 0) by (rewrite ?seq_new_length; destruct H; lia). cbn [bind].
  change (firstn 0 (seq_new 0 16)) with (@nil Z). change (skipn (0 + 16) (seq_new 0 16)) with (@nil Z).
  rewrite app_nil_l, app_nil_r, skipn_O, firstn_all2 by (destruct H; lia).
  destruct (u128_load r H) as [-> R]. cbn [bind]. unfold op_and. rewrite fe_literal.
  - now rewrite clamp_num.
  - apply land_range; [lia|exact R|split; [discriminate|reflexivity]].
Qed.

Lemma encode_Ok b : Forall byte b -> (length b <= 16)%nat ->
  encode b = Ok (le_num (b ++ [1])) /\ 0 <= le_num (b ++ [1]) < P1305.
Proof.
  intros HF HL. unfold encode. rewrite Nat.min_r by lia.
  rewrite (update_sub_Ok 0) by (rewrite ?seq_new_length; lia). cbn [bind].
  change (firstn 0 (seq_new 0 16)) with (@nil Z).
  rewrite app_nil_l, skipn_O, firstn_all. unfold seq_new. rewrite skipn_repeat. cbn [Nat.add].
  assert (Hb : bytes_n 16 (b ++ repeat 0 (16 - length b))).
  { split; [rewrite app_length, repeat_length; lia|]. apply Forall_app. split; [assumption|].
    apply Forall_forall. intros x Hx. apply repeat_spec in Hx. subst. red; lia. }
  destruct (u128_load _ Hb) as [-> R]. cbn [bind]. rewrite le_val_zeros in *.
  rewrite fe_literal by exact R. cbn [bind].
  assert (E : le_num (b ++ [1]) = le_val b + 2 ^ (8 * Z.of_nat (length b))).
  { rewrite le_num_val, le_val_app. cbn [le_val]. rewrite pow256_2. lia. }
  assert (P : 0 < 2 ^ (8 * Z.of_nat (length b)) <= 2 ^ 128).
  { split; [apply Z.pow_pos_nonneg; lia|]. apply Z.pow_le_mono_r; lia. }
  assert (B : 2 ^ 128 + 2 ^ 128 < P1305) by reflexivity.
  assert (C : 2 ^ 128 < 2 ^ fe_bits - 1) by reflexivity.
  unfold bpow2. rewrite Z.shiftl_1_l. 
  replace (Z.of_nat (8 * length b)) with (8 * Z.of_nat (length b)) by lia.
  rewrite bfrom_Ok by (try apply fe_bits_pos; lia). cbn [bind].
  rewrite nm_of_base_Ok by (try apply fe_bits_pos; try apply fe_mod_range; lia). cbn [bind].
  rewrite nm_add_Ok by (first [exact fe_bits_pos | exact fe_mod_range]).
  rewrite fe_mod_eq, E. rewrite !Z.mod_small by (rewrite ?Z.mod_small; lia). split; [reflexivity|lia].
Qed.

Lemma Forall_firstn {A} (P : A -> Prop) n l : Forall P l -> Forall P (firstn n l).
Proof. intros H. rewrite <- (firstn_skipn n l) in H. now apply Forall_app in H. Qed.
Lemma Forall_skipn {A} (P : A -> Prop) n l : Forall P l -> Forall P (skipn n l).
Proof. intros H. rewrite <- (firstn_skipn n l) in H. now apply Forall_app in H. Qed.

Lemma poly_inner_Ok m r : Forall byte m -> poly_inner m r = Ok (rfc_acc m r).
Proof.
  intros HF. unfold poly_inner.
  rewrite nm_from_literal_Ok by (first [exact fe_bits_pos | exact fe_mod_range | split; [lia|discriminate]]).
  cbn [bind]. unfold rfc_acc. 
  destruct (for_range_inv (fun i s => s = fold_left (fun acc i => ((acc + block_num m i) * r) mod P1305) (seq 0 i) 0)
   (fun k acc =>
    let i := (16 * k)%nat in
    let block_len := Nat.min 16 (length m - i) in
    let b := seq_new 0 block_len in
    let* b := update_sub b 0 m i block_len in
    let* e := encode b in
    let* s := nm_add fe_bits fe_mod acc e in
    nm_mul fe_bits fe_mod s r) 0 ((length m + 15) / 16) 0) as (s' & E & ->).
  - reflexivity.
  - intros i s Hi ->. cbv zeta.
    assert (Hlt : (16 * i < length m)%nat).
    { pose proof (num_chunks_bounds (length m) 16 ltac:(lia)) as (B1 & B2 & B3).
      replace (length m + 16 - 1)%nat with (length m + 15)%nat in * by lia.
      destruct (Nat.eq_dec (length m) 0) as [Z|Z]; [|lia]. rewrite B2 in Hi by assumption. lia. }
    set (bl := Nat.min 16 (length m - 16 * i)).
    rewrite (update_sub_Ok 0) by (rewrite ?seq_new_length; lia). cbn [bind].
    change (firstn 0 (seq_new 0 bl)) with (@nil Z). rewrite app_nil_l. cbn [Nat.add].
    unfold seq_new. rewrite skipn_repeat, Nat.sub_diag. cbn [repeat]. rewrite app_nil_r.
    assert (Eb : firstn bl (skipn (16 * i) m) = firstn 16 (skipn (16 * i) m)).
    { unfold bl. rewrite <- (skipn_length (16 * i) m).
      destruct (Nat.le_ge_cases 16 (length (skipn (16 * i) m))).
      - now rewrite Nat.min_l by lia.
      - rewrite Nat.min_r by lia. now rewrite !firstn_all2 by lia. }
    rewrite Eb.
    destruct (encode_Ok (firstn 16 (skipn (16 * i) m))) as [-> _].
    { now apply Forall_firstn, Forall_skipn. }
    { rewrite firstn_length. lia. }
    cbn [bind]. rewrite nm_add_Ok by (first [exact fe_bits_pos | exact fe_mod_range]). cbn [bind].
    rewrite nm_mul_Ok by (first [exact fe_bits_pos | exact fe_mod_range]).
    eexists. split; [reflexivity|]. rewrite seq_S, fold_left_app. cbn [fold_left Nat.add].
    rewrite fe_mod_eq. rewrite Zmult_mod_idemp_l. reflexivity.
  - exact E.
Qed.

Lemma rfc_acc_range m r : 0 <= rfc_acc m r < P1305.
Proof.
  unfold rfc_acc. destruct (nblocks m) as [|n]; [cbn; split; [lia|reflexivity]|].
  rewrite seq_S, fold_left_app. cbn [fold_left]. apply Z.mod_pos_bound. reflexivity.
Qed.

Lemma copy_low n : 0 <= n ->
  for_range 0 (Nat.min (length (seq_new 0 16)) (length (nm_to_public_byte_seq_le n)))
    (fun i tag => let* b := idx (nm_to_public_byte_seq_le n) i in upd tag i b) (seq_new 0 16)
  = Ok (le_bytes 16 n).
Proof.
  intros Hn. set (v := nm_to_public_byte_seq_le n).
  assert (Hv : v = le_bytes (nbytes n) n) by reflexivity.
  assert (Lv : length v = nbytes n) by (rewrite Hv; apply le_bytes_length).
  rewrite (fill_gen (fun i => nth i v 0) _ 0).
  - apply (f_equal Ok). apply (nth_ext_eq _ _ 0).
    + rewrite app_nil_l, app_length, map_length, seq_length, skipn_length, le_bytes_length.
      change (length (seq_new 0 16)) with 16%nat. lia.
    + intros j Hj. rewrite app_nil_l, app_length, map_length, seq_length, skipn_length in Hj.
      change (length (seq_new 0 16)) with 16%nat in *. rewrite nth_le_bytes by lia.
      cbn [firstn app Nat.add]. destruct (Nat.lt_ge_cases j (Nat.min 16 (length v))) as [C|C].
      * rewrite app_nth1 by (rewrite map_length, seq_length; lia). rewrite nth_map_seq by lia.
        rewrite Hv, nth_le_bytes by lia. reflexivity.
      * rewrite app_nth2 by (rewrite map_length, seq_length; lia).
        unfold seq_new. rewrite skipn_repeat, nth_repeat.
        rewrite Z.div_small; [reflexivity|]. split; [lia|].
        pose proof (nbytes_bound n) as B. rewrite Z.abs_eq in B by lia.
        eapply Z.lt_le_trans; [exact B|]. apply Z.pow_le_mono_r; lia.
  - change (length (seq_new 0 16)) with 16%nat. lia.
  - intros i s' Hi Hs. rewrite (idx_Ok _ _ 0) by lia. cbn [bind Nat.add]. apply upd_Ok.
    rewrite Hs. change (length (seq_new 0 16)) with 16%nat in *. lia.
Qed.

(** r and s parts of a one-time key *)
Definition r_of (key : list Z) : Z := le_num (clamp (firstn 16 key)).
Definition s_of (key : list Z) : Z := le_num (firstn 16 (skipn 16 key)).

Lemma poly_Ok m key : bytes_n 32 key -> Forall byte m ->
  poly m key = Ok (le_bytes 16 ((rfc_acc m (r_of key) + s_of key) mod P1305)) /\
  0 <= s_of key < 2 ^ 128.
Proof.
  intros [KL KF] HF. unfold poly, arr_from_sub_range, arr_from_sub.
  change (assert_ (16 =? 16)%nat) with (Ok tt). cbn [bind].
  rewrite (update_sub_Ok 0) by (rewrite ?seq_new_length; lia). cbn [bind].
  change (firstn 0 (seq_new 0 16)) with (@nil Z). change (skipn (0 + 16) (seq_new 0 16)) with (@nil Z).
  rewrite app_nil_l, app_nil_r.
  assert (B1 : bytes_n 16 (firstn 16 (skipn 16 key))).
  { split; [rewrite firstn_length, skipn_length; lia|]. now apply Forall_firstn, Forall_skipn. }
  destruct (u128_load _ B1) as [-> R]. cbn [bind]. rewrite fe_literal by exact R. cbn [bind].
  rewrite usub_Ok by lia. cbn [bind]. change (assert_ (16 - 0 =? 16)%nat) with (Ok tt). cbn [bind].
  rewrite (update_sub_Ok 0) by (rewrite ?seq_new_length; lia). cbn [bind].
  change (firstn 0 (seq_new 0 16)) with (@nil Z). change (skipn (0 + (16 - 0)) (seq_new 0 16)) with (@nil Z).
  rewrite app_nil_l, app_nil_r. rewrite skipn_O. change (16 - 0)%nat with 16%nat.
  rewrite encode_r_Ok.
  2: { split; [rewrite firstn_length; lia|]. now apply Forall_firstn. }
  cbn [bind]. rewrite poly_inner_Ok by assumption. cbn [bind].
  rewrite nm_add_Ok by (first [exact fe_bits_pos | exact fe_mod_range]). cbn [bind].
  rewrite copy_low by (apply Z.mod_pos_bound; reflexivity).
  unfold s_of, r_of. rewrite fe_mod_eq, le_num_val. split; [reflexivity|exact R].
Qed.

(** ** MAC input *)
Lemma padded_len_eq (x : list Z) : padded_len (length x) = (length x + length (pad16 x))%nat.
Proof.
  unfold padded_len, pad16. rewrite repeat_length. set (l := length x).
  pose proof (Nat.div_mod l 16 ltac:(lia)). pose proof (Nat.mod_upper_bound l 16 ltac:(lia)).
  destruct (Nat.eqb_spec (l mod 16) 0) as [E|E].
  - rewrite E. cbn [Nat.sub]. rewrite Nat.mod_same by lia. lia.
  - rewrite (Nat.mod_small (16 - l mod 16)) by lia. lia.
Qed.
Lemma cast_u64_small x : 0 <= x < 2 ^ 64 -> cast u64 x = x.
Proof. intros H. unfold cast, iwrap. cbn [sgn bits u64]. now apply Z.mod_small. Qed.
Lemma le64_eq x : le64 x = le_bytes 8 x.
Proof.
  apply (nth_ext_eq _ _ 0).
  - unfold le64. now rewrite map_length, seq_length, le_bytes_length.
  - intros j Hj. unfold le64 in *. rewrite map_length, seq_length in Hj.
    rewrite nth_map_seq, nth_le_bytes by lia. rewrite pow256_2. reflexivity.
Qed.
Lemma le64_length x : length (le64 x) = 8%nat.
Proof. unfold le64. now rewrite map_length, seq_length. Qed.
Lemma update_app (a z b : list Z) : (length z <= length b)%nat ->
  update (a ++ b) (length a) z = Ok (a ++ z ++ skipn (length z) b).
Proof.
  intros H. rewrite (update_Ok 0) by (rewrite app_length; lia).
  rewrite firstn_app, firstn_all, Nat.sub_diag. cbn [firstn]. rewrite app_nil_r.
  rewrite skipn_app, skipn_all2 by lia. cbn [app].
  do 4 f_equal. lia.
Qed.
Lemma pad_aad_msg_Ok aad msg : Z.of_nat (length aad) < 2 ^ 64 -> Z.of_nat (length msg) < 2 ^ 64 ->
  pad_aad_msg aad msg = Ok (rfc_mac_data aad msg).
Proof.
  intros H1 H2. unfold pad_aad_msg. rewrite !word_to_le_Ok. cbn [bind].
  rewrite !cast_u64_small by lia. change (bytes_of U64) with 8%nat. rewrite <- !le64_eq.
  rewrite !padded_len_eq. unfold rfc_mac_data.
  set (la := le64 (Z.of_nat (length aad))). set (lm := le64 (Z.of_nat (length msg))).
  assert (La : length la = 8%nat) by apply le64_length.
  assert (Lm : length lm = 8%nat) by apply le64_length.
  set (p1 := pad16 aad). set (p2 := pad16 msg).
  assert (E1 : p1 = repeat 0 (length p1)) by (unfold p1, pad16; now rewrite repeat_length).
  assert (E2 : p2 = repeat 0 (length p2)) by (unfold p2, pad16; now rewrite repeat_length).
  unfold seq_new.
  rewrite (update_Ok 0 _ aad 0) by (rewrite repeat_length; lia). cbn [bind firstn app Nat.add].
  rewrite skipn_repeat.
  replace (length aad + length p1 + (length msg + length p2) + 16 - length aad)%nat
    with (length p1 + (length msg + length p2 + 16))%nat by lia.
  rewrite repeat_app, <- E1, app_assoc.
  rewrite <- (app_length aad p1).
  rewrite update_app by (rewrite repeat_length; lia). cbn [bind].
  rewrite skipn_repeat.
  replace (length msg + length p2 + 16 - length msg)%nat with (length p2 + 16)%nat by lia.
  rewrite repeat_app, <- E2.
  rewrite (app_assoc msg), (app_assoc (aad ++ p1)).
  rewrite <- (app_length msg p2), <- (app_length (aad ++ p1)).
  rewrite update_app by (rewrite repeat_length; lia). cbn [bind].
  rewrite La. cbn [skipn repeat].
  rewrite (app_assoc ((aad ++ p1) ++ msg ++ p2)).
  replace (length ((aad ++ p1) ++ msg ++ p2) + 8)%nat with (length (((aad ++ p1) ++ msg ++ p2) ++ la))
    by (rewrite (app_length _ la); lia).
  rewrite update_app by (cbn [length]; lia). rewrite Lm. cbn [skipn]. rewrite app_nil_r.
  now rewrite <- !app_assoc.
Qed.

Lemma le64_inj x y : 0 <= x < 2 ^ 64 -> 0 <= y < 2 ^ 64 -> le64 x = le64 y -> x = y.
Proof.
  intros Hx Hy. rewrite !le64_eq. intros H. apply le_bytes_inj in H.
  change (256 ^ Z.of_nat 8) with (2 ^ 64) in H. now rewrite !Z.mod_small in H by lia.
Qed.
Lemma app_inj_len {A} (a a' b b' : list A) : length a = length a' -> a ++ b = a' ++ b' -> a = a' /\ b = b'.
Proof.
  revert a'; induction a as [|x a IH]; intros [|y a'] L E; try discriminate; [auto|].
  injection E as -> E. injection L as L. destruct (IH a' L E) as [-> ->]. auto.
Qed.
Lemma app_inj_tail_len {A} (a a' b b' : list A) : length b = length b' -> a ++ b = a' ++ b' -> a = a' /\ b = b'.
Proof.
  intros L E. apply app_inj_len; [|exact E].
  apply (f_equal (@length A)) in E. rewrite !app_length in E. lia.
Qed.
Lemma mac_data_inj aad ct aad' ct' :
  Z.of_nat (length aad) < 2 ^ 64 -> Z.of_nat (length ct) < 2 ^ 64 ->
  Z.of_nat (length aad') < 2 ^ 64 -> Z.of_nat (length ct') < 2 ^ 64 ->
  rfc_mac_data aad ct = rfc_mac_data aad' ct' -> aad = aad' /\ ct = ct'.
Proof.
  intros H1 H2 H3 H4 E. unfold rfc_mac_data in E. rewrite !app_assoc in E.
  apply app_inj_tail_len in E as [E Em]; [|now rewrite !le64_length].
  apply app_inj_tail_len in E as [E Ea]; [|now rewrite !le64_length].
  apply le64_inj in Em; [|lia|lia]. apply le64_inj in Ea; [|lia|lia].
  apply Nat2Z.inj in Em. apply Nat2Z.inj in Ea.
  rewrite <- !app_assoc in E. apply app_inj_len in E as [-> E]; [|exact Ea].
  apply app_inj_len in E as [_ E]; [|reflexivity].
  apply app_inj_len in E as [-> _]; auto.
Qed.
Lemma mac_data_bytes aad ct : Forall byte aad -> Forall byte ct -> Forall byte (rfc_mac_data aad ct).
Proof.
  intros Ha Hc.
  assert (P : forall x, Forall byte (pad16 x)).
  { intros x. apply Forall_forall. intros y Hy. apply repeat_spec in Hy. subst. red; lia. }
  assert (L : forall x, Forall byte (le64 x)).
  { intros x. apply Forall_forall. intros y Hy. apply in_map_iff in Hy as (j & <- & _).
    apply Z.mod_pos_bound. reflexivity. }
  unfold rfc_mac_data. repeat (apply Forall_app; split; auto).
Qed.

(** ** AEAD *)
Definition otk (key iv : list Z) : list Z := firstn 32 (rfc_block key 0 iv).
Lemma otk_bytes key iv : bytes_n 32 (otk key iv).
Proof.
  split; [unfold otk; now rewrite firstn_length, rfc_block_length|]. apply Forall_firstn, rfc_block_bytes.
Qed.
Lemma mac_key_Ok key iv : bytes_n 32 key -> bytes_n 12 iv ->
  bind (block key 0 iv) (fun b => arr_from_sub_range 0 32 b 0 32) = Ok (otk key iv).
Proof.
  intros Hk Hi. rewrite block_Ok by (first [assumption | split; [lia|reflexivity]]). cbn [bind].
  unfold arr_from_sub_range, arr_from_sub. rewrite usub_Ok by lia. cbn [bind].
  change (assert_ (32 - 0 =? 32)%nat) with (Ok tt). cbn [bind]. change (32 - 0)%nat with 32%nat.
  rewrite (update_sub_Ok 0) by (rewrite ?seq_new_length, ?rfc_block_length; lia).
  change (firstn 0 (seq_new 0 32)) with (@nil Z). change (skipn (0 + 32) (seq_new 0 32)) with (@nil Z).
  rewrite app_nil_l, app_nil_r, skipn_O. reflexivity.
Qed.

Definition cc (key iv m : list Z) : list Z := xor_ks 64 (fun i => rfc_block key (ctr_at i) iv) m.
Lemma cc_length key iv m : length (cc key iv m) = length m.
Proof. apply xor_ks_length. Qed.
Lemma cc_invol key iv m : cc key iv (cc key iv m) = m.
Proof. apply xor_ks_invol. Qed.
Lemma cc_bytes key iv m : Forall byte m -> Forall byte (cc key iv m).
Proof.
  intros H. apply Forall_forall. intros x Hx. apply (In_nth _ _ 0) in Hx as (j & Hj & <-).
  rewrite cc_length in Hj. unfold cc. rewrite nth_xor_ks by assumption.
  apply (lxor_range 8); [lia|now apply Forall_nth_word|].
  apply (Forall_nth_word byte); [apply rfc_block_bytes|]. rewrite rfc_block_length.
  apply Nat.mod_upper_bound. lia.
Qed.
Definition cp_tag (key iv aad ct : list Z) : list Z :=
  le_bytes 16 ((rfc_acc (rfc_mac_data aad ct) (r_of (otk key iv)) + s_of (otk key iv)) mod P1305).

Lemma cp_encrypt_Ok key iv aad msg : bytes_n 32 key -> bytes_n 12 iv -> Forall byte aad -> Forall byte msg ->
  Z.of_nat (length aad) < 2 ^ 64 -> Z.of_nat (length msg) < 2 ^ 64 ->
  cp_encrypt key iv aad msg = Ok (cc key iv msg, cp_tag key iv aad (cc key iv msg)).
Proof.
  intros Hk Hi Ha Hm La Lm. unfold cp_encrypt.
  pose proof (mac_key_Ok key iv Hk Hi) as E.
  rewrite <- bind_assoc, E. cbn [bind]. rewrite chacha_Ok by assumption. cbn [bind]. fold (cc key iv msg).
  rewrite pad_aad_msg_Ok by (rewrite ?cc_length; assumption). cbn [bind].
  destruct (poly_Ok (rfc_mac_data aad (cc key iv msg)) (otk key iv) (otk_bytes _ _)) as [-> _].
  { apply mac_data_bytes; [assumption|now apply cc_bytes]. }
  reflexivity.
Qed.
Lemma cp_decrypt_Ok key iv aad ct tag : bytes_n 32 key -> bytes_n 12 iv -> Forall byte aad -> Forall byte ct ->
  Z.of_nat (length aad) < 2 ^ 64 -> Z.of_nat (length ct) < 2 ^ 64 ->
  cp_decrypt key iv aad ct tag =
    Ok (if list_eqb (cp_tag key iv aad ct) tag then Some (cc key iv ct) else None).
Proof.
  intros Hk Hi Ha Hm La Lm. unfold cp_decrypt.
  pose proof (mac_key_Ok key iv Hk Hi) as E.
  rewrite <- bind_assoc, E. cbn [bind].
  rewrite pad_aad_msg_Ok by assumption. cbn [bind].
  destruct (poly_Ok (rfc_mac_data aad ct) (otk key iv) (otk_bytes _ _)) as [-> _].
  { now apply mac_data_bytes. }
  cbn [bind]. fold (cp_tag key iv aad ct). destruct (list_eqb _ _); [|reflexivity].
  rewrite chacha_Ok by assumption. reflexivity.
Qed.
