(** Counter mode, GMAC and AES-GCM. *)
From Coq Require Import ZArith List Bool Arith Lia.
From Verif Require Import Base P_Base M_Int P_Int M_Seq P_Seq M_Bytes P_Bytes M_ChaCha M_AES P_Word P_Stream
  S_ChaCha S_GF2 P_GF2 S_AES P_GF128 P_AES P_Poly1305.
Import ListNotations.
Open Scope Z_scope.

Lemma be_str_eq n x : be_str n x = be_bytes n x.
Proof.
  apply (nth_ext_eq _ _ 0).
  - unfold be_str. now rewrite map_length, seq_length, be_bytes_length.
  - intros j Hj. unfold be_str in *. rewrite map_length, seq_length in Hj.
    now rewrite nth_map_seq, nth_be_bytes by lia.
Qed.
Lemma be_str_length n x : length (be_str n x) = n.
Proof. rewrite be_str_eq. apply be_bytes_length. Qed.
Lemma be_str_bytes n x : bytes_n n (be_str n x).
Proof. split; [apply be_str_length|]. rewrite be_str_eq. apply bytes_is, be_bytes_is_bytes. Qed.
Lemma be_num_fold l a : fold_left (fun a b => 256 * a + b) l a = a * 256 ^ Z.of_nat (length l) + be_val l.
Proof.
  revert a. induction l as [|b l IH]; intros a; [cbn; lia|].
  cbn [fold_left length]. rewrite IH, be_val_cons.
  replace (Z.of_nat (S (length l))) with (Z.succ (Z.of_nat (length l))) by lia. rewrite Z.pow_succ_r by lia. ring.
Qed.
Lemma be_num_val l : be_num l = be_val l.
Proof. unfold be_num. rewrite be_num_fold. lia. Qed.

(** ** Counter mode *)
Lemma ctr_input_block n c : bytes_n 12 n -> block16 (n ++ be_str 4 c).
Proof.
  intros [L B]. destruct (be_str_bytes 4 c) as [L4 B4]. split.
  - rewrite app_length. lia.
  - apply Forall_app. auto.
Qed.
Lemma keyblock_Ok alg key n c : bytes_n (klen alg) key -> bytes_n 12 n -> word32 c ->
  aes_ctr_keyblock key n c (nk_of alg) (nr_of alg) alg = Ok (ctr_block (aes_pure alg key) n c).
Proof.
  intros HK HN HC. unfold aes_ctr_keyblock. destruct HN as [LN BN].
  rewrite (update_Ok 0) by (rewrite seq_new_length; lia). cbn [bind].
  change (firstn 0 _) with (@nil Z). rewrite app_nil_l. unfold seq_new. rewrite skipn_repeat. rewrite LN.
  rewrite word_to_be_Ok. cbn [bind]. change (bytes_of U32) with 4%nat.
  pose proof (update_app n (be_bytes 4 c) (repeat 0 (16 - (0 + 12)))) as U. rewrite LN in U. rewrite U by (rewrite be_bytes_length; cbn; lia). cbn [bind].
  rewrite be_bytes_length. change (skipn 4 _) with (@nil Z). rewrite app_nil_r.
  unfold ctr_block. rewrite (Z.mod_small c) by exact HC. rewrite be_str_eq.
  apply aes_encrypt_block_Ok; [assumption|]. rewrite <- be_str_eq. apply ctr_input_block. split; assumption.
Qed.
Lemma ctr_block_block alg key n c : bytes_n (klen alg) key -> bytes_n 12 n ->
  block16 (ctr_block (aes_pure alg key) n c).
Proof. intros HK HN. apply aes_encrypt_block_Ok; [assumption|]. now apply ctr_input_block. Qed.
Lemma ctr_block_mod E n c : ctr_block E n (c mod 2 ^ 32) = ctr_block E n c.
Proof. unfold ctr_block. now rewrite Z.mod_mod by lia. Qed.

Definition ctr_pure (alg : aes_variant) (key nonce : list Z) (ctr : Z) (m : list Z) : list Z :=
  xor_ks 16 (fun i => ctr_block (aes_pure alg key) nonce (ctr + Z.of_nat i)) m.

Lemma arr_from_seq_Ok l (x : list Z) : length x = l -> arr_from_seq 0 l x = Ok x.
Proof. apply arr_from_vec_Ok. Qed.
#[local] Opaque aes_pure ctr_block gcm_mul.
Lemma counter_mode_Ok alg key nonce ctr m : bytes_n (klen alg) key -> bytes_n 12 nonce -> word32 ctr ->
  aes_counter_mode key nonce ctr m (nk_of alg) (nr_of alg) alg = Ok (ctr_pure alg key nonce ctr m).
Proof.
  intros HK HN HC. unfold aes_counter_mode. rewrite num_chunks_Ok by lia. cbn [bind].
  set (c := fun i => (ctr + Z.of_nat (Nat.min i (length m / 16))) mod 2 ^ 32).
  replace (seq_new 0 (length m), ctr) with (seq_new 0 (length m), c 0%nat).
  2: { f_equal. unfold c. cbn [Nat.min Z.of_nat]. rewrite Z.add_0_r. now apply Z.mod_small. }
  set (ks := fun i => ctr_block (aes_pure alg key) nonce (ctr + Z.of_nat i)).
  assert (Lks : forall i, length (ks i) = 16%nat) by (intros; now apply ctr_block_block).
  rewrite (stream_loop 16 ks c).
  - reflexivity.
  - lia.
  - exact Lks.
  - intros i out Hlt Hl. rewrite get_chunk_Ok by lia. cbn [bind].
    assert (Hi : (i <= length m / 16)%nat) by (apply Nat.div_le_lower_bound; lia).
    rewrite keyblock_Ok; [|assumption|assumption|apply Z.mod_pos_bound; lia]. cbn [bind].
    assert (EK : ctr_block (aes_pure alg key) nonce (c i) = ks i).
    { unfold c. rewrite Nat.min_l by exact Hi. apply ctr_block_mod. }
    rewrite EK.
    set (chunk := firstn 16 (skipn (16 * i) m)).
    assert (Hc : length chunk = Nat.min 16 (length m - 16 * i))
      by (unfold chunk; rewrite firstn_length, skipn_length; reflexivity).
    rewrite <- Hc.
    assert (Hz : length (zip_with Z.lxor chunk (ks i)) = length chunk)
      by (rewrite zip_with_length, Lks; lia).
    destruct (Nat.eqb_spec (length chunk) 16) as [E|E].
    + rewrite arr_from_seq_Ok by exact E. cbn [bind].
      rewrite xor_block_Ok by (exact E || apply Lks). cbn [bind].
      rewrite (set_chunk_Ok 0) by lia. cbn [bind].
      change (op_add U32 (c i) 1) with (Ok (iwrap U32 (c i + 1))). cbn [bind].
      rewrite Hz. do 3 f_equal. unfold iwrap. cbn [sgn bits U32]. unfold c.
      assert ((i + 1 <= length m / 16)%nat) by (apply Nat.div_le_lower_bound; lia).
      rewrite !Nat.min_l by lia. rewrite Zplus_mod_idemp_l. f_equal. lia.
    + rewrite update_start_pad by lia. cbn [bind].
      rewrite xor_block_Ok; [|rewrite app_length, repeat_length; lia|apply Lks]. cbn [bind].
      pose proof (xor_pad_sub 16 chunk (ks i) ltac:(lia) (Lks i)) as X.
      rewrite update_start_pad in X by lia. cbn [bind] in X.
      rewrite sarr_xor_Ok in X; [|rewrite app_length, repeat_length; lia|apply Lks]. cbn [bind] in X.
      rewrite X. cbn [bind]. rewrite (set_chunk_Ok 0) by lia. cbn [bind].
      assert ((length m / 16 < i + 1)%nat) by (apply Nat.div_lt_upper_bound; lia).
      assert (EC : c (S i) = c i).
      { unfold c. replace (Nat.min (S i) (length m / 16)) with (Nat.min i (length m / 16)) by lia. reflexivity. }
      rewrite EC, Hz. reflexivity.
Qed.
Lemma ctr_pure_length alg key n c m : length (ctr_pure alg key n c m) = length m.
Proof. apply xor_ks_length. Qed.
Lemma ctr_pure_invol alg key n c m : ctr_pure alg key n c (ctr_pure alg key n c m) = m.
Proof. apply xor_ks_invol. Qed.
Lemma ctr_pure_bytes alg key n c m : bytes_n (klen alg) key -> bytes_n 12 n -> Forall byte m ->
  Forall byte (ctr_pure alg key n c m).
Proof.
  intros HK HN HM. apply Forall_forall. intros x Hx. unfold ctr_pure, xor_ks in Hx.
  apply in_map_iff in Hx as (j & <- & Hj). apply in_seq in Hj. rewrite Forall_forall in HM.
  apply xor_byte; [apply HM, nth_In; lia|].
  destruct (ctr_block_block alg key n (c + Z.of_nat (j / 16)) HK HN) as [L B]. rewrite Forall_forall in B.
  apply B, nth_In. rewrite L. apply Nat.mod_upper_bound. lia.
Qed.

(** ** GHASH *)
Lemma encode_Ok b : block16 b -> gf_encode b = Ok (be_num b) /\ u128r (be_num b).
Proof.
  intros [L B]. rewrite be_num_val. apply bytes_is in B.
  pose proof (be_val_range b B) as R. rewrite L in R. change (256 ^ Z.of_nat 16) with (2 ^ 128) in R.
  split; [|exact R]. unfold gf_encode. rewrite arr_from_seq_Ok by exact L. cbn [bind].
  rewrite word_from_be_Ok by (first [exact u128_aligned | exact L]).
  f_equal. unfold cast, iwrap. cbn [sgn bits U128]. now apply Z.mod_small.
Qed.
Lemma gf_update_Ok r b acc : u128r r -> u128r acc -> block16 b ->
  gf_update r b acc = Ok (gcm_mul (Z.lxor (be_num b) acc) r).
Proof.
  intros Hr Ha Hb. unfold gf_update, fadd, op_xor. destruct (encode_Ok b Hb) as [-> Hn]. cbn [bind].
  rewrite (fmul_Ok (Z.lxor (be_num b) acc) r); [reflexivity| |exact Hr]. apply lxor_range; [lia|exact Hn|exact Ha].
Qed.
Definition mblock (m : list Z) (i : nat) : list Z := map (fun j => nth (16 * i + j) m 0) (seq 0 16).
Lemma nth_byte m i : Forall byte m -> byte (nth i m 0).
Proof.
  intros H. destruct (Nat.lt_ge_cases i (length m)) as [L|L].
  - rewrite Forall_forall in H. now apply H, nth_In.
  - rewrite nth_overflow by lia. unfold byte; lia.
Qed.
Lemma mblock_block m i : Forall byte m -> block16 (mblock m i).
Proof.
  intros H. split; [reflexivity|]. apply Forall_forall. intros x Hx.
  apply in_map_iff in Hx as (j & <- & _). now apply nth_byte.
Qed.
Lemma mblock_last m k r : (length m = 16 * k + r)%nat -> (r <= 16)%nat ->
  firstn r (skipn (16 * k) m) ++ repeat 0 (16 - r) = mblock m k.
Proof.
  intros L R. unfold mblock. replace (seq 0 16) with (seq 0 (r + (16 - r))) by (f_equal; lia).
  rewrite seq_app, map_app. f_equal.
  - symmetry. apply firstn_skipn_map_seq. lia.
  - apply (nth_ext_eq _ _ 0); [now rewrite repeat_length, map_length, seq_length|].
    rewrite repeat_length. intros j Hj. rewrite nth_repeat.
    erewrite nth_indep by (rewrite map_length, seq_length; exact Hj).
    rewrite (map_nth (fun j => nth (16 * k + j) m 0) _ 0%nat), seq_nth by exact Hj.
    symmetry. apply nth_overflow. lia.
Qed.
Definition horner (h : Z) (m : list Z) (n : nat) : Z :=
  fold_left (fun acc i => gcm_mul (Z.lxor (ghash_block m i) acc) h) (seq 0 n) 0.
Lemma horner_S h m n : horner h m (S n) = gcm_mul (Z.lxor (ghash_block m n) (horner h m n)) h.
Proof. unfold horner. rewrite seq_S, fold_left_app. reflexivity. Qed.
Lemma horner_range h m n : u128r (horner h m n).
Proof. destruct n; [unfold u128r; cbn; lia|]. rewrite horner_S. apply gcm_mul_range. Qed.
Lemma gf_poly_Ok m r : Forall byte m -> u128r r ->
  gf_poly m r = Ok (horner r m ((length m + 15) / 16)).
Proof.
  intros HM Hr. unfold gf_poly. set (l := length m). set (nb := (l / 16)%nat). set (rm := (l mod 16)%nat).
  pose proof (Nat.div_mod l 16 ltac:(lia)) as D. fold nb rm in D.
  assert (Hrm : (rm < 16)%nat) by (apply Nat.mod_upper_bound; lia).
  match goal with |- bind (for_range 0 nb ?f 0) _ = _ =>
    destruct (for_range_inv (fun i acc => acc = horner r m i) f 0%nat nb 0) as (a & E & Ha) end.
  - reflexivity.
  - intros i acc Hi ->. eexists. split; [|reflexivity].
    rewrite subr_Ok by (fold l; lia). cbn [bind].
    replace (i * 16 + 16 - i * 16)%nat with 16%nat by lia. rewrite (Nat.mul_comm i 16).
    assert (EB : firstn 16 (skipn (16 * i) m) = mblock m i).
    { unfold mblock. symmetry. apply firstn_skipn_map_seq. fold l. lia. }
    rewrite EB. pose proof (mblock_block m i HM) as B.
    rewrite update_start_pad by (rewrite (proj1 B); lia). cbn [bind].
    rewrite (proj1 B), Nat.sub_diag. cbn [repeat]. rewrite app_nil_r.
    rewrite gf_update_Ok by (first [assumption | apply horner_range]). rewrite horner_S. unfold ghash_block. fold (mblock m i). reflexivity.
  - rewrite E. cbn [bind]. cbn [Nat.add] in Ha. subst a.
    destruct (Nat.eqb_spec rm 0) as [Z0|Z0]; cbn [negb].
    + f_equal. f_equal. apply (Nat.div_unique _ _ _ 15); lia.
    + rewrite (update_sub_Ok 0) by (rewrite ?seq_new_length; fold l; lia). cbn [bind].
      change (firstn 0 _) with (@nil Z). rewrite app_nil_l. unfold seq_new. rewrite skipn_repeat.
      cbn [Nat.add]. rewrite (Nat.mul_comm nb 16), mblock_last by (fold l; lia).
      rewrite gf_update_Ok by (first [assumption | apply horner_range | now apply mblock_block]).
      replace ((l + 15) / 16)%nat with (S nb); [rewrite horner_S; unfold ghash_block; fold (mblock m nb); reflexivity|].
      apply (Nat.div_unique _ _ _ (rm - 1)); lia.
Qed.
Lemma gf_sum_app a b : gf_sum (a ++ b) = Z.lxor (gf_sum a) (gf_sum b).
Proof.
  induction a as [|x a IH]; [now rewrite Z.lxor_0_l|]. cbn [app gf_sum fold_right]. fold (gf_sum (a ++ b)).
  fold (gf_sum a). rewrite IH. now rewrite Z.lxor_assoc.
Qed.
Lemma gf_sum_mul h (l : list Z) : gf_sum (map (fun x => gcm_mul x h) l) = gcm_mul (gf_sum l) h.
Proof.
  induction l as [|x l IH]; cbn [map gf_sum fold_right]; [now rewrite gcm_mul_0_l|].
  fold (gf_sum l). fold (gf_sum (map (fun x => gcm_mul x h) l)). now rewrite IH, gcm_mul_lxor_l.
Qed.
Lemma horner_sum h m n : u128r h ->
  horner h m n = gf_sum (map (fun i => gcm_mul (ghash_block m i) (gcm_pow h (n - i))) (seq 0 n)).
Proof.
  intros Hh. induction n as [|n IH]; [reflexivity|]. rewrite horner_S.
  rewrite seq_S, map_app, gf_sum_app. cbn [map Nat.add].
  rewrite gcm_mul_lxor_l, Z.lxor_comm. f_equal.
  - rewrite IH, <- gf_sum_mul, map_map. f_equal. apply map_ext_in. intros i Hi. apply in_seq in Hi.
    replace (S n - i)%nat with (S (n - i)) by lia. cbn [gcm_pow].
    rewrite (gcm_mul_comm h), gcm_mul_assoc. reflexivity.
  - replace (S n - n)%nat with 1%nat by lia. cbn [gcm_pow gf_sum fold_right].
    rewrite Z.lxor_0_r, (gcm_mul_comm h), gcm_mul_one_l by exact Hh. reflexivity.
Qed.
Lemma ghash_horner h m : u128r h -> ghash h m = horner h m ((length m + 15) / 16).
Proof. intros. symmetry. now apply horner_sum. Qed.
Lemma ghash_range h m : u128r h -> u128r (ghash h m).
Proof. intros. rewrite ghash_horner by assumption. apply horner_range. Qed.
Lemma gmac_Ok m k : Forall byte m -> block16 k -> gmac m k = Ok (be_str 16 (ghash (be_num k) m)).
Proof.
  intros HM HK. unfold gmac. rewrite arr_from_seq_Ok by apply HK. cbn [bind].
  destruct (encode_Ok k HK) as [-> Hr]. cbn [bind].
  rewrite gf_poly_Ok by assumption. cbn [bind].
  destruct (encode_Ok (seq_new 0 16)) as [-> _].
  { split; [reflexivity|]. apply Forall_forall. intros x Hx. apply repeat_spec in Hx. subst. unfold byte; lia. }
  cbn [bind]. change (be_num (seq_new 0 16)) with 0. unfold fadd, op_xor. rewrite Z.lxor_0_r.
  unfold gf_decode. rewrite word_to_be_Ok. cbn [bind].
  rewrite arr_from_seq_Ok by apply be_bytes_length. cbn [bind].
  rewrite arr_from_seq_Ok by apply be_bytes_length. rewrite be_str_eq. now rewrite ghash_horner.
Qed.

(** ** MAC input *)
Lemma gcm_padded_len_eq (x : list Z) : gcm_padded_len (length x) = (length x + length (pad16 x))%nat.
Proof.
  unfold gcm_padded_len, pad16. rewrite repeat_length. set (l := length x).
  pose proof (Nat.div_mod l 16 ltac:(lia)). pose proof (Nat.mod_upper_bound l 16 ltac:(lia)).
  destruct (Nat.eqb_spec (l mod 16) 0) as [E|E].
  - rewrite E. cbn [Nat.sub]. rewrite Nat.mod_same by lia. lia.
  - rewrite (Nat.mod_small (16 - l mod 16)) by lia. lia.
Qed.
Definition short (x : list Z) : Prop := Z.of_nat (length x) < 2 ^ 61.
Lemma len8_op x : short x -> op_mul U64 (cast u64 (Z.of_nat (length x))) 8 = Ok (8 * Z.of_nat (length x)).
Proof.
  intros H. unfold short in H. rewrite cast_u64_small by lia.
  change (op_mul U64 (Z.of_nat (length x)) 8) with (Ok (iwrap U64 (Z.of_nat (length x) * 8))).
  f_equal. unfold iwrap. cbn [sgn bits U64]. rewrite Z.mod_small by lia. lia.
Qed.
Lemma gcm_pad_Ok aad msg : short aad -> short msg -> gcm_pad_aad_msg aad msg = Ok (gcm_mac_data aad msg).
Proof.
  intros H1 H2. unfold gcm_pad_aad_msg. rewrite !len8_op by assumption. cbn [bind]. rewrite !word_to_be_Ok. cbn [bind].
  change (bytes_of U64) with 8%nat. rewrite <- !be_str_eq.
  rewrite !gcm_padded_len_eq. unfold gcm_mac_data.
  set (la := be_str 8 (8 * Z.of_nat (length aad))). set (lm := be_str 8 (8 * Z.of_nat (length msg))).
  assert (La : length la = 8%nat) by apply be_str_length.
  assert (Lm : length lm = 8%nat) by apply be_str_length.
  set (p1 := pad16 aad). set (p2 := pad16 msg).
  assert (E1 : p1 = repeat 0 (length p1)) by (unfold p1, pad16; now rewrite repeat_length).
  assert (E2 : p2 = repeat 0 (length p2)) by (unfold p2, pad16; now rewrite repeat_length).
  unfold seq_new.
  rewrite (update_Ok 0 _ aad 0) by (rewrite repeat_length; lia). cbn [bind firstn app Nat.add].
  rewrite skipn_repeat.
  replace (length aad + length p1 + (length msg + length p2) + 16 - length aad)%nat
    with (length p1 + (length msg + length p2 + 16))%nat by lia.
  rewrite repeat_app, <- E1, app_assoc.
  rewrite <- (app_length aad p1).
  rewrite update_app by (rewrite repeat_length; lia). cbn [bind].
  rewrite skipn_repeat.
  replace (length msg + length p2 + 16 - length msg)%nat with (length p2 + 16)%nat by lia.
  rewrite repeat_app, <- E2.
  rewrite (app_assoc msg), (app_assoc (aad ++ p1)).
  rewrite <- (app_length msg p2), <- (app_length (aad ++ p1)).
  rewrite update_app by (rewrite repeat_length; lia). cbn [bind].
  rewrite La. cbn [skipn repeat].
  rewrite (app_assoc ((aad ++ p1) ++ msg ++ p2)).
  replace (length ((aad ++ p1) ++ msg ++ p2) + 8)%nat with (length (((aad ++ p1) ++ msg ++ p2) ++ la))
    by (rewrite (app_length _ la); lia).
  rewrite update_app by (cbn [length]; lia). rewrite Lm. cbn [skipn]. rewrite app_nil_r.
  now rewrite <- !app_assoc.
Qed.
Lemma be_str_inj n x y : 0 <= x < 256 ^ Z.of_nat n -> 0 <= y < 256 ^ Z.of_nat n -> be_str n x = be_str n y -> x = y.
Proof.
  intros Hx Hy. rewrite !be_str_eq. intros H. apply (f_equal be_val) in H.
  rewrite !be_val_be_bytes in H. now rewrite !Z.mod_small in H by lia.
Qed.
Lemma gcm_data_inj aad ct aad' ct' : short aad -> short ct -> short aad' -> short ct' ->
  gcm_mac_data aad ct = gcm_mac_data aad' ct' -> aad = aad' /\ ct = ct'.
Proof.
  unfold short. intros H1 H2 H3 H4 E. unfold gcm_mac_data in E. rewrite !app_assoc in E.
  apply app_inj_tail_len in E as [E Em]; [|now rewrite !be_str_length].
  apply app_inj_tail_len in E as [E Ea]; [|now rewrite !be_str_length].
  apply be_str_inj in Em; [|lia|lia]. apply be_str_inj in Ea; [|lia|lia].
  rewrite <- !app_assoc in E. apply app_inj_len in E as [-> E]; [|lia].
  apply app_inj_len in E as [_ E]; [|reflexivity].
  apply app_inj_len in E as [-> _]; [auto|lia].
Qed.
Lemma gcm_data_bytes aad ct : Forall byte aad -> Forall byte ct -> Forall byte (gcm_mac_data aad ct).
Proof.
  intros Ha Hc.
  assert (P : forall x, Forall byte (pad16 x)).
  { intros x. apply Forall_forall. intros y Hy. apply repeat_spec in Hy. subst. red; lia. }
  unfold gcm_mac_data. repeat (apply Forall_app; split; auto); apply be_str_bytes.
Qed.

(** ** AES-GCM *)
Lemma map_nth_zip (a b : list Z) n : length a = n -> length b = n ->
  zip_with Z.lxor a b = map (fun i => Z.lxor (nth i a 0) (nth i b 0)) (seq 0 n).
Proof.
  intros La Lb. apply (nth_ext_eq _ _ 0).
  - rewrite zip_with_length, map_length, seq_length. lia.
  - rewrite zip_with_length. intros i Hi. rewrite nth_map_seq by lia. apply (nth_zip_with _ _ _ _ 0 0); lia.
Qed.
Lemma gcm_tag_length E iv aad ct : length (gcm_tag E iv aad ct) = 16%nat.
Proof. unfold gcm_tag. now rewrite map_length, seq_length. Qed.
Lemma zeros_block : bytes_n 12 (repeat 0 12).
Proof. split; [reflexivity|]. apply Forall_forall. intros x Hx. apply repeat_spec in Hx. subst. unfold byte; lia. Qed.
Lemma gcm_tag_step alg key iv aad ct : bytes_n (klen alg) key -> bytes_n 12 iv -> Forall byte aad -> Forall byte ct ->
  short aad -> short ct ->
  (let* mac_key := aes_ctr_keyblock key (seq_new 0 12) 0 (nk_of alg) (nr_of alg) alg in
   let* tag_mix := aes_ctr_keyblock key iv 1 (nk_of alg) (nr_of alg) alg in
   let* padded_msg := gcm_pad_aad_msg aad ct in
   let* gk := arr_from_seq 0 16 mac_key in
   let* tag := gmac padded_msg gk in
   let* tb := arr_from_seq 0 16 tag in
   xor_block tb tag_mix) = Ok (gcm_tag (aes_pure alg key) iv aad ct).
Proof.
  intros HK HI HA HC SA SC.
  rewrite keyblock_Ok; [|assumption|exact zeros_block|unfold word32; lia]. cbn [bind].
  rewrite keyblock_Ok; [|assumption|assumption|unfold word32; lia]. cbn [bind].
  rewrite gcm_pad_Ok by assumption. cbn [bind].
  pose proof (ctr_block_block alg key (seq_new 0 12) 0 HK zeros_block) as B0.
  rewrite arr_from_seq_Ok by apply B0. cbn [bind].
  rewrite gmac_Ok; [|now apply gcm_data_bytes|exact B0]. cbn [bind].
  rewrite arr_from_seq_Ok by apply be_str_length. cbn [bind].
  pose proof (ctr_block_block alg key iv 1 HK HI) as B1.
  rewrite xor_block_Ok; [|apply be_str_length|apply B1].
  unfold gcm_tag. apply (f_equal Ok). rewrite (map_nth_zip _ _ 16); [|apply be_str_length|apply B1]. reflexivity.
Qed.
Lemma gcm_encrypt_Ok alg key iv aad msg : bytes_n (klen alg) key -> bytes_n 12 iv -> Forall byte aad -> Forall byte msg ->
  short aad -> short msg ->
  gcm_encrypt_pub key iv aad msg alg =
    Ok (ctr_pure alg key iv 2 msg, gcm_tag (aes_pure alg key) iv aad (ctr_pure alg key iv 2 msg)).
Proof.
  intros HK HI HA HM SA SM. unfold gcm_encrypt_pub. rewrite seq_from_seq_Ok. cbn [bind]. unfold gcm_encrypt.
  pose proof (gcm_tag_step alg key iv aad (ctr_pure alg key iv 2 msg) HK HI HA (ctr_pure_bytes alg key iv 2 msg HK HI HM) SA) as T.
  unfold short in T. rewrite ctr_pure_length in T. specialize (T SM).
  destruct (aes_ctr_keyblock key (seq_new 0 12) 0 _ _ alg) as [k0|]; cbn [bind] in *; [|discriminate].
  destruct (aes_ctr_keyblock key iv 1 _ _ alg) as [k1|]; cbn [bind] in *; [|discriminate].
  unfold aes_encrypt. rewrite counter_mode_Ok by (assumption || (unfold word32; lia)). cbn [bind].
  destruct (gcm_pad_aad_msg _ _) as [p|]; cbn [bind] in *; [|discriminate].
  destruct (arr_from_seq 0 16 k0) as [gk|]; cbn [bind] in *; [|discriminate].
  destruct (gmac p gk) as [t|]; cbn [bind] in *; [|discriminate].
  destruct (arr_from_seq 0 16 t) as [tb|]; cbn [bind] in *; [|discriminate].
  rewrite T. cbn [bind]. rewrite arr_from_seq_Ok by apply gcm_tag_length. reflexivity.
Qed.
Lemma gcm_decrypt_Ok alg key iv aad ct tag : bytes_n (klen alg) key -> bytes_n 12 iv -> Forall byte aad -> Forall byte ct ->
  short aad -> short ct -> length tag = 16%nat ->
  gcm_decrypt_pub key iv aad ct tag alg =
    Ok (if list_eqb (gcm_tag (aes_pure alg key) iv aad ct) tag then Some (ctr_pure alg key iv 2 ct) else None).
Proof.
  intros HK HI HA HM SA SM LT. unfold gcm_decrypt_pub. rewrite seq_from_seq_Ok. cbn [bind]. unfold gcm_decrypt.
  pose proof (gcm_tag_step alg key iv aad ct HK HI HA HM SA SM) as T.
  destruct (aes_ctr_keyblock key (seq_new 0 12) 0 _ _ alg) as [k0|]; cbn [bind] in *; [|discriminate].
  destruct (aes_ctr_keyblock key iv 1 _ _ alg) as [k1|]; cbn [bind] in *; [|discriminate].
  destruct (gcm_pad_aad_msg _ _) as [p|]; cbn [bind] in *; [|discriminate].
  destruct (arr_from_seq 0 16 k0) as [gk|]; cbn [bind] in *; [|discriminate].
  destruct (gmac p gk) as [t|]; cbn [bind] in *; [|discriminate].
  destruct (arr_from_seq 0 16 t) as [tb|]; cbn [bind] in *; [|discriminate].
  rewrite T. cbn [bind]. rewrite arr_from_seq_Ok by exact LT. cbn [bind].
  destruct (list_eqb _ _); [|reflexivity].
  unfold aes_decrypt. rewrite counter_mode_Ok by (assumption || (unfold word32; lia)). reflexivity.
Qed.

(** ** Linearity of GMAC *)
Lemma lxor_mod_pow2 a b n : 0 <= n -> (Z.lxor a b) mod 2 ^ n = Z.lxor (a mod 2 ^ n) (b mod 2 ^ n).
Proof.
  intros Hn. apply Z.bits_inj'. intros i Hi. rewrite Z.lxor_spec.
  destruct (Z.lt_ge_cases i n) as [H|H].
  - rewrite !Z.mod_pow2_bits_low, Z.lxor_spec by lia. reflexivity.
  - rewrite !Z.mod_pow2_bits_high by lia. reflexivity.
Qed.
Lemma lxor_div_pow2 a b n : 0 <= n -> (Z.lxor a b) / 2 ^ n = Z.lxor (a / 2 ^ n) (b / 2 ^ n).
Proof. intros Hn. rewrite <- !Z.shiftr_div_pow2 by lia. apply Z.shiftr_lxor. Qed.
Lemma lxor_radix a b x y n : 0 <= n -> 0 <= a < 2 ^ n -> 0 <= b < 2 ^ n -> 
  Z.lxor (2 ^ n * x + a) (2 ^ n * y + b) = 2 ^ n * Z.lxor x y + Z.lxor a b.
Proof.
  intros Hn Ha Hb. assert (0 < 2 ^ n) by (apply Z.pow_pos_nonneg; lia).
  rewrite (Z.div_mod (Z.lxor (2 ^ n * x + a) (2 ^ n * y + b)) (2 ^ n)) by lia.
  rewrite lxor_mod_pow2, lxor_div_pow2 by lia.
  rewrite !(Z.mul_comm (2 ^ n)), !Z.div_add_l, !(Z.div_small a), !(Z.div_small b), !Z.add_0_r by lia.
  f_equal. rewrite !(Z.add_comm (_ * _)), !Z.mod_add, !Z.mod_small by lia. reflexivity.
Qed.
Lemma be_num_lxor (f g : nat -> Z) l : (forall i, byte (f i)) -> (forall i, byte (g i)) ->
  be_num (map (fun i => Z.lxor (f i) (g i)) l) = Z.lxor (be_num (map f l)) (be_num (map g l)).
Proof.
  intros Hf Hg. induction l as [|i l IH] using rev_ind; [reflexivity|].
  rewrite !map_app. unfold be_num in *. rewrite !fold_left_app. cbn [map fold_left]. rewrite IH.
  symmetry. apply (lxor_radix _ _ _ _ 8); [lia|apply Hf|apply Hg].
Qed.
Lemma ghash_lxor h m m' : Forall byte m -> Forall byte m' -> length m = length m' -> 
  ghash h (zip_with Z.lxor m m') = Z.lxor (ghash h m) (ghash h m').
Proof.
  intros Hm Hm' L. unfold ghash. rewrite zip_with_length, <- L, Nat.min_id.
  set (n := ((length m + 15) / 16)%nat). clearbody n.
  assert (B : forall i, ghash_block (zip_with Z.lxor m m') i = Z.lxor (ghash_block m i) (ghash_block m' i)).
  { intros i. unfold ghash_block. rewrite <- be_num_lxor by (intros; now apply nth_byte). f_equal.
    apply map_ext. intros j. destruct (Nat.lt_ge_cases (16 * i + j) (length m)) as [H|H].
    - apply nth_zip_with; lia.
    - rewrite !nth_overflow by (rewrite ?zip_with_length; lia). reflexivity. }
  induction (seq 0 n) as [|i s IH]; [reflexivity|]. cbn [map gf_sum fold_right] in *. unfold gf_sum in IH. rewrite IH, B, gcm_mul_lxor_l.
  lxor_solve.
Qed.
Lemma be_str_lxor n x y : be_str n (Z.lxor x y) = zip_with Z.lxor (be_str n x) (be_str n y).
Proof.
  rewrite (map_nth_zip _ _ n) by apply be_str_length. unfold be_str.
  apply map_ext_in. intros i Hi. apply in_seq in Hi. rewrite !nth_map_seq by lia.
  replace (256 ^ Z.of_nat (n - 1 - i)) with (2 ^ (8 * Z.of_nat (n - 1 - i)))
    by (rewrite Z.pow_mul_r by lia; reflexivity).
  change 256 with (2 ^ 8). rewrite lxor_div_pow2, lxor_mod_pow2 by lia. reflexivity.
Qed.
