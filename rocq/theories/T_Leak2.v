(** What ChaCha20-Poly1305 and X25519 make public through declassify (C93). *)
From Coq Require Import ZArith List Bool Arith Lia.
From Verif Require Import Base P_Base M_Int P_Int M_Seq M_Bytes M_Vec P_Seq P_Bytes P_Word P_Stream S_ChaCha M_BigInt M_NatMod P_BigInt
  M_Leak T_Leak M_ChaCha P_ChaCha P_Poly1305 T_ChaCha S_X25519 M_X25519 P_X25519M T_X25519 M_Leak2.
Import ListNotations.
Open Scope Z_scope.
Ltac conjs := repeat match goal with |- _ /\ _ => split end.

(** ** The traced functions compute what the plain ones do *)
Lemma literal_er b n x : fst (nm_from_secret_literal_t b n x) = nm_from_secret_literal b n x.
Proof. reflexivity. Qed.
Lemma literal_trace b n x : snd (nm_from_secret_literal_t b n x) = [x].
Proof. reflexivity. Qed.
Lemma encode_r_er r : fst (encode_r_t r) = encode_r r.
Proof. unfold encode_r_t, encode_r. cbv zeta. erase. apply literal_er. Qed.
Lemma encode_er b : fst (encode_t b) = encode b.
Proof. unfold encode_t, encode. cbv zeta. erase. apply literal_er. Qed.
Lemma poly_inner_er m r : fst (poly_inner_t m r) = poly_inner m r.
Proof. unfold poly_inner_t, poly_inner. cbv zeta. erase. apply encode_er. Qed.
Lemma poly_er m k : fst (poly_t m k) = poly m k.
Proof. unfold poly_t, poly. cbv zeta. erase; first [apply literal_er|apply encode_r_er|apply poly_inner_er]. Qed.
Lemma decode_scalar_er s : fst (decode_scalar_t s) = decode_scalar s.
Proof. unfold decode_scalar_t, decode_scalar. erase. reflexivity. Qed.
Lemma decode_point_er s : fst (decode_point_t s) = decode_point s.
Proof. unfold decode_point_t, decode_point. erase. reflexivity. Qed.
Theorem C93_same_result : forall key iv aad msg tag s p,
  fst (cp_encrypt_t key iv aad msg) = cp_encrypt key iv aad msg /\
  fst (cp_decrypt_t key iv aad msg tag) = cp_decrypt key iv aad msg tag /\
  fst (poly_mac_t msg key iv) = poly_mac msg key iv /\
  fst (scalarmult_t s p) = scalarmult s p.
Proof.
  intros. conjs.
  - unfold cp_encrypt_t, cp_encrypt. erase. apply poly_er.
  - unfold cp_decrypt_t, cp_decrypt. erase; [apply poly_er|]. destruct (list_eqb _ _); [|reflexivity]. erase.
  - unfold poly_mac_t, poly_mac. erase. apply poly_er.
  - unfold scalarmult_t, scalarmult. erase; [apply decode_scalar_er|apply decode_point_er].
Qed.
Print Assumptions C93_same_result.

(** ** The record of Poly1305 *)
(** s, the clamped r and every 16-byte block of the message, as numbers. *)
Definition mac_record (m key : list Z) : list Z :=
  le_num (firstn 16 (skipn 16 key)) :: le_num (clamp (firstn 16 key)) ::
  map (fun i => le_num (firstn 16 (skipn (16 * i) m))) (seq 0 ((length m + 15) / 16)).

Lemma encode_r_trace r : bytes_n 16 r -> snd (encode_r_t r) = [le_num (clamp r)].
Proof.
  intros H. unfold encode_r_t. cbv zeta.
  rewrite (trace_q _ _ r).
  2:{ rewrite (update_sub_Ok 0) by (rewrite ?seq_new_length; destruct H; lia).
      change (firstn 0 (seq_new 0 16)) with (@nil Z). change (skipn (0 + 16) (seq_new 0 16)) with (@nil Z).
      now rewrite app_nil_l, app_nil_r, skipn_O, firstn_all2 by (destruct H; lia). }
  destruct (u128_load r H) as [E R]. rewrite (trace_q _ _ _ E).
  rewrite literal_trace. cbn [app].
  unfold op_and. now rewrite clamp_num.
Qed.
Lemma encode_trace b : Forall byte b -> (length b <= 16)%nat -> snd (encode_t b) = [le_num b].
Proof.
  intros HF HL. unfold encode_t. cbv zeta. rewrite Nat.min_r by lia.
  assert (Hb : bytes_n 16 (b ++ repeat 0 (16 - length b))).
  { split; [rewrite app_length, repeat_length; lia|]. apply Forall_app. split; [assumption|].
    apply Forall_forall. intros x Hx. apply repeat_spec in Hx. subst. red; lia. }
  rewrite (trace_q _ _ (b ++ repeat 0 (16 - length b))).
  2:{ rewrite (update_sub_Ok 0) by (rewrite ?seq_new_length; lia). change (firstn 0 (seq_new 0 16)) with (@nil Z).
      rewrite app_nil_l, skipn_O, firstn_all. unfold seq_new. now rewrite skipn_repeat. }
  destruct (u128_load _ Hb) as [E R]. rewrite (trace_q _ _ _ E). rewrite le_val_zeros in *.
  rewrite (trace_Ok _ _ (le_val b)).
  2:{ rewrite literal_er. now apply fe_literal. }
  rewrite literal_trace. cbn [app].
  rewrite snd_tbind. cbn [quiet fst snd app]. rewrite (P_Poly1305.le_num_val b). f_equal.
  destruct (bpow2 _ _ _); [|reflexivity]. rewrite snd_tbind. cbn [quiet fst snd app]. now destruct (nm_of_base _ _ _).
Qed.
Lemma poly_inner_trace m r : Forall byte m ->
  snd (poly_inner_t m r) = map (fun i => le_num (firstn 16 (skipn (16 * i) m))) (seq 0 ((length m + 15) / 16)).
Proof.
  intros HF. unfold poly_inner_t. cbv zeta.
  rewrite (trace_q _ _ 0) by (rewrite nm_from_literal_Ok by (first [exact fe_bits_pos | exact fe_mod_range | split; [lia|discriminate]]); reflexivity).
  rewrite (trace_for (fun _ _ => True) (fun i => [le_num (firstn 16 (skipn (16 * i) m))])).
  - induction (seq 0 _) as [|x l IH]; [reflexivity|]. cbn [flat_map map app]. now rewrite IH.
  - exact I.
  - intros i s Hi _.
    assert (Hlt : (16 * i < length m)%nat).
    { pose proof (num_chunks_bounds (length m) 16 ltac:(lia)) as (B1 & B2 & B3).
      replace (length m + 16 - 1)%nat with (length m + 15)%nat in * by lia.
      destruct (Nat.eq_dec (length m) 0) as [Z|Z]; [|lia]. rewrite B2 in Hi by assumption. lia. }
    set (bl := Nat.min 16 (length m - 16 * i)). set (b := firstn 16 (skipn (16 * i) m)).
    assert (E : update_sub (seq_new 0 bl) 0 m (16 * i) bl = Ok b).
    { rewrite (update_sub_Ok 0) by (rewrite ?seq_new_length; lia).
      change (firstn 0 (seq_new 0 bl)) with (@nil Z). rewrite app_nil_l. cbn [Nat.add].
      unfold seq_new. rewrite skipn_repeat, Nat.sub_diag. cbn [repeat]. rewrite app_nil_r. f_equal.
      unfold bl, b. rewrite <- (skipn_length (16 * i) m).
      destruct (Nat.le_ge_cases 16 (length (skipn (16 * i) m))).
      - now rewrite Nat.min_l by lia.
      - rewrite Nat.min_r by lia. now rewrite !firstn_all2 by lia. }
    assert (Fb : Forall byte b) by (now apply Forall_firstn, Forall_skipn).
    assert (Lb : (length b <= 16)%nat) by (unfold b; rewrite firstn_length; lia).
    destruct (encode_Ok b Fb Lb) as [Ee _].
    rewrite (trace_q _ _ _ E). rewrite (trace_Ok _ _ (le_num (b ++ [1]))) by (rewrite encode_er; exact Ee).
    rewrite fst_tbind. cbn [quiet fst]. rewrite E. cbn [bind]. rewrite fst_tbind, encode_er, Ee. cbn [bind].
    rewrite fst_tbind. cbn [quiet fst]. rewrite nm_add_Ok by (first [exact fe_bits_pos | exact fe_mod_range]). cbn [bind].
    rewrite nm_mul_Ok by (first [exact fe_bits_pos | exact fe_mod_range]).
    eexists. split; [reflexivity|]. split; [exact I|].
    rewrite encode_trace by assumption. reflexivity.
Qed.
Lemma poly_trace m key : bytes_n 32 key -> Forall byte m -> snd (poly_t m key) = mac_record m key.
Proof.
  intros [KL KF] HF. unfold poly_t. cbv zeta.
  assert (B1 : bytes_n 16 (firstn 16 (skipn 16 key))).
  { split; [rewrite firstn_length, skipn_length; lia|]. now apply Forall_firstn, Forall_skipn. }
  assert (B0 : bytes_n 16 (firstn 16 key)).
  { split; [rewrite firstn_length; lia|]. now apply Forall_firstn. }
  rewrite (trace_q _ _ (firstn 16 (skipn 16 key))).
  2:{ unfold arr_from_sub. change (assert_ (16 =? 16)%nat) with (Ok tt). cbn [bind].
      rewrite (update_sub_Ok 0) by (rewrite ?seq_new_length; lia).
      change (firstn 0 (seq_new 0 16)) with (@nil Z). change (skipn (0 + 16) (seq_new 0 16)) with (@nil Z).
      now rewrite app_nil_l, app_nil_r. }
  destruct (u128_load _ B1) as [E R]. rewrite (trace_q _ _ _ E).
  rewrite (trace_Ok _ _ (le_val (firstn 16 (skipn 16 key)))).
  2:{ rewrite literal_er. now apply fe_literal. }
  rewrite literal_trace. cbn [app].
  unfold mac_record. rewrite (P_Poly1305.le_num_val (firstn 16 (skipn 16 key))). f_equal.
  rewrite (trace_q _ _ (firstn 16 key)).
  2:{ unfold arr_from_sub_range, arr_from_sub. rewrite usub_Ok by lia. cbn [bind].
      change (assert_ (16 - 0 =? 16)%nat) with (Ok tt). cbn [bind].
      rewrite (update_sub_Ok 0) by (rewrite ?seq_new_length; lia).
      change (firstn 0 (seq_new 0 16)) with (@nil Z). change (skipn (0 + (16 - 0)) (seq_new 0 16)) with (@nil Z).
      rewrite app_nil_l, app_nil_r. reflexivity. }
  rewrite (trace_Ok _ _ (le_num (clamp (firstn 16 key)))) by (rewrite encode_r_er; now apply encode_r_Ok).
  rewrite encode_r_trace by exact B0. cbn [app]. f_equal.
  rewrite (trace_Ok _ _ (rfc_acc m (le_num (clamp (firstn 16 key))))) by (rewrite poly_inner_er; now apply poly_inner_Ok).
  rewrite poly_inner_trace by exact HF. rewrite snd_tbind. cbn [quiet fst snd app].
  destruct (nm_add _ _ _ _); now rewrite app_nil_r.
Qed.
Lemma cp_encrypt_trace key iv aad msg : bytes_n 32 key -> bytes_n 12 iv -> Forall byte aad -> Forall byte msg ->
  Z.of_nat (length aad) < 2 ^ 64 -> Z.of_nat (length msg) < 2 ^ 64 ->
  snd (cp_encrypt_t key iv aad msg) = mac_record (rfc_mac_data aad (cc key iv msg)) (otk key iv).
Proof.
  intros Hk Hi Ha Hm La Lm. unfold cp_encrypt_t.
  pose proof (mac_key_Ok key iv Hk Hi) as E. apply bind_Ok in E. destruct E as (kb & E1 & E2).
  rewrite (trace_q _ _ _ E1), (trace_q _ _ _ E2).
  rewrite (trace_q _ _ (cc key iv msg)) by (now apply chacha_Ok).
  rewrite (trace_q _ _ _ (pad_aad_msg_Ok aad (cc key iv msg) La ltac:(rewrite cc_length; exact Lm))).
  assert (F : Forall byte (rfc_mac_data aad (cc key iv msg))) by (apply mac_data_bytes; [assumption|now apply cc_bytes]).
  rewrite snd_tbind, poly_trace by (exact F || apply otk_bytes). destruct (fst _); cbn [quiet snd]; apply app_nil_r.
Qed.

(** *** Encryption: the exact record.  It holds both halves of the one-time key; of the
    ChaCha20 key it shows nothing but the first 32 key-stream bytes of counter 0. *)
Theorem C93_encrypt_record : forall key iv aad msg,
  bytes_n 32 key -> bytes_n 12 iv -> Forall byte aad -> Forall byte msg ->
  Z.of_nat (length aad) < 2 ^ 64 -> Z.of_nat (length msg) < 2 ^ 64 ->
  exists ct tag ks, cp_encrypt key iv aad msg = Ok (ct, tag) /\ block key 0 iv = Ok ks /\
    snd (cp_encrypt_t key iv aad msg) = mac_record (rfc_mac_data aad ct) (firstn 32 ks).
Proof.
  intros key iv aad msg Hk Hi Ha Hm La Lm. eexists _, _, (rfc_block key 0 iv).
  split; [now apply cp_encrypt_Ok|]. split; [apply block_Ok; trivial; split; [lia|reflexivity]|].
  rewrite cp_encrypt_trace by assumption. reflexivity.
Qed.
Print Assumptions C93_encrypt_record.

(** The tag an observer computes from a record, for data of their choice. *)
Definition forged_tag (record aad ct : list Z) : list Z :=
  let s := nth 0 record 0 in
  let r := nth 1 record 0 in
  let v := (rfc_acc (rfc_mac_data aad ct) r + s) mod P1305 in
  map (fun i => (v / 2 ^ (8 * Z.of_nat i)) mod 2 ^ 8) (seq 0 16).
Lemma str16 v : map (fun i => (v / 2 ^ (8 * Z.of_nat i)) mod 2 ^ 8) (seq 0 16) = le_bytes 16 v.
Proof.
  apply (nth_ext_eq _ _ 0).
  - now rewrite map_length, seq_length, le_bytes_length.
  - intros j Hj. rewrite map_length, seq_length in Hj.
    rewrite nth_map_seq, nth_le_bytes by lia. rewrite pow256_2. reflexivity.
Qed.
(** *** From the record of one encryption, a valid tag for every other associated data and
    cipher text under the same key and nonce. *)
Theorem C93_record_forges : forall key iv aad msg aad' ct',
  bytes_n 32 key -> bytes_n 12 iv -> Forall byte aad -> Forall byte msg -> Forall byte aad' -> Forall byte ct' ->
  Z.of_nat (length aad) < 2 ^ 64 -> Z.of_nat (length msg) < 2 ^ 64 ->
  Z.of_nat (length aad') < 2 ^ 64 -> Z.of_nat (length ct') < 2 ^ 64 ->
  exists m, cp_decrypt key iv aad' ct' (forged_tag (snd (cp_encrypt_t key iv aad msg)) aad' ct') = Ok (Some m) /\
    chacha key iv m = Ok ct'.
Proof.
  intros key iv aad msg aad' ct' Hk Hi Ha Hm Ha' Hc La Lm La' Lc. exists (cc key iv ct').
  rewrite cp_encrypt_trace by assumption. unfold forged_tag, mac_record. cbn [nth]. rewrite str16.
  rewrite cp_decrypt_Ok by assumption.
  replace (list_eqb _ _) with true by (symmetry; now apply list_eqb_spec).
  split; [reflexivity|]. rewrite chacha_Ok by (try assumption). f_equal. apply cc_invol.
Qed.
Print Assumptions C93_record_forges.

(** ** X25519 *)
Lemma decode_scalar_idem v : let k := 2 ^ 254 + 8 * (v mod 2 ^ 254 / 8) in 2 ^ 254 + 8 * (k mod 2 ^ 254 / 8) = k.
Proof.
  cbv zeta. pose proof (Z.mod_pos_bound v (2 ^ 254) ltac:(reflexivity)) as R. set (m := v mod 2 ^ 254) in *.
  pose proof (Z.mul_div_le m 8 ltac:(lia)). pose proof (Z.div_pos m 8 ltac:(lia) ltac:(lia)).
  replace (2 ^ 254 + 8 * (m / 8)) with (8 * (m / 8) + 1 * 2 ^ 254) at 1 by lia.
  rewrite Z_mod_plus_full, Z.mod_small by lia. rewrite (Z.mul_comm 8 (m / 8)), Z.div_mul by lia. lia.
Qed.
Lemma le_decode_val l : le_decode l = le_val l.
Proof. induction l as [|x l IH]; [reflexivity|]. cbn [le_decode le_val]. now rewrite IH. Qed.

(** *** The record of scalarmult is 64 bytes: a secret and a point; that secret gives the same
    result as the original one with every point.  Whoever sees the record of one exchange can
    carry out every other exchange of the owner of the secret. *)
Theorem C93_scalarmult_record : forall s p, bytes32 s -> bytes32 p ->
  exists k u, snd (scalarmult_t s p) = k ++ u /\ bytes32 k /\ bytes32 u /\
    (forall p', bytes32 p' -> scalarmult k p' = scalarmult s p') /\
    (forall s', bytes32 s' -> scalarmult s' u = scalarmult s' p).
Proof.
  intros s p [Ls Fs] [Lp Fp].
  destruct (mask_scalar_Ok s Ls Fs) as (k & Ek & Lk & Bk & Vk).
  set (u := set_nth p 31 (Z.land (nth 31 p 0) 127)).
  assert (Eu : upd p 31 (op_and (nth 31 p 0) 127) = Ok u) by (apply upd_Ok; lia).
  assert (Lu : length u = 32%nat) by (unfold u; rewrite set_nth_length; exact Lp).
  exists k, u.
  assert (Hk : bytes32 k) by (split; [exact Lk|exact Bk]).
  assert (Hp31 : 0 <= nth 31 p 0 < 256) by (rewrite Forall_forall in Fp; apply Fp, nth_In; lia).
  assert (Hu : bytes32 u).
  { split; [exact Lu|]. apply Forall_forall. intros x Hx. apply (In_nth _ _ 0) in Hx as (j & Hj & <-).
    unfold u in *. rewrite set_nth_length in Hj. rewrite nth_set_nth, Lp.
    destruct (Nat.eqb_spec j 31) as [->|N]; cbn [andb Nat.ltb Nat.leb].
    - change 256 with (2 ^ 8). apply land_range; [lia|lia|split; [lia|reflexivity]].
    - rewrite Forall_forall in Fp. apply Fp, nth_In. lia. }
  split; [|split; [exact Hk|split; [exact Hu|split]]].
  - unfold scalarmult_t.
    rewrite (trace_Ok _ _ (rfc_decode_scalar s)) by (rewrite decode_scalar_er; now apply decode_scalar_Ok).
    unfold decode_scalar_t at 1. rewrite (trace_q _ _ _ Ek). unfold nm_from_byte_seq_le_t at 1. cbn [snd].
    f_equal; [unfold declassify; apply map_id|].
    rewrite (trace_Ok _ _ _ (eq_trans (decode_point_er p) (decode_point_Ok p Lp Fp))).
    rewrite snd_tbind. cbn [quiet fst snd app].
    replace (match x_montgomery_ladder _ _ with Ok _ => _ | Panic _ => _ end) with (@nil Z) by (now destruct (x_montgomery_ladder _ _)).
    rewrite app_nil_r. unfold decode_point_t.
    rewrite (trace_q _ _ (nth 31 p 0)) by (apply idx_Ok; lia). rewrite (trace_q _ _ _ Eu).
    rewrite snd_tbind. unfold nm_from_byte_seq_le_t at 1. cbn [snd].
    replace (map declassify u) with u by (unfold declassify; symmetry; apply map_id).
    destruct (fst _); [|apply app_nil_r]. rewrite snd_tbind. cbn [quiet fst snd]. destruct (nm_from_literal _ _ _); apply app_nil_r.
  - intros p' Hp'. rewrite !C59_scalarmult_is_rfc7748 by (assumption || (split; assumption)). f_equal.
    unfold rfc_x25519. do 2 f_equal. unfold rfc_decode_scalar at 1. rewrite le_decode_val, Vk. apply decode_scalar_idem.
  - intros s' Hs'. unfold scalarmult. destruct (decode_scalar s') as [sc|]; [|reflexivity]. cbn [bind].
    replace (decode_point u) with (decode_point p); [reflexivity|].
    unfold decode_point. rewrite (idx_Ok p 31 0), (idx_Ok u 31 0) by lia. cbn [bind]. rewrite Eu.
    assert (N31 : nth 31 u 0 = Z.land (nth 31 p 0) 127).
    { unfold u. rewrite nth_set_nth, Lp. reflexivity. }
    replace (upd u 31 (op_and (nth 31 u 0) 127)) with (Ok u); [reflexivity|].
    rewrite upd_Ok by lia. f_equal. apply (nth_ext_eq _ _ 0); [now rewrite set_nth_length|].
    intros j Hj. rewrite nth_set_nth, Lu. destruct (Nat.eqb_spec j 31) as [->|N]; [|reflexivity].
    cbn [andb Nat.ltb Nat.leb]. rewrite N31. unfold op_and. rewrite <- Z.land_assoc. reflexivity.
Qed.
Print Assumptions C93_scalarmult_record.

(** *** So what is made public does depend on the secrets. *)
Theorem C93_secret_independent_refuted :
  (exists key key' iv aad msg, bytes_n 32 key /\ bytes_n 32 key' /\ bytes_n 12 iv /\
     snd (cp_encrypt_t key iv aad msg) <> snd (cp_encrypt_t key' iv aad msg)) /\
  (exists s s' p, bytes32 s /\ bytes32 s' /\ bytes32 p /\ snd (scalarmult_t s p) <> snd (scalarmult_t s' p)).
Proof.
  split.
  - exists (repeat 0 32), (repeat 1 32), (repeat 0 12), [], []. conjs; try (apply bytes_check; vm_compute; reflexivity).
    vm_compute. discriminate.
  - exists kat_x_s, kat_x_u, base9. conjs; try (apply bytes32_check; vm_compute; reflexivity).
    intros E. apply (f_equal (fun l => nth 0 l 0)) in E. revert E.
    unfold scalarmult_t. rewrite !snd_tbind. unfold decode_scalar_t. rewrite !snd_tbind.
    set (x := mask_scalar kat_x_s). vm_compute in x. subst x.
    set (x := mask_scalar kat_x_u). vm_compute in x. subst x. cbn. discriminate.
Qed.
Print Assumptions C93_secret_independent_refuted.
(** the record of the RFC's encryption example and a tag forged from it *)
Example C93_ex : length (snd (cp_encrypt_t kat_aead_key kat_aead_iv kat_aead_aad kat_aead_msg)) = 12%nat /\
  cp_decrypt kat_aead_key kat_aead_iv [] [1; 2; 3]
    (forged_tag (snd (cp_encrypt_t kat_aead_key kat_aead_iv kat_aead_aad kat_aead_msg)) [] [1; 2; 3]) = Ok (Some [158; 121; 234]).
Proof. vm_compute. split; reflexivity. Qed.
