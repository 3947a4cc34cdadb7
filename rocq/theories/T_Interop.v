(** ChaCha20-Poly1305 and other implementations of RFC 8439 (C103). *)
From Coq Require Import ZArith List Bool Arith Lia.
From Verif Require Import Base P_Base M_Int P_Int M_Seq P_Seq M_Bytes P_Bytes P_Word P_Stream S_ChaCha M_ChaCha P_ChaCha P_Poly1305
  T_ChaCha.
Import ListNotations.
Local Open Scope Z_scope.

(** ** What a conforming sender transmits, RFC 8439 section 2.8 *)
(** The one-time key of section 2.6. *)
Definition rfc_otk (key nonce : list Z) : list Z := map (rfc_block_byte key 0 nonce) (seq 0 32).
Definition rfc_sealed (key nonce aad msg ct tag : list Z) : Prop :=
  length ct = length msg /\ (forall j, (j < length msg)%nat -> nth j ct 0 = rfc_cipher_byte key 1 nonce msg j) /\
  bytes_n 16 tag /\ le_num tag = rfc_tag_num (rfc_mac_data aad ct) (rfc_otk key nonce).
(** The accumulator plus s, before the RFC drops all but the low 128 bits. *)
Definition rfc_total (key nonce aad ct : list Z) : Z :=
  rfc_acc (rfc_mac_data aad ct) (le_num (clamp (firstn 16 (rfc_otk key nonce)))) +
  le_num (firstn 16 (skipn 16 (rfc_otk key nonce))).

Lemma otk_rfc key iv : rfc_otk key iv = otk key iv.
Proof. unfold rfc_otk, otk, rfc_block. rewrite firstn_map. reflexivity. Qed.
Lemma total_eq key iv aad ct :
  rfc_total key iv aad ct = rfc_acc (rfc_mac_data aad ct) (r_of (otk key iv)) + s_of (otk key iv).
Proof. unfold rfc_total, r_of, s_of. rewrite otk_rfc. reflexivity. Qed.
Lemma s_range key iv : 0 <= s_of (otk key iv) < 2 ^ 128.
Proof. exact (proj2 (poly_Ok [] (otk key iv) (otk_bytes key iv) (Forall_nil _))). Qed.
Lemma total_range key iv aad ct : 0 <= rfc_total key iv aad ct < P1305 + 2 ^ 128.
Proof.
  rewrite total_eq. pose proof (rfc_acc_range (rfc_mac_data aad ct) (r_of (otk key iv))). pose proof (s_range key iv). lia.
Qed.
Lemma tag_num_total key iv aad ct : rfc_tag_num (rfc_mac_data aad ct) (rfc_otk key iv) = rfc_total key iv aad ct mod 2 ^ 128.
Proof. reflexivity. Qed.
Lemma cc_rfc key iv m j : (j < length m)%nat -> nth j (cc key iv m) 0 = rfc_cipher_byte key 1 iv m j.
Proof.
  intros Hj. unfold cc, rfc_cipher_byte. rewrite nth_xor_ks by assumption.
  rewrite nth_rfc_block by (apply Nat.mod_upper_bound; lia). reflexivity.
Qed.
Lemma sealed_ct key iv aad msg ct tag : rfc_sealed key iv aad msg ct tag -> ct = cc key iv msg.
Proof.
  intros (L & C & _). apply (nth_ext _ _ 0 0); [now rewrite cc_length|]. intros j Hj. rewrite L in Hj.
  rewrite cc_rfc by exact Hj. now apply C.
Qed.
Lemma le_num_inj16 a b : bytes_n 16 a -> bytes_n 16 b -> le_num a = le_num b -> a = b.
Proof.
  intros [La Fa] [Lb Fb] E. rewrite !le_num_val in E.
  apply le_val_inj; [now rewrite La, Lb|apply bytes_is, Fa|apply bytes_is, Fb|exact E].
Qed.
Lemma cp_tag_bytes key iv aad ct : bytes_n 16 (cp_tag key iv aad ct).
Proof. split; [apply le_bytes_length|apply le_bytes_is_bytes]. Qed.
Lemma mod_total t : 0 <= t < P1305 + 2 ^ 128 -> (t mod P1305) mod 2 ^ 128 = (if t <? P1305 then t else t + 5) mod 2 ^ 128.
Proof.
  intros H. assert (EP : P1305 = 4 * 2 ^ 128 - 5) by reflexivity. destruct (Z.ltb_spec t P1305).
  - now rewrite (Z.mod_small t P1305) by lia.
  - replace (t mod P1305) with (t + 5 + (-4) * 2 ^ 128); [apply Z.mod_add; lia|]. apply (Z.mod_unique _ _ 1); lia.
Qed.
Lemma cp_tag_num key iv aad ct : le_num (cp_tag key iv aad ct) =
  (if rfc_total key iv aad ct <? P1305 then rfc_total key iv aad ct else rfc_total key iv aad ct + 5) mod 2 ^ 128.
Proof.
  rewrite <- mod_total by apply total_range. unfold cp_tag. rewrite le_num_val, le_val_le_bytes, total_eq. reflexivity.
Qed.

(** ** Sealing *)
(** The code's ciphertext is always the RFC's; its tag is the RFC's below the modulus and the RFC's plus 5 from the modulus on. *)
Theorem C103_seal : forall key iv aad msg, bytes_n 32 key -> bytes_n 12 iv -> Forall byte aad -> Forall byte msg ->
  Z.of_nat (length aad) < 2 ^ 64 -> Z.of_nat (length msg) < 2 ^ 64 ->
  exists ct tag, cp_encrypt key iv aad msg = Ok (ct, tag) /\
    (rfc_total key iv aad ct < P1305 -> rfc_sealed key iv aad msg ct tag) /\
    (P1305 <= rfc_total key iv aad ct -> ~ rfc_sealed key iv aad msg ct tag /\
       forall tag', rfc_sealed key iv aad msg ct tag' -> le_num tag = (le_num tag' + 5) mod 2 ^ 128).
Proof.
  intros key iv aad msg K I A M LA LM. exists (cc key iv msg), (cp_tag key iv aad (cc key iv msg)).
  split; [now apply cp_encrypt_Ok|]. pose proof (cp_tag_num key iv aad (cc key iv msg)) as T. split; intros C.
  - split; [apply cc_length|]. split; [intros j Hj; now apply cc_rfc|]. split; [apply cp_tag_bytes|].
    rewrite tag_num_total, T. now rewrite (proj2 (Z.ltb_lt _ _) C).
  - rewrite (proj2 (Z.ltb_ge _ _) C) in T. split.
    + intros (_ & _ & _ & E). rewrite tag_num_total, T in E.
      assert (D : (rfc_total key iv aad (cc key iv msg) + 5 - rfc_total key iv aad (cc key iv msg)) mod 2 ^ 128 = 0).
      { now rewrite Zminus_mod, E, Z.sub_diag. }
      replace (rfc_total key iv aad (cc key iv msg) + 5 - rfc_total key iv aad (cc key iv msg)) with 5 in D by lia. discriminate D.
    + intros tag' (_ & _ & _ & E). rewrite E, T, tag_num_total. now rewrite Zplus_mod_idemp_l.
Qed.

(** ** Opening *)
(** What a conforming sender transmits is opened below the modulus and refused from the modulus on. *)
Theorem C103_open : forall key iv aad msg ct tag, bytes_n 32 key -> bytes_n 12 iv -> Forall byte aad -> Forall byte msg ->
  Z.of_nat (length aad) < 2 ^ 64 -> Z.of_nat (length msg) < 2 ^ 64 -> rfc_sealed key iv aad msg ct tag ->
  (rfc_total key iv aad ct < P1305 -> cp_decrypt key iv aad ct tag = Ok (Some msg)) /\
  (P1305 <= rfc_total key iv aad ct -> cp_decrypt key iv aad ct tag = Ok None).
Proof.
  intros key iv aad msg ct tag K I A M LA LM S. pose proof (sealed_ct _ _ _ _ _ _ S) as EC.
  destruct S as (L & C & B & E). rewrite tag_num_total in E.
  assert (F : Forall byte ct) by (rewrite EC; now apply cc_bytes). rewrite <- L in LM.
  rewrite (cp_decrypt_Ok key iv aad ct tag K I A F LA LM). pose proof (cp_tag_num key iv aad ct) as T. split; intros H.
  - rewrite (proj2 (Z.ltb_lt _ _) H), <- E in T. apply le_num_inj16 in T; [|apply cp_tag_bytes|exact B].
    rewrite (proj2 (list_eqb_spec _ _) T). apply (f_equal (fun m => Ok (Some m))). now rewrite EC, cc_invol.
  - rewrite (proj2 (Z.ltb_ge _ _) H) in T. destruct (list_eqb _ _) eqn:Q; [|reflexivity]. exfalso.
    apply list_eqb_spec in Q. rewrite Q, E in T. revert T. generalize (rfc_total key iv aad ct). intros t T.
    assert (D : (t - (t + 5)) mod 2 ^ 128 = 0) by now rewrite Zminus_mod, T, Z.sub_diag.
    replace (t - (t + 5)) with (-5) in D by lia. discriminate D.
Qed.

(** ** How often *)
(** The numbers 0 .. n-1. *)
Definition below (n : Z) : list Z := map Z.of_nat (seq 0 (Z.to_nat n)).
Definition count {A} (f : A -> bool) (l : list A) : Z := Z.of_nat (length (filter f l)).
Lemma count_cons {A} (f : A -> bool) x l : count f (x :: l) = (if f x then 1 else 0) + count f l.
Proof. unfold count. cbn [filter]. destruct (f x); cbn [length]; lia. Qed.
Lemma count_app {A} (f : A -> bool) l l' : count f (l ++ l') = count f l + count f l'.
Proof. unfold count. rewrite filter_app, app_length. lia. Qed.
Lemma below_S k : map Z.of_nat (seq 0 (S k)) = map Z.of_nat (seq 0 k) ++ [Z.of_nat k].
Proof. rewrite seq_S, map_app. reflexivity. Qed.
Lemma count_ge p a k : a < p -> count (fun s => p <=? a + s) (map Z.of_nat (seq 0 k)) = Z.max 0 (a + Z.of_nat k - p).
Proof.
  intros H. induction k as [|k IH]; [cbn; lia|]. rewrite below_S, count_app, IH, count_cons. unfold count. cbn [filter length].
  destruct (Z.leb_spec p (a + Z.of_nat k)); lia.
Qed.
Lemma count_pairs p m k : 0 <= m <= p -> Z.of_nat k <= p ->
  2 * count (fun '(a, s) => p <=? a + s) (list_prod (map Z.of_nat (seq 0 k)) (below m)) =
  Z.max 0 (Z.of_nat k + m - p) * (Z.max 0 (Z.of_nat k + m - p) - 1).
Proof.
  intros Hm. induction k as [|k IH]; intros Hk.
  { cbn [seq map list_prod]. unfold count. cbn [filter length]. replace (Z.max 0 (Z.of_nat 0 + m - p)) with 0 by lia. reflexivity. }
  assert (P1 : forall (l : list Z) x (r : list Z), list_prod (l ++ [x]) r = list_prod l r ++ map (fun y => (x, y)) r).
  { intros l x r. induction l as [|y l IHl]; cbn [app list_prod]; [now rewrite app_nil_r|]. now rewrite IHl, app_assoc. }
  assert (C1 : forall x l, count (fun '(a, s) => p <=? a + s) (map (fun y => (x, y)) l) = count (fun s => p <=? x + s) l).
  { intros x l. induction l as [|y l IHl]; [reflexivity|]. cbn [map]. now rewrite !count_cons, IHl. }
  rewrite below_S, P1, count_app, Z.mul_add_distr_l, IH, C1 by lia. unfold below. rewrite count_ge, Z2Nat.id by lia.
  destruct (Z.le_gt_cases 0 (Z.of_nat k + m - p)).
  - rewrite !Z.max_r by lia. nia.
  - rewrite !Z.max_l by lia. replace (Z.max 0 (Z.of_nat (S k) + m - p)) with 0 by lia. reflexivity.
Qed.
(** Fix everything but s: the tag is wrong for the values of s from P1305 - acc on, so for acc + 2^128 - P1305 of the 2^128. *)
Theorem C103_count_s : forall acc, 0 <= acc < P1305 ->
  count (fun s => P1305 <=? acc + s) (below (2 ^ 128)) = Z.max 0 (acc + 2 ^ 128 - P1305).
Proof.
  intros acc H. unfold below. rewrite count_ge by lia. rewrite Z2Nat.id; [reflexivity|]. apply Z.pow_nonneg. lia.
Qed.
(** Among all pairs of an accumulator and an s there are 2^127 (2^128 - 1) that give a wrong tag: one in eight. *)
Theorem C103_count_pairs :
  count (fun '(acc, s) => P1305 <=? acc + s) (list_prod (below P1305) (below (2 ^ 128))) = 2 ^ 127 * (2 ^ 128 - 1).
Proof.
  assert (H : forall p m, 0 <= m <= p -> 2 * count (fun '(acc, s) => p <=? acc + s) (list_prod (below p) (below m)) = m * (m - 1)).
  { intros p m Hm. unfold below at 1. rewrite count_pairs by lia. rewrite Z2Nat.id by lia. nia. }
  specialize (H P1305 (2 ^ 128)). assert (B : 0 <= 2 ^ 128 <= P1305) by (split; apply Z.leb_le; reflexivity). specialize (H B).
  assert (E : 2 ^ 128 * (2 ^ 128 - 1) = 2 * (2 ^ 127 * (2 ^ 128 - 1))) by reflexivity. rewrite E in H.
  apply Z.mul_reg_l in H; [exact H|discriminate].
Qed.

(** ** The test key of RFC 8439 section 2.8.2, its nonce ending in 0x49, and the message hell *)
Definition ex_iv : list Z := [0x7; 0x0; 0x0; 0x0; 0x40; 0x41; 0x42; 0x43; 0x44; 0x45; 0x46; 0x49].
Definition ex_ct : list Z := [0x82; 0x17; 0x92; 0xa3].
Definition ex_tag : list Z := [0x25; 0x57; 0xb5; 0x17; 0x7f; 0x55; 0x90; 0xf2; 0xfc; 0x5b; 0xd0; 0x6b; 0xa2; 0x51; 0x51; 0x4d].
Definition ex_msg : list Z := [0x68; 0x65; 0x6c; 0x6c].
Lemma ok_inj {A} (x y : A) : Ok x = Ok y -> x = y.
Proof. intros H. now injection H. Qed.
Lemma ex_key_bytes : bytes_n 32 kat_aead_key.
Proof. apply bytes_check. vm_compute. reflexivity. Qed.
Lemma ex_iv_bytes : bytes_n 12 ex_iv.
Proof. apply bytes_check. vm_compute. reflexivity. Qed.
Lemma ex_cc : cc kat_aead_key ex_iv ex_msg = ex_ct.
Proof. apply ok_inj. unfold cc. rewrite <- (chacha_Ok kat_aead_key ex_iv ex_msg ex_key_bytes ex_iv_bytes). vm_compute. reflexivity. Qed.
Definition ex_otk : list Z :=
  Eval vm_compute in match block kat_aead_key 0 ex_iv with Ok b => firstn 32 b | Panic _ => [] end.
Lemma ex_otk_ok : rfc_otk kat_aead_key ex_iv = ex_otk.
Proof.
  rewrite otk_rfc. unfold otk. assert (W0 : word32 0) by (split; [lia|reflexivity]).
  assert (E : forall b, block kat_aead_key 0 ex_iv = Ok b -> firstn 32 b = ex_otk).
  { intros b Hb. assert (X : match block kat_aead_key 0 ex_iv with Ok c => firstn 32 c | Panic _ => [] end = ex_otk) by (vm_compute; reflexivity).
    rewrite Hb in X. exact X. }
  apply E. exact (block_Ok kat_aead_key 0 ex_iv ex_key_bytes ex_iv_bytes W0).
Qed.
Lemma ex_sealed : rfc_sealed kat_aead_key ex_iv [] ex_msg ex_ct ex_tag.
Proof.
  split; [reflexivity|]. split.
  - intros j Hj. rewrite <- ex_cc. now apply cc_rfc.
  - split; [apply bytes_check; vm_compute; reflexivity|]. rewrite ex_otk_ok. vm_compute. reflexivity.
Qed.
Lemma ex_total : P1305 <= rfc_total kat_aead_key ex_iv [] ex_ct.
Proof. unfold rfc_total. rewrite ex_otk_ok. apply Z.leb_le. vm_compute. reflexivity. Qed.
Theorem C103_interoperates_refuted : exists key iv aad msg ct tag, bytes_n 32 key /\ bytes_n 12 iv /\ Forall byte aad /\ Forall byte msg /\
  rfc_sealed key iv aad msg ct tag /\ cp_decrypt key iv aad ct tag = Ok None.
Proof.
  exists kat_aead_key, ex_iv, [], ex_msg, ex_ct, ex_tag. assert (M : Forall byte ex_msg) by (apply (bytes_check 4); vm_compute; reflexivity).
  split; [exact ex_key_bytes|]. split; [exact ex_iv_bytes|]. split; [constructor|]. split; [exact M|]. split; [exact ex_sealed|].
  apply (C103_open kat_aead_key ex_iv [] ex_msg ex_ct ex_tag ex_key_bytes ex_iv_bytes (Forall_nil _) M); [reflexivity|reflexivity|exact ex_sealed|exact ex_total].
Qed.
(** The same case run: the tag of the code is the RFC's plus 5, and the RFC's is refused.  On the other side of the threshold lies
    the vector of section 2.8.2 (C41_ex). *)
Example C103_ex : cp_encrypt kat_aead_key ex_iv [] ex_msg = Ok (ex_ct, set_nth ex_tag 0 0x2a) /\
  cp_decrypt kat_aead_key ex_iv [] ex_ct ex_tag = Ok None.
Proof. split; [vm_compute; reflexivity|]. vm_compute. reflexivity. Qed.
Example C103_count_ex : count (fun '(acc, s) => 11 <=? acc + s) (list_prod (below 11) (below 4)) = 4 * 3 / 2.
Proof. vm_compute. reflexivity. Qed.

Print Assumptions C103_seal.
Print Assumptions C103_open.
Print Assumptions C103_count_s.
Print Assumptions C103_count_pairs.
Print Assumptions C103_interoperates_refuted.
