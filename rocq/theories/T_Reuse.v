(** What using a nonce twice gives away, and how the stream ciphers split (C90). *)
From Coq Require Import ZArith List Bool Lia.
From Verif Require Import Base P_Base M_Int P_Int M_Seq P_Seq M_Bytes P_Bytes P_Word P_Stream S_ChaCha M_ChaCha P_ChaCha P_Poly1305 T_ChaCha S_GF2 P_GF2 S_AES P_GF128 M_AES P_AES P_GCM T_AES.
Import ListNotations.
Local Open Scope Z_scope.

(** Bytewise exclusive or of two and of three strings of one length *)
Definition xor2 (a b : list Z) : list Z := map (fun i => Z.lxor (nth i a 0) (nth i b 0)) (seq 0 (length a)).
Definition xor3 (a b c : list Z) : list Z := xor2 (xor2 a b) c.
Lemma xor2_length a b : length (xor2 a b) = length a.
Proof. unfold xor2. now rewrite map_length, seq_length. Qed.
Lemma xor3_length a b c : length (xor3 a b c) = length a.
Proof. unfold xor3. now rewrite !xor2_length. Qed.
Lemma nth_xor2 a b i : length a = length b -> nth i (xor2 a b) 0 = Z.lxor (nth i a 0) (nth i b 0).
Proof.
  intros L. destruct (Nat.lt_ge_cases i (length a)) as [H|H]; unfold xor2.
  - now rewrite nth_map_seq.
  - rewrite !nth_overflow; [reflexivity|lia|lia|rewrite map_length, seq_length; lia].
Qed.
Lemma nth_xor3 a b c i : length a = length b -> length a = length c ->
  nth i (xor3 a b c) 0 = Z.lxor (Z.lxor (nth i a 0) (nth i b 0)) (nth i c 0).
Proof. intros. unfold xor3. rewrite !nth_xor2; trivial. now rewrite xor2_length. Qed.
Lemma xor2_zip a b : length a = length b -> xor2 a b = zip_with Z.lxor a b.
Proof. intros. symmetry. now apply map_nth_zip. Qed.
Lemma xor2_bytes a b : Forall byte a -> Forall byte b -> Forall byte (xor2 a b).
Proof.
  intros Ha Hb. apply Forall_forall. intros x Hx. apply in_map_iff in Hx as (i & <- & _). apply xor_byte; now apply nth_byte.
Qed.
Lemma xor3_bytes a b c : Forall byte a -> Forall byte b -> Forall byte c -> Forall byte (xor3 a b c).
Proof. intros. unfold xor3. apply xor2_bytes; trivial. now apply xor2_bytes. Qed.
Lemma xor2_app a a' b b' : length a = length b -> length a' = length b' -> xor2 (a ++ a') (b ++ b') = xor2 a b ++ xor2 a' b'.
Proof.
  intros L L'. rewrite !xor2_zip by (rewrite ?app_length; lia). unfold zip_with. 
  revert b L; induction a as [|x a IH]; intros [|y b] L; cbn in *; try lia; [reflexivity|]. f_equal. apply IH; lia.
Qed.
Lemma xor3_app a a' b b' c c' : length a = length b -> length a = length c -> length a' = length b' -> length a' = length c' ->
  xor3 (a ++ a') (b ++ b') (c ++ c') = xor3 a b c ++ xor3 a' b' c'.
Proof. intros. unfold xor3. rewrite !xor2_app; trivial; now rewrite !xor2_length. Qed.
Lemma xor3_self a : xor3 a a a = a.
Proof.
  apply (nth_ext_eq _ _ 0); [apply xor3_length|]. intros i _. rewrite nth_xor3 by trivial. now rewrite Z.lxor_nilpotent.
Qed.
Lemma mac_data_xor3 a a' a'' c c' c'' : length a = length a' -> length a = length a'' -> length c = length c' -> length c = length c'' ->
  gcm_mac_data (xor3 a a' a'') (xor3 c c' c'') = xor3 (gcm_mac_data a c) (gcm_mac_data a' c') (gcm_mac_data a'' c'').
Proof.
  intros La La' Lc Lc'. unfold gcm_mac_data, pad16. rewrite !xor3_length, <- La, <- La', <- Lc, <- Lc'.
  rewrite !xor3_app; rewrite ?app_length; try lia. now rewrite !xor3_self.
Qed.
Lemma ghash_xor3 h a b c : Forall byte a -> Forall byte b -> Forall byte c -> length a = length b -> length a = length c ->
  ghash h (xor3 a b c) = Z.lxor (Z.lxor (ghash h a) (ghash h b)) (ghash h c).
Proof.
  intros Ha Hb Hc L L'. unfold xor3. rewrite (xor2_zip (xor2 a b) c) by (rewrite xor2_length; lia).
  rewrite ghash_lxor; [|now apply xor2_bytes|trivial|rewrite xor2_length; lia]. rewrite (xor2_zip a b L), ghash_lxor; trivial.
Qed.
Lemma mac_data_length a a' c c' : length a = length a' -> length c = length c' -> length (gcm_mac_data a c) = length (gcm_mac_data a' c').
Proof. intros La Lc. unfold gcm_mac_data, pad16. now rewrite !app_length, !repeat_length, !be_str_length, La, Lc. Qed.
Lemma gcm_tag_xor3 E iv a a' a'' c c' c'' : length a = length a' -> length a = length a'' -> length c = length c' -> length c = length c'' ->
  Forall byte a -> Forall byte a' -> Forall byte a'' -> Forall byte c -> Forall byte c' -> Forall byte c'' ->
  gcm_tag E iv (xor3 a a' a'') (xor3 c c' c'') = xor3 (gcm_tag E iv a c) (gcm_tag E iv a' c') (gcm_tag E iv a'' c'').
Proof.
  intros La La' Lc Lc' Fa Fa' Fa'' Fc Fc' Fc''. apply (nth_ext_eq _ _ 0); [now rewrite xor3_length, !gcm_tag_length|].
  rewrite gcm_tag_length. intros i Hi. rewrite nth_xor3 by now rewrite !gcm_tag_length. unfold gcm_tag. rewrite !nth_map_seq by lia.
  rewrite mac_data_xor3 by trivial. rewrite ghash_xor3; try (now apply gcm_data_bytes); try (now apply mac_data_length).
  rewrite !be_str_lxor. set (s1 := be_str 16 _). set (s2 := be_str 16 _). set (s3 := be_str 16 _).
  assert (L1 : length s1 = 16%nat) by apply be_str_length. assert (L2 : length s2 = 16%nat) by apply be_str_length.
  assert (L3 : length s3 = 16%nat) by apply be_str_length.
  rewrite (nth_zip_with _ _ _ _ 0 0) by (rewrite ?zip_with_length; lia). rewrite (nth_zip_with _ _ _ _ 0 0) by lia.
  set (k := nth i (ctr_block E iv 1) 0). generalize (nth i s1 0), (nth i s2 0), (nth i s3 0). intros x y z.
  apply Z.bits_inj'. intros n Hn. rewrite !Z.lxor_spec. destruct (Z.testbit x n), (Z.testbit y n), (Z.testbit z n), (Z.testbit k n); reflexivity.
Qed.
Lemma ctr_pure_xor3 alg key iv n a b c : length a = length b -> length a = length c ->
  ctr_pure alg key iv n (xor3 a b c) = xor3 (ctr_pure alg key iv n a) (ctr_pure alg key iv n b) (ctr_pure alg key iv n c).
Proof.
  intros L L'. apply (nth_ext_eq _ _ 0); [now rewrite xor3_length, !ctr_pure_length, xor3_length|].
  rewrite ctr_pure_length, xor3_length. intros i Hi. rewrite nth_xor3 by now rewrite !ctr_pure_length.
  unfold ctr_pure. rewrite !nth_xor_ks by (rewrite ?xor3_length; lia). rewrite nth_xor3 by trivial.
  generalize (nth i a 0), (nth i b 0), (nth i c 0), (nth (i mod 16) (ctr_block (aes_pure alg key) iv (n + Z.of_nat (i / 16))) 0). intros x y z k.
  apply Z.bits_inj'. intros m Hm. rewrite !Z.lxor_spec. destruct (Z.testbit x m), (Z.testbit y m), (Z.testbit z m), (Z.testbit k m); reflexivity.
Qed.
(** Three AES-GCM ciphertexts accepted under one key and one IV: their exclusive or (associated data, ciphertext and tag alike)
    is accepted too, and decrypts to the exclusive or of the messages. Nothing about the key is needed to form it. *)
Theorem C90_gcm_forgery : forall alg key iv a1 a2 a3 c1 c2 c3 t1 t2 t3 m1 m2 m3,
  bytes_n (match alg with Aes128 => 16 | Aes256 => 32 end) key -> bytes_n 12 iv ->
  Forall byte a1 -> Forall byte a2 -> Forall byte a3 -> Forall byte c1 -> Forall byte c2 -> Forall byte c3 ->
  length a1 = length a2 -> length a1 = length a3 -> length c1 = length c2 -> length c1 = length c3 ->
  length t1 = 16%nat -> length t2 = 16%nat -> length t3 = 16%nat ->
  Z.of_nat (length a1) < 2 ^ 61 -> Z.of_nat (length c1) < 2 ^ 61 ->
  gcm_decrypt_pub key iv a1 c1 t1 alg = Ok (Some m1) ->
  gcm_decrypt_pub key iv a2 c2 t2 alg = Ok (Some m2) ->
  gcm_decrypt_pub key iv a3 c3 t3 alg = Ok (Some m3) ->
  gcm_decrypt_pub key iv (xor3 a1 a2 a3) (xor3 c1 c2 c3) (xor3 t1 t2 t3) alg = Ok (Some (xor3 m1 m2 m3)).
Proof.
  intros alg key iv a1 a2 a3 c1 c2 c3 t1 t2 t3 m1 m2 m3 Hk Hi A1 A2 A3 C1 C2 C3 LA LA' LC LC' L1 L2 L3 SA SC D1 D2 D3.
  assert (HK : bytes_n (klen alg) key) by (destruct alg; exact Hk).
  rewrite gcm_decrypt_Ok in D1 by (unfold short; trivial; lia). rewrite gcm_decrypt_Ok in D2 by (unfold short; trivial; lia).
  rewrite gcm_decrypt_Ok in D3 by (unfold short; trivial; lia).
  assert (K : forall (b : bool) (x y : list Z), Ok (if b then Some x else None) = Ok (Some y) -> b = true /\ x = y)
    by (intros [|] x y Q; [split; congruence|discriminate Q]).
  apply K in D1 as [D1 <-], D2 as [D2 <-], D3 as [D3 <-]. apply list_eqb_spec in D1, D2, D3.
  rewrite gcm_decrypt_Ok; unfold short; rewrite ?xor3_length; trivial; try (now apply xor3_bytes).
  rewrite gcm_tag_xor3 by trivial. rewrite D1, D2, D3. rewrite (proj2 (list_eqb_spec _ _)) by reflexivity.
  now rewrite ctr_pure_xor3.
Qed.
(** Whoever knows the GHASH key (the encryption of the zero block, same for all IVs) and one accepted ciphertext can replace
    associated data and ciphertext by any others and give the matching tag. *)
Theorem C90_gcm_hash_key_forgery : forall alg key iv h a c t m a' c',
  bytes_n (match alg with Aes128 => 16 | Aes256 => 32 end) key -> bytes_n 12 iv ->
  Forall byte a -> Forall byte c -> Forall byte a' -> Forall byte c' -> length t = 16%nat ->
  Z.of_nat (length a) < 2 ^ 61 -> Z.of_nat (length c) < 2 ^ 61 -> Z.of_nat (length a') < 2 ^ 61 -> Z.of_nat (length c') < 2 ^ 61 ->
  aes_encrypt_block key (repeat 0 16) (nk_of alg) (nr_of alg) alg = Ok h ->
  gcm_decrypt_pub key iv a c t alg = Ok (Some m) ->
  exists g g' m', gmac (gcm_mac_data a c) h = Ok g /\ gmac (gcm_mac_data a' c') h = Ok g' /\
    gcm_decrypt_pub key iv a' c' (xor3 t g g') alg = Ok (Some m').
Proof.
  intros alg key iv h a c t m a' c' Hk Hi A C A' C' Lt SA SC SA' SC' H D.
  assert (HK : bytes_n (klen alg) key) by (destruct alg; exact Hk).
  assert (Z16 : block16 (repeat 0 16)) by (split; [reflexivity|]; apply Forall_forall; intros x Hx; apply repeat_spec in Hx; subst; unfold byte; lia).
  destruct (aes_encrypt_block_Ok alg key _ HK Z16) as [Q B]. rewrite Q in H. injection H as <-.
  rewrite gcm_decrypt_Ok in D by (unfold short; trivial).
  assert (D1 : gcm_tag (aes_pure alg key) iv a c = t).
  { apply list_eqb_spec. destruct (list_eqb _ _); [reflexivity|]. discriminate D. }
  do 3 eexists. split; [apply gmac_Ok; [now apply gcm_data_bytes|exact B]|]. split; [apply gmac_Ok; [now apply gcm_data_bytes|exact B]|].
  rewrite gcm_decrypt_Ok; unfold short; rewrite ?xor3_length; trivial.
  rewrite (proj2 (list_eqb_spec _ _)); [reflexivity|]. rewrite <- D1. apply (nth_ext_eq _ _ 0); [now rewrite xor3_length, !gcm_tag_length|].
  rewrite gcm_tag_length. intros i Hi'. rewrite nth_xor3 by now rewrite gcm_tag_length, be_str_length.
  unfold gcm_tag. rewrite !nth_map_seq by lia.
  set (x := nth i (be_str 16 (ghash _ (gcm_mac_data a c))) 0). set (y := nth i (be_str 16 (ghash _ (gcm_mac_data a' c'))) 0).
  generalize (nth i (ctr_block (aes_pure alg key) iv 1) 0). intros k.
  apply Z.bits_inj'. intros n Hn. rewrite !Z.lxor_spec. destruct (Z.testbit x n), (Z.testbit y n), (Z.testbit k n); reflexivity.
Qed.
(** Two messages encrypted under one key and one IV: the ciphertexts differ exactly where the messages do, by the same
    difference, so one known message reveals the other as far as it reaches. *)
Theorem C90_gcm_keystream : forall alg key iv a m a' m' c t c' t' j,
  bytes_n (match alg with Aes128 => 16 | Aes256 => 32 end) key -> bytes_n 12 iv ->
  Forall byte a -> Forall byte m -> Forall byte a' -> Forall byte m' ->
  Z.of_nat (length a) < 2 ^ 61 -> Z.of_nat (length m) < 2 ^ 61 -> Z.of_nat (length a') < 2 ^ 61 -> Z.of_nat (length m') < 2 ^ 61 ->
  gcm_encrypt_pub key iv a m alg = Ok (c, t) -> gcm_encrypt_pub key iv a' m' alg = Ok (c', t') ->
  (j < length m)%nat -> (j < length m')%nat ->
  nth j m' 0 = Z.lxor (nth j c' 0) (Z.lxor (nth j c 0) (nth j m 0)).
Proof.
  intros alg key iv a m a' m' c t c' t' j Hk Hi A M A' M' SA SM SA' SM' E E' Hj Hj'.
  assert (HK : bytes_n (klen alg) key) by (destruct alg; exact Hk).
  rewrite gcm_encrypt_Ok in E by (unfold short; trivial). rewrite gcm_encrypt_Ok in E' by (unfold short; trivial).
  apply (f_equal (fun r => match r with Ok (x, _) => x | _ => [] end)) in E, E'. cbn [fst] in E, E'. subst c c'.
  unfold ctr_pure. rewrite !nth_xor_ks by trivial. set (k := nth (j mod 16) _ 0). generalize (nth j m 0), (nth j m' 0). intros x y.
  apply Z.bits_inj'. intros n Hn. rewrite !Z.lxor_spec. destruct (Z.testbit x n), (Z.testbit y n), (Z.testbit k n); reflexivity.
Qed.
Theorem C90_chacha_keystream : forall key iv a m a' m' c t c' t' j, bytes_n 32 key -> bytes_n 12 iv ->
  Forall byte a -> Forall byte m -> Forall byte a' -> Forall byte m' ->
  Z.of_nat (length a) < 2 ^ 64 -> Z.of_nat (length m) < 2 ^ 64 -> Z.of_nat (length a') < 2 ^ 64 -> Z.of_nat (length m') < 2 ^ 64 ->
  cp_encrypt key iv a m = Ok (c, t) -> cp_encrypt key iv a' m' = Ok (c', t') ->
  (j < length m)%nat -> (j < length m')%nat ->
  nth j m' 0 = Z.lxor (nth j c' 0) (Z.lxor (nth j c 0) (nth j m 0)).
Proof.
  intros key iv a m a' m' c t c' t' j Hk Hi A M A' M' SA SM SA' SM' E E' Hj Hj'.
  rewrite cp_encrypt_Ok in E by trivial. rewrite cp_encrypt_Ok in E' by trivial.
  apply (f_equal (fun r => match r with Ok (x, _) => x | _ => [] end)) in E, E'. subst c c'.
  unfold cc. rewrite !nth_xor_ks by trivial. set (k := nth (j mod 64) _ 0). generalize (nth j m 0), (nth j m' 0). intros x y.
  apply Z.bits_inj'. intros n Hn. rewrite !Z.lxor_spec. destruct (Z.testbit x n), (Z.testbit y n), (Z.testbit k n); reflexivity.
Qed.
(** The streams split at block boundaries; the ChaCha20 stream of a prefix is the prefix of the stream. *)
Theorem C90_ctr_split : forall alg key nonce ctr m1 m2 k,
  bytes_n (match alg with Aes128 => 16 | Aes256 => 32 end) key -> bytes_n 12 nonce -> word32 ctr -> length m1 = (16 * k)%nat ->
  exists c1 c2, aes_encrypt_pub key nonce ctr m1 alg = Ok c1 /\
    aes_encrypt_pub key nonce ((ctr + Z.of_nat k) mod 2 ^ 32) m2 alg = Ok c2 /\
    aes_encrypt_pub key nonce ctr (m1 ++ m2) alg = Ok (c1 ++ c2).
Proof.
  intros alg key nonce ctr m1 m2 k Hk Hn Hc L. assert (HK : bytes_n (klen alg) key) by (destruct alg; exact Hk).
  unfold aes_encrypt_pub, aes_encrypt. rewrite seq_from_seq_Ok. cbn [bind].
  do 2 eexists. split; [now apply counter_mode_Ok|]. split; [apply counter_mode_Ok; trivial; apply Z.mod_pos_bound; reflexivity|].
  rewrite counter_mode_Ok by trivial. apply (f_equal Ok). unfold ctr_pure.
  apply (nth_ext_eq _ _ 0); rewrite ?app_length, !xor_ks_length, ?app_length; [reflexivity|].
  intros j Hj. rewrite nth_xor_ks by (now rewrite app_length).
  destruct (Nat.lt_ge_cases j (length m1)) as [C|C].
  - rewrite !app_nth1 by (rewrite ?xor_ks_length; exact C). now rewrite nth_xor_ks.
  - rewrite !app_nth2 by (rewrite ?xor_ks_length; exact C). rewrite xor_ks_length, nth_xor_ks by lia.
    assert (E : j = (j - length m1 + k * 16)%nat) by lia.
    assert (M : (j mod 16 = (j - length m1) mod 16)%nat) by (rewrite E at 1; apply Nat.mod_add; lia).
    assert (D : (j / 16 = (j - length m1) / 16 + k)%nat) by (rewrite E at 1; apply Nat.div_add; lia).
    rewrite M, D. f_equal. f_equal. rewrite <- (ctr_block_mod _ nonce ((ctr + _) mod _ + _)), Zplus_mod_idemp_l, ctr_block_mod. f_equal. lia.
Qed.
Lemma nth_firstn_lt {A} (d : A) n l i : (i < n)%nat -> nth i (firstn n l) d = nth i l d.
Proof. revert l i; induction n as [|n IH]; intros [|a l] [|i] H; try lia; try reflexivity. cbn. apply IH. lia. Qed.
Theorem C90_chacha_prefix : forall key iv m n, bytes_n 32 key -> bytes_n 12 iv ->
  exists c, chacha key iv m = Ok c /\ chacha key iv (firstn n m) = Ok (firstn n c).
Proof.
  intros key iv m n Hk Hi. eexists. split; [now apply chacha_Ok|]. rewrite chacha_Ok by trivial. apply (f_equal Ok).
  apply (nth_ext_eq _ _ 0); rewrite ?firstn_length, !xor_ks_length, ?firstn_length; [reflexivity|].
  intros j Hj. rewrite nth_xor_ks by (rewrite firstn_length; lia). rewrite !nth_firstn_lt by lia. now rewrite nth_xor_ks by lia.
Qed.
(** Three accepted one-byte messages whose exclusive or is a fourth one. *)
Example C90_ex : let k := kat_gcm_key in let iv := kat_gcm_iv in
  (match gcm_encrypt_pub k iv [9] [1] Aes128, gcm_encrypt_pub k iv [9] [2] Aes128, gcm_encrypt_pub k iv [9] [4] Aes128 with
   | Ok (c1, t1), Ok (c2, t2), Ok (c3, t3) =>
       (length t1, negb (existsb (list_eqb (xor3 c1 c2 c3)) [c1; c2; c3]), gcm_encrypt_pub k iv [9] [7] Aes128) = (16%nat, true, Ok (xor3 c1 c2 c3, xor3 t1 t2 t3))
   | _, _, _ => False end).
Proof. vm_compute. reflexivity. Qed.
Example C90_ex_split : length (repeat 5 32) = (16 * 2)%nat /\
  (let* c := aes_encrypt_pub kat_key1 kat_ctr_nonce 0xffffffff (repeat 5 32 ++ [1; 2]) Aes128 in Ok (skipn 32 c)) =
  aes_encrypt_pub kat_key1 kat_ctr_nonce 1 [1; 2] Aes128.
Proof. split; vm_compute; reflexivity. Qed.
Print Assumptions C90_gcm_forgery.
Print Assumptions C90_gcm_hash_key_forgery.
Print Assumptions C90_gcm_keystream.
Print Assumptions C90_chacha_keystream.
Print Assumptions C90_ctr_split.
Print Assumptions C90_chacha_prefix.
