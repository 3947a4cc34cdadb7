(** AES-GCM against the algorithms of SP 800-38D on bit strings (C108). *)
From Coq Require Import ZArith List Bool Arith Lia.
From Verif Require Import Base P_Base M_Int P_Int M_Seq P_Seq M_Bytes P_Bytes M_AES P_Word P_Stream
  S_ChaCha S_GF2 S_AES P_GF128 P_AES P_GCM S_GCM P_GCMBits T_AES.
Import ListNotations.
Local Open Scope Z_scope.

(** ** Multiplication and GHASH *)
(** [fmul] is the multiplication of blocks of algorithm 1, although the code runs over the bits of
    the other factor. *)
Theorem C108_multiplication : forall x y, 0 <= x < 2 ^ 128 -> 0 <= y < 2 ^ 128 ->
  exists r, fmul x y = Ok r /\ 0 <= r < 2 ^ 128 /\ mult (str_of 128 x) (str_of 128 y) = str_of 128 r.
Proof.
  intros x y Hx Hy. exists (gcm_mul x y). split; [now apply fmul_Ok|]. split; [apply gcm_mul_range|]. now apply mult_Ok.
Qed.
(** [gmac] is GHASH, which the standard defines for whole blocks. *)
Theorem C108_ghash : forall text k, Forall byte text -> (length text mod 16 = 0)%nat -> bytes_n 16 k ->
  exists tag, gmac text k = Ok tag /\ bytes_n 16 tag /\ GHASH (bits_of k) (bits_of text) = bits_of tag.
Proof.
  intros text k Ht L Hk. eexists. split; [now apply gmac_Ok|]. split; [apply be_str_bytes|].
  rewrite (block_str k Hk), GHASH_Ok; [|exact (proj2 (encode_Ok k Hk))|exact Ht|exact L]. apply (str_bits 16).
Qed.
Example C108_blocks_ex : (length (kat_gmac_msg ++ repeat 0%Z 4) mod 16 = 0)%nat /\
  mult (str_of 128 (2 ^ 126)) (str_of 128 1) = R /\
  GHASH (bits_of kat_gmac_key) (bits_of (kat_gmac_msg ++ repeat 0 4)) = bits_of kat_gmac_tag.
Proof. vm_compute. conjs; reflexivity. Qed.

(** ** Encryption and decryption *)
Lemma supported_bits iv aad msg : bytes_n 12 iv -> Z.of_nat (length aad) < 2 ^ 61 ->
  supported (bits_of msg) (bits_of aad) (bits_of iv) = (8 * Z.of_nat (length msg) <=? 2 ^ 39 - 256).
Proof.
  intros [Li _] La. unfold supported, len. rewrite !bits_length, Li, !Nat2Z.inj_mul.
  change (Z.of_nat 8) with 8. rewrite (proj2 (Z.leb_le (8 * Z.of_nat (length aad)) _)) by lia.
  rewrite !andb_true_r. reflexivity.
Qed.
(** Within the supported lengths the code computes the standard's ciphertext and its 128-bit tag. *)
Theorem C108_encrypt : forall alg key iv aad msg,
  bytes_n (match alg with Aes128 => 16 | Aes256 => 32 end) key -> bytes_n 12 iv ->
  Forall byte aad -> Forall byte msg ->
  Z.of_nat (length aad) < 2 ^ 61 -> 8 * Z.of_nat (length msg) <= 2 ^ 39 - 256 ->
  exists ct tag, gcm_encrypt_pub key iv aad msg alg = Ok (ct, tag) /\ Forall byte ct /\ bytes_n 16 tag /\
    GCM_AE (CIPH (aes_fn alg key)) 128 (bits_of iv) (bits_of msg) (bits_of aad) = Some (bits_of ct, bits_of tag).
Proof.
  intros alg key iv aad msg Hk Hi Ha Hm La Lm.
  assert (HK : bytes_n (klen alg) key) by (destruct alg; exact Hk). rewrite aes_fn_eq.
  eexists _, _. split; [apply gcm_encrypt_Ok; trivial; unfold short; lia|].
  split; [now apply ctr_pure_bytes|]. split; [now apply gcm_tag_bytes|].
  apply AE_Ok; trivial. rewrite supported_bits by assumption. now apply Z.leb_le.
Qed.
(** Within the supported lengths it returns exactly what the standard's decryption returns, FAIL included. *)
Theorem C108_decrypt : forall alg key iv aad ct tag,
  bytes_n (match alg with Aes128 => 16 | Aes256 => 32 end) key -> bytes_n 12 iv ->
  Forall byte aad -> Forall byte ct -> bytes_n 16 tag ->
  Z.of_nat (length aad) < 2 ^ 61 -> 8 * Z.of_nat (length ct) <= 2 ^ 39 - 256 ->
  exists r, gcm_decrypt_pub key iv aad ct tag alg = Ok r /\ (forall m, r = Some m -> Forall byte m) /\
    GCM_AD (CIPH (aes_fn alg key)) 128 (bits_of iv) (bits_of ct) (bits_of aad) (bits_of tag) = option_map bits_of r.
Proof.
  intros alg key iv aad ct tag Hk Hi Ha Hc Ht La Lc.
  assert (HK : bytes_n (klen alg) key) by (destruct alg; exact Hk). rewrite aes_fn_eq.
  eexists. split; [apply gcm_decrypt_Ok; trivial; first [exact (proj1 Ht) | unfold short; lia]|]. split.
  - intros m E. destruct (list_eqb _ _); [|discriminate E]. injection E as <-. now apply ctr_pure_bytes.
  - apply AD_Ok; trivial. rewrite supported_bits by assumption. now apply Z.leb_le.
Qed.
(** Beyond them the standard gives no ciphertext and refuses to decrypt; the code does both. *)
Theorem C108_conforms_refuted : exists key iv msg ct tag,
  bytes_n 16 key /\ bytes_n 12 iv /\ Forall byte msg /\ Z.of_nat (length msg) = 2 ^ 36 - 31 /\
  gcm_encrypt_pub key iv [] msg Aes128 = Ok (ct, tag) /\
  GCM_AE (CIPH (aes_fn Aes128 key)) 128 (bits_of iv) (bits_of msg) [] = None /\
  gcm_decrypt_pub key iv [] ct tag Aes128 = Ok (Some msg) /\
  GCM_AD (CIPH (aes_fn Aes128 key)) 128 (bits_of iv) (bits_of ct) [] (bits_of tag) = None.
Proof.
  set (n := Z.to_nat (2 ^ 36 - 31)).
  assert (En : Z.of_nat n = 2 ^ 36 - 31) by (apply Z2Nat.id; vm_compute; discriminate).
  clearbody n. set (m := repeat 0 n). assert (Lm : length m = n) by apply repeat_length.
  assert (Bm : Forall byte m) by (apply Forall_forall; intros x Hx; apply repeat_spec in Hx; rewrite Hx; unfold byte; lia).
  clearbody m.
  assert (HK : bytes_n 16 kat_key1) by check_bytes. assert (HI : bytes_n 12 kat_ctr_nonce) by check_bytes.
  assert (L0 : Z.of_nat (length (@nil Z)) < 2 ^ 61) by reflexivity.
  destruct (C46_decrypt_encrypt Aes128 kat_key1 kat_ctr_nonce [] m HK HI (Forall_nil _) Bm L0) as (ct & tag & E & Lc & _ & D);
    [rewrite Lm, En; reflexivity|].
  assert (U : forall x, length x = n -> supported (bits_of x) (bits_of []) (bits_of kat_ctr_nonce) = false).
  { intros x Lx. rewrite supported_bits by assumption. rewrite Lx, En. reflexivity. }
  exists kat_key1, kat_ctr_nonce, m, ct, tag.
  split; [exact HK|]. split; [exact HI|]. split; [exact Bm|]. split; [now rewrite Lm|]. split; [exact E|].
  split; [unfold GCM_AE; change (@nil bool) with (bits_of []); now rewrite U|].
  split; [exact D|]. unfold GCM_AD. change (@nil bool) with (bits_of []). rewrite U by congruence. reflexivity.
Qed.

(** Test case 4 of the GCM specification through the standard's algorithms and through the code. *)
Example C108_ex : 8 * Z.of_nat (length kat_gcm_msg) <= 2 ^ 39 - 256 /\ (length kat_gcm_msg mod 16 <> 0)%nat /\
  GCM_AE (CIPH (aes_fn Aes128 kat_gcm_key)) 128 (bits_of kat_gcm_iv) (bits_of kat_gcm_msg) (bits_of kat_gcm_aad)
    = Some (bits_of kat_gcm_ct, bits_of kat_gcm_tag) /\
  GCM_AD (CIPH (aes_fn Aes128 kat_gcm_key)) 128 (bits_of kat_gcm_iv) (bits_of kat_gcm_ct) (bits_of kat_gcm_aad)
    (bits_of (set_nth kat_gcm_tag 0 0x5a)) = None.
Proof. split; [vm_compute; discriminate|]. split; [vm_compute; discriminate|]. split; vm_compute; reflexivity. Qed.

(** A test of the specification alone: test case 5, whose IV has 8 bytes. *)
Definition tc5_iv : list Z := [0xca; 0xfe; 0xba; 0xbe; 0xfa; 0xce; 0xdb; 0xad].
Definition tc5_ct : list Z := [0x61; 0x35; 0x3b; 0x4c; 0x28; 0x6; 0x93; 0x4a; 0x77; 0x7f; 0xf5; 0x1f; 0xa2; 0x2a; 0x47; 0x55; 0x69; 0x9b; 0x2a; 0x71; 0x4f; 0xcd; 0xc6; 0xf8; 0x37; 0x66; 0xe5; 0xf9; 0x7b; 0x6c; 0x74; 0x23; 0x73; 0x80; 0x69; 0x0; 0xe4; 0x9f; 0x24; 0xb2; 0x2b; 0x9; 0x75; 0x44; 0xd4; 0x89; 0x6b; 0x42; 0x49; 0x89; 0xb5; 0xe1; 0xeb; 0xac; 0xf; 0x7; 0xc2; 0x3f; 0x45; 0x98].
Definition tc5_tag : list Z := [0x36; 0x12; 0xd2; 0xe7; 0x9e; 0x3b; 0x7; 0x85; 0x56; 0x1b; 0xe1; 0x4a; 0xac; 0xa2; 0xfc; 0xcb].
Example C108_spec_ex :
  GCM_AE (CIPH (aes_fn Aes128 kat_gcm_key)) 128 (bits_of tc5_iv) (bits_of kat_gcm_msg) (bits_of kat_gcm_aad)
    = Some (bits_of tc5_ct, bits_of tc5_tag).
Proof. vm_compute. reflexivity. Qed.

Print Assumptions C108_multiplication.
Print Assumptions C108_ghash.
Print Assumptions C108_encrypt.
Print Assumptions C108_decrypt.
Print Assumptions C108_conforms_refuted.
