(** Theorems of record for AES, GF(2^128), counter mode and AES-GCM (properties C42 to C48, C69). *)
From Coq Require Import ZArith List Bool Arith Lia.
From Verif Require Import Base P_Base M_Int P_Int M_Seq P_Seq M_Bytes P_Bytes M_AES P_Word P_Stream
  S_ChaCha S_GF2 P_GF2 S_AES P_GF128 P_AES P_Poly1305 P_GCM T_ChaCha.
Import ListNotations.
Open Scope Z_scope.

(** Test vectors: aes.rs:325-377, /repo/spec-examples/tests/test_aes.rs:31-49,
    test_aesgcm.rs:40-47 and 61-68, test_gf128.rs:7-9. *)
Definition kat_msg1 : list Z := [0x6b; 0xc1; 0xbe; 0xe2; 0x2e; 0x40; 0x9f; 0x96; 0xe9; 0x3d; 0x7e; 0x11; 0x73; 0x93; 0x17; 0x2a].
Definition kat_key1 : list Z := [0x2b; 0x7e; 0x15; 0x16; 0x28; 0xae; 0xd2; 0xa6; 0xab; 0xf7; 0x15; 0x88; 0x9; 0xcf; 0x4f; 0x3c].
Definition kat_ct1 : list Z := [0x3a; 0xd7; 0x7b; 0xb4; 0xd; 0x7a; 0x36; 0x60; 0xa8; 0x9e; 0xca; 0xf3; 0x24; 0x66; 0xef; 0x97].
Definition kat_msg2 : list Z := [0x53; 0x69; 0x6e; 0x67; 0x6c; 0x65; 0x20; 0x62; 0x6c; 0x6f; 0x63; 0x6b; 0x20; 0x6d; 0x73; 0x67].
Definition kat_key2 : list Z := [0xae; 0x68; 0x52; 0xf8; 0x12; 0x10; 0x67; 0xcc; 0x4b; 0xf7; 0xa5; 0x76; 0x55; 0x77; 0xf3; 0x9e].
Definition kat_ct2 : list Z := [0x61; 0x5f; 0x9; 0xfb; 0x35; 0x3f; 0x61; 0x3b; 0xa2; 0x8f; 0xf3; 0xa3; 0xc; 0x64; 0x75; 0x2d].
Definition kat_msg3 : list Z := [0x0; 0x11; 0x22; 0x33; 0x44; 0x55; 0x66; 0x77; 0x88; 0x99; 0xaa; 0xbb; 0xcc; 0xdd; 0xee; 0xff].
Definition kat_key3 : list Z := [0x0; 0x1; 0x2; 0x3; 0x4; 0x5; 0x6; 0x7; 0x8; 0x9; 0xa; 0xb; 0xc; 0xd; 0xe; 0xf; 0x10; 0x11; 0x12; 0x13;
   0x14; 0x15; 0x16; 0x17; 0x18; 0x19; 0x1a; 0x1b; 0x1c; 0x1d; 0x1e; 0x1f].
Definition kat_ct3 : list Z := [0x8e; 0xa2; 0xb7; 0xca; 0x51; 0x67; 0x45; 0xbf; 0xea; 0xfc; 0x49; 0x90; 0x4b; 0x49; 0x60; 0x89].
Definition kat_ctr_nonce : list Z := [0xf0; 0xf1; 0xf2; 0xf3; 0xf4; 0xf5; 0xf6; 0xf7; 0xf8; 0xf9; 0xfa; 0xfb].
Definition kat_ctr_ct : list Z := [0x87; 0x4d; 0x61; 0x91; 0xb6; 0x20; 0xe3; 0x26; 0x1b; 0xef; 0x68; 0x64; 0x99; 0xd; 0xb6; 0xce].
Definition kat_gcm_key : list Z := [0xfe; 0xff; 0xe9; 0x92; 0x86; 0x65; 0x73; 0x1c; 0x6d; 0x6a; 0x8f; 0x94; 0x67; 0x30; 0x83; 0x8].
Definition kat_gcm_iv : list Z := [0xca; 0xfe; 0xba; 0xbe; 0xfa; 0xce; 0xdb; 0xad; 0xde; 0xca; 0xf8; 0x88].
Definition kat_gcm_aad : list Z := [0xfe; 0xed; 0xfa; 0xce; 0xde; 0xad; 0xbe; 0xef; 0xfe; 0xed; 0xfa; 0xce; 0xde; 0xad; 0xbe; 0xef; 0xab; 0xad; 0xda; 0xd2].
Definition kat_gcm_msg : list Z := [0xd9; 0x31; 0x32; 0x25; 0xf8; 0x84; 0x6; 0xe5; 0xa5; 0x59; 0x9; 0xc5; 0xaf; 0xf5; 0x26; 0x9a; 0x86; 0xa7; 0xa9; 0x53;
   0x15; 0x34; 0xf7; 0xda; 0x2e; 0x4c; 0x30; 0x3d; 0x8a; 0x31; 0x8a; 0x72; 0x1c; 0x3c; 0xc; 0x95; 0x95; 0x68; 0x9; 0x53;
   0x2f; 0xcf; 0xe; 0x24; 0x49; 0xa6; 0xb5; 0x25; 0xb1; 0x6a; 0xed; 0xf5; 0xaa; 0xd; 0xe6; 0x57; 0xba; 0x63; 0x7b; 0x39].
Definition kat_gcm_ct : list Z := [0x42; 0x83; 0x1e; 0xc2; 0x21; 0x77; 0x74; 0x24; 0x4b; 0x72; 0x21; 0xb7; 0x84; 0xd0; 0xd4; 0x9c; 0xe3; 0xaa; 0x21; 0x2f;
   0x2c; 0x2; 0xa4; 0xe0; 0x35; 0xc1; 0x7e; 0x23; 0x29; 0xac; 0xa1; 0x2e; 0x21; 0xd5; 0x14; 0xb2; 0x54; 0x66; 0x93; 0x1c;
   0x7d; 0x8f; 0x6a; 0x5a; 0xac; 0x84; 0xaa; 0x5; 0x1b; 0xa3; 0xb; 0x39; 0x6a; 0xa; 0xac; 0x97; 0x3d; 0x58; 0xe0; 0x91].
Definition kat_gcm_tag : list Z := [0x5b; 0xc9; 0x4f; 0xbc; 0x32; 0x21; 0xa5; 0xdb; 0x94; 0xfa; 0xe9; 0x5a; 0xe7; 0x12; 0x1a; 0x47].
Definition kat_gcm256_key : list Z := [0xe3; 0xc0; 0x8a; 0x8f; 0x6; 0xc6; 0xe3; 0xad; 0x95; 0xa7; 0x5; 0x57; 0xb2; 0x3f; 0x75; 0x48; 0x3c; 0xe3; 0x30; 0x21;
   0xa9; 0xc7; 0x2b; 0x70; 0x25; 0x66; 0x62; 0x4; 0xc6; 0x9c; 0xb; 0x72].
Definition kat_gcm256_iv : list Z := [0x12; 0x15; 0x35; 0x24; 0xc0; 0x89; 0x5e; 0x81; 0xb2; 0xc2; 0x84; 0x65].
Definition kat_gcm256_aad : list Z := [0xd6; 0x9; 0xb1; 0xf0; 0x56; 0x63; 0x7a; 0xd; 0x46; 0xdf; 0x99; 0x8d; 0x88; 0xe5; 0x2e; 0x0; 0xb2; 0xc2; 0x84; 0x65;
   0x12; 0x15; 0x35; 0x24; 0xc0; 0x89; 0x5e; 0x81].
Definition kat_gcm256_msg : list Z := [0x8; 0x0; 0xf; 0x10; 0x11; 0x12; 0x13; 0x14; 0x15; 0x16; 0x17; 0x18; 0x19; 0x1a; 0x1b; 0x1c; 0x1d; 0x1e; 0x1f; 0x20;
   0x21; 0x22; 0x23; 0x24; 0x25; 0x26; 0x27; 0x28; 0x29; 0x2a; 0x2b; 0x2c; 0x2d; 0x2e; 0x2f; 0x30; 0x31; 0x32; 0x33; 0x34;
   0x35; 0x36; 0x37; 0x38; 0x39; 0x3a; 0x0; 0x2].
Definition kat_gcm256_ct : list Z := [0xe2; 0x0; 0x6e; 0xb4; 0x2f; 0x52; 0x77; 0x2; 0x2d; 0x9b; 0x19; 0x92; 0x5b; 0xc4; 0x19; 0xd7; 0xa5; 0x92; 0x66; 0x6c;
   0x92; 0x5f; 0xe2; 0xef; 0x71; 0x8e; 0xb4; 0xe3; 0x8; 0xef; 0xea; 0xa7; 0xc5; 0x27; 0x3b; 0x39; 0x41; 0x18; 0x86; 0xa;
   0x5b; 0xe2; 0xa9; 0x7f; 0x56; 0xab; 0x78; 0x36].
Definition kat_gcm256_tag : list Z := [0x5c; 0xa5; 0x97; 0xcd; 0xbb; 0x3e; 0xdb; 0x8d; 0x1a; 0x11; 0x51; 0xea; 0xa; 0xf7; 0xb4; 0x36].
Definition kat_gmac_msg : list Z := [0xfe; 0xed; 0xfa; 0xce; 0xde; 0xad; 0xbe; 0xef; 0xfe; 0xed; 0xfa; 0xce; 0xde; 0xad; 0xbe; 0xef; 0xab; 0xad; 0xda; 0xd2;
   0x0; 0x0; 0x0; 0x0; 0x0; 0x0; 0x0; 0x0; 0x0; 0x0; 0x0; 0x0; 0x5a; 0x8d; 0xef; 0x2f; 0xc; 0x9e; 0x53; 0xf1;
   0xf7; 0x5d; 0x78; 0x53; 0x65; 0x9e; 0x2a; 0x20; 0xee; 0xb2; 0xb2; 0x2a; 0xaf; 0xde; 0x64; 0x19; 0xa0; 0x58; 0xab; 0x4f;
   0x6f; 0x74; 0x6b; 0xf4; 0xf; 0xc0; 0xc3; 0xb7; 0x80; 0xf2; 0x44; 0x45; 0x2d; 0xa3; 0xeb; 0xf1; 0xc5; 0xd8; 0x2c; 0xde;
   0xa2; 0x41; 0x89; 0x97; 0x20; 0xe; 0xf8; 0x2e; 0x44; 0xae; 0x7e; 0x3f].
Definition kat_gmac_key : list Z := [0xac; 0xbe; 0xf2; 0x5; 0x79; 0xb4; 0xb8; 0xeb; 0xce; 0x88; 0x9b; 0xac; 0x87; 0x32; 0xda; 0xd7].
Definition kat_gmac_tag : list Z := [0xcc; 0x9a; 0xe9; 0x17; 0x57; 0x29; 0xa6; 0x49; 0x93; 0x6e; 0x89; 0xb; 0xd9; 0x71; 0xa8; 0xbf].
Ltac check_bytes := apply bytes_check; vm_compute; reflexivity.

(** *** C43: tables and round functions *)
(** The product used by the specification is the remainder of the carry-less product, and
    the only one: r is congruent to a * b modulo x^8 + x^4 + x^3 + x + 1 and has degree below 8. *)
Theorem C43_byte_product : forall a b r, byte a -> byte b ->
  (mul8 a b = r <-> byte r /\ pcong 0x11b (pmul a b) r).
Proof.
  intros a b r Ha Hb. assert (P : 2 ^ 8 <= 0x11b < 2 ^ (8 + 1)) by lia.
  destruct (gf_mul_spec 8 0x11b a b ltac:(lia) P Ha Hb) as [R C]. split.
  - intros <-. split; assumption.
  - intros [Hr C']. symmetry. apply gf_mul_unique; try assumption; lia.
Qed.
(** [inv8] is the inverse in GF(2^8). *)
Theorem C43_inverse : forall a, byte a -> byte (inv8 a) /\ (a = 0 -> inv8 a = 0) /\ (a <> 0 -> mul8 a (inv8 a) = 1).
Proof.
  assert (H : forall a, byte a -> ((0 <=? inv8 a) && (inv8 a <? 256)
     && (if a =? 0 then inv8 a =? 0 else mul8 a (inv8 a) =? 1)) = true).
  { apply byte_check. vm_compute. reflexivity. }
  intros a Ha. specialize (H a Ha). rewrite !andb_true_iff, Z.leb_le, Z.ltb_lt in H.
  destruct H as [R H]. unfold byte. split; [lia|].
  destruct (Z.eqb_spec a 0); apply Z.eqb_eq in H; split; intros; try congruence; contradiction.
Qed.
(** Every entry of the table is the affine image of the inverse; the inverse is stated by its
    defining equation. *)
Theorem C43_sbox_is_fips : forall x, byte x -> exists s b, sbox_at x = Ok s /\ byte b /\
  (x = 0 -> b = 0) /\ (x <> 0 -> mul8 x b = 1) /\ s = affine b.
Proof.
  intros x Hx. destruct (C43_inverse x Hx) as (B & Z0 & Z1). exists (fips_sbox x), (inv8 x).
  rewrite sbox_at_Ok by assumption. conjs; trivial.
Qed.
Theorem C43_sbox_permutation :
  (forall x, byte x -> exists y, sbox_at x = Ok y /\ byte y) /\
  (forall x x' y, byte x -> byte x' -> sbox_at x = Ok y -> sbox_at x' = Ok y -> x = x') /\
  (forall y, byte y -> exists x, byte x /\ sbox_at x = Ok y).
Proof.
  apply (bij_of_inverse byte sbox_at fips_sbox inv_sbox).
  - intros x Hx. conjs; [now apply sbox_at_Ok|apply fips_sbox_byte|now apply inv_sbox_spec].
  - intros y Hy. split; now apply inv_sbox_spec.
Qed.
Theorem C43_xtime : forall x, byte x -> xtime x = Ok (mul8 2 x).
Proof. exact xtime_Ok. Qed.
Theorem C43_round_functions : forall s k, bytes_n 16 s -> bytes_n 16 k ->
  sub_bytes s = Ok (SubBytes s) /\ shift_rows s = Ok (ShiftRows s) /\
  mix_columns s = Ok (MixColumns s) /\ add_round_key s k = Ok (AddRoundKey s k) /\
  aes_enc s k = Ok (AddRoundKey (MixColumns (ShiftRows (SubBytes s))) k) /\
  aes_enc_last s k = Ok (AddRoundKey (ShiftRows (SubBytes s)) k).
Proof.
  intros s k Hs Hk. conjs.
  - now apply sub_bytes_Ok.
  - now apply shift_rows_Ok, Hs.
  - now apply mix_columns_Ok.
  - apply add_round_key_Ok; [apply Hs|apply Hk].
  - now apply aes_enc_Ok.
  - unfold aes_enc_last. rewrite sub_bytes_Ok by assumption. cbn [bind].
    rewrite shift_rows_Ok by reflexivity. cbn [bind]. apply add_round_key_Ok; [reflexivity|apply Hk].
Qed.
(** The expanded key is the sequence of 44 (AES-128) or 60 (AES-256) words of FIPS 197. *)
Theorem C43_key_schedule : forall key alg, bytes_n (match alg with Aes128 => 16 | Aes256 => 32 end) key ->
  key_expansion_aes key (nk_of alg) (nr_of alg) alg =
    Ok (concat (match alg with Aes128 => schedule 4 key 44 | Aes256 => schedule 8 key 60 end)).
Proof. intros key [] HK; [exact (key_expansion_Ok key Aes128 HK)|exact (key_expansion_Ok key Aes256 HK)]. Qed.
(** FIPS 197 A.1: last word of the expanded key b6 63 0c a6; 4.2: {57} * {83} = {c1}; S-box of 53. *)
Example C43_ex : mul8 0x57 0x83 = 0xc1 /\ sbox_at 0x53 = Ok 0xed /\ bytes_n 16 kat_key1 /\
  nth 43 (schedule 4 kat_key1 44) [] = [0xb6; 0x63; 0x0c; 0xa6] /\
  mix_columns (MixColumns kat_msg1) <> Ok kat_msg1 /\
  mix_column 0 ([0xdb; 0x13; 0x53; 0x45] ++ repeat 0 12) = Ok ([0x8e; 0x4d; 0xa1; 0xbc] ++ repeat 0 12).
Proof. conjs; try (vm_compute; reflexivity); [check_bytes|]. vm_compute. discriminate. Qed.

(** *** C44: the block cipher *)
(** It is the cipher of FIPS 197 ... *)
Theorem C44_aes128_is_fips : forall k m, bytes_n 16 k -> bytes_n 16 m ->
  aes128_encrypt_block k m 4 10 = Ok (fips_aes 4 10 k m) /\ bytes_n 16 (fips_aes 4 10 k m).
Proof.
  intros k m Hk Hm. unfold aes128_encrypt_block. rewrite seq_from_seq_Ok.
  exact (aes_encrypt_block_Ok Aes128 k m Hk Hm).
Qed.
Theorem C44_aes256_is_fips : forall k m, bytes_n 32 k -> bytes_n 16 m ->
  aes256_encrypt_block k m 8 14 = Ok (fips_aes 8 14 k m) /\ bytes_n 16 (fips_aes 8 14 k m).
Proof.
  intros k m Hk Hm. unfold aes256_encrypt_block. rewrite seq_from_seq_Ok.
  exact (aes_encrypt_block_Ok Aes256 k m Hk Hm).
Qed.
(** ... and a permutation of the set of blocks for every key. *)
Theorem C44_block_permutation : forall alg k, bytes_n (match alg with Aes128 => 16 | Aes256 => 32 end) k ->
  let f := fun m => aes_encrypt_block k m (nk_of alg) (nr_of alg) alg in
  (forall x, bytes_n 16 x -> exists y, f x = Ok y /\ bytes_n 16 y) /\
  (forall x x' y, bytes_n 16 x -> bytes_n 16 x' -> f x = Ok y -> f x' = Ok y -> x = x') /\
  (forall y, bytes_n 16 y -> exists x, bytes_n 16 x /\ f x = Ok y).
Proof.
  intros alg k Hk f.
  assert (HK : bytes_n (klen alg) k) by (destruct alg; exact Hk).
  destruct (aes_pure_inv alg k HK) as (g & G1 & G2).
  apply (bij_of_inverse (bytes_n 16) f (aes_pure alg k) g).
  - intros x Hx. destruct (G1 x Hx). conjs; trivial. unfold f. now apply aes_encrypt_block_Ok.
  - intros y Hy. now apply G2.
Qed.
Example C44_ex : bytes_n 16 kat_key1 /\ bytes_n 16 kat_msg1 /\
  aes128_encrypt_block kat_key1 kat_msg1 4 10 = Ok kat_ct1 /\
  aes128_encrypt_block kat_key2 kat_msg2 4 10 = Ok kat_ct2 /\
  bytes_n 32 kat_key3 /\ aes256_encrypt_block kat_key3 kat_msg3 8 14 = Ok kat_ct3.
Proof. conjs; try check_bytes; vm_compute; reflexivity. Qed.

(** *** C45: counter mode *)
Theorem C45_ctr_involution : forall alg key nonce ctr m,
  bytes_n (match alg with Aes128 => 16 | Aes256 => 32 end) key -> bytes_n 12 nonce -> word32 ctr ->
  exists c, aes_encrypt_pub key nonce ctr m alg = Ok c /\ length c = length m /\
    aes_decrypt_pub key nonce ctr c alg = Ok m /\ (Forall byte m -> Forall byte c).
Proof.
  intros alg key nonce ctr m Hk Hn Hc.
  assert (HK : bytes_n (klen alg) key) by (destruct alg; exact Hk).
  exists (ctr_pure alg key nonce ctr m). unfold aes_encrypt_pub, aes_decrypt_pub, aes_encrypt, aes_decrypt.
  rewrite seq_from_seq_Ok. cbn [bind]. rewrite !counter_mode_Ok by assumption. conjs.
  - reflexivity.
  - apply ctr_pure_length.
  - rewrite ctr_pure_invol. reflexivity.
  - now apply ctr_pure_bytes.
Qed.
(** Which key stream is used: the encryption of the nonce and the big-endian block counter. *)
Theorem C45_ctr_stream : forall alg key nonce ctr m,
  bytes_n (match alg with Aes128 => 16 | Aes256 => 32 end) key -> bytes_n 12 nonce -> word32 ctr ->
  exists c, aes_encrypt_pub key nonce ctr m alg = Ok c /\ length c = length m /\
    forall j, (j < length m)%nat ->
      nth j c 0 = ctr_byte (match alg with Aes128 => fips_aes 4 10 key | Aes256 => fips_aes 8 14 key end) nonce ctr m j.
Proof.
  intros alg key nonce ctr m Hk Hn Hc.
  assert (HK : bytes_n (klen alg) key) by (destruct alg; exact Hk).
  exists (ctr_pure alg key nonce ctr m). unfold aes_encrypt_pub, aes_encrypt.
  rewrite seq_from_seq_Ok. cbn [bind]. rewrite !counter_mode_Ok by assumption. conjs.
  - reflexivity.
  - apply ctr_pure_length.
  - intros j Hj. unfold ctr_pure. rewrite nth_xor_ks by exact Hj. destruct alg; reflexivity.
Qed.
(** A partial last block (test_aes.rs:31-49 has a full one). *)
Example C45_ex : aes_encrypt_pub kat_key1 kat_ctr_nonce 0xfcfdfeff kat_msg1 Aes128 = Ok kat_ctr_ct /\
  exists c, aes_encrypt_pub kat_key1 kat_ctr_nonce 0xffffffff (repeat 7 20) Aes128 = Ok c /\
  aes_decrypt_pub kat_key1 kat_ctr_nonce 0xffffffff c Aes128 = Ok (repeat 7 20) /\ nth 19 c 0 <> 7.
Proof.
  split; [vm_compute; reflexivity|]. eexists. split; [vm_compute; reflexivity|].
  vm_compute. split; [reflexivity|discriminate].
Qed.

(** *** C42 (GCM part): the GHASH input *)
Theorem C42_gcm_mac_input : forall aad msg,
  Z.of_nat (length aad) < 2 ^ 61 -> Z.of_nat (length msg) < 2 ^ 61 ->
  exists d, gcm_pad_aad_msg aad msg = Ok d /\ d = gcm_mac_data aad msg /\ (length d mod 16 = 0)%nat.
Proof.
  intros aad msg Ha Hm. eexists. split; [now apply gcm_pad_Ok|]. split; [reflexivity|].
  unfold gcm_mac_data. rewrite !app_length, !be_str_length.
  assert (P : forall l, exists q, gcm_padded_len l = (16 * q)%nat).
  { intros l. unfold gcm_padded_len. pose proof (Nat.div_mod l 16 ltac:(lia)).
    pose proof (Nat.mod_upper_bound l 16 ltac:(lia)).
    destruct (Nat.eqb_spec (l mod 16) 0) as [E|E]; [exists (l / 16)%nat|exists (l / 16 + 1)%nat]; lia. }
  pose proof (gcm_padded_len_eq aad) as E1. pose proof (gcm_padded_len_eq msg) as E2.
  destruct (P (length aad)) as [q1 P1]. destruct (P (length msg)) as [q2 P2].
  match goal with |- (?x mod 16 = 0)%nat => replace x with ((q1 + q2 + 1) * 16)%nat by lia end.
  apply Nat.mod_mul. lia.
Qed.
Theorem C42_gcm_mac_input_injective : forall aad msg aad' msg' d,
  Z.of_nat (length aad) < 2 ^ 61 -> Z.of_nat (length msg) < 2 ^ 61 ->
  Z.of_nat (length aad') < 2 ^ 61 -> Z.of_nat (length msg') < 2 ^ 61 ->
  gcm_pad_aad_msg aad msg = Ok d -> gcm_pad_aad_msg aad' msg' = Ok d -> aad = aad' /\ msg = msg'.
Proof.
  intros aad msg aad' msg' d H1 H2 H3 H4 E E'. rewrite gcm_pad_Ok in E, E' by assumption.
  apply gcm_data_inj; trivial; congruence.
Qed.
Example C42_gcm_ex : gcm_pad_aad_msg [1] [2] <> gcm_pad_aad_msg [1; 2] [] /\
  gcm_pad_aad_msg [1] [2] <> gcm_pad_aad_msg [1; 0] [2] /\
  gcm_pad_aad_msg [1; 2] [3] = Ok ([1; 2] ++ repeat 0 14 ++ [3] ++ repeat 0 15 ++ repeat 0 7 ++ [16] ++ repeat 0 7 ++ [8]).
Proof. vm_compute. intuition discriminate. Qed.

(** *** C46: AES-GCM *)
Definition aes_fn (alg : aes_variant) (key : list Z) : list Z -> list Z :=
  match alg with Aes128 => fips_aes 4 10 key | Aes256 => fips_aes 8 14 key end.
Lemma aes_fn_eq alg key : aes_fn alg key = aes_pure alg key.
Proof. destruct alg; reflexivity. Qed.
Theorem C46_decrypt_encrypt : forall alg key iv aad msg,
  bytes_n (match alg with Aes128 => 16 | Aes256 => 32 end) key -> bytes_n 12 iv ->
  Forall byte aad -> Forall byte msg ->
  Z.of_nat (length aad) < 2 ^ 61 -> Z.of_nat (length msg) < 2 ^ 61 ->
  exists ct tag, gcm_encrypt_pub key iv aad msg alg = Ok (ct, tag) /\
    length ct = length msg /\ length tag = 16%nat /\
    gcm_decrypt_pub key iv aad ct tag alg = Ok (Some msg).
Proof.
  intros alg key iv aad msg Hk Hi Ha Hm La Lm.
  assert (HK : bytes_n (klen alg) key) by (destruct alg; exact Hk).
  eexists _, _. split; [now apply gcm_encrypt_Ok|]. split; [apply ctr_pure_length|]. split; [apply gcm_tag_length|].
  rewrite gcm_decrypt_Ok; trivial.
  - rewrite (proj2 (list_eqb_spec _ _)) by reflexivity. rewrite ctr_pure_invol. reflexivity.
  - now apply ctr_pure_bytes.
  - unfold short. rewrite ctr_pure_length. exact Lm.
Qed.
(** Decryption succeeds exactly when the tag is the GCM tag of the cipher text; the result is
    then the counter mode decryption starting at counter 2. *)
Theorem C46_decrypt_accepts_iff : forall alg key iv aad ct tag,
  bytes_n (match alg with Aes128 => 16 | Aes256 => 32 end) key -> bytes_n 12 iv ->
  Forall byte aad -> Forall byte ct -> length tag = 16%nat ->
  Z.of_nat (length aad) < 2 ^ 61 -> Z.of_nat (length ct) < 2 ^ 61 ->
  exists r, gcm_decrypt_pub key iv aad ct tag alg = Ok r /\
    (forall m, r = Some m -> tag = gcm_tag (aes_fn alg key) iv aad ct /\ aes_decrypt_pub key iv 2 ct alg = Ok m) /\
    (r = None <-> tag <> gcm_tag (aes_fn alg key) iv aad ct).
Proof.
  intros alg key iv aad ct tag Hk Hi Ha Hm Lt La Lm.
  assert (HK : bytes_n (klen alg) key) by (destruct alg; exact Hk). rewrite aes_fn_eq.
  eexists. split; [now apply gcm_decrypt_Ok|].
  destruct (list_eqb (gcm_tag (aes_pure alg key) iv aad ct) tag) eqn:E.
  - apply list_eqb_spec in E. split.
    + intros m [= <-]. split; [now symmetry|]. unfold aes_decrypt_pub, aes_decrypt. rewrite seq_from_seq_Ok. cbn [bind].
      apply counter_mode_Ok; trivial. unfold word32; lia.
    + split; [discriminate|]. intros H. now destruct H.
  - split; [discriminate|]. split; [|reflexivity]. intros _ H. subst tag.
    rewrite (proj2 (list_eqb_spec _ _)) in E by reflexivity. discriminate.
Qed.
(** The construction of SP 800-38D for 96-bit IVs. *)
Theorem C46_construction : forall alg key iv aad msg,
  bytes_n (match alg with Aes128 => 16 | Aes256 => 32 end) key -> bytes_n 12 iv ->
  Forall byte aad -> Forall byte msg ->
  Z.of_nat (length aad) < 2 ^ 61 -> Z.of_nat (length msg) < 2 ^ 61 ->
  exists ct, gcm_encrypt_pub key iv aad msg alg = Ok (ct, gcm_tag (aes_fn alg key) iv aad ct) /\
    length ct = length msg /\
    forall j, (j < length msg)%nat -> nth j ct 0 = ctr_byte (aes_fn alg key) iv 2 msg j.
Proof.
  intros alg key iv aad msg Hk Hi Ha Hm La Lm.
  assert (HK : bytes_n (klen alg) key) by (destruct alg; exact Hk). rewrite aes_fn_eq.
  eexists. split; [now apply gcm_encrypt_Ok|]. split; [apply ctr_pure_length|].
  intros j Hj. unfold ctr_pure. rewrite nth_xor_ks by exact Hj. reflexivity.
Qed.
Example C46_ex : bytes_n 16 kat_gcm_key /\ bytes_n 12 kat_gcm_iv /\
  gcm_encrypt_pub kat_gcm_key kat_gcm_iv kat_gcm_aad kat_gcm_msg Aes128 = Ok (kat_gcm_ct, kat_gcm_tag) /\
  gcm_decrypt_pub kat_gcm_key kat_gcm_iv kat_gcm_aad kat_gcm_ct (set_nth kat_gcm_tag 0 0x5a) Aes128 = Ok None.
Proof. conjs; try check_bytes; vm_compute; reflexivity. Qed.
Example C46_ex_256 : bytes_n 32 kat_gcm256_key /\
  gcm_encrypt_pub kat_gcm256_key kat_gcm256_iv kat_gcm256_aad kat_gcm256_msg Aes256 = Ok (kat_gcm256_ct, kat_gcm256_tag).
Proof. conjs; try check_bytes; vm_compute; reflexivity. Qed.

(** *** C47: multiplication in GF(2^128) *)
(** [fmul] returns the only element congruent to the product of the reflected polynomials. *)
Theorem C47_fmul_is_field_product : forall x y r, 0 <= x < 2 ^ 128 -> 0 <= y < 2 ^ 128 ->
  (fmul x y = Ok r <-> 0 <= r < 2 ^ 128 /\
     pcong (2 ^ 128 + 2 ^ 7 + 2 ^ 2 + 2 + 1) (pmul (brev 128 x) (brev 128 y)) (brev 128 r)).
Proof.
  intros x y r Hx Hy. rewrite fmul_Ok by assumption. fold P128.
  pose proof (gf_mul_spec 128 P128 (brev 128 x) (brev 128 y) ltac:(lia) P128_range (brev_range 128 x) (brev_range 128 y)) as [R C].
  split.
  - intros E. assert (E' : gcm_mul x y = r) by congruence. subst r. split; [apply gcm_mul_range|].
    unfold gcm_mul. rewrite brev_invol by exact R. exact C.
  - intros [Hr C']. apply (f_equal Ok). unfold gcm_mul.
    rewrite <- (gf_mul_unique 128 P128 (brev 128 x) (brev 128 y) (brev 128 r)); trivial;
      first [lia | apply P128_range | apply (brev_range 128) | idtac].
    now apply brev_invol.
Qed.
Theorem C47_fmul_ring : forall x y z, 0 <= x < 2 ^ 128 -> 0 <= y < 2 ^ 128 -> 0 <= z < 2 ^ 128 ->
  exists xy yz xz, fmul x y = Ok xy /\ fmul y z = Ok yz /\ fmul x z = Ok xz /\
    fmul y x = Ok xy /\ fmul xy z = fmul x yz /\
    fmul (fadd x y) z = Ok (fadd xz yz) /\ fmul z (fadd x y) = Ok (fadd xz yz) /\
    fmul (2 ^ 127) x = Ok x /\ fmul x (2 ^ 127) = Ok x.
Proof.
  intros x y z Hx Hy Hz. exists (gcm_mul x y), (gcm_mul y z), (gcm_mul x z).
  assert (Hf : u128r (fadd x y)) by (apply lxor_range; trivial; lia).
  assert (H1 : u128r (2 ^ 127)) by (unfold u128r; lia).
  rewrite !fmul_Ok by (assumption || apply gcm_mul_range).
  conjs; trivial; apply (f_equal Ok).
  - apply gcm_mul_comm.
  - symmetry. apply gcm_mul_assoc.
  - apply gcm_mul_lxor_l.
  - rewrite gcm_mul_comm. apply gcm_mul_lxor_l.
  - now apply gcm_mul_one_l.
  - rewrite gcm_mul_comm. now apply gcm_mul_one_l.
Qed.
(** Multiplying by u shifts right: 0x40..0 is u, and u * u^127 = u^128 = u^7 + u^2 + u + 1. *)
Example C47_ex : fmul (2 ^ 126) 1 = Ok IRRED /\
  fmul 0x66e94bd4ef8a2c3b884cfa59ca342b2e 0x0388dace60b6a392f328c2b971b2fe78 = Ok 0x5e2ec746917062882c85b0685353deb7.
Proof. vm_compute. split; reflexivity. Qed.

(** *** C48: GHASH *)
Theorem C48_gmac_is_polynomial : forall text k, Forall byte text -> bytes_n 16 k ->
  exists tag, gmac text k = Ok tag /\ bytes_n 16 tag /\ be_num tag = ghash (be_num k) text.
Proof.
  intros text k Ht Hk. eexists. split; [now apply gmac_Ok|]. split; [apply be_str_bytes|].
  rewrite be_num_val, be_str_eq, be_val_be_bytes. apply Z.mod_small.
  apply ghash_range. now apply encode_Ok.
Qed.
Theorem C48_gmac_linear : forall a b k, Forall byte a -> Forall byte b -> length a = length b -> bytes_n 16 k ->
  exists ta tb, gmac a k = Ok ta /\ gmac b k = Ok tb /\
    gmac (zip_with Z.lxor a b) k = Ok (zip_with Z.lxor ta tb).
Proof.
  intros a b k Ha Hb L Hk. eexists _, _. conjs; [now apply gmac_Ok|now apply gmac_Ok|].
  rewrite gmac_Ok; [|rewrite (map_nth_zip _ _ (length a)) by auto|assumption].
  - rewrite ghash_lxor, be_str_lxor by assumption. reflexivity.
  - apply Forall_forall. intros x Hx. apply in_map_iff in Hx as (i & <- & _). apply xor_byte; now apply nth_byte.
Qed.
Example C48_ex : Forall byte kat_gmac_msg /\ bytes_n 16 kat_gmac_key /\
  gmac kat_gmac_msg kat_gmac_key = Ok kat_gmac_tag /\ gmac [1; 2; 3] kat_gmac_key <> gmac [1; 2] kat_gmac_key.
Proof.
  conjs; [apply (bytes_check (length kat_gmac_msg)); vm_compute; reflexivity|check_bytes|vm_compute; reflexivity|].
  vm_compute. discriminate.
Qed.

(** *** C69: key stream blocks of AES-GCM *)
(** Up to 2^32 - 2 blocks (the limit of SP 800-38D) no block of the message uses the counter
    of another one or counter 1, which masks the tag. *)
Theorem C69_gcm_distinct_counters_within_limit : forall alg key iv aad msg,
  bytes_n (match alg with Aes128 => 16 | Aes256 => 32 end) key -> bytes_n 12 iv ->
  Forall byte aad -> Forall byte msg -> Z.of_nat (length aad) < 2 ^ 61 ->
  Z.of_nat (length msg) <= 16 * (2 ^ 32 - 2) ->
  exists (f : nat -> Z) ct tag, gcm_encrypt_pub key iv aad msg alg = Ok (ct, tag) /\
    (forall j, (j < length msg)%nat -> exists ks,
       aes_ctr_keyblock key iv (f (j / 16)%nat) (nk_of alg) (nr_of alg) alg = Ok ks /\
       nth j ct 0 = Z.lxor (nth j msg 0) (nth (j mod 16) ks 0)) /\
    (forall i, (16 * i < length msg)%nat -> 1 < f i < 2 ^ 32) /\
    (forall i i', (16 * i < length msg)%nat -> (16 * i' < length msg)%nat -> f i = f i' -> i = i').
Proof.
  intros alg key iv aad msg Hk Hi Ha Hm La Lm.
  assert (HK : bytes_n (klen alg) key) by (destruct alg; exact Hk).
  exists (fun i => (2 + Z.of_nat i) mod 2 ^ 32). eexists _, _.
  split; [apply gcm_encrypt_Ok; trivial; unfold short; lia|].
  assert (S : forall i, (16 * i < length msg)%nat -> (2 + Z.of_nat i) mod 2 ^ 32 = 2 + Z.of_nat i).
  { intros i H. apply Z.mod_small. lia. }
  conjs.
  - intros j Hj. eexists. split; [apply keyblock_Ok; trivial; apply Z.mod_pos_bound; lia|].
    unfold ctr_pure. rewrite nth_xor_ks by exact Hj. cbv beta. rewrite ctr_block_mod. reflexivity.
  - intros i H. rewrite S by assumption. lia.
  - intros i i' H H'. rewrite !S by assumption. lia.
Qed.
(** Beyond the limit the counter wraps without an error: block 2^32 - 1 is encrypted with the
    mask of the tag and block 2^32 with the key stream of block 0. *)
Theorem C69_gcm_no_keystream_reuse_refuted : exists key iv msg ct tag,
  bytes_n 16 key /\ bytes_n 12 iv /\ Forall byte msg /\ Z.of_nat (length msg) < 2 ^ 61 /\
  gcm_encrypt_pub key iv [] msg Aes128 = Ok (ct, tag) /\
  (exists mask, aes_ctr_keyblock key iv 1 4 10 Aes128 = Ok mask /\ forall b, (b < 16)%nat ->
     let j := (16 * Z.to_nat (2 ^ 32 - 1) + b)%nat in
     (j < length msg)%nat /\ nth j ct 0 = Z.lxor (nth j msg 0) (nth b mask 0)) /\
  (forall b, (b < 16)%nat -> let j := (16 * Z.to_nat (2 ^ 32) + b)%nat in
     (j < length msg)%nat /\ Z.lxor (nth j ct 0) (nth j msg 0) = Z.lxor (nth b ct 0) (nth b msg 0)).
Proof.
  set (n1 := Z.to_nat (2 ^ 32 - 1)). set (n2 := Z.to_nat (2 ^ 32)).
  assert (E1 : Z.of_nat n1 = 2 ^ 32 - 1) by (apply Z2Nat.id; vm_compute; discriminate).
  assert (E2 : Z.of_nat n2 = 2 ^ 32) by (apply Z2Nat.id; vm_compute; discriminate).
  assert (En : n2 = S n1) by lia.
  clearbody n1 n2.
  set (m := repeat 0 (16 * n2 + 16)). assert (Lm : length m = (16 * n2 + 16)%nat) by apply repeat_length.
  assert (Bm : Forall byte m).
  { apply Forall_forall. intros x Hx. apply repeat_spec in Hx. subst. unfold byte; lia. }
  clearbody m.
  assert (HK : bytes_n 16 kat_key1) by check_bytes.
  assert (HI : bytes_n 12 kat_ctr_nonce) by check_bytes.
  assert (D : forall n b, (b < 16)%nat -> ((16 * n + b) / 16 = n /\ (16 * n + b) mod 16 = b)%nat).
  { intros n b Hb. split; [symmetry; apply (Nat.div_unique _ _ _ b)|symmetry; apply (Nat.mod_unique _ _ n)]; lia. }
  assert (SM : short m) by (unfold short; lia).
  exists kat_key1, kat_ctr_nonce, m. eexists _, _.
  conjs; [exact HK|exact HI|exact Bm|exact SM| | |].
  - apply (gcm_encrypt_Ok Aes128); trivial. unfold short. cbn. lia.
  - eexists. split; [apply (keyblock_Ok Aes128); trivial; unfold word32; lia|].
    intros b Hb. split; [lia|]. unfold ctr_pure. rewrite nth_xor_ks by lia.
    destruct (D n1 b Hb) as [-> ->]. rewrite <- (ctr_block_mod _ _ (2 + Z.of_nat n1)). rewrite E1.
    change ((2 + (2 ^ 32 - 1)) mod 2 ^ 32) with 1. reflexivity.
  - intros b Hb. split; [lia|]. unfold ctr_pure. rewrite !nth_xor_ks by lia.
    destruct (D n2 b Hb) as [-> ->]. rewrite Nat.div_small, Nat.mod_small by lia.
    rewrite <- (ctr_block_mod _ _ (2 + Z.of_nat n2)), E2.
    change ((2 + 2 ^ 32) mod 2 ^ 32) with (2 + Z.of_nat 0).
    rewrite !(Z.lxor_comm (nth _ m 0)), !Z.lxor_assoc, !Z.lxor_nilpotent, !Z.lxor_0_r. reflexivity.
Qed.
Example C69_ex : Z.of_nat (length kat_gcm_msg) <= 16 * (2 ^ 32 - 2) /\
  aes_ctr_keyblock kat_key1 kat_ctr_nonce 1 4 10 Aes128 <> aes_ctr_keyblock kat_key1 kat_ctr_nonce 2 4 10 Aes128.
Proof. split; [vm_compute; discriminate|]. vm_compute. discriminate. Qed.

Print Assumptions C43_byte_product.
Print Assumptions C43_inverse.
Print Assumptions C43_sbox_is_fips.
Print Assumptions C43_sbox_permutation.
Print Assumptions C43_xtime.
Print Assumptions C43_round_functions.
Print Assumptions C43_key_schedule.
Print Assumptions C44_aes128_is_fips.
Print Assumptions C44_aes256_is_fips.
Print Assumptions C44_block_permutation.
Print Assumptions C45_ctr_involution.
Print Assumptions C45_ctr_stream.
Print Assumptions C42_gcm_mac_input.
Print Assumptions C42_gcm_mac_input_injective.
Print Assumptions C46_decrypt_encrypt.
Print Assumptions C46_decrypt_accepts_iff.
Print Assumptions C46_construction.
Print Assumptions C47_fmul_is_field_product.
Print Assumptions C47_fmul_ring.
Print Assumptions C48_gmac_is_polynomial.
Print Assumptions C48_gmac_linear.
Print Assumptions C69_gcm_distinct_counters_within_limit.
Print Assumptions C69_gcm_no_keystream_reuse_refuted.
