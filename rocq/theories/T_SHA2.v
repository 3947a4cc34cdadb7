(** Theorems of record for SHA-256, HMAC and HKDF (properties C49 to C52 and C70). *)
From Coq Require Import ZArith List Bool Arith Lia Znumtheory.
From Verif Require Import Base P_Base M_Int P_Int M_Seq P_Seq M_Bytes P_Bytes P_Word P_Stream
  S_ChaCha S_AES S_SHA2 P_AES P_Poly1305 P_GCM M_SHA2 P_SHA2 P_Float P_HMAC T_ChaCha T_AES.
Import ListNotations.
Open Scope Z_scope.

(** Test vectors: /repo/spec-examples/tests/test_sha2.rs:7-8 and 14-15, test_hmac.rs:19-23,
    test_hkdf.rs:16-23. *)
Definition kat_sha_msg : list Z := [0x68; 0x61; 0x63; 0x73; 0x70; 0x65; 0x63; 0x20; 0x72; 0x75; 0x6c; 0x65; 0x73].
Definition kat_sha_digest : list Z := [0xb3; 0x7d; 0xb5; 0xed; 0x72; 0xc9; 0x7d; 0xa3; 0xb2; 0x57; 0x95; 0x37; 0xaf; 0xbc; 0x32; 0x61; 0xed; 0x3d; 0x5a; 0x56;
   0xf5; 0x7b; 0x3d; 0x8e; 0x5c; 0x10; 0x19; 0xae; 0x35; 0x92; 0x99; 0x64].
Definition kat_sha_msg2 : list Z := [0x68; 0x61; 0x63; 0x73; 0x70; 0x65; 0x63; 0x20; 0x69; 0x73; 0x20; 0x61; 0x20; 0x70; 0x72; 0x6f; 0x70; 0x6f; 0x73; 0x61;
   0x6c; 0x20; 0x66; 0x6f; 0x72; 0x20; 0x61; 0x20; 0x6e; 0x65; 0x77; 0x20; 0x73; 0x70; 0x65; 0x63; 0x69; 0x66; 0x69; 0x63;
   0x61; 0x74; 0x69; 0x6f; 0x6e; 0x20; 0x6c; 0x61; 0x6e; 0x67; 0x75; 0x61; 0x67; 0x65; 0x20; 0x66; 0x6f; 0x72; 0x20; 0x63;
   0x72; 0x79; 0x70; 0x74; 0x6f; 0x20; 0x70; 0x72; 0x69; 0x6d; 0x69; 0x74; 0x69; 0x76; 0x65; 0x73; 0x20; 0x74; 0x68; 0x61;
   0x74; 0x20; 0x69; 0x73; 0x20; 0x73; 0x75; 0x63; 0x63; 0x69; 0x6e; 0x63; 0x74; 0x2c; 0x20; 0x74; 0x68; 0x61; 0x74; 0x20;
   0x69; 0x73; 0x20; 0x65; 0x61; 0x73; 0x79; 0x20; 0x74; 0x6f; 0x20; 0x72; 0x65; 0x61; 0x64; 0x20; 0x61; 0x6e; 0x64; 0x20;
   0x69; 0x6d; 0x70; 0x6c; 0x65; 0x6d; 0x65; 0x6e; 0x74; 0x2c; 0x20; 0x61; 0x6e; 0x64; 0x20; 0x74; 0x68; 0x61; 0x74; 0x20;
   0x6c; 0x65; 0x6e; 0x64; 0x73; 0x20; 0x69; 0x74; 0x73; 0x65; 0x6c; 0x66; 0x20; 0x74; 0x6f; 0x20; 0x66; 0x6f; 0x72; 0x6d;
   0x61; 0x6c; 0x20; 0x76; 0x65; 0x72; 0x69; 0x66; 0x69; 0x63; 0x61; 0x74; 0x69; 0x6f; 0x6e; 0x2e].
Definition kat_sha_digest2 : list Z := [0x34; 0x8e; 0xf0; 0x44; 0x44; 0x6d; 0x56; 0xe0; 0x52; 0x10; 0x36; 0x1a; 0xf5; 0xa2; 0x58; 0x58; 0x8a; 0xd3; 0x17; 0x65;
   0xf4; 0x46; 0xbf; 0x4c; 0xb3; 0xb6; 0x71; 0x25; 0xa1; 0x87; 0xa6; 0x4a].
Definition kat_hmac_key : list Z := [0x4a; 0x65; 0x66; 0x65].
Definition kat_hmac_txt : list Z := [0x77; 0x68; 0x61; 0x74; 0x20; 0x64; 0x6f; 0x20; 0x79; 0x61; 0x20; 0x77; 0x61; 0x6e; 0x74; 0x20; 0x66; 0x6f; 0x72; 0x20;
   0x6e; 0x6f; 0x74; 0x68; 0x69; 0x6e; 0x67; 0x3f].
Definition kat_hmac_tag : list Z := [0x5b; 0xdc; 0xc1; 0x46; 0xbf; 0x60; 0x75; 0x4e; 0x6a; 0x4; 0x24; 0x26; 0x8; 0x95; 0x75; 0xc7; 0x5a; 0x0; 0x3f; 0x8;
   0x9d; 0x27; 0x39; 0x83; 0x9d; 0xec; 0x58; 0xb9; 0x64; 0xec; 0x38; 0x43].
Definition kat_hkdf_ikm : list Z := [0xb; 0xb; 0xb; 0xb; 0xb; 0xb; 0xb; 0xb; 0xb; 0xb; 0xb; 0xb; 0xb; 0xb; 0xb; 0xb; 0xb; 0xb; 0xb; 0xb;
   0xb; 0xb].
Definition kat_hkdf_salt : list Z := [0x0; 0x1; 0x2; 0x3; 0x4; 0x5; 0x6; 0x7; 0x8; 0x9; 0xa; 0xb; 0xc].
Definition kat_hkdf_info : list Z := [0xf0; 0xf1; 0xf2; 0xf3; 0xf4; 0xf5; 0xf6; 0xf7; 0xf8; 0xf9].
Definition kat_hkdf_prk : list Z := [0x7; 0x77; 0x9; 0x36; 0x2c; 0x2e; 0x32; 0xdf; 0xd; 0xdc; 0x3f; 0xd; 0xc4; 0x7b; 0xba; 0x63; 0x90; 0xb6; 0xc7; 0x3b;
   0xb5; 0xf; 0x9c; 0x31; 0x22; 0xec; 0x84; 0x4a; 0xd7; 0xc2; 0xb3; 0xe5].
Definition kat_hkdf_okm : list Z := [0x3c; 0xb2; 0x5f; 0x25; 0xfa; 0xac; 0xd5; 0x7a; 0x90; 0x43; 0x4f; 0x64; 0xd0; 0x36; 0x2f; 0x2a; 0x2d; 0x2d; 0xa; 0x90;
   0xcf; 0x1a; 0x5a; 0x4c; 0x5d; 0xb0; 0x2d; 0x56; 0xec; 0xc4; 0xc5; 0xbf; 0x34; 0x0; 0x72; 0x8; 0xd5; 0xb8; 0x87; 0x18;
   0x58; 0x65].

(** *** C49: the constants, functions and compression of FIPS 180-4 *)
(** [primes] lists exactly the primes below 312, in increasing order, 64 of them. *)
Theorem C49_primes : length primes = 64%nat /\ (forall p, 0 <= p < 312 -> (In p primes <-> prime p)) /\
  (forall i j, (i < j < 64)%nat -> nth i primes 0 < nth j primes 0).
Proof.
  split; [vm_compute; reflexivity|split].
  - intros p Hp. rewrite <- prime_alt. unfold primes.
    assert (E : firstn 64 (filter is_prime (seq 2 310)) = filter is_prime (seq 2 310))
      by (vm_compute; reflexivity).
    rewrite E. clear E. split.
    + intros H. apply in_map_iff in H as (n & <- & H). apply filter_In in H as [H1 H2]. apply in_seq in H1.
      unfold is_prime in H2. rewrite forallb_forall in H2. split; [lia|]. intros d Hd D.
      assert (In (Z.to_nat d) (seq 2 (n - 2))) by (apply in_seq; lia).
      apply H2 in H. apply negb_true_iff, Nat.eqb_neq in H. apply H.
      apply Nat2Z.inj. rewrite Nat2Z.inj_mod, Z2Nat.id by lia. apply Z.mod_divide; [lia|exact D].
    + intros [H1 H2]. apply in_map_iff. exists (Z.to_nat p). split; [lia|]. apply filter_In. split; [apply in_seq; lia|].
      unfold is_prime. apply forallb_forall. intros d Hd. apply in_seq in Hd. apply negb_true_iff, Nat.eqb_neq. intros C.
      apply (H2 (Z.of_nat d)); [lia|]. apply Z.mod_divide; [lia|].
      rewrite <- (Z2Nat.id p) by lia. rewrite <- Nat2Z.inj_mod, C. reflexivity.
  - assert (C : forallb (fun i => nth i primes 0 <? nth (S i) primes 0) (seq 0 63) = true) by (vm_compute; reflexivity).
    rewrite forallb_forall in C.
    intros i j. induction j; intros H; [lia|]. destruct (Nat.eq_dec i j) as [->|N].
    + apply Z.ltb_lt, C, in_seq. lia.
    + specialize (IHj ltac:(lia)). assert (Q : nth j primes 0 < nth (S j) primes 0) by (apply Z.ltb_lt, C, in_seq; lia). lia.
Qed.
(** The model's tables are the first 32 bits of the fractional parts of the cube roots of the
    first 64 primes and of the square roots of the first eight: the integer c is the root of p
    scaled by 2^32 and rounded down. *)
Theorem C49_constants :
  (length k_table = 64%nat /\ forall i, (i < 64)%nat -> exists c, 0 <= c /\
     c ^ 3 <= nth i primes 0 * 2 ^ 96 < (c + 1) ^ 3 /\ nth i k_table 0 = c mod 2 ^ 32) /\
  (length sha256_init = 8%nat /\ forall i, (i < 8)%nat -> exists c, 0 <= c /\
     c ^ 2 <= nth i primes 0 * 2 ^ 64 < (c + 1) ^ 2 /\ nth i sha256_init 0 = c mod 2 ^ 32).
Proof.
  split; (split; [reflexivity|]).
  - assert (C : forallb (fun i => let p := nth i primes 0 * 2 ^ 96 in let c := icbrt 40 p 0 in
        (0 <=? c) && (c ^ 3 <=? p) && (p <? (c + 1) ^ 3) && (nth i k_table 0 =? c mod 2 ^ 32)) (seq 0 64) = true)
      by (vm_compute; reflexivity).
    rewrite forallb_forall in C. intros i Hi. exists (icbrt 40 (nth i primes 0 * 2 ^ 96) 0).
    specialize (C i). rewrite in_seq in C. specialize (C ltac:(lia)). cbv zeta in C.
    revert C. generalize (icbrt 40 (nth i primes 0 * 2 ^ 96) 0). intros c C.
    rewrite !andb_true_iff, !Z.leb_le, Z.ltb_lt, Z.eqb_eq in C. tauto.
  - assert (C : forallb (fun i => let p := nth i primes 0 * 2 ^ 64 in let c := Z.sqrt p in
        (0 <=? c) && (c ^ 2 <=? p) && (p <? (c + 1) ^ 2) && (nth i sha256_init 0 =? c mod 2 ^ 32)) (seq 0 8) = true)
      by (vm_compute; reflexivity).
    rewrite forallb_forall in C. intros i Hi. exists (Z.sqrt (nth i primes 0 * 2 ^ 64)).
    specialize (C i). rewrite in_seq in C. specialize (C ltac:(lia)). cbv zeta in C.
    revert C. generalize (Z.sqrt (nth i primes 0 * 2 ^ 64)). intros c C.
    rewrite !andb_true_iff, !Z.leb_le, Z.ltb_lt, Z.eqb_eq in C. tauto.
Qed.
Example C49_constants_ex : nth 0 k_table 0 = 0x428a2f98 /\ nth 63 primes 0 = 311.
Proof. vm_compute. split; reflexivity. Qed.

(** The bit meaning of the functions of 4.1.2: choice, majority, rotation and shift. *)
Theorem C49_functions_bits : forall x y z i, word32 x -> word32 y -> word32 z -> 0 <= i < 32 ->
  Z.testbit (Ch x y z) i = (if Z.testbit x i then Z.testbit y i else Z.testbit z i) /\
  (Z.testbit (Maj x y z) i = true <->
     (2 <= Z.b2z (Z.testbit x i) + Z.b2z (Z.testbit y i) + Z.b2z (Z.testbit z i))) /\
  (forall n, 0 < n < 32 -> Z.testbit (rotr32 x n) i = Z.testbit x ((i + n) mod 32) /\
                           Z.testbit (shr32 x n) i = Z.testbit x (i + n)).
Proof.
  intros x y z i Hx Hy Hz Hi. unfold word32 in *. split; [|split].
  - unfold Ch. rewrite Z.lxor_spec, !Z.land_spec.
    assert (E : Z.testbit (not32 x) i = negb (Z.testbit x i)).
    { rewrite <- not_Ok by exact Hx. rewrite op_not_testbit by (cbn; lia). reflexivity. }
    rewrite E. now destruct (Z.testbit x i), (Z.testbit y i), (Z.testbit z i).
  - unfold Maj. rewrite !Z.lxor_spec, !Z.land_spec.
    destruct (Z.testbit x i), (Z.testbit y i), (Z.testbit z i); cbn; intuition (try lia; try discriminate).
  - intros n Hn. split.
    + rewrite <- rotr_Ok by (first [exact Hx | lia]). rewrite rotate_right_testbit by (cbn; lia). reflexivity.
    + unfold shr32. rewrite <- Z.shiftr_div_pow2 by lia. now rewrite Z.shiftr_spec by lia.
Qed.
Example C49_functions_bits_ex : word32 0xdeadbeef /\ Ch 0xff 0x12 0x34 = 0x12 /\ rotr32 1 1 = 2 ^ 31.
Proof. unfold word32. split; [lia|]. vm_compute. split; reflexivity. Qed.

(** compress is the hash computation of 6.2.2 on one block. *)
Theorem C49_compress_is_fips : forall b h, bytes_n 64 b -> words8 h ->
  compress b h = Ok (sha_compress h b) /\ words8 (sha_compress h b).
Proof. exact compress_Ok. Qed.
Example C49_compress_is_fips_ex : bytes_n 64 (sha_pad kat_sha_msg) /\ words8 sha256_init.
Proof. split; [check_bytes|]. split; [reflexivity|]. repeat constructor; discriminate. Qed.

(** hash follows FIPS 180-4 on every message whose length is not a multiple of 64. *)
Lemma hash_pure_fips m : (length m mod 64)%nat <> 0%nat -> hash_pure m = fips_sha256 m.
Proof. intros H. unfold hash_pure, code_pad, fips_sha256. apply Nat.eqb_neq in H. now rewrite H. Qed.
Theorem C49_hash_is_fips_partial : forall m, Forall byte m -> Z.of_nat (length m) < 2 ^ 61 ->
  (length m mod 64)%nat <> 0%nat -> hash m = Ok (fips_sha256 m) /\ bytes_n 32 (fips_sha256 m).
Proof.
  intros m F L M. rewrite <- hash_pure_fips by assumption. split; [now apply hash_Ok|now apply hash_pure_bytes].
Qed.
Example C49_hash_is_fips_ex : Forall byte kat_sha_msg /\ (length kat_sha_msg mod 64)%nat <> 0%nat.
Proof. split; [apply (bytes_check 13); reflexivity|discriminate]. Qed.
Example C49_kat1 : hash kat_sha_msg = Ok kat_sha_digest.
Proof. vm_compute. reflexivity. Qed.
Example C49_kat2 : hash kat_sha_msg2 = Ok kat_sha_digest2.
Proof. vm_compute. reflexivity. Qed.
(** On whole blocks (the empty message included) the code adds no padding at all; hash never
    panics below 2^61 bytes and on whole blocks of any number. *)
Theorem C49_whole_blocks_unpadded : forall m, Forall byte m -> (length m mod 64)%nat = 0%nat ->
  hash m = Ok (sha_digest (sha_iter m)).
Proof.
  intros m F M. rewrite hash_Ok; [|assumption|contradiction]. apply (f_equal Ok). unfold hash_pure, code_pad.
  now rewrite M.
Qed.
Example C49_whole_blocks_ex : (length (sha_pad kat_sha_msg) mod 64 = 0)%nat /\ hash [] = Ok (sha_digest H256).
Proof. split; vm_compute; reflexivity. Qed.
Theorem C49_sha256_refuted : exists m d, Forall byte m /\ Z.of_nat (length m) < 2 ^ 61 /\
  hash m = Ok d /\ d <> fips_sha256 m.
Proof.
  exists [], (sha_digest H256). split; [constructor|split; [reflexivity|split; [vm_compute; reflexivity|]]].
  intros H. apply (f_equal (hd 0)) in H. revert H.
  assert (E : hd 0 (fips_sha256 []) = 0xe3) by (vm_compute; reflexivity). rewrite E. vm_compute. discriminate.
Qed.

(** *** C50: collisions *)
(** The padded form of any message is another message with the same digest. *)
Theorem C50_padded_message_collides : forall m, Forall byte m -> Z.of_nat (length m) < 2 ^ 61 ->
  (length m mod 64)%nat <> 0%nat -> sha_pad m <> m /\ hash (sha_pad m) = hash m.
Proof.
  intros m F L M. split.
  - intros E. apply (f_equal (@length Z)) in E. unfold sha_pad in E. rewrite !app_length in E. cbn [length] in E. lia.
  - rewrite C49_whole_blocks_unpadded by (first [now apply sha_pad_bytes | apply sha_pad_mod]).
    destruct (C49_hash_is_fips_partial m F L M) as [-> _]. reflexivity.
Qed.
Theorem C50_padding_separates_refuted : exists m m' d, Forall byte m /\ Forall byte m' /\ m <> m' /\
  hash m = Ok d /\ hash m' = Ok d.
Proof.
  assert (F : Forall byte kat_sha_msg) by (apply (bytes_check 13); reflexivity).
  destruct (C50_padded_message_collides kat_sha_msg F ltac:(cbn; lia) ltac:(discriminate)) as [D E].
  exists kat_sha_msg, (sha_pad kat_sha_msg), kat_sha_digest. split; [assumption|].
  split; [now apply sha_pad_bytes|]. split; [congruence|]. rewrite E. split; exact C49_kat1.
Qed.
(** What holds: the padding itself is injective. *)
Theorem C50_padding_injective : forall m m', Z.of_nat (length m) < 2 ^ 61 -> Z.of_nat (length m') < 2 ^ 61 ->
  sha_pad m = sha_pad m' -> m = m'.
Proof. intros m m' L L' E. apply sha_pad_inj; trivial. now rewrite E. Qed.
Example C50_padding_injective_ex : sha_pad [1] <> sha_pad [1; 0x80].
Proof. intros H. apply C50_padding_injective in H; [discriminate|reflexivity|reflexivity]. Qed.
(** Where two messages with one digest collide is said in T_Collide.v. *)

(** *** C51: HMAC *)
Theorem C51_hmac_is_rfc2104 : exists H : list Z -> list Z,
  (forall m, Forall byte m -> Z.of_nat (length m) < 2 ^ 61 -> hash m = Ok (H m) /\ bytes_n 32 (H m)) /\
  (forall k t, Forall byte k -> Forall byte t -> Z.of_nat (length k) < 2 ^ 61 -> Z.of_nat (length t) < 2 ^ 61 - 64 ->
     hmac k t = Ok (rfc_hmac H k t) /\ bytes_n 32 (rfc_hmac H k t)).
Proof.
  exists hash_pure. split.
  - intros m F L. split; [now apply hash_Ok|now apply hash_pure_bytes].
  - exact hmac_Ok.
Qed.
Example C51_hmac_ex : Forall byte kat_hmac_key /\ Forall byte kat_hmac_txt.
Proof. split; [apply (bytes_check 4); reflexivity|apply (bytes_check 28); reflexivity]. Qed.
Example C51_kat : hmac kat_hmac_key kat_hmac_txt = Ok kat_hmac_tag.
Proof. vm_compute. reflexivity. Qed.
(** Keys of at most 64 bytes are used as they are: a key and the same key followed by zero
    bytes up to 64 give the same tag (as RFC 2104 prescribes), longer ones are hashed first. *)
Theorem C51_long_key_is_hashed : forall k t, Forall byte k -> Forall byte t -> (64 < length k)%nat ->
  Z.of_nat (length k) < 2 ^ 61 -> Z.of_nat (length t) < 2 ^ 61 - 64 ->
  exists k', hash k = Ok k' /\ hmac k t = hmac k' t.
Proof.
  intros k t Fk Ft Lk Sk St. exists (hash_pure k). split; [now apply hash_Ok|].
  destruct (hmac_Ok k t Fk Ft Sk St) as [-> _].
  destruct (hash_pure_bytes k Fk) as [L B].
  destruct (hmac_Ok (hash_pure k) t B Ft) as [-> _]; [unfold short61; rewrite L; lia|assumption|].
  apply (f_equal Ok). unfold mac_pure, rfc_hmac. rewrite L.
  replace (length k <=? 64)%nat with false by (symmetry; apply Nat.leb_gt; lia).
  replace (32 <=? 64)%nat with true by reflexivity. reflexivity.
Qed.
Example C51_long_key_ex : Forall byte (repeat 0xaa 131) /\ (64 < length (repeat 0xaa 131))%nat.
Proof. split; [apply (bytes_check 131); vm_compute; reflexivity|cbn; lia]. Qed.

(** *** C70: agreement with HMAC-SHA-256 and HKDF over the real SHA-256 *)
Theorem C70_hmac_sha256_partial : forall k t, Forall byte k -> Forall byte t ->
  Z.of_nat (length k) < 2 ^ 61 -> Z.of_nat (length t) < 2 ^ 61 - 64 ->
  (length t mod 64)%nat <> 0%nat -> (length k <= 64)%nat \/ (length k mod 64)%nat <> 0%nat ->
  hmac k t = Ok (rfc_hmac fips_sha256 k t).
Proof.
  intros k t Fk Ft Sk St Mt Mk. destruct (hmac_Ok k t Fk Ft Sk St) as [-> _]. apply (f_equal Ok).
  unfold mac_pure, rfc_hmac.
  assert (E : (if (length k <=? 64)%nat then k else hash_pure k) = (if (length k <=? 64)%nat then k else fips_sha256 k)).
  { destruct (Nat.leb_spec (length k) 64); [reflexivity|]. apply hash_pure_fips. destruct Mk; [lia|assumption]. }
  rewrite <- E. clear E.
  set (k0 := zero_extend 64 (if (length k <=? 64)%nat then k else hash_pure k)).
  assert (B : bytes_n 64 k0).
  { unfold k0. split; [apply zero_extend_length|apply zero_extend_bytes].
    - destruct (Nat.leb_spec (length k) 64); [assumption|]. destruct (hash_pure_bytes k Fk) as [-> _]. lia.
    - destruct (Nat.leb_spec (length k) 64); [assumption|]. now apply hash_pure_bytes. }
  clearbody k0. destruct B as [L B].
  assert (Q : forall c (u : list Z), (length u mod 64)%nat <> 0%nat -> 
     (length (map (fun b => Z.lxor b c) k0 ++ u) mod 64)%nat <> 0%nat).
  { intros c u Hu. rewrite app_length, map_length, L. replace (64 + length u)%nat with (length u + 1 * 64)%nat by lia.
    now rewrite Nat.mod_add by lia. }
  rewrite <- (hash_pure_fips (map (fun b => Z.lxor b 54) k0 ++ t)) by now apply Q.
  apply hash_pure_fips, Q.
  destruct (hash_pure_bytes (map (fun b => Z.lxor b 54) k0 ++ t)) as [-> _]; [|discriminate].
  apply Forall_app. split; [apply map_xor_bytes; [apply byte36|assumption]|assumption].
Qed.
Example C70_hmac_sha256_ex : (length kat_hmac_txt mod 64)%nat <> 0%nat /\ (length kat_hmac_key <= 64)%nat.
Proof. split; [discriminate|cbn; lia]. Qed.
Theorem C70_hmac_sha256_refuted : exists k t d, Forall byte k /\ Forall byte t /\
  hmac k t = Ok d /\ d <> rfc_hmac fips_sha256 k t.
Proof.
  exists [], []. assert (E : hd 0 (rfc_hmac fips_sha256 [] []) = 0xb6) by (vm_compute; reflexivity).
  destruct (hmac [] []) as [d|] eqn:H; [|exfalso; revert H; vm_compute; discriminate].
  exists d. split; [constructor|split; [constructor|split; [reflexivity|]]]. intros C. subst d.
  apply (f_equal (fun r => match r with Ok d => hd 0 d | Panic _ => 0 end)) in H. rewrite E in H. revert H. vm_compute. discriminate.
Qed.

(** *** C52: HKDF *)
Theorem C52_hkdf_partial : exists mac : list Z -> list Z -> list Z,
  (forall k t, Forall byte k -> Forall byte t -> Z.of_nat (length k) < 2 ^ 61 -> Z.of_nat (length t) < 2 ^ 61 - 64 ->
     hmac k t = Ok (mac k t) /\ bytes_n 32 (mac k t)) /\
  (forall salt ikm, Forall byte salt -> Forall byte ikm ->
     Z.of_nat (length salt) < 2 ^ 61 -> Z.of_nat (length ikm) < 2 ^ 61 - 64 ->
     extract salt ikm = Ok (rfc_extract mac salt ikm)) /\
  (forall prk info l, Forall byte prk -> Forall byte info -> Z.of_nat (length prk) < 2 ^ 61 ->
     Z.of_nat (length info) < 2 ^ 61 - 97 -> (l <= 254 * 32)%nat ->
     expand prk info l = Ok (rfc_expand mac prk info l)).
Proof.
  exists mac_pure. split; [exact hmac_Ok|]. split; [|exact expand_Ok].
  intros. now apply extract_Ok.
Qed.
Example C52_hkdf_ex : Forall byte kat_hkdf_salt /\ Forall byte kat_hkdf_ikm /\ Forall byte kat_hkdf_info.
Proof. conjs; [apply (bytes_check 13)|apply (bytes_check 22)|apply (bytes_check 10)]; reflexivity. Qed.
Example C52_extract_kat : extract kat_hkdf_salt kat_hkdf_ikm = Ok kat_hkdf_prk.
Proof. vm_compute. reflexivity. Qed.
Example C52_expand_kat : expand kat_hkdf_prk kat_hkdf_info 42 = Ok kat_hkdf_okm.
Proof. vm_compute. reflexivity. Qed.
(** The output has the requested length, and shorter outputs are prefixes of longer ones. *)
Theorem C52_expand_prefixes : forall prk info l l', Forall byte prk -> Forall byte info ->
  Z.of_nat (length prk) < 2 ^ 61 -> Z.of_nat (length info) < 2 ^ 61 - 97 -> (l <= l' <= 254 * 32)%nat ->
  exists okm', expand prk info l' = Ok okm' /\ length okm' = l' /\ expand prk info l = Ok (firstn l okm').
Proof.
  intros prk info l l' Fp Fi Sp Si Hl. exists (rfc_expand mac_pure prk info l').
  rewrite !expand_Ok by (trivial; lia). split; [reflexivity|].
  assert (N : forall n : nat, (n <= l')%nat -> ((n + 31) / 32 <= 254)%nat /\ (n <= 32 * ((n + 31) / 32))%nat).
  { intros n Hn. assert (D := Nat.div_mod_eq (n + 31) 32). assert (M := Nat.mod_upper_bound (n + 31) 32 ltac:(discriminate)).
    split; [|lia]. assert ((n + 31) / 32 < 255)%nat by (apply Nat.div_lt_upper_bound; lia). lia. }
  assert (LT : forall k, (k <= 254)%nat -> Forall (fun x => length x = 32%nat) (map (rfc_T mac_pure prk info) (seq 1 k))).
  { intros k Hk. apply Forall_forall. intros x Hx. apply in_map_iff in Hx as (j & <- & Hj). apply in_seq in Hj.
    destruct (T_bytes prk info j Fp Fi Sp Si ltac:(lia)) as [[? _]|[B _]]; [lia|exact B]. }
  destruct (N l ltac:(lia)) as [N1 N2], (N l' ltac:(lia)) as [N1' N2']. split.
  - unfold rfc_expand. rewrite firstn_length, (concat_length_const 32) by now apply LT.
    rewrite map_length, seq_length. lia.
  - apply (f_equal Ok). unfold rfc_expand. rewrite firstn_firstn, Nat.min_l by lia.
    assert (LE : ((l + 31) / 32 <= (l' + 31) / 32)%nat) by (apply Nat.div_le_mono; lia).
    set (a := ((l + 31) / 32)%nat) in *. set (b := ((l' + 31) / 32)%nat) in *.
    replace b with (a + (b - a))%nat by lia. rewrite seq_app, map_app, concat_app, firstn_app.
    rewrite (concat_length_const 32) by (apply LT; lia). rewrite map_length, seq_length.
    replace (l - 32 * a)%nat with 0%nat by lia. cbn [firstn]. now rewrite app_nil_r.
Qed.
Example C52_expand_prefixes_ex : Forall byte kat_hkdf_prk /\ (10 <= 42 <= 254 * 32)%nat.
Proof. split; [apply (bytes_check 32); reflexivity|lia]. Qed.
(** RFC 5869 allows L up to 255 * 32 = 8160; the code panics on every L above 8128. *)
Theorem C52_expand_too_long_panics : forall prk info l, (254 * 32 < l)%nat -> expand prk info l = Panic PAssert.
Proof. exact expand_panic. Qed.
Example C52_expand_too_long_ex : (254 * 32 < 255 * 32)%nat.
Proof. lia. Qed.
Theorem C52_expand_refuted : exists prk info l, Forall byte prk /\ Forall byte info /\ (l <= 255 * 32)%nat /\
  ~ exists okm, expand prk info l = Ok okm.
Proof.
  exists kat_hkdf_prk, [], (255 * 32)%nat. split; [apply (bytes_check 32); reflexivity|]. split; [constructor|].
  split; [lia|]. intros [okm H]. rewrite expand_panic in H by lia. discriminate.
Qed.
(** HKDF over the real SHA-256, for the lengths that avoid whole blocks. *)
Theorem C70_hkdf_sha256_partial : forall prk info l, Forall byte prk -> Forall byte info ->
  (length prk <= 64)%nat -> Z.of_nat (length info) < 2 ^ 61 - 97 ->
  (length info mod 64)%nat <> 63%nat -> (length info mod 64)%nat <> 31%nat -> (l <= 254 * 32)%nat ->
  expand prk info l = Ok (rfc_expand (rfc_hmac fips_sha256) prk info l).
Proof.
  intros prk info l Fp Fi Lp Si M1 M2 Hl. assert (Sp : short61 prk) by (unfold short61; lia).
  rewrite expand_Ok by assumption. apply (f_equal Ok). unfold rfc_expand. f_equal. f_equal.
  assert (E : forall i, (i <= 254)%nat -> rfc_T mac_pure prk info i = rfc_T (rfc_hmac fips_sha256) prk info i).
  { induction i as [|i IH]; intros Hi; [reflexivity|]. cbn [rfc_T]. rewrite <- IH by lia.
    destruct (T_bytes prk info i Fp Fi Sp Si ltac:(lia)) as [[-> ->]|[L B]].
    - assert (F : Forall byte ([] ++ info ++ [Z.of_nat 1])).
      { cbn [app]. apply Forall_app; split; [assumption|]. repeat constructor; lia. }
      assert (S1 : Z.of_nat (length ([] ++ info ++ [Z.of_nat 1])) < 2 ^ 61 - 64) by (cbn [app]; rewrite app_length; cbn [length]; lia).
      assert (H1 := hmac_Ok prk _ Fp F Sp S1). assert (H2 := C70_hmac_sha256_partial prk _ Fp F Sp S1).
      destruct H1 as [H1 _]. rewrite H2 in H1; [injection H1 as H1; now symmetry| |now left].
      cbn [app]. rewrite app_length. cbn [length]. pose proof (Nat.div_mod_eq (length info) 64) as D.
      pose proof (Nat.mod_upper_bound (length info) 64 ltac:(discriminate)).
      intros C. apply M1. apply Nat.mod_divide in C as [q C]; [|discriminate]. 
      symmetry. apply (Nat.mod_unique _ _ (q - 1)); lia.
    - set (x := rfc_T mac_pure prk info i ++ info ++ [Z.of_nat (S i)]).
      assert (F : Forall byte x).
      { apply Forall_app; split; [assumption|]. apply Forall_app; split; [assumption|]. repeat constructor; lia. }
      assert (LX : length x = (length info + 33)%nat) by (unfold x; rewrite !app_length, L; cbn [length]; lia).
      assert (S1 : Z.of_nat (length x) < 2 ^ 61 - 64) by lia.
      assert (H1 := hmac_Ok prk _ Fp F Sp S1). assert (H2 := C70_hmac_sha256_partial prk _ Fp F Sp S1).
      destruct H1 as [H1 _]. rewrite H2 in H1; [injection H1 as H1; now symmetry| |now left].
      rewrite LX. intros C. apply M2. apply Nat.mod_divide in C as [q C]; [|discriminate].
      symmetry. apply (Nat.mod_unique _ _ (q - 1)); lia. }
  apply map_ext_in. intros i Hi. apply in_seq in Hi. apply E.
  assert ((l + 31) / 32 < 255)%nat by (apply Nat.div_lt_upper_bound; lia). lia.
Qed.
Example C70_hkdf_sha256_ex : (length kat_hkdf_info mod 64)%nat = 10%nat /\ (length kat_hkdf_prk <= 64)%nat.
Proof. split; [reflexivity|cbn; lia]. Qed.

Print Assumptions C49_primes.
Print Assumptions C49_constants.
Print Assumptions C49_functions_bits.
Print Assumptions C49_compress_is_fips.
Print Assumptions C49_hash_is_fips_partial.
Print Assumptions C49_whole_blocks_unpadded.
Print Assumptions C49_sha256_refuted.
Print Assumptions C50_padded_message_collides.
Print Assumptions C50_padding_separates_refuted.
Print Assumptions C50_padding_injective.
Print Assumptions C51_hmac_is_rfc2104.
Print Assumptions C51_long_key_is_hashed.
Print Assumptions C70_hmac_sha256_partial.
Print Assumptions C70_hmac_sha256_refuted.
Print Assumptions C52_hkdf_partial.
Print Assumptions C52_expand_prefixes.
Print Assumptions C52_expand_too_long_panics.
Print Assumptions C52_expand_refuted.
Print Assumptions C70_hkdf_sha256_partial.
