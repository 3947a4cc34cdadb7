(** What a release build of the specifications does (property C106): theorems of record about
    M_ReleaseSpecs.v. *)
From Coq Require Import ZArith List Bool Arith Lia.
From Verif Require Import Base P_Base M_Int P_Int M_Seq P_Seq M_Bytes P_Bytes M_Vec P_Word P_Stream M_ChaCha
  S_ChaCha P_ChaCha P_Poly1305 T_ChaCha M_AES S_AES P_AES P_GCM T_AES M_Keccak S_Keccak P_Keccak P_Sponge T_Keccak S_Blake2 M_Blake2 P_Blake2 T_Blake2
  M_X25519 S_X25519 T_X25519 M_Release P_Release M_ReleaseSpecs P_ReleaseSpecs.
Import ListNotations.
Open Scope Z_scope.
Local Ltac wit := eexists; first [eassumption | reflexivity].

(** a byte string that fits in memory *)
Definition in_memory (l : list Z) : Prop := Z.of_nat (length l) < 2 ^ 63.
(** associated data and text that fit in memory with their padding and the block of lengths *)
Definition pad_to_16 (n : Z) : Z := 16 * ((n + 15) / 16).
Definition fit_together (aad msg : list Z) : Prop :=
  pad_to_16 (Z.of_nat (length aad)) + pad_to_16 (Z.of_nat (length msg)) + 16 < 2 ^ 63.

Lemma padded_len_num n : Z.of_nat (padded_len n) = pad_to_16 (Z.of_nat n).
Proof.
  unfold padded_len, pad_to_16. pose proof (Nat.div_mod n 16 ltac:(lia)) as D. pose proof (Nat.mod_upper_bound n 16 ltac:(lia)) as U.
  set (q := (n / 16)%nat) in *. set (r := (n mod 16)%nat) in *. rewrite D.
  destruct (Nat.eqb_spec r 0) as [E|E].
  - replace (Z.of_nat (16 * q + r) + 15) with (15 + Z.of_nat q * 16) by lia. rewrite Z.div_add by lia. change (15 / 16) with 0. lia.
  - replace (Z.of_nat (16 * q + r) + 15) with ((Z.of_nat r - 1) + (Z.of_nat q + 1) * 16) by lia. rewrite Z.div_add by lia.
    rewrite (Z.div_small (Z.of_nat r - 1)) by lia. lia.
Qed.
Lemma gcm_padded_len_num n : gcm_padded_len n = padded_len n.
Proof.
  unfold gcm_padded_len, padded_len. pose proof (Nat.div_mod n 16 ltac:(lia)). pose proof (Nat.mod_upper_bound n 16 ltac:(lia)).
  destruct (_ =? _)%nat; lia.
Qed.
Lemma fit_cp a m : fit_together a m -> cp_fits a m.
Proof. unfold fit_together, cp_fits. rewrite <- !padded_len_num. lia. Qed.
Lemma fit_gcm a m : fit_together a m -> gcm_fits a m.
Proof. unfold fit_together, gcm_fits. rewrite !gcm_padded_len_num, <- !padded_len_num. lia. Qed.
Lemma fit_len a m : fit_together a m -> Z.of_nat (length a) < 2 ^ 64 /\ Z.of_nat (length m) < 2 ^ 64.
Proof.
  intros H. apply fit_cp in H. unfold cp_fits in H. pose proof (padded_ge (length a)). pose proof (padded_ge (length m)). lia.
Qed.
Lemma same {A} (x y : res A) : refines x y -> is_ok x -> y = x.
Proof. intros H [a E]. rewrite E. now apply H. Qed.

(** * Whatever the debug build returns, the release build returns *)
Theorem C106_refines : forall key iv aad msg tag alg nk nr ctr s p data n,
  in_memory msg -> fit_together aad msg -> in_memory data -> Z.of_nat n < 2 ^ 63 ->
  (forall v, block key ctr iv = Ok v -> rblock key ctr iv = Ok v) /\
  (forall v, chacha key iv msg = Ok v -> rchacha key iv msg = Ok v) /\
  (forall v, poly msg key = Ok v -> rpoly msg key = Ok v) /\
  (forall v, cp_encrypt key iv aad msg = Ok v -> rcp_encrypt key iv aad msg = Ok v) /\
  (forall v, cp_decrypt key iv aad msg tag = Ok v -> rcp_decrypt key iv aad msg tag = Ok v) /\
  (forall v, aes_encrypt_block key p nk nr alg = Ok v -> raes_encrypt_block key p nk nr alg = Ok v) /\
  (forall v, aes_counter_mode key iv ctr msg nk nr alg = Ok v -> raes_counter_mode key iv ctr msg nk nr alg = Ok v) /\
  (forall v, gmac msg key = Ok v -> rgmac msg key = Ok v) /\
  (forall v, gcm_encrypt key iv aad msg alg = Ok v -> rgcm_encrypt key iv aad msg alg = Ok v) /\
  (forall v, gcm_decrypt key iv aad msg tag alg = Ok v -> rgcm_decrypt key iv aad msg tag alg = Ok v) /\
  (forall rate q v, (0 < rate)%nat -> Z.of_nat rate < 2 ^ 64 ->
     keccak rate data q n = Ok v -> rkeccak rate data q n = Ok v) /\
  (forall t a v, t = U32 \/ t = U64 -> blake2 t data a = Ok v -> rblake2 t data a = Ok v) /\
  (forall v, scalarmult s p = Ok v -> rscalarmult s p = Ok v).
Proof.
  intros key iv aad msg tag alg nk nr ctr s p data n Hm Hf Hd Hn. conjs.
  - apply rf_block.
  - now apply rf_chacha.
  - apply rf_poly.
  - now apply rf_cp_encrypt, fit_cp.
  - now apply rf_cp_decrypt, fit_cp.
  - apply rf_encrypt_block.
  - now apply rf_ctr.
  - now apply rf_gmac.
  - now apply rf_gcm_encrypt, fit_gcm.
  - now apply rf_gcm_decrypt, fit_gcm.
  - intros rate q v H0 H1. now apply rf_keccak.
  - intros t a v [-> | ->]; now apply rf_blake2.
  - apply rf_scalarmult.
Qed.
Example C106_refines_ex : fit_together kat_aead_aad kat_aead_msg /\
  rcp_encrypt kat_aead_key kat_aead_iv kat_aead_aad kat_aead_msg = Ok (kat_aead_ct, kat_aead_tag) /\
  rgcm_encrypt_pub kat_gcm_key kat_gcm_iv kat_gcm_aad kat_gcm_msg Aes128 = Ok (kat_gcm_ct, kat_gcm_tag) /\
  rsha3224 kat_sha3_msg = Ok kat_sha3_224.
Proof. conjs; vm_compute; reflexivity. Qed.

(** * On the inputs the types admit, a release build does what a debug build does *)
Theorem C106_chacha20_poly1305 : forall key iv aad msg tag,
  bytes_n 32 key -> bytes_n 12 iv -> Forall byte aad -> Forall byte msg -> fit_together aad msg ->
  is_ok (rcp_encrypt key iv aad msg) /\ rcp_encrypt key iv aad msg = cp_encrypt key iv aad msg /\
  is_ok (rcp_decrypt key iv aad msg tag) /\ rcp_decrypt key iv aad msg tag = cp_decrypt key iv aad msg tag /\
  rchacha key iv msg = chacha key iv msg /\ rpoly_mac msg key iv = poly_mac msg key iv.
Proof.
  intros key iv aad msg tag Hk Hi Ha Hm Hf. destruct (fit_len _ _ Hf) as [La Lm].
  assert (E : is_ok (cp_encrypt key iv aad msg)).
  { destruct (C41_decrypt_encrypt key iv aad msg Hk Hi Ha Hm La Lm) as (c & t & E & _). wit. }
  assert (D : is_ok (cp_decrypt key iv aad msg tag)).
  { destruct (C41_decrypt_accepts_iff key iv aad msg tag Hk Hi Ha Hm La Lm) as (r & E' & _). wit. }
  assert (C : is_ok (chacha key iv msg)).
  { destruct (C36_chacha_involution key iv msg Hk Hi) as (c & E' & _). wit. }
  assert (P : is_ok (poly_mac msg key iv)).
  { destruct (C40_poly_mac_key msg key iv Hk Hi) as (ks & B & E'). rewrite E'.
    destruct (C37_block_is_rfc key 0 iv Hk Hi ltac:(split; [lia|reflexivity])) as (b & B' & L & _).
    assert (ks = b) by congruence. subst b.
    destruct (C40_poly1305_value msg (firstn 32 ks)) as (t & Et & _); [|assumption|wit].
    pose proof (P_ChaCha.block_Ok key 0 iv Hk Hi ltac:(split; [lia|reflexivity])) as B2. rewrite B2 in B. apply Ok_inj in B. subst ks.
    exact (P_Poly1305.otk_bytes key iv). }
  rewrite (same _ _ (rf_cp_encrypt key iv aad msg (fit_cp _ _ Hf)) E).
  rewrite (same _ _ (rf_cp_decrypt key iv aad msg tag (fit_cp _ _ Hf)) D).
  conjs; trivial.
  - apply same; [|exact C]. apply rf_chacha. now apply (cp_fits_real aad), fit_cp.
  - apply same; [apply rf_poly_mac|exact P].
Qed.
Example C106_chacha20_poly1305_ex : bytes_n 32 kat_aead_key /\ bytes_n 12 kat_aead_iv /\
  rcp_decrypt kat_aead_key kat_aead_iv kat_aead_aad kat_aead_ct kat_aead_tag = Ok (Some kat_aead_msg).
Proof. conjs; try (apply bytes_check); vm_compute; reflexivity. Qed.

Theorem C106_aes_gcm : forall alg key iv aad msg tag ctr,
  bytes_n (match alg with Aes128 => 16 | Aes256 => 32 end) key -> bytes_n 12 iv -> Forall byte aad -> Forall byte msg ->
  length tag = 16%nat -> word32 ctr -> Z.of_nat (length aad) < 2 ^ 61 -> Z.of_nat (length msg) < 2 ^ 61 ->
  is_ok (rgcm_encrypt_pub key iv aad msg alg) /\ rgcm_encrypt_pub key iv aad msg alg = gcm_encrypt_pub key iv aad msg alg /\
  is_ok (rgcm_decrypt_pub key iv aad msg tag alg) /\
  rgcm_decrypt_pub key iv aad msg tag alg = gcm_decrypt_pub key iv aad msg tag alg /\
  raes_encrypt_pub key iv ctr msg alg = aes_encrypt_pub key iv ctr msg alg /\
  raes_decrypt_pub key iv ctr msg alg = aes_decrypt_pub key iv ctr msg alg.
Proof.
  intros alg key iv aad msg tag ctr Hk Hi Ha Hm Ht Hc La Lm.
  assert (G : gcm_fits aad msg).
  { unfold gcm_fits, gcm_padded_len. do 2 destruct (_ =? _)%nat; lia. }
  assert (E : is_ok (gcm_encrypt_pub key iv aad msg alg)).
  { destruct (C46_decrypt_encrypt alg key iv aad msg Hk Hi Ha Hm La Lm) as (c & t & E & _). wit. }
  assert (D : is_ok (gcm_decrypt_pub key iv aad msg tag alg)).
  { destruct (C46_decrypt_accepts_iff alg key iv aad msg tag Hk Hi Ha Hm Ht La Lm) as (r & E' & _). wit. }
  destruct (C45_ctr_involution alg key iv ctr msg Hk Hi Hc) as (c & Ec & _).
  assert (R1 : refines (gcm_encrypt_pub key iv aad msg alg) (rgcm_encrypt_pub key iv aad msg alg)).
  { apply refines_bind; [apply refines_refl|intros ks _; now apply rf_gcm_encrypt]. }
  assert (R2 : refines (gcm_decrypt_pub key iv aad msg tag alg) (rgcm_decrypt_pub key iv aad msg tag alg)).
  { apply refines_bind; [apply refines_refl|intros ks _; now apply rf_gcm_decrypt]. }
  assert (R3 : refines (aes_encrypt_pub key iv ctr msg alg) (raes_encrypt_pub key iv ctr msg alg)).
  { apply refines_bind; [apply refines_refl|intros ks _]. apply rf_ctr. now apply (gcm_fits_real aad). }
  rewrite (same _ _ R1 E), (same _ _ R2 D). conjs; trivial; apply same; trivial; wit.
Qed.
Example C106_aes_gcm_ex : bytes_n 16 kat_gcm_key /\ bytes_n 12 kat_gcm_iv /\ length kat_gcm_tag = 16%nat /\
  rgcm_decrypt_pub kat_gcm_key kat_gcm_iv kat_gcm_aad kat_gcm_ct kat_gcm_tag Aes128 = Ok (Some kat_gcm_msg).
Proof. conjs; try (apply bytes_check); vm_compute; reflexivity. Qed.

Lemma keccak_same rate data p n sfx : (0 < rate <= 200)%nat -> Forall byte data -> in_memory data -> suffix_byte sfx p ->
  Z.of_nat n < 2 ^ 63 -> rkeccak rate data p n = keccak rate data p n /\ exists d, keccak rate data p n = Ok d /\ length d = n.
Proof.
  intros Hr Hd R Hp Hn. destruct (C53_keccak_is_sponge rate data p sfx n Hr Hd Hp) as (d & E & [L _] & _). split.
  - apply same; [|wit]. apply rf_keccak; trivial; lia.
  - now exists d.
Qed.
Lemma sha3_same rate data n sfx : (0 < rate <= 200)%nat -> Forall byte data -> in_memory data -> suffix_byte sfx 6 ->
  Z.of_nat n < 2 ^ 63 ->
  (let* t := rkeccak rate data 0x06 n in rarr_from 0 n t) = (let* t := keccak rate data 0x06 n in arr_from_seq 0 n t).
Proof.
  intros Hr Hd R Hp Hn. destruct (keccak_same rate data 6 n sfx Hr Hd R Hp Hn) as [-> (d & -> & L)]. cbn [bind].
  rewrite rarr_from_eq by exact L. now rewrite arr_from_seq_Ok.
Qed.
(** The digests are those of FIPS 202 (C53); an output longer than memory panics. *)
Theorem C106_sha3 : forall data, Forall byte data -> in_memory data ->
  rsha3224 data = sha3224 data /\ rsha3256 data = sha3256 data /\
  rsha3384 data = sha3384 data /\ rsha3512 data = sha3512 data /\
  (exists d, rsha3256 data = Ok d /\ byte_bits d = SHA3 256 (byte_bits data)) /\
  (forall n, Z.of_nat n < 2 ^ 63 -> rshake128 data n = shake128 data n /\ rshake256 data n = shake256 data n /\
     (exists d, rshake128 data n = Ok d /\ byte_bits d = SHAKE 128 (byte_bits data) (8 * n))) /\
  (forall n, 2 ^ 63 <= Z.of_nat n -> panics (rshake128 data n) /\ panics (rshake256 data n)).
Proof.
  intros data Hd R.
  destruct (C53_keccak_is_sponge_ex) as (S6 & S1F & _).
  assert (E256 : rsha3256 data = sha3256 data) by (apply (sha3_same sha3256_rate data 32 _ ltac:(unfold sha3256_rate; lia) Hd R S6); lia).
  conjs.
  - apply (sha3_same sha3224_rate data 28 _ ltac:(unfold sha3224_rate; lia) Hd R S6); lia.
  - exact E256.
  - apply (sha3_same sha3384_rate data 48 _ ltac:(unfold sha3384_rate; lia) Hd R S6); lia.
  - apply (sha3_same sha3512_rate data 64 _ ltac:(unfold sha3512_rate; lia) Hd R S6); lia.
  - rewrite E256. destruct (C53_sha3 data Hd) as (_ & (d & E & _ & B) & _). now exists d.
  - intros n Hn.
    assert (E1 : rshake128 data n = shake128 data n)
      by (apply (keccak_same shake128_rate data 0x1f n _ ltac:(unfold shake128_rate; lia) Hd R S1F Hn)).
    conjs.
    + exact E1.
    + apply (keccak_same shake256_rate data 0x1f n _ ltac:(unfold shake256_rate; lia) Hd R S1F Hn).
    + rewrite E1. destruct (C53_shake data n Hd) as ((d & E & _ & B) & _). now exists d.
  - intros n Hn.
    assert (P : forall s rate, panics (rsqueeze s n rate)).
    { intros s rate. unfold rsqueeze, ralloc. destruct (Z.ltb_spec (Z.of_nat n) (2 ^ 63)); [lia|]. wit. }
    assert (K : forall rate, panics (rkeccak rate data 0x1f n)).
    { intros rate. unfold rkeccak. cbv zeta.
      repeat match goal with
      | |- panics (bind ?x _) => destruct x; [cbn [bind]|wit]
      | |- panics (let (_, _) := ?p in _) => destruct p
      end. apply P. }
    split; apply K.
Qed.
Example C106_sha3_ex : Forall byte kat_sha3_msg /\ in_memory kat_sha3_msg /\ rshake128 kat_sha3_msg 16 = Ok kat_shake /\
  exists n, 2 ^ 63 <= Z.of_nat n.
Proof.
  conjs.
  - apply (bytes_check (length kat_sha3_msg)). vm_compute. reflexivity.
  - vm_compute. reflexivity.
  - vm_compute. reflexivity.
  - exists (Z.to_nat (2 ^ 63)). rewrite Z2Nat.id by lia. lia.
Qed.

(** ** BLAKE2 *)
Theorem C106_blake2b : forall m, Forall byte m -> in_memory m ->
  rblake2b m = blake2b m /\ is_ok (rblake2b m) /\ ((length m mod 128)%nat <> 0%nat -> rblake2b m = Ok (rfc_blake2 blake2b_params 64 m)).
Proof.
  intros m F R. assert (L : Z.of_nat (length m) < 2 ^ 64) by (unfold in_memory in R; lia).
  assert (O : is_ok (blake2b m)) by (destruct (blake2b_Ok m F L) as [E _]; wit).
  assert (E : rblake2b m = blake2b m).
  { apply same; [|exact O]. apply refines_bind; [now apply rf_blake2|intros d _; apply rf_from_seq]. }
  rewrite E. conjs; trivial. intros H. now apply C55_blake2b_partial.
Qed.
Lemma rdigest32_panics t h : panics (for_range 0 8 (fun i d => for_range 0 8 (fun j d =>
      let* hi := idx h i in
      let* b := rblake_get_byte t hi j in
      upd d (i * 8 + j) b) d) (seq_new 0 32)).
Proof.
  apply (for_range_panic (fun d => length d = 32%nat)) with (k := 4%nat); [lia|reflexivity| |].
  - intros i s s' L E. revert E. apply (for_keeps (fun d : list Z => length d = 32%nat)); [|exact L].
    intros j d d' L' E. ok_inv E. apply upd_keeps in E. congruence.
  - intros s L. cbn [for_range]. apply bind_panics.
    destruct (idx h 4) as [hi|p]; cbn [bind]; [|now exists p]. destruct (rblake_get_byte t hi 0) as [b|p]; cbn [bind]; [|now exists p].
    exists PIndex. rewrite upd_panic by (rewrite L; lia). reflexivity.
Qed.
(** The variant Blake2S never returns in a release build either.  With 32-bit words and the variant Blake2B
    a non-empty input panics as in a debug build, but the empty input now gives a digest: reading
    byte 4 of a 32-bit word shifts by 32, and a release build shifts by 0 instead. *)
Theorem C106_blake2_other_variants : forall t data,
  panics (rblake2 t data Blake2S) /\
  (is_ok (rblake2 U32 data Blake2B) <-> data = []).
Proof.
  intros t data. split.
  - unfold rblake2. cbv zeta. destruct (idx (iv t) 0) as [h0|p]; cbn [bind]; [|now exists p].
    destruct (upd (iv t) 0 _) as [h1|p]; cbn [bind]; [|now exists p].
    destruct (num_chunks data 128) as [n|p]; cbn [bind]; [|now exists p].
    destruct (for_range 0 n _ _) as [[h c]|p]; cbn [bind]; [|now exists p]. apply rdigest32_panics.
  - split; [|intros ->; eexists; vm_compute; reflexivity].
    intros O. destruct data as [|x data]; [reflexivity|exfalso].
    assert (P : panics (rblake2 U32 (x :: data) Blake2B)); [|destruct O as [? O], P as [? P]; congruence]. clear O.
    set (data' := x :: data). assert (L : (1 <= length data')%nat) by (cbn; lia). clearbody data'. clear x data.
    unfold rblake2. cbv zeta. change (idx (iv U32) 0) with (Ok 0x6a09e667). cbn [bind].
    destruct (upd (iv U32) 0 _) as [h1|p] eqn:U; cbn [bind]; [|now exists p].
    rewrite num_chunks_Ok by lia. cbn [bind].
    assert (N : exists n, ((length data' + 128 - 1) / 128)%nat = S n).
    { exists ((length data' - 1) / 128)%nat. replace (length data' + 128 - 1)%nat with (1 * 128 + (length data' - 1))%nat by lia.
      rewrite Nat.div_add_l by lia. lia. }
    destruct N as [n ->]. apply bind_panics. cbn [for_range]. apply bind_panics.
    assert (P : forall h m c l, length m = 128%nat -> panics (rcompress U32 h m c l Blake2B)).
    { intros h m c l Lm. unfold rcompress, rmake_array. change (bytes_of U32) with 4%nat. rewrite Lm. now exists PAssert. }
    destruct (rget_chunk 0 data' 128 0) as [[bl bk]|p] eqn:G; [cbn [bind]|now exists p].
    assert (Lb : length bk = bl).
    { unfold rget_chunk in G. cbv zeta in G. unfold rsub_, ralloc in G. destruct (_ <? _); [|discriminate G]. cbn [bind] in G. ok_inv G.
      apply Ok_inj in G. injection G as <- <-.
      match goal with H : rupdate_sub _ _ _ _ _ = Ok _ |- _ => unfold rupdate_sub in H;
        apply (for_keeps (fun l : list Z => length l = rget_chunk_len data' 128 0)) in H; [exact H| |apply repeat_length] end.
      intros ? ? ? L' E. ok_inv E. apply upd_keeps in E. congruence. }
    destruct (Nat.eqb_spec bl 128) as [Q|Q].
    + match goal with |- panics (bind ?X _) => destruct X as [?|p]; [cbn [bind]|now exists p] end.
      rewrite seq_from_seq_Ok. cbn [bind]. apply bind_panics, P. lia.
    + match goal with |- panics (bind ?X _) => destruct X as [?|p]; [cbn [bind]|now exists p] end.
      match goal with |- panics (bind ?X _) => destruct X as [b|p] eqn:E; [cbn [bind]|now exists p] end.
      apply bind_panics, P. unfold rupdate_start, rupdate_sub in E.
      apply (for_keeps (fun l : list Z => length l = 128%nat)) in E; [exact E| |apply repeat_length].
      intros ? ? ? L' E'. ok_inv E'. apply upd_keeps in E'. congruence.
Qed.
(** every word of the state twice: the 32-bit digest of nothing *)
Example C106_blake2_other_variants_ex : exists d, rblake2 U32 [] Blake2B = Ok d /\ length d = 64%nat /\
  firstn 4 d = firstn 4 (skipn 4 d) /\ panics (blake2 U32 [] Blake2B).
Proof.
  eexists. split; [vm_compute; reflexivity|]. conjs; [reflexivity|reflexivity|]. eexists. vm_compute. reflexivity.
Qed.

(** ** X25519 *)
Theorem C106_x25519 : forall s u, bytes32 s -> bytes32 u ->
  rscalarmult s u = Ok (rfc_x25519 s u) /\ panics (rsecret_to_public s).
Proof.
  intros s u Hs Hu. split.
  - apply rf_scalarmult. now apply C59_scalarmult_is_rfc7748.
  - unfold rsecret_to_public. assert (P : rarr_from_hex 32 [48; 57] = Panic PIndex) by (vm_compute; reflexivity).
    rewrite P. wit.
Qed.
Example C106_x25519_ex : bytes32 kat_x_s /\ bytes32 kat_x_u.
Proof. conjs; now apply bytes32_check. Qed.

(** ** The number of rounds of AES *)
Lemma schedule_firstn nk key m n : (n <= m)%nat -> firstn n (schedule nk key m) = schedule nk key n.
Proof.
  induction m as [|m IH]; intros H; [replace n with 0%nat by lia; reflexivity|].
  destruct (Nat.eq_dec n (S m)) as [->|Hn].
  - apply firstn_all2. rewrite schedule_length. lia.
  - cbn [schedule]. rewrite firstn_app, schedule_length. replace (n - m)%nat with 0%nat by lia. cbn [firstn].
    rewrite app_nil_r. apply IH. lia.
Qed.
Lemma block_cipher_prefix input k nr : (0 < nr)%nat -> (16 * (nr + 1) <= length k)%nat ->
  block_cipher_aes input k nr = block_cipher_aes input (firstn (16 * (nr + 1)) k) nr.
Proof.
  intros Hn L. unfold block_cipher_aes, arr_from_sub_range, from_sub_range. rewrite !usub_Ok by lia. cbn [bind].
  rewrite Nat.sub_0_r. assert (L' : length (firstn (16 * (nr + 1)) k) = (16 * (nr + 1))%nat) by (rewrite firstn_length; lia).
  rewrite !arr_from_sub_Ok by lia. rewrite !from_sub_Ok by lia. cbn [bind].
  rewrite <- !firstn_sub by lia. reflexivity.
Qed.
Lemma block_cipher_fips alg key input r : bytes_n (klen alg) key -> block16 input -> (0 < r <= nr_of alg)%nat ->
  block_cipher_aes input (concat (schedule (nk_of alg) key (4 * (nr_of alg + 1)))) r = Ok (fips_aes (nk_of alg) r key input).
Proof.
  intros HK Hin Hr. assert (Hk : (0 < nk_of alg)%nat) by (destruct alg; cbn; lia).
  pose proof (schedule_words (nk_of alg) key (4 * (nr_of alg + 1)) Hk HK) as W.
  pose proof (schedule_length (nk_of alg) key (4 * (nr_of alg + 1))) as L.
  pose proof (Forall_bytes_len 4 _ W) as W4.
  rewrite block_cipher_prefix; [|lia|rewrite (concat_length_const 4) by exact W4; lia].
  replace (16 * (r + 1))%nat with (4 * (4 * (r + 1)))%nat by lia. rewrite concat_firstn by exact W4.
  rewrite schedule_firstn by lia.
  apply (block_cipher_Ok input (schedule (nk_of alg) key (4 * (r + 1))) r); trivial; [lia|now apply schedule_words|apply schedule_length].
Qed.
Lemma rkey_exp_rounds key alg nr : (60 <= uwrap (4 * uwrap (nr + 1)))%nat ->
  rkey_expansion_aes key (nk_of alg) nr alg = rkey_expansion_aes key (nk_of alg) 14 alg.
Proof.
  intros H. unfold rkey_expansion_aes. cbv zeta. destruct (rupdate_start _ key) as [kx|]; [cbn [bind]|reflexivity].
  set (w := (match alg with Aes128 => 4 | Aes256 => 8 end)%nat).
  assert (Hw : (w <= 8)%nat) by (unfold w; destruct alg; lia).
  match goal with |- for_range 0 ?n ?f ?s = for_range 0 ?n ?g ?s =>
    assert (G : forall m k s, (k + m <= n)%nat -> for_range k m f s = for_range k m g s); [|apply G; lia] end.
  assert (Hn : ((match alg with Aes128 => 40 | Aes256 => 52 end) + w <= 60)%nat) by (unfold w; destruct alg; lia).
  induction m as [|m IH]; intros j s Hj; [reflexivity|]. cbn [for_range].
  assert (E : forall w0 w1, rkey_expansion_word w0 w1 (j + w) (nk_of alg) nr = rkey_expansion_word w0 w1 (j + w) (nk_of alg) 14).
  { intros w0 w1. unfold rkey_expansion_word. change (uwrap (4 * uwrap (14 + 1))) with 60%nat.
    rewrite (proj2 (Nat.ltb_lt (j + w) (uwrap (4 * uwrap (nr + 1))))) by lia.
    rewrite (proj2 (Nat.ltb_lt (j + w) 60)) by lia. reflexivity. }
  destruct (rarr_from_sub _ _ _ _ _) as [w0|]; [cbn [bind]|reflexivity].
  destruct (rarr_from_sub _ _ _ _ _) as [w1|]; [cbn [bind]|reflexivity].
  rewrite E. destruct (rkey_expansion_word _ _ _ _ _) as [wd|]; [cbn [bind]|reflexivity].
  destruct (rupdate _ _ _) as [s'|]; [cbn [bind]|reflexivity]. apply IH. lia.
Qed.
Lemma key_exp_14 key alg : bytes_n (klen alg) key ->
  rkey_expansion_aes key (nk_of alg) 14 alg = Ok (concat (schedule (nk_of alg) key (4 * (nr_of alg + 1)))).
Proof.
  intros HK. destruct alg.
  - pose proof (rf_key_exp key 4 10 Aes128 ltac:(lia) _ (key_expansion_Ok key Aes128 HK)) as E. rewrite <- E.
    unfold rkey_expansion_aes. cbv zeta. destruct (rupdate_start _ key) as [kx|]; [cbn [bind]|reflexivity].
    match goal with |- for_range 0 ?n ?f ?s = for_range 0 ?n ?g ?s =>
      assert (G : forall m k s, (k + m <= 40)%nat -> for_range k m f s = for_range k m g s); [|apply G; lia] end.
    induction m as [|m IH]; intros j s Hj; [reflexivity|]. cbn [for_range].
    assert (X : forall w0 w1, rkey_expansion_word w0 w1 (j + 4) (nk_of Aes128) 14 = rkey_expansion_word w0 w1 (j + 4) 4 10).
    { intros w0 w1. unfold rkey_expansion_word. change (uwrap (4 * uwrap (14 + 1))) with 60%nat.
      change (uwrap (4 * uwrap (10 + 1))) with 44%nat.
      rewrite (proj2 (Nat.ltb_lt (j + 4) 60)) by lia. rewrite (proj2 (Nat.ltb_lt (j + 4) 44)) by lia. reflexivity. }
    destruct (rarr_from_sub _ _ _ _ _) as [w0|]; [cbn [bind]|reflexivity].
    destruct (rarr_from_sub _ _ _ _ _) as [w1|]; [cbn [bind]|reflexivity].
    rewrite X. destruct (rkey_expansion_word _ _ _ _ _) as [wd|]; [cbn [bind]|reflexivity].
    destruct (rupdate _ _ _) as [s'|]; [cbn [bind]|reflexivity]. apply IH. lia.
  - exact (rf_key_exp key 8 14 Aes256 ltac:(lia) _ (key_expansion_Ok key Aes256 HK)).
Qed.
Lemma rblock_cipher_wrap input k nr r : uwrap (nr * 16) = (r * 16)%nat -> Z.of_nat (r * 16) < 2 ^ 64 ->
  rblock_cipher_aes input k nr = rblock_cipher_aes input k r.
Proof. intros H B. unfold rblock_cipher_aes. now rewrite H, (uwrap_small (r * 16)). Qed.
Lemma reduced alg key input nr r j : bytes_n (klen alg) key -> block16 input -> (0 < r <= nr_of alg)%nat ->
  Z.of_nat nr = Z.of_nat r + j * 2 ^ 60 -> 0 < j < 16 -> j mod 4 <> 0 ->
  raes_encrypt_block key input (nk_of alg) nr alg = Ok (fips_aes (nk_of alg) r key input) /\
  panics (aes_encrypt_block key input (nk_of alg) nr alg).
Proof.
  intros HK Hin Hr E Hj Hm. assert (Hr' : (r <= 14)%nat) by (destruct alg; cbn in Hr; lia). split.
  - unfold raes_encrypt_block. rewrite rkey_exp_rounds, key_exp_14 by
      (trivial; unfold uwrap; rewrite (Z.mod_small (Z.of_nat (nr + 1))) by lia; rewrite Nat2Z.inj_mul, Z2Nat.id by lia;
       rewrite Nat2Z.inj_add, E;
       replace (Z.of_nat 4 * (Z.of_nat r + j * 2 ^ 60 + Z.of_nat 1)) with ((Z.of_nat (4 * (r + 1)) + (j mod 4) * 2 ^ 62) + (j / 4) * 2 ^ 64)
         by (pose proof (Z.div_mod j 4 ltac:(lia)); lia);
       rewrite Z.mod_add by lia; pose proof (Z.mod_pos_bound j 4 ltac:(lia)); rewrite Z.mod_small by lia; lia).
    cbn [bind]. rewrite (rblock_cipher_wrap input _ nr r).
    + apply rf_block_cipher; [|now apply block_cipher_fips].
      unfold real. pose proof (schedule_words (nk_of alg) key (4 * (nr_of alg + 1)) ltac:(destruct alg; cbn; lia) HK) as W.
      rewrite (concat_length_const 4) by now apply Forall_bytes_len. rewrite schedule_length. destruct alg; vm_compute; reflexivity.
    + unfold uwrap. rewrite Nat2Z.inj_mul, E.
      replace ((Z.of_nat r + j * 2 ^ 60) * Z.of_nat 16) with (Z.of_nat (r * 16) + j * 2 ^ 64) by lia.
      rewrite Z.mod_add, Z.mod_small by lia. apply Nat2Z.id.
    + lia.
  - destruct (aes_encrypt_block key input (nk_of alg) nr alg) as [v|p] eqn:X; [exfalso|now exists p].
    unfold aes_encrypt_block in X. ok_inv X. apply key_exp_len in F. apply block_cipher_nr in X. lia.
Qed.
(** The round number is an argument of the public block functions.  In a debug build every number but the right
    one panics.  In a release build the products [nr * 16] and [4 * (nr + 1)] wrap, and nr = r + 2^60, for
    instance, encrypts with r rounds only. *)
Theorem C106_reduced_rounds : forall k m nr r j, bytes_n 16 m -> (0 < r)%nat ->
  Z.of_nat nr = Z.of_nat r + j * 2 ^ 60 -> 0 < j < 16 -> j mod 4 <> 0 ->
  ((r <= 10)%nat -> bytes_n 16 k ->
     raes128_encrypt_block k m 4 nr = Ok (fips_aes 4 r k m) /\ panics (aes128_encrypt_block k m 4 nr)) /\
  ((r <= 14)%nat -> bytes_n 32 k ->
     raes256_encrypt_block k m 8 nr = Ok (fips_aes 8 r k m) /\ panics (aes256_encrypt_block k m 8 nr)).
Proof.
  intros k m nr r j Hm Hr E Hj Hj4. split; intros Hr' Hk.
  - unfold raes128_encrypt_block, aes128_encrypt_block. rewrite seq_from_seq_Ok. cbn [bind].
    apply (reduced Aes128 k m nr r j); trivial; cbn; lia.
  - unfold raes256_encrypt_block, aes256_encrypt_block. rewrite seq_from_seq_Ok. cbn [bind].
    apply (reduced Aes256 k m nr r j); trivial; cbn; lia.
Qed.
(** Full statement: for every round number a release build of the block functions panics or encrypts with that
    number of rounds.  One round instead of 2^60 + 1 is the counterexample, and its result is not that of AES-128. *)
Theorem C106_round_number_refuted : exists k m nr v, bytes_n 16 k /\ bytes_n 16 m /\ Z.of_nat nr = 2 ^ 60 + 1 /\
  raes128_encrypt_block k m 4 nr = Ok v /\ v = fips_aes 4 1 k m /\ v <> fips_aes 4 10 k m /\
  panics (aes128_encrypt_block k m 4 nr).
Proof.
  exists kat_key1, kat_msg1, (Z.to_nat (2 ^ 60 + 1)), (fips_aes 4 1 kat_key1 kat_msg1).
  assert (Hk : bytes_n 16 kat_key1) by (apply bytes_check; vm_compute; reflexivity).
  assert (Hm : bytes_n 16 kat_msg1) by (apply bytes_check; vm_compute; reflexivity).
  assert (E : Z.of_nat (Z.to_nat (2 ^ 60 + 1)) = 2 ^ 60 + 1) by (apply Z2Nat.id; lia).
  destruct (C106_reduced_rounds kat_key1 kat_msg1 (Z.to_nat (2 ^ 60 + 1)) 1 1 Hm ltac:(lia)) as [H _]; [rewrite E; lia|lia|discriminate|].
  destruct (H ltac:(lia) Hk) as [H1 H2]. conjs; trivial. vm_compute. discriminate.
Qed.
Print Assumptions C106_refines.
Print Assumptions C106_chacha20_poly1305.
Print Assumptions C106_aes_gcm.
Print Assumptions C106_sha3.
Print Assumptions C106_blake2b.
Print Assumptions C106_blake2_other_variants.
Print Assumptions C106_x25519.
Print Assumptions C106_reduced_rounds.
Print Assumptions C106_round_number_refuted.
