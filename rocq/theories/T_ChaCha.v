(** Theorems of record for ChaCha20, Poly1305 and ChaCha20-Poly1305 (properties C36 to C42). *)
From Coq Require Import ZArith List Bool Arith Lia.
From Verif Require Import Base P_Base M_Int P_Int M_Seq M_Bytes M_Vec P_Seq P_Bytes P_Vec
  P_Word P_Stream M_BigInt M_NatMod P_BigInt M_ChaCha S_ChaCha P_ChaCha P_Poly1305.
Import ListNotations.
Open Scope Z_scope.

(** Test vectors of /repo/spec-examples/tests (test_chacha20.rs:6-89, test_poly1305.rs:14-30,
    test_chacha20poly1305.rs:5-49), used below as concrete cases. *)
Definition kat_qr_in : list Z := [0x879531e0; 0xc5ecf37d; 0x516461b1; 0xc9a62f8a; 0x44c20ef3; 0x3390af7f; 0xd9fc690b; 0x2a5f714c; 0x53372767; 0xb00a5631; 0x974c541a; 0x359e9963; 0x5c971061; 0x3d631689; 0x2098d9d6; 0x91dbd320].
Definition kat_qr_out : list Z := [0x879531e0; 0xc5ecf37d; 0xbdb886dc; 0xc9a62f8a; 0x44c20ef3; 0x3390af7f; 0xd9fc690b; 0xcfacafd2; 0xe46bea80; 0xb00a5631; 0x974c541a; 0x359e9963; 0x5c971061; 0xccc07c79; 0x2098d9d6; 0x91dbd320].
Definition kat_key : list Z := [0x0; 0x1; 0x2; 0x3; 0x4; 0x5; 0x6; 0x7; 0x8; 0x9; 0xa; 0xb; 0xc; 0xd; 0xe; 0xf;
   0x10; 0x11; 0x12; 0x13; 0x14; 0x15; 0x16; 0x17; 0x18; 0x19; 0x1a; 0x1b; 0x1c; 0x1d; 0x1e; 0x1f].
Definition kat_iv : list Z := [0x0; 0x0; 0x0; 0x9; 0x0; 0x0; 0x0; 0x4a; 0x0; 0x0; 0x0; 0x0].
Definition kat_block_words : list Z := [0xe4e7f110; 0x15593bd1; 0x1fdd0f50; 0xc47120a3; 0xc7f4d1c7; 0x368c033; 0x9aaa2204; 0x4e6cd4c3; 0x466482d2; 0x9aa9f07; 0x5d7c214; 0xa2028bd9; 0xd19c12b5; 0xb94e16de; 0xe883d0cb; 0x4e3c50a2].
Definition kat_block : list Z := [0x10; 0xf1; 0xe7; 0xe4; 0xd1; 0x3b; 0x59; 0x15; 0x50; 0xf; 0xdd; 0x1f; 0xa3; 0x20; 0x71; 0xc4;
   0xc7; 0xd1; 0xf4; 0xc7; 0x33; 0xc0; 0x68; 0x3; 0x4; 0x22; 0xaa; 0x9a; 0xc3; 0xd4; 0x6c; 0x4e;
   0xd2; 0x82; 0x64; 0x46; 0x7; 0x9f; 0xaa; 0x9; 0x14; 0xc2; 0xd7; 0x5; 0xd9; 0x8b; 0x2; 0xa2;
   0xb5; 0x12; 0x9c; 0xd1; 0xde; 0x16; 0x4e; 0xb9; 0xcb; 0xd0; 0x83; 0xe8; 0xa2; 0x50; 0x3c; 0x4e].
Definition kat_poly_msg : list Z := [0x43; 0x72; 0x79; 0x70; 0x74; 0x6f; 0x67; 0x72; 0x61; 0x70; 0x68; 0x69; 0x63; 0x20; 0x46; 0x6f;
   0x72; 0x75; 0x6d; 0x20; 0x52; 0x65; 0x73; 0x65; 0x61; 0x72; 0x63; 0x68; 0x20; 0x47; 0x72; 0x6f;
   0x75; 0x70].
Definition kat_poly_key : list Z := [0x85; 0xd6; 0xbe; 0x78; 0x57; 0x55; 0x6d; 0x33; 0x7f; 0x44; 0x52; 0xfe; 0x42; 0xd5; 0x6; 0xa8;
   0x1; 0x3; 0x80; 0x8a; 0xfb; 0xd; 0xb2; 0xfd; 0x4a; 0xbf; 0xf6; 0xaf; 0x41; 0x49; 0xf5; 0x1b].
Definition kat_poly_tag : list Z := [0xa8; 0x6; 0x1d; 0xc1; 0x30; 0x51; 0x36; 0xc6; 0xc2; 0x2b; 0x8b; 0xaf; 0xc; 0x1; 0x27; 0xa9].
Definition kat_aead_key : list Z := [0x80; 0x81; 0x82; 0x83; 0x84; 0x85; 0x86; 0x87; 0x88; 0x89; 0x8a; 0x8b; 0x8c; 0x8d; 0x8e; 0x8f;
   0x90; 0x91; 0x92; 0x93; 0x94; 0x95; 0x96; 0x97; 0x98; 0x99; 0x9a; 0x9b; 0x9c; 0x9d; 0x9e; 0x9f].
Definition kat_aead_iv : list Z := [0x7; 0x0; 0x0; 0x0; 0x40; 0x41; 0x42; 0x43; 0x44; 0x45; 0x46; 0x47].
Definition kat_aead_msg : list Z := [0x4c; 0x61; 0x64; 0x69; 0x65; 0x73; 0x20; 0x61; 0x6e; 0x64; 0x20; 0x47; 0x65; 0x6e; 0x74; 0x6c;
   0x65; 0x6d; 0x65; 0x6e; 0x20; 0x6f; 0x66; 0x20; 0x74; 0x68; 0x65; 0x20; 0x63; 0x6c; 0x61; 0x73;
   0x73; 0x20; 0x6f; 0x66; 0x20; 0x27; 0x39; 0x39; 0x3a; 0x20; 0x49; 0x66; 0x20; 0x49; 0x20; 0x63;
   0x6f; 0x75; 0x6c; 0x64; 0x20; 0x6f; 0x66; 0x66; 0x65; 0x72; 0x20; 0x79; 0x6f; 0x75; 0x20; 0x6f;
   0x6e; 0x6c; 0x79; 0x20; 0x6f; 0x6e; 0x65; 0x20; 0x74; 0x69; 0x70; 0x20; 0x66; 0x6f; 0x72; 0x20;
   0x74; 0x68; 0x65; 0x20; 0x66; 0x75; 0x74; 0x75; 0x72; 0x65; 0x2c; 0x20; 0x73; 0x75; 0x6e; 0x73;
   0x63; 0x72; 0x65; 0x65; 0x6e; 0x20; 0x77; 0x6f; 0x75; 0x6c; 0x64; 0x20; 0x62; 0x65; 0x20; 0x69;
   0x74; 0x2e].
Definition kat_aead_aad : list Z := [0x50; 0x51; 0x52; 0x53; 0xc0; 0xc1; 0xc2; 0xc3; 0xc4; 0xc5; 0xc6; 0xc7].
Definition kat_aead_ct : list Z := [0xd3; 0x1a; 0x8d; 0x34; 0x64; 0x8e; 0x60; 0xdb; 0x7b; 0x86; 0xaf; 0xbc; 0x53; 0xef; 0x7e; 0xc2;
   0xa4; 0xad; 0xed; 0x51; 0x29; 0x6e; 0x8; 0xfe; 0xa9; 0xe2; 0xb5; 0xa7; 0x36; 0xee; 0x62; 0xd6;
   0x3d; 0xbe; 0xa4; 0x5e; 0x8c; 0xa9; 0x67; 0x12; 0x82; 0xfa; 0xfb; 0x69; 0xda; 0x92; 0x72; 0x8b;
   0x1a; 0x71; 0xde; 0xa; 0x9e; 0x6; 0xb; 0x29; 0x5; 0xd6; 0xa5; 0xb6; 0x7e; 0xcd; 0x3b; 0x36;
   0x92; 0xdd; 0xbd; 0x7f; 0x2d; 0x77; 0x8b; 0x8c; 0x98; 0x3; 0xae; 0xe3; 0x28; 0x9; 0x1b; 0x58;
   0xfa; 0xb3; 0x24; 0xe4; 0xfa; 0xd6; 0x75; 0x94; 0x55; 0x85; 0x80; 0x8b; 0x48; 0x31; 0xd7; 0xbc;
   0x3f; 0xf4; 0xde; 0xf0; 0x8e; 0x4b; 0x7a; 0x9d; 0xe5; 0x76; 0xd2; 0x65; 0x86; 0xce; 0xc6; 0x4b;
   0x61; 0x16].
Definition kat_aead_tag : list Z := [0x1a; 0xe1; 0xb; 0x59; 0x4f; 0x9; 0xe2; 0x6a; 0x7e; 0x90; 0x2e; 0xcb; 0xd0; 0x60; 0x6; 0x91].

Ltac bytes_tac := repeat constructor; cbv; (discriminate || reflexivity).
Lemma bytes_check n l : (length l =? n)%nat && forallb (fun x => (0 <=? x) && (x <? 256)) l = true -> bytes_n n l.
Proof.
  intros H. apply andb_true_iff in H as [H1 H2]. apply Nat.eqb_eq in H1. split; [assumption|].
  rewrite forallb_forall in H2. apply Forall_forall. intros x Hx. specialize (H2 x Hx).
  unfold byte. lia.
Qed.

(** *** C36: the ChaCha20 stream function never fails, preserves length, is its own inverse *)
Theorem C36_chacha_involution : forall key iv m, bytes_n 32 key -> bytes_n 12 iv ->
  exists c, chacha key iv m = Ok c /\ length c = length m /\ chacha key iv c = Ok m /\
    (Forall byte m -> Forall byte c).
Proof.
  intros key iv m Hk Hi. exists (cc key iv m). rewrite !chacha_Ok by assumption. conjs.
  - reflexivity.
  - apply cc_length.
  - fold (cc key iv (cc key iv m)). now rewrite cc_invol.
  - apply cc_bytes.
Qed.
(** A partial last block: 70 bytes. *)
Example C36_ex : exists c, chacha kat_key kat_iv (repeat 7 70) = Ok c /\
  chacha kat_key kat_iv c = Ok (repeat 7 70) /\ nth 69 c 0 <> 7.
Proof. eexists. split; [vm_compute; reflexivity|]. vm_compute. split; [reflexivity|discriminate]. Qed.

(** *** C37: block function and counters of RFC 8439 *)
Theorem C37_block_is_rfc : forall key ctr iv, bytes_n 32 key -> bytes_n 12 iv -> word32 ctr ->
  exists b, block key ctr iv = Ok b /\ length b = 64%nat /\
    forall j, (j < 64)%nat -> nth j b 0 = rfc_block_byte key ctr iv j.
Proof.
  intros key ctr iv Hk Hi Hc. exists (rfc_block key ctr iv). conjs.
  - now apply block_Ok.
  - apply rfc_block_length.
  - intros. now apply nth_rfc_block.
Qed.
Theorem C37_stream_is_rfc : forall key iv m, bytes_n 32 key -> bytes_n 12 iv ->
  exists c, chacha key iv m = Ok c /\ length c = length m /\
    forall j, (j < length m)%nat -> nth j c 0 = rfc_cipher_byte key 1 iv m j.
Proof.
  intros key iv m Hk Hi. exists (cc key iv m). conjs.
  - now apply chacha_Ok.
  - apply cc_length.
  - intros j Hj. unfold cc, rfc_cipher_byte. rewrite nth_xor_ks by assumption.
    rewrite nth_rfc_block by (apply Nat.mod_upper_bound; lia). reflexivity.
Qed.
(** RFC 8439 2.1.1 and 2.3.2. *)
Example C37_ex : quarter_round 2 7 8 13 kat_qr_in = Ok kat_qr_out /\
  block_inner kat_key 1 kat_iv = Ok kat_block_words /\ block kat_key 1 kat_iv = Ok kat_block /\
  bytes_n 32 kat_key /\ bytes_n 12 kat_iv.
Proof.
  conjs; try (vm_compute; reflexivity); apply bytes_check; vm_compute; reflexivity.
Qed.

(** *** C38: rounds are permutations of the set of 16-word states *)
Theorem C38_quarter_round_bijection : forall a b c d,
  (a < 16)%nat -> (b < 16)%nat -> (c < 16)%nat -> (d < 16)%nat -> NoDup [a; b; c; d] ->
  (forall x, words16 x -> exists y, quarter_round a b c d x = Ok y /\ words16 y) /\
  (forall x x' y, words16 x -> words16 x' ->
     quarter_round a b c d x = Ok y -> quarter_round a b c d x' = Ok y -> x = x') /\
  (forall y, words16 y -> exists x, words16 x /\ quarter_round a b c d x = Ok y).
Proof. intros. now apply quarter_round_bij. Qed.
Theorem C38_double_round_bijection :
  (forall x, words16 x -> exists y, double_round x = Ok y /\ words16 y) /\
  (forall x x' y, words16 x -> words16 x' -> double_round x = Ok y -> double_round x' = Ok y -> x = x') /\
  (forall y, words16 y -> exists x, words16 x /\ double_round x = Ok y).
Proof. exact double_round_bij. Qed.
(** The ten double rounds of block_inner together are a permutation too. *)
Theorem C38_rounds_bijection : forall n,
  let f := for_range 0 n (fun _ state => double_round state) in
  (forall x, words16 x -> exists y, f x = Ok y /\ words16 y) /\
  (forall x x' y, words16 x -> words16 x' -> f x = Ok y -> f x' = Ok y -> x = x') /\
  (forall y, words16 y -> exists x, words16 x /\ f x = Ok y).
Proof. intros n. apply (bij_iter words16 (fun _ state => double_round state)). intros. exact double_round_bij. Qed.
(** Without distinct indices the claim fails: state[a] + state[a] loses the top bit. *)
Theorem C38_equal_indices_not_injective : exists x x', words16 x /\ words16 x' /\ x <> x' /\
  line 0 0 1 16 x = line 0 0 1 16 x'.
Proof.
  exists (repeat 0 16), (2 ^ 31 :: repeat 0 15). conjs; try discriminate; try reflexivity;
    (split; [reflexivity|repeat constructor; vm_compute; discriminate]).
Qed.
Example C38_ex : NoDup [2; 7; 8; 13]%nat /\ words16 kat_qr_in /\ double_round kat_qr_in <> Ok kat_qr_in.
Proof.
  conjs; [repeat constructor; cbn [In]; lia|split; [reflexivity|repeat constructor; vm_compute; discriminate]|].
  vm_compute. discriminate.
Qed.

(** *** C39: key stream blocks *)
(** Up to 2^32 - 1 blocks (the limit of RFC 8439) every block has its own counter and none
    uses counter 0, from which the one-time MAC key is derived. *)
Theorem C39_distinct_counters_within_limit : forall key iv m, bytes_n 32 key -> bytes_n 12 iv ->
  Z.of_nat (length m) <= 64 * (2 ^ 32 - 1) ->
  exists (f : nat -> Z) c, chacha key iv m = Ok c /\
    (forall j, (j < length m)%nat -> exists ks, block key (f (j / 64)%nat) iv = Ok ks /\
       nth j c 0 = Z.lxor (nth j m 0) (nth (j mod 64) ks 0)) /\
    (forall i, (64 * i < length m)%nat -> 0 < f i < 2 ^ 32) /\
    (forall i i', (64 * i < length m)%nat -> (64 * i' < length m)%nat -> f i = f i' -> i = i').
Proof.
  intros key iv m Hk Hi HL. exists ctr_at, (cc key iv m).
  assert (S : forall i, (64 * i < length m)%nat -> ctr_at i = 1 + Z.of_nat i).
  { intros i H. unfold ctr_at. apply Z.mod_small. lia. }
  conjs.
  - now apply chacha_Ok.
  - intros j Hj. exists (rfc_block key (ctr_at (j / 64)) iv). split.
    + apply block_Ok; [assumption|assumption|]. apply Z.mod_pos_bound. reflexivity.
    + unfold cc. now rewrite nth_xor_ks.
  - intros i H. rewrite S by assumption. lia.
  - intros i i' H H'. rewrite !S by assumption. lia.
Qed.
(** Beyond that limit the counter wraps silently: block 2^32 - 1 is encrypted with the block
    that yields the Poly1305 key, and block 2^32 + i with the key stream of block i. *)
Theorem C39_no_keystream_reuse_refuted : exists key iv m c,
  bytes_n 32 key /\ bytes_n 12 iv /\ chacha key iv m = Ok c /\
  (exists ks, block key 0 iv = Ok ks /\ forall b, (b < 64)%nat ->
     let j := (64 * Z.to_nat (2 ^ 32 - 1) + b)%nat in
     (j < length m)%nat /\ nth j c 0 = Z.lxor (nth j m 0) (nth b ks 0)) /\
  (forall b, (b < 64)%nat -> let j := (64 * Z.to_nat (2 ^ 32) + b)%nat in
     (j < length m)%nat /\ Z.lxor (nth j c 0) (nth j m 0) = Z.lxor (nth b c 0) (nth b m 0)).
Proof.
  set (n1 := Z.to_nat (2 ^ 32 - 1)). set (n2 := Z.to_nat (2 ^ 32)).
  assert (E1 : Z.of_nat n1 = 2 ^ 32 - 1) by (apply Z2Nat.id; vm_compute; discriminate).
  assert (E2 : Z.of_nat n2 = 2 ^ 32) by (apply Z2Nat.id; vm_compute; discriminate).
  assert (En : n2 = S n1) by lia.
  clearbody n1 n2.
  set (m := repeat 0 (64 * n2 + 64)). assert (Lm : length m = (64 * n2 + 64)%nat) by apply repeat_length.
  clearbody m.
  assert (HK : bytes_n 32 kat_key) by (apply bytes_check; vm_compute; reflexivity).
  assert (HI : bytes_n 12 kat_iv) by (apply bytes_check; vm_compute; reflexivity).
  assert (D : forall n b, (b < 64)%nat -> ((64 * n + b) / 64 = n /\ (64 * n + b) mod 64 = b)%nat).
  { intros n b Hb. split; [symmetry; apply (Nat.div_unique _ _ _ b)|symmetry; apply (Nat.mod_unique _ _ n)]; lia. }
  exists kat_key, kat_iv, m, (cc kat_key kat_iv m). conjs; trivial.
  - now apply chacha_Ok.
  - exists (rfc_block kat_key 0 kat_iv). split; [apply block_Ok; trivial; split; [lia|reflexivity]|].
    intros b Hb. split; [lia|]. unfold cc. rewrite nth_xor_ks by lia.
    destruct (D n1 b Hb) as [-> ->]. unfold ctr_at. rewrite E1. reflexivity.
  - intros b Hb. split; [lia|]. unfold cc. rewrite !nth_xor_ks by lia.
    destruct (D n2 b Hb) as [-> ->]. rewrite Nat.div_small, Nat.mod_small by lia.
    replace (ctr_at n2) with (ctr_at 0) by (unfold ctr_at; rewrite E2; reflexivity).
    rewrite !(Z.lxor_comm (nth _ m 0)), !Z.lxor_assoc, !Z.lxor_nilpotent, !Z.lxor_0_r. reflexivity.
Qed.
Example C39_ex : Z.of_nat (length (repeat 7 70)) <= 64 * (2 ^ 32 - 1) /\
  block kat_key 1 kat_iv <> block kat_key 2 kat_iv.
Proof. split; [vm_compute; discriminate|]. vm_compute. discriminate. Qed.

(** *** C40: Poly1305 *)
(** What the code computes: the final addition is done modulo 2^130 - 5. *)
Theorem C40_poly1305_value : forall m key, bytes_n 32 key -> Forall byte m ->
  exists tag, poly m key = Ok tag /\ bytes_n 16 tag /\
    le_num tag = ((rfc_acc m (le_num (clamp (firstn 16 key))) + le_num (firstn 16 (skipn 16 key)))
                  mod P1305) mod 2 ^ 128.
Proof.
  intros m key Hk Hm. destruct (poly_Ok m key Hk Hm) as [-> _].
  eexists. split; [reflexivity|]. split; [split|].
  - apply le_bytes_length.
  - apply le_bytes_is_bytes.
  - rewrite (le_num_val (le_bytes _ _)), le_val_le_bytes. reflexivity.
Qed.
(** It is the tag of RFC 8439 exactly when that addition does not exceed the modulus. *)
Theorem C40_poly1305_is_rfc_iff : forall m key, bytes_n 32 key -> Forall byte m ->
  exists tag, poly m key = Ok tag /\ bytes_n 16 tag /\
    (le_num tag = rfc_tag_num m key <->
     rfc_acc m (le_num (clamp (firstn 16 key))) + le_num (firstn 16 (skipn 16 key)) < P1305).
Proof.
  intros m key Hk Hm. destruct (C40_poly1305_value m key Hk Hm) as (tag & E & HB & V).
  exists tag. split; [exact E|]. split; [exact HB|]. rewrite V. unfold rfc_tag_num.
  destruct (poly_Ok m key Hk Hm) as [_ R]. unfold s_of in R.
  set (a := rfc_acc _ _). set (s := le_num (firstn 16 (skipn 16 key))) in *.
  pose proof (rfc_acc_range m (le_num (clamp (firstn 16 key)))) as A. fold a in A.
  clearbody a s. assert (EP : P1305 = 2 ^ 130 - 5) by reflexivity.
  assert (EP' : P1305 = 4 * 2 ^ 128 - 5) by reflexivity. clear -R A EP EP'.
  destruct (Z.lt_ge_cases (a + s) P1305) as [C|C].
  - rewrite (Z.mod_small _ P1305) by lia. split; auto.
  - replace ((a + s) mod P1305) with (a + s - P1305).
    2: { apply (Z.mod_unique _ _ 1); lia. }
    split; [|lia]. intros H. exfalso.
    assert (D : (a + s - P1305 - (a + s)) mod 2 ^ 128 = 0).
    { rewrite Zminus_mod, H, Z.sub_diag. reflexivity. }
    replace (a + s - P1305 - (a + s)) with (5 + (-4) * 2 ^ 128) in D by lia.
    rewrite Z.mod_add in D by lia. discriminate D.
Qed.
(** A 16-byte message and a key with r = 2, s = 1, for which the tag is not that of the RFC. *)
Theorem C40_poly1305_is_rfc_refuted : exists m key tag,
  bytes_n 32 key /\ Forall byte m /\ poly m key = Ok tag /\ le_num tag <> rfc_tag_num m key.
Proof.
  exists (253 :: repeat 255 15), (2 :: repeat 0 15 ++ 1 :: repeat 0 15), (repeat 0 16).
  conjs.
  - apply bytes_check. vm_compute. reflexivity.
  - apply (bytes_check 16). vm_compute. reflexivity.
  - vm_compute. reflexivity.
  - vm_compute. discriminate.
Qed.
Theorem C40_poly_mac_key : forall m key iv, bytes_n 32 key -> bytes_n 12 iv ->
  exists ks, block key 0 iv = Ok ks /\ poly_mac m key iv = poly m (firstn 32 ks).
Proof.
  intros m key iv Hk Hi. exists (rfc_block key 0 iv). split.
  - apply block_Ok; trivial. split; [lia|reflexivity].
  - unfold poly_mac, key_gen. rewrite mac_key_Ok by assumption. reflexivity.
Qed.
(** RFC 8439 2.5.2: here the two agree. *)
Example C40_ex : bytes_n 32 kat_poly_key /\ Forall byte kat_poly_msg /\
  poly kat_poly_msg kat_poly_key = Ok kat_poly_tag /\
  le_num kat_poly_tag = rfc_tag_num kat_poly_msg kat_poly_key.
Proof.
  conjs; [apply bytes_check|apply (bytes_check 34)| |]; vm_compute; reflexivity.
Qed.

(** *** C41: authenticated encryption *)
Theorem C41_decrypt_encrypt : forall key iv aad msg,
  bytes_n 32 key -> bytes_n 12 iv -> Forall byte aad -> Forall byte msg ->
  Z.of_nat (length aad) < 2 ^ 64 -> Z.of_nat (length msg) < 2 ^ 64 ->
  exists ct tag, cp_encrypt key iv aad msg = Ok (ct, tag) /\ length ct = length msg /\ length tag = 16%nat /\
    cp_decrypt key iv aad ct tag = Ok (Some msg).
Proof.
  intros key iv aad msg Hk Hi Ha Hm La Lm.
  exists (cc key iv msg), (cp_tag key iv aad (cc key iv msg)). conjs.
  - now apply cp_encrypt_Ok.
  - apply cc_length.
  - apply le_bytes_length.
  - rewrite cp_decrypt_Ok by (rewrite ?cc_length; auto using cc_bytes).
    replace (list_eqb _ _) with true by (symmetry; now apply list_eqb_spec).
    now rewrite cc_invol.
Qed.
(** Decryption never panics, and accepts exactly the outputs of encryption. *)
Theorem C41_decrypt_accepts_iff : forall key iv aad ct tag,
  bytes_n 32 key -> bytes_n 12 iv -> Forall byte aad -> Forall byte ct ->
  Z.of_nat (length aad) < 2 ^ 64 -> Z.of_nat (length ct) < 2 ^ 64 ->
  exists r, cp_decrypt key iv aad ct tag = Ok r /\
    forall msg, Forall byte msg -> (r = Some msg <-> cp_encrypt key iv aad msg = Ok (ct, tag)).
Proof.
  intros key iv aad ct tag Hk Hi Ha Hc La Lc. eexists. split; [now apply cp_decrypt_Ok|].
  intros msg Hm. split.
  - intros H. destruct (list_eqb _ _) eqn:E; [|discriminate]. injection H as <-.
    apply list_eqb_spec in E.
    rewrite cp_encrypt_Ok by (rewrite ?cc_length; auto using cc_bytes).
    rewrite cc_invol, E. reflexivity.
  - intros H.
    assert (Lm : length msg = length ct).
    { destruct (C36_chacha_involution key iv msg Hk Hi) as (c & E & L & _).
      unfold cp_encrypt in H. pose proof (mac_key_Ok key iv Hk Hi) as M.
      rewrite <- bind_assoc, M in H. cbn [bind] in H. rewrite E in H. cbn [bind] in H.
      apply bind_Ok in H as (? & _ & H). apply bind_Ok in H as (? & _ & H). 
      injection H as <- _. auto. }
    rewrite cp_encrypt_Ok in H by (rewrite ?Lm; auto). injection H as <- <-.
    replace (list_eqb _ _) with true by (symmetry; now apply list_eqb_spec).
    now rewrite cc_invol.
Qed.
(** The tag is Poly1305 of the RFC's MAC input under the key stream of counter 0. *)
Theorem C41_construction : forall key iv aad msg ct tag,
  bytes_n 32 key -> bytes_n 12 iv -> Forall byte aad -> Forall byte msg ->
  Z.of_nat (length aad) < 2 ^ 64 -> Z.of_nat (length msg) < 2 ^ 64 ->
  cp_encrypt key iv aad msg = Ok (ct, tag) ->
  chacha key iv msg = Ok ct /\
  exists ks, block key 0 iv = Ok ks /\ poly (rfc_mac_data aad ct) (firstn 32 ks) = Ok tag.
Proof.
  intros key iv aad msg ct tag Hk Hi Ha Hm La Lm H. rewrite cp_encrypt_Ok in H by assumption.
  injection H as <- <-. split; [now apply chacha_Ok|].
  exists (rfc_block key 0 iv). split; [apply block_Ok; trivial; split; [lia|reflexivity]|].
  destruct (poly_Ok (rfc_mac_data aad (cc key iv msg)) (otk key iv) (otk_bytes _ _)) as [E _].
  { apply mac_data_bytes; auto using cc_bytes. }
  exact E.
Qed.
(** RFC 8439 2.8.2; changing one bit of the tag makes decryption fail. *)
Example C41_ex : bytes_n 12 kat_aead_iv /\
  cp_encrypt kat_aead_key kat_aead_iv kat_aead_aad kat_aead_msg = Ok (kat_aead_ct, kat_aead_tag) /\
  cp_decrypt kat_aead_key kat_aead_iv kat_aead_aad kat_aead_ct (set_nth kat_aead_tag 0 0x1b) = Ok None.
Proof.
  conjs; [apply bytes_check| |]; vm_compute; reflexivity.
Qed.

(** *** C42 (ChaCha20-Poly1305 part): the MAC input determines associated data and cipher text *)
Theorem C42_chacha_mac_input : forall aad msg,
  Z.of_nat (length aad) < 2 ^ 64 -> Z.of_nat (length msg) < 2 ^ 64 ->
  exists d, pad_aad_msg aad msg = Ok d /\ d = rfc_mac_data aad msg /\ (length d mod 16 = 0)%nat.
Proof.
  intros aad msg Ha Hm. eexists. split; [now apply pad_aad_msg_Ok|]. split; [reflexivity|].
  unfold rfc_mac_data. rewrite !app_length, !le64_length.
  assert (P : forall l, (padded_len l mod 16 = 0)%nat).
  { intros l. unfold padded_len. destruct (Nat.eqb_spec (l mod 16) 0) as [E|E]; [exact E|].
    rewrite Nat.mul_comm. apply Nat.mod_mul. lia. }
  pose proof (padded_len_eq aad) as E1. pose proof (padded_len_eq msg) as E2.
  pose proof (P (length aad)) as P1. pose proof (P (length msg)) as P2.
  apply Nat.mod_divides in P1 as [q1 P1]; [|lia]. apply Nat.mod_divides in P2 as [q2 P2]; [|lia].
  match goal with |- (?x mod 16 = 0)%nat => replace x with ((q1 + q2 + 1) * 16)%nat by lia end.
  apply Nat.mod_mul. lia.
Qed.
Theorem C42_chacha_mac_input_injective : forall aad msg aad' msg' d,
  Z.of_nat (length aad) < 2 ^ 64 -> Z.of_nat (length msg) < 2 ^ 64 ->
  Z.of_nat (length aad') < 2 ^ 64 -> Z.of_nat (length msg') < 2 ^ 64 ->
  pad_aad_msg aad msg = Ok d -> pad_aad_msg aad' msg' = Ok d -> aad = aad' /\ msg = msg'.
Proof.
  intros aad msg aad' msg' d H1 H2 H3 H4 E E'. rewrite pad_aad_msg_Ok in E, E' by assumption.
  apply mac_data_inj; congruence.
Qed.
(** Moving a byte between the two parts, or appending zero bytes, changes the encoding. *)
Example C42_chacha_ex : pad_aad_msg [1] [2] <> pad_aad_msg [1; 2] [] /\
  pad_aad_msg [1] [2] <> pad_aad_msg [1; 0] [2] /\
  pad_aad_msg [1; 2] [3] = Ok ([1; 2] ++ repeat 0 14 ++ [3] ++ repeat 0 15 ++ [2] ++ repeat 0 7 ++ [1] ++ repeat 0 7).
Proof. vm_compute. intuition discriminate. Qed.

Print Assumptions C36_chacha_involution.
Print Assumptions C37_block_is_rfc.
Print Assumptions C37_stream_is_rfc.
Print Assumptions C38_quarter_round_bijection.
Print Assumptions C38_double_round_bijection.
Print Assumptions C38_rounds_bijection.
Print Assumptions C38_equal_indices_not_injective.
Print Assumptions C39_distinct_counters_within_limit.
Print Assumptions C39_no_keystream_reuse_refuted.
Print Assumptions C40_poly1305_value.
Print Assumptions C40_poly1305_is_rfc_iff.
Print Assumptions C40_poly1305_is_rfc_refuted.
Print Assumptions C40_poly_mac_key.
Print Assumptions C41_decrypt_encrypt.
Print Assumptions C41_decrypt_accepts_iff.
Print Assumptions C41_construction.
Print Assumptions C42_chacha_mac_input.
Print Assumptions C42_chacha_mac_input_injective.
