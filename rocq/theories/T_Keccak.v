(** Theorems on SHA-3 and SHAKE (fips202.rs): C53 and C54. *)
From Coq Require Import ZArith List Bool Arith Lia.
From Verif Require Import Base P_Base M_Int M_Seq M_Bytes P_Word S_ChaCha T_ChaCha P_Seq P_GCM T_AES S_Keccak M_Keccak P_Keccak P_Sponge P_KeccakBij.
Import ListNotations.
Local Open Scope nat_scope.

(** Test data of fips202.rs:188-254 and tests/test_fips202.rs *)
Definition kat_kf_in : list Z := [0x5ba446eba89b9b78; 0x6ef6eb8a586fb342; 0x85cb3d1fcec58036; 0xa59848fabf68003d;
  0x35fdce49db45e6c1; 0x0cf8fad4b3c5a04c; 0x9afa06a9884be9bc; 0x1ff35d85c227b2e0;
  0x09ec8487110fc092; 0xcdea358a32c0fafb; 0x74241ac11e48073a; 0x72f921a900982d03;
  0x676616072102dbbc; 0x2638caacb8a3a5de; 0xc603972154aa5dd8; 0x68b2fefc9b5075e3;
  0x8373f072f138bdee; 0xdff378a39b99a1a0; 0x0b4bc139e9140556; 0x19195e7735eb1c0a;
  0x056b896a9884cb04; 0x68e821e02963121f; 0xce7c280b9563ae2c; 0xc88f8da33e4311d6;
  0xc67829e549219318]%Z.
Definition kat_kf_out : list Z := [0x95bef5e1cff30a77; 0x91857a255e178abd; 0xbf8f4cef4c33fbe9; 0xa40655d779ecdc92;
  0xb17af41f3c6a6d09; 0x9f4e56cfd932c0c7; 0x8dedfc2eb4c43a69; 0x92e3a4f9f54bf903;
  0x51eca70f0657a075; 0x690f9af199489ab5; 0x718748b08fba9389; 0x2d7349b2fd3c5cbe;
  0xc8e1c9f8a9b002aa; 0x272dfd58ff1304ec; 0x665d945446962fe5; 0xdabb2fbc07dc0b57;
  0xc49e2cecb193b592; 0x63c1c463f370e7a5; 0xc643a20b2ffb0e52; 0xee9f85afed7d708c;
  0xb031433c85642b6c; 0xfbe4f94ffc73ddbe; 0xfa2a02bb934e7bb3; 0x38025c926f7136f5;
  0xf83d27a7f7ec241e]%Z.
Definition kat_sha3_msg : list Z := [0x71; 0x77; 0x65; 0x72; 0x74; 0x7a; 0x75; 0x69; 0x6f; 0x70; 0x61; 0x73; 0x64; 0x66; 0x67; 0x68; 0x6a; 0x6b; 0x6c; 0x79;
   0x78; 0x63; 0x76; 0x62; 0x6e; 0x6d; 0x31; 0x32; 0x33; 0x34; 0x35; 0x36; 0x37; 0x38; 0x39; 0x71; 0x77; 0x65; 0x72; 0x74;
   0x7a; 0x75; 0x69; 0x6f; 0x70; 0x61; 0x73; 0x64; 0x66; 0x67; 0x68; 0x6a; 0x6b; 0x6c; 0x79; 0x78; 0x63; 0x76; 0x62; 0x6e;
   0x6d; 0x31; 0x32; 0x33; 0x34; 0x35; 0x36; 0x37; 0x38; 0x39; 0x71; 0x77; 0x65; 0x72; 0x74; 0x7a; 0x75; 0x69; 0x6f; 0x70;
   0x61; 0x73; 0x64; 0x66; 0x67; 0x68; 0x6a; 0x6b; 0x6c; 0x79; 0x78; 0x63; 0x76; 0x62; 0x6e; 0x6d; 0x31; 0x32; 0x33; 0x34;
   0x35; 0x36; 0x37; 0x38; 0x39; 0x71; 0x77; 0x65; 0x72; 0x74; 0x7a; 0x75; 0x69; 0x6f; 0x70; 0x61; 0x73; 0x64; 0x66; 0x67;
   0x68; 0x6a; 0x6b; 0x6c; 0x79; 0x78; 0x63; 0x76; 0x62; 0x6e; 0x6d; 0x31; 0x32; 0x33; 0x34; 0x35; 0x36; 0x37; 0x38; 0x39]%Z.
Definition kat_sha3_224 : list Z := [0xfb; 0xbf; 0xfb; 0xcb; 0x8a; 0x3e; 0x5b; 0x13; 0xb4; 0x2f; 0x51; 0x69; 0x9d; 0xf; 0x64; 0xe8; 0x4e; 0x27; 0x1b; 0xe3;
   0xfc; 0xad; 0x11; 0xd6; 0xd7; 0x19; 0x66; 0xcf]%Z.
Definition kat_shake : list Z := [0x98; 0x76; 0x1a; 0xab; 0x5c; 0x78; 0x8e; 0x67; 0xa5; 0x9a; 0x3c; 0x2e; 0xb9; 0x25; 0x2d; 0x14]%Z.

(** * C54: the step mappings, the tables and the permutation *)
Lemma state_check s : (length s =? 25) && forallb (fun x => (0 <=? x)%Z && (x <? 2 ^ 64)%Z) s = true -> state s.
Proof.
  intros H. apply andb_prop in H as [L F]. split; [now apply Nat.eqb_eq|]. apply Forall_forall. intros x Hx.
  rewrite forallb_forall in F. apply F in Hx. unfold wordn. change (Z.of_nat 64) with 64%Z. lia.
Qed.
(** The tables are those of the standard's formulas. *)
Theorem C54_rotc_table : length rotc = 25 /\ forall x y, x < 5 -> y < 5 ->
  nth (5 * y + x) rotc 0%Z = Z.of_nat (rho_offset x y mod 64).
Proof.
  split; [reflexivity|]. intros x y Hx Hy. 
  assert (C : forallb (fun i => (fun x y => (nth (5 * y + x) rotc 0 =? Z.of_nat (rho_offset x y mod 64))%Z) (i mod 5) (i / 5)) (seq 0 25) = true)
    by (vm_compute; reflexivity).
  apply Z.eqb_eq. exact (lanes_check (fun x y => (nth (5 * y + x) rotc 0 =? Z.of_nat (rho_offset x y mod 64))%Z) C x y Hx Hy).
Qed.
Example C54_rotc_table_ex : nth 7 rotc 0%Z = 6%Z /\ rho_offset 2 1 = 6 /\ rho_offset 4 2 = 231 /\ nth 14 rotc 0%Z = 39%Z.
Proof. repeat split. Qed.
Theorem C54_pi_table : length pi_table = 25 /\ forall x y, x < 5 -> y < 5 ->
  nth (5 * y + x) pi_table 0 = 5 * x + (x + 3 * y) mod 5.
Proof. split; [reflexivity|]. exact pi_offsets. Qed.
Example C54_pi_table_ex : nth 7 pi_table 0 = 10.
Proof. reflexivity. Qed.
Theorem C54_round_constants : length roundconstants = 24 /\ forall ir z, ir < 24 ->
  Z.testbit (nth ir roundconstants 0%Z) (Z.of_nat z) = (z <? 64) && RC ir z.
Proof.
  split; [reflexivity|]. intros ir z Hi. destruct (Nat.ltb_spec z 64) as [H|H]; cbn [andb].
  - now apply rc_table.
  - assert (W := rc_words ir). unfold wordn in W. apply (P_Int.testbit_small _ (Z.of_nat 64)); [exact W|lia].
Qed.
Example C54_round_constants_ex : nth 2 roundconstants 0%Z = 0x800000000000808a%Z /\ RC 2 63 = true /\ RC 2 62 = false.
Proof. repeat split. Qed.
(** The step mappings act on every state as the standard's algorithms 1 to 6 and do not panic. *)
Theorem C54_theta : forall s, state s -> exists t, theta s = Ok t /\ state t /\ lane_bits t = k_theta (lane_bits s).
Proof. intros s H. exists (theta_pure s). split; [now apply theta_Ok|]. split; [now apply theta_state|now apply theta_bits]. Qed.
Theorem C54_rho : forall s, state s -> exists t, rho s = Ok t /\ state t /\ lane_bits t = k_rho (lane_bits s).
Proof. intros s H. exists (rho_pure s). split; [now apply rho_Ok|]. split; [now apply rho_state|now apply rho_bits]. Qed.
Theorem C54_pi : forall s, state s -> exists t, pi s = Ok t /\ state t /\ lane_bits t = k_pi (lane_bits s).
Proof. intros s H. exists (pi_pure s). split; [now apply pi_Ok|]. split; [now apply pi_state|now apply pi_bits]. Qed.
Theorem C54_chi : forall s, state s -> exists t, chi s = Ok t /\ state t /\ lane_bits t = k_chi (lane_bits s).
Proof. intros s H. exists (chi_pure s). split; [now apply chi_Ok|]. split; [now apply chi_state|now apply chi_bits]. Qed.
Theorem C54_iota : forall s ir, state s -> ir < 24 -> exists t, iota s (nth ir roundconstants 0%Z) = Ok t /\ state t /\
  lane_bits t = k_iota ir (lane_bits s).
Proof.
  intros s ir H Hi. exists (iota_pure (nth ir roundconstants 0%Z) s). split; [now apply iota_Ok|].
  split; [now apply iota_state|now apply iota_bits].
Qed.
Theorem C54_keccakf : forall s, state s -> exists t, keccakf1600 s = Ok t /\ state t /\ lane_bits t = keccak_f (lane_bits s).
Proof. intros s H. exists (kf_pure s). split; [now apply keccakf_Ok|]. split; [now apply kf_state|now apply kf_bits]. Qed.
Example C54_state_ex : state kat_kf_in /\ keccakf1600 kat_kf_in = Ok kat_kf_out.
Proof. split; [apply state_check|]; vm_compute; reflexivity. Qed.
(** Distinct states have distinct bit strings, so the equations above determine the results. *)
Theorem C54_lane_bits_faithful :
  (forall s t, state s -> state t -> lane_bits s = lane_bits t -> s = t) /\
  (forall S, length S = 1600 -> exists s, state s /\ lane_bits s = S).
Proof.
  split.
  - intros s t [L F] [L' F'] E. apply (string_bits_inj 64); trivial. congruence.
  - intros S L. exists (pack 64 25 S). split; [now apply pack_words|]. now apply (pack_bits 64 25).
Qed.
Example C54_lane_bits_faithful_ex : state kat_kf_in /\ state kat_kf_out /\ nth 3 (lane_bits kat_kf_in) false = true.
Proof. split; [apply state_check|split; [apply state_check|]]; vm_compute; reflexivity. Qed.
(** Each step and the permutation are bijections of the states. *)
Theorem C54_steps_bijective : bij_on state theta /\ bij_on state rho /\ bij_on state pi /\ bij_on state chi /\
  (forall ir, ir < 24 -> bij_on state (fun s => iota s (nth ir roundconstants 0%Z))).
Proof.
  split; [|split; [|split; [|split]]].
  - exact (bij_lanes _ _ theta_pbij C54_theta).
  - exact (bij_lanes _ _ rho_pbij C54_rho).
  - exact (bij_lanes _ _ pi_pbij C54_pi).
  - exact (bij_lanes _ _ chi_pbij C54_chi).
  - intros ir Hi. apply (bij_lanes _ _ (iota_pbij ir)). intros s Hs. now apply C54_iota.
Qed.
Theorem C54_keccakf_bijective : bij_on state keccakf1600.
Proof. exact (bij_lanes _ _ keccak_f_pbij C54_keccakf). Qed.
(** In particular the state of the test has exactly one preimage. *)
Example C54_keccakf_bijective_ex : exists s, state s /\ keccakf1600 s = Ok kat_kf_out /\
  forall s', state s' -> keccakf1600 s' = Ok kat_kf_out -> s' = s.
Proof.
  destruct C54_state_ex as [Hs E]. exists kat_kf_in. split; [exact Hs|]. split; [exact E|]. intros s' Hs' E'.
  destruct C54_keccakf_bijective as (_ & I & _). exact (I s' kat_kf_in kat_kf_out Hs' Hs E' E).
Qed.

(** * C53: the sponge *)
(** keccak with any rate of at most 200 bytes and any suffix byte: the sponge construction of the
    standard with pad10*1, for every message and output length; it never panics. *)
Theorem C53_keccak_is_sponge : forall rate data p sfx n, 0 < rate <= 200 -> Forall byte data -> suffix_byte sfx p ->
  exists out, keccak rate data p n = Ok out /\ bytes_n n out /\
  byte_bits out = sponge keccak_f pad101 (8 * rate) (byte_bits data ++ sfx) (8 * n).
Proof.
  intros rate data p sfx n Hr Hd Hp. destruct (keccak_Ok rate data p sfx n Hr Hd Hp) as (out & E & L & F & B).
  exists out. split; [exact E|]. split; [split; assumption|exact B].
Qed.
Lemma sha3_suffix : suffix_byte [false; true] 0x06.
Proof. split; [unfold byte; lia|]. split; [cbn; lia|reflexivity]. Qed.
Lemma shake_suffix : suffix_byte [true; true; true; true] 0x1f.
Proof. split; [unfold byte; lia|]. split; [cbn; lia|reflexivity]. Qed.
Example C53_keccak_is_sponge_ex : suffix_byte [false; true] 0x06 /\ suffix_byte [true; true; true; true] 0x1f /\ suffix_byte [] 0x01 /\
  Forall byte (repeat 7%Z 143) /\ 143 mod 144 <> 0.
Proof.
  split; [apply sha3_suffix|]. split; [apply shake_suffix|]. split; [split; [unfold byte; lia|split; [cbn; lia|reflexivity]]|].
  split; [apply (bytes_check 143); reflexivity|discriminate].
Qed.
(** The bits of the output determine its bytes. *)
Theorem C53_byte_bits_faithful : forall a b, Forall byte a -> Forall byte b -> byte_bits a = byte_bits b -> a = b.
Proof.
  intros a b Ha Hb E. apply (string_bits_inj 8); trivial. 
  assert (L : length (byte_bits a) = length (byte_bits b)) by now rewrite E. rewrite !byte_bits_length in L. lia.
Qed.
Example C53_byte_bits_faithful_ex : byte_bits [0x06%Z] = [false; true; true; false; false; false; false; false].
Proof. reflexivity. Qed.
Lemma sha3_of rate n data f : f = (fun d => let* t := keccak rate d 0x06 n in arr_from_seq 0%Z n t) ->
  0 < rate <= 200 -> 8 * rate = 1600 - 2 * (8 * n) -> Forall byte data ->
  exists out, f data = Ok out /\ bytes_n n out /\ byte_bits out = SHA3 (8 * n) (byte_bits data).
Proof.
  intros -> Hr E Hd. destruct (C53_keccak_is_sponge rate data 0x06 _ n Hr Hd sha3_suffix) as (out & K & O & B).
  exists out. rewrite K. cbn [bind]. split; [now apply arr_from_seq_Ok, O|]. split; [exact O|].
  unfold SHA3, keccak_c. now rewrite <- E.
Qed.
Theorem C53_sha3 : forall data, Forall byte data ->
  (exists d, sha3224 data = Ok d /\ bytes_n 28 d /\ byte_bits d = SHA3 224 (byte_bits data)) /\
  (exists d, sha3256 data = Ok d /\ bytes_n 32 d /\ byte_bits d = SHA3 256 (byte_bits data)) /\
  (exists d, sha3384 data = Ok d /\ bytes_n 48 d /\ byte_bits d = SHA3 384 (byte_bits data)) /\
  (exists d, sha3512 data = Ok d /\ bytes_n 64 d /\ byte_bits d = SHA3 512 (byte_bits data)).
Proof.
  intros data Hd. split; [|split; [|split]].
  - apply (sha3_of sha3224_rate 28); trivial; unfold sha3224_rate; lia.
  - apply (sha3_of sha3256_rate 32); trivial; unfold sha3256_rate; lia.
  - apply (sha3_of sha3384_rate 48); trivial; unfold sha3384_rate; lia.
  - apply (sha3_of sha3512_rate 64); trivial; unfold sha3512_rate; lia.
Qed.
Theorem C53_shake : forall data n, Forall byte data ->
  (exists d, shake128 data n = Ok d /\ bytes_n n d /\ byte_bits d = SHAKE 128 (byte_bits data) (8 * n)) /\
  (exists d, shake256 data n = Ok d /\ bytes_n n d /\ byte_bits d = SHAKE 256 (byte_bits data) (8 * n)).
Proof.
  intros data n Hd. split.
  - apply (C53_keccak_is_sponge shake128_rate data 0x1f [true; true; true; true] n); trivial; [unfold shake128_rate; lia|apply shake_suffix].
  - apply (C53_keccak_is_sponge shake256_rate data 0x1f [true; true; true; true] n); trivial; [unfold shake256_rate; lia|apply shake_suffix].
Qed.
(** Shorter outputs of SHAKE are prefixes of longer ones. *)
Theorem C53_shake_prefix : forall data k n, Forall byte data -> k <= n ->
  (exists d, shake128 data n = Ok d /\ shake128 data k = Ok (firstn k d)) /\
  (exists d, shake256 data n = Ok d /\ shake256 data k = Ok (firstn k d)).
Proof.
  intros data k n Hd Hk. split.
  - apply (keccak_prefix shake128_rate data 0x1f [true; true; true; true]); trivial; [unfold shake128_rate; lia|apply shake_suffix].
  - apply (keccak_prefix shake256_rate data 0x1f [true; true; true; true]); trivial; [unfold shake256_rate; lia|apply shake_suffix].
Qed.
(** The 140-byte message of tests/test_fips202.rs:7, its SHA3-224 digest (lines 14-17) and the first 16 bytes
    of its SHAKE128 output (line 170). *)
Example C53_sha3_ex : Forall byte kat_sha3_msg /\ sha3224 kat_sha3_msg = Ok kat_sha3_224.
Proof. split; [apply (bytes_check (length kat_sha3_msg)); vm_compute; reflexivity|vm_compute; reflexivity]. Qed.
Example C53_shake_ex : Forall byte kat_sha3_msg /\ shake128 kat_sha3_msg 16 = Ok kat_shake.
Proof. split; [apply (bytes_check (length kat_sha3_msg)); vm_compute; reflexivity|vm_compute; reflexivity]. Qed.
Print Assumptions C54_rotc_table.
Print Assumptions C54_pi_table.
Print Assumptions C54_round_constants.
Print Assumptions C54_theta.
Print Assumptions C54_rho.
Print Assumptions C54_pi.
Print Assumptions C54_chi.
Print Assumptions C54_iota.
Print Assumptions C54_keccakf.
Print Assumptions C54_lane_bits_faithful.
Print Assumptions C54_steps_bijective.
Print Assumptions C54_keccakf_bijective.
Print Assumptions C53_keccak_is_sponge.
Print Assumptions C53_byte_bits_faithful.
Print Assumptions C53_sha3.
Print Assumptions C53_shake.
Print Assumptions C53_shake_prefix.
