(** One ciphertext, two keys: neither AEAD ties an accepted ciphertext to its key (C102). *)
From Coq Require Import ZArith List Bool Arith Lia Ring.
From Verif Require Import Base P_Base M_Int M_Seq M_Bytes P_Int P_Seq P_Bytes P_Word P_Stream M_AES S_GF2 P_GF2 S_AES
  P_AES P_GF128 P_GCM S_ChaCha M_ChaCha P_ChaCha T_ChaCha T_AES P_GFField P_Roots T_GHash T_Reuse.
Import ListNotations.
Local Open Scope Z_scope.
#[local] Opaque gf_mul gcm_mul fmul brev gin gout gof gadd gmul g0 g1 ginv.

Lemma zeros_bytes n : Forall byte (repeat 0 n).
Proof. apply Forall_forall. intros x Hx. apply repeat_spec in Hx. subst. unfold byte; lia. Qed.
Lemma horner_zeros h m q n : horner h (repeat 0 (16 * q) ++ m) (q + n) = horner h m n.
Proof.
  induction q as [|q IH]; [reflexivity|].
  replace (16 * S q)%nat with (16 + 16 * q)%nat by lia. rewrite repeat_app, <- app_assoc.
  cbn [Nat.add]. rewrite horner_shift. exact IH.
Qed.
(** A single block followed by a zero block. *)
Lemma horner_last2 h b : length b = 16%nat -> horner h (b ++ repeat 0 16) 2 = gcm_mul (gcm_mul (be_num b) h) h.
Proof.
  intros L. rewrite !horner_S, horner_0, Z.lxor_0_r.
  assert (B0 : ghash_block (b ++ repeat 0 16) 0 = be_num b).
  { rewrite ghash_mblock. apply f_equal. apply (nth_ext_eq _ _ 0); unfold mblock; rewrite map_length, seq_length; [now rewrite L|].
    intros i Hi. rewrite nth_map_seq by lia. cbn [Nat.mul Nat.add]. apply app_nth1. lia. }
  assert (B1 : ghash_block (b ++ repeat 0 16) 1 = 0).
  { rewrite ghash_mblock. unfold mblock. rewrite (map_ext_in _ (fun _ => 0)); [reflexivity|].
    intros j Hj. apply in_seq in Hj. rewrite app_nth2 by lia. apply nth_repeat. }
  now rewrite B0, B1, Z.lxor_0_l.
Qed.
Lemma xor2_0_r a n : length a = n -> xor2 a (repeat 0 n) = a.
Proof.
  intros L. apply (nth_ext_eq _ _ 0); [apply xor2_length|]. intros i _. rewrite nth_xor2 by now rewrite repeat_length.
  rewrite nth_repeat. apply Z.lxor_0_r.
Qed.
Lemma xor2_0_l a n : length a = n -> xor2 (repeat 0 n) a = a.
Proof.
  intros L. apply (nth_ext_eq _ _ 0); [now rewrite xor2_length, repeat_length|]. intros i _.
  rewrite nth_xor2 by now rewrite repeat_length. rewrite nth_repeat. apply Z.lxor_0_l.
Qed.
Lemma pad16_blocks (x : list Z) : exists q, (length x + length (pad16 x) = 16 * q)%nat.
Proof.
  unfold pad16. rewrite repeat_length. exists ((length x + 15) / 16)%nat.
  pose proof (Nat.div_mod (length x) 16 ltac:(lia)). pose proof (Nat.mod_upper_bound (length x) 16 ltac:(lia)).
  pose proof (Nat.div_mod (length x + 15) 16 ltac:(lia)). pose proof (Nat.mod_upper_bound (length x + 15) 16 ltac:(lia)).
  pose proof (Nat.div_mod (16 - length x mod 16) 16 ltac:(lia)).
  pose proof (Nat.mod_upper_bound (16 - length x mod 16) 16 ltac:(lia)). nia.
Qed.
(** How the last full ciphertext block enters GHASH. *)
Lemma mac_data_last_block aad c0 b q : length c0 = (16 * q)%nat -> length b = 16%nat ->
  exists k, gcm_mac_data aad (c0 ++ b) =
    xor2 (gcm_mac_data aad (c0 ++ repeat 0 16)) (repeat 0 (16 * k) ++ b ++ repeat 0 16) /\
    length (gcm_mac_data aad (c0 ++ repeat 0 16)) = (16 * (k + 2))%nat.
Proof.
  intros Lc Lb. destruct (pad16_blocks aad) as [p Hp]. exists (p + q)%nat.
  assert (P0 : forall x : list Z, length x = 16%nat -> pad16 (c0 ++ x) = []).
  { intros x Lx. unfold pad16. rewrite app_length, Lc, Lx. replace (16 * q + 16)%nat with ((q + 1) * 16)%nat by lia.
    rewrite Nat.mod_mul by lia. reflexivity. }
  unfold gcm_mac_data. rewrite !P0 by (trivial; apply repeat_length). rewrite !app_length, Lb, !repeat_length. cbn [app].
  set (s := be_str 8 (8 * Z.of_nat (length aad)) ++ be_str 8 _).
  assert (Ls : length s = 16%nat) by (unfold s; now rewrite app_length, !be_str_length). clearbody s. split.
  - rewrite !app_assoc. set (pre := (aad ++ pad16 aad) ++ c0).
    assert (Lp : length pre = (16 * (p + q))%nat) by (unfold pre; rewrite !app_length; lia). clearbody pre.
    rewrite !xor2_app by (rewrite ?app_length, ?repeat_length; lia).
    rewrite (xor2_0_r pre) by trivial. rewrite (xor2_0_l b) by trivial. now rewrite (xor2_0_r s) by trivial.
  - rewrite !be_str_length. cbn [length]. lia.
Qed.
Lemma ghash_last_block h aad c0 b q : u128r h -> Forall byte aad -> Forall byte c0 -> Forall byte b ->
  length c0 = (16 * q)%nat -> length b = 16%nat ->
  ghash h (gcm_mac_data aad (c0 ++ b)) =
    Z.lxor (ghash h (gcm_mac_data aad (c0 ++ repeat 0 16))) (gcm_mul (gcm_mul (be_num b) h) h).
Proof.
  intros Hh Ha Hc Hb Lc Lb. destruct (mac_data_last_block aad c0 b q Lc Lb) as (k & E & L). rewrite E.
  assert (L2 : length (repeat 0 (16 * k) ++ b ++ repeat 0 16) = (16 * (k + 2))%nat).
  { rewrite !app_length, !repeat_length, Lb. lia. }
  rewrite xor2_zip by (now rewrite L, L2). rewrite ghash_lxor.
  - f_equal. rewrite ghash_horner by trivial. rewrite L2. replace ((16 * (k + 2) + 15) / 16)%nat with (k + 2)%nat.
    + rewrite horner_zeros. now apply horner_last2.
    + replace (16 * (k + 2) + 15)%nat with (15 + (k + 2) * 16)%nat by lia. rewrite Nat.div_add by lia. reflexivity.
  - apply gcm_data_bytes; trivial. apply Forall_app. split; trivial. apply zeros_bytes.
  - apply Forall_app. split; [apply zeros_bytes|]. apply Forall_app. split; trivial. apply zeros_bytes.
  - now rewrite L, L2.
Qed.
(** The tag as a number. *)
Lemma be_num_tag alg key iv aad ct : bytes_n (klen alg) key -> bytes_n 12 iv -> Forall byte aad -> Forall byte ct ->
  be_num (gcm_tag (aes_pure alg key) iv aad ct) =
    Z.lxor (ghash (be_num (aes_pure alg key (repeat 0 16))) (gcm_mac_data aad ct)) (be_num (ctr_block (aes_pure alg key) iv 1)) /\
  bytes_n 16 (gcm_tag (aes_pure alg key) iv aad ct).
Proof.
  intros HK HI HA HC. assert (Z16 : block16 (repeat 0 16)) by (split; [reflexivity|apply zeros_bytes]).
  destruct (aes_encrypt_block_Ok alg key _ HK Z16) as [_ B]. pose proof (ctr_block_block alg key iv 1 HK HI) as [Lc Bc].
  assert (U : u128r (be_num (aes_pure alg key (repeat 0 16)))) by now apply encode_Ok.
  assert (T : gcm_tag (aes_pure alg key) iv aad ct =
    be_str 16 (Z.lxor (ghash (be_num (aes_pure alg key (repeat 0 16))) (gcm_mac_data aad ct)) (be_num (ctr_block (aes_pure alg key) iv 1)))).
  { unfold gcm_tag. rewrite be_str_lxor. set (s := be_str 16 (ghash _ _)).
    assert (C : be_str 16 (be_num (ctr_block (aes_pure alg key) iv 1)) = ctr_block (aes_pure alg key) iv 1).
    { apply be_num_inj; trivial; try (now rewrite be_str_length, Lc).
      - apply be_str_bytes.
      - apply be_num_str. apply encode_Ok. now split. }
    rewrite C. symmetry. apply map_nth_zip; [apply be_str_length|exact Lc]. }
  rewrite T. split.
  - apply be_num_str. apply lxor128; [now apply ghash_range|]. apply encode_Ok. now split.
  - apply be_str_bytes.
Qed.

Lemma be_num_u b : bytes_n 16 b -> u128r (be_num b).
Proof. intros H. exact (proj2 (encode_Ok b H)). Qed.
Lemma lxor_swap a b c : Z.lxor (Z.lxor a b) c = Z.lxor (Z.lxor a c) b.
Proof. rewrite !Z.lxor_assoc, (Z.lxor_comm b c). reflexivity. Qed.
#[local] Lemma gadd_xx x : gadd x x = g0.
Proof. change (gadd x (gid x) = g0). ring. Qed.
(** The equation for the last block has exactly one solution when the two hash keys differ. *)
Lemma g_solve h1 h2 d1 d2 b : h1 <> h2 ->
  gadd d1 (gmul (gmul b h1) h1) = gadd d2 (gmul (gmul b h2) h2) <->
  b = gmul (gadd d1 d2) (ginv (gmul (gadd h1 h2) (gadd h1 h2))).
Proof.
  intros N. set (s := gmul (gadd h1 h2) (gadd h1 h2)).
  assert (Ns : s <> g0).
  { intros E. assert (E' : gadd h1 h2 = g0) by (apply g_domain in E as [E|E]; exact E). apply N.
    transitivity (gadd (gadd h1 h2) h2); [|rewrite E'; ring].
    transitivity (gadd h1 (gadd h2 h2)); [rewrite gadd_xx; ring|ring]. }
  assert (S : gmul b s = gadd (gmul (gmul b h1) h1) (gmul (gmul b h2) h2)).
  { transitivity (gadd (gadd (gmul (gmul b h1) h1) (gmul (gmul b h2) h2)) (gadd (gmul b (gmul h1 h2)) (gmul b (gmul h1 h2)))); [unfold s; ring|].
    rewrite gadd_xx. ring. }
  pose proof (g_inverse s Ns) as I. split.
  - intros E. assert (E2 : gmul b s = gadd d1 d2).
    { rewrite S. transitivity (gadd (gadd (gadd d1 (gmul (gmul b h1) h1)) (gadd d2 (gmul (gmul b h2) h2))) (gadd d1 d2)).
      - transitivity (gadd (gadd (gadd (gmul (gmul b h1) h1) (gmul (gmul b h2) h2)) (gadd d1 d1)) (gadd d2 d2)); [rewrite !gadd_xx; ring|ring].
      - rewrite E, gadd_xx. ring. }
    rewrite <- E2. transitivity (gmul b (gmul s (ginv s))); [rewrite I|]; ring.
  - intros E. assert (E2 : gmul b s = gadd d1 d2).
    { rewrite E. transitivity (gmul (gadd d1 d2) (gmul s (ginv s))); [|rewrite I]; ring. }
    rewrite S in E2. transitivity (gadd (gadd d1 (gmul (gmul b h1) h1)) (gadd (gmul (gmul b h2) h2) (gmul (gmul b h2) h2))); [rewrite gadd_xx; ring|].
    transitivity (gadd (gadd d1 (gmul (gmul b h2) h2)) (gadd (gmul (gmul b h1) h1) (gmul (gmul b h2) h2))); [ring|]. rewrite E2.
    transitivity (gadd (gadd d2 (gmul (gmul b h2) h2)) (gadd d1 d1)); [ring|]. rewrite gadd_xx. ring.
Qed.

Definition opens (alg : aes_variant) (key iv aad ct tag : list Z) : Prop :=
  exists m, gcm_decrypt_pub key iv aad ct tag alg = Ok (Some m).
Lemma opens_iff alg key iv aad ct tag : bytes_n (klen alg) key -> bytes_n 12 iv -> Forall byte aad -> Forall byte ct ->
  short aad -> short ct -> length tag = 16%nat -> opens alg key iv aad ct tag <-> tag = gcm_tag (aes_pure alg key) iv aad ct.
Proof.
  intros. unfold opens. rewrite gcm_decrypt_Ok by trivial. split.
  - intros [m E]. destruct (list_eqb _ _) eqn:Q; [|discriminate E]. symmetry. now apply list_eqb_spec.
  - intros ->. eexists. now rewrite (proj2 (list_eqb_spec _ _)) by reflexivity.
Qed.

(** For any two keys (of either size) whose encryptions of the zero block differ, any two nonces, any associated data and any
    ciphertext of whole blocks, exactly one more block makes it a ciphertext that one tag opens under both keys. *)
Theorem C102_gcm_two_keys : forall alg1 alg2 key1 key2 iv1 iv2 aad c0 h1 h2,
  bytes_n (match alg1 with Aes128 => 16 | Aes256 => 32 end) key1 -> bytes_n (match alg2 with Aes128 => 16 | Aes256 => 32 end) key2 ->
  bytes_n 12 iv1 -> bytes_n 12 iv2 -> Forall byte aad -> Forall byte c0 -> (length c0 mod 16 = 0)%nat ->
  Z.of_nat (length aad) < 2 ^ 61 -> Z.of_nat (length c0) + 16 < 2 ^ 61 ->
  aes_encrypt_block key1 (repeat 0 16) (nk_of alg1) (nr_of alg1) alg1 = Ok h1 ->
  aes_encrypt_block key2 (repeat 0 16) (nk_of alg2) (nr_of alg2) alg2 = Ok h2 -> h1 <> h2 ->
  exists b tag, bytes_n 16 b /\ bytes_n 16 tag /\
    (exists m, gcm_decrypt_pub key1 iv1 aad (c0 ++ b) tag alg1 = Ok (Some m)) /\
    (exists m, gcm_decrypt_pub key2 iv2 aad (c0 ++ b) tag alg2 = Ok (Some m)) /\
    forall b' tag', bytes_n 16 b' -> length tag' = 16%nat ->
      (exists m, gcm_decrypt_pub key1 iv1 aad (c0 ++ b') tag' alg1 = Ok (Some m)) ->
      (exists m, gcm_decrypt_pub key2 iv2 aad (c0 ++ b') tag' alg2 = Ok (Some m)) -> b' = b /\ tag' = tag.
Proof.
  intros alg1 alg2 key1 key2 iv1 iv2 aad c0 h1 h2 K1 K2 I1 I2 A C M SA SC H1 H2 N.
  assert (HK1 : bytes_n (klen alg1) key1) by (destruct alg1; exact K1). assert (HK2 : bytes_n (klen alg2) key2) by (destruct alg2; exact K2).
  assert (Z16 : block16 (repeat 0 16)) by (split; [reflexivity|apply zeros_bytes]).
  destruct (aes_encrypt_block_Ok alg1 key1 _ HK1 Z16) as [Q1 B1]. rewrite Q1 in H1. injection H1 as <-.
  destruct (aes_encrypt_block_Ok alg2 key2 _ HK2 Z16) as [Q2 B2]. rewrite Q2 in H2. injection H2 as <-. clear Q1 Q2.
  set (q := (length c0 / 16)%nat). assert (Lq : length c0 = (16 * q)%nat) by (pose proof (Nat.div_mod (length c0) 16 ltac:(lia)); unfold q; lia).
  clearbody q.
  set (u1 := be_num (aes_pure alg1 key1 (repeat 0 16))) in *. set (u2 := be_num (aes_pure alg2 key2 (repeat 0 16))) in *.
  assert (U1 : u128r u1) by now apply encode_Ok. assert (U2 : u128r u2) by now apply encode_Ok.
  assert (Nu : gin u1 <> gin u2).
  { intros E. apply gin_inj in E; trivial. apply N. destruct B1 as [L1 B1], B2 as [L2 B2]. apply be_num_inj; trivial; now rewrite L1, L2. }
  set (e1 := be_num (ctr_block (aes_pure alg1 key1) iv1 1)). set (e2 := be_num (ctr_block (aes_pure alg2 key2) iv2 1)).
  set (g1' := ghash u1 (gcm_mac_data aad (c0 ++ repeat 0 16))). set (g2' := ghash u2 (gcm_mac_data aad (c0 ++ repeat 0 16))).
  assert (T : forall b, bytes_n 16 b ->
    gcm_tag (aes_pure alg1 key1) iv1 aad (c0 ++ b) = gcm_tag (aes_pure alg2 key2) iv2 aad (c0 ++ b) <->
    gadd (gin (Z.lxor g1' e1)) (gmul (gmul (gin (be_num b)) (gin u1)) (gin u1)) =
    gadd (gin (Z.lxor g2' e2)) (gmul (gmul (gin (be_num b)) (gin u2)) (gin u2))).
  { intros b [Lb Bb]. assert (Cb : Forall byte (c0 ++ b)) by (apply Forall_app; now split).
    destruct (be_num_tag alg1 key1 iv1 aad (c0 ++ b)) as [T1 [L1 F1]]; trivial.
    destruct (be_num_tag alg2 key2 iv2 aad (c0 ++ b)) as [T2 [L2 F2]]; trivial.
    fold u1 in T1. fold u2 in T2. rewrite (ghash_last_block u1 aad c0 b q) in T1 by trivial.
    rewrite (ghash_last_block u2 aad c0 b q) in T2 by trivial. fold g1' e1 in T1. fold g2' e2 in T2.
    rewrite <- !gin_mul, <- !gin_add. set (p1 := gcm_mul _ u1) in *. set (p2 := gcm_mul _ u2) in *.
    rewrite (lxor_swap g1' e1 p1).
    rewrite (lxor_swap g2' e2 p2).
    rewrite <- T1, <- T2. split; [now intros ->|]. intros E. apply gin_inj in E; [|exact (be_num_u _ (conj L1 F1))|exact (be_num_u _ (conj L2 F2))].
    apply (be_num_inj _ _ F1 F2); [now rewrite L1, L2|exact E]. }
  set (x := gmul (gadd (gin (Z.lxor g1' e1)) (gin (Z.lxor g2' e2))) (ginv (gmul (gadd (gin u1) (gin u2)) (gadd (gin u1) (gin u2))))).
  assert (Tx : forall b, bytes_n 16 b ->
    gcm_tag (aes_pure alg1 key1) iv1 aad (c0 ++ b) = gcm_tag (aes_pure alg2 key2) iv2 aad (c0 ++ b) <-> gin (be_num b) = x).
  { intros b Hb. rewrite (T b Hb). now apply g_solve. }
  clearbody x. clear T. set (b := be_str 16 (gout x)). assert (Hb : bytes_n 16 b) by apply be_str_bytes.
  assert (Eb : gin (be_num b) = x) by (unfold b; rewrite be_num_str by apply gout_range; apply gin_gout).
  assert (SH : forall b, bytes_n 16 b -> Forall byte (c0 ++ b) /\ short (c0 ++ b)).
  { intros y [Ly By]. split; [apply Forall_app; now split|]. unfold short. rewrite app_length, Ly. lia. }
  destruct (SH b Hb) as [Fb Sb].
  exists b, (gcm_tag (aes_pure alg1 key1) iv1 aad (c0 ++ b)).
  split; [exact Hb|]. split; [now apply be_num_tag|].
  split; [apply opens_iff; trivial; apply gcm_tag_length|].
  split; [apply opens_iff; trivial; now apply Tx|].
  intros b' t' Hb' Lt' O1 O2. destruct (SH b' Hb') as [Fb' Sb'].
  apply opens_iff in O1; trivial. apply opens_iff in O2; trivial.
  assert (E : b' = b).
  { rewrite O1 in O2. apply Tx in O2; trivial. rewrite <- Eb in O2.
    destruct Hb as [Lb Bb], Hb' as [Lb' Bb']. apply gin_inj in O2; [|now apply encode_Ok|now apply encode_Ok].
    apply be_num_inj; trivial; now rewrite Lb, Lb'. }
  split; [exact E|]. now rewrite <- E.
Qed.
(** When the encryptions of the zero block agree, nothing opens under both keys unless the two tag masks agree as well. *)
Theorem C102_gcm_same_hash_key : forall alg1 alg2 key1 key2 iv1 iv2 aad ct tag m1 m2,
  bytes_n (match alg1 with Aes128 => 16 | Aes256 => 32 end) key1 -> bytes_n (match alg2 with Aes128 => 16 | Aes256 => 32 end) key2 ->
  bytes_n 12 iv1 -> bytes_n 12 iv2 -> Forall byte aad -> Forall byte ct -> length tag = 16%nat ->
  Z.of_nat (length aad) < 2 ^ 61 -> Z.of_nat (length ct) < 2 ^ 61 ->
  aes_encrypt_block key1 (repeat 0 16) (nk_of alg1) (nr_of alg1) alg1 = aes_encrypt_block key2 (repeat 0 16) (nk_of alg2) (nr_of alg2) alg2 ->
  gcm_decrypt_pub key1 iv1 aad ct tag alg1 = Ok (Some m1) -> gcm_decrypt_pub key2 iv2 aad ct tag alg2 = Ok (Some m2) ->
  aes_encrypt_block key1 (iv1 ++ [0; 0; 0; 1]) (nk_of alg1) (nr_of alg1) alg1 =
  aes_encrypt_block key2 (iv2 ++ [0; 0; 0; 1]) (nk_of alg2) (nr_of alg2) alg2.
Proof.
  intros alg1 alg2 key1 key2 iv1 iv2 aad ct tag m1 m2 K1 K2 I1 I2 A C Lt SA SC H D1 D2.
  assert (HK1 : bytes_n (klen alg1) key1) by (destruct alg1; exact K1). assert (HK2 : bytes_n (klen alg2) key2) by (destruct alg2; exact K2).
  assert (Z16 : block16 (repeat 0 16)) by (split; [reflexivity|apply zeros_bytes]).
  destruct (aes_encrypt_block_Ok alg1 key1 _ HK1 Z16) as [Q1 _]. destruct (aes_encrypt_block_Ok alg2 key2 _ HK2 Z16) as [Q2 _].
  rewrite Q1, Q2 in H. apply (f_equal (fun r => match r with Ok x => x | _ => [] end)) in H. clear Q1 Q2.
  assert (I16 : forall iv, bytes_n 12 iv -> block16 (iv ++ [0; 0; 0; 1])).
  { intros iv [L B]. split; [rewrite app_length, L; reflexivity|]. apply Forall_app. split; trivial. repeat constructor; discriminate. }
  destruct (aes_encrypt_block_Ok alg1 key1 _ HK1 (I16 _ I1)) as [-> [L1 B1]].
  destruct (aes_encrypt_block_Ok alg2 key2 _ HK2 (I16 _ I2)) as [-> [L2 B2]]. apply (f_equal Ok).
  assert (O1 := ex_intro _ m1 D1 : opens alg1 key1 iv1 aad ct tag). assert (O2 := ex_intro _ m2 D2 : opens alg2 key2 iv2 aad ct tag).
  apply (opens_iff alg1 key1 iv1 aad ct tag HK1 I1 A C SA SC Lt) in O1. apply (opens_iff alg2 key2 iv2 aad ct tag HK2 I2 A C SA SC Lt) in O2.
  rewrite O1 in O2. destruct (be_num_tag alg1 key1 iv1 aad ct HK1 I1 A C) as [T1 _]. destruct (be_num_tag alg2 key2 iv2 aad ct HK2 I2 A C) as [T2 _].
  rewrite <- O2, T1, H in T2. set (g := ghash _ _) in T2.
  change (aes_pure alg1 key1 (iv1 ++ [0; 0; 0; 1])) with (ctr_block (aes_pure alg1 key1) iv1 1) in *.
  change (aes_pure alg2 key2 (iv2 ++ [0; 0; 0; 1])) with (ctr_block (aes_pure alg2 key2) iv2 1) in *.
  apply (be_num_inj _ _ B1 B2); [now rewrite L1, L2|].
  apply (f_equal (Z.lxor g)) in T2. rewrite <- !Z.lxor_assoc, Z.lxor_nilpotent, !Z.lxor_0_l in T2. exact T2.
Qed.
(** Tying the key: false of both AEADs. *)
#[local] Transparent gf_mul gcm_mul fmul brev.
Theorem C102_gcm_key_commitment_refuted : exists key1 key2 iv aad ct tag m1 m2,
  bytes_n 16 key1 /\ bytes_n 16 key2 /\ bytes_n 12 iv /\ bytes_n 16 tag /\ bytes_n 16 ct /\ key1 <> key2 /\
  gcm_decrypt_pub key1 iv aad ct tag Aes128 = Ok (Some m1) /\ gcm_decrypt_pub key2 iv aad ct tag Aes128 = Ok (Some m2) /\ m1 <> m2.
Proof.
  exists (map Z.of_nat (seq 0 16)), (map Z.of_nat (seq 100 16)), (map Z.of_nat (seq 0 12)), [],
    [77; 38; 46; 177; 146; 183; 43; 205; 131; 9; 232; 168; 142; 24; 100; 232],
    [236; 120; 174; 100; 64; 11; 235; 64; 143; 25; 148; 97; 51; 47; 34; 62].
  do 2 eexists. split; [check_bytes|]. split; [check_bytes|]. split; [check_bytes|]. split; [check_bytes|]. split; [check_bytes|].
  split; [vm_compute; discriminate|]. split; [vm_compute; reflexivity|]. split; [vm_compute; reflexivity|]. discriminate.
Qed.
Theorem C102_chacha_key_commitment_refuted : exists key1 key2 iv aad ct tag m1 m2,
  bytes_n 32 key1 /\ bytes_n 32 key2 /\ bytes_n 12 iv /\ bytes_n 16 tag /\ bytes_n 16 ct /\ key1 <> key2 /\
  cp_decrypt key1 iv aad ct tag = Ok (Some m1) /\ cp_decrypt key2 iv aad ct tag = Ok (Some m2) /\ m1 <> m2.
Proof.
  exists (map Z.of_nat (seq 0 32)), (map Z.of_nat (seq 100 32)), (map Z.of_nat (seq 0 12)), [],
    [54; 49; 65; 255; 26; 66; 249; 242; 52; 139; 216; 134; 229; 83; 118; 39],
    [114; 165; 79; 98; 109; 4; 27; 144; 101; 190; 3; 222; 205; 120; 51; 183].
  do 2 eexists. split; [check_bytes|]. split; [check_bytes|]. split; [check_bytes|]. split; [check_bytes|]. split; [check_bytes|].
  split; [vm_compute; discriminate|]. split; [vm_compute; reflexivity|]. split; [vm_compute; reflexivity|]. discriminate.
Qed.
(** An AES-128 and an AES-256 key, associated data, one chosen ciphertext block, and the block that completes it. *)
Example C102_ex :
  let k1 := map Z.of_nat (seq 0 16) in let k2 := map Z.of_nat (seq 100 32) in let iv := map Z.of_nat (seq 0 12) in
  let ct := repeat 7 16 ++ [90; 59; 148; 40; 91; 114; 46; 169; 53; 92; 74; 146; 105; 33; 45; 213] in
  let tag := [62; 41; 150; 213; 30; 62; 193; 135; 189; 53; 196; 217; 14; 8; 248; 71] in
  (length (repeat 7 16) mod 16 = 0)%nat /\
  aes_encrypt_block k1 (repeat 0 16) (nk_of Aes128) (nr_of Aes128) Aes128 <> aes_encrypt_block k2 (repeat 0 16) (nk_of Aes256) (nr_of Aes256) Aes256 /\
  (exists m1, gcm_decrypt_pub k1 iv [1; 2; 3] ct tag Aes128 = Ok (Some m1)) /\
  (exists m2, gcm_decrypt_pub k2 iv [1; 2; 3] ct tag Aes256 = Ok (Some m2)) /\
  gcm_decrypt_pub k1 iv [1; 2; 3] (repeat 7 32) tag Aes128 = Ok None.
Proof.
  cbv zeta. split; [reflexivity|]. split; [vm_compute; discriminate|].
  split; [eexists; vm_compute; reflexivity|]. split; [eexists; vm_compute; reflexivity|]. vm_compute; reflexivity.
Qed.
(** One key and one nonce meet the hypotheses of [C102_gcm_same_hash_key]. *)
Example C102_ex_same : exists ct tag, gcm_encrypt_pub kat_gcm_key kat_gcm_iv kat_gcm_aad [1; 2; 3] Aes128 = Ok (ct, tag) /\
  gcm_decrypt_pub kat_gcm_key kat_gcm_iv kat_gcm_aad ct tag Aes128 = Ok (Some [1; 2; 3]).
Proof. do 2 eexists. split; [vm_compute; reflexivity|]. vm_compute. reflexivity. Qed.
Print Assumptions C102_gcm_two_keys.
Print Assumptions C102_gcm_same_hash_key.
Print Assumptions C102_gcm_key_commitment_refuted.
Print Assumptions C102_chacha_key_commitment_refuted.
