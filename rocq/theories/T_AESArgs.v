(** Theorems of record on the arguments nk and nr of the public AES block functions (property C109). *)
From Coq Require Import ZArith List Bool Arith Lia.
From Verif Require Import Base P_Base M_Int P_Int M_Seq P_Seq M_Bytes P_Bytes M_AES P_Word P_Stream
  S_ChaCha S_GF2 S_AES S_AESArgs P_AES P_AESArgs T_AES.
Import ListNotations.
Open Scope Z_scope.

(** Which calls return: those with the number of rounds of the variant and an nk for which the
    15 round constants suffice. All others panic. *)
Theorem C109_aes128_returns : forall k m nk nr, bytes_n 16 k -> bytes_n 16 m ->
  (exists c, aes128_encrypt_block k m nk nr = Ok c) <-> nr = 10%nat /\ (3 <= nk)%nat.
Proof.
  intros k m nk nr Hk Hm. unfold aes128_encrypt_block. rewrite seq_from_seq_Ok. cbn [bind]. split.
  - intros [c H]. exact (block_inv Aes128 k m nk nr c Hk H).
  - intros [-> H]. eexists. exact (proj1 (block_Ok Aes128 k m nk Hk Hm H)).
Qed.
Theorem C109_aes256_returns : forall k m nk nr, bytes_n 32 k -> bytes_n 16 m ->
  (exists c, aes256_encrypt_block k m nk nr = Ok c) <-> nr = 14%nat /\ (4 <= nk)%nat.
Proof.
  intros k m nk nr Hk Hm. unfold aes256_encrypt_block. rewrite seq_from_seq_Ok. cbn [bind]. split.
  - intros [c H]. exact (block_inv Aes256 k m nk nr c Hk H).
  - intros [-> H]. eexists. exact (proj1 (block_Ok Aes256 k m nk Hk Hm H)).
Qed.
(** What they return: the cipher of FIPS 197 with a key schedule in which nk decides where the words
    are transformed, while the key has 4 (8) words. *)
Theorem C109_aes128_value : forall k m nk, bytes_n 16 k -> bytes_n 16 m -> (3 <= nk)%nat ->
  aes128_encrypt_block k m nk 10 = Ok (cipher 10 (sched 4 nk k 44) m) /\
  (nk = 4%nat -> cipher 10 (sched 4 nk k 44) m = fips_aes 4 10 k m).
Proof.
  intros k m nk Hk Hm H. unfold aes128_encrypt_block. rewrite seq_from_seq_Ok. cbn [bind]. split.
  - exact (proj1 (block_Ok Aes128 k m nk Hk Hm H)).
  - intros ->. rewrite sched_aes. exact (cipher_aes 4 10 k m).
Qed.
Theorem C109_aes256_value : forall k m nk, bytes_n 32 k -> bytes_n 16 m -> (4 <= nk)%nat ->
  aes256_encrypt_block k m nk 14 = Ok (cipher 14 (sched 8 nk k 60) m) /\
  (nk = 8%nat -> cipher 14 (sched 8 nk k 60) m = fips_aes 8 14 k m).
Proof.
  intros k m nk Hk Hm H. unfold aes256_encrypt_block. rewrite seq_from_seq_Ok. cbn [bind]. split.
  - exact (proj1 (block_Ok Aes256 k m nk Hk Hm H)).
  - intros ->. rewrite sched_aes. exact (cipher_aes 8 14 k m).
Qed.
(** A permutation of the blocks in every case. *)
Theorem C109_permutation : forall alg k nk,
  bytes_n (match alg with Aes128 => 16 | Aes256 => 32 end) k ->
  (match alg with Aes128 => 3 | Aes256 => 4 end <= nk)%nat ->
  let f := fun m => match alg with Aes128 => aes128_encrypt_block k m nk 10 | Aes256 => aes256_encrypt_block k m nk 14 end in
  (forall x, bytes_n 16 x -> exists y, f x = Ok y /\ bytes_n 16 y) /\
  (forall x x' y, bytes_n 16 x -> bytes_n 16 x' -> f x = Ok y -> f x' = Ok y -> x = x') /\
  (forall y, bytes_n 16 y -> exists x, bytes_n 16 x /\ f x = Ok y).
Proof.
  intros alg k nk Hk Hnk f.
  assert (HK : bytes_n (klen alg) k) by (destruct alg; exact Hk).
  assert (HN : (nk_min alg <= nk)%nat) by (destruct alg; exact Hnk).
  assert (Hf : forall m, f m = aes_encrypt_block k m nk (nr_of alg) alg).
  { intros m. unfold f, aes128_encrypt_block, aes256_encrypt_block. rewrite seq_from_seq_Ok. now destruct alg. }
  assert (Hws : (0 < nk_of alg)%nat) by (destruct alg; cbn; lia).
  assert (Hr : (0 < nr_of alg)%nat) by (destruct alg; cbn; lia).
  destruct (cipher_inv (nr_of alg) (sched (nk_of alg) nk k (4 * (nr_of alg + 1))) Hr
    (sched_words _ nk k _ Hws HK) (sched_length _ _ _ _)) as (g & G1 & G2).
  apply (bij_of_inverse (bytes_n 16) f (cipher (nr_of alg) (sched (nk_of alg) nk k (4 * (nr_of alg + 1)))) g).
  - intros x Hx. destruct (G1 x Hx). conjs; trivial. rewrite Hf. now apply block_Ok.
  - intros y Hy. now apply G2.
Qed.
(** From 44 (60) on nk does not matter any more: no word is rotated and no round constant is used. *)
Theorem C109_large_nk : forall k128 k256 m nk, bytes_n 16 k128 -> bytes_n 32 k256 -> bytes_n 16 m ->
  ((44 <= nk)%nat -> aes128_encrypt_block k128 m nk 10 = aes128_encrypt_block k128 m 44 10) /\
  ((60 <= nk)%nat -> aes256_encrypt_block k256 m nk 14 = aes256_encrypt_block k256 m 60 14).
Proof.
  intros k k' m nk Hk Hk' Hm. split; intros H.
  - rewrite (proj1 (C109_aes128_value k m nk Hk Hm ltac:(lia))), (proj1 (C109_aes128_value k m 44 Hk Hm ltac:(lia))).
    rewrite (sched_ext 4 nk 44); [reflexivity|]. intros. apply next_word_large; lia.
  - rewrite (proj1 (C109_aes256_value k' m nk Hk' Hm ltac:(lia))), (proj1 (C109_aes256_value k' m 60 Hk' Hm ltac:(lia))).
    rewrite (sched_ext 8 nk 60); [reflexivity|]. intros. apply next_word_large; lia.
Qed.
(** With every nk but its own the function differs from AES, for the key and block of FIPS 197 already. *)
Definition differs (r : res (list Z)) (c : list Z) : bool :=
  match r with Ok d => negb (list_eqb d c) | Panic _ => false end.
Lemma differs_128 : forallb (fun nk => (nk =? 4)%nat || differs (aes128_encrypt_block kat_key1 kat_msg1 nk 10) kat_ct1) (seq 3 42) = true.
Proof. vm_compute. reflexivity. Qed.
Lemma differs_256 : forallb (fun nk => (nk =? 8)%nat || differs (aes256_encrypt_block kat_key3 kat_msg3 nk 14) kat_ct3) (seq 4 57) = true.
Proof. vm_compute. reflexivity. Qed.
Lemma list_eqb_same (l : list Z) : list_eqb l l = true.
Proof. induction l as [|a l IH]; [reflexivity|]. cbn [list_eqb]. now rewrite Z.eqb_refl. Qed.
Lemma differs_neq r c : differs r c = true -> r <> Ok c.
Proof. intros H ->. cbn [differs] in H. rewrite list_eqb_same in H. discriminate. Qed.
Theorem C109_aes_iff :
  (forall nk nr, (forall k m, bytes_n 16 k -> bytes_n 16 m -> aes128_encrypt_block k m nk nr = Ok (fips_aes 4 10 k m))
     <-> nk = 4%nat /\ nr = 10%nat) /\
  (forall nk nr, (forall k m, bytes_n 32 k -> bytes_n 16 m -> aes256_encrypt_block k m nk nr = Ok (fips_aes 8 14 k m))
     <-> nk = 8%nat /\ nr = 14%nat).
Proof.
  assert (K1 : bytes_n 16 kat_key1) by check_bytes. assert (M1 : bytes_n 16 kat_msg1) by check_bytes.
  assert (K3 : bytes_n 32 kat_key3) by check_bytes. assert (M3 : bytes_n 16 kat_msg3) by check_bytes.
  split; intros nk nr; split.
  - intros H. specialize (H _ _ K1 M1).
    destruct (proj1 (C109_aes128_returns kat_key1 kat_msg1 nk nr K1 M1)) as [-> G]; [eexists; exact H|].
    split; [|reflexivity]. destruct (Nat.eq_dec nk 4) as [E|D]; [exact E|exfalso].
    assert (CT : fips_aes 4 10 kat_key1 kat_msg1 = kat_ct1).
    { pose proof (proj1 (C44_aes128_is_fips kat_key1 kat_msg1 K1 M1)) as F.
      assert (Ok kat_ct1 = Ok (fips_aes 4 10 kat_key1 kat_msg1)) as X by (rewrite <- F; vm_compute; reflexivity).
      congruence. }
    rewrite CT in H.
    assert (exists n, (3 <= n <= 44)%nat /\ n <> 4%nat /\ aes128_encrypt_block kat_key1 kat_msg1 n 10 = Ok kat_ct1) as (n & N & N4 & V).
    { destruct (le_lt_dec 44 nk) as [L|L].
      - exists 44%nat. rewrite <- (proj1 (C109_large_nk kat_key1 kat_key3 kat_msg1 nk K1 K3 M1) L). conjs; try lia. exact H.
      - exists nk. conjs; try lia. exact H. }
    pose proof (proj1 (forallb_forall _ _) differs_128 n ltac:(apply in_seq; lia)) as Df. cbv beta in Df.
    rewrite (proj2 (Nat.eqb_neq n 4) N4) in Df. cbn [orb] in Df. exact (differs_neq _ _ Df V).
  - intros [-> ->] k m Hk Hm. exact (proj1 (C44_aes128_is_fips k m Hk Hm)).
  - intros H. specialize (H _ _ K3 M3).
    destruct (proj1 (C109_aes256_returns kat_key3 kat_msg3 nk nr K3 M3)) as [-> G]; [eexists; exact H|].
    split; [|reflexivity]. destruct (Nat.eq_dec nk 8) as [E|D]; [exact E|exfalso].
    assert (CT : fips_aes 8 14 kat_key3 kat_msg3 = kat_ct3).
    { pose proof (proj1 (C44_aes256_is_fips kat_key3 kat_msg3 K3 M3)) as F.
      assert (Ok kat_ct3 = Ok (fips_aes 8 14 kat_key3 kat_msg3)) as X by (rewrite <- F; vm_compute; reflexivity).
      congruence. }
    rewrite CT in H.
    assert (exists n, (4 <= n <= 60)%nat /\ n <> 8%nat /\ aes256_encrypt_block kat_key3 kat_msg3 n 14 = Ok kat_ct3) as (n & N & N8 & V).
    { destruct (le_lt_dec 60 nk) as [L|L].
      - exists 60%nat. rewrite <- (proj2 (C109_large_nk kat_key1 kat_key3 kat_msg3 nk K1 K3 M3) L). conjs; try lia. exact H.
      - exists nk. conjs; try lia. exact H. }
    pose proof (proj1 (forallb_forall _ _) differs_256 n ltac:(apply in_seq; lia)) as Df. cbv beta in Df.
    rewrite (proj2 (Nat.eqb_neq n 8) N8) in Df. cbn [orb] in Df. exact (differs_neq _ _ Df V).
  - intros [-> ->] k m Hk Hm. exact (proj1 (C44_aes256_is_fips k m Hk Hm)).
Qed.
(** The full claim, that a call returns AES or panics, fails: nk = 6 (the value for 192-bit keys) with a
    128-bit key and 10 rounds returns another block, and so does nk = 4 with a 256-bit key. *)
Theorem C109_aes_or_panic_refuted : exists k128 k256 m c128 c256,
  bytes_n 16 k128 /\ bytes_n 32 k256 /\ bytes_n 16 m /\
  aes128_encrypt_block k128 m 6 10 = Ok c128 /\ c128 <> fips_aes 4 10 k128 m /\
  aes256_encrypt_block k256 m 4 14 = Ok c256 /\ c256 <> fips_aes 8 14 k256 m.
Proof.
  exists kat_key1, kat_key3, kat_msg3, (cipher 10 (sched 4 6 kat_key1 44) kat_msg3), (cipher 14 (sched 8 4 kat_key3 60) kat_msg3).
  assert (K1 : bytes_n 16 kat_key1) by check_bytes.
  assert (K3 : bytes_n 32 kat_key3) by check_bytes. assert (M3 : bytes_n 16 kat_msg3) by check_bytes.
  pose proof (proj1 (C109_aes128_value kat_key1 kat_msg3 6 K1 M3 ltac:(lia))) as E1.
  pose proof (proj1 (C109_aes256_value kat_key3 kat_msg3 4 K3 M3 ltac:(lia))) as E2.
  pose proof (proj1 (C44_aes128_is_fips kat_key1 kat_msg3 K1 M3)) as F1.
  pose proof (proj1 (C44_aes256_is_fips kat_key3 kat_msg3 K3 M3)) as F2.
  conjs; trivial.
  - intros X. rewrite X, <- F1 in E1. revert E1. vm_compute. discriminate.
  - intros X. rewrite X, <- F2 in E2. revert E2. vm_compute. discriminate.
Qed.
(** FIPS 197's own values, three further arguments nk, and calls that panic. *)
Example C109_ex : bytes_n 16 kat_key1 /\ bytes_n 16 kat_msg1 /\
  aes128_encrypt_block kat_key1 kat_msg1 4 10 = Ok kat_ct1 /\
  differs (aes128_encrypt_block kat_key1 kat_msg1 3 10) kat_ct1 = true /\
  differs (aes128_encrypt_block kat_key1 kat_msg1 44 10) kat_ct1 = true /\
  aes128_encrypt_block kat_key1 kat_msg1 1000 10 = aes128_encrypt_block kat_key1 kat_msg1 44 10 /\
  aes128_encrypt_block kat_key1 kat_msg1 43 10 <> aes128_encrypt_block kat_key1 kat_msg1 44 10 /\
  aes128_encrypt_block kat_key1 kat_msg1 2 10 = Panic PIndex /\
  aes128_encrypt_block kat_key1 kat_msg1 0 10 = Panic PDivZero /\
  aes128_encrypt_block kat_key1 kat_msg1 4 9 = Panic PAssert /\
  aes128_encrypt_block kat_key1 kat_msg1 4 11 = Panic PAssert /\
  aes256_encrypt_block kat_key3 kat_msg3 8 14 = Ok kat_ct3 /\
  aes256_encrypt_block kat_key3 kat_msg3 3 14 = Panic PIndex.
Proof. conjs; try (vm_compute; reflexivity); try check_bytes. vm_compute. discriminate. Qed.

Print Assumptions C109_aes128_returns.
Print Assumptions C109_aes256_returns.
Print Assumptions C109_aes128_value.
Print Assumptions C109_aes256_value.
Print Assumptions C109_permutation.
Print Assumptions C109_large_nk.
Print Assumptions C109_aes_iff.
Print Assumptions C109_aes_or_panic_refuted.
