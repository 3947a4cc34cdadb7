(** C64: the stand-alone ChaCha20 of secret-integers/examples/chacha20.rs. *)
From Coq Require Import ZArith List Bool Arith Lia.
From Verif Require Import Base P_Base M_Int P_Int M_Seq M_Bytes M_Vec P_Seq P_Bytes P_Vec
  P_Word P_Stream M_BigInt M_NatMod M_ChaCha S_ChaCha P_ChaCha T_ChaCha M_ChachaEx P_ChachaEx.
Import ListNotations.
Open Scope Z_scope.
#[local] Opaque rfc_block_word rfc_block.

(** A key stream block is the block function of RFC 8439. *)
Theorem C64_block_is_rfc : forall key ctr nonce, bytes_n 32 key -> bytes_n 12 nonce -> word32 ctr ->
  exists b, chacha20_block key ctr nonce = Ok b /\ length b = 64%nat /\
    forall j, (j < 64)%nat -> nth j b 0 = rfc_block_byte key ctr nonce j.
Proof.
  intros key ctr nonce Hk Hi Hc. exists (rfc_block key ctr nonce). conjs.
  - now apply ex_block_Ok.
  - apply rfc_block_length.
  - intros. now apply nth_rfc_block.
Qed.
(** Every byte of the cipher text of a non-empty message is that of RFC 8439, for any initial
    counter; the 32-bit counter wraps. *)
Theorem C64_stream_is_rfc : forall key c0 nonce m, bytes_n 32 key -> bytes_n 12 nonce -> word32 c0 -> m <> [] ->
  exists c, chacha20_encrypt key c0 nonce m = Ok c /\ length c = length m /\
    forall j, (j < length m)%nat -> nth j c 0 = rfc_cipher_byte key c0 nonce m j.
Proof.
  intros key c0 nonce m Hk Hi Hc Hm. eexists. conjs.
  - now apply counter_mode_Ok.
  - apply xor_ks_length.
  - intros j Hj. rewrite nth_xor_ks by assumption. unfold rfc_cipher_byte, ctr_from.
    now rewrite nth_rfc_block by (apply Nat.mod_upper_bound; lia).
Qed.
(** Decryption undoes encryption, for every non-empty message. *)
Theorem C64_roundtrip : forall key c0 nonce m, bytes_n 32 key -> bytes_n 12 nonce -> word32 c0 -> m <> [] ->
  exists c, chacha20_encrypt key c0 nonce m = Ok c /\ length c = length m /\
    chacha20_decrypt key c0 nonce c = Ok m.
Proof.
  intros key c0 nonce m Hk Hi Hc Hm. eexists. conjs.
  - now apply counter_mode_Ok.
  - apply xor_ks_length.
  - unfold chacha20_decrypt. rewrite counter_mode_Ok; try assumption.
    + now rewrite xor_ks_invol.
    + intros E. apply (f_equal (@length Z)) in E. rewrite xor_ks_length in E. now destruct m.
Qed.
(** On a non-empty message, with initial counter 1, it is the ChaCha20 of
    spec-examples/src/chacha20_poly1305/chacha20.rs. *)
Theorem C64_same_as_spec : forall key nonce m, bytes_n 32 key -> bytes_n 12 nonce -> m <> [] ->
  chacha20_encrypt key 1 nonce m = chacha key nonce m.
Proof.
  intros key nonce m Hk Hi Hm. unfold chacha20_encrypt. rewrite counter_mode_Ok; try assumption.
  - rewrite chacha_Ok by assumption. reflexivity.
  - split; [discriminate|reflexivity].
Qed.
(** Seeking: a message cut at a block boundary can be encrypted in two parts, the second one with
    the counter advanced by the number of blocks of the first. *)
Theorem C64_seek : forall key c0 nonce m1 m2 k, bytes_n 32 key -> bytes_n 12 nonce -> word32 c0 ->
  m1 <> [] -> m2 <> [] -> length m1 = (64 * k)%nat ->
  exists c1 c2, chacha20_encrypt key c0 nonce m1 = Ok c1 /\
    chacha20_encrypt key ((c0 + Z.of_nat k) mod 2 ^ 32) nonce m2 = Ok c2 /\
    chacha20_encrypt key c0 nonce (m1 ++ m2) = Ok (c1 ++ c2).
Proof.
  intros key c0 nonce m1 m2 k Hk Hi Hc H1 H2 L. do 2 eexists. conjs.
  - now apply counter_mode_Ok.
  - apply counter_mode_Ok; try assumption. apply Z.mod_pos_bound. reflexivity.
  - unfold chacha20_encrypt. rewrite counter_mode_Ok; try assumption; [|destruct m1; [congruence|discriminate]].
    apply (f_equal Ok). apply (nth_ext_eq _ _ 0); rewrite ?app_length, !xor_ks_length, ?app_length; [reflexivity|].
    intros j Hj. rewrite nth_xor_ks by (now rewrite app_length).
    destruct (Nat.lt_ge_cases j (length m1)) as [C|C].
    + rewrite !app_nth1 by (rewrite ?xor_ks_length; exact C). now rewrite nth_xor_ks.
    + rewrite !app_nth2 by (rewrite ?xor_ks_length; exact C). rewrite xor_ks_length, nth_xor_ks by lia.
      assert (E : j = (j - length m1 + k * 64)%nat) by lia.
      assert (M : (j mod 64 = (j - length m1) mod 64)%nat) by (rewrite E at 1; apply Nat.mod_add; lia).
      assert (D : (j / 64 = (j - length m1) / 64 + k)%nat) by (rewrite E at 1; apply Nat.div_add; lia).
      assert (K : ctr_from ((c0 + Z.of_nat k) mod 2 ^ 32) ((j - length m1) / 64)
        = ctr_from c0 ((j - length m1) / 64 + k)).
      { unfold ctr_from. rewrite Zplus_mod_idemp_l. f_equal. lia. }
      rewrite M, D, K. reflexivity.
Qed.
(** Exactly when the call returns: a non-empty message, a 32-byte key and a 12-byte nonce. *)
Theorem C64_succeeds_iff : forall key c0 nonce m, Forall byte key -> Forall byte nonce -> word32 c0 ->
  (is_ok (chacha20_encrypt key c0 nonce m) <-> m <> [] /\ length key = 32%nat /\ length nonce = 12%nat).
Proof.
  intros key c0 nonce m Hk Hi Hc. unfold chacha20_encrypt. split.
  - intros [c E]. split; [intros ->; rewrite counter_mode_empty in E; discriminate|].
    destruct (Nat.eq_dec (length key) 32) as [A|A]; [destruct (Nat.eq_dec (length nonce) 12) as [B|B]; [auto|]|];
      (destruct (counter_mode_panic key c0 nonce m) as [p Ep]; [tauto|]; rewrite Ep in E; discriminate).
  - intros (H1 & H2 & H3). eexists. apply counter_mode_Ok; try assumption; split; assumption.
Qed.
(** The empty message: it has an encryption (the empty string), which the spec returns, but this
    function panics on [blocks.len() - 1]. *)
Theorem C64_empty_message_refuted : exists key c0 nonce, bytes_n 32 key /\ bytes_n 12 nonce /\ word32 c0 /\
  chacha key nonce [] = Ok [] /\ panics (chacha20_encrypt key c0 nonce []).
Proof.
  exists (repeat 7 32), 1, (repeat 9 12).
  assert (B : forall x n, byte x -> bytes_n n (repeat x n)).
  { intros x n Hx. split; [apply repeat_length|]. apply Forall_forall. intros y Hy.
    apply repeat_spec in Hy. now subst y. }
  conjs.
  - apply B. now split.
  - apply B. now split.
  - now split.
  - reflexivity.
  - eexists. reflexivity.
Qed.
Theorem C64_empty_message_always_panics : forall key c0 nonce,
  panics (chacha20_encrypt key c0 nonce []) /\ panics (chacha20_decrypt key c0 nonce []).
Proof. intros. split; eexists; reflexivity. Qed.

(** Test: one block and a bit, with a counter that wraps. *)
Example C64_case :
  let key := map Z.of_nat (seq 0 32) in let nonce := [0; 0; 0; 9; 0; 0; 0; 74; 0; 0; 0; 0] in
  let m := repeat 170 66 in
  bytes_n 32 key /\ bytes_n 12 nonce /\ word32 (2 ^ 32 - 1) /\
  firstn 16 (match chacha20_block key 1 nonce with Ok b => b | _ => [] end)
    = [0x10; 0xf1; 0xe7; 0xe4; 0xd1; 0x3b; 0x59; 0x15; 0x50; 0x0f; 0xdd; 0x1f; 0xa3; 0x20; 0x71; 0xc4] /\
  (let* c := chacha20_encrypt key (2 ^ 32 - 1) nonce m in chacha20_decrypt key (2 ^ 32 - 1) nonce c) = Ok m /\
  chacha20_encrypt key (2 ^ 32 - 1) nonce m <> Ok m.
Proof.
  cbv zeta. conjs.
  - apply bytes_check. vm_compute. reflexivity.
  - apply bytes_check. vm_compute. reflexivity.
  - split; [discriminate|reflexivity].
  - vm_compute. reflexivity.
  - vm_compute. reflexivity.
  - vm_compute. intros H. discriminate H.
Qed.
Print Assumptions C64_block_is_rfc.
Print Assumptions C64_stream_is_rfc.
Print Assumptions C64_roundtrip.
Print Assumptions C64_same_as_spec.
Print Assumptions C64_seek.
Print Assumptions C64_succeeds_iff.
Print Assumptions C64_empty_message_refuted.
