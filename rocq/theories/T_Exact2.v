(** Exact characterisation of hash (C49), for every message length. *)
From Coq Require Import ZArith List Bool Lia.
From Verif Require Import Base P_Base M_Int P_Int M_Seq P_Seq M_Bytes P_Bytes P_Word P_Stream
  S_ChaCha S_AES S_SHA2 P_AES P_Poly1305 P_GCM M_SHA2 P_SHA2 P_Float P_HMAC T_ChaCha T_AES T_SHA2.
Import ListNotations.
Open Scope Z_scope.

Lemma full_step_overflow m h : (length m mod 64 <> 0)%nat -> 2 ^ 61 <= Z.of_nat (length m) ->
  panics (full_step m (length m / 64) h).
Proof.
  intros R B. pose proof (Nat.div_mod (length m) 64 ltac:(lia)) as D.
  pose proof (Nat.mod_upper_bound (length m) 64 ltac:(lia)) as Ur.
  set (q := (length m / 64)%nat) in *. set (r := (length m mod 64)%nat) in *.
  unfold full_step. rewrite get_chunk_Ok by lia. cbn [bind].
  replace (Nat.min 64 (length m - 64 * q)) with r by lia.
  destruct (Nat.ltb_spec r 64); [|lia].
  rewrite firstn_all2 by (rewrite skipn_length; lia).
  destruct (update_start _ _) as [b1|e] eqn:E1; cbn [bind]; [|now exists e].
  destruct (update _ _ _) as [b2|e] eqn:E2; cbn [bind]; [|now exists e].
  destruct (upd _ _ _) as [b3|e] eqn:E3; cbn [bind]; [|now exists e].
  destruct (op_mul u64 (Z.of_nat (length m)) 8) as [v|e] eqn:E4; cbn [bind]; [|now exists e].
  exfalso. unfold op_mul, chk in E4. cbn [sec u64] in E4.
  destruct (in_tyb u64 _) eqn:T; [|discriminate E4].
  apply in_tyb_spec in T. unfold in_ty, imax in T. cbn [sgn u64 bits] in T. lia.
Qed.

(** For every message: on whole blocks (any number, the empty message included) the digest of
    the unpadded blocks; otherwise the FIPS 180-4 digest below 2^61 bytes and a panic from there
    on (the bit count does not fit usize). *)
Theorem C49_hash_exact : forall m, Forall byte m ->
  ((length m mod 64 = 0)%nat -> hash m = Ok (sha_digest (sha_iter m))) /\
  ((length m mod 64 <> 0)%nat -> Z.of_nat (length m) < 2 ^ 61 -> hash m = Ok (fips_sha256 m)) /\
  ((length m mod 64 <> 0)%nat -> 2 ^ 61 <= Z.of_nat (length m) -> panics (hash m)).
Proof.
  intros m F. split; [now apply C49_whole_blocks_unpadded|]. split.
  - intros M L. now apply C49_hash_is_fips_partial.
  - intros M L. unfold hash. rewrite num_chunks_Ok by lia. cbn [bind].
    pose proof (Nat.div_mod (length m) 64 ltac:(lia)) as D.
    pose proof (Nat.mod_upper_bound (length m) 64 ltac:(lia)) as Ur.
    match goal with |- panics (bind (for_range 0 ?n ?f ?s) ?g) => change f with (full_step m); set (k := n) end.
    rewrite sha256_init_eq.
    replace k with (length m / 64 + 1)%nat.
    2: { unfold k. apply (Nat.div_unique _ _ _ (length m mod 64 - 1)); lia. }
    rewrite for_range_app, (full_blocks m _ H256 F H256_words8) by lia. cbn [bind for_range Nat.add].
    destruct (full_step_overflow m (sha_steps m (length m / 64) H256) M L) as [e ->]. now exists e.
Qed.
Print Assumptions C49_hash_exact.
Example C49_hash_exact_ex : exists m, Forall byte m /\ (length m mod 64 <> 0)%nat /\ 2 ^ 61 <= Z.of_nat (length m).
Proof.
  assert (N : exists n, Z.of_nat n = 2 ^ 61 + 1) by (exists (Z.to_nat (2 ^ 61 + 1)); apply Z2Nat.id; lia).
  destruct N as [n N]. exists (repeat 7 n). rewrite repeat_length. split; [|split; [|lia]].
  - apply Forall_forall. intros x Hx. apply repeat_spec in Hx. subst. unfold byte. lia.
  - intros E. apply (f_equal Z.of_nat) in E. rewrite Nat2Z.inj_mod, N in E. discriminate E.
Qed.
