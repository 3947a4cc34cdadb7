(** What the digests of whole-block messages give away (C86). *)
From Coq Require Import ZArith List Bool Arith Lia.
From Verif Require Import Base P_Base M_Int M_Seq M_Bytes P_Seq P_Bytes P_Word P_Stream S_AES P_GCM
  S_ChaCha M_SHA2 S_SHA2 P_SHA2 T_SHA2.
From Verif Require P_ChachaEx P_Poly1305 M_Blake2 S_Blake2 P_Blake2 T_Blake2.
Import ListNotations.
Open Scope Z_scope.
#[local] Opaque sha_compress S_Blake2.blake_F S_Blake2.blake_block.

Lemma fold_seq_split {A} (f : A -> nat -> A) a k q : fold_left f (seq 0 (k + q)) a =
  fold_left (fun s i => f s (k + i)%nat) (seq 0 q) (fold_left f (seq 0 k) a).
Proof.
  rewrite seq_app, fold_left_app, Nat.add_0_l. generalize (fold_left f (seq 0 k) a). clear.
  enough (H : forall j s, fold_left f (seq (k + j) q) s = fold_left (fun s i => f s (k + i)%nat) (seq j q) s).
  { intros a. rewrite <- H. now rewrite Nat.add_0_r. }
  induction q as [|q IH]; intros j s; [reflexivity|]. cbn [seq fold_left].
  replace (S (k + j)) with (k + S j)%nat by lia. apply IH.
Qed.
Lemma fold_left_ext_seq {A} (f g : A -> nat -> A) n a : (forall s i, (i < n)%nat -> f s i = g s i) ->
  fold_left f (seq 0 n) a = fold_left g (seq 0 n) a.
Proof.
  intros H. assert (G : forall l s, (forall i, In i l -> (i < n)%nat) -> fold_left f l s = fold_left g l s).
  { induction l as [|i l IH]; intros s Hl; [reflexivity|]. cbn [fold_left]. rewrite H by (apply Hl; now left). apply IH. intros j Hj. apply Hl. now right. }
  apply G. intros i Hi. apply in_seq in Hi. lia.
Qed.
Lemma chunk_app_l {A} (m x : list A) b i : (b * i + b <= length m)%nat -> firstn b (skipn (b * i) (m ++ x)) = firstn b (skipn (b * i) m).
Proof.
  intros H. rewrite skipn_app. replace (b * i - length m)%nat with 0%nat by lia. cbn [skipn].
  rewrite firstn_app, skipn_length. replace (b - (length m - b * i))%nat with 0%nat by lia. cbn [firstn]. apply app_nil_r.
Qed.
Lemma chunk_app_r {A} (m x : list A) b k i : length m = (b * k)%nat -> skipn (b * (k + i)) (m ++ x) = skipn (b * i) x.
Proof.
  intros H. rewrite skipn_app, skipn_all2 by nia. rewrite app_nil_l. f_equal. nia.
Qed.

(** *** SHA-256 *)
(** What is left to hash after n bytes in whole blocks, when x is the rest of the message. *)
Definition sha_rest (n : nat) (x : list Z) : list Z :=
  if (length x mod 64 =? 0)%nat then x
  else x ++ [0x80] ++ repeat 0 ((119 - length x mod 64) mod 64)%nat ++ be_str 8 (8 * Z.of_nat (n + length x)).
(** The digest of m ++ x from that of m: the digest is read as the eight words of the hash value. *)
Definition sha_extend (d : list Z) (n : nat) (x : list Z) : list Z :=
  let y := sha_rest n x in
  sha_digest (fold_left (fun H i => sha_compress H (sha_block y i)) (seq 0 (length y / 64)) (map (be_word d) (seq 0 8))).

Lemma sha_iter_app m y k : length m = (64 * k)%nat ->
  sha_iter (m ++ y) = fold_left (fun H i => sha_compress H (sha_block y i)) (seq 0 (length y / 64)) (sha_iter m).
Proof.
  intros L. unfold sha_iter. rewrite app_length, L.
  replace ((64 * k + length y) / 64)%nat with (k + length y / 64)%nat.
  2: { replace (64 * k + length y)%nat with (length y + k * 64)%nat by lia. rewrite Nat.div_add by lia. lia. }
  rewrite fold_seq_split. replace (64 * k / 64)%nat with k by (rewrite Nat.mul_comm, Nat.div_mul; lia).
  rewrite (fold_left_ext_seq _ (fun H i => sha_compress H (sha_block m i)) k).
  - apply fold_left_ext_seq. intros s i Hi. unfold sha_block. now rewrite (chunk_app_r m y 64 k i L).
  - intros s i Hi. unfold sha_block. rewrite chunk_app_l by lia. reflexivity.
Qed.
Lemma words_of_digest h : words8 h -> map (be_word (sha_digest h)) (seq 0 8) = h.
Proof.
  intros [L F]. do 9 (destruct h as [|? h]; try discriminate L). clear L.
  repeat match goal with H : Forall _ (_ :: _) |- _ => apply Forall_cons_iff in H as [? H] end. clear F.
  assert (W : forall w r, word32 w -> be_num (firstn 4 (be_str 4 w ++ r)) = w).
  { intros w r Hw. rewrite firstn_app, (be_str_length 4 w), Nat.sub_diag, firstn_O, app_nil_r, firstn_all2 by (now rewrite be_str_length).
    rewrite be_num_val, be_str_eq. rewrite be_val_be_bytes. apply Z.mod_small. exact Hw. }
  assert (S4 : forall w r, skipn 4 (be_str 4 w ++ r) = r).
  { intros w r. rewrite skipn_app, be_str_length, skipn_all2 by (now rewrite be_str_length). reflexivity. }
  unfold sha_digest. cbn [map concat seq]. unfold be_word.
  assert (SK : forall a b (l : list Z), skipn (a + b) l = skipn b (skipn a l)) by (intros; symmetry; apply P_ChachaEx.skipn_skipn_).
  repeat f_equal.
  - change (4 * 0)%nat with 0%nat. cbn [skipn]. now apply W.
  - change (4 * 1)%nat with 4%nat. rewrite S4. now apply W.
  - change (4 * 2)%nat with (4 + 4)%nat. rewrite !SK, !S4. now apply W.
  - change (4 * 3)%nat with (4 + (4 + 4))%nat. rewrite !SK, !S4. now apply W.
  - change (4 * 4)%nat with (4 + (4 + (4 + 4)))%nat. rewrite !SK, !S4. now apply W.
  - change (4 * 5)%nat with (4 + (4 + (4 + (4 + 4))))%nat. rewrite !SK, !S4. now apply W.
  - change (4 * 6)%nat with (4 + (4 + (4 + (4 + (4 + 4)))))%nat. rewrite !SK, !S4. now apply W.
  - change (4 * 7)%nat with (4 + (4 + (4 + (4 + (4 + (4 + 4))))))%nat. rewrite !SK, !S4. now apply W.
Qed.
(** The digest of a whole-block message determines, with nothing but the length of the message, the digest of every
    message that starts with it. *)
Theorem C86_sha256_extension : forall m x d, Forall byte m -> Forall byte x -> Z.of_nat (length m + length x) < 2 ^ 61 ->
  (length m mod 64)%nat = 0%nat -> hash m = Ok d -> hash (m ++ x) = Ok (sha_extend d (length m) x).
Proof.
  intros m x d Fm Fx L M E.
  assert (K : length m = (64 * (length m / 64))%nat) by (pose proof (Nat.div_mod (length m) 64 ltac:(lia)); lia).
  rewrite C49_whole_blocks_unpadded in E by assumption.
  assert (D : d = sha_digest (sha_iter m)) by congruence.
  rewrite hash_Ok by (first [now apply Forall_app | rewrite app_length; lia]). apply (f_equal Ok). unfold hash_pure, sha_extend. cbv zeta.
  assert (W : words8 (sha_iter m)) by now apply sha_iter_words.
  rewrite D, (words_of_digest _ W), <- (sha_iter_app m _ _ K). do 2 f_equal.
  unfold code_pad, sha_rest, sha_pad. rewrite app_length.
  replace ((length m + length x) mod 64)%nat with (length x mod 64)%nat.
  2: { rewrite K, Nat.add_comm, Nat.mul_comm, Nat.mod_add by lia. reflexivity. }
  destruct (_ =? _)%nat; [reflexivity|]. now rewrite <- app_assoc.
Qed.
Example C86_sha_ex : (length (repeat 7 64) mod 64)%nat = 0%nat /\
  (let* d := hash (repeat 7 64) in Ok (sha_extend d 64 [1; 2; 3])) = hash (repeat 7 64 ++ [1; 2; 3]) /\
  (let* d := hash (repeat 7 64 ++ [1; 2; 3]) in Ok (firstn 4 d)) = Ok [194; 31; 201; 21].
Proof. split; [reflexivity|]. split; vm_compute; reflexivity. Qed.

(** *** BLAKE2b *)
Import P_Poly1305 M_Blake2 S_Blake2 P_Blake2 T_Blake2.
Local Notation B := blake2b_params.
(** The digest of m ++ x from that of m and n = length m. *)
Definition blake_extend (d : list Z) (n : nat) (x : list Z) : list Z :=
  let q := (length x / 128)%nat in
  let h := fold_left (fun h i => blake_F B h (blake_block B x i) (Z.of_nat (n + (i + 1) * 128)) false) (seq 0 q)
             (map (fun k => le_num (firstn 8 (skipn (8 * k) d))) (seq 0 8)) in
  blake_output B 64
    (if (length x mod 128 =? 0)%nat then h else blake_F B h (blake_block B x q) (Z.of_nat (n + length x)) true).
Lemma le_bytes_of_eq n w : le_bytes_of n w = le_bytes n w.
Proof.
  revert w; induction n as [|n IH]; intros w; [reflexivity|]. unfold le_bytes_of in *. cbn [seq map le_bytes].
  rewrite <- IH, <- seq_shift, map_map. f_equal; [now rewrite Z.div_1_r|].
  apply map_ext. intros j. rewrite Nat2Z.inj_succ, Z.pow_succ_r by lia. rewrite <- Z.div_div by lia. reflexivity.
Qed.
Lemma le_num_of w : 0 <= w < 2 ^ 64 -> le_num (le_bytes_of 8 w) = w.
Proof. intros H. rewrite le_num_val, le_bytes_of_eq, le_val_le_bytes. apply Z.mod_small. exact H. Qed.
Lemma words_of_output h : words_n 8 h -> map (fun k => le_num (firstn 8 (skipn (8 * k) (blake_output B 64 h)))) (seq 0 8) = h.
Proof.
  intros [L F]. do 9 (destruct h as [|? h]; try discriminate L). clear L.
  repeat match goal with H : Forall _ (_ :: _) |- _ => apply Forall_cons_iff in H as [? H] end. clear F.
  transitivity [le_num (le_bytes_of 8 z); le_num (le_bytes_of 8 z0); le_num (le_bytes_of 8 z1); le_num (le_bytes_of 8 z2);
    le_num (le_bytes_of 8 z3); le_num (le_bytes_of 8 z4); le_num (le_bytes_of 8 z5); le_num (le_bytes_of 8 z6)]; [reflexivity|].
  now rewrite !le_num_of by assumption.
Qed.
Lemma block_app_l m x i : (128 * i + 128 <= length m)%nat -> blake_block B (m ++ x) i = blake_block B m i.
Proof. intros H. Transparent blake_block. unfold blake_block. change (block_bytes B) with 128%nat. cbv zeta. now rewrite chunk_app_l. Qed.
Lemma block_app_r m x k i : length m = (128 * k)%nat -> blake_block B (m ++ x) (k + i) = blake_block B x i.
Proof. intros H. unfold blake_block. change (block_bytes B) with 128%nat. cbv zeta. now rewrite (chunk_app_r m x 128 k i H). Qed.
#[local] Opaque blake_block.
Lemma chain_app m x k j : length m = (128 * k)%nat -> blake_chain B 64 (m ++ x) (k + j) =
  fold_left (fun h i => blake_F B h (blake_block B x i) (Z.of_nat (length m + (i + 1) * 128)) false) (seq 0 j) (blake_chain B 64 m k).
Proof.
  intros L. unfold blake_chain. rewrite fold_seq_split. change (block_bytes B) with 128%nat.
  rewrite (fold_left_ext_seq _ (fun h i => blake_F B h (blake_block B m i) (Z.of_nat ((i + 1) * 128)) false) k).
  - apply fold_left_ext_seq. intros s i Hi. rewrite (block_app_r m x k i L). f_equal. lia.
  - intros s i Hi. rewrite block_app_l by lia. reflexivity.
Qed.
Theorem C86_blake2b_extension : forall m x d, Forall byte m -> Forall byte x -> Z.of_nat (length m + length x) < 2 ^ 64 ->
  (length m mod 128)%nat = 0%nat -> blake2b m = Ok d -> blake2b (m ++ x) = Ok (blake_extend d (length m) x).
Proof.
  intros m x d Fm Fx L M E. set (k := (length m / 128)%nat).
  assert (K : length m = (128 * k)%nat) by (pose proof (Nat.div_mod (length m) 128 ltac:(lia)); unfold k; lia).
  rewrite C55_whole_blocks_never_final in E by (trivial; lia). fold k in E.
  assert (D : d = blake_output B 64 (blake_chain B 64 m k)) by congruence.
  assert (W : words_n 8 (blake_chain B 64 m k)) by (apply full_blocks; [assumption|lia]).
  destruct (blake2b_Ok (m ++ x)) as [-> _]; [now apply Forall_app|rewrite app_length; lia|].
  apply (f_equal Ok). unfold blake_extend. cbv zeta. rewrite D, (words_of_output _ W). f_equal.
  Transparent blake_state. unfold blake_state. cbv zeta. rewrite app_length.
  replace ((length m + length x) / 128)%nat with (k + length x / 128)%nat.
  2: { rewrite K. replace (128 * k + length x)%nat with (length x + k * 128)%nat by lia. rewrite Nat.div_add by lia. lia. }
  replace ((length m + length x) mod 128)%nat with (length x mod 128)%nat.
  2: { rewrite K. replace (128 * k + length x)%nat with (length x + k * 128)%nat by lia. rewrite Nat.mod_add by lia. reflexivity. }
  rewrite (chain_app m x k _ K). destruct (_ =? _)%nat; [reflexivity|]. now rewrite (block_app_r m x k _ K).
Qed.
Example C86_blake_ex : (length (repeat 7 128) mod 128)%nat = 0%nat /\
  (let* d := blake2b (repeat 7 128) in Ok (blake_extend d 128 [1; 2; 3])) = blake2b (repeat 7 128 ++ [1; 2; 3]) /\
  (let* d := blake2b (repeat 7 128 ++ [1; 2; 3]) in Ok (firstn 4 d)) = Ok [147; 198; 238; 196].
Proof. split; [reflexivity|]. split; vm_compute; reflexivity. Qed.
Print Assumptions C86_sha256_extension.
Print Assumptions C86_blake2b_extension.
