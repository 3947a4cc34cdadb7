(** Where two messages with one digest collide inside the hash functions (C50 for SHA-256, C88 for BLAKE2b). *)
From Coq Require Import ZArith List Bool Arith Lia.
From Verif Require Import Base P_Base M_Int M_Seq M_Bytes P_Seq P_Bytes P_Word P_Stream P_Poly1305 S_AES P_GCM
  S_ChaCha M_SHA2 S_SHA2 P_SHA2 P_HMAC T_SHA2 T_Extend.
From Verif Require M_Blake2 S_Blake2 P_Blake2 T_Blake2.
Import ListNotations.
Open Scope Z_scope.
#[local] Opaque sha_compress S_Blake2.blake_F S_Blake2.blake_block H256.

(** *** Iterated functions in general *)
Section Iterated.
Context {S B : Type} (dec : forall x y : S * B, {x = y} + {x <> y}) (f : S -> B -> S) (iv : S).
(** The two runs meet: after different inputs of f, and from there on they process the same blocks c. *)
Definition meets (l l' : list B) : Prop := exists a b a' b' c,
  l = a ++ b :: c /\ l' = a' ++ b' :: c /\
  (fold_left f a iv, b) <> (fold_left f a' iv, b') /\ f (fold_left f a iv) b = f (fold_left f a' iv) b'.
(** The blocks a lead back to the initial value. *)
Definition returns (l l' : list B) : Prop := exists a, a <> [] /\ l = a ++ l' /\ fold_left f a iv = iv.
Lemma iterated_collision l : forall l', fold_left f l iv = fold_left f l' iv -> l = l' \/ meets l l' \/ returns l l' \/ returns l' l.
Proof.
  induction l as [|b l IH] using rev_ind; intros l' E.
  - destruct l' as [|b' l']; [now left|]. right; right; right. exists (b' :: l'). split; [discriminate|]. split; [now rewrite app_nil_r|]. symmetry; exact E.
  - destruct l' as [|b' l' _] using rev_ind.
    + right; right; left. exists (l ++ [b]). split; [now destruct l|]. split; [now rewrite app_nil_r|exact E].
    + rewrite !fold_left_app in E. cbn [fold_left] in E.
      destruct (dec (fold_left f l iv, b) (fold_left f l' iv, b')) as [Q|Q].
      * injection Q as Q <-. destruct (IH l' Q) as [->|[M|[R|R]]]; [now left| | |].
        -- right; left. destruct M as (a & x & a' & x' & c & -> & -> & N & X). exists a, x, a', x', (c ++ [b]).
           split; [now rewrite <- app_assoc|]. split; [now rewrite <- app_assoc|]. auto.
        -- right; right; left. destruct R as (a & N & -> & X). exists a. split; [exact N|]. split; [now rewrite app_assoc|exact X].
        -- right; right; right. destruct R as (a & N & -> & X). exists a. split; [exact N|]. split; [now rewrite app_assoc|exact X].
      * right; left. exists l, b, l', b', []. auto.
Qed.
Lemma returns_length l l' : returns l l' -> (length l' < length l)%nat.
Proof. intros (a & N & -> & _). rewrite app_length. destruct a; [contradiction|cbn; lia]. Qed.
Lemma returns_last l l' d : returns l l' -> l' <> [] -> last l d = last l' d.
Proof.
  intros (a & _ & -> & _) N. destruct l' as [|b l' _] using rev_ind; [contradiction|]. rewrite app_assoc, !last_last. reflexivity.
Qed.
End Iterated.
Lemma pair_dec : forall x y : list Z * list Z, {x = y} + {x <> y}.
Proof. decide equality; apply (list_eq_dec Z.eq_dec). Qed.

(** *** SHA-256 *)
(** The bytes that hash compresses (C49): padded as in FIPS 180-4 unless the message is of whole blocks. *)
Definition hashed (m : list Z) : list Z := if (length m mod 64 =? 0)%nat then m else sha_pad m.
(** 64-byte blocks of a string *)
Definition blocks64 (p : list Z) : list (list Z) := map (sha_block p) (seq 0 (length p / 64)).
Lemma sha_iter_blocks p : sha_iter p = fold_left sha_compress (blocks64 p) H256.
Proof. unfold sha_iter, blocks64. generalize H256. induction (seq 0 _) as [|i l IH]; intros h; [reflexivity|]. cbn [fold_left map]. apply IH. Qed.
Lemma blocks64_concat p : (length p mod 64 = 0)%nat -> concat (blocks64 p) = p.
Proof.
  intros H. pose proof (Nat.div_mod_eq (length p) 64) as D. unfold blocks64. change (sha_block p) with (fun i => firstn 64 (skipn (64 * i) p)).
  rewrite concat_chunks. apply firstn_all2. lia.
Qed.
Lemma hashed_mod m : (length (hashed m) mod 64 = 0)%nat.
Proof. unfold hashed. destruct (Nat.eqb_spec (length m mod 64) 0); [assumption|apply sha_pad_mod]. Qed.
Lemma hash_state m m' d : Forall byte m -> Forall byte m' -> Z.of_nat (length m) < 2 ^ 61 -> Z.of_nat (length m') < 2 ^ 61 ->
  hash m = Ok d -> hash m' = Ok d ->
  fold_left sha_compress (blocks64 (hashed m)) H256 = fold_left sha_compress (blocks64 (hashed m')) H256.
Proof.
  intros F F' L L' E E'. rewrite hash_Ok in E by trivial. rewrite hash_Ok in E' by trivial.
  assert (EQ : hash_pure m = hash_pure m') by congruence. unfold hash_pure in EQ.
  apply sha_digest_inj in EQ; [|now apply sha_iter_words, code_pad_bytes|now apply sha_iter_words, code_pad_bytes].
  rewrite <- !sha_iter_blocks. exact EQ.
Qed.
(** Two different messages with the same digest: one is the other with its padding, or the runs meet at different
    inputs of the compression function, or one run passes the initial value again. *)
Theorem C50_collisions_located : forall m m' d, Forall byte m -> Forall byte m' ->
  Z.of_nat (length m) < 2 ^ 61 -> Z.of_nat (length m') < 2 ^ 61 -> m <> m' -> hash m = Ok d -> hash m' = Ok d ->
  m' = sha_pad m \/ m = sha_pad m' \/
  (let state := fun a => fold_left sha_compress a H256 in
   exists a b a' b' c, blocks64 (hashed m) = a ++ b :: c /\ blocks64 (hashed m') = a' ++ b' :: c /\
     (state a, b) <> (state a', b') /\ sha_compress (state a) b = sha_compress (state a') b') \/
  (exists a c, a <> [] /\ fold_left sha_compress a H256 = H256 /\
     ((blocks64 (hashed m) = a ++ c /\ blocks64 (hashed m') = c) \/ (blocks64 (hashed m') = a ++ c /\ blocks64 (hashed m) = c))).
Proof.
  intros m m' d F F' L L' N E E'. pose proof (hash_state m m' d F F' L L' E E') as Q.
  apply (iterated_collision pair_dec) in Q as [Q|[Q|[Q|Q]]].
  - apply (f_equal (@concat Z)) in Q. rewrite !blocks64_concat in Q by apply hashed_mod. unfold hashed in Q.
    destruct (_ =? _)%nat, (_ =? _)%nat; [contradiction|now right; left|now left|].
    exfalso. apply N. now apply C50_padding_injective.
  - right; right; left. exact Q.
  - right; right; right. destruct Q as (a & A & Q & R). exists a, (blocks64 (hashed m')). auto.
  - right; right; right. destruct Q as (a & A & Q & R). exists a, (blocks64 (hashed m)). auto.
Qed.
Lemma pad_last m d : exists x, last (blocks64 (sha_pad m)) d = x /\ skipn 56 x = be_str 8 (8 * Z.of_nat (length m)) /\ blocks64 (sha_pad m) <> [].
Proof.
  assert (P : exists k, length (sha_pad m) = (64 * Datatypes.S k)%nat /\ (length (sha_pad m) / 64)%nat = Datatypes.S k).
  { rewrite sha_pad_length. destruct (_ <? _)%nat.
    - exists (length m / 64)%nat. split; [lia|]. rewrite Nat.mul_comm, Nat.div_mul by lia. lia.
    - exists (length m / 64 + 1)%nat. split; [lia|]. rewrite Nat.mul_comm, Nat.div_mul by lia. lia. }
  destruct P as (k & K1 & K2). exists (sha_block (sha_pad m) k). unfold blocks64. rewrite K2, seq_S, map_app. cbn [map Nat.add].
  rewrite last_last. split; [reflexivity|]. split.
  - destruct (sha_pad_tail m) as (x & X & _). rewrite X in K1 |- *. apply last8; [apply be_str_length|exact K1].
  - destruct (map _ _); discriminate.
Qed.
(** When neither message is of whole blocks, or both have the same length, only the second case is left. *)
Theorem C50_collisions_partial : forall m m' d, Forall byte m -> Forall byte m' ->
  Z.of_nat (length m) < 2 ^ 61 -> Z.of_nat (length m') < 2 ^ 61 ->
  ((length m mod 64)%nat <> 0%nat /\ (length m' mod 64)%nat <> 0%nat) \/ length m = length m' ->
  m <> m' -> hash m = Ok d -> hash m' = Ok d ->
  let state := fun a => fold_left sha_compress a H256 in
  exists a b a' b' c, blocks64 (hashed m) = a ++ b :: c /\ blocks64 (hashed m') = a' ++ b' :: c /\
    (state a, b) <> (state a', b') /\ sha_compress (state a) b = sha_compress (state a') b'.
Proof.
  intros m m' d F F' L L' C N E E' state. pose proof (hash_state m m' d F F' L L' E E') as Q.
  assert (NH : hashed m <> hashed m').
  { intros X. unfold hashed in X. destruct C as [[C C']|C].
    - apply Nat.eqb_neq in C, C'. rewrite C, C' in X. apply N. now apply C50_padding_injective.
    - rewrite C in X. destruct (_ =? _)%nat; [contradiction|]. apply N. now apply C50_padding_injective. }
  assert (K : forall u u', Forall byte u -> Z.of_nat (length u) < 2 ^ 61 -> Z.of_nat (length u') < 2 ^ 61 ->
    ((length u mod 64)%nat <> 0%nat /\ (length u' mod 64)%nat <> 0%nat) \/ length u = length u' ->
    returns sha_compress H256 (blocks64 (hashed u)) (blocks64 (hashed u')) -> False).
  { intros u u' _ Lu Lu' D R. pose proof (returns_length _ _ _ _ R) as LR.
    assert (X : length u = length u' -> False).
    { intros X. revert LR. unfold blocks64, hashed. rewrite !map_length, !seq_length, X. destruct (_ =? _)%nat; [rewrite X; lia|].
      rewrite !sha_pad_length, X. lia. }
    destruct D as [[D D']|D]; [|contradiction]. apply X. apply Nat.eqb_neq in D, D'. unfold hashed in R. rewrite D, D' in R.
    destruct (pad_last u []) as (x & Ex & Tx & _), (pad_last u' []) as (x' & Ex' & Tx' & Nx').
    pose proof (returns_last _ _ _ _ [] R Nx') as EL. rewrite Ex, Ex' in EL. rewrite EL, Tx' in Tx.
    apply be_str_inj in Tx; lia. }
  apply (iterated_collision pair_dec) in Q as [Q|[Q|[Q|Q]]].
  - exfalso. apply NH. apply (f_equal (@concat Z)) in Q. now rewrite !blocks64_concat in Q by apply hashed_mod.
  - exact Q.
  - exfalso. now apply (K m m').
  - exfalso. apply (K m' m); trivial. destruct C as [[? ?]|?]; [left; now split|right; now symmetry].
Qed.

(** The hypotheses are met by a message of one byte and its padded form, where the first case applies: *)
Example C50_located_ex : [1] <> sha_pad [1] /\ hash [1] = hash (sha_pad [1]) /\ length (blocks64 (hashed [1])) = 1%nat /\
  (let* d := hash [1] in Ok (firstn 4 d)) = Ok [75; 245; 18; 47].
Proof. split; [discriminate|]. split; [vm_compute; reflexivity|]. split; vm_compute; reflexivity. Qed.
(** For the weaker function that compresses the first byte of a block only, the runs do meet (the lemma at work): *)
Example C50_meets_ex : meets (fun h b => h + b) 0 [1; 2; 5] [2; 1; 5].
Proof. exists [1], 2, [2], 1, [5]. cbn. repeat split; try discriminate. Qed.

(** *** BLAKE2b *)
Import M_Blake2 S_Blake2 P_Blake2 T_Blake2.
Local Notation B := blake2b_params.
(** What blake2b passes to the compression function, block by block: words, counter, flag of the last block (C55). *)
Definition blake_inputs (m : list Z) : list (list Z * Z * bool) :=
  map (fun i => (blake_block B m i, Z.of_nat ((i + 1) * 128), false)) (seq 0 (length m / 128)) ++
  (if (length m mod 128 =? 0)%nat then [] else [(blake_block B m (length m / 128), Z.of_nat (length m), true)]).
Definition blake_next (h : list Z) (x : list Z * Z * bool) : list Z := blake_F B h (fst (fst x)) (snd (fst x)) (snd x).
Lemma input_dec : forall x y : list Z * (list Z * Z * bool), {x = y} + {x <> y}.
Proof. repeat decide equality. Qed.
#[local] Transparent blake_state.
Lemma blake_state_inputs m : blake_state m = fold_left blake_next (blake_inputs m) (blake_init B 64).
Proof.
  unfold blake_state, blake_inputs. cbv zeta. rewrite fold_left_app.
  assert (E : blake_chain B 64 m (length m / 128) =
    fold_left blake_next (map (fun i => (blake_block B m i, Z.of_nat ((i + 1) * 128), false)) (seq 0 (length m / 128))) (blake_init B 64)).
  { unfold blake_chain. generalize (blake_init B 64). induction (seq 0 _) as [|i l IH]; intros h; [reflexivity|]. cbn [fold_left map]. apply IH. }
  rewrite <- E. destruct (_ =? _)%nat; reflexivity.
Qed.
Lemma inputs_last m d : m <> [] -> snd (fst (last (blake_inputs m) d)) = Z.of_nat (length m) /\ blake_inputs m <> [].
Proof.
  intros N. unfold blake_inputs. pose proof (Nat.div_mod_eq (length m) 128) as D.
  destruct (Nat.eqb_spec (length m mod 128) 0) as [Z0|Z0].
  - rewrite app_nil_r. destruct (length m / 128)%nat as [|k] eqn:K; rewrite ?K, ?Z0 in D; [destruct m; [contradiction|discriminate D]|].
    rewrite seq_S, map_app. cbn [map Nat.add]. rewrite last_last. cbn [fst snd]. split; [lia|]. destruct (map _ _); discriminate.
  - rewrite last_last. split; [reflexivity|]. destruct (map _ _); discriminate.
Qed.
Lemma inputs_length m m' : length m = length m' -> length (blake_inputs m) = length (blake_inputs m').
Proof. intros E. unfold blake_inputs. rewrite !app_length, !map_length, !seq_length, E. destruct (_ =? _)%nat; reflexivity. Qed.
#[local] Transparent blake_block.
Lemma firstn_eq_le {A} n k (x y : list A) : (k <= n)%nat -> firstn n x = firstn n y -> firstn k x = firstn k y.
Proof. intros L E. apply (f_equal (firstn k)) in E. rewrite !firstn_firstn in E. now replace (Nat.min k n) with k in E by lia. Qed.
Lemma le_num_inj8 a b : Forall byte a -> Forall byte b -> length a = 8%nat -> length b = 8%nat -> le_num a = le_num b -> a = b.
Proof.
  intros Fa Fb La Lb E. rewrite !le_num_val in E.
  rewrite <- (le_bytes_le_val a Fa), <- (le_bytes_le_val b Fb), La, Lb, E. reflexivity.
Qed.
Lemma block_inj m m' i : Forall byte m -> Forall byte m' -> length m = length m' -> blake_block B m i = blake_block B m' i ->
  firstn 128 (skipn (128 * i) m) = firstn 128 (skipn (128 * i) m').
Proof.
  intros F F' L E. unfold blake_block in E. change (block_bytes B) with 128%nat in E. change (word_bytes B) with 8%nat in E. cbv zeta in E.
  set (b := firstn 128 (skipn (128 * i) m)) in *. set (b' := firstn 128 (skipn (128 * i) m')) in *.
  assert (LL : length b = length b') by (unfold b, b'; rewrite !firstn_length, !skipn_length, L; reflexivity).
  assert (Lb : (length b <= 128)%nat) by (unfold b; rewrite firstn_length; lia).
  assert (Fb : Forall byte b) by (now apply Forall_firstn, Forall_skipn). assert (Fb' : Forall byte b') by (now apply Forall_firstn, Forall_skipn).
  clearbody b b'. rewrite <- LL in E. set (z := repeat 0 (128 - length b)) in *.
  assert (Fz : Forall byte z) by (apply Forall_forall; intros x Hx; apply repeat_spec in Hx; subst; red; lia).
  assert (Lz : length (b ++ z) = 128%nat) by (unfold z; rewrite app_length, repeat_length; lia).
  assert (Lz' : length (b' ++ z) = 128%nat) by (unfold z; rewrite app_length, repeat_length; lia).
  assert (Q : b ++ z = b' ++ z).
  { rewrite <- (firstn_all2 (n := 8 * 16) (b ++ z)), <- (firstn_all2 (n := 8 * 16) (b' ++ z)) by (first [rewrite Lz; lia|rewrite Lz'; lia]).
    rewrite <- !concat_chunks. f_equal. apply map_ext_in. intros k Hk. apply in_seq in Hk.
    apply le_num_inj8.
    - apply Forall_firstn, Forall_skipn, Forall_app; now split.
    - apply Forall_firstn, Forall_skipn, Forall_app; now split.
    - rewrite firstn_length, skipn_length, Lz. lia.
    - rewrite firstn_length, skipn_length, Lz'. lia.
    - apply (f_equal (fun l => nth k l 0)) in E. rewrite !nth_map_seq in E by lia. exact E. }
  now apply app_inv_tail in Q.
Qed.
#[local] Opaque blake_block blake_state.
Lemma inputs_inj m m' : Forall byte m -> Forall byte m' -> length m = length m' -> blake_inputs m = blake_inputs m' -> m = m'.
Proof.
  intros F F' L E. unfold blake_inputs in E. rewrite <- L in E. pose proof (Nat.div_mod_eq (length m) 128) as D.
  pose proof (Nat.mod_upper_bound (length m) 128 ltac:(lia)) as U.
  apply app_inj_len in E as [E1 E2]; [|now rewrite !map_length].
  assert (W : forall i, (i < length m / 128)%nat -> blake_block B m i = blake_block B m' i).
  { intros i Hi. apply (f_equal (fun l => nth i l ([], 0, false))) in E1. rewrite !nth_map_seq in E1 by lia. apply (f_equal (fun x => fst (fst x))) in E1. exact E1. }
  assert (C : forall n, (n <= length m / 128)%nat -> firstn (128 * n) m = firstn (128 * n) m').
  { intros n Hn. rewrite <- !concat_chunks. f_equal. apply map_ext_in. intros i Hi. apply in_seq in Hi. apply block_inj; trivial. apply W. lia. }
  specialize (C _ (le_n _)).
  rewrite <- (firstn_skipn (128 * (length m / 128)) m), <- (firstn_skipn (128 * (length m / 128)) m'), C. f_equal.
  destruct (Nat.eqb_spec (length m mod 128) 0) as [Z0|Z0].
  - rewrite !skipn_all2 by lia. reflexivity.
  - apply (f_equal (fun l => fst (fst (hd ([], 0, false) l)))) in E2. cbn [hd fst] in E2. apply block_inj in E2; trivial.
    rewrite !firstn_all2 in E2 by (rewrite skipn_length; lia). exact E2.
Qed.
(** Two different non-empty messages with the same digest: the runs meet at different inputs of the compression
    function (chaining value, block, counter, flag). *)
Theorem C88_blake2b_collisions : forall m m' d, Forall byte m -> Forall byte m' ->
  Z.of_nat (length m) < 2 ^ 64 -> Z.of_nat (length m') < 2 ^ 64 -> m <> [] -> m' <> [] -> m <> m' ->
  blake2b m = Ok d -> blake2b m' = Ok d ->
  let state := fun a => fold_left blake_next a (blake_init B 64) in
  exists a x a' x' c, blake_inputs m = a ++ x :: c /\ blake_inputs m' = a' ++ x' :: c /\
    (state a, x) <> (state a', x') /\ blake_next (state a) x = blake_next (state a') x'.
Proof.
  intros m m' d F F' L L' N N' D E E' state.
  destruct (blake2b_Ok m F L) as [Q _], (blake2b_Ok m' F' L') as [Q' _].
  assert (S : blake_state m = blake_state m').
  { destruct (blake_loop m F L) as (_ & _ & W). destruct (blake_loop m' F' L') as (_ & _ & W').
    assert (X : blake_output B 64 (blake_state m) = blake_output B 64 (blake_state m')) by congruence.
    rewrite <- (words_of_output _ W), <- (words_of_output _ W'), X. reflexivity. }
  rewrite !blake_state_inputs in S.
  assert (K : forall u u', u <> [] -> u' <> [] -> returns blake_next (blake_init B 64) (blake_inputs u) (blake_inputs u') -> False).
  { intros u u' Nu Nu' R. pose proof (returns_length _ _ _ _ R) as LR.
    destruct (inputs_last u ([], 0, false) Nu) as [T _], (inputs_last u' ([], 0, false) Nu') as [T' X].
    rewrite (returns_last _ _ _ _ ([], 0, false) R X), T' in T. assert (LU : length u' = length u) by lia.
    apply inputs_length in LU. lia. }
  apply (iterated_collision input_dec) in S as [S|[S|[S|S]]].
  - exfalso. apply D. apply inputs_inj; trivial.
    destruct (inputs_last m ([], 0, false) N) as [T _], (inputs_last m' ([], 0, false) N') as [T' _]. rewrite S, T' in T. lia.
  - exact S.
  - exfalso. now apply (K m m').
  - exfalso. now apply (K m' m).
Qed.
(** The empty message is not compressed at all. A message with its digest leads back to the initial value. *)
Theorem C88_blake2b_empty : forall m, Forall byte m -> Z.of_nat (length m) < 2 ^ 64 ->
  blake2b [] = Ok (blake_output B 64 (blake_init B 64)) /\
  (blake2b m = blake2b [] -> fold_left blake_next (blake_inputs m) (blake_init B 64) = blake_init B 64).
Proof.
  intros m F L. destruct (blake2b_Ok [] (Forall_nil _) ltac:(reflexivity)) as [Q0 _]. destruct (blake2b_Ok m F L) as [Q _].
  rewrite (blake_state_inputs []) in Q0. change (blake_inputs []) with (@nil (list Z * Z * bool)) in Q0. cbn [fold_left] in Q0.
  split; [exact Q0|]. intros E. rewrite Q0, Q in E.
  assert (X : blake_output B 64 (blake_state m) = blake_output B 64 (blake_init B 64)) by congruence.
  destruct (blake_loop m F L) as (_ & _ & W). destruct (blake_loop [] (Forall_nil _) ltac:(reflexivity)) as (_ & _ & W0).
  change (words_n 8 (blake_init B 64)) in W0.
  rewrite <- blake_state_inputs, <- (words_of_output _ W), X. now apply words_of_output.
Qed.
Example C88_ex : map (fun x => (snd (fst x), snd x)) (blake_inputs (repeat 7 300)) = [(128, false); (256, false); (300, true)] /\
  (let* d := blake2b [] in Ok (firstn 4 d)) = Ok [72; 201; 189; 242] /\
  (let* d := blake2b [1; 2] in Ok (firstn 4 d)) = Ok [172; 29; 82; 170].
Proof. split; [vm_compute; reflexivity|]. split; vm_compute; reflexivity. Qed.
Print Assumptions C50_collisions_located.
Print Assumptions C50_collisions_partial.
Print Assumptions C88_blake2b_collisions.
Print Assumptions C88_blake2b_empty.
