(** Poly1305 as a one-time authenticator (C78): for two different messages the hashes collide, or
    differ by a given amount, for few keys only. *)
From Coq Require Import ZArith Znumtheory List Bool Arith Lia Field.
From Verif Require Import Base P_Base M_Int M_Seq M_Bytes P_Seq P_Bytes P_Word P_Stream P_Prime P_BigInt
  M_ChaCha S_ChaCha P_ChaCha P_Poly1305 T_ChaCha S_Curve P_Curve P_Roots.
Import ListNotations.
Open Scope Z_scope.

Section Domain.
  Variable p : Z.
  Hypothesis Hp : prime p.
  Add Field Fpd : (fp_field p Hp) (morphism (fp_morph p), constants [fp_const]).
  Lemma fp_domain (a b : Fp p) : fmul a b = fof p 0 -> a = fof p 0 \/ b = fof p 0.
  Proof.
    intros E. destruct (feqb_spec p a (fof p 0)) as [->|N]; [now left|]. right.
    transitivity (fmul (finv a) (fmul a b)); [field; exact N|]. rewrite E. ring.
  Qed.
  Definition fp_mac := mac (Fp p) (fof p 0) fadd fmul.
  Lemma fp_mac_universal bs bs' d rs : NoDup rs ->
    (forall r, In r rs -> fsub (fp_mac bs r) (fp_mac bs' r) = d) ->
    ~ (forall i, nth i (rev bs) (fof p 0) = nth i (rev bs') (fof p 0)) ->
    (length rs <= Nat.max (length bs) (length bs'))%nat.
  Proof. exact (mac_universal (Fp p) (fof p 0) (fof p 1) fadd fmul fsub fopp (F_R (fp_field p Hp)) fp_domain bs bs' d rs). Qed.
  Lemma fp_mac_fold (f : nat -> Z) r l : forall a, 
    fof p (fold_left (fun acc i => ((acc + f i) * r) mod p) l a) =
    fold_left (fun acc b => fmul (fadd acc b) (fof p r)) (map (fun i => fof p (f i)) l) (fof p a).
  Proof.
    induction l as [|i l IH]; intros a; cbn [fold_left map]; [reflexivity|].
    rewrite IH, fof_mod, fof_mul, fof_add. reflexivity.
  Qed.
End Domain.

Lemma le_num_cons x l : le_num (x :: l) = x + 256 * le_num l.
Proof. reflexivity. Qed.
Lemma le_num_one_inj b : forall c, Forall byte b -> Forall byte c -> le_num (b ++ [1]) = le_num (c ++ [1]) -> b = c.
Proof.
  assert (P : forall l, Forall byte l -> 1 <= le_num (l ++ [1])).
  { induction l as [|x l IH]; intros H; [reflexivity|]. inversion H as [|? ? Hx Hl]; subst. apply IH in Hl.
    rewrite <- app_comm_cons, le_num_cons. unfold byte in Hx. lia. }
  assert (E1 : le_num ([] ++ [1]) = 1) by reflexivity.
  induction b as [|x b IH]; intros [|y c] Hb Hc E; trivial.
  - exfalso. inversion Hc as [|? ? Hy Hc']; subst. apply P in Hc'.
    rewrite <- app_comm_cons, le_num_cons, E1 in E. unfold byte in Hy. lia.
  - exfalso. inversion Hb as [|? ? Hx Hb']; subst. apply P in Hb'.
    rewrite <- app_comm_cons, le_num_cons, E1 in E. unfold byte in Hx. lia.
  - inversion Hb as [|? ? Hx Hb']; inversion Hc as [|? ? Hy Hc']; subst. unfold byte in Hx, Hy.
    rewrite <- !app_comm_cons, !le_num_cons in E.
    assert (x = y) by lia. assert (E' : le_num (b ++ [1]) = le_num (c ++ [1])) by lia. subst y. f_equal. now apply IH.
Qed.

Lemma nblocks_spec m : (length m <= 16 * nblocks m)%nat /\ (forall i, (i < nblocks m)%nat -> (16 * i < length m)%nat).
Proof.
  unfold nblocks. pose proof (num_chunks_bounds (length m) 16 ltac:(lia)) as (B1 & B2 & B3).
  replace (length m + 16 - 1)%nat with (length m + 15)%nat in * by lia. split; [exact B1|].
  intros i Hi. destruct (Nat.eq_dec (length m) 0) as [Z|Z]; [rewrite B2 in Hi by assumption|]; lia.
Qed.
Lemma blocks_inj (m m' : list Z) n : (length m <= 16 * n)%nat -> (length m' <= 16 * n)%nat ->
  (forall i, (i < n)%nat -> firstn 16 (skipn (16 * i) m) = firstn 16 (skipn (16 * i) m')) -> m = m'.
Proof.
  intros L L' H. apply nth_error_ext. intros j.
  destruct (Nat.lt_ge_cases j (16 * n)) as [C|C].
  - specialize (H (j / 16)%nat ltac:(apply Nat.div_lt_upper_bound; lia)).
    apply (f_equal (fun l => nth_error l (j mod 16))) in H.
    pose proof (Nat.mod_upper_bound j 16 ltac:(lia)) as B. pose proof (Nat.div_mod j 16 ltac:(lia)) as D.
    rewrite !nth_error_firstn, !nth_error_skipn in H.
    rewrite (proj2 (Nat.ltb_lt _ _) B) in H. rewrite <- D in H. exact H.
  - rewrite !(proj2 (nth_error_None _ _)) by lia. reflexivity.
Qed.

Lemma block_num_range m i : Forall byte m -> 0 < block_num m i < P1305.
Proof.
  intros H. unfold block_num.
  assert (Hb : Forall byte (firstn 16 (skipn (16 * i) m))) by now apply Forall_firstn, Forall_skipn.
  destruct (encode_Ok _ Hb) as [_ R]; [rewrite firstn_length; lia|]. split; [|apply R].
  rewrite le_num_val, le_val_app. cbn [le_val].
  pose proof (le_val_range _ Hb). pose proof (pow256_pos (length (firstn 16 (skipn (16 * i) m)))). lia.
Qed.

Section Poly.
  Variables m m' : list Z.
  Hypothesis Hm : Forall byte m.
  Hypothesis Hm' : Forall byte m'.
  Definition pblocks (x : list Z) : list (Fp P1305) := map (fun i => fof P1305 (block_num x i)) (seq 0 (nblocks x)).
  Lemma pblocks_length x : length (pblocks x) = nblocks x.
  Proof. unfold pblocks. now rewrite map_length, seq_length. Qed.
  Lemma acc_mac x r : fof P1305 (rfc_acc x r) = fp_mac P1305 (pblocks x) (fof P1305 r).
  Proof. unfold rfc_acc, fp_mac, mac, pblocks. exact (fp_mac_fold P1305 (block_num x) r (seq 0 (nblocks x)) 0). Qed.
  Lemma nth_pblocks x i : (i < nblocks x)%nat -> nth i (pblocks x) (fof P1305 0) = fof P1305 (block_num x i).
  Proof.
    intros H. unfold pblocks. rewrite (nth_indep _ _ (fof P1305 (block_num x 0))) by (rewrite map_length, seq_length; exact H).
    rewrite (map_nth (fun i => fof P1305 (block_num x i))), seq_nth by exact H. reflexivity.
  Qed.
  Lemma fof_block_inj x y i j : Forall byte x -> Forall byte y ->
    fof P1305 (block_num x i) = fof P1305 (block_num y j) -> block_num x i = block_num y j.
  Proof.
    intros Hx Hy E. apply fof_inj in E. pose proof (block_num_range x i Hx). pose proof (block_num_range y j Hy).
    rewrite !Z.mod_small in E by lia. exact E.
  Qed.
  Lemma fof_block_nz x i : Forall byte x -> fof P1305 (block_num x i) <> fof P1305 0.
  Proof.
    intros Hx E. apply fof_inj in E. pose proof (block_num_range x i Hx). rewrite !Z.mod_small in E by lia. lia.
  Qed.
  Lemma pblocks_short x y : Forall byte x -> (nblocks y < nblocks x)%nat ->
    ~ (forall i, nth i (rev (pblocks x)) (fof P1305 0) = nth i (rev (pblocks y)) (fof P1305 0)).
  Proof.
    intros Hx L E. specialize (E (nblocks x - 1)%nat).
    rewrite (nth_overflow (rev (pblocks y))) in E by (rewrite rev_length, pblocks_length; lia).
    rewrite rev_nth in E by (rewrite pblocks_length; lia). rewrite pblocks_length in E.
    replace (nblocks x - S (nblocks x - 1))%nat with 0%nat in E by lia.
    rewrite nth_pblocks in E by lia. exact (fof_block_nz x 0 Hx E).
  Qed.
  Lemma pblocks_differ : m <> m' ->
    ~ (forall i, nth i (rev (pblocks m)) (fof P1305 0) = nth i (rev (pblocks m')) (fof P1305 0)).
  Proof.
    intros N E. destruct (Nat.lt_trichotomy (nblocks m) (nblocks m')) as [L|[L|L]].
    - apply (pblocks_short m' m Hm' L). intros i. symmetry. apply E.
    - apply N. destruct (nblocks_spec m) as [B _], (nblocks_spec m') as [B' _]. rewrite <- L in B'.
      apply (blocks_inj m m' (nblocks m) B B'). intros i Hi.
      apply le_num_one_inj; try (now apply Forall_firstn, Forall_skipn).
      apply (fof_block_inj m m' i i Hm Hm'). specialize (E (nblocks m - 1 - i)%nat).
      rewrite !rev_nth in E by (rewrite pblocks_length; lia). rewrite !pblocks_length, <- L in E.
      replace (nblocks m - S (nblocks m - 1 - i))%nat with i in E by lia.
      rewrite !nth_pblocks in E by lia. exact E.
    - exact (pblocks_short m m' Hm L E).
  Qed.
End Poly.

Lemma map_fof_NoDup p rs : (forall r, In r rs -> 0 <= r < p) -> NoDup rs -> NoDup (map (fof p) rs).
Proof.
  induction rs as [|r rs IH]; intros R ND; cbn; [constructor|]. inversion ND as [|? ? NI ND']; subst. constructor.
  - intros I. apply in_map_iff in I as (s & E & I). apply fof_inj in E.
    rewrite !Z.mod_small in E by (apply R; cbn; auto). subst s. now apply NI.
  - apply IH; [|exact ND']. intros s Hs. apply R. now right.
Qed.

(** For different messages and any d, at most max(blocks) values of r make the accumulators differ by d. *)
Theorem C78_poly1305_almost_universal : forall m m' d rs, Forall byte m -> Forall byte m' -> m <> m' ->
  NoDup rs -> (forall r, In r rs -> 0 <= r < 2 ^ 130 - 5 /\ exists a a',
     poly_inner m r = Ok a /\ poly_inner m' r = Ok a' /\ (a - a') mod (2 ^ 130 - 5) = d) ->
  (length rs <= Nat.max ((length m + 15) / 16) ((length m' + 15) / 16))%nat.
Proof.
  intros m m' d rs Hm Hm' N ND H. rewrite <- (map_length (fof P1305)).
  change ((length m + 15) / 16)%nat with (nblocks m). change ((length m' + 15) / 16)%nat with (nblocks m').
  rewrite <- !pblocks_length. apply (fp_mac_universal P1305 prime_1305 _ _ (fof P1305 d)).
  - apply map_fof_NoDup; [|exact ND]. intros r Hr. exact (proj1 (H r Hr)).
  - intros x Hx. apply in_map_iff in Hx as (r & <- & Hr). destruct (H r Hr) as (R & a & a' & E & E' & D).
    rewrite poly_inner_Ok in E, E' by assumption. injection E as <-. injection E' as <-.
    rewrite <- !acc_mac, <- fof_sub. apply fof_eq. change (2 ^ 130 - 5) with P1305 in D. rewrite <- D. now rewrite Zmod_mod.
  - now apply pblocks_differ.
Qed.
Print Assumptions C78_poly1305_almost_universal.

Lemma clamp_bytes r : bytes_n 16 r -> bytes_n 16 (clamp r).
Proof.
  intros [L F]. split; [unfold clamp; now rewrite map_length, seq_length|].
  apply Forall_forall. intros x Hx. unfold clamp in Hx. apply in_map_iff in Hx as (i & <- & Hi).
  assert (B : byte (nth i r 0)).
  { rewrite Forall_forall in F. apply F, nth_In. apply in_seq in Hi. lia. }
  unfold byte in *. unfold clamp_byte. set (b := nth i r 0) in *. clearbody b.
  pose proof (Z.mod_pos_bound b 16 ltac:(lia)). pose proof (Z.mod_pos_bound b 4 ltac:(lia)).
  pose proof (Z.mod_le b 4 ltac:(lia) ltac:(lia)).
  destruct (i mod 4 =? 3)%nat; [lia|]. destruct (_ && _)%bool; lia.
Qed.
Lemma key_r_bytes k : bytes_n 32 k -> bytes_n 16 (clamp (firstn 16 k)).
Proof.
  intros [L F]. apply clamp_bytes. split; [rewrite firstn_length; lia|now apply Forall_firstn].
Qed.
Lemma r_of_range k : bytes_n 32 k -> 0 <= r_of k < 2 ^ 130 - 5.
Proof.
  intros H. destruct (key_r_bytes k H) as [L F]. unfold r_of. rewrite le_num_val.
  pose proof (le_val_range _ F) as R. rewrite L in R. assert (256 ^ Z.of_nat 16 < 2 ^ 130 - 5) by reflexivity. lia.
Qed.
Lemma r_of_NoDup ks : (forall k, In k ks -> bytes_n 32 k) ->
  NoDup (map (fun k => clamp (firstn 16 k)) ks) -> NoDup (map r_of ks).
Proof.
  induction ks as [|k ks IH]; intros H ND; cbn; [constructor|]. inversion ND as [|? ? NI ND']; subst. constructor.
  - intros I. apply NI. apply in_map_iff in I as (k' & E & I). apply in_map_iff. exists k'. split; [|exact I].
    destruct (key_r_bytes k' (H k' (or_intror I))) as [L' F'], (key_r_bytes k (H k (or_introl eq_refl))) as [L F].
    apply (le_val_inj (clamp (firstn 16 k')) (clamp (firstn 16 k))); [now rewrite L, L'|exact F'|exact F|]. unfold r_of in E. now rewrite !le_num_val in E.
  - apply IH; [|exact ND']. intros x Hx. apply H. now right.
Qed.
(** A value below P1305 with given low 128 bits is one of four. *)
Lemma four_tops v t : 0 <= v < P1305 -> v mod 2 ^ 128 = t -> exists i, 0 <= i <= 3 /\ v = t + i * 2 ^ 128.
Proof.
  intros H E. exists (v / 2 ^ 128). assert (P1305 < 4 * 2 ^ 128) by reflexivity. split.
  - split; [apply Z.div_pos; lia|]. assert (v / 2 ^ 128 < 4) by (apply Z.div_lt_upper_bound; lia). lia.
  - pose proof (Z.div_mod v (2 ^ 128) ltac:(lia)). lia.
Qed.

(** Whatever tag t is seen for m, a guess t' for another message m' is right for at most
    7 * max(blocks) of the 2^106 values of the clamped part of the key. *)
Theorem C78_poly1305_forgery_bound : forall m m' t t' ks, Forall byte m -> Forall byte m' -> m <> m' ->
  (forall k, In k ks -> bytes_n 32 k /\ poly m k = Ok t /\ poly m' k = Ok t') ->
  NoDup (map (fun k => clamp (firstn 16 k)) ks) ->
  (length ks <= 7 * Nat.max ((length m + 15) / 16) ((length m' + 15) / 16))%nat.
Proof.
  intros m m' t t' ks Hm Hm' N H ND.
  set (f := fun k => (rfc_acc m (r_of k) - rfc_acc m' (r_of k)) mod P1305).
  set (js := map (fun j => (le_num t - le_num t' + j * 2 ^ 128) mod P1305) [-3; -2; -1; 0; 1; 2; 3]).
  change 7%nat with (length js).
  apply (length_by_class Z.eq_dec f (fun k => clamp (firstn 16 k))); [exact ND| |].
  - intros k Hk. destruct (H k Hk) as (Bk & E & E').
    destruct (C40_poly1305_value m k Bk Hm) as (u & Eu & _ & V). rewrite Eu in E. injection E as ->.
    destruct (C40_poly1305_value m' k Bk Hm') as (u' & Eu' & _ & V'). rewrite Eu' in E'. injection E' as ->.
    fold (r_of k) (s_of k) in V, V'.
    destruct (four_tops _ _ (Z.mod_pos_bound _ P1305 ltac:(reflexivity)) (eq_sym V)) as (i & Hi & W).
    destruct (four_tops _ _ (Z.mod_pos_bound _ P1305 ltac:(reflexivity)) (eq_sym V')) as (i' & Hi' & W').
    assert (F : f k = (le_num t - le_num t' + (i - i') * 2 ^ 128) mod P1305).
    { unfold f. replace (le_num t - le_num t' + (i - i') * 2 ^ 128) with
        ((rfc_acc m (r_of k) + s_of k) mod P1305 - (rfc_acc m' (r_of k) + s_of k) mod P1305) by lia.
      rewrite <- Zminus_mod. f_equal. ring. }
    rewrite F. unfold js.
    apply (in_map (fun j => (le_num t - le_num t' + j * 2 ^ 128) mod P1305) _ (i - i')). cbn [In]. lia.
  - intros j ks' Hj Hk' ND'. rewrite <- (map_length r_of).
    apply (C78_poly1305_almost_universal m m' j); trivial.
    + apply r_of_NoDup; [|exact ND']. intros k Hk. apply H, Hk'. exact Hk.
    + intros r Hr. apply in_map_iff in Hr as (k & <- & Hk). destruct (Hk' k Hk) as [I F].
      split; [apply r_of_range, H, I|]. exists (rfc_acc m (r_of k)), (rfc_acc m' (r_of k)).
      rewrite !poly_inner_Ok by assumption. conjs; trivial.
Qed.
Print Assumptions C78_poly1305_forgery_bound.
(** Two one-block messages: the key with r = 0 gives them the same tag; for r = 4 the accumulators differ by -4. *)
Example C78_ex : let k0 := repeat 0 32 in
  bytes_n 32 k0 /\ poly [1] k0 = Ok (repeat 0 16) /\ poly [2] k0 = Ok (repeat 0 16) /\ [1] <> [2] /\
  NoDup (map (fun k => clamp (firstn 16 k)) [k0]) /\
  poly_inner [1] 4 = Ok (4 * 257) /\ poly_inner [2] 4 = Ok (4 * 258) /\ ((4 * 257 - 4 * 258) mod (2 ^ 130 - 5) = 2 ^ 130 - 9).
Proof.
  intros k0. conjs; try (vm_compute; reflexivity); try discriminate.
  - apply bytes_check. reflexivity.
  - repeat constructor. intros [].
Qed.
