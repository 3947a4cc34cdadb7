(** aes.rs: the block functions with arbitrary arguments nk and nr. *)
From Coq Require Import ZArith List Bool Arith Lia.
From Verif Require Import Base P_Base M_Int P_Int M_Seq P_Seq M_Bytes P_Bytes M_AES P_Word P_Stream S_ChaCha S_GF2 P_GF2 S_AES S_AESArgs P_GF128 P_AES.
Import ListNotations.
Open Scope Z_scope.

(** ** The specification *)
Lemma sched_length ws nk key n : length (sched ws nk key n) = n.
Proof. induction n; cbn [sched]; [reflexivity|]. rewrite app_length, IHn. cbn. lia. Qed.
Lemma sched_aes nk key n : sched nk nk key n = schedule nk key n.
Proof. induction n as [|n IH]; cbn [sched schedule]; [reflexivity|]. now rewrite IH. Qed.
Lemma sched_words ws nk key n : (0 < ws)%nat -> bytes_n (4 * ws) key -> Forall (bytes_n 4) (sched ws nk key n).
Proof.
  intros Hk HK. induction n as [|n IH]; cbn [sched]; [constructor|].
  apply Forall_app. split; [exact IH|]. apply Forall_cons; [|constructor].
  destruct (Nat.ltb_spec n ws) as [H|H].
  - apply (bytes_n_sub (4 * ws)); [exact HK|lia].
  - assert (N : forall i, (i < n)%nat -> bytes_n 4 (nth i (sched ws nk key n) [])).
    { intros i Hi. rewrite Forall_forall in IH. apply IH, nth_In. rewrite sched_length. exact Hi. }
    apply next_word_bytes; apply N; lia.
Qed.
Lemma sched_start ws nk key n : (n <= ws)%nat -> length key = (4 * ws)%nat ->
  concat (sched ws nk key n) = firstn (4 * n) key.
Proof.
  intros Hn HK. rewrite <- (schedule_start ws key n Hn HK). f_equal.
  clear HK. induction n as [|n IH]; [reflexivity|]. cbn [sched schedule]. rewrite IH by lia.
  now rewrite (proj2 (Nat.ltb_lt n ws)) by lia.
Qed.
Lemma sched_ext ws nk nk' key n :
  (forall i b p, (ws <= i < n)%nat -> next_word nk i b p = next_word nk' i b p) ->
  sched ws nk key n = sched ws nk' key n.
Proof.
  intros H. induction n as [|n IH]; [reflexivity|]. cbn [sched].
  rewrite IH by (intros; apply H; lia). destruct (Nat.ltb_spec n ws); [reflexivity|].
  now rewrite (H n) by lia.
Qed.
Lemma cipher_aes nk nr key m : cipher nr (schedule nk key (4 * (nr + 1))) m = fips_aes nk nr key m.
Proof. reflexivity. Qed.

(** ** Key expansion *)
Lemma word_Ok w0 w1 i nk nr : bytes_n 4 w0 -> bytes_n 4 w1 -> (0 < nk)%nat ->
  (0 < i < 4 * (nr + 1))%nat -> (i / nk <= 14)%nat ->
  key_expansion_word w0 w1 i nk nr = Ok (next_word nk i w0 w1).
Proof.
  intros H0 H1 Hk Hi Hq. unfold key_expansion_word.
  rewrite assert_true by (apply Nat.ltb_lt; lia). cbn [bind].
  unfold udiv. rewrite (proj2 (Nat.eqb_neq nk 0)) by lia. cbn [bind].
  unfold next_word. destruct (Nat.eqb_spec (i mod nk) 0) as [M|M].
  - assert (Hq1 : (1 <= i / nk)%nat).
    { pose proof (Nat.div_mod i nk ltac:(lia)). destruct (i / nk)%nat; lia. }
    rewrite RCON_Ok by lia. cbn [bind]. rewrite keygen_assist_Ok by assumption. cbn [bind].
    apply xor4_Ok; [reflexivity|apply H0].
  - destruct ((6 <? nk) && (i mod nk =? 4))%nat.
    + rewrite sub_word_Ok by assumption. cbn [bind]. apply xor4_Ok; [reflexivity|apply H0].
    + cbn [bind]. apply xor4_Ok; [apply H1|apply H0].
Qed.
Lemma word_inv w0 w1 i nk nr w : key_expansion_word w0 w1 i nk nr = Ok w ->
  (i < 4 * (nr + 1))%nat /\ nk <> 0%nat /\ ((i mod nk)%nat = 0%nat -> (i / nk < 15)%nat).
Proof.
  unfold key_expansion_word, assert_, udiv. destruct (Nat.ltb_spec i (4 * (nr + 1))) as [A|A]; cbn [bind]; [|discriminate].
  destruct (Nat.eqb_spec nk 0) as [B|B]; cbn [bind]; [discriminate|].
  intros H. split; [exact A|]. split; [exact B|]. intros M. rewrite M in H. cbn [Nat.eqb] in H.
  unfold idx in H. destruct (nth_error RCON (i / nk)) eqn:N; cbn [bind] in H; [|discriminate].
  assert (nth_error RCON (i / nk) <> None) as N' by congruence. apply nth_error_Some in N'.
  exact N'.
Qed.
Lemma range_steps {S} (f : nat -> S -> res S) a n s s' : for_range a n f s = Ok s' ->
  forall i, (a <= i < a + n)%nat -> exists t t', f i t = Ok t'.
Proof.
  revert a s. induction n as [|n IH]; intros a s H i Hi; [lia|]. cbn [for_range] in H.
  destruct (f a s) as [t|p] eqn:F; cbn [bind] in H; [|discriminate].
  destruct (Nat.eq_dec i a) as [->|D]; [now exists s, t|]. apply (IH _ _ H). lia.
Qed.
(** The smallest argument nk with which the round constants suffice. *)
Definition nk_min (alg : aes_variant) : nat := match alg with Aes128 => 3 | Aes256 => 4 end.
Lemma expansion_inv key nk nr alg e : key_expansion_aes key nk nr alg = Ok e ->
  (nr_of alg <= nr)%nat /\ (nk_min alg <= nk)%nat.
Proof.
  unfold key_expansion_aes. intros H.
  destruct (update_start _ key) as [e0|p]; cbn [bind] in H; [|discriminate].
  pose proof (range_steps _ _ _ _ _ H) as St. clear H.
  assert (W : forall i, (nk_of alg <= i < 4 * (nr_of alg + 1))%nat ->
    (i < 4 * (nr + 1))%nat /\ nk <> 0%nat /\ ((i mod nk)%nat = 0%nat -> (i / nk < 15)%nat)).
  { intros i Hi. destruct (St (i - nk_of alg)%nat) as (t & t' & F).
    { destruct alg; cbn [nk_of nr_of] in *; lia. }
    cbv beta in F. replace (i - nk_of alg + match alg with Aes128 => 4 | Aes256 => 8 end)%nat with i in F
      by (destruct alg; cbn [nk_of nr_of] in *; lia).
    destruct (usub i _) as [a|]; cbn [bind] in F; [|discriminate].
    destruct (arr_from_sub _ _ _ _ _) as [w0|]; cbn [bind] in F; [|discriminate].
    destruct (usub (4 * i) 4) as [b|]; cbn [bind] in F; [|discriminate].
    destruct (arr_from_sub _ _ _ b _) as [w1|]; cbn [bind] in F; [|discriminate].
    destruct (key_expansion_word _ _ _ _ _) as [w|] eqn:K; cbn [bind] in F; [|discriminate].
    exact (word_inv _ _ _ _ _ _ K). }
  split.
  - destruct (W (4 * (nr_of alg + 1) - 1)%nat) as [W1 _]; [destruct alg; cbn; lia|lia].
  - destruct (le_lt_dec (nk_min alg) nk) as [L|L]; [exact L|exfalso].
    destruct nk as [|[|[|[|nk]]]].
    + destruct (W (nk_of alg)) as (_ & W2 & _); [destruct alg; cbn; lia|congruence].
    + destruct (W 15%nat) as (_ & _ & W3); [destruct alg; cbn; lia|]. specialize (W3 eq_refl). cbn in W3. lia.
    + destruct (W 30%nat) as (_ & _ & W3); [destruct alg; cbn; lia|]. specialize (W3 eq_refl). cbn in W3. lia.
    + destruct alg; cbn [nk_min] in L; [lia|].
      destruct (W 45%nat) as (_ & _ & W3); [cbn; lia|]. specialize (W3 eq_refl). cbn in W3. lia.
    + destruct alg; cbn [nk_min] in L; lia.
Qed.
Lemma expansion_Ok key nk nr alg : bytes_n (klen alg) key -> (nr_of alg <= nr)%nat -> (nk_min alg <= nk)%nat ->
  key_expansion_aes key nk nr alg = Ok (concat (sched (nk_of alg) nk key (4 * (nr_of alg + 1)))).
Proof.
  intros HK Hnr Hnk. unfold key_expansion_aes.
  set (len := match alg with Aes128 => 176 | Aes256 => 240 end%nat).
  set (it := match alg with Aes128 => 40 | Aes256 => 52 end%nat).
  set (ws0 := match alg with Aes128 => 4 | Aes256 => 8 end%nat).
  unfold klen in HK. set (ws := nk_of alg) in *. set (n := (4 * (nr_of alg + 1))%nat) in *.
  assert (F : ws0 = ws /\ (0 < ws)%nat /\ len = (4 * (it + ws))%nat /\ (it + ws = n)%nat
     /\ (ws <= it)%nat /\ (n <= 4 * (nr + 1))%nat /\ (0 < nk)%nat /\ (forall i, i < n -> i / nk <= 14)%nat).
  { unfold ws0, ws, len, it, n. destruct alg; cbn [nk_of nr_of nk_min] in *; conjs; try lia.
    - intros i Hi. apply Nat.lt_succ_r, Nat.div_lt_upper_bound; lia.
    - intros i Hi. apply Nat.lt_succ_r, Nat.div_lt_upper_bound; lia. }
  destruct F as (-> & Hws & Hlen & Hit & Hge & Hn & Hk & Hq). clearbody len it n ws.
  assert (HKl : length key = (4 * ws)%nat) by apply HK.
  rewrite (update_start_Ok 0) by (rewrite seq_new_length; lia). cbn [bind].
  set (st0 := key ++ skipn (length key) (seq_new 0 len)).
  assert (L0 : length st0 = len) by (unfold st0; rewrite app_length, skipn_length, seq_new_length; lia).
  match goal with |- for_range 0 it ?f st0 = _ =>
   destruct (for_range_inv (fun j s => length s = len /\
     firstn (4 * (j + ws)) s = concat (sched ws nk key (j + ws))) f 0%nat it st0) as (s' & E & L & H) end.
  - split; [exact L0|]. cbn [Nat.add]. rewrite sched_start by lia. unfold st0.
    rewrite firstn_app, <- HKl, Nat.sub_diag. change (firstn 0 _) with (@nil Z). apply app_nil_r.
  - intros j s Hj [Ls Hs]. set (i := (j + ws)%nat) in *.
    rewrite (usub_Ok i ws) by lia. cbn [bind].
    rewrite arr_from_sub_Ok by lia. cbn [bind].
    rewrite (usub_Ok (4 * i) 4) by lia. cbn [bind].
    rewrite arr_from_sub_Ok by lia. cbn [bind].
    rewrite (firstn_sub s (4 * (i - ws)) 4 (4 * i)) by lia.
    rewrite (firstn_sub s (4 * i - 4) 4 (4 * i)) by lia.
    rewrite Hs. replace (4 * i - 4)%nat with (4 * (i - 1))%nat by lia.
    pose proof (sched_words ws nk key i Hws HK) as W.
    pose proof (Forall_bytes_len 4 _ W) as W4. pose proof (sched_length ws nk key i) as SL.
    rewrite !concat_nth by (assumption || lia).
    assert (N : forall k, (k < i)%nat -> bytes_n 4 (nth k (sched ws nk key i) [])).
    { intros k Hk'. rewrite Forall_forall in W. apply W, nth_In. lia. }
    rewrite word_Ok; [|apply N; lia|apply N; lia|lia|lia|apply Hq; lia].
    cbn [bind]. set (w := next_word nk i _ _).
    assert (Lw : length w = 4%nat) by reflexivity.
    rewrite (update_Ok 0) by lia. eexists. split; [reflexivity|].
    rewrite Lw. split.
    { rewrite !app_length, firstn_length, skipn_length, Lw. lia. }
    cbn [Nat.add]. fold i. cbn [sched]. rewrite (proj2 (Nat.ltb_ge i ws)) by lia. fold w.
    rewrite concat_app, <- Hs. cbn [concat]. rewrite app_nil_r, app_assoc.
    rewrite firstn_app.
    assert (LL : length (firstn (4 * i) s ++ w) = (4 * S i)%nat)
      by (rewrite app_length, firstn_length, Lw; lia).
    rewrite LL, Nat.sub_diag. change (firstn 0 _) with (@nil Z). rewrite app_nil_r.
    rewrite <- LL. apply firstn_all.
  - rewrite E. cbn [Nat.add] in H. rewrite <- Hit. rewrite <- H. rewrite firstn_all2; [reflexivity|lia].
Qed.

(** ** The block functions *)
Lemma cipher_too_many input e nr : length e = (16 * (nr + 1))%nat -> forall nr', (nr < nr')%nat ->
  panics (block_cipher_aes input e nr').
Proof.
  intros L nr' H. unfold block_cipher_aes.
  destruct (arr_from_sub_range _ _ _ _ _) as [k0|p]; cbn [bind]; [|now exists p].
  destruct (from_sub_range _ _ _ _) as [k|p]; cbn [bind]; [|now exists p].
  unfold arr_from_sub at 1. rewrite assert_true by reflexivity. cbn [bind].
  rewrite update_sub_panic by (right; lia). now exists PAssert.
Qed.
Lemma block_Ok alg key m nk : bytes_n (klen alg) key -> block16 m -> (nk_min alg <= nk)%nat ->
  let c := cipher (nr_of alg) (sched (nk_of alg) nk key (4 * (nr_of alg + 1))) m in
  aes_encrypt_block key m nk (nr_of alg) alg = Ok c /\ block16 c.
Proof.
  intros HK Hm Hnk c. unfold aes_encrypt_block. rewrite expansion_Ok by (assumption || lia). cbn [bind].
  assert (Hk : (0 < nk_of alg)%nat) by (destruct alg; cbn; lia).
  assert (Hr : (0 < nr_of alg)%nat) by (destruct alg; cbn; lia).
  pose proof (sched_words (nk_of alg) nk key (4 * (nr_of alg + 1)) Hk HK) as W.
  pose proof (sched_length (nk_of alg) nk key (4 * (nr_of alg + 1))) as L.
  destruct (block_cipher_Ok m _ _ Hm Hr W L) as [E I]. rewrite E. split; [reflexivity|].
  unfold c, cipher. apply AddRoundKey_block.
  - now apply ShiftRows_block, SubBytes_block.
  - apply (round_key_block _ (nr_of alg + 1)); [assumption|exact L|lia].
Qed.
Lemma block_inv alg key m nk nr c : bytes_n (klen alg) key ->
  aes_encrypt_block key m nk nr alg = Ok c -> nr = nr_of alg /\ (nk_min alg <= nk)%nat.
Proof.
  intros HK H. unfold aes_encrypt_block in H.
  destruct (key_expansion_aes key nk nr alg) as [e|p] eqn:E; cbn [bind] in H; [|discriminate].
  destruct (expansion_inv _ _ _ _ _ E) as [A B]. split; [|exact B].
  assert (Ee : e = concat (sched (nk_of alg) nk key (4 * (nr_of alg + 1)))).
  { pose proof (expansion_Ok key nk nr alg HK A B) as X. congruence. }
  rewrite Ee in H.
  destruct (Nat.eq_dec nr (nr_of alg)) as [->|D]; [reflexivity|exfalso].
  assert (Hk : (0 < nk_of alg)%nat) by (destruct alg; cbn; lia).
  pose proof (sched_words (nk_of alg) nk key (4 * (nr_of alg + 1)) Hk HK) as W.
  pose proof (sched_length (nk_of alg) nk key (4 * (nr_of alg + 1))) as L.
  destruct (cipher_too_many m (concat (sched (nk_of alg) nk key (4 * (nr_of alg + 1)))) (nr_of alg)) with (nr' := nr) as [p P].
  - rewrite (concat_length_const 4) by now apply Forall_bytes_len. lia.
  - lia.
  - rewrite P in H. discriminate.
Qed.
Lemma cipher_inv nr w : (0 < nr)%nat -> Forall (bytes_n 4) w -> length w = (4 * (nr + 1))%nat ->
  has_inv block16 (cipher nr w).
Proof.
  intros Hr W L.
  assert (RK : forall i, (i < nr + 1)%nat -> block16 (round_key w i))
    by (intros; now apply (round_key_block w (nr + 1))).
  unfold cipher.
  apply (has_inv_comp block16 (fun input => AddRoundKey input (round_key w 0))
    (fun s => AddRoundKey (ShiftRows (SubBytes (fold_left (fun s i => AddRoundKey (MixColumns (ShiftRows (SubBytes s))) (round_key w i)) (seq 1 (nr - 1)) s))) (round_key w nr))).
  { apply AddRoundKey_inv, RK. lia. }
  apply (has_inv_comp block16 (fun s => fold_left (fun s i => AddRoundKey (MixColumns (ShiftRows (SubBytes s))) (round_key w i)) (seq 1 (nr - 1)) s)
    (fun s => AddRoundKey (ShiftRows (SubBytes s)) (round_key w nr))).
  - apply has_inv_fold. intros i Hi. apply in_seq in Hi.
    apply (has_inv_comp block16 SubBytes (fun s => AddRoundKey (MixColumns (ShiftRows s)) (round_key w i))); [apply SubBytes_inv|].
    apply (has_inv_comp block16 ShiftRows (fun s => AddRoundKey (MixColumns s) (round_key w i))); [apply ShiftRows_inv|].
    apply (has_inv_comp block16 MixColumns (fun s => AddRoundKey s (round_key w i))); [apply MixColumns_inv|].
    apply AddRoundKey_inv, RK. lia.
  - apply (has_inv_comp block16 SubBytes (fun s => AddRoundKey (ShiftRows s) (round_key w nr))); [apply SubBytes_inv|].
    apply (has_inv_comp block16 ShiftRows (fun s => AddRoundKey s (round_key w nr))); [apply ShiftRows_inv|].
    apply AddRoundKey_inv, RK. lia.
Qed.
Lemma next_word_large nk nk' i b p : (7 <= nk)%nat -> (7 <= nk')%nat -> (0 < i < nk)%nat -> (i < nk')%nat ->
  next_word nk i b p = next_word nk' i b p.
Proof.
  intros. unfold next_word. rewrite !(Nat.mod_small i) by lia.
  rewrite (proj2 (Nat.eqb_neq i 0)) by lia.
  rewrite (proj2 (Nat.ltb_lt 6 nk)), (proj2 (Nat.ltb_lt 6 nk')) by lia. reflexivity.
Qed.
