(** What AES-GCM makes public through declassify (C87). *)
From Coq Require Import ZArith List Bool Arith Lia.
From Verif Require Import Base P_Base M_Int P_Int M_Seq M_Bytes M_Vec P_Seq P_Bytes P_Word P_Stream S_ChaCha P_Poly1305 S_GF2 S_AES M_AES P_AES P_GF128 P_GCM M_Leak.
Import ListNotations.
Open Scope Z_scope.

(** ** The traced functions compute what the plain ones do *)
Lemma fst_tbind {A B} (x : traced A) (f : A -> traced B) : fst (tbind x f) = bind (fst x) (fun a => fst (f a)).
Proof. unfold tbind. now destruct (fst x). Qed.
Lemma bind_cong {A B} (x y : res A) (f g : A -> res B) : x = y -> (forall a, f a = g a) -> bind x f = bind y g.
Proof. intros -> H. destruct y; cbn [bind]; [apply H|reflexivity]. Qed.
Lemma fst_for_range_t {S} a n (f : nat -> S -> traced S) g s : (forall i s, fst (f i s) = g i s) ->
  fst (for_range_t a n f s) = for_range a n g s.
Proof.
  intros H. revert a s; induction n as [|n IH]; intros a s; [reflexivity|]. cbn [for_range_t for_range].
  rewrite fst_tbind. apply bind_cong; [apply H|]. intros s'. apply IH.
Qed.
Ltac erase := repeat first
  [ match goal with |- fst (quiet ?x) = ?x => exact eq_refl | |- ?x = ?x => exact eq_refl | |- fst (sbox_at_t ?x) = _ => exact eq_refl end
  | match goal with |- fst (tbind _ _) = _ => rewrite fst_tbind end
  | match goal with |- bind _ _ = bind _ _ => apply bind_cong; [|intros ?] end
  | match goal with |- fst (match ?p with pair _ _ => _ end) = _ => destruct p end
  | match goal with |- fst (for_range_t _ _ _ _) = for_range _ _ _ _ => apply fst_for_range_t; intros ? ? end ].
Lemma sbox_at_er x : fst (sbox_at_t x) = sbox_at x.
Proof. reflexivity. Qed.
Lemma sub_bytes_er s : fst (sub_bytes_t s) = sub_bytes s.
Proof. unfold sub_bytes_t, sub_bytes. erase. Qed.
Lemma aes_enc_er s k : fst (aes_enc_t s k) = aes_enc s k.
Proof. unfold aes_enc_t, aes_enc. rewrite fst_tbind, sub_bytes_er. erase. Qed.
Lemma aes_enc_last_er s k : fst (aes_enc_last_t s k) = aes_enc_last s k.
Proof. unfold aes_enc_last_t, aes_enc_last. rewrite fst_tbind, sub_bytes_er. erase. Qed.
Lemma rounds_aes_er s k : fst (rounds_aes_t s k) = rounds_aes s k.
Proof. unfold rounds_aes_t, rounds_aes. erase. apply aes_enc_er. Qed.
Lemma block_cipher_er i k nr : fst (block_cipher_aes_t i k nr) = block_cipher_aes i k nr.
Proof. unfold block_cipher_aes_t, block_cipher_aes. erase. - apply rounds_aes_er. - apply aes_enc_last_er. Qed.
Lemma sub_word_er w : fst (sub_word_t w) = sub_word w.
Proof. unfold sub_word_t, sub_word. erase. Qed.
Lemma keygen_assist_er w c : fst (aes_keygen_assist_t w c) = aes_keygen_assist w c.
Proof. unfold aes_keygen_assist_t, aes_keygen_assist. erase. apply sub_word_er. Qed.
Lemma key_expansion_word_er w0 w1 i nk nr : fst (key_expansion_word_t w0 w1 i nk nr) = key_expansion_word w0 w1 i nk nr.
Proof.
  unfold key_expansion_word_t, key_expansion_word. cbv zeta. rewrite fst_tbind. apply bind_cong; [reflexivity|]. intros _.
  rewrite fst_tbind. apply bind_cong; [reflexivity|]. intros q. rewrite fst_tbind. apply bind_cong; [|reflexivity].
  destruct (_ =? _)%nat; [rewrite fst_tbind; apply bind_cong; [reflexivity|intros; apply keygen_assist_er]|].
  destruct (_ && _); [apply sub_word_er|reflexivity].
Qed.
Lemma key_expansion_er key nk nr alg : fst (key_expansion_aes_t key nk nr alg) = key_expansion_aes key nk nr alg.
Proof. unfold key_expansion_aes_t, key_expansion_aes. cbv zeta. erase. apply key_expansion_word_er. Qed.
Lemma encrypt_block_er k i nk nr alg : fst (aes_encrypt_block_t k i nk nr alg) = aes_encrypt_block k i nk nr alg.
Proof. unfold aes_encrypt_block_t, aes_encrypt_block. erase. - apply key_expansion_er. - apply block_cipher_er. Qed.
Lemma ctr_keyblock_er k n c nk nr alg : fst (aes_ctr_keyblock_t k n c nk nr alg) = aes_ctr_keyblock k n c nk nr alg.
Proof. unfold aes_ctr_keyblock_t, aes_ctr_keyblock. erase. apply encrypt_block_er. Qed.
Lemma counter_mode_er k n c m nk nr alg : fst (aes_counter_mode_t k n c m nk nr alg) = aes_counter_mode k n c m nk nr alg.
Proof. unfold aes_counter_mode_t, aes_counter_mode. erase. apply ctr_keyblock_er. Qed.
Lemma fmul_er x y : fst (fmul_t x y) = fmul x y.
Proof.
  unfold fmul_t, fmul. rewrite fst_tbind. apply bind_cong; [|intros [? ?]; reflexivity].
  apply fst_for_range_t. intros i [r s]. rewrite fst_tbind. apply bind_cong; [reflexivity|]. intros m.
  rewrite fst_tbind. cbn [declassify_t fst bind]. rewrite fst_tbind. cbn [declassify_t fst bind]. rewrite fst_tbind.
  apply bind_cong; reflexivity.
Qed.
#[local] Opaque fmul fmul_t aes_ctr_keyblock aes_ctr_keyblock_t.
Lemma gf_update_er r b a : fst (gf_update_t r b a) = gf_update r b a.
Proof. unfold gf_update_t, gf_update. erase. apply fmul_er. Qed.
Lemma gf_poly_er m r : fst (gf_poly_t m r) = gf_poly m r.
Proof.
  unfold gf_poly_t, gf_poly. cbv zeta. rewrite fst_tbind. apply bind_cong.
  - apply fst_for_range_t. intros. erase. apply gf_update_er.
  - intros a. destruct (negb _); [|reflexivity]. erase. apply gf_update_er.
Qed.
Lemma gmac_er m k : fst (gmac_t m k) = gmac m k.
Proof. unfold gmac_t, gmac. erase. apply gf_poly_er. Qed.
Theorem C87_same_result : forall key iv aad msg tag alg,
  fst (gcm_encrypt_pub_t key iv aad msg alg) = gcm_encrypt_pub key iv aad msg alg /\
  fst (gcm_decrypt_pub_t key iv aad msg tag alg) = gcm_decrypt_pub key iv aad msg tag alg.
Proof.
  intros. split.
  - unfold gcm_encrypt_pub_t, gcm_encrypt_pub. rewrite fst_tbind. apply bind_cong; [reflexivity|]. intros ks.
    unfold gcm_encrypt_t, gcm_encrypt. cbv zeta. erase; first [apply ctr_keyblock_er|apply counter_mode_er|apply gmac_er].
  - unfold gcm_decrypt_pub_t, gcm_decrypt_pub. rewrite fst_tbind. apply bind_cong; [reflexivity|]. intros ks.
    unfold gcm_decrypt_t, gcm_decrypt. cbv zeta. erase; try apply ctr_keyblock_er; try apply gmac_er.
    cbn [declassify_eq_t fst bind]. destruct (list_eqb _ _); [|reflexivity].
    rewrite fst_tbind. apply bind_cong; [apply counter_mode_er|reflexivity].
Qed.

(** ** The number of values made public *)
Definition tlen {A} (m : traced A) (n : nat) : Prop := forall v, fst m = Ok v -> length (snd m) = n.
Lemma snd_tbind {A B} (x : traced A) (f : A -> traced B) :
  snd (tbind x f) = snd x ++ match fst x with Ok a => snd (f a) | Panic _ => [] end.
Proof. unfold tbind. destruct (fst x); cbn [snd]; [reflexivity|now rewrite app_nil_r]. Qed.
Lemma tlen_quiet {A} (r : res A) : tlen (quiet r) 0.
Proof. intros v _. reflexivity. Qed.
Lemma tlen_bind {A B} (x : traced A) (f : A -> traced B) a b : tlen x a -> (forall v, fst x = Ok v -> tlen (f v) b) ->
  tlen (tbind x f) (a + b).
Proof.
  intros H1 H2 v E. rewrite fst_tbind in E. rewrite snd_tbind, app_length. destruct (fst x) as [u|] eqn:Ex; [|discriminate E].
  cbn [bind] in E. now rewrite (H1 u Ex), (H2 u eq_refl v E).
Qed.
Lemma tlen_for {S} (f : nat -> S -> traced S) g a n s : (forall i s, (a <= i < a + n)%nat -> tlen (f i s) (g i)) ->
  tlen (for_range_t a n f s) (list_sum (map g (seq a n))).
Proof.
  revert a s; induction n as [|n IH]; intros a s H; [apply tlen_quiet|]. cbn [for_range_t seq map list_sum fold_right].
  apply tlen_bind; [apply H; lia|]. intros v _. apply IH. intros i s' Hi. apply H. lia.
Qed.
Lemma sum_const k a n : list_sum (map (fun _ : nat => k) (seq a n)) = (k * n)%nat.
Proof. revert a; induction n as [|n IH]; intros a; cbn [seq map list_sum fold_right]; [lia|]. specialize (IH (S a)). unfold list_sum in IH. lia. Qed.
Lemma tlen_for_const {S} (f : nat -> S -> traced S) k a n s : (forall i s, (a <= i < a + n)%nat -> tlen (f i s) k) ->
  tlen (for_range_t a n f s) (k * n).
Proof. intros H. rewrite <- (sum_const k a n). now apply tlen_for. Qed.
Lemma tlen_eq {A} (m : traced A) a b : a = b -> tlen m a -> tlen m b.
Proof. now intros ->. Qed.
Lemma tlen_q {A B} (r : res A) (f : A -> traced B) b : (forall v, r = Ok v -> tlen (f v) b) -> tlen (tbind (quiet r) f) b.
Proof. intros H. apply (tlen_eq _ (0 + b)); [reflexivity|]. apply tlen_bind; [apply tlen_quiet|exact H]. Qed.
Lemma tlen_tail {A B} (x : traced A) (f : A -> traced B) a : tlen x a -> (forall v, tlen (f v) 0) -> tlen (tbind x f) a.
Proof. intros H G. apply (tlen_eq _ (a + 0)); [lia|]. apply tlen_bind; [exact H|intros; apply G]. Qed.
Ltac quiet_tail := repeat first [apply tlen_quiet | apply tlen_q; intros ? _].
Lemma sbox_len x : tlen (sbox_at_t x) 1.
Proof. intros v _. reflexivity. Qed.
Lemma sub_bytes_len s : tlen (sub_bytes_t s) 16.
Proof.
  apply (tlen_for_const _ 1). intros i st _. apply tlen_q. intros x _. apply tlen_tail; [apply sbox_len|]. intros. apply tlen_quiet.
Qed.
Lemma aes_enc_len s k : tlen (aes_enc_t s k) 16.
Proof. apply tlen_tail; [apply sub_bytes_len|]. intros v. quiet_tail. Qed.
Lemma aes_enc_last_len s k : tlen (aes_enc_last_t s k) 16.
Proof. apply tlen_tail; [apply sub_bytes_len|]. intros v. quiet_tail. Qed.
Lemma rounds_len s k : tlen (rounds_aes_t s k) (16 * ((length k + 15) / 16)).
Proof.
  apply tlen_q. intros n Hn. rewrite num_chunks_Ok in Hn by lia. replace (length k + 16 - 1)%nat with (length k + 15)%nat in Hn by lia.
  injection Hn as <-. apply tlen_for_const. intros i st _. apply tlen_q. intros [? kb] _. apply tlen_q. intros rk _. apply aes_enc_len.
Qed.
Lemma from_sub_range_length (v k : list Z) a b : from_sub_range 0 v a b = Ok k -> length k = (b - a)%nat.
Proof.
  unfold from_sub_range, from_sub, usub. destruct (a <=? b)%nat; cbn [bind]; [|discriminate].
  intros E. apply (update_sub_length 0) in E. now rewrite seq_new_length in E.
Qed.
Lemma block_cipher_len input key nr : (0 < nr)%nat -> tlen (block_cipher_aes_t input key nr) (16 * nr).
Proof.
  intros H. apply tlen_q. intros k0 _. apply tlen_q. intros k Hk. apply from_sub_range_length in Hk. apply tlen_q. intros kn _.
  apply tlen_q. intros s _. apply (tlen_eq _ (16 * (nr - 1) + 16)); [lia|]. apply tlen_bind; [|intros; apply aes_enc_last_len].
  apply (tlen_eq _ (16 * ((length k + 15) / 16))); [|apply rounds_len]. f_equal. rewrite Hk.
  symmetry. apply (Nat.div_unique _ _ _ 15); lia.
Qed.
Lemma sub_word_len w : tlen (sub_word_t w) 4.
Proof.
  do 4 (apply tlen_q; intros ? _; match goal with |- tlen _ (S ?n) => apply (tlen_bind _ _ 1 n); [apply sbox_len|intros ? _] end).
  apply tlen_quiet.
Qed.
Lemma keygen_assist_len w c : tlen (aes_keygen_assist_t w c) 4.
Proof. apply tlen_q. intros k _. apply tlen_tail; [apply sub_word_len|]. intros v. quiet_tail. Qed.
(** S-box lookups for word i of the key schedule *)
Definition word_lookups (nk i : nat) : nat :=
  if (i mod nk =? 0)%nat then 4 else if ((6 <? nk) && (i mod nk =? 4))%nat then 4 else 0.
Lemma key_word_len w0 w1 i nk nr : tlen (key_expansion_word_t w0 w1 i nk nr) (word_lookups nk i).
Proof.
  apply tlen_q. intros _ _. cbv zeta. apply tlen_q. intros q _. apply tlen_tail; [|intros; apply tlen_quiet].
  unfold word_lookups. destruct (_ =? _)%nat; [apply tlen_q; intros; apply keygen_assist_len|].
  destruct (_ && _); [apply sub_word_len|apply tlen_quiet].
Qed.
Definition schedule_lookups (alg : aes_variant) : nat := match alg with Aes128 => 40 | Aes256 => 52 end.
Lemma key_expansion_len key alg : tlen (key_expansion_aes_t key (nk_of alg) (nr_of alg) alg) (schedule_lookups alg).
Proof.
  unfold key_expansion_aes_t. cbv zeta. apply tlen_q. intros ke _.
  eapply tlen_eq; [|apply (tlen_for _ (fun j => word_lookups (nk_of alg) (j + match alg with Aes128 => 4 | Aes256 => 8 end)))].
  - destruct alg; reflexivity.
  - intros i s _. apply tlen_q. intros im _. apply tlen_q. intros w0 _. apply tlen_q. intros i4 _. apply tlen_q. intros w1 _.
    apply tlen_tail; [apply key_word_len|intros; apply tlen_quiet].
Qed.
Definition block_lookups (alg : aes_variant) : nat := match alg with Aes128 => 200 | Aes256 => 276 end.
Lemma encrypt_block_len key input alg : tlen (aes_encrypt_block_t key input (nk_of alg) (nr_of alg) alg) (block_lookups alg).
Proof.
  apply (tlen_eq _ (schedule_lookups alg + 16 * nr_of alg)); [destruct alg; reflexivity|].
  apply tlen_bind; [apply key_expansion_len|]. intros k _. apply block_cipher_len. destruct alg; cbn; lia.
Qed.
#[local] Transparent aes_ctr_keyblock_t fmul_t.
Lemma keyblock_len key n c alg : tlen (aes_ctr_keyblock_t key n c (nk_of alg) (nr_of alg) alg) (block_lookups alg).
Proof. unfold aes_ctr_keyblock_t. cbv zeta. do 3 (apply tlen_q; intros ? _). apply encrypt_block_len. Qed.
#[local] Opaque aes_ctr_keyblock_t.
Lemma counter_mode_len key n c m alg : tlen (aes_counter_mode_t key n c m (nk_of alg) (nr_of alg) alg) (block_lookups alg * ((length m + 15) / 16)).
Proof.
  apply tlen_q. intros k Hk. rewrite num_chunks_Ok in Hk by lia. replace (length m + 16 - 1)%nat with (length m + 15)%nat in Hk by lia.
  injection Hk as <-. apply tlen_tail; [|intros [? ?]; apply tlen_quiet]. apply tlen_for_const. intros i [bo ct] _.
  apply tlen_q. intros [bl mb] _. apply tlen_tail; [apply keyblock_len|]. intros; apply tlen_quiet.
Qed.
Lemma fmul_len x y : tlen (fmul_t x y) 256.
Proof.
  unfold fmul_t. apply tlen_tail; [|intros [? ?]; apply tlen_quiet].
  change 256%nat with (2 * 128)%nat. apply tlen_for_const. intros i [r s] _.
  apply tlen_q. intros mm _. apply (tlen_bind _ _ 1 1); [intros ? _; reflexivity|intros b _]. cbv zeta.
  apply (tlen_bind _ _ 1 0); [intros ? _; reflexivity|intros cc _]. quiet_tail.
Qed.
#[local] Opaque fmul_t.
Lemma gf_update_len r b a : tlen (gf_update_t r b a) 256.
Proof. unfold gf_update_t. apply tlen_q. intros. apply fmul_len. Qed.
Lemma gf_poly_len m r : tlen (gf_poly_t m r) (256 * ((length m + 15) / 16)).
Proof.
  unfold gf_poly_t. cbv zeta. pose proof (Nat.div_mod (length m) 16 ltac:(lia)) as D. pose proof (Nat.mod_upper_bound (length m) 16 ltac:(lia)) as U.
  apply (tlen_eq _ (256 * (length m / 16) + if negb (length m mod 16 =? 0)%nat then 256 else 0)).
  - destruct (Nat.eqb_spec (length m mod 16) 0) as [Z0|Z0]; cbn [negb].
    + replace ((length m + 15) / 16)%nat with (length m / 16)%nat; [lia|]. apply (Nat.div_unique _ _ _ 15); lia.
    + replace ((length m + 15) / 16)%nat with (S (length m / 16))%nat; [lia|]. apply (Nat.div_unique _ _ _ (length m mod 16 - 1)); lia.
  - apply tlen_bind.
    + apply tlen_for_const. intros i a _. apply tlen_q. intros s _. apply tlen_q. intros b _. apply gf_update_len.
    + intros a _. destruct (negb _); [|apply tlen_quiet]. apply tlen_q. intros. apply gf_update_len.
Qed.
Lemma gmac_len m k : tlen (gmac_t m k) (256 * ((length m + 15) / 16)).
Proof. unfold gmac_t. cbv zeta. apply tlen_q. intros kb _. apply tlen_q. intros r _. apply tlen_tail; [apply gf_poly_len|]. intros v. quiet_tail. Qed.
Definition blocks_of (x : list Z) : nat := ((length x + 15) / 16)%nat.
Lemma mac_data_blocks aad ct : ((length (gcm_mac_data aad ct) + 15) / 16 = blocks_of aad + blocks_of ct + 1)%nat.
Proof.
  unfold gcm_mac_data. rewrite !app_length, !be_str_length. rewrite !Nat.add_assoc.
  assert (P : forall x : list Z, (length x + length (pad16 x) = 16 * blocks_of x)%nat).
  { intros x. rewrite <- gcm_padded_len_eq. unfold gcm_padded_len, blocks_of.
    pose proof (Nat.div_mod (length x) 16 ltac:(lia)) as D. pose proof (Nat.mod_upper_bound (length x) 16 ltac:(lia)) as U.
    destruct (Nat.eqb_spec (length x mod 16) 0) as [Z0|Z0].
    + replace ((length x + 15) / 16)%nat with (length x / 16)%nat; [lia|]. apply (Nat.div_unique _ _ _ 15); lia.
    + replace ((length x + 15) / 16)%nat with (S (length x / 16))%nat; [lia|]. apply (Nat.div_unique _ _ _ (length x mod 16 - 1)); lia. }
  pose proof (P aad). pose proof (P ct). symmetry. apply (Nat.div_unique _ _ _ 15); lia.
Qed.
(** How many values are made public depends on the lengths alone. *)
Theorem C87_trace_length : forall alg key iv aad msg,
  bytes_n (match alg with Aes128 => 16 | Aes256 => 32 end) key -> bytes_n 12 iv -> Forall byte aad -> Forall byte msg ->
  Z.of_nat (length aad) < 2 ^ 61 -> Z.of_nat (length msg) < 2 ^ 61 ->
  length (snd (gcm_encrypt_pub_t key iv aad msg alg)) =
    ((match alg with Aes128 => 200 | Aes256 => 276 end) * ((length msg + 15) / 16 + 2)
     + 256 * ((length aad + 15) / 16 + (length msg + 15) / 16 + 1))%nat.
Proof.
  intros alg key iv aad msg HK HI HA HM SA SM.
  assert (HK' : bytes_n (klen alg) key) by (destruct alg; exact HK).
  pose proof (gcm_encrypt_Ok alg key iv aad msg HK' HI HA HM SA SM) as E.
  destruct (C87_same_result key iv aad msg [] alg) as [S _]. rewrite <- S in E. revert E. generalize (ctr_pure alg key iv 2 msg, gcm_tag (aes_pure alg key) iv aad (ctr_pure alg key iv 2 msg)).
  enough (T : tlen (gcm_encrypt_pub_t key iv aad msg alg) (block_lookups alg + (block_lookups alg + (block_lookups alg * blocks_of msg + 256 * (blocks_of aad + blocks_of msg + 1))))).
  { intros v E. rewrite (T v E). unfold blocks_of, block_lookups. destruct alg; lia. }
  apply tlen_q. intros ks Hks. rewrite seq_from_seq_Ok in Hks. injection Hks as <-. cbv zeta.
  apply tlen_bind; [apply keyblock_len|]. intros mk _. apply tlen_bind; [apply keyblock_len|]. intros tm _.
  apply tlen_bind; [apply counter_mode_len|]. intros ct Hct. unfold aes_encrypt_t in Hct. rewrite counter_mode_er in Hct.
  rewrite counter_mode_Ok in Hct by (assumption || (unfold word32; lia)). injection Hct as <-.
  apply tlen_q. intros pm Hpm. assert (Sc : short (ctr_pure alg key iv 2 msg)) by (unfold short; now rewrite ctr_pure_length).
  rewrite gcm_pad_Ok in Hpm by assumption. injection Hpm as <-. apply tlen_q. intros gk _.
  apply tlen_tail; [|intros v; quiet_tail].
  eapply tlen_eq; [|apply gmac_len]. rewrite mac_data_blocks. unfold blocks_of. now rewrite ctr_pure_length.
Qed.

(** ** What the values give away *)
Lemma trace_Ok {A B} (x : traced A) (f : A -> traced B) a : fst x = Ok a -> snd (tbind x f) = snd x ++ snd (f a).
Proof. intros E. rewrite snd_tbind. now rewrite E. Qed.
Lemma trace_q {A B} (r : res A) (f : A -> traced B) a : r = Ok a -> snd (tbind (quiet r) f) = snd (f a).
Proof. intros E. rewrite (trace_Ok (quiet r) f a E). reflexivity. Qed.
Lemma trace_for {S} (I : nat -> S -> Prop) (g : nat -> list Z) (f : nat -> S -> traced S) a n s : I a s ->
  (forall i s, (a <= i < a + n)%nat -> I i s -> exists s', fst (f i s) = Ok s' /\ I (Datatypes.S i) s' /\ snd (f i s) = g i) ->
  snd (for_range_t a n f s) = flat_map g (seq a n).
Proof.
  revert a s; induction n as [|n IH]; intros a s H0 Hs; [reflexivity|]. cbn [for_range_t seq flat_map].
  destruct (Hs a s) as (s' & E & I' & T); [lia|exact H0|]. rewrite (trace_Ok _ _ s' E), T. f_equal. apply IH; [exact I'|].
  intros i s0 Hi. apply Hs. lia.
Qed.
Lemma sub_bytes_trace s : block16 s -> snd (sub_bytes_t s) = s.
Proof.
  intros [L F]. unfold sub_bytes_t. rewrite (trace_for (fun _ st => length st = 16%nat) (fun i => [nth i s 0])).
  - transitivity (map (fun i => nth i s 0) (seq 0 (length s))); [rewrite L; reflexivity|]. symmetry. apply (nth_ext_eq _ _ 0).
    + now rewrite map_length, seq_length.
    + intros j Hj. now rewrite nth_map_seq by exact Hj.
  - exact L.
  - intros i st Hi Hst. rewrite (trace_q _ _ (nth i s 0)) by (apply idx_Ok; lia).
    assert (B : byte (nth i s 0)) by (rewrite Forall_forall in F; apply F, nth_In; lia).
    eexists. rewrite fst_tbind. cbn [quiet fst]. rewrite (idx_Ok s i 0) by lia. cbn [bind]. rewrite fst_tbind, sbox_at_er, sbox_at_Ok by exact B.
    cbn [bind quiet fst]. split; [apply upd_Ok; lia|]. split; [rewrite set_nth_length; exact Hst|].
    rewrite snd_tbind. rewrite sbox_at_er, sbox_at_Ok by exact B. cbn [quiet snd]. rewrite app_nil_r. reflexivity.
Qed.
Lemma aes_enc_trace s k : block16 s -> block16 k -> snd (aes_enc_t s k) = s.
Proof.
  intros Hs Hk. unfold aes_enc_t. rewrite (trace_Ok _ _ (SubBytes s)) by (rewrite sub_bytes_er; now apply sub_bytes_Ok).
  rewrite sub_bytes_trace by exact Hs. rewrite (trace_q _ _ (ShiftRows (SubBytes s))) by (apply shift_rows_Ok; reflexivity).
  rewrite (trace_q _ _ (MixColumns (ShiftRows (SubBytes s)))) by (apply mix_columns_Ok, ShiftRows_block, SubBytes_block, Hs).
  cbn [quiet snd]. apply app_nil_r.
Qed.
(** The lookups of the first two rounds show the state after the first two round keys. *)
Lemma block_cipher_trace input w nr : block16 input -> (3 <= nr)%nat -> Forall (bytes_n 4) w -> length w = (4 * (nr + 1))%nat ->
  let s0 := AddRoundKey input (round_key w 0) in
  let s1 := AddRoundKey (MixColumns (ShiftRows (SubBytes s0))) (round_key w 1) in
  exists rest, snd (block_cipher_aes_t input (concat w) nr) = s0 ++ s1 ++ rest.
Proof.
  intros Hin Hnr HW LW s0 s1.
  assert (LC : length (concat w) = (16 * (nr + 1))%nat) by (rewrite (concat_length_const 4) by (now apply Forall_bytes_len); lia).
  assert (RK : forall i, (i < nr + 1)%nat -> block16 (round_key w i)) by (intros; now apply (round_key_block w (nr + 1))).
  assert (B0 : block16 s0) by (apply AddRoundKey_block; [assumption|apply RK; lia]).
  assert (B1 : block16 s1) by (apply AddRoundKey_block; [now apply MixColumns_block, ShiftRows_block, SubBytes_block|apply RK; lia]).
  unfold block_cipher_aes_t.
  rewrite (trace_q _ _ (round_key w 0)).
  2: { unfold arr_from_sub_range. rewrite usub_Ok by lia. cbn [bind]. rewrite Nat.sub_0_r, arr_from_sub_Ok by lia. apply (f_equal Ok).
       exact (round_key_chunk w 0 HW). }
  set (k := firstn (16 * nr - 16) (skipn 16 (concat w))).
  assert (Lk : length k = (16 * (nr - 1))%nat) by (unfold k; rewrite firstn_length, skipn_length; lia).
  rewrite (trace_q _ _ k).
  2: { unfold from_sub_range. rewrite usub_Ok by lia. cbn [bind]. rewrite from_sub_Ok by lia. unfold k. do 2 f_equal. lia. }
  rewrite (trace_q _ _ (round_key w nr)).
  2: { rewrite arr_from_sub_Ok by lia. apply (f_equal Ok). rewrite (Nat.mul_comm nr 16). now apply round_key_chunk. }
  rewrite (trace_q _ _ s0) by (apply add_round_key_Ok; [apply Hin|apply RK; lia]).
  assert (C : forall i, (i < nr - 1)%nat -> get_chunk 0 k 16 i = Ok (16%nat, round_key w (S i))).
  { intros i Hi. rewrite get_chunk_Ok by lia.
    assert (EQ : firstn 16 (skipn (16 * i) k) = round_key w (S i)).
    { rewrite <- round_key_chunk by assumption. unfold k. rewrite <- firstn_sub by lia. rewrite skipn_add. do 2 f_equal. lia. }
    rewrite EQ. do 2 f_equal. lia. }
  rewrite snd_tbind. unfold rounds_aes_t at 1. rewrite (trace_q _ _ (S (S (nr - 3)))).
  2: { rewrite num_chunks_Ok by lia. apply (f_equal Ok). rewrite Lk. symmetry. apply (Nat.div_unique _ _ _ 15); lia. }
  cbn [for_range_t]. rewrite (trace_Ok _ _ s1).
  2: { rewrite fst_tbind. cbn [quiet fst]. rewrite C by lia. cbn [bind]. rewrite fst_tbind. cbn [quiet fst].
       rewrite arr_from_seq_Ok by (apply RK; lia). cbn [bind]. rewrite aes_enc_er. apply aes_enc_Ok; [exact B0|apply RK; lia]. }
  rewrite (trace_q _ _ (16%nat, round_key w 1)) by (apply C; lia). cbv iota beta.
  rewrite (trace_q _ _ (round_key w 1)) by (apply arr_from_seq_Ok; apply RK; lia).
  rewrite aes_enc_trace by (first [exact B0|apply RK; lia]). rewrite snd_tbind.
  rewrite (trace_q _ _ (16%nat, round_key w 2)) by (apply C; lia). cbv iota beta.
  rewrite (trace_q _ _ (round_key w 2)) by (apply arr_from_seq_Ok; apply RK; lia).
  rewrite aes_enc_trace by (first [exact B1|apply RK; lia]).
  rewrite <- !app_assoc. eexists. reflexivity.
Qed.
Lemma schedule_prefix nk key n : (nk <= n)%nat -> length key = (4 * nk)%nat -> exists r, concat (schedule nk key n) = key ++ r.
Proof.
  intros Hn HK. induction Hn as [|n Hn IH].
  - exists []. rewrite schedule_start by lia. rewrite app_nil_r. apply firstn_all2. lia.
  - destruct IH as [r E]. cbn [schedule]. rewrite concat_app, E, <- app_assoc. eexists. reflexivity.
Qed.
(** The key, from the public values of one encryption *)
Definition key_of_trace (alg : aes_variant) (tr : list Z) : list Z :=
  match alg with
  | Aes128 => firstn 16 (skipn 40 tr)
  | Aes256 => let a := firstn 16 (skipn 52 tr) in
      a ++ AddRoundKey (MixColumns (ShiftRows (SubBytes a))) (firstn 16 (skipn 68 tr))
  end.
Lemma AddRoundKey_cancel a k : length k = 16%nat -> AddRoundKey a (AddRoundKey a k) = k.
Proof.
  intros L. apply of_rc_ext; [exact L|]. intros r c Hr Hc. unfold AddRoundKey. rewrite at_of_rc by assumption.
  rewrite <- Z.lxor_assoc, Z.lxor_nilpotent. apply Z.lxor_0_l.
Qed.
Lemma AddRoundKey_zero k : length k = 16%nat -> AddRoundKey (repeat 0 16) k = k.
Proof.
  intros L. apply of_rc_ext; [exact L|]. intros r c Hr Hc.
  replace (at_rc (repeat 0 16) r c) with 0; [apply Z.lxor_0_l|]. unfold at_rc. symmetry. apply nth_repeat.
Qed.
#[local] Transparent aes_ctr_keyblock_t.
Lemma keyblock0_trace alg key : bytes_n (klen alg) key ->
  exists tr, snd (aes_ctr_keyblock_t key (seq_new 0 12) 0 (nk_of alg) (nr_of alg) alg) = tr /\
    forall rest, key_of_trace alg (tr ++ rest) = key.
Proof.
  intros HK. eexists. split; [reflexivity|]. intros rest. unfold aes_ctr_keyblock_t. cbv zeta.
  rewrite (trace_q _ _ (repeat 0 16)) by reflexivity. rewrite (trace_q _ _ [0; 0; 0; 0]) by reflexivity.
  rewrite (trace_q _ _ (repeat 0 16)) by reflexivity. unfold aes_encrypt_block_t.
  set (n := (4 * (nr_of alg + 1))%nat). set (w := schedule (nk_of alg) key n).
  assert (EK : fst (key_expansion_aes_t key (nk_of alg) (nr_of alg) alg) = Ok (concat w)) by (rewrite key_expansion_er; now apply key_expansion_Ok).
  pose proof (key_expansion_len key alg _ EK) as LK. rewrite (trace_Ok _ _ _ EK).
  assert (Hk : (0 < nk_of alg)%nat) by (destruct alg; cbn; lia).
  assert (W : Forall (bytes_n 4) w) by (apply schedule_words; assumption).
  assert (LW : length w = n) by apply schedule_length.
  destruct (block_cipher_trace (repeat 0 16) w (nr_of alg)) as (r & ER); [|destruct alg; cbn; lia|exact W|exact LW|].
  { split; [reflexivity|]. apply Forall_forall. intros x Hx. apply repeat_spec in Hx. subst. unfold byte; lia. }
  cbv zeta in ER. rewrite ER.
  assert (RK : forall i, (i < nr_of alg + 1)%nat -> block16 (round_key w i)) by (intros; now apply (round_key_block w (nr_of alg + 1))).
  destruct (schedule_prefix (nk_of alg) key n) as [r' EW]; [unfold n; destruct alg; cbn; lia|apply HK|]. fold w in EW.
  pose proof (round_key_chunk w 0 W) as R0. pose proof (round_key_chunk w 1 W) as R1. rewrite EW in R0, R1. cbn [Nat.mul Nat.add skipn] in R0.
  assert (LR : forall i, (i < nr_of alg + 1)%nat -> length (round_key w i) = 16%nat) by (intros i Hi; apply (RK i Hi)).
  rewrite AddRoundKey_zero by (apply LR; lia). set (tk := snd (key_expansion_aes_t _ _ _ _)) in *.
  assert (SK : forall (a b : list Z) m, length a = m -> skipn m (a ++ b) = b) by (intros a b m <-; rewrite skipn_app, skipn_all, Nat.sub_diag; reflexivity).
  assert (FK : forall (a b : list Z) m, length a = m -> firstn m (a ++ b) = a) by (intros a b m <-; rewrite firstn_app, Nat.sub_diag, firstn_all; apply app_nil_r).
  rewrite <- !app_assoc.
  destruct alg; cbn [key_of_trace nr_of schedule_lookups nk_of] in *.
  - rewrite SK by exact LK. rewrite FK by (apply LR; lia). rewrite <- R0. apply FK. apply HK.
  - rewrite SK by exact LK. rewrite FK by (apply LR; lia).
    assert (E68 : forall y, skipn 68 (tk ++ round_key w 0 ++ y) = y).
    { intros y. rewrite app_assoc. apply SK. rewrite app_length, LK, LR by lia. reflexivity. }
    rewrite E68. rewrite FK by reflexivity. rewrite AddRoundKey_cancel by (apply LR; lia).
    rewrite <- R0, <- R1. assert (Lkey : length key = 32%nat) by apply HK.
    transitivity (firstn 16 key ++ firstn 16 (skipn 16 key)).
    + f_equal.
      * rewrite firstn_app, Lkey. cbn [Nat.sub firstn]. apply app_nil_r.
      * cbn [Nat.mul Nat.add]. rewrite skipn_app, firstn_app, skipn_length, Lkey. cbn [Nat.sub firstn]. apply app_nil_r.
    + rewrite (firstn_all2 (n := 16) (skipn 16 key)) by (rewrite skipn_length; lia). apply firstn_skipn.
Qed.
(** Whoever sees the values made public by one encryption or decryption has the key, whatever the other inputs are. *)
Theorem C87_trace_reveals_key : forall alg key iv aad msg tag,
  bytes_n (match alg with Aes128 => 16 | Aes256 => 32 end) key ->
  key_of_trace alg (snd (gcm_encrypt_pub_t key iv aad msg alg)) = key /\
  key_of_trace alg (snd (gcm_decrypt_pub_t key iv aad msg tag alg)) = key.
Proof.
  intros alg key iv aad msg tag HK. assert (HK' : bytes_n (klen alg) key) by (destruct alg; exact HK).
  destruct (keyblock0_trace alg key HK') as (tr & E & R). split.
  - unfold gcm_encrypt_pub_t. rewrite (trace_q _ _ key) by apply seq_from_seq_Ok. unfold gcm_encrypt_t. cbv zeta.
    rewrite snd_tbind, E. apply R.
  - unfold gcm_decrypt_pub_t. rewrite (trace_q _ _ key) by apply seq_from_seq_Ok. unfold gcm_decrypt_t. cbv zeta.
    rewrite snd_tbind, E. apply R.
Qed.

(** The multiplication of GHASH reads its second argument bit by bit, and the low bit of the shifting first argument. *)
#[local] Transparent fmul_t.
Fixpoint shifted (x : Z) (i : nat) : Z :=
  match i with O => x | S i => let s := shifted x i in if Z.odd s then Z.lxor (Z.shiftr s 1) IRRED else Z.shiftr s 1 end.
Definition fmul_step (x y : Z) (i : nat) : list Z := [Z.land y (2 ^ (127 - Z.of_nat i)); Z.land (shifted x i) 1].
Lemma odd_nz s : negb (Z.land s 1 =? 0) = Z.odd s.
Proof. rewrite (land_mask_nz s 0 (Z.le_refl 0) : negb (Z.land s 1 =? 0) = _). apply Z.bit0_odd. Qed.
Lemma fmul_trace x y : snd (fmul_t x y) = flat_map (fmul_step x y) (seq 0 128).
Proof.
  unfold fmul_t. rewrite snd_tbind.
  match goal with |- context [for_range_t _ _ ?f _] => set (F := f) end.
  assert (T : snd (for_range_t 0 128 F (0, x)) = flat_map (fmul_step x y) (seq 0 128)).
  { apply (trace_for (fun i (s : Z * Z) => snd s = shifted x i)); [reflexivity|].
    intros i [r sh] Hi E. cbn [snd] in E. subst sh. unfold F.
    assert (Em : op_shl U128 1 (127 - Z.of_nat i) = Ok (2 ^ (127 - Z.of_nat i))).
    { rewrite op_shl_Ok by (change (bits U128) with 128; lia). f_equal. rewrite Z.shiftl_1_l. unfold iwrap.
      change (sgn U128) with false. change (bits U128) with 128. cbv iota. apply Z.mod_small.
      split; [apply Z.pow_nonneg; lia|]. apply Z.pow_lt_mono_r; lia. }
    assert (Es : op_shr U128 (shifted x i) 1 = Ok (Z.shiftr (shifted x i) 1)) by (apply op_shr_Ok; change (bits U128) with 128; lia).
    rewrite Em, Es. eexists. split; [reflexivity|]. split; [|reflexivity].
    cbn [snd shifted]. unfold op_and, op_xor, declassify. rewrite odd_nz. reflexivity. }
  rewrite T. destruct (fst (for_range_t 0 128 F (0, x))) as [[r s]|e]; cbn [quiet snd]; apply app_nil_r.
Qed.
#[local] Opaque fmul_t.
Lemma flat_map_pairs_inj {A} (g g' : nat -> list A) a n : (forall i, length (g i) = length (g' i)) ->
  flat_map g (seq a n) = flat_map g' (seq a n) -> forall i, (a <= i < a + n)%nat -> g i = g' i.
Proof.
  intros L. revert a; induction n as [|n IH]; intros a E i Hi; [lia|]. cbn [seq flat_map] in E.
  apply app_inj_len in E as [E0 E1]; [|apply L].
  destruct (Nat.eq_dec i a) as [->|]; [exact E0|]. apply (IH (S a)); [exact E1|lia].
Qed.
Lemma shifted_diff x x' i : (forall j, (j < i)%nat -> Z.odd (shifted x j) = Z.odd (shifted x' j)) ->
  Z.lxor (shifted x i) (shifted x' i) = Z.shiftr (Z.lxor x x') (Z.of_nat i).
Proof.
  induction i as [|i IH]; intros H; [change (Z.of_nat 0) with 0; now rewrite Z.shiftr_0_r|].
  replace (Z.of_nat (S i)) with (Z.of_nat i + 1) by lia. rewrite <- Z.shiftr_shiftr by lia. rewrite <- IH by (intros; apply H; lia).
  cbn [shifted]. rewrite <- (H i) by lia. rewrite Z.shiftr_lxor.
  destruct (Z.odd (shifted x i)); [|reflexivity].
  rewrite (Z.lxor_comm (Z.shiftr (shifted x' i) 1) IRRED), <- Z.lxor_assoc, (Z.lxor_assoc _ IRRED IRRED), Z.lxor_nilpotent, Z.lxor_0_r. reflexivity.
Qed.
(** Both factors of a GHASH multiplication can be read off its public values. *)
Theorem C87_fmul_trace_injective : forall x y x' y',
  0 <= x < 2 ^ 128 -> 0 <= y < 2 ^ 128 -> 0 <= x' < 2 ^ 128 -> 0 <= y' < 2 ^ 128 ->
  snd (fmul_t x y) = snd (fmul_t x' y') -> x = x' /\ y = y'.
Proof.
  intros x y x' y' Hx Hy Hx' Hy' E. rewrite !fmul_trace in E.
  pose proof (flat_map_pairs_inj (fmul_step x y) (fmul_step x' y') 0 128 (fun _ => eq_refl) E) as P. unfold fmul_step in P.
  assert (O : forall i, (i < 128)%nat -> Z.odd (shifted x i) = Z.odd (shifted x' i)).
  { intros i Hi. specialize (P i ltac:(lia)). injection P as _ P. rewrite <- !odd_nz. now rewrite P. }
  split.
  - apply Z.bits_inj'. intros n Hn. destruct (Z.lt_ge_cases n 128) as [L|L].
    2: { rewrite !(testbit_small _ 128) by assumption. reflexivity. }
    pose proof (shifted_diff x x' (Z.to_nat n) (fun j Hj => O j ltac:(lia))) as D.
    apply (f_equal (fun z => Z.testbit z 0)) in D. rewrite Z.lxor_spec, Z.shiftr_spec, Z.lxor_spec, !Z.bit0_odd in D by lia.
    rewrite (O (Z.to_nat n)), xorb_nilpotent in D by lia. rewrite Z.add_0_l, Z2Nat.id in D by lia.
    destruct (Z.testbit x n), (Z.testbit x' n); try reflexivity; discriminate.
  - apply Z.bits_inj'. intros n Hn. destruct (Z.lt_ge_cases n 128) as [L|L].
    2: { rewrite !(testbit_small _ 128) by assumption. reflexivity. }
    assert (E1 : 127 - Z.of_nat (Z.to_nat (127 - n)) = n) by lia.
    specialize (P (Z.to_nat (127 - n)) ltac:(lia)). rewrite E1 in P. apply (f_equal (hd 0)) in P. cbn [hd] in P. rewrite <- !land_mask_nz by lia. now rewrite P.
Qed.
(** The GHASH key, from the public values of one authentication: the sum of the first 128 values at even positions *)
Definition mac_key_of_trace (tr : list Z) : list Z :=
  be_str 16 (fold_left Z.add (map (fun i => nth (2 * i) tr 0) (seq 0 128)) 0).
Lemma nth_flat_pairs (g : nat -> list Z) a n i rest : (forall i, length (g i) = 2%nat) -> (i < n)%nat ->
  nth (2 * i) (flat_map g (seq a n) ++ rest) 0 = nth 0 (g (a + i)%nat) 0.
Proof.
  intros L. revert a i; induction n as [|n IH]; intros a i Hi; [lia|]. cbn [seq flat_map]. rewrite <- app_assoc.
  destruct i as [|i].
  - rewrite app_nth1 by (rewrite L; lia). now rewrite Nat.add_0_r.
  - rewrite app_nth2 by (rewrite L; lia). rewrite L. replace (2 * S i - 2)%nat with (2 * i)%nat by lia.
    rewrite IH by lia. do 2 f_equal. lia.
Qed.
Lemma land_pow2 y k : 0 <= y -> 0 <= k -> Z.land y (2 ^ k) = y mod 2 ^ (k + 1) - y mod 2 ^ k.
Proof.
  intros Hy Hk. assert (0 < 2 ^ k) by (apply Z.pow_pos_nonneg; lia).
  rewrite Z.pow_add_r, Z.rem_mul_r by lia.
  assert (E : Z.land y (2 ^ k) = 2 ^ k * ((y / 2 ^ k) mod 2 ^ 1)); [|lia].
  change (2 ^ 1) with 2. rewrite <- Z.testbit_spec' by lia. apply Z.bits_inj'. intros n Hn.
  rewrite Z.land_spec, Z.pow2_bits_eqb by lia. destruct (Z.testbit y k) eqn:B; cbn [Z.b2z].
  - rewrite Z.mul_1_r, Z.pow2_bits_eqb by lia. destruct (Z.eqb_spec k n) as [<-|]; [now rewrite B|apply andb_false_r].
  - rewrite Z.mul_0_r, Z.bits_0. destruct (Z.eqb_spec k n) as [<-|]; [now rewrite B|apply andb_false_r].
Qed.
Lemma sum_bits y n a : 0 <= y -> (n <= 128)%nat ->
  fold_left Z.add (map (fun i => Z.land y (2 ^ (127 - Z.of_nat i))) (seq (128 - n) n)) a = a + y mod 2 ^ Z.of_nat n.
Proof.
  intros Hy. revert a; induction n as [|n IH]; intros a Hn; [cbn; rewrite Z.mod_1_r; lia|].
  cbn [seq map fold_left]. replace (S (128 - S n))%nat with (128 - n)%nat by lia. rewrite IH by lia.
  rewrite land_pow2 by lia. replace (127 - Z.of_nat (128 - S n)) with (Z.of_nat n) by lia.
  replace (Z.of_nat (S n)) with (Z.of_nat n + 1) by lia. lia.
Qed.
Lemma mac_key_of_fmul x y rest : u128r y -> mac_key_of_trace (snd (fmul_t x y) ++ rest) = be_str 16 y.
Proof.
  intros Hy. unfold mac_key_of_trace. f_equal. rewrite fmul_trace.
  rewrite (map_ext_in _ (fun i => Z.land y (2 ^ (127 - Z.of_nat i)))).
  - pose proof (sum_bits y 128 0 (proj1 Hy) (le_n 128)) as S. change (128 - 128)%nat with 0%nat in S. rewrite S.
    change (Z.of_nat 128) with 128. rewrite Z.mod_small by exact Hy. lia.
  - intros i Hi. apply in_seq in Hi. rewrite nth_flat_pairs by (first [reflexivity|lia]). reflexivity.
Qed.
Lemma gf_update_first r b a rest : block16 b -> u128r r -> mac_key_of_trace (snd (gf_update_t r b a) ++ rest) = be_str 16 r.
Proof.
  intros Hb Hr. unfold gf_update_t. destruct (encode_Ok b Hb) as [E _]. rewrite (trace_q _ _ _ E). now apply mac_key_of_fmul.
Qed.
Lemma block16_zero : block16 (seq_new 0 16).
Proof. split; [reflexivity|]. apply Forall_forall. intros x Hx. apply repeat_spec in Hx. subst. unfold byte; lia. Qed.
(** Whoever sees the values of one authentication of a non-empty message has the GHASH key. *)
Theorem C87_gmac_trace_reveals_key : forall text k, text <> [] -> Forall byte text -> bytes_n 16 k ->
  mac_key_of_trace (snd (gmac_t text k)) = k.
Proof.
  intros text k NE HT HK. unfold gmac_t. cbv zeta. rewrite (trace_q _ _ k) by (apply arr_from_seq_Ok, HK).
  destruct (encode_Ok k HK) as [E Hr]. rewrite (trace_q _ _ _ E).
  transitivity (be_str 16 (be_num k)).
  2: { rewrite be_str_eq, be_num_val. destruct HK as [<- F]. now apply be_bytes_be_val. }
  rewrite snd_tbind. unfold gf_poly_t. cbv zeta.
  assert (Lt : (0 < length text)%nat) by (destruct text; [contradiction|cbn; lia]).
  pose proof (Nat.div_mod (length text) 16 ltac:(lia)) as DM. pose proof (Nat.mod_upper_bound (length text) 16 ltac:(lia)) as MB.
  rewrite snd_tbind. rewrite <- app_assoc.
  destruct (length text / 16)%nat as [|nb] eqn:EN.
  - cbn [for_range_t quiet snd fst app Nat.mul]. replace (length text mod 16 =? 0)%nat with false by (symmetry; apply Nat.eqb_neq; lia).
    cbn [negb]. rewrite (trace_q _ _ (mblock text 0)).
    2: { rewrite (update_sub_Ok 0) by (rewrite ?seq_new_length; lia). f_equal.
         change (firstn 0 _) with (@nil Z). rewrite app_nil_l. unfold seq_new. rewrite skipn_repeat.
         apply (mblock_last text 0); lia. }
    apply gf_update_first; [now apply mblock_block|exact Hr].
  - cbn [for_range_t Nat.mul Nat.add]. rewrite snd_tbind, <- app_assoc.
    assert (ES : subr 0 text 0 16 = Ok (mblock text 0)).
    { rewrite subr_Ok by lia. f_equal. unfold mblock. symmetry. apply (firstn_skipn_map_seq 0 text 0 16). lia. }
    pose proof (mblock_block text 0 HT) as B.
    assert (EU : update_start (seq_new 0 16) (mblock text 0) = Ok (mblock text 0)).
    { rewrite update_start_pad by (rewrite (proj1 B); lia). rewrite (proj1 B), Nat.sub_diag. now rewrite app_nil_r. }
    rewrite (trace_q _ _ _ ES), (trace_q _ _ _ EU). apply gf_update_first; assumption.
Qed.

(** ** So the public values are not a function of the public inputs *)
Theorem C87_secret_independent_refuted : exists key key' iv aad msg,
  bytes_n 16 key /\ bytes_n 16 key' /\
  snd (gcm_encrypt_pub_t key iv aad msg Aes128) <> snd (gcm_encrypt_pub_t key' iv aad msg Aes128).
Proof.
  exists (repeat 0 16), (repeat 1 16), (repeat 0 12), [], [].
  assert (B0 : bytes_n 16 (repeat 0 16)) by (split; [reflexivity|apply Forall_forall; intros x Hx; apply repeat_spec in Hx; subst; unfold byte; lia]).
  assert (B1 : bytes_n 16 (repeat 1 16)) by (split; [reflexivity|apply Forall_forall; intros x Hx; apply repeat_spec in Hx; subst; unfold byte; lia]).
  conjs; [exact B0|exact B1|]. intros E.
  destruct (C87_trace_reveals_key Aes128 (repeat 0 16) (repeat 0 12) [] [] [] B0) as [K0 _].
  destruct (C87_trace_reveals_key Aes128 (repeat 1 16) (repeat 0 12) [] [] [] B1) as [K1 _].
  rewrite E, K1 in K0. discriminate K0.
Qed.

(** ** Concrete cases *)
#[local] Transparent fmul fmul_t aes_ctr_keyblock aes_ctr_keyblock_t.
Example C87_run :
  let key := map Z.of_nat (seq 10 16) in
  let '(r, tr) := gcm_encrypt_pub_t key (repeat 7 12) [1; 2; 3] [4; 5] Aes128 in
  (let* ct := r in Ok (length (fst ct))) = Ok 2%nat /\ length tr = (200 * 3 + 256 * 3)%nat /\ key_of_trace Aes128 tr = key.
Proof. vm_compute. auto. Qed.
Example C87_run256 :
  let key := map Z.of_nat (seq 10 32) in
  key_of_trace Aes256 (snd (gcm_decrypt_pub_t key (repeat 7 12) [] [4; 5] (repeat 0 16) Aes256)) = key.
Proof. vm_compute. reflexivity. Qed.
Example C87_mac_run : mac_key_of_trace (snd (gmac_t [1; 2; 3] (map Z.of_nat (seq 100 16)))) = map Z.of_nat (seq 100 16).
Proof. vm_compute. reflexivity. Qed.
Example C87_fmul_run : length (snd (fmul_t 3 5)) = 256%nat /\ fold_left Z.add (snd (fmul_t 3 5)) 0 > 5.
Proof. vm_compute. auto. Qed.

Print Assumptions C87_same_result.
Print Assumptions C87_trace_length.
Print Assumptions C87_trace_reveals_key.
Print Assumptions C87_fmul_trace_injective.
Print Assumptions C87_gmac_trace_reveals_key.
Print Assumptions C87_secret_independent_refuted.
