(** Lemmas about M_ReleaseSpecs.v: what the debug build of a specification returns, the release build returns. *)
From Coq Require Import ZArith List Bool Arith Lia.
From Verif Require Import Base P_Base M_Int P_Int M_Seq P_Seq M_Bytes P_Bytes M_Vec M_BigInt M_NatMod P_Stream
  M_ChaCha M_AES M_Keccak M_Blake2 M_X25519 M_Release P_Release M_ReleaseSpecs.
Import ListNotations.
Open Scope Z_scope.

(** ** Library functions *)
Lemma rf_shl t a n : 0 <= n -> refines (op_shl t a n) (rshl t a n).
Proof. exact (ref_shl t a n). Qed.
Lemma rf_shr t a n : 0 <= n -> refines (op_shr t a n) (rshr t a n).
Proof. exact (ref_shr t a n). Qed.
Lemma rot_amount_nonneg t n : 0 < bits t -> 0 <= rot_amount t n.
Proof.
  intros H. unfold rot_amount. apply Z.land_nonneg. right. lia.
Qed.
Lemma rf_rotr t a n : 0 < bits t -> 0 <= n -> refines (tr_rotate_right t a n) (rtr_rotate_right t a n).
Proof.
  intros H Hn. unfold tr_rotate_right, rtr_rotate_right.
  apply refines_bind; [apply refines_refl|intros _ _]. apply refines_bind; [now apply rf_shr|intros r _].
  apply refines_bind; [now apply rf_shl, rot_amount_nonneg|intros; apply refines_refl].
Qed.
Lemma rf_upd_start {A} (s v : list A) : refines (update_start s v) (rupdate_start s v).
Proof. apply ref_update_sub. Qed.
Lemma rf_upd {A} (s v : list A) n : refines (update s n v) (rupdate s n v).
Proof. apply ref_update_sub. Qed.
Lemma rf_from_seq {A} (d : A) l x : refines (arr_from_seq d l x) (rarr_from d l x).
Proof. apply refines_assert, refines_refl. Qed.
Lemma rf_from_sub {A} (d : A) l x a n : refines (arr_from_sub d l x a n) (rarr_from_sub d l x a n).
Proof. apply refines_assert, ref_update_sub. Qed.
Lemma rf_from_sub_range {A} (d : A) l x a b : Z.of_nat b < 2 ^ 64 ->
  refines (arr_from_sub_range d l x a b) (rarr_from_sub_range d l x a b).
Proof.
  intros H v E. unfold arr_from_sub_range, usub in E. destruct (Nat.leb_spec a b); [|discriminate E]. cbn [bind] in E.
  unfold rarr_from_sub_range. rewrite rusub_small by lia. revert E. apply rf_from_sub.
Qed.
Lemma rf_be t x : refines (word_to_be_bytes t x) (rword_to_be_bytes t x).
Proof. apply refines_assert, refines_refl. Qed.
Lemma rf_le t x : refines (word_to_le_bytes t x) (rword_to_le_bytes t x).
Proof. apply refines_assert, refines_refl. Qed.
Lemma rf_from_range {A} (d : A) v a b : Z.of_nat (length v) < 2 ^ 63 -> refines (from_sub_range d v a b) (rsubr d v a b).
Proof. exact (ref_subr d v a b). Qed.

(** lengths of what the loops keep *)
Lemma upd_keeps {A} (s s' : list A) i x : upd s i x = Ok s' -> length s' = length s.
Proof.
  intros E. destruct (le_lt_dec (length s) i) as [H|H]; [rewrite upd_panic in E by exact H; discriminate E|].
  rewrite upd_Ok in E by exact H. apply Ok_inj in E. subst s'. apply set_nth_length.
Qed.
Lemma for_keeps {S} (I : S -> Prop) n (f : nat -> S -> res S) : (forall i s s', I s -> f i s = Ok s' -> I s') ->
  forall k s r, I s -> for_range k n f s = Ok r -> I r.
Proof.
  intros K. induction n; intros k s r Hs E; cbn [for_range] in E; [apply Ok_inj in E; now subst|].
  destruct (f k s) as [s'|] eqn:F; [|discriminate E]. cbn [bind] in E. eapply IHn; [|exact E]. eapply K; eauto.
Qed.
Lemma refines_for_I {S} (I : S -> Prop) n (f g : nat -> S -> res S) :
  (forall i s, I s -> refines (f i s) (g i s)) -> (forall i s s', I s -> f i s = Ok s' -> I s') ->
  forall k s, I s -> refines (for_range k n f s) (for_range k n g s).
Proof.
  intros H K. induction n; intros k s Hs; [apply refines_refl|]. cbn [for_range]. apply refines_bind; [now apply H|].
  intros a E. apply IHn. eapply K; eauto.
Qed.
(** run through the binds of a hypothesis [E : ... = Ok r] *)
Ltac ok_inv E := repeat match type of E with
  | bind ?x _ = Ok _ => let F := fresh "F" in destruct x eqn:F; [cbn [bind] in E|discriminate E]
  | (let (_, _) := ?p in _) = Ok _ => destruct p
  | (if ?b then _ else _) = Ok _ => destruct b
  | Panic _ = Ok _ => discriminate E
  end.
Lemma sarr_xor_len l x y r : sarr_xor l x y = Ok r -> length r = l.
Proof.
  unfold sarr_xor, pointwise. intros E. rewrite <- (seq_new_length 0 l). revert E.
  apply (for_keeps (fun s : list Z => length s = length (seq_new 0 l))); [|reflexivity].
  intros i s s' L E. ok_inv E. apply upd_keeps in E. now rewrite E.
Qed.
Lemma set_chunk_len {A} (s v r : list A) cs cn : set_chunk s cs cn v = Ok r -> length r = length s.
Proof.
  unfold set_chunk, update_sub. intros E. ok_inv E. revert E.
  apply (for_keeps (fun l : list A => length l = length s)); [|reflexivity].
  intros i l l' L E. ok_inv E. apply upd_keeps in E. now rewrite E.
Qed.
Lemma update_sub_len {A} (s v r : list A) so si n : update_sub s so v si n = Ok r -> length r = length s.
Proof.
  unfold update_sub. intros E. ok_inv E. revert E.
  apply (for_keeps (fun l : list A => length l = length s)); [|reflexivity].
  intros i l l' L E. ok_inv E. apply upd_keeps in E. now rewrite E.
Qed.

(** One step of a congruence proof of [refines]; the side conditions are left over. *)
Ltac rfs db := lazymatch goal with
  | |- refines ?x ?x => apply refines_refl
  | |- refines (bind _ _) (bind _ _) => apply refines_bind; [|let a := fresh "a" in let E := fresh "E" in intros a E; cbv beta]
  | |- refines (let (_, _) := ?p in _) _ => destruct p
  | |- refines (if ?b then _ else _) (if ?b then _ else _) => destruct b
  | |- refines (for_range _ _ _ _) (for_range _ _ _ _) => apply refines_for; let i := fresh "i" in let s := fresh "s" in intros i s
  | |- _ => solve [db]
  end.
Ltac lib := first [apply rf_upd_start | apply rf_upd | apply ref_update_sub | apply rf_from_seq | apply rf_from_sub
  | apply rf_from_sub_range; reflexivity | apply rf_be | apply rf_le | apply rf_shl; lia | apply rf_shr; lia].

(** ** ChaCha20-Poly1305 *)
Lemma rf_state_to_bytes x : refines (state_to_bytes x) (rstate_to_bytes x).
Proof. unfold state_to_bytes, rstate_to_bytes. repeat rfs lib. Qed.
Lemma rf_load src a b : Z.of_nat b < 2 ^ 64 -> refines (load_word src a b) (rload_word src a b).
Proof. intros H. unfold load_word, rload_word. apply refines_bind; [now apply rf_from_sub_range|intros; apply refines_refl]. Qed.
Lemma rf_block_init k c i : refines (block_init k c i) (rblock_init k c i).
Proof. unfold block_init, rblock_init. repeat rfs ltac:(apply rf_load; reflexivity). Qed.
Lemma rf_block_inner k c i : refines (block_inner k c i) (rblock_inner k c i).
Proof. unfold block_inner, rblock_inner. apply refines_bind; [apply rf_block_init|intros; apply refines_refl]. Qed.
Lemma rf_block k c i : refines (block k c i) (rblock k c i).
Proof. unfold block, rblock. apply refines_bind; [apply rf_block_inner|intros; apply rf_state_to_bytes]. Qed.
Lemma rf_chacha k iv m : real m -> refines (chacha k iv m) (rchacha k iv m).
Proof.
  intros R. unfold chacha, rchacha. apply refines_bind; [apply refines_refl|intros n _].
  apply refines_bind; [|intros [o c] _; apply refines_refl].
  apply (refines_for_I (fun s => length (fst s) = length m)); [| |apply seq_new_length].
  - intros i [o c] L. cbn [fst] in L.
    apply refines_bind; [apply ref_get_chunk; [exact R|reflexivity]|]. intros [bl mb] _.
    apply refines_bind; [apply rf_block|intros kb _]. cbv zeta.
    apply refines_bind; [apply rf_upd_start|intros mp _].
    apply refines_bind; [apply refines_refl|intros x X].
    apply refines_bind; [apply ref_subr; rewrite (sarr_xor_len _ _ _ _ X); reflexivity|intros y _].
    apply refines_bind; [apply ref_set_chunk; [rewrite L; exact R|reflexivity]|intros; apply refines_refl].
  - intros i [o c] s' L E. cbn [fst] in L. ok_inv E. apply Ok_inj in E. subst s'. cbn [fst].
    match goal with H : set_chunk _ _ _ _ = Ok _ |- _ => apply set_chunk_len in H; congruence end.
Qed.
Lemma rf_key_gen k iv : refines (key_gen k iv) (rkey_gen k iv).
Proof. unfold key_gen, rkey_gen. apply refines_bind; [apply rf_block|intros; now apply rf_from_sub_range]. Qed.
Lemma rf_encode_r r : refines (encode_r r) (rencode_r r).
Proof. unfold encode_r, rencode_r. cbv zeta. apply refines_bind; [apply ref_update_sub|intros; apply refines_refl]. Qed.
Lemma rf_encode b : refines (encode b) (rencode b).
Proof. unfold encode, rencode. cbv zeta. apply refines_bind; [apply ref_update_sub|intros; apply refines_refl]. Qed.
Lemma rf_poly_inner m r : refines (poly_inner m r) (rpoly_inner m r).
Proof.
  unfold poly_inner, rpoly_inner. cbv zeta. apply refines_bind; [apply refines_refl|intros a _]. apply refines_for. intros i s.
  apply refines_bind; [apply ref_update_sub|intros b _]. apply refines_bind; [apply rf_encode|intros; apply refines_refl].
Qed.
Lemma rf_poly m k : refines (poly m k) (rpoly m k).
Proof.
  unfold poly, rpoly. cbv zeta. apply refines_bind; [apply rf_from_sub|intros sw _].
  apply refines_bind; [apply refines_refl|intros s _]. apply refines_bind; [apply refines_refl|intros se _].
  apply refines_bind; [now apply rf_from_sub_range|intros rb _]. apply refines_bind; [apply rf_encode_r|intros re _].
  apply refines_bind; [apply rf_poly_inner|intros; apply refines_refl].
Qed.
Lemma rf_poly_mac m k iv : refines (poly_mac m k iv) (rpoly_mac m k iv).
Proof. unfold poly_mac, rpoly_mac. apply refines_bind; [apply rf_key_gen|intros; apply rf_poly]. Qed.
Lemma rf_pad a m : Z.of_nat (padded_len (length a) + padded_len (length m) + 16) < 2 ^ 63 ->
  refines (pad_aad_msg a m) (rpad_aad_msg a m).
Proof. intros H. unfold pad_aad_msg, rpad_aad_msg. cbv zeta. rewrite ref_alloc by exact H. cbn [bind]. repeat rfs lib. Qed.
Lemma chacha_len k iv m c : chacha k iv m = Ok c -> length c = length m.
Proof.
  unfold chacha. intros E. ok_inv E. apply Ok_inj in E. subst c.
  match goal with H : for_range _ _ _ _ = Ok _ |- _ => apply (for_keeps (fun s => length (fst s) = length m)) in H end;
    [assumption| |apply seq_new_length].
  intros i [o c] s' L E. cbn [fst] in L. ok_inv E. apply Ok_inj in E. subst s'. cbn [fst].
  match goal with H : set_chunk _ _ _ _ = Ok _ |- _ => apply set_chunk_len in H; congruence end.
Qed.
Lemma padded_ge l : (l <= padded_len l)%nat.
Proof.
  unfold padded_len. destruct (_ =? _)%nat; [lia|]. pose proof (Nat.div_mod l 16 ltac:(lia)).
  pose proof (Nat.mod_upper_bound l 16 ltac:(lia)). lia.
Qed.
(** what fits in memory together with its padding *)
Definition cp_fits (aad msg : list Z) : Prop :=
  Z.of_nat (padded_len (length aad) + padded_len (length msg) + 16) < 2 ^ 63.
Lemma cp_fits_real a m : cp_fits a m -> real m.
Proof. unfold cp_fits, real. pose proof (padded_ge (length m)). lia. Qed.
Lemma rf_cp_encrypt k iv a m : cp_fits a m -> refines (cp_encrypt k iv a m) (rcp_encrypt k iv a m).
Proof.
  intros H. unfold cp_encrypt, rcp_encrypt. apply refines_bind; [apply rf_block|intros kb _].
  apply refines_bind; [now apply rf_from_sub_range|intros mk _].
  apply refines_bind; [apply rf_chacha; now apply cp_fits_real in H|intros c E].
  apply chacha_len in E.
  apply refines_bind; [apply rf_pad; rewrite E; exact H|intros p _].
  apply refines_bind; [apply rf_poly|intros; apply refines_refl].
Qed.
Lemma rf_cp_decrypt k iv a c t : cp_fits a c -> refines (cp_decrypt k iv a c t) (rcp_decrypt k iv a c t).
Proof.
  intros H. unfold cp_decrypt, rcp_decrypt. apply refines_bind; [apply rf_block|intros kb _].
  apply refines_bind; [now apply rf_from_sub_range|intros mk _].
  apply refines_bind; [apply rf_pad; exact H|intros p _].
  apply refines_bind; [apply rf_poly|intros mt _]. destruct (list_eqb mt t); [|apply refines_refl].
  apply refines_bind; [apply rf_chacha; now apply cp_fits_real in H|intros; apply refines_refl].
Qed.

(** ** AES, GF(2^128), AES-GCM *)
Lemma rf_xtime x : refines (xtime x) (rxtime x).
Proof. unfold xtime, rxtime. cbv zeta. repeat rfs lib. Qed.
Lemma rf_mix_column c s : refines (mix_column c s) (rmix_column c s).
Proof. unfold mix_column, rmix_column. cbv zeta. repeat rfs ltac:(apply rf_xtime). Qed.
Lemma rf_mix_columns s : refines (mix_columns s) (rmix_columns s).
Proof. unfold mix_columns, rmix_columns. repeat rfs ltac:(apply rf_mix_column). Qed.
Lemma rf_aes_enc s k : refines (aes_enc s k) (raes_enc s k).
Proof. unfold aes_enc, raes_enc. repeat rfs ltac:(apply rf_mix_columns). Qed.
Lemma rf_rounds s k : real k -> refines (rounds_aes s k) (rrounds_aes s k).
Proof.
  intros R. unfold rounds_aes, rrounds_aes. apply refines_bind; [apply refines_refl|intros n _]. apply refines_for. intros i o.
  apply refines_bind; [apply ref_get_chunk; [exact R|reflexivity]|intros [l kb] _].
  apply refines_bind; [apply rf_from_seq|intros; apply rf_aes_enc].
Qed.
Lemma from_sub_range_len {A} (d : A) v a b r : from_sub_range d v a b = Ok r -> (length r <= length v)%nat.
Proof.
  unfold from_sub_range. intros E. ok_inv E. pose proof (from_sub_bound d _ _ _ _ E) as B.
  unfold from_sub in E. apply update_sub_len in E. rewrite seq_new_length in E. lia.
Qed.
Lemma rf_block_cipher i k nr : real k -> refines (block_cipher_aes i k nr) (rblock_cipher_aes i k nr).
Proof.
  intros R. unfold block_cipher_aes, rblock_cipher_aes.
  apply refines_bind; [now apply rf_from_sub_range|intros k0 _].
  destruct (Z_lt_le_dec (Z.of_nat (nr * 16)) (2 ^ 64)) as [S|S].
  - rewrite uwrap_small by exact S.
    apply refines_bind; [now apply rf_from_range|intros ks E]. apply from_sub_range_len in E.
    apply refines_bind; [apply rf_from_sub|intros kn _]. apply refines_bind; [apply refines_refl|intros st _].
    apply refines_bind; [apply rf_rounds; unfold real in *; lia|intros; apply refines_refl].
  - intros v E. ok_inv E. exfalso.
    match goal with H : from_sub_range _ _ _ _ = Ok _ |- _ => unfold from_sub_range in H; ok_inv H;
      pose proof (from_sub_bound 0 _ _ _ _ H) end.
    match goal with H : usub _ _ = Ok _ |- _ => unfold usub in H; destruct (Nat.leb_spec 16 (nr * 16)); [apply Ok_inj in H|discriminate H] end.
    unfold real in R. lia.
Qed.
Lemma rf_key_word w0 w1 i nk nr : Z.of_nat (4 * (nr + 1)) < 2 ^ 64 ->
  refines (key_expansion_word w0 w1 i nk nr) (rkey_expansion_word w0 w1 i nk nr).
Proof.
  intros H. unfold key_expansion_word, rkey_expansion_word.
  rewrite (uwrap_small (nr + 1)), uwrap_small by lia. apply refines_refl.
Qed.
Lemma rf_key_exp k nk nr alg : Z.of_nat (4 * (nr + 1)) < 2 ^ 64 ->
  refines (key_expansion_aes k nk nr alg) (rkey_expansion_aes k nk nr alg).
Proof.
  intros H. unfold key_expansion_aes, rkey_expansion_aes. cbv zeta.
  apply refines_bind; [apply rf_upd_start|intros kx _].
  set (w := (match alg with Aes128 => 4 | Aes256 => 8 end)%nat).
  set (n := (match alg with Aes128 => 40 | Aes256 => 52 end)%nat).
  assert (Hw : (4 <= w <= 8)%nat) by (unfold w; destruct alg; lia).
  assert (Hn : (n <= 52)%nat) by (unfold n; destruct alg; lia).
  match goal with |- refines (for_range _ _ ?f _) (for_range _ _ ?g _) =>
    assert (G : forall m k s, (k + m <= 52)%nat -> refines (for_range k m f s) (for_range k m g s)); [|apply G; lia] end.
  induction m as [|m IH]; intros j s Hj; [apply refines_refl|]. cbn [for_range]. apply refines_bind; [|intros; apply IH; lia].
  unfold usub. rewrite !(proj2 (Nat.leb_le _ _)) by lia. cbn [bind].
  rewrite !rusub_small by lia.
  apply refines_bind; [apply rf_from_sub|intros w0 _]. apply refines_bind; [apply rf_from_sub|intros w1 _].
  apply refines_bind; [now apply rf_key_word|intros; apply rf_upd].
Qed.
Lemma key_exp_len k nk nr alg r : key_expansion_aes k nk nr alg = Ok r -> (length r <= 240)%nat.
Proof.
  unfold key_expansion_aes. cbv zeta. intros E. ok_inv E. apply update_sub_len in F. rewrite seq_new_length in F.
  match type of F with length ?a = _ => enough (length r = length a) by (destruct alg; lia);
    apply (for_keeps (fun s : list Z => length s = length a)) in E; [exact E| |reflexivity] end.
  intros i s s' L X. ok_inv X. apply update_sub_len in X. congruence.
Qed.
Lemma block_cipher_nr i k nr r : block_cipher_aes i k nr = Ok r -> (16 * nr <= length k)%nat.
Proof.
  unfold block_cipher_aes. intros E. ok_inv E.
  match goal with H : from_sub_range _ _ _ _ = Ok _ |- _ => unfold from_sub_range in H; ok_inv H;
    pose proof (from_sub_bound 0 _ _ _ _ H) end.
  match goal with H : usub _ _ = Ok _ |- _ => unfold usub in H; destruct (Nat.leb_spec 16 (nr * 16)); [apply Ok_inj in H|discriminate H] end.
  lia.
Qed.
Lemma rf_encrypt_block k i nk nr alg : refines (aes_encrypt_block k i nk nr alg) (raes_encrypt_block k i nk nr alg).
Proof.
  unfold aes_encrypt_block, raes_encrypt_block.
  destruct (Z_lt_le_dec (Z.of_nat (4 * (nr + 1))) (2 ^ 64)) as [S|S].
  - apply refines_bind; [now apply rf_key_exp|intros kx E]. apply key_exp_len in E. apply rf_block_cipher. unfold real. lia.
  - intros v E. ok_inv E. apply key_exp_len in F. apply block_cipher_nr in E. lia.
Qed.
Lemma rf_encrypt_block128 k i nk nr : refines (aes128_encrypt_block k i nk nr) (raes128_encrypt_block k i nk nr).
Proof. unfold aes128_encrypt_block, raes128_encrypt_block. apply refines_bind; [apply refines_refl|intros; apply rf_encrypt_block]. Qed.
Lemma rf_encrypt_block256 k i nk nr : refines (aes256_encrypt_block k i nk nr) (raes256_encrypt_block k i nk nr).
Proof. unfold aes256_encrypt_block, raes256_encrypt_block. apply refines_bind; [apply refines_refl|intros; apply rf_encrypt_block]. Qed.
Lemma rf_keyblock k n c nk nr alg : refines (aes_ctr_keyblock k n c nk nr alg) (raes_ctr_keyblock k n c nk nr alg).
Proof.
  unfold aes_ctr_keyblock, raes_ctr_keyblock. cbv zeta. apply refines_bind; [apply rf_upd|intros i _].
  apply refines_bind; [apply rf_be|intros cb _]. apply refines_bind; [apply rf_upd|intros; apply rf_encrypt_block].
Qed.
Lemma xor_block_len b k r : xor_block b k = Ok r -> length r = length b.
Proof.
  unfold xor_block. apply (for_keeps (fun s : list Z => length s = length b)); [|reflexivity].
  intros i s s' L E. ok_inv E. apply upd_keeps in E. congruence.
Qed.
Lemma ctr_keeps key nonce msg nk nr alg i (s s' : list Z * Z) : length (fst s) = length msg ->
  (let '(blocks_out, ctr) := s in
      let* ' (block_len, msg_block) := get_chunk 0 msg 16 i in
      let* key_block := aes_ctr_keyblock key nonce ctr nk nr alg in
      if (length msg_block =? 16)%nat then
        let* b := arr_from_seq 0 16 msg_block in
        let* x := xor_block b key_block in
        let* blocks_out := set_chunk blocks_out 16 i x in
        let* ctr := op_add U32 ctr 1 in
        Ok (blocks_out, ctr)
      else
        let* last_block := update_start (seq_new 0 16) msg_block in
        let* x := xor_block last_block key_block in
        let* x := subr 0 x 0 block_len in
        let* blocks_out := set_chunk blocks_out 16 i x in
        Ok (blocks_out, ctr)) = Ok s' -> length (fst s') = length msg.
Proof.
  destruct s as [o c]. cbn [fst]. intros L E. ok_inv E; apply Ok_inj in E; subst s'; cbn [fst];
    match goal with H : set_chunk _ _ _ _ = Ok _ |- _ => apply set_chunk_len in H; congruence end.
Qed.
Lemma rf_ctr key nonce c msg nk nr alg : real msg ->
  refines (aes_counter_mode key nonce c msg nk nr alg) (raes_counter_mode key nonce c msg nk nr alg).
Proof.
  intros R. unfold aes_counter_mode, raes_counter_mode. apply refines_bind; [apply refines_refl|intros n _].
  apply refines_bind; [|intros [o ct] _; apply refines_refl].
  apply (refines_for_I (fun s => length (fst s) = length msg)); [|intros i s s'; apply ctr_keeps|apply seq_new_length].
  intros i [o ct] L. cbn [fst] in L.
  apply refines_bind; [apply ref_get_chunk; [exact R|reflexivity]|]. intros [bl mb] _.
  apply refines_bind; [apply rf_keyblock|intros kb _]. destruct (_ =? _)%nat.
  - apply refines_bind; [apply rf_from_seq|intros b _]. apply refines_bind; [apply refines_refl|intros x _].
    apply refines_bind; [apply ref_set_chunk; [rewrite L; exact R|reflexivity]|intros; apply refines_refl].
  - apply refines_bind; [apply rf_upd_start|intros b B]. apply refines_bind; [apply refines_refl|intros x X].
    apply update_sub_len in B. apply xor_block_len in X. rewrite seq_new_length in B.
    apply refines_bind; [apply ref_subr; rewrite X, B; reflexivity|intros y _].
    apply refines_bind; [apply ref_set_chunk; [rewrite L; exact R|reflexivity]|intros; apply refines_refl].
Qed.
Lemma ctr_len key nonce c msg nk nr alg r : aes_counter_mode key nonce c msg nk nr alg = Ok r -> length r = length msg.
Proof.
  unfold aes_counter_mode. intros E. ok_inv E. apply Ok_inj in E. subst r.
  match goal with H : for_range _ _ _ _ = Ok _ |- _ => apply (for_keeps (fun s => length (fst s) = length msg)) in H end;
    [assumption|intros i s s'; apply ctr_keeps|apply seq_new_length].
Qed.
Lemma rf_fmul x y : refines (fmul x y) (rfmul x y).
Proof.
  unfold fmul, rfmul. apply refines_bind; [|intros [r s] _; apply refines_refl].
  assert (G : forall m k s, (k + m <= 128)%nat -> refines
    (for_range k m (fun i '(res, sh) =>
      let* m := op_shl U128 1 (127 - Z.of_nat i) in
      let res := if negb (declassify (op_and y m) =? declassify 0) then op_xor res sh else res in
      let* s1 := op_shr U128 sh 1 in
      let sh := if negb (declassify (op_and sh 1) =? declassify 0) then op_xor s1 IRRED else s1 in
      Ok (res, sh)) s)
    (for_range k m (fun i '(res, sh) =>
      let* m := rshl U128 1 (127 - Z.of_nat i) in
      let res := if negb (declassify (op_and y m) =? declassify 0) then op_xor res sh else res in
      let* s1 := rshr U128 sh 1 in
      let sh := if negb (declassify (op_and sh 1) =? declassify 0) then op_xor s1 IRRED else s1 in
      Ok (res, sh)) s)); [|apply G; lia].
  induction m as [|m IH]; intros j [r s] Hj; [apply refines_refl|]. cbn [for_range]. apply refines_bind; [|intros; apply IH; lia].
  apply refines_bind; [apply rf_shl; lia|intros z _]. cbv zeta.
  apply refines_bind; [apply rf_shr; lia|intros; apply refines_refl].
Qed.
Lemma rf_gf_encode b : refines (gf_encode b) (rgf_encode b).
Proof. unfold gf_encode, rgf_encode. apply refines_bind; [apply rf_from_seq|intros; apply refines_refl]. Qed.
Lemma rf_gf_decode e : refines (gf_decode e) (rgf_decode e).
Proof. unfold gf_decode, rgf_decode. apply refines_bind; [apply rf_be|intros; apply rf_from_seq]. Qed.
Lemma rf_gf_update r b a : refines (gf_update r b a) (rgf_update r b a).
Proof. unfold gf_update, rgf_update. apply refines_bind; [apply rf_gf_encode|intros; apply rf_fmul]. Qed.
Lemma rf_gf_poly m r : real m -> refines (gf_poly m r) (rgf_poly m r).
Proof.
  intros R. unfold gf_poly, rgf_poly. cbv zeta. apply refines_bind.
  - apply refines_for. intros i s. apply refines_bind; [now apply ref_subr|intros x _].
    apply refines_bind; [apply rf_upd_start|intros; apply rf_gf_update].
  - intros a _. destruct (negb _); [|apply refines_refl].
    apply refines_bind; [apply ref_update_sub|intros; apply rf_gf_update].
Qed.
Lemma rf_gmac t k : real t -> refines (gmac t k) (rgmac t k).
Proof.
  intros R. unfold gmac, rgmac. cbv zeta. apply refines_bind; [apply rf_from_seq|intros kb _].
  apply refines_bind; [apply rf_gf_encode|intros r _]. apply refines_bind; [now apply rf_gf_poly|intros a _].
  apply refines_bind; [apply rf_gf_encode|intros se _]. apply refines_bind; [apply rf_gf_decode|intros; apply rf_from_seq].
Qed.
(** what fits in memory together with its padding *)
Definition gcm_fits (aad msg : list Z) : Prop :=
  Z.of_nat (gcm_padded_len (length aad) + gcm_padded_len (length msg) + 16) < 2 ^ 63.
Lemma gcm_fits_real a m : gcm_fits a m -> real m.
Proof.
  unfold gcm_fits, real, gcm_padded_len. do 2 destruct (_ =? _)%nat; lia.
Qed.
Lemma rf_gcm_pad a m : gcm_fits a m -> refines (gcm_pad_aad_msg a m) (rgcm_pad_aad_msg a m).
Proof. intros H. unfold gcm_pad_aad_msg, rgcm_pad_aad_msg. cbv zeta. rewrite ref_alloc by exact H. cbn [bind]. repeat rfs lib. Qed.
Lemma gcm_pad_len a m p : gcm_pad_aad_msg a m = Ok p ->
  length p = (gcm_padded_len (length a) + gcm_padded_len (length m) + 16)%nat.
Proof.
  unfold gcm_pad_aad_msg. cbv zeta. intros E. ok_inv E.
  repeat match goal with H : update _ _ _ = Ok _ |- _ => apply update_sub_len in H end.
  rewrite seq_new_length in *. congruence.
Qed.
Lemma gcm_fits_pad a m p : gcm_fits a m -> gcm_pad_aad_msg a m = Ok p -> real p.
Proof. intros H E. apply gcm_pad_len in E. unfold real. rewrite E. exact H. Qed.
Lemma rf_gcm_encrypt k iv a m alg : gcm_fits a m -> refines (gcm_encrypt k iv a m alg) (rgcm_encrypt k iv a m alg).
Proof.
  intros H. unfold gcm_encrypt, rgcm_encrypt. cbv zeta. apply refines_bind; [apply rf_keyblock|intros mk _].
  apply refines_bind; [apply rf_keyblock|intros tm _].
  apply refines_bind; [apply rf_ctr; now apply gcm_fits_real in H|intros c E]. apply ctr_len in E.
  assert (H' : gcm_fits a c) by (unfold gcm_fits; rewrite E; exact H).
  apply refines_bind; [now apply rf_gcm_pad|intros p P]. apply gcm_fits_pad in P; [|exact H'].
  apply refines_bind; [apply rf_from_seq|intros gk _]. apply refines_bind; [now apply rf_gmac|intros t _].
  apply refines_bind; [apply rf_from_seq|intros tb _]. apply refines_bind; [apply refines_refl|intros t' _].
  apply refines_bind; [apply rf_from_seq|intros; apply refines_refl].
Qed.
Lemma rf_gcm_decrypt k iv a c t alg : gcm_fits a c -> refines (gcm_decrypt k iv a c t alg) (rgcm_decrypt k iv a c t alg).
Proof.
  intros H. unfold gcm_decrypt, rgcm_decrypt. cbv zeta. apply refines_bind; [apply rf_keyblock|intros mk _].
  apply refines_bind; [apply rf_keyblock|intros tm _].
  apply refines_bind; [now apply rf_gcm_pad|intros p P]. apply gcm_fits_pad in P; [|exact H].
  apply refines_bind; [apply rf_from_seq|intros gk _]. apply refines_bind; [now apply rf_gmac|intros mt _].
  apply refines_bind; [apply rf_from_seq|intros tb _]. apply refines_bind; [apply refines_refl|intros mt' _].
  apply refines_bind; [apply rf_from_seq|intros t' _]. destruct (list_eqb _ _); [|apply refines_refl].
  apply refines_bind; [apply rf_ctr; now apply gcm_fits_real in H|intros; apply refines_refl].
Qed.

(** ** SHA-3 and SHAKE *)
Lemma rf_absorb s b : refines (absorb_block s b) (rabsorb_block s b).
Proof. unfold absorb_block, rabsorb_block. cbv zeta. repeat rfs lib. Qed.
Lemma rf_squeeze s n rate : Z.of_nat n < 2 ^ 63 -> refines (squeeze s n rate) (rsqueeze s n rate).
Proof.
  intros H. unfold squeeze, rsqueeze. cbv zeta. rewrite ref_alloc by exact H. cbn [bind]. repeat rfs lib.
Qed.
Lemma rf_keccak rate data p n : (0 < rate)%nat -> Z.of_nat rate < 2 ^ 64 -> real data -> Z.of_nat n < 2 ^ 63 ->
  refines (keccak rate data p n) (rkeccak rate data p n).
Proof.
  intros H0 H R Hn. unfold keccak, rkeccak. cbv zeta. apply refines_bind; [apply refines_refl|intros c _]. apply refines_bind.
  - apply refines_for. intros i [[s b] l]. apply refines_bind; [now apply ref_get_chunk|]. intros [bl bk] _.
    destruct (_ =? _)%nat; [apply refines_bind; [apply rf_absorb|intros; apply refines_refl]|].
    apply refines_bind; [apply rf_upd_start|intros; apply refines_refl].
  - intros [[s b] l] _. apply refines_bind; [apply refines_refl|intros b' _].
    unfold usub. rewrite (proj2 (Nat.leb_le 1 rate)) by lia. cbn [bind]. rewrite rusub_small by lia.
    apply refines_bind; [apply refines_refl|intros x _]. apply refines_bind; [apply refines_refl|intros b2 _].
    apply refines_bind; [apply rf_absorb|intros; now apply rf_squeeze].
Qed.

(** ** BLAKE2 *)
Lemma rf_mix t v a b c d x y : 0 < bits t -> refines (mix t v a b c d x y) (rmix t v a b c d x y).
Proof. intros H. unfold mix, rmix. repeat rfs ltac:(apply rf_rotr; [exact H|lia]). Qed.
Lemma rf_make_array t h : real h -> Z.of_nat (bytes_of t) < 2 ^ 64 -> refines (make_array t h) (rmake_array t h).
Proof.
  intros R H. unfold make_array, rmake_array. apply refines_bind; [apply refines_refl|intros _ _]. apply refines_for. intros i s.
  apply refines_bind; [now apply ref_get_chunk|intros [l c] _]. apply refines_bind; [apply rf_from_seq|intros; apply refines_refl].
Qed.
Lemma rf_mix_call t m i k v a b c d : 0 < bits t -> refines (mix_call t m i k v a b c d) (rmix_call t m i k v a b c d).
Proof. intros H. unfold mix_call, rmix_call. repeat rfs ltac:(now apply rf_mix). Qed.
Lemma rf_round t m i v : 0 < bits t -> refines (compress_round t m i v) (rcompress_round t m i v).
Proof. intros H. unfold compress_round, rcompress_round. repeat rfs ltac:(now apply rf_mix_call). Qed.
Lemma rf_compress t h m c l alg : 0 < bits t -> real m -> Z.of_nat (bytes_of t) < 2 ^ 64 ->
  refines (compress t h m c l alg) (rcompress t h m c l alg).
Proof.
  intros H R B. unfold compress, rcompress. cbv zeta. apply refines_bind; [now apply rf_make_array|intros ma _].
  repeat rfs ltac:(first [apply ref_update_sub | now apply rf_round]).
Qed.
Lemma rf_blake_byte t x i : 0 < bits t -> refines (blake_get_byte t x i) (rblake_get_byte t x i).
Proof.
  intros H. unfold blake_get_byte, rblake_get_byte. cbv zeta.
  apply (refines_Ok_l _ (rget_byte t x (Z.of_nat i)) _ (fun b => let* bs := rword_to_le_bytes t b in idx bs 0)).
  - apply ref_get_byte; [exact H|lia].
  - intros b. apply refines_bind; [apply rf_le|intros; apply refines_refl].
Qed.
Lemma rf_inc pt c x : 0 < bits pt -> refines (inc_counter pt c x) (rinc_counter pt c x).
Proof.
  intros H. unfold inc_counter, rinc_counter. cbv zeta. apply refines_bind; [apply refines_refl|intros t0 _].
  apply (refines_Ok_l _ (rop_add pt t0 x) _ (fun nv => let* result := upd (seq_new 0 2) 0 nv in
    if num_less_than nv x then let* t1 := idx c 1 in upd result 1 (rop_add pt t1 1) else Ok result)).
  - now apply ref_add.
  - intros nv. apply refines_bind; [apply refines_refl|intros r _]. destruct (num_less_than _ _); [|apply refines_refl].
    apply refines_bind; [apply refines_refl|intros t1 _].
    apply (refines_Ok_l _ (rop_add pt t1 1) _ (fun s => upd r 1 s)); [now apply ref_add|intros; apply refines_refl].
Qed.
Lemma rf_blake2 t data alg : 0 < bits t -> Z.of_nat (bytes_of t) < 2 ^ 64 -> real data ->
  refines (blake2 t data alg) (rblake2 t data alg).
Proof.
  intros H B R. unfold blake2, rblake2. cbv zeta.
  assert (P : 0 < bits (public_version t)) by (unfold public_version; destruct (_ =? _); reflexivity).
  apply refines_bind; [apply refines_refl|intros h0 _]. apply refines_bind; [apply refines_refl|intros h _].
  apply refines_bind; [apply refines_refl|intros n _]. apply refines_bind.
  - apply refines_for. intros i [h1 c]. apply refines_bind; [apply ref_get_chunk; [exact R|reflexivity]|]. intros [bl bk] G.
    destruct (_ =? _)%nat.
    + apply refines_bind; [now apply rf_inc|intros c' _]. apply refines_bind; [apply refines_refl|intros b E].
      rewrite seq_from_seq_Ok in E. apply Ok_inj in E. subst b.
      apply refines_bind; [|intros; apply refines_refl]. apply rf_compress; trivial.
      unfold get_chunk in G. cbv zeta in G. ok_inv G. apply Ok_inj in G. injection G as <- <-.
      match goal with H : sub_ _ _ _ _ = Ok _ |- _ => pose proof (from_sub_bound 0 _ _ _ _ H); unfold sub_, from_sub in H;
        apply update_sub_len in H; rewrite seq_new_length in H end. unfold real in *. lia.
    + apply refines_bind; [now apply rf_inc|intros c' _]. apply refines_bind; [apply rf_upd_start|intros b E].
      apply refines_bind; [|intros; apply refines_refl]. apply rf_compress; trivial.
      apply update_sub_len in E. rewrite seq_new_length in E. unfold real. rewrite E. reflexivity.
  - intros [h1 c] _. apply refines_for. intros i s. apply refines_for. intros j s'.
    apply refines_bind; [apply refines_refl|intros hi _]. apply refines_bind; [now apply rf_blake_byte|intros; apply refines_refl].
Qed.

(** ** X25519 *)
Lemma rf_encode_point p : refines (encode_point p) (rencode_point p).
Proof. unfold encode_point, rencode_point. destruct p as [x y]. repeat rfs lib. Qed.
Lemma rf_ladder k i : refines (x_montgomery_ladder k i) (rx_montgomery_ladder k i).
Proof.
  unfold x_montgomery_ladder, rx_montgomery_ladder. apply refines_bind; [apply refines_refl|intros one _].
  apply refines_bind; [apply refines_refl|intros z _]. apply refines_bind; [|intros; apply refines_refl].
  assert (G : forall m j s, (j + m <= 256)%nat ->
    refines (for_range j m (x_ladder_step k i) s) (for_range j m (rx_ladder_step k i) s)); [|apply G; lia].
  induction m as [|m IH]; intros j s Hj; [apply refines_refl|]. cbn [for_range]. apply refines_bind; [|intros; apply IH; lia].
  unfold x_ladder_step, rx_ladder_step, usub. rewrite (proj2 (Nat.leb_le j 255)) by lia. cbn [bind].
  rewrite rusub_small by lia. apply refines_refl.
Qed.
Lemma rf_scalarmult s p : refines (scalarmult s p) (rscalarmult s p).
Proof.
  unfold scalarmult, rscalarmult. apply refines_bind; [apply refines_refl|intros k _].
  apply refines_bind; [apply refines_refl|intros q _]. apply refines_bind; [apply rf_ladder|intros; apply rf_encode_point].
Qed.
