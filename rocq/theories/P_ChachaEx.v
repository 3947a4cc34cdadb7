(** Lemmas about M_ChachaEx.v *)
From Coq Require Import ZArith List Bool Arith Lia.
From Verif Require Import Base P_Base M_Int P_Int M_Seq M_Bytes M_Vec P_Seq P_Bytes P_Vec
  P_Word P_Stream M_BigInt M_NatMod M_ChaCha S_ChaCha P_ChaCha M_ChachaEx.
Import ListNotations.
Open Scope Z_scope.

Lemma copy_range_Ok dst a b src : (a <= b <= length dst)%nat -> length src = (b - a)%nat ->
  copy_range dst a b src = Ok (firstn a dst ++ src ++ skipn b dst).
Proof.
  intros H1 H2. unfold copy_range.
  replace (a <=? b)%nat with true by (symmetry; apply Nat.leb_le; lia).
  replace (b <=? length dst)%nat with true by (symmetry; apply Nat.leb_le; lia). cbn [andb negb].
  rewrite H2, Nat.eqb_refl. reflexivity.
Qed.
Lemma copy_range_panic dst a b src : length src <> (b - a)%nat -> panics (copy_range dst a b src).
Proof.
  intros H. unfold copy_range. destruct (negb _); [eexists; reflexivity|].
  replace (length src =? b - a)%nat with false by (symmetry; now apply Nat.eqb_neq).
  eexists; reflexivity.
Qed.
Lemma ceil_step k n : (0 < k)%nat -> (0 < n)%nat -> ((n + k - 1) / k = S ((n - k + k - 1) / k))%nat.
Proof.
  intros Hk Hn. destruct (Nat.le_gt_cases k n) as [C|C].
  - replace (n + k - 1)%nat with (n - k + k - 1 + 1 * k)%nat by lia. rewrite Nat.div_add by lia. lia.
  - replace (n - k + k - 1)%nat with (k - 1)%nat by lia. rewrite (Nat.div_small (k - 1)) by lia.
    symmetry. apply (Nat.div_unique _ _ _ (n - 1)); lia.
Qed.
Lemma skipn_skipn_ {A} a b (l : list A) : skipn a (skipn b l) = skipn (b + a) l.
Proof. apply nth_error_ext. intros i. rewrite !nth_error_skipn. f_equal. lia. Qed.
Lemma chunks_eq {A} k (l : list A) : (0 < k)%nat ->
  chunks k l = map (fun i => firstn k (skipn (k * i) l)) (seq 0 ((length l + k - 1) / k)).
Proof.
  intros Hk. remember (length l) as n eqn:E. revert l E.
  induction n as [n IH] using (well_founded_induction lt_wf). intros l E.
  destruct l as [|x l].
  - cbn [length] in E. subst n. rewrite Nat.div_small by lia. reflexivity.
  - rewrite chunks_unfold by (auto; discriminate).
    rewrite (ceil_step k n) by (subst n; cbn [length]; lia). cbn [seq map].
    rewrite Nat.mul_0_r. cbn [skipn]. f_equal.
    rewrite (IH (n - k)%nat); [|subst n; cbn [length]; lia|subst n; now rewrite skipn_length].
    rewrite <- seq_shift, map_map. apply map_ext. intros i. rewrite skipn_skipn_. do 2 f_equal. lia.
Qed.

Lemma from_le_words bs : Forall byte bs -> (length bs mod 4 = 0)%nat ->
  from_le_bytes U32 bs = Ok (map (word_at bs) (seq 0 (length bs / 4))).
Proof.
  intros Hb Hm. unfold from_le_bytes. change (bytes_of U32) with 4%nat.
  rewrite assert_true by (now rewrite Hm). cbn [bind]. rewrite chunks_eq by lia.
  pose proof (Nat.div_mod (length bs) 4 ltac:(lia)) as D. rewrite Hm, Nat.add_0_r in D.
  replace ((length bs + 4 - 1) / 4)%nat with (length bs / 4)%nat
    by (apply (Nat.div_unique _ _ _ 3); lia).
  set (n := (length bs / 4)%nat) in *.
  rewrite (mapM_pure _ (fun c => cast U32 (le_val c))).
  - rewrite map_map. apply (f_equal Ok), map_ext_in. intros i Hi. apply in_seq in Hi.
    rewrite firstn_skipn4 by lia. set (w := [_; _; _; _]).
    assert (Hw : is_bytes w) by (unfold w; repeat constructor; apply (Forall_nth_word byte); auto; lia).
    assert (A : aligned U32) by (apply rust_aligned; red; cbn; auto).
    rewrite cast_unsigned_le by (try assumption; reflexivity).
    unfold w, word_at. cbn [le_val]. 
    change (2 ^ 8) with 256. change (2 ^ 16) with 65536. change (2 ^ 24) with 16777216. ring.
  - intros c Hc. apply in_map_iff in Hc as (i & <- & Hi). apply in_seq in Hi.
    rewrite read_chunk_Ok; [reflexivity|]. rewrite firstn_length, skipn_length. lia.
Qed.

Lemma ex_init_Ok key ctr iv : bytes_n 32 key -> bytes_n 12 iv ->
  chacha20_init key ctr iv = Ok (init_list key ctr iv).
Proof.
  intros [K1 K2] [I1 I2]. unfold chacha20_init.
  rewrite !from_le_words by (try assumption; now rewrite ?K1, ?I1).
  rewrite K1, I1. reflexivity.
Qed.
Lemma add_loop st st0 : length st = 16%nat -> length st0 = 16%nat ->
  for_range 0 16 (fun i state => let* x := idx state i in let* y := idx st0 i in
      let* z := op_add U32 x y in upd state i z) st
    = Ok (map (fun i => add32 (nth i st 0) (nth i st0 0)) (seq 0 16)).
Proof.
  intros L0 L1.
  do 17 (destruct st as [|? st]; try discriminate). do 17 (destruct st0 as [|? st0]; try discriminate).
  reflexivity.
Qed.
Lemma ex_double_round_eq m : ex_double_round m = double_round m.
Proof. reflexivity. Qed.
Lemma for_range_ext {S} (f g : nat -> S -> res S) a n s : (forall i x, f i x = g i x) ->
  for_range a n f s = for_range a n g s.
Proof.
  intros H. revert a s. induction n as [|n IH]; intros a s; cbn [for_range]; [reflexivity|].
  rewrite H. destruct (g a s); cbn [bind]; [apply IH|reflexivity].
Qed.
Lemma ex_step {A B} (x : res A) (f : A -> res B) (a : A) (r : res B) : x = Ok a -> f a = r -> bind x f = r.
Proof. now intros -> <-. Qed.
Lemma ex_step_inv {A B} (x : res A) (f : A -> res B) (a : A) (r : res B) : x = Ok a -> bind x f = r -> f a = r.
Proof. now intros -> <-. Qed.
Lemma ex_core_Ok key ctr iv : bytes_n 32 key -> bytes_n 12 iv -> word32 ctr ->
  chacha20_core (init_list key ctr iv) = Ok (map (rfc_block_word key ctr iv) (seq 0 16)).
Proof.
  intros Hk Hi Hc. pose proof (block_inner_Ok key ctr iv Hk Hi Hc) as B. unfold block_inner in B.
  destruct (block_init_Ok key ctr iv Hk Hi Hc) as [E H].
  apply (ex_step_inv _ _ _ _ E) in B. cbv beta in B.
  destruct (rounds_Ok 10 _ H) as [E' H'].
  apply (ex_step_inv _ _ _ _ E') in B. cbv beta in B.
  unfold chacha20_core. rewrite <- (for_range_ext _ _ 0 10 _ (fun _ => ex_double_round_eq)) in E'.
  eapply ex_step; [exact E'|cbv beta]. clear E E'.
  set (st := of_matrix _) in *. set (st0 := init_list key ctr iv) in *.
  destruct H as [L0 _]. destruct H' as [L1 _]. clearbody st st0.
  rewrite add_loop in B by assumption. rewrite add_loop by assumption. rewrite <- B.
  apply (f_equal Ok), map_ext. intros i.
  unfold add32. now rewrite Z.add_comm.
Qed.
Lemma ex_block_Ok key ctr iv : bytes_n 32 key -> bytes_n 12 iv -> word32 ctr ->
  chacha20_block key ctr iv = Ok (rfc_block key ctr iv).
Proof.
  intros Hk Hi Hc. unfold chacha20_block, chacha20. rewrite ex_init_Ok by assumption. cbn [bind].
  rewrite ex_core_Ok by assumption. cbn [bind].
  set (st := map _ _).
  assert (L : length st = 16%nat) by (unfold st; now rewrite map_length, seq_length).
  assert (F : Forall (fun l => length l = 4%nat) (map (le_bytes 4) st)).
  { apply Forall_forall. intros l Hl. apply in_map_iff in Hl as (x & <- & _). apply le_bytes_length. }
  assert (EQ : to_le_bytes U32 st = rfc_block key ctr iv).
  { unfold to_le_bytes. change (bytes_of U32) with 4%nat. rewrite flat_map_concat_map.
    apply (nth_ext_eq _ _ 0).
    - rewrite (concat_length_const 4) by assumption. now rewrite map_length, L, rfc_block_length.
    - intros j Hj. rewrite (concat_length_const 4), map_length, L in Hj by assumption.
      rewrite nth_rfc_block by lia. unfold rfc_block_byte.
      pose proof (Nat.div_mod j 4 ltac:(lia)) as D.
      pose proof (Nat.mod_upper_bound j 4 ltac:(lia)) as M.
      assert (Q : (j / 4 < 16)%nat) by (apply Nat.div_lt_upper_bound; lia).
      rewrite D at 1. rewrite nth_concat_const; [|assumption|rewrite map_length, L; exact Q|exact M].
      rewrite (nth_indep _ [] (le_bytes 4 0)) by (rewrite map_length, L; exact Q).
      rewrite map_nth, nth_le_bytes by exact M.
      unfold st. rewrite nth_map_seq by exact Q.
      change 256 with (2 ^ 8) at 1. rewrite <- Z.pow_mul_r by lia. reflexivity. }
  rewrite EQ. rewrite copy_range_Ok; [|split; [lia|]; unfold ex_block_size; now rewrite repeat_length|apply rfc_block_length].
  change (firstn 0 (repeat (classify 0) ex_block_size)) with (@nil Z). rewrite app_nil_l.
  rewrite skipn_all2 by (now rewrite repeat_length). now rewrite app_nil_r.
Qed.

Lemma xor_block_Ok b kb : length b = 64%nat -> length kb = 64%nat ->
  xor_block b kb = Ok (zip_with Z.lxor b kb).
Proof.
  intros Lb Lk. unfold xor_block, ex_block_size.
  assert (E : for_range 0 64 (fun i v_out => let* x := idx b i in let* y := idx kb i in
     upd v_out i (op_xor x y)) (repeat 0 64) = Ok (zip_with Z.lxor b kb)).
  { destruct (for_range_inv (fun i v => length v = 64%nat /\ forall j, (j < i)%nat -> nth j v 0 = Z.lxor (nth j b 0) (nth j kb 0))
      (fun i v_out => let* x := idx b i in let* y := idx kb i in upd v_out i (op_xor x y)) 0 64 (repeat 0 64))
      as (v & E & Lv & H).
    - split; [apply repeat_length|lia].
    - intros i v Hi [Lv H]. eexists. split.
      + rewrite !(idx_Ok _ _ 0) by lia. cbn [bind]. apply upd_Ok. lia.
      + split; [now rewrite set_nth_length|]. intros j Hj. rewrite nth_set_nth, Lv.
        replace (i <? 64)%nat with true by (symmetry; apply Nat.ltb_lt; lia).
        destruct (Nat.eqb_spec j i) as [->|N]; cbn [andb]; [reflexivity|]. apply H. lia.
    - rewrite E. apply (f_equal Ok). apply (nth_ext_eq _ _ 0).
      + rewrite zip_with_length. lia.
      + intros j Hj. rewrite H by (cbn [Nat.add]; lia).
        now rewrite (nth_zip_with _ _ _ _ 0 0) by lia. }
  rewrite E. cbn [bind].
  assert (L : length (zip_with Z.lxor b kb) = 64%nat) by (rewrite zip_with_length; lia).
  rewrite copy_range_Ok; [|rewrite repeat_length; lia|lia].
  change (firstn 0 (repeat 0 64)) with (@nil Z). change (skipn 64 (repeat 0 64)) with (@nil Z).
  now rewrite app_nil_l, app_nil_r.
Qed.

Definition pad64 (c : list Z) : list Z := c ++ repeat 0 (64 - length c).
Lemma pad_block_Ok c : (length c <= 64)%nat -> pad_block c = Ok (pad64 c).
Proof.
  intros H. unfold pad_block, ex_block_size, zero_. rewrite copy_range_Ok; [|rewrite repeat_length; lia|lia].
  change (firstn 0 (repeat 0 64)) with (@nil Z). rewrite app_nil_l.
  rewrite skipn_repeat. reflexivity.
Qed.
Lemma pad64_length c : (length c <= 64)%nat -> length (pad64 c) = 64%nat.
Proof. intros. unfold pad64. rewrite app_length, repeat_length. lia. Qed.

Definition ctr_from (c0 : Z) (i : nat) : Z := (c0 + Z.of_nat i) mod 2 ^ 32.
Lemma ctr_from_word c0 i : word32 (ctr_from c0 i).
Proof. apply Z.mod_pos_bound. reflexivity. Qed.
#[local] Opaque rfc_block_word rfc_block.

Lemma nth_pad64 c j : nth j (pad64 c) 0 = nth j c 0.
Proof.
  unfold pad64. destruct (Nat.lt_ge_cases j (length c)) as [C|C].
  - now rewrite app_nth1.
  - rewrite app_nth2, nth_repeat by lia. now rewrite nth_overflow.
Qed.

Lemma counter_mode_Ok key c0 iv m : bytes_n 32 key -> bytes_n 12 iv -> word32 c0 -> m <> [] ->
  chacha20_counter_mode key c0 iv m = Ok (xor_ks 64 (fun i => rfc_block key (ctr_from c0 i) iv) m).
Proof.
  intros Hk Hi Hc Hm. unfold chacha20_counter_mode, ex_block_size.
  rewrite chunks_eq by lia. set (n := ((length m + 64 - 1) / 64)%nat).
  destruct (num_chunks_bounds (length m) 64 ltac:(lia)) as (Hn1 & Hn0 & Hn2). fold n in Hn1, Hn0, Hn2.
  assert (Hpos : (0 < length m)%nat) by (destruct m; [congruence|cbn; lia]).
  set (P := fun i => pad64 (firstn 64 (skipn (64 * i) m))).
  assert (LP : forall i, length (P i) = 64%nat).
  { intros i. apply pad64_length. rewrite firstn_length. lia. }
  rewrite (mapM_pure _ pad64).
  2:{ intros c Hc'. apply in_map_iff in Hc' as (i & <- & _). apply pad_block_Ok. rewrite firstn_length. lia. }
  cbn [bind]. rewrite map_map. fold P. change (fun x : nat => pad64 (firstn 64 (skipn (64 * x) m))) with P.
  rewrite !map_length, !seq_length, !usub_Ok by lia. cbn [bind].
  set (ks := fun i => rfc_block key (ctr_from c0 i) iv).
  set (X := fun i => zip_with Z.lxor (P i) (ks i)).
  set (bl := fun i => map X (seq 0 i) ++ map P (seq i (n - i))).
  assert (LX : forall i, length (X i) = 64%nat).
  { intros i. unfold X. rewrite zip_with_length, LP. unfold ks. rewrite rfc_block_length. lia. }
  assert (Lbl : forall i, (i <= n)%nat -> length (bl i) = n)
    by (intros; unfold bl; rewrite app_length, !map_length, !seq_length; lia).
  assert (Nbl : forall i, (i < n)%nat -> nth i (bl i) [] = P i).
  { intros i Hi'. unfold bl. rewrite app_nth2 by (rewrite map_length, seq_length; lia).
    rewrite map_length, seq_length, Nat.sub_diag. replace (n - i)%nat with (S (n - i - 1)) by lia. reflexivity. }
  assert (Ubl : forall i, (i < n)%nat -> set_nth (bl i) i (X i) = bl (S i)).
  { intros i Hi'. apply (nth_ext_eq _ _ []); rewrite set_nth_length, !Lbl by lia; [reflexivity|].
    intros j Hj. rewrite nth_set_nth, Lbl by lia.
    replace (i <? n)%nat with true by (symmetry; apply Nat.ltb_lt; lia). rewrite andb_true_r.
    assert (G : forall k, (k <= n)%nat -> nth j (bl k) [] = if (j <? k)%nat then X j else P j).
    { intros k Hk'. unfold bl. destruct (Nat.ltb_spec j k) as [C|C].
      - rewrite app_nth1 by (rewrite map_length, seq_length; lia).
        rewrite (nth_indep _ [] (X 0%nat)) by (rewrite map_length, seq_length; lia).
        rewrite map_nth, seq_nth by lia. reflexivity.
      - rewrite app_nth2 by (rewrite map_length, seq_length; lia).
        rewrite map_length, seq_length. 
        rewrite (nth_indep _ [] (P 0%nat)) by (rewrite map_length, seq_length; lia).
        rewrite map_nth, seq_nth by lia. f_equal. lia. }
    rewrite !G by lia. destruct (Nat.eqb_spec j i) as [->|N].
    - replace (i <? S i)%nat with true by (symmetry; apply Nat.ltb_lt; lia). reflexivity.
    - destruct (Nat.ltb_spec j i), (Nat.ltb_spec j (S i)); try reflexivity; lia. }
  assert (Lks : forall i, length (ks i) = 64%nat) by (intros; apply rfc_block_length).
  assert (EL : forall N, (N < n)%nat -> for_range 0 N (fun i '(blocks, ctr) =>
      let* key_block := chacha20_block key ctr iv in
      let* b := idx blocks i in
      let* x := xor_block b key_block in
      let* blocks := upd blocks i x in
      let* ctr := op_add U32 ctr one_ in
      Ok (blocks, ctr)) (map P (seq 0 n), c0) = Ok (bl N, ctr_from c0 N)).
  { intros N HN.
    destruct (for_range_inv (fun i (s : list (list Z) * Z) => s = (bl i, ctr_from c0 i)) (fun i '(blocks, ctr) =>
      let* key_block := chacha20_block key ctr iv in
      let* b := idx blocks i in
      let* x := xor_block b key_block in
      let* blocks := upd blocks i x in
      let* ctr := op_add U32 ctr one_ in
      Ok (blocks, ctr)) 0 N (map P (seq 0 n), c0)) as (s & E & ->).
    - unfold bl, ctr_from. cbn [seq map app]. rewrite Nat.sub_0_r, Z.add_0_r, Z.mod_small by exact Hc. reflexivity.
    - intros i s Hi' ->. eexists. split; [|reflexivity].
      rewrite ex_block_Ok by (auto using ctr_from_word). cbn [bind].
      rewrite (idx_Ok _ _ []) by (rewrite Lbl; lia). cbn [bind]. rewrite Nbl by lia.
      rewrite xor_block_Ok by (auto; apply Lks). cbn [bind].
      fold (ks i). fold (X i). rewrite upd_Ok by (rewrite Lbl; lia). cbn [bind].
      rewrite Ubl by lia. rewrite add32_op. cbn [bind]. do 2 f_equal.
      unfold add32, ctr_from, one_. rewrite Zplus_mod_idemp_l. f_equal. lia.
    - exact E. }
  rewrite EL by lia. clear EL. cbn [bind].
  rewrite (idx_Ok _ _ []) by (rewrite Lbl; lia). cbn [bind]. rewrite Nbl by lia.
  rewrite ex_block_Ok by (auto using ctr_from_word). cbn [bind].
  rewrite xor_block_Ok by (auto; apply Lks). cbn [bind].
  fold (ks (n - 1)%nat). fold (X (n - 1)%nat). rewrite upd_Ok by (rewrite Lbl; lia). cbn [bind].
  rewrite Ubl by lia. replace (S (n - 1)) with n by lia. apply (f_equal Ok).
  assert (EB : bl n = map X (seq 0 n)) by (unfold bl; rewrite Nat.sub_diag; apply app_nil_r).
  rewrite EB. 
  assert (F : Forall (fun l => length l = 64%nat) (map X (seq 0 n))).
  { apply Forall_forall. intros l Hl. apply in_map_iff in Hl as (i & <- & _). apply LX. }
  assert (LC : length (concat (map X (seq 0 n))) = (64 * n)%nat)
    by (rewrite (concat_length_const 64) by assumption; now rewrite map_length, seq_length).
  apply (nth_ext_eq _ _ 0).
  - rewrite firstn_length, LC, xor_ks_length. lia.
  - intros j Hj. rewrite firstn_length, LC in Hj. rewrite nth_xor_ks by lia.
    transitivity (nth j (concat (map X (seq 0 n))) 0).
    { rewrite <- (firstn_skipn (length m) (concat _)) at 2.
      rewrite app_nth1; [reflexivity|]. rewrite firstn_length, LC. lia. }
    pose proof (Nat.div_mod j 64 ltac:(lia)) as D.
    pose proof (Nat.mod_upper_bound j 64 ltac:(lia)) as M.
    assert (Q : (j / 64 < n)%nat) by (apply Nat.div_lt_upper_bound; lia).
    rewrite D at 1. rewrite nth_concat_const; [|assumption|rewrite map_length, seq_length; exact Q|exact M].
    rewrite (nth_indep _ [] (X 0%nat)) by (rewrite map_length, seq_length; exact Q).
    rewrite map_nth, seq_nth by exact Q. cbn [Nat.add]. unfold X.
    rewrite (nth_zip_with _ _ _ _ 0 0) by (rewrite ?LP, ?Lks; exact M). unfold ks. f_equal.
    unfold P. rewrite nth_pad64.
    set (q := (j / 64)%nat) in *. set (r := (j mod 64)%nat) in *.
    transitivity (nth r (skipn (64 * q) m) 0).
    + rewrite <- (firstn_skipn 64 (skipn (64 * q) m)) at 2.
      rewrite app_nth1; [reflexivity|]. rewrite firstn_length, skipn_length. lia.
    + rewrite D. rewrite <- (firstn_skipn (64 * q) m) at 2.
      rewrite app_nth2 by (rewrite firstn_length; lia). rewrite firstn_length. f_equal. lia.
Qed.

(** Panics: the empty message, and keys or nonces of the wrong length. *)
Lemma counter_mode_empty key c0 iv : chacha20_counter_mode key c0 iv [] = Panic POverflow.
Proof. reflexivity. Qed.
Lemma words_length bs : length bs <> 0%nat -> forall ws, from_le_bytes U32 bs = Ok ws -> (length bs = 4 * length ws)%nat.
Proof.
  intros _ ws H. destruct (Nat.eq_dec (length bs mod 4) 0) as [E|E].
  - rewrite from_le_bytes_alt in H.
    destruct (decode_ok_split le_val U32 bs ltac:(cbv; lia) E) as (ls & _ & _ & N & E').
    rewrite E' in H. injection H as <-. rewrite map_length, N. change (bytes_of U32) with 4%nat.
    pose proof (Nat.div_mod (length bs) 4 ltac:(lia)). lia.
  - rewrite from_le_bytes_alt, decode_panic in H; [discriminate|cbv; lia|exact E].
Qed.
Lemma ex_init_panic key ctr iv : length key <> 32%nat \/ length iv <> 12%nat -> panics (chacha20_init key ctr iv).
Proof.
  intros H. unfold chacha20_init. 
  change (copy_range (repeat (classify 0) 16) 0 4 (classify_u32s ex_constants))
    with (Ok (ex_constants ++ repeat 0 12)). cbn [bind].
  destruct (from_le_bytes U32 key) as [kw|p] eqn:Ek; [cbn [bind]|eexists; reflexivity].
  assert (Lk : length key = (4 * length kw)%nat).
  { destruct (Nat.eq_dec (length key) 0) as [E0|E0].
    - destruct key; [|discriminate]. injection Ek as <-. reflexivity.
    - now apply words_length. }
  destruct (Nat.eq_dec (length kw) 8) as [E8|N8].
  2:{ destruct (copy_range_panic (ex_constants ++ repeat 0 12) 4 12 kw) as [p ->]; [cbn; lia|].
      eexists; reflexivity. }
  rewrite copy_range_Ok by (cbn; lia). cbn [bind].
  rewrite upd_Ok by (rewrite !app_length, E8; cbn; lia). cbn [bind].
  destruct (from_le_bytes U32 iv) as [nw|p] eqn:Ei; [cbn [bind]|eexists; reflexivity].
  assert (Li : length iv = (4 * length nw)%nat).
  { destruct (Nat.eq_dec (length iv) 0) as [E0|E0].
    - destruct iv; [|discriminate]. injection Ei as <-. reflexivity.
    - now apply words_length. }
  apply copy_range_panic. lia.
Qed.
Lemma counter_mode_panic key c0 iv m : length key <> 32%nat \/ length iv <> 12%nat ->
  panics (chacha20_counter_mode key c0 iv m).
Proof.
  intros H. assert (B : forall c, panics (chacha20_block key c iv)).
  { intros c. unfold chacha20_block, chacha20. destruct (ex_init_panic key c iv H) as [p ->]. eexists; reflexivity. }
  unfold chacha20_counter_mode.
  destruct (mapM _ _) as [bl|p]; [cbn [bind]|eexists; reflexivity].
  unfold usub. destruct (1 <=? length bl)%nat eqn:E1; [cbn [bind]|eexists; reflexivity].
  apply Nat.leb_le in E1. destruct (length bl - 1)%nat as [|k] eqn:Ek.
  - cbn [for_range bind]. rewrite (idx_Ok _ _ []) by lia. cbn [bind].
    destruct (B c0) as [p ->]. eexists; reflexivity.
  - cbn [for_range]. destruct (B c0) as [p ->]. eexists; reflexivity.
Qed.
