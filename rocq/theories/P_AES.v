(** aes.rs: every function computes what FIPS 197 says. *)
From Coq Require Import ZArith List Bool Arith Lia.
From Verif Require Import Base P_Base M_Int P_Int M_Seq P_Seq M_Bytes P_Bytes M_AES P_Word P_Stream S_ChaCha S_GF2 P_GF2 S_AES P_GF128.
Import ListNotations.
Open Scope Z_scope.

Definition all_bytes : list Z := map Z.of_nat (seq 0 256).
Lemma all_bytes_in x : byte x -> In x all_bytes.
Proof.
  intros H. unfold byte in H. apply in_map_iff. exists (Z.to_nat x).
  split; [lia|]. apply in_seq. lia.
Qed.
Lemma byte_check (f : Z -> bool) : forallb f all_bytes = true -> forall x, byte x -> f x = true.
Proof. intros H x Hx. rewrite forallb_forall in H. apply H, all_bytes_in, Hx. Qed.
Definition ok_is (r : res Z) (v : Z) : bool := match r with Ok x => x =? v | _ => false end.
Lemma ok_is_eq r v : ok_is r v = true -> r = Ok v.
Proof. destruct r; cbn; [|discriminate]. intros H. apply Z.eqb_eq in H. now subst. Qed.

(** ** The byte functions *)
Lemma sbox_at_Ok x : byte x -> sbox_at x = Ok (fips_sbox x).
Proof.
  intros H. apply ok_is_eq. revert x H. apply (byte_check (fun x => ok_is (sbox_at x) (fips_sbox x))).
  vm_compute. reflexivity.
Qed.
Lemma fips_sbox_byte x : byte (fips_sbox x).
Proof. unfold fips_sbox, affine, byte. apply (bits_val_range _ 8). Qed.
Lemma mul8_byte a b : byte a -> byte b -> byte (mul8 a b).
Proof. intros Ha Hb. apply (gf_mul_range 8 0x11b); try lia; assumption. Qed.
Lemma xtime_Ok x : byte x -> xtime x = Ok (mul8 2 x).
Proof.
  intros H. apply ok_is_eq. revert x H. apply (byte_check (fun x => ok_is (xtime x) (mul8 2 x))).
  vm_compute. reflexivity.
Qed.
Lemma mul8_lxor_r a b c : byte a -> byte b -> byte c -> mul8 c (Z.lxor a b) = Z.lxor (mul8 c a) (mul8 c b).
Proof.
  intros Ha Hb Hc. unfold mul8. assert (P : 2 ^ 8 <= 0x11b < 2 ^ (8 + 1)) by lia.
  rewrite !(gf_mul_comm 8 0x11b ltac:(lia) P c); try assumption.
  - apply gf_mul_lxor_l; try lia; assumption.
  - apply lxor_range; [lia|assumption|assumption].
Qed.
Lemma mul8_3 x : byte x -> mul8 3 x = Z.lxor (mul8 2 x) x.
Proof.
  intros H. unfold mul8. change 3 with (Z.lxor 2 1).
  rewrite gf_mul_lxor_l, gf_mul_1_l; try reflexivity; try assumption; lia.
Qed.
Lemma xor_byte a b : byte a -> byte b -> byte (Z.lxor a b).
Proof. apply (lxor_range 8). lia. Qed.

(** ** Blocks as sixteen bytes *)
Lemma list16 (l : list Z) : length l = 16%nat -> exists a0 a1 a2 a3 a4 a5 a6 a7 a8 a9 a10 a11 a12 a13 a14 a15,
  l = [a0; a1; a2; a3; a4; a5; a6; a7; a8; a9; a10; a11; a12; a13; a14; a15].
Proof.
  intros H. do 16 (destruct l as [|? l]; [discriminate|]). destruct l; [|discriminate]. repeat eexists.
Qed.
Lemma list4 (l : list Z) : length l = 4%nat -> exists a0 a1 a2 a3, l = [a0; a1; a2; a3].
Proof.
  intros H. do 4 (destruct l as [|? l]; [discriminate|]). destruct l; [|discriminate]. repeat eexists.
Qed.
Ltac open16 H := destruct (list16 _ (proj1 H)) as (?a & ?a & ?a & ?a & ?a & ?a & ?a & ?a & ?a & ?a & ?a & ?a & ?a & ?a & ?a & ?a & ->);
  let B := fresh "B" in pose proof (proj2 H) as B; repeat (apply Forall_cons_iff in B; destruct B as [?B B]).
Definition block16 := bytes_n 16.

Lemma of_rc_length f : length (of_rc f) = 16%nat. Proof. reflexivity. Qed.
Lemma of_rc_bytes f : (forall r c, (r < 4)%nat -> (c < 4)%nat -> byte (f r c)) -> block16 (of_rc f).
Proof.
  intros H. split; [reflexivity|]. unfold of_rc. apply Forall_forall. intros x Hx.
  apply in_map_iff in Hx as (k & <- & Hk). apply in_seq in Hk. apply H.
  - apply Nat.mod_upper_bound. lia.
  - apply Nat.div_lt_upper_bound; lia.
Qed.
Lemma at_byte s r c : block16 s -> (r < 4)%nat -> (c < 4)%nat -> byte (at_rc s r c).
Proof.
  intros [L B] Hr Hc. unfold at_rc. rewrite Forall_forall in B. apply B, nth_In. lia.
Qed.

Lemma sub_bytes_Ok s : block16 s -> sub_bytes s = Ok (SubBytes s).
Proof.
  intros H. open16 H. unfold sub_bytes. cbn [for_range idx nth_error bind].
  repeat (rewrite sbox_at_Ok by assumption; cbn [bind upd length Nat.ltb Nat.leb set_nth]).
  reflexivity.
Qed.
Lemma shift_rows_Ok s : length s = 16%nat -> shift_rows s = Ok (ShiftRows s).
Proof.
  intros H. destruct (list16 _ H) as (?a & ?a & ?a & ?a & ?a & ?a & ?a & ?a & ?a & ?a & ?a & ?a & ?a & ?a & ?a & ?a & ->).
  reflexivity.
Qed.
Lemma mix_byte s0 s1 s2 s3 : byte s0 -> byte s1 -> byte s2 -> byte s3 ->
  Z.lxor (Z.lxor s0 (Z.lxor (Z.lxor (Z.lxor s0 s1) s2) s3)) (mul8 2 (Z.lxor s0 s1))
  = Z.lxor (mul8 2 s0) (Z.lxor (mul8 3 s1) (Z.lxor s2 s3)).
Proof.
  intros. rewrite mul8_3, mul8_lxor_r by (assumption || (unfold byte; lia)). lxor_solve.
Qed.
Lemma mix_byte1 s0 s1 s2 s3 : byte s0 -> byte s1 -> byte s2 -> byte s3 ->
  Z.lxor (Z.lxor s1 (Z.lxor (Z.lxor (Z.lxor s0 s1) s2) s3)) (mul8 2 (Z.lxor s1 s2))
  = Z.lxor (mul8 2 s1) (Z.lxor (mul8 3 s2) (Z.lxor s3 s0)).
Proof.
  intros. rewrite mul8_3, mul8_lxor_r by (assumption || (unfold byte; lia)). lxor_solve.
Qed.
Lemma mix_byte2 s0 s1 s2 s3 : byte s0 -> byte s1 -> byte s2 -> byte s3 ->
  Z.lxor (Z.lxor s2 (Z.lxor (Z.lxor (Z.lxor s0 s1) s2) s3)) (mul8 2 (Z.lxor s2 s3))
  = Z.lxor (mul8 2 s2) (Z.lxor (mul8 3 s3) (Z.lxor s0 s1)).
Proof.
  intros. rewrite mul8_3, mul8_lxor_r by (assumption || (unfold byte; lia)). lxor_solve.
Qed.
Lemma mix_byte3 s0 s1 s2 s3 : byte s0 -> byte s1 -> byte s2 -> byte s3 ->
  Z.lxor (Z.lxor s3 (Z.lxor (Z.lxor (Z.lxor s0 s1) s2) s3)) (mul8 2 (Z.lxor s3 s0))
  = Z.lxor (mul8 2 s3) (Z.lxor (mul8 3 s0) (Z.lxor s1 s2)).
Proof.
  intros. rewrite mul8_3, mul8_lxor_r by (assumption || (unfold byte; lia)). lxor_solve.
Qed.
Ltac mix_step := cbn [Nat.mul Nat.add idx nth_error bind]; unfold op_xor;
  do 4 (rewrite xtime_Ok by (apply xor_byte; assumption); cbn [bind upd length Nat.ltb Nat.leb set_nth]);
  rewrite mix_byte, mix_byte1, mix_byte2, mix_byte3 by assumption.
Lemma mix_columns_Ok s : block16 s -> mix_columns s = Ok (MixColumns s).
Proof.
  intros H. open16 H. unfold mix_columns, mix_column.
  do 4 mix_step. reflexivity.
Qed.
Lemma add_round_key_Ok s k : length s = 16%nat -> length k = 16%nat -> add_round_key s k = Ok (AddRoundKey s k).
Proof.
  intros H K. destruct (list16 _ H) as (?a & ?a & ?a & ?a & ?a & ?a & ?a & ?a & ?a & ?a & ?a & ?a & ?a & ?a & ?a & ?a & ->).
  destruct (list16 _ K) as (?k & ?k & ?k & ?k & ?k & ?k & ?k & ?k & ?k & ?k & ?k & ?k & ?k & ?k & ?k & ?k & ->).
  reflexivity.
Qed.
Lemma xor_block_Ok s k : length s = 16%nat -> length k = 16%nat -> xor_block s k = Ok (zip_with Z.lxor s k).
Proof.
  intros H K. destruct (list16 _ H) as (?a & ?a & ?a & ?a & ?a & ?a & ?a & ?a & ?a & ?a & ?a & ?a & ?a & ?a & ?a & ?a & ->).
  destruct (list16 _ K) as (?k & ?k & ?k & ?k & ?k & ?k & ?k & ?k & ?k & ?k & ?k & ?k & ?k & ?k & ?k & ?k & ->).
  reflexivity.
Qed.

Lemma SubBytes_block s : block16 s -> block16 (SubBytes s).
Proof. intros H. apply of_rc_bytes. intros. apply fips_sbox_byte. Qed.
Lemma ShiftRows_block s : block16 s -> block16 (ShiftRows s).
Proof. intros H. apply of_rc_bytes. intros. apply at_byte; [assumption|assumption|apply Nat.mod_upper_bound; lia]. Qed.
Lemma MixColumns_block s : block16 s -> block16 (MixColumns s).
Proof.
  intros H. apply of_rc_bytes. intros r c Hr Hc.
  assert (forall k, byte (at_rc s ((r + k) mod 4) c)) by (intros; apply at_byte; [assumption|apply Nat.mod_upper_bound; lia|assumption]).
  pose proof (at_byte s r c H Hr Hc).
  repeat apply xor_byte; auto; apply mul8_byte; auto; unfold byte; lia.
Qed.
Lemma AddRoundKey_block s k : block16 s -> block16 k -> block16 (AddRoundKey s k).
Proof. intros H K. apply of_rc_bytes. intros. apply xor_byte; apply at_byte; assumption. Qed.

(** ** Lists of equally long pieces *)
Lemma concat_skipn {A} k (ws : list (list A)) i : Forall (fun w => length w = k) ws ->
  skipn (k * i) (concat ws) = concat (skipn i ws).
Proof.
  revert i. induction ws as [|w ws IH]; intros i H; [now rewrite !skipn_nil|].
  apply Forall_cons_iff in H as [Hw H]. destruct i as [|i]; [now rewrite Nat.mul_0_r|].
  cbn [skipn concat]. replace (k * S i)%nat with (length w + k * i)%nat by lia.
  rewrite skipn_app. rewrite skipn_all2 by lia.
  replace (length w + k * i - length w)%nat with (k * i)%nat by lia. now apply IH.
Qed.
Lemma concat_firstn {A} k (ws : list (list A)) i : Forall (fun w => length w = k) ws ->
  firstn (k * i) (concat ws) = concat (firstn i ws).
Proof.
  revert i. induction ws as [|w ws IH]; intros i H; [now rewrite !firstn_nil|].
  apply Forall_cons_iff in H as [Hw H]. destruct i as [|i]; [now rewrite Nat.mul_0_r|].
  cbn [firstn concat]. replace (k * S i)%nat with (length w + k * i)%nat by lia.
  rewrite firstn_app, firstn_all2 by lia.
  replace (length w + k * i - length w)%nat with (k * i)%nat by lia. now rewrite IH.
Qed.
Lemma concat_nth {A} k (ws : list (list A)) i : Forall (fun w => length w = k) ws -> (i < length ws)%nat ->
  firstn k (skipn (k * i) (concat ws)) = nth i ws [].
Proof.
  intros H Hi. rewrite concat_skipn by assumption.
  rewrite <- (Nat.mul_1_r k) at 1. rewrite concat_firstn.
  - revert ws H Hi. induction i as [|i IH]; intros [|w ws] H Hi; cbn in Hi; try lia.
    + cbn [skipn firstn concat nth]. apply app_nil_r.
    + cbn [skipn nth]. apply IH; [now apply Forall_cons_iff in H as [_ H]|lia].
  - rewrite <- (firstn_skipn i ws) in H. apply Forall_app in H. tauto.
Qed.
Lemma Forall_bytes_len n (ws : list (list Z)) : Forall (bytes_n n) ws -> Forall (fun w => length w = n) ws.
Proof. intros H. eapply Forall_impl; [|exact H]. intros w [E _]. exact E. Qed.
Lemma Forall_bytes_concat n (ws : list (list Z)) : Forall (bytes_n n) ws -> Forall byte (concat ws).
Proof. intros H. apply Forall_concat. eapply Forall_impl; [|exact H]. intros w [_ E]. exact E. Qed.
Lemma bytes_n_sub n m si l : bytes_n n l -> (si + m <= n)%nat -> bytes_n m (firstn m (skipn si l)).
Proof.
  intros [L B] H. split; [rewrite firstn_length, skipn_length; lia|].
  rewrite <- (firstn_skipn si l) in B. apply Forall_app in B as [_ B].
  rewrite <- (firstn_skipn m (skipn si l)) in B. now apply Forall_app in B.
Qed.

(** ** Key expansion *)
Lemma xorw_bytes a b : bytes_n 4 a -> bytes_n 4 b -> bytes_n 4 (xorw a b).
Proof.
  intros [La Ba] [Lb Bb]. split; [reflexivity|]. apply Forall_forall. intros x Hx.
  apply in_map_iff in Hx as (i & <- & Hi). apply in_seq in Hi. rewrite Forall_forall in Ba, Bb.
  apply xor_byte; [apply Ba, nth_In|apply Bb, nth_In]; lia.
Qed.
Lemma SubWord_bytes w : bytes_n 4 (SubWord w).
Proof.
  split; [reflexivity|]. apply Forall_forall. intros x Hx.
  apply in_map_iff in Hx as (i & <- & Hi). apply fips_sbox_byte.
Qed.
Lemma gf_pow2_byte j : byte (gf_pow 8 0x11b 2 j).
Proof. apply (gf_pow_range 8 0x11b); lia. Qed.
Lemma Rcon_bytes j : bytes_n 4 (Rcon j).
Proof.
  split; [reflexivity|]. repeat apply Forall_cons; try (unfold byte; lia); [apply gf_pow2_byte|constructor].
Qed.
Lemma next_word_bytes nk i b p : bytes_n 4 b -> bytes_n 4 p -> bytes_n 4 (next_word nk i b p).
Proof.
  intros Hb Hp. apply xorw_bytes; [exact Hb|].
  destruct (i mod nk =? 0)%nat; [apply xorw_bytes; [apply SubWord_bytes|apply Rcon_bytes]|].
  destruct ((6 <? nk) && (i mod nk =? 4))%nat; [apply SubWord_bytes|exact Hp].
Qed.
Lemma RCON_Ok j : (1 <= j <= 14)%nat -> idx RCON j = Ok (gf_pow 8 0x11b 2 (j - 1)).
Proof.
  intros H. do 15 (destruct j as [|j]; [try lia; vm_compute; reflexivity|]). lia.
Qed.
Ltac open4 H := destruct (list4 _ (proj1 H)) as (?w & ?w & ?w & ?w & ->);
  let B := fresh "B" in pose proof (proj2 H) as B; repeat (apply Forall_cons_iff in B; destruct B as [?B B]).
Lemma sub_word_Ok w : bytes_n 4 w -> sub_word w = Ok (SubWord w).
Proof.
  intros H. open4 H. unfold sub_word. cbn [idx nth_error bind].
  repeat (rewrite sbox_at_Ok by assumption; cbn [bind]). reflexivity.
Qed.
Lemma RotWord_bytes w : bytes_n 4 w -> bytes_n 4 (RotWord w).
Proof. intros H. open4 H. split; [reflexivity|]. unfold RotWord. cbn [nth]. auto. Qed.
Lemma rotate_word_Ok w : length w = 4%nat -> rotate_word w = Ok (RotWord w).
Proof. intros H. destruct (list4 _ H) as (?w & ?w & ?w & ?w & ->). reflexivity. Qed.
Lemma keygen_assist_Ok w j : bytes_n 4 w ->
  aes_keygen_assist w (gf_pow 8 0x11b 2 (j - 1)) = Ok (xorw (SubWord (RotWord w)) (Rcon j)).
Proof.
  intros H. unfold aes_keygen_assist. rewrite rotate_word_Ok by apply H. cbn [bind].
  rewrite sub_word_Ok by now apply RotWord_bytes. cbn [bind].
  unfold SubWord, xorw, Rcon. cbn [map seq nth idx nth_error bind upd length Nat.ltb Nat.leb set_nth].
  unfold op_xor. rewrite !Z.lxor_0_r. reflexivity.
Qed.
Lemma xor4_Ok (k w : list Z) : length k = 4%nat -> length w = 4%nat ->
  for_range 0 4 (fun i k => let* x := idx k i in let* y := idx w i in upd k i (op_xor x y)) k = Ok (xorw w k).
Proof.
  intros H K. destruct (list4 _ H) as (?w & ?w & ?w & ?w & ->). destruct (list4 _ K) as (?k & ?k & ?k & ?k & ->).
  cbn. unfold op_xor. rewrite !(Z.lxor_comm k), (Z.lxor_comm k0), (Z.lxor_comm k1), (Z.lxor_comm k2). reflexivity.
Qed.
Lemma key_expansion_word_Ok w0 w1 i nk nr : bytes_n 4 w0 -> bytes_n 4 w1 -> (0 < nk)%nat ->
  (nk <= i < 4 * (nr + 1))%nat -> (i / nk <= 14)%nat ->
  key_expansion_word w0 w1 i nk nr = Ok (next_word nk i w0 w1).
Proof.
  intros H0 H1 Hk Hi Hq. unfold key_expansion_word.
  rewrite assert_true by (apply Nat.ltb_lt; lia). cbn [bind].
  unfold udiv. rewrite (proj2 (Nat.eqb_neq nk 0)) by lia. cbn [bind].
  assert (Hq1 : (1 <= i / nk)%nat) by (apply Nat.div_le_lower_bound; lia).
  unfold next_word. destruct (i mod nk =? 0)%nat.
  - rewrite RCON_Ok by lia. cbn [bind]. rewrite keygen_assist_Ok by assumption. cbn [bind].
    apply xor4_Ok; [reflexivity|apply H0].
  - destruct ((6 <? nk) && (i mod nk =? 4))%nat.
    + rewrite sub_word_Ok by assumption. cbn [bind]. apply xor4_Ok; [reflexivity|apply H0].
    + cbn [bind]. apply xor4_Ok; [apply H1|apply H0].
Qed.

Lemma schedule_length nk key n : length (schedule nk key n) = n.
Proof. induction n; cbn [schedule]; [reflexivity|]. rewrite app_length, IHn. cbn. lia. Qed.
Lemma schedule_words nk key n : (0 < nk)%nat -> bytes_n (4 * nk) key -> Forall (bytes_n 4) (schedule nk key n).
Proof.
  intros Hk HK. induction n as [|n IH]; cbn [schedule]; [constructor|].
  apply Forall_app. split; [exact IH|]. apply Forall_cons; [|constructor].
  destruct (Nat.ltb_spec n nk) as [H|H].
  - apply (bytes_n_sub (4 * nk)); [exact HK|lia].
  - assert (N : forall i, (i < n)%nat -> bytes_n 4 (nth i (schedule nk key n) [])).
    { intros i Hi. rewrite Forall_forall in IH. apply IH, nth_In. rewrite schedule_length. exact Hi. }
    apply next_word_bytes; apply N; lia.
Qed.
Lemma schedule_start nk key n : (n <= nk)%nat -> length key = (4 * nk)%nat ->
  concat (schedule nk key n) = firstn (4 * n) key.
Proof.
  intros Hn HK. induction n as [|n IH]; [reflexivity|]. cbn [schedule].
  rewrite concat_app, IH by lia. cbn [concat]. rewrite app_nil_r.
  rewrite (proj2 (Nat.ltb_lt n nk)) by lia. unfold word_n.
  replace (4 * S n)%nat with (4 * n + 4)%nat by lia.
  rewrite <- (firstn_skipn (4 * n) key) at 3. rewrite firstn_app.
  rewrite firstn_length. replace (Nat.min (4 * n) (length key)) with (4 * n)%nat by lia.
  replace (4 * n + 4 - 4 * n)%nat with 4%nat by lia. f_equal.
  symmetry. apply firstn_all2. rewrite firstn_length. lia.
Qed.
Definition klen (alg : aes_variant) : nat := (4 * nk_of alg)%nat.
Lemma arr_from_sub_Ok l (v : list Z) si : (si + l <= length v)%nat ->
  arr_from_sub 0 l v si l = Ok (firstn l (skipn si v)).
Proof.
  intros H. unfold arr_from_sub. rewrite assert_true by apply Nat.eqb_refl. cbn [bind].
  rewrite (update_sub_Ok 0) by (rewrite ?seq_new_length; lia).
  change (firstn 0 (seq_new 0 l)) with (@nil Z). rewrite app_nil_l.
  rewrite (skipn_all2 (seq_new 0 l)) by (rewrite seq_new_length; lia). now rewrite app_nil_r.
Qed.
Lemma skipn_add {A} (l : list A) a b : skipn a (skipn b l) = skipn (b + a) l.
Proof.
  revert l. induction b as [|b IH]; intros l; [reflexivity|].
  destruct l as [|x l]; [now rewrite !skipn_nil|]. cbn [skipn Nat.add]. apply IH.
Qed.
Lemma firstn_sub {A} (l : list A) k n m : (k + n <= m)%nat ->
  firstn n (skipn k l) = firstn n (skipn k (firstn m l)).
Proof.
  intros H. rewrite skipn_firstn_comm, firstn_firstn. f_equal. lia.
Qed.
Lemma key_expansion_Ok key alg : bytes_n (klen alg) key ->
  key_expansion_aes key (nk_of alg) (nr_of alg) alg
  = Ok (concat (schedule (nk_of alg) key (4 * (nr_of alg + 1)))).
Proof.
  intros HK. unfold key_expansion_aes.
  set (len := match alg with Aes128 => 176 | Aes256 => 240 end%nat).
  set (it := match alg with Aes128 => 40 | Aes256 => 52 end%nat).
  set (ws := match alg with Aes128 => 4 | Aes256 => 8 end%nat).
  set (nk := nk_of alg) in *. set (nr := nr_of alg) in *.
  assert (F : ws = nk /\ (0 < nk)%nat /\ len = (4 * (it + ws))%nat /\ (it + ws = 4 * (nr + 1))%nat
     /\ (nk <= it)%nat /\ (forall i, i < 4 * (nr + 1) -> i / nk <= 14)%nat).
  { unfold ws, nk, len, it, nr. destruct alg; cbn [nk_of nr_of]; conjs; try lia.
    - intros i Hi. apply Nat.lt_succ_r, Nat.div_lt_upper_bound; lia.
    - intros i Hi. apply Nat.lt_succ_r, Nat.div_lt_upper_bound; lia. }
  destruct F as (-> & Hk & Hlen & Hit & Hge & Hq). clearbody len it.
  assert (HKl : length key = (4 * nk)%nat) by apply HK.
  rewrite (update_start_Ok 0) by (rewrite seq_new_length; lia). cbn [bind].
  set (st0 := key ++ skipn (length key) (seq_new 0 len)).
  assert (L0 : length st0 = len) by (unfold st0; rewrite app_length, skipn_length, seq_new_length; lia).
  match goal with |- for_range 0 it ?f st0 = _ =>
   destruct (for_range_inv (fun j s => length s = len /\
     firstn (4 * (j + nk)) s = concat (schedule nk key (j + nk))) f 0%nat it st0) as (s' & E & L & H) end.
  - split; [exact L0|]. cbn [Nat.add]. rewrite schedule_start by lia. unfold st0.
    rewrite firstn_app, <- HKl, Nat.sub_diag. change (firstn 0 _) with (@nil Z). apply app_nil_r.
  - intros j s Hj [Ls Hs]. set (i := (j + nk)%nat) in *.
    rewrite (usub_Ok i nk) by lia. cbn [bind].
    rewrite arr_from_sub_Ok by lia. cbn [bind].
    rewrite (usub_Ok (4 * i) 4) by lia. cbn [bind].
    rewrite arr_from_sub_Ok by lia. cbn [bind].
    rewrite (firstn_sub s (4 * (i - nk)) 4 (4 * i)) by lia.
    rewrite (firstn_sub s (4 * i - 4) 4 (4 * i)) by lia.
    rewrite Hs. replace (4 * i - 4)%nat with (4 * (i - 1))%nat by lia.
    pose proof (schedule_words nk key i Hk HK) as W.
    pose proof (Forall_bytes_len 4 _ W) as W4. pose proof (schedule_length nk key i) as SL.
    rewrite !concat_nth by (assumption || lia).
    assert (N : forall k, (k < i)%nat -> bytes_n 4 (nth k (schedule nk key i) [])).
    { intros k Hk'. rewrite Forall_forall in W. apply W, nth_In. lia. }
    rewrite key_expansion_word_Ok; [|apply N; lia|apply N; lia|lia|lia|apply Hq; lia].
    cbn [bind]. set (w := next_word nk i _ _).
    assert (Lw : length w = 4%nat) by reflexivity.
    rewrite (update_Ok 0) by lia. eexists. split; [reflexivity|].
    rewrite Lw. split.
    { rewrite !app_length, firstn_length, skipn_length, Lw. lia. }
    cbn [Nat.add]. fold i. cbn [schedule]. rewrite (proj2 (Nat.ltb_ge i nk)) by lia. fold w.
    rewrite concat_app, <- Hs. cbn [concat]. rewrite app_nil_r, app_assoc.
    rewrite firstn_app.
    assert (LL : length (firstn (4 * i) s ++ w) = (4 * S i)%nat)
      by (rewrite app_length, firstn_length, Lw; lia).
    rewrite LL, Nat.sub_diag. change (firstn 0 _) with (@nil Z). rewrite app_nil_r.
    rewrite <- LL. apply firstn_all.
  - rewrite E. cbn [Nat.add] in H. rewrite <- Hit. rewrite <- H. rewrite firstn_all2; [reflexivity|lia].
Qed.

(** ** The cipher *)
Lemma round_key_block w n i : Forall (bytes_n 4) w -> length w = (4 * n)%nat -> (i < n)%nat ->
  block16 (round_key w i).
Proof.
  intros H L Hi. unfold round_key.
  assert (F : Forall (bytes_n 4) (firstn 4 (skipn (4 * i) w))).
  { rewrite <- (firstn_skipn (4 * i) w) in H. apply Forall_app in H as [_ H].
    rewrite <- (firstn_skipn 4 (skipn (4 * i) w)) in H. apply Forall_app in H. tauto. }
  split; [|now apply (Forall_bytes_concat 4)].
  rewrite (concat_length_const 4) by now apply Forall_bytes_len.
  rewrite firstn_length, skipn_length. lia.
Qed.
Lemma round_key_chunk w i : Forall (bytes_n 4) w ->
  firstn 16 (skipn (16 * i) (concat w)) = round_key w i.
Proof.
  intros H. pose proof (Forall_bytes_len 4 _ H) as H4. unfold round_key.
  replace (16 * i)%nat with (4 * (4 * i))%nat by lia. rewrite concat_skipn by assumption.
  change 16%nat with (4 * 4)%nat. apply concat_firstn.
  rewrite <- (firstn_skipn (4 * i) w) in H4. apply Forall_app in H4. tauto.
Qed.
Lemma aes_enc_Ok s k : block16 s -> block16 k ->
  aes_enc s k = Ok (AddRoundKey (MixColumns (ShiftRows (SubBytes s))) k).
Proof.
  intros H K. unfold aes_enc. rewrite sub_bytes_Ok by assumption. cbn [bind].
  rewrite shift_rows_Ok by reflexivity. cbn [bind].
  rewrite mix_columns_Ok by (now apply ShiftRows_block, SubBytes_block). cbn [bind].
  apply add_round_key_Ok; [reflexivity|apply K].
Qed.
Lemma for_range_fold {S} (I : S -> Prop) (f : nat -> S -> res S) g start n s :
  I s -> (forall i s, (start <= i < start + n)%nat -> I s -> f i s = Ok (g s i) /\ I (g s i)) ->
  for_range start n f s = Ok (fold_left g (seq start n) s) /\ I (fold_left g (seq start n) s).
Proof.
  revert start s. induction n as [|n IH]; intros start s Hs H; cbn [for_range seq fold_left]; [auto|].
  destruct (H start s) as [E Hg]; [lia|assumption|]. rewrite E. cbn [bind]. apply IH; [exact Hg|].
  intros. apply H; [lia|assumption].
Qed.
Lemma fold_seq_shift {S} (g : S -> nat -> S) n s :
  fold_left (fun s i => g s (Datatypes.S i)) (seq 0 n) s = fold_left g (seq 1 n) s.
Proof. rewrite <- seq_shift. revert s. induction (seq 0 n) as [|a l IH]; intros s; cbn; [reflexivity|apply IH]. Qed.

Lemma block_cipher_Ok input w nr : block16 input -> (0 < nr)%nat -> Forall (bytes_n 4) w ->
  length w = (4 * (nr + 1))%nat ->
  let s := fold_left (fun s i => AddRoundKey (MixColumns (ShiftRows (SubBytes s))) (round_key w i))
                     (seq 1 (nr - 1)) (AddRoundKey input (round_key w 0)) in
  block_cipher_aes input (concat w) nr = Ok (AddRoundKey (ShiftRows (SubBytes s)) (round_key w nr)) /\ block16 s.
Proof.
  intros Hin Hnr HW LW s0.
  assert (LC : length (concat w) = (16 * (nr + 1))%nat).
  { rewrite (concat_length_const 4) by now apply Forall_bytes_len. lia. }
  assert (RK : forall i, (i < nr + 1)%nat -> block16 (round_key w i))
    by (intros; now apply (round_key_block w (nr + 1))).
  unfold block_cipher_aes, arr_from_sub_range. rewrite usub_Ok by lia. cbn [bind].
  rewrite Nat.sub_0_r, arr_from_sub_Ok by lia. cbn [bind].
  unfold from_sub_range. rewrite usub_Ok by lia. cbn [bind].
  rewrite from_sub_Ok by lia. cbn [bind].
  rewrite arr_from_sub_Ok by lia. cbn [bind].
  rewrite (Nat.mul_comm nr 16). rewrite (round_key_chunk w nr) by assumption.
  rewrite (round_key_chunk w 0 HW : firstn 16 (skipn 0 (concat w)) = _).
  rewrite add_round_key_Ok; [|apply Hin|apply RK; lia]. cbn [bind].
  unfold rounds_aes. rewrite num_chunks_Ok by lia. cbn [bind].
  set (k := firstn (16 * nr - 16) (skipn 16 (concat w))).
  assert (Lk : length k = (16 * (nr - 1))%nat) by (unfold k; rewrite firstn_length, skipn_length; lia).
  replace ((length k + 16 - 1) / 16)%nat with (nr - 1)%nat.
  2: { rewrite Lk. apply (Nat.div_unique _ _ _ 15); lia. }
  destruct (for_range_fold block16 (fun i out =>
    let* ' (_, key_block) := get_chunk 0 k 16 i in
    let* rk := arr_from_seq 0 16 key_block in aes_enc out rk)
    (fun s i => AddRoundKey (MixColumns (ShiftRows (SubBytes s))) (round_key w (S i))) 0%nat (nr - 1)%nat
    (AddRoundKey input (round_key w 0))) as [E I].
  { apply AddRoundKey_block; [assumption|apply RK; lia]. }
  { intros i s Hi Hs. rewrite get_chunk_Ok by lia. cbn [bind].
    assert (EQ : firstn 16 (skipn (16 * i) k) = round_key w (S i)).
    { rewrite <- round_key_chunk by assumption. unfold k.
      rewrite <- firstn_sub by lia. rewrite skipn_add. do 2 f_equal. lia. }
    rewrite EQ. pose proof (RK (S i) ltac:(lia)) as R.
    change (arr_from_seq 0 16) with (arr_from_vec 0 16). rewrite arr_from_vec_Ok by apply R. cbn [bind].
    rewrite aes_enc_Ok by assumption. split; [reflexivity|].
    apply AddRoundKey_block; [|exact R]. now apply MixColumns_block, ShiftRows_block, SubBytes_block. }
  rewrite (fold_seq_shift (fun s i => AddRoundKey (MixColumns (ShiftRows (SubBytes s))) (round_key w i))) in E, I.
  fold s0 in E, I. rewrite E. cbn [bind]. split; [|exact I].
  unfold aes_enc_last. rewrite sub_bytes_Ok by exact I. cbn [bind].
  rewrite shift_rows_Ok by reflexivity. cbn [bind].
  apply add_round_key_Ok; [reflexivity|apply RK; lia].
Qed.
Definition aes_pure (alg : aes_variant) (key input : list Z) : list Z :=
  fips_aes (nk_of alg) (nr_of alg) key input.
Lemma aes_encrypt_block_Ok alg key input : bytes_n (klen alg) key -> block16 input ->
  aes_encrypt_block key input (nk_of alg) (nr_of alg) alg = Ok (aes_pure alg key input)
  /\ block16 (aes_pure alg key input).
Proof.
  intros HK Hin. unfold aes_encrypt_block. rewrite key_expansion_Ok by assumption. cbn [bind].
  assert (Hk : (0 < nk_of alg)%nat) by (destruct alg; cbn; lia).
  assert (Hr : (0 < nr_of alg)%nat) by (destruct alg; cbn; lia).
  pose proof (schedule_words (nk_of alg) key (4 * (nr_of alg + 1)) Hk HK) as W.
  pose proof (schedule_length (nk_of alg) key (4 * (nr_of alg + 1))) as L.
  destruct (block_cipher_Ok input _ _ Hin Hr W L) as [E I]. rewrite E. split; [reflexivity|].
  unfold aes_pure, fips_aes. cbv zeta. apply AddRoundKey_block.
  - now apply ShiftRows_block, SubBytes_block.
  - apply (round_key_block _ (nr_of alg + 1)); [assumption|exact L|lia].
Qed.

(** ** Bijections *)
Definition inv_table : list Z :=
  [82; 9; 106; 213; 48; 54; 165; 56; 191; 64; 163; 158; 129; 243; 215; 251;
   124; 227; 57; 130; 155; 47; 255; 135; 52; 142; 67; 68; 196; 222; 233; 203;
   84; 123; 148; 50; 166; 194; 35; 61; 238; 76; 149; 11; 66; 250; 195; 78;
   8; 46; 161; 102; 40; 217; 36; 178; 118; 91; 162; 73; 109; 139; 209; 37;
   114; 248; 246; 100; 134; 104; 152; 22; 212; 164; 92; 204; 93; 101; 182; 146;
   108; 112; 72; 80; 253; 237; 185; 218; 94; 21; 70; 87; 167; 141; 157; 132;
   144; 216; 171; 0; 140; 188; 211; 10; 247; 228; 88; 5; 184; 179; 69; 6;
   208; 44; 30; 143; 202; 63; 15; 2; 193; 175; 189; 3; 1; 19; 138; 107;
   58; 145; 17; 65; 79; 103; 220; 234; 151; 242; 207; 206; 240; 180; 230; 115;
   150; 172; 116; 34; 231; 173; 53; 133; 226; 249; 55; 232; 28; 117; 223; 110;
   71; 241; 26; 113; 29; 41; 197; 137; 111; 183; 98; 14; 170; 24; 190; 27;
   252; 86; 62; 75; 198; 210; 121; 32; 154; 219; 192; 254; 120; 205; 90; 244;
   31; 221; 168; 51; 136; 7; 199; 49; 177; 18; 16; 89; 39; 128; 236; 95;
   96; 81; 127; 169; 25; 181; 74; 13; 45; 229; 122; 159; 147; 201; 156; 239;
   160; 224; 59; 77; 174; 42; 245; 176; 200; 235; 187; 60; 131; 83; 153; 97;
   23; 43; 4; 126; 186; 119; 214; 38; 225; 105; 20; 99; 85; 33; 12; 125].
Definition inv_sbox (y : Z) : Z := nth (Z.to_nat y) inv_table 0.
Lemma inv_sbox_check : forallb (fun x => (inv_sbox (fips_sbox x) =? x) && (fips_sbox (inv_sbox x) =? x)
   && (0 <=? inv_sbox x) && (inv_sbox x <? 256)) all_bytes = true.
Proof. vm_compute. reflexivity. Qed.
Lemma inv_sbox_spec x : byte x -> inv_sbox (fips_sbox x) = x /\ fips_sbox (inv_sbox x) = x /\ byte (inv_sbox x).
Proof.
  intros H. pose proof (byte_check _ inv_sbox_check x H) as C. cbv beta in C.
  rewrite !andb_true_iff, !Z.eqb_eq, Z.leb_le, Z.ltb_lt in C. unfold byte. tauto.
Qed.
Definition has_inv {A} (V : A -> Prop) (f : A -> A) : Prop :=
  exists g, (forall x, V x -> V (f x) /\ g (f x) = x) /\ (forall y, V y -> V (g y) /\ f (g y) = y).
Lemma has_inv_comp {A} (V : A -> Prop) f g : has_inv V f -> has_inv V g -> has_inv V (fun x => g (f x)).
Proof.
  intros (f' & F1 & F2) (g' & G1 & G2). exists (fun y => f' (g' y)). split.
  - intros x Hx. destruct (F1 x Hx) as [V1 E1]. destruct (G1 _ V1) as [V2 E2]. split; [exact V2|congruence].
  - intros y Hy. destruct (G2 y Hy) as [V1 E1]. destruct (F2 _ V1) as [V2 E2]. split; [exact V2|congruence].
Qed.
Lemma has_inv_fold {A} (V : A -> Prop) (g : A -> nat -> A) l : (forall i, In i l -> has_inv V (fun x => g x i)) ->
  has_inv V (fun x => fold_left g l x).
Proof.
  induction l as [|a l IH]; intros H.
  - exists (fun x => x). cbn. auto.
  - cbn [fold_left]. apply (has_inv_comp V (fun x => g x a) (fun x => fold_left g l x)).
    + apply H. now left.
    + apply IH. intros. apply H. now right.
Qed.
Lemma at_of_rc f r c : (r < 4)%nat -> (c < 4)%nat -> at_rc (of_rc f) r c = f r c.
Proof.
  intros Hr Hc. unfold at_rc, of_rc. rewrite nth_map_seq by lia. f_equal.
  - symmetry. apply (Nat.mod_unique _ _ c); lia.
  - symmetry. apply (Nat.div_unique _ _ _ r); lia.
Qed.
Lemma of_rc_ext f s : length s = 16%nat -> (forall r c, (r < 4)%nat -> (c < 4)%nat -> f r c = at_rc s r c) -> of_rc f = s.
Proof.
  intros L H. apply (nth_ext_eq _ _ 0); [now rewrite of_rc_length|]. rewrite of_rc_length. intros i Hi.
  unfold of_rc. rewrite nth_map_seq by lia.
  rewrite H by (first [apply Nat.mod_upper_bound; lia | apply Nat.div_lt_upper_bound; lia]).
  unfold at_rc. f_equal. pose proof (Nat.div_mod i 4 ltac:(lia)). lia.
Qed.
Lemma SubBytes_inv : has_inv block16 SubBytes.
Proof.
  exists (fun s => of_rc (fun r c => inv_sbox (at_rc s r c))). split.
  - intros s H. split; [now apply SubBytes_block|]. apply of_rc_ext; [apply H|]. intros r c Hr Hc.
    unfold SubBytes. rewrite at_of_rc by assumption. now apply inv_sbox_spec, at_byte.
  - intros s H. split.
    + apply of_rc_bytes. intros. now apply inv_sbox_spec, at_byte.
    + apply of_rc_ext; [apply H|]. intros r c Hr Hc.
      rewrite at_of_rc by assumption. now apply inv_sbox_spec, at_byte.
Qed.
Ltac four r := destruct r as [|[|[|[|r]]]]; [| | | |lia].
Lemma ShiftRows_inv : has_inv block16 ShiftRows.
Proof.
  exists (fun s => of_rc (fun r c => at_rc s r ((c + 4 - r) mod 4))).
  assert (M : forall a, (a mod 4 < 4)%nat) by (intros; apply Nat.mod_upper_bound; lia).
  split.
  - intros s H. split; [now apply ShiftRows_block|]. apply of_rc_ext; [apply H|]. intros r c Hr Hc.
    unfold ShiftRows. rewrite at_of_rc by auto. f_equal. four r; four c; reflexivity.
  - intros s H. split.
    + apply of_rc_bytes. intros. apply at_byte; auto.
    + apply of_rc_ext; [apply H|]. intros r c Hr Hc.
      rewrite at_of_rc by auto. f_equal. four r; four c; reflexivity.
Qed.
(** MixColumns applied twice, and four times. *)
Definition mix2 (s : list Z) : list Z := of_rc (fun r c =>
  Z.lxor (at_rc s r c) (mul8 2 (mul8 2 (Z.lxor (at_rc s r c) (at_rc s ((r + 2) mod 4) c))))).
Lemma mul8_2_byte x : byte x -> byte (mul8 2 x).
Proof. apply mul8_byte. unfold byte; lia. Qed.
Lemma mul2_lxor a b : byte a -> byte b -> mul8 2 (Z.lxor a b) = Z.lxor (mul8 2 a) (mul8 2 b).
Proof. intros. apply mul8_lxor_r; [assumption|assumption|unfold byte; lia]. Qed.
#[local] Opaque mul8.
Ltac bytes := repeat first [assumption | apply xor_byte | apply mul8_2_byte].
Lemma MixColumns_2 s : block16 s -> MixColumns (MixColumns s) = mix2 s.
Proof.
  intros H. apply of_rc_ext; [reflexivity|]. intros r c Hr Hc.
  assert (M : forall a, (a mod 4 < 4)%nat) by (intros; apply Nat.mod_upper_bound; lia).
  unfold mix2, MixColumns. rewrite !at_of_rc by auto.
  pose proof (at_byte s 0 c H ltac:(lia) Hc). pose proof (at_byte s 1 c H ltac:(lia) Hc).
  pose proof (at_byte s 2 c H ltac:(lia) Hc). pose proof (at_byte s 3 c H ltac:(lia) Hc).
  four r; cbn [Nat.add]; change (1 mod 4)%nat with 1%nat; change (2 mod 4)%nat with 2%nat;
    change (3 mod 4)%nat with 3%nat; change (4 mod 4)%nat with 0%nat; change (5 mod 4)%nat with 1%nat;
    change (6 mod 4)%nat with 2%nat; cbn [Nat.add]; change (1 mod 4)%nat with 1%nat; change (2 mod 4)%nat with 2%nat;
    change (3 mod 4)%nat with 3%nat; change (4 mod 4)%nat with 0%nat; change (5 mod 4)%nat with 1%nat;
    change (6 mod 4)%nat with 2%nat;
    rewrite !(mul8_3 (at_rc _ _ _)) by assumption;
    rewrite mul8_3 by bytes; rewrite !mul2_lxor by bytes; lxor_solve.
Qed.
Lemma mix2_2 s : block16 s -> mix2 (mix2 s) = s.
Proof.
  intros H. apply of_rc_ext; [apply H|]. intros r c Hr Hc.
  assert (M : forall a, (a mod 4 < 4)%nat) by (intros; apply Nat.mod_upper_bound; lia).
  unfold mix2. rewrite !at_of_rc by auto.
  assert (E : (((r + 2) mod 4 + 2) mod 4 = r)%nat) by (four r; reflexivity). rewrite E.
  pose proof (at_byte s r c H Hr Hc) as B1. pose proof (at_byte s ((r + 2) mod 4) c H (M _) Hc) as B2.
  revert B1 B2. generalize (at_rc s r c) as a. generalize (at_rc s ((r + 2) mod 4) c) as b. intros b a B1 B2.
  rewrite !mul2_lxor by bytes. lxor_solve.
Qed.
Lemma MixColumns_inv : has_inv block16 MixColumns.
Proof.
  exists (fun s => MixColumns (mix2 s)).
  assert (M2 : forall s, block16 s -> block16 (mix2 s)).
  { intros s H. rewrite <- MixColumns_2 by assumption. now do 2 apply MixColumns_block. }
  split.
  - intros s H. pose proof (MixColumns_block s H) as H1. split; [exact H1|].
    rewrite <- MixColumns_2 by exact H1. rewrite MixColumns_2 by (now apply MixColumns_block).
    change (mix2 (MixColumns (MixColumns s)) = s). rewrite MixColumns_2 by exact H. now apply mix2_2.
  - intros s H. split; [now apply MixColumns_block, M2|].
    rewrite MixColumns_2 by now apply M2. now apply mix2_2.
Qed.
Lemma AddRoundKey_inv k : block16 k -> has_inv block16 (fun s => AddRoundKey s k).
Proof.
  intros K. exists (fun s => AddRoundKey s k).
  assert (E : forall s, block16 s -> AddRoundKey (AddRoundKey s k) k = s).
  { intros s H. apply of_rc_ext; [apply H|]. intros r c Hr Hc. unfold AddRoundKey.
    rewrite at_of_rc by assumption. lxor_solve. }
  split; intros s H; (split; [now apply AddRoundKey_block|now apply E]).
Qed.
Lemma aes_pure_inv alg key : bytes_n (klen alg) key -> has_inv block16 (aes_pure alg key).
Proof.
  intros HK.
  assert (Hk : (0 < nk_of alg)%nat) by (destruct alg; cbn; lia).
  assert (Hr : (0 < nr_of alg)%nat) by (destruct alg; cbn; lia).
  pose proof (schedule_words (nk_of alg) key (4 * (nr_of alg + 1)) Hk HK) as W.
  pose proof (schedule_length (nk_of alg) key (4 * (nr_of alg + 1))) as L.
  unfold aes_pure, fips_aes. set (w := schedule _ _ _) in *. clearbody w.
  assert (RK : forall i, (i < nr_of alg + 1)%nat -> block16 (round_key w i))
    by (intros; now apply (round_key_block w (nr_of alg + 1))).
  apply (has_inv_comp block16 (fun input => AddRoundKey input (round_key w 0))
    (fun s => AddRoundKey (ShiftRows (SubBytes (fold_left (fun s i => AddRoundKey (MixColumns (ShiftRows (SubBytes s))) (round_key w i)) (seq 1 (nr_of alg - 1)) s))) (round_key w (nr_of alg)))).
  { apply AddRoundKey_inv, RK. lia. }
  apply (has_inv_comp block16 (fun s => fold_left (fun s i => AddRoundKey (MixColumns (ShiftRows (SubBytes s))) (round_key w i)) (seq 1 (nr_of alg - 1)) s)
    (fun s => AddRoundKey (ShiftRows (SubBytes s)) (round_key w (nr_of alg)))).
  - apply has_inv_fold. intros i Hi. apply in_seq in Hi.
    apply (has_inv_comp block16 SubBytes (fun s => AddRoundKey (MixColumns (ShiftRows s)) (round_key w i))); [apply SubBytes_inv|].
    apply (has_inv_comp block16 ShiftRows (fun s => AddRoundKey (MixColumns s) (round_key w i))); [apply ShiftRows_inv|].
    apply (has_inv_comp block16 MixColumns (fun s => AddRoundKey s (round_key w i))); [apply MixColumns_inv|].
    apply AddRoundKey_inv, RK. lia.
  - apply (has_inv_comp block16 SubBytes (fun s => AddRoundKey (ShiftRows s) (round_key w (nr_of alg)))); [apply SubBytes_inv|].
    apply (has_inv_comp block16 ShiftRows (fun s => AddRoundKey s (round_key w (nr_of alg)))); [apply ShiftRows_inv|].
    apply AddRoundKey_inv, RK. lia.
Qed.
