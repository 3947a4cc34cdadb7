(** AES-GCM of the model against the bit strings of SP 800-38D. *)
From Coq Require Import ZArith List Bool Arith Lia.
From Verif Require Import Base P_Base M_Int P_Int M_Seq P_Seq M_Bytes P_Bytes M_ChaCha M_AES P_Word P_Stream
  S_ChaCha S_GF2 P_GF2 S_AES P_GF128 P_AES P_Poly1305 P_GCM S_GCM.
Import ListNotations.
Local Open Scope Z_scope.

(** ** Strings of bits *)
Lemma str_length s x : length (str_of s x) = s.
Proof. unfold str_of. now rewrite map_length, seq_length. Qed.
Lemma bxor_map {A} (f g : A -> bool) l : bxor (map f l) (map g l) = map (fun i => xorb (f i) (g i)) l.
Proof. induction l as [|a l IH]; cbn; [reflexivity|now rewrite IH]. Qed.
Lemma str_lxor s a b : bxor (str_of s a) (str_of s b) = str_of s (Z.lxor a b).
Proof. unfold str_of. rewrite bxor_map. apply map_ext. intros i. symmetry. apply Z.lxor_spec. Qed.
Lemma str_app a b x : str_of (a + b) x = str_of a (x / 2 ^ Z.of_nat b) ++ str_of b x.
Proof.
  unfold str_of. rewrite seq_app, map_app. f_equal.
  - apply map_ext_in. intros i Hi. apply in_seq in Hi. rewrite Z.div_pow2_bits by lia. f_equal. lia.
  - rewrite <- (Nat.add_0_r (0 + a)). cbn [Nat.add].
    apply (nth_ext _ _ false false); [now rewrite !map_length, !seq_length|].
    rewrite map_length, seq_length. intros i Hi.
    rewrite (nth_indep _ false (Z.testbit x (Z.of_nat (a + b - 1 - 0)))) by now rewrite map_length, seq_length.
    rewrite (map_nth (fun i => Z.testbit x (Z.of_nat (a + b - 1 - i)))), seq_nth by exact Hi.
    rewrite nth_map_seq by exact Hi. f_equal. lia.
Qed.
Lemma str_mod s n x : (s <= n)%nat -> str_of s (x mod 2 ^ Z.of_nat n) = str_of s x.
Proof.
  intros H. unfold str_of. apply map_ext_in. intros i Hi. apply in_seq in Hi. apply Z.mod_pow2_bits_low. lia.
Qed.
Lemma str_snoc s x : str_of (S s) x = str_of s (x / 2) ++ [Z.testbit x 0].
Proof. rewrite <- (Nat.add_1_r s), str_app. reflexivity. Qed.
Lemma int_str s x : int_of (str_of s x) = x mod 2 ^ Z.of_nat s.
Proof.
  revert x. induction s as [|s IH]; intros x; [cbn; now rewrite Z.mod_1_r|].
  rewrite str_snoc. unfold int_of in *. rewrite fold_left_app. cbn [fold_left]. rewrite IH.
  rewrite Nat2Z.inj_succ, Z.pow_succ_r by lia.
  rewrite Z.rem_mul_r by (try apply Z.pow_nonzero; try apply Z.pow_pos_nonneg; lia). rewrite Z.bit0_mod. lia.
Qed.
Lemma str_shift s x : (0 < s)%nat -> 0 <= x < 2 ^ Z.of_nat s -> shift_right (str_of s x) = str_of s (Z.shiftr x 1).
Proof.
  intros Hs Hx. destruct s as [|s]; [lia|]. rewrite str_snoc. unfold shift_right. rewrite removelast_last.
  change (S s) with (1 + s)%nat. rewrite str_app. rewrite Z.shiftr_div_pow2 by lia. change (2 ^ 1) with 2.
  replace (x / 2 / 2 ^ Z.of_nat s) with 0; [reflexivity|].
  rewrite Z.div_div by (try apply Z.pow_pos_nonneg; lia).
  rewrite Nat2Z.inj_succ, Z.pow_succ_r in Hx by lia. symmetry. now apply Z.div_small.
Qed.
Lemma str_last s x : (0 < s)%nat -> last (str_of s x) false = Z.testbit x 0.
Proof. intros Hs. destruct s as [|s]; [lia|]. rewrite str_snoc. apply last_last. Qed.

(** ** Strings of bytes *)
Lemma bits_length l : length (bits_of l) = (8 * length l)%nat.
Proof. induction l as [|a l IH]; [reflexivity|]. cbn [bits_of flat_map length]. rewrite app_length, str_length. fold (bits_of l). lia. Qed.
Lemma bits_app a b : bits_of (a ++ b) = bits_of a ++ bits_of b.
Proof. apply flat_map_app. Qed.
Lemma bits_cons a l : bits_of (a :: l) = str_of 8 a ++ bits_of l.
Proof. reflexivity. Qed.
Lemma bits_firstn k l : firstn (8 * k) (bits_of l) = bits_of (firstn k l).
Proof.
  revert k. induction l as [|a l IH]; intros k; [now rewrite !firstn_nil|].
  destruct k as [|k]; [reflexivity|]. cbn [firstn]. rewrite !bits_cons. rewrite firstn_app, str_length.
  rewrite firstn_all2 by (rewrite str_length; lia). f_equal.
  replace (8 * S k - 8)%nat with (8 * k)%nat by lia. apply IH.
Qed.
Lemma bits_skipn k l : skipn (8 * k) (bits_of l) = bits_of (skipn k l).
Proof.
  revert k. induction l as [|a l IH]; intros k; [now rewrite !skipn_nil|].
  destruct k as [|k]; [reflexivity|]. cbn [skipn]. rewrite bits_cons, skipn_app, str_length.
  rewrite skipn_all2 by (rewrite str_length; lia). cbn [app].
  replace (8 * S k - 8)%nat with (8 * k)%nat by lia. apply IH.
Qed.
Lemma bxor_app a b c d : length a = length b -> bxor (a ++ c) (b ++ d) = bxor a b ++ bxor c d.
Proof.
  revert b. induction a as [|x a IH]; intros [|y b] H; try discriminate H; [reflexivity|].
  cbn. f_equal. apply IH. now injection H.
Qed.
Lemma bits_lxor a b : bxor (bits_of a) (bits_of b) = bits_of (zip_with Z.lxor a b).
Proof.
  revert b. induction a as [|x a IH]; intros [|y b]; try reflexivity.
  rewrite zip_with_cons, !bits_cons, bxor_app by now rewrite !str_length. now rewrite str_lxor, IH.
Qed.
Lemma be_str_S n x : be_str (S n) x = (x / 256 ^ Z.of_nat n) mod 256 :: be_str n x.
Proof.
  unfold be_str. cbn [seq map]. f_equal; [do 3 f_equal; lia|].
  rewrite <- seq_shift, map_map. apply map_ext. intros i. do 4 f_equal. lia.
Qed.
Lemma pow256 n : 256 ^ Z.of_nat n = 2 ^ Z.of_nat (8 * n).
Proof. change 256 with (2 ^ 8). rewrite <- Z.pow_mul_r by lia. f_equal. lia. Qed.
Lemma str_bits n x : str_of (8 * n) x = bits_of (be_str n x).
Proof.
  induction n as [|n IH]; [reflexivity|]. rewrite be_str_S, bits_cons, <- IH.
  replace (8 * S n)%nat with (8 + 8 * n)%nat by lia. rewrite str_app. f_equal. rewrite pow256.
  symmetry. now apply (str_mod 8 8).
Qed.
Lemma be_str_num l : Forall byte l -> be_str (length l) (be_num l) = l.
Proof. intros H. rewrite be_str_eq, be_num_val. now apply be_bytes_be_val, bytes_is. Qed.
Lemma block_str b : block16 b -> bits_of b = str_of 128 (be_num b).
Proof. intros [L B]. rewrite (str_bits 16). rewrite <- L. now rewrite be_str_num. Qed.
Lemma octets_bits l : Forall byte l -> octets (bits_of l) = l.
Proof.
  intros H. unfold octets. rewrite bits_length, (Nat.mul_comm 8), Nat.div_mul by lia.
  induction H as [|a l Ha H IH]; [reflexivity|]. cbn [length pieces map].
  change (firstn 8) with (@firstn bool (8 * 1)). change (skipn 8) with (@skipn bool (8 * 1)).
  rewrite bits_firstn, bits_skipn. cbn [firstn skipn]. rewrite IH. f_equal.
  rewrite bits_cons, app_nil_r, int_str. apply Z.mod_small. exact Ha.
Qed.
Lemma bits_inj a b : Forall byte a -> Forall byte b -> bits_of a = bits_of b -> a = b.
Proof. intros Ha Hb E. rewrite <- (octets_bits a Ha), <- (octets_bits b Hb). now rewrite E. Qed.
Lemma bits_zeros k : bits_of (repeat 0 k) = zeros (8 * k).
Proof.
  induction k as [|k IH]; [reflexivity|]. cbn [repeat]. rewrite bits_cons, IH.
  replace (8 * S k)%nat with (8 + 8 * k)%nat by lia. unfold zeros. now rewrite repeat_app.
Qed.
Lemma nblocks_bits m : nblocks (bits_of m) = ((length m + 15) / 16)%nat.
Proof.
  unfold nblocks. rewrite bits_length.
  pose proof (Nat.div_mod (length m + 15) 16 ltac:(lia)). pose proof (Nat.mod_upper_bound (length m + 15) 16 ltac:(lia)).
  symmetry. apply (Nat.div_unique _ _ _ (8 * ((length m + 15) mod 16) + 7)); lia.
Qed.
Lemma padding_bits m : padding (bits_of m) = bits_of (pad16 m).
Proof.
  unfold padding, pad16. rewrite bits_zeros, nblocks_bits, bits_length. f_equal.
  pose proof (Nat.div_mod (length m) 16 ltac:(lia)) as D. pose proof (Nat.mod_upper_bound (length m) 16 ltac:(lia)) as U.
  set (q := (length m / 16)%nat) in *. set (r := (length m mod 16)%nat) in *.
  destruct (Nat.eq_dec r 0) as [E|E].
  - rewrite E. replace ((length m + 15) / 16)%nat with q by (apply (Nat.div_unique _ _ _ 15); lia). 
    change ((16 - 0) mod 16)%nat with 0%nat. lia.
  - replace ((length m + 15) / 16)%nat with (q + 1)%nat by (apply (Nat.div_unique _ _ _ (r - 1)); lia).
    rewrite (Nat.mod_small (16 - r)) by lia. lia.
Qed.

(** ** Algorithm 1 *)
Definition fbody (y : Z) (i : nat) (s : Z * Z) : Base.res (Z * Z) :=
  let '(res, sh) := s in
  let* m := op_shl U128 1 (127 - Z.of_nat i) in
  let res := if negb (declassify (op_and y m) =? declassify 0) then op_xor res sh else res in
  let* s1 := op_shr U128 sh 1 in
  let sh := if negb (declassify (op_and sh 1) =? declassify 0) then op_xor s1 IRRED else s1 in
  Ok (res, sh).
Lemma fmul_body x y : fmul x y = (let* ' (res, _) := for_range 0 128 (fbody y) (0, x) in Ok res).
Proof. reflexivity. Qed.
Lemma R_str : R = str_of 128 IRRED.
Proof. vm_compute. reflexivity. Qed.
Lemma mult_sim y n : forall i r sh, (i + n = 128)%nat -> u128r r -> u128r sh ->
  exists r' sh', for_range i n (fbody y) (r, sh) = Ok (r', sh') /\
    mult_steps (map (fun k => Z.testbit y (Z.of_nat (128 - 1 - k))) (seq i n)) (str_of 128 r) (str_of 128 sh) = str_of 128 r'.
Proof.
  induction n as [|n IH]; intros i r sh Hi Hr Hs; [eexists _, _; split; reflexivity|].
  cbn [for_range seq map mult_steps].
  unfold fbody at 1. rewrite op_shl_Ok by (change (bits U128) with 128; lia).
  rewrite op_shr_Ok by (change (bits U128) with 128; lia). cbn [bind].
  assert (Em : iwrap U128 (Z.shiftl 1 (127 - Z.of_nat i)) = 2 ^ (127 - Z.of_nat i)).
  { rewrite Z.shiftl_1_l. unfold iwrap. change (sgn U128) with false. change (bits U128) with 128. cbv iota. apply Z.mod_small.
    split; [apply Z.pow_nonneg; lia|]. apply Z.pow_lt_mono_r; lia. }
  rewrite Em. unfold op_and, op_xor, declassify.
  rewrite land_mask_nz by lia. rewrite (land_mask_nz sh 0 (Z.le_refl 0) : negb (Z.land sh 1 =? 0) = _).
  assert (Hs1 : u128r (Z.shiftr sh 1)).
  { unfold u128r in *. rewrite Z.shiftr_div_pow2 by lia. split; [apply Z.div_pos; lia|]. apply Z.div_lt_upper_bound; lia. }
  rewrite str_last, str_shift by first [lia | exact Hs]. rewrite R_str, !str_lxor.
  replace (Z.of_nat (128 - 1 - i)) with (127 - Z.of_nat i) by lia.
  destruct (Z.testbit y (127 - Z.of_nat i)), (Z.testbit sh 0); apply IH; try lia; try assumption;
    apply lxor_range; try lia; try assumption; unfold IRRED; lia.
Qed.
#[local] Opaque gcm_mul.
Lemma mult_Ok a b : u128r a -> u128r b -> mult (str_of 128 a) (str_of 128 b) = str_of 128 (gcm_mul a b).
Proof.
  intros Ha Hb. pose proof (fmul_Ok b a Hb Ha) as F. rewrite fmul_body in F.
  destruct (mult_sim a 128 0 0 b eq_refl) as (r & sh & E & M); [unfold u128r; lia|exact Hb|].
  rewrite E in F. cbn [bind] in F. rewrite gcm_mul_comm. assert (r = gcm_mul b a) by congruence. subst r.
  exact M.
Qed.

(** ** Algorithm 2 *)
Lemma nth_skipn_add (l : list Z) k i : nth i (skipn k l) 0 = nth (k + i) l 0.
Proof.
  revert k. induction l as [|a l IH]; intros k; [rewrite skipn_nil, !nth_overflow by (cbn; lia); reflexivity|].
  destruct k as [|k]; [reflexivity|]. cbn [skipn Nat.add nth]. apply IH.
Qed.
Lemma mblock_S m i : mblock m (S i) = mblock (skipn 16 m) i.
Proof. unfold mblock. apply map_ext. intros j. rewrite nth_skipn_add. f_equal. lia. Qed.
Lemma mblock_0 m : (16 <= length m)%nat -> mblock m 0 = firstn 16 m.
Proof.
  intros H. apply (nth_ext_eq _ _ 0); unfold mblock; rewrite map_length, seq_length; [rewrite firstn_length; lia|].
  intros i Hi. rewrite nth_map_seq by exact Hi. rewrite <- (firstn_skipn 16 m) at 1. rewrite app_nth1 by (rewrite firstn_length; lia).
  f_equal.
Qed.
Lemma pieces_bits n : forall m, length m = (16 * n)%nat ->
  pieces 128 n (bits_of m) = map (fun i => bits_of (mblock m i)) (seq 0 n).
Proof.
  induction n as [|n IH]; intros m L; [reflexivity|]. cbn [pieces seq map].
  change (@firstn bool 128) with (@firstn bool (8 * 16)). change (@skipn bool 128) with (@skipn bool (8 * 16)).
  rewrite bits_firstn, bits_skipn, mblock_0 by lia. f_equal. rewrite IH by (rewrite skipn_length; lia).
  rewrite <- seq_shift, map_map. apply map_ext. intros i. now rewrite mblock_S.
Qed.
Lemma GHASH_Ok h m : u128r h -> Forall byte m -> (length m mod 16 = 0)%nat ->
  GHASH (str_of 128 h) (bits_of m) = str_of 128 (ghash h m).
Proof.
  intros Hh Hm L. rewrite ghash_horner by exact Hh. unfold GHASH. rewrite nblocks_bits.
  pose proof (Nat.div_mod (length m) 16 ltac:(lia)) as D.
  assert (En : ((length m + 15) / 16 = length m / 16)%nat) by (symmetry; apply (Nat.div_unique _ _ _ 15); lia).
  rewrite En. rewrite pieces_bits by lia. generalize (length m / 16)%nat as n.
  induction n as [|n IH]; [reflexivity|].
  rewrite seq_S, map_app, fold_left_app, IH. cbn [map fold_left Nat.add].
  rewrite (block_str (mblock m n)) by now apply mblock_block. rewrite str_lxor.
  rewrite mult_Ok; [|apply lxor_range; [lia|apply horner_range|]|exact Hh].
  - rewrite horner_S, (Z.lxor_comm (ghash_block m n)).
    change (ghash_block m n) with (be_num (mblock m n)). reflexivity.
  - exact (proj2 (encode_Ok _ (mblock_block m n Hm))).
Qed.

(** ** Algorithm 3 *)
Section Gctr.
Context (alg : aes_variant) (key nonce : list Z) (HK : bytes_n (klen alg) key) (HN : bytes_n 12 nonce).
Let E := aes_pure alg key.
Let cb (c : Z) : list bool := bits_of (nonce ++ be_str 4 (c mod 2 ^ 32)).
Lemma ciph_cb c : CIPH E (cb c) = bits_of (ctr_block E nonce c).
Proof using HN. unfold CIPH, cb. rewrite octets_bits by (apply (ctr_input_block nonce _ HN)). reflexivity. Qed.
Lemma inc_cb c : inc 32 (cb c) = cb (c + 1).
Proof using HN.
  unfold inc, MSB, LSB, cb. rewrite bits_length. pose proof (ctr_input_block nonce (c mod 2 ^ 32) HN) as [L _]. rewrite L.
  change (8 * 16 - 32)%nat with (8 * 12)%nat. rewrite bits_firstn, bits_skipn.
  destruct HN as [LN _].
  assert (F : firstn 12 (nonce ++ be_str 4 (c mod 2 ^ 32)) = nonce).
  { rewrite firstn_app, LN, Nat.sub_diag, firstn_all2 by lia. apply app_nil_r. }
  assert (K : skipn 12 (nonce ++ be_str 4 (c mod 2 ^ 32)) = be_str 4 (c mod 2 ^ 32)).
  { rewrite skipn_app, LN, Nat.sub_diag, skipn_all2 by lia. reflexivity. }
  rewrite F, K, bits_app. apply (f_equal (app (bits_of nonce))).
  rewrite <- !(str_bits 4), int_str.
  change (8 * 4)%nat with 32%nat. change (2 ^ Z.of_nat 32) with (2 ^ 32). apply (f_equal (str_of 32)).
  now rewrite Z.mod_mod, Zplus_mod_idemp_l by lia.
Qed.
Lemma xor_ks_step (ks : nat -> list Z) m : length (ks 0%nat) = 16%nat ->
  xor_ks 16 ks m = zip_with Z.lxor (firstn 16 m) (ks 0%nat) ++ xor_ks 16 (fun i => ks (S i)) (skipn 16 m).
Proof using.
  intros L. apply (nth_ext_eq _ _ 0).
  - rewrite app_length, !xor_ks_length, zip_with_length, firstn_length, skipn_length. lia.
  - rewrite xor_ks_length. intros j Hj. rewrite nth_xor_ks by exact Hj.
    destruct (Nat.lt_ge_cases j 16) as [C|C].
    + rewrite app_nth1 by (rewrite zip_with_length, firstn_length; lia).
      rewrite (nth_zip_with _ _ _ _ 0 0) by (rewrite ?firstn_length; lia).
      rewrite Nat.div_small, Nat.mod_small by lia. f_equal.
      rewrite <- (firstn_skipn 16 m) at 1. rewrite app_nth1 by (rewrite firstn_length; lia). reflexivity.
    + rewrite app_nth2 by (rewrite zip_with_length, firstn_length; lia).
      rewrite zip_with_length, firstn_length. replace (Nat.min (Nat.min 16 (length m)) (length (ks 0%nat))) with 16%nat by lia.
      rewrite nth_xor_ks by (rewrite skipn_length; lia). rewrite nth_skipn_add. replace (16 + (j - 16))%nat with j by lia.
      replace j with (j - 16 + 1 * 16)%nat at 2 3 by lia. rewrite Nat.mod_add, Nat.div_add by lia. now rewrite Nat.add_1_r.
Qed.
Lemma gctr_steps_Ok n : forall m c, n = ((length m + 15) / 16)%nat ->
  gctr_steps (CIPH E) (cb c) (pieces 128 n (bits_of m)) = bits_of (ctr_pure alg key nonce c m).
Proof using HN HK.
  induction n as [|n IH]; intros m c Hn.
  - assert (L : length m = 0%nat).
    { pose proof (Nat.div_mod (length m + 15) 16 ltac:(lia)). pose proof (Nat.mod_upper_bound (length m + 15) 16 ltac:(lia)). lia. }
    apply length_zero_iff_nil in L. subst m. reflexivity.
  - cbn [pieces gctr_steps].
    change (@firstn bool 128) with (@firstn bool (8 * 16)). change (@skipn bool 128) with (@skipn bool (8 * 16)).
    rewrite bits_firstn, bits_skipn, ciph_cb, inc_cb, bits_lxor, IH.
    + rewrite <- bits_app. f_equal. unfold ctr_pure. rewrite (xor_ks_step _ m).
      * replace (c + Z.of_nat 0) with c by lia. f_equal. apply xor_ks_ext; [|lia]. intros i _. fold E. f_equal. lia.
      * apply (ctr_block_block alg key nonce _ HK HN).
    + rewrite skipn_length. pose proof (Nat.div_mod (length m + 15) 16 ltac:(lia)) as D.
      pose proof (Nat.mod_upper_bound (length m + 15) 16 ltac:(lia)) as U. rewrite <- Hn in D.
      destruct (Nat.lt_ge_cases (length m) 16) as [C|C].
      * replace (length m - 16)%nat with 0%nat by lia. cbn. lia.
      * apply (Nat.div_unique _ _ _ ((length m + 15) mod 16)); lia.
Qed.
Lemma GCTR_Ok c m : GCTR (CIPH E) (cb c) (bits_of m) = bits_of (ctr_pure alg key nonce c m).
Proof using HN HK. unfold GCTR. rewrite nblocks_bits. now apply gctr_steps_Ok. Qed.

(** ** Algorithms 4 and 5 *)
Lemma J0_Ok H : J0 H (bits_of nonce) = cb 1.
Proof using HN.
  unfold J0. rewrite bits_length. destruct HN as [LN _]. rewrite LN. cbn [Nat.mul Nat.add Nat.eqb].
  unfold cb. rewrite bits_app. f_equal.
Qed.
Lemma H_Ok : CIPH E (zeros 128) = bits_of (E (repeat 0 16)).
Proof using. unfold CIPH. change (zeros 128) with (zeros (8 * 16)). rewrite <- bits_zeros, octets_bits; [reflexivity|]. apply Forall_forall. intros x Hx. apply repeat_spec in Hx. subst. unfold byte; lia. Qed.
Lemma zeros16 : block16 (repeat 0 16).
Proof using. split; [reflexivity|]. apply Forall_forall. intros x Hx. apply repeat_spec in Hx. subst. unfold byte; lia. Qed.
Lemma H_block : block16 (E (repeat 0 16)).
Proof using HK. apply aes_encrypt_block_Ok; [exact HK|exact zeros16]. Qed.
Lemma data_bits aad ct : bits_of aad ++ padding (bits_of aad) ++ bits_of ct ++ padding (bits_of ct)
    ++ str_of 64 (len (bits_of aad)) ++ str_of 64 (len (bits_of ct)) = bits_of (gcm_mac_data aad ct).
Proof using.
  unfold gcm_mac_data, len. rewrite !bits_app, !padding_bits, !bits_length, <- !(str_bits 8), !Nat2Z.inj_mul. reflexivity.
Qed.
Lemma data_mod16 aad ct : (length (gcm_mac_data aad ct) mod 16 = 0)%nat.
Proof using.
  unfold gcm_mac_data. rewrite !app_length, !be_str_length.
  assert (P : forall l, exists q, gcm_padded_len l = (16 * q)%nat).
  { intros l. unfold gcm_padded_len. pose proof (Nat.div_mod l 16 ltac:(lia)).
    pose proof (Nat.mod_upper_bound l 16 ltac:(lia)).
    destruct (Nat.eqb_spec (l mod 16) 0) as [Q|Q]; [exists (l / 16)%nat|exists (l / 16 + 1)%nat]; lia. }
  pose proof (gcm_padded_len_eq aad) as E1. pose proof (gcm_padded_len_eq ct) as E2.
  destruct (P (length aad)) as [q1 P1]. destruct (P (length ct)) as [q2 P2].
  match goal with |- (?x mod 16 = 0)%nat => replace x with ((q1 + q2 + 1) * 16)%nat by lia end.
  apply Nat.mod_mul. lia.
Qed.
Lemma T_Ok aad ct : Forall byte aad -> Forall byte ct ->
  gcm_T (CIPH E) 128 (bits_of nonce) (bits_of aad) (bits_of ct) = bits_of (gcm_tag E nonce aad ct).
Proof using HN HK.
  intros Ha Hc. unfold gcm_T. rewrite data_bits, J0_Ok, H_Ok, (block_str _ H_block).
  pose proof (proj2 (encode_Ok _ H_block)) as Hh.
  rewrite GHASH_Ok by (first [exact Hh | now apply gcm_data_bytes | apply data_mod16]).
  rewrite (str_bits 16), GCTR_Ok. unfold MSB.
  rewrite firstn_all2 by (rewrite bits_length, ctr_pure_length, be_str_length; lia). apply (f_equal bits_of).
  unfold gcm_tag, ctr_pure, xor_ks. rewrite be_str_length. apply map_ext_in. intros i Hi. apply in_seq in Hi.
  rewrite Nat.mod_small, Nat.div_small by lia. reflexivity.
Qed.
Lemma AE_Ok aad msg : Forall byte aad -> Forall byte msg -> supported (bits_of msg) (bits_of aad) (bits_of nonce) = true ->
  GCM_AE (CIPH E) 128 (bits_of nonce) (bits_of msg) (bits_of aad) =
    Some (bits_of (ctr_pure alg key nonce 2 msg), bits_of (gcm_tag E nonce aad (ctr_pure alg key nonce 2 msg))).
Proof using HN HK.
  intros Ha Hm S. unfold GCM_AE. rewrite S, J0_Ok, inc_cb, GCTR_Ok. cbv zeta. change (1 + 1) with 2.
  rewrite T_Ok; [reflexivity|exact Ha|]. now apply ctr_pure_bytes.
Qed.
Lemma gcm_tag_bytes aad ct : bytes_n 16 (gcm_tag E nonce aad ct).
Proof using HN HK.
  split; [apply gcm_tag_length|]. unfold gcm_tag. apply Forall_forall. intros x Hx. apply in_map_iff in Hx as (i & <- & Hi).
  pose proof (ctr_block_block alg key nonce 1 HK HN) as [_ B1].
  apply xor_byte; apply nth_byte; [apply be_str_bytes|exact B1].
Qed.
Lemma AD_Ok aad ct tag : Forall byte aad -> Forall byte ct -> bytes_n 16 tag ->
  supported (bits_of ct) (bits_of aad) (bits_of nonce) = true ->
  GCM_AD (CIPH E) 128 (bits_of nonce) (bits_of ct) (bits_of aad) (bits_of tag) =
    option_map bits_of (if list_eqb (gcm_tag E nonce aad ct) tag then Some (ctr_pure alg key nonce 2 ct) else None).
Proof using HN HK.
  intros Ha Hm [LT BT] S. unfold GCM_AD. rewrite S, bits_length, LT. cbn [Nat.mul Nat.add Nat.eqb andb].
  rewrite T_Ok by assumption. rewrite J0_Ok, inc_cb, GCTR_Ok. change (1 + 1) with 2.
  destruct (list_eq_dec bool_dec (bits_of tag) (bits_of (gcm_tag E nonce aad ct))) as [Q|Q];
    destruct (list_eqb (gcm_tag E nonce aad ct) tag) eqn:L; try reflexivity.
  - apply bits_inj in Q; [|exact BT|].
    + subst tag. rewrite (proj2 (list_eqb_spec _ _)) in L by reflexivity. discriminate L.
    + apply gcm_tag_bytes.
  - apply list_eqb_spec in L. now destruct Q; rewrite L.
Qed.
End Gctr.
