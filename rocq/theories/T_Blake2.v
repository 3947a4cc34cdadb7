(** Theorems on BLAKE2 (blake2b.rs): C55, C56 and C57. *)
From Coq Require Import ZArith List Bool Arith Lia Sorting.Permutation.
From Verif Require Import Base P_Base M_Int P_Int M_Seq P_Seq M_Bytes P_Bytes P_Word S_ChaCha T_ChaCha P_GCM T_AES S_SHA2 S_Blake2 M_Blake2 P_Blake2.
Import ListNotations.
Open Scope Z_scope.
Local Notation B := blake2b_params.

(** Test vectors of tests/test_blake2b.rs *)
Definition kat_blake_abc : list Z := [0xba; 0x80; 0xa5; 0x3f; 0x98; 0x1c; 0x4d; 0xd; 0x6a; 0x27; 0x97; 0xb6; 0x9f; 0x12; 0xf6; 0xe9; 0x4c; 0x21; 0x2f; 0x14;
   0x68; 0x5a; 0xc4; 0xb7; 0x4b; 0x12; 0xbb; 0x6f; 0xdb; 0xff; 0xa2; 0xd1; 0x7d; 0x87; 0xc5; 0x39; 0x2a; 0xab; 0x79; 0x2d;
   0xc2; 0x52; 0xd5; 0xde; 0x45; 0x33; 0xcc; 0x95; 0x18; 0xd3; 0x8a; 0xa8; 0xdb; 0xf1; 0x92; 0x5a; 0xb9; 0x23; 0x86; 0xed;
   0xd4; 0x0; 0x99; 0x23].
Definition kat_blake_msg : list Z := [0x71; 0x77; 0x65; 0x72; 0x74; 0x7a; 0x75; 0x69; 0x6f; 0x70; 0x61; 0x73; 0x64; 0x66; 0x67; 0x68; 0x6a; 0x6b; 0x6c; 0x79;
   0x78; 0x63; 0x76; 0x62; 0x6e; 0x6d; 0x31; 0x32; 0x33; 0x34; 0x35; 0x36; 0x37; 0x38; 0x39; 0x71; 0x77; 0x65; 0x72; 0x74;
   0x7a; 0x75; 0x69; 0x6f; 0x70; 0x61; 0x73; 0x64; 0x66; 0x67; 0x68; 0x6a; 0x6b; 0x6c; 0x79; 0x78; 0x63; 0x76; 0x62; 0x6e;
   0x6d; 0x31; 0x32; 0x33; 0x34; 0x35; 0x36; 0x37; 0x38; 0x39; 0x71; 0x77; 0x65; 0x72; 0x74; 0x7a; 0x75; 0x69; 0x6f; 0x70;
   0x61; 0x73; 0x64; 0x66; 0x67; 0x68; 0x6a; 0x6b; 0x6c; 0x79; 0x78; 0x63; 0x76; 0x62; 0x6e; 0x6d; 0x31; 0x32; 0x33; 0x34;
   0x35; 0x36; 0x37; 0x38; 0x39; 0x71; 0x77; 0x65; 0x72; 0x74; 0x7a; 0x75; 0x69; 0x6f; 0x70; 0x61; 0x73; 0x64; 0x66; 0x67;
   0x68; 0x6a; 0x6b; 0x6c; 0x79; 0x78; 0x63; 0x76; 0x62; 0x6e; 0x6d; 0x31; 0x32; 0x33; 0x34; 0x35; 0x36; 0x37; 0x38; 0x39].
Definition kat_blake_digest : list Z := [0x5c; 0xc9; 0x7c; 0x7f; 0x9f; 0xf2; 0x0; 0x8b; 0x40; 0x12; 0x6f; 0x37; 0x3f; 0x43; 0x33; 0xfa; 0x34; 0x8d; 0x9f; 0x50;
   0x6; 0xb8; 0x73; 0x57; 0xa6; 0xd8; 0x61; 0x12; 0xa1; 0xa0; 0x43; 0x95; 0x4d; 0xa2; 0xe2; 0x8f; 0x1; 0xb2; 0xf9; 0x55;
   0xa9; 0x32; 0xfb; 0x8a; 0x8d; 0xa; 0x17; 0x87; 0xd0; 0xc6; 0xd9; 0x62; 0x77; 0x9c; 0xbc; 0x58; 0xbf; 0xdf; 0x89; 0x48;
   0x1c; 0x87; 0x46; 0x96].

(** * C55: BLAKE2b *)
(** The initial values are the fractional parts of the square roots of the first eight primes, for both
    word sizes, and every row of the schedule is a permutation. *)
Theorem C55_constants :
  (length ivb = 8%nat /\ forall i, (i < 8)%nat -> exists c, 0 <= c /\
     c ^ 2 <= nth i primes 0 * 2 ^ 128 < (c + 1) ^ 2 /\ nth i ivb 0 = c mod 2 ^ 64) /\
  (length ivs = 8%nat /\ forall i, (i < 8)%nat -> exists c, 0 <= c /\
     c ^ 2 <= nth i primes 0 * 2 ^ 64 < (c + 1) ^ 2 /\ nth i ivs 0 = c mod 2 ^ 32) /\
  (length blake_sigma = 192%nat /\ forall i, (i < 12)%nat ->
     Permutation (firstn 16 (skipn (16 * i) blake_sigma)) (seq 0 16) /\
     firstn 16 (skipn (16 * i) blake_sigma) = nth (i mod 10) SIGMA []).
Proof.
  split; [|split]; (split; [reflexivity|]).
  - assert (C : forallb (fun i => let p := nth i primes 0 * 2 ^ 128 in let c := Z.sqrt p in
        (0 <=? c) && (c ^ 2 <=? p) && (p <? (c + 1) ^ 2) && (nth i ivb 0 =? c mod 2 ^ 64)) (seq 0 8) = true)
      by (vm_compute; reflexivity).
    rewrite forallb_forall in C. intros i Hi. exists (Z.sqrt (nth i primes 0 * 2 ^ 128)).
    specialize (C i). rewrite in_seq in C. specialize (C ltac:(lia)). cbv zeta in C.
    revert C. generalize (Z.sqrt (nth i primes 0 * 2 ^ 128)). intros c C.
    rewrite !andb_true_iff, !Z.leb_le, Z.ltb_lt, Z.eqb_eq in C. tauto.
  - assert (C : forallb (fun i => let p := nth i primes 0 * 2 ^ 64 in let c := Z.sqrt p in
        (0 <=? c) && (c ^ 2 <=? p) && (p <? (c + 1) ^ 2) && (nth i ivs 0 =? c mod 2 ^ 32)) (seq 0 8) = true)
      by (vm_compute; reflexivity).
    rewrite forallb_forall in C. intros i Hi. exists (Z.sqrt (nth i primes 0 * 2 ^ 64)).
    specialize (C i). rewrite in_seq in C. specialize (C ltac:(lia)). cbv zeta in C.
    revert C. generalize (Z.sqrt (nth i primes 0 * 2 ^ 64)). intros c C.
    rewrite !andb_true_iff, !Z.leb_le, Z.ltb_lt, Z.eqb_eq in C. tauto.
  - intros i Hi. split.
    + assert (C : forallb (fun i => let l := firstn 16 (skipn (16 * i) blake_sigma) in
          (length l =? 16)%nat && forallb (fun x => existsb (Nat.eqb x) l) (seq 0 16)) (seq 0 12) = true) by (vm_compute; reflexivity).
      rewrite forallb_forall in C. specialize (C i). rewrite in_seq in C. specialize (C ltac:(lia)). cbv zeta in C.
      revert C. generalize (firstn 16 (skipn (16 * i) blake_sigma)). intros l C. apply andb_prop in C as [L C]. apply Nat.eqb_eq in L.
      symmetry. apply NoDup_Permutation_bis; [apply seq_NoDup|rewrite L, seq_length; lia|].
      intros x Hx. rewrite forallb_forall in C. apply C in Hx. apply existsb_exists in Hx as (y & Hy & E). apply Nat.eqb_eq in E. now subst.
    + do 12 (destruct i as [|i]; [vm_compute; reflexivity|]). lia.
Qed.
Example C55_constants_ex : nth 3 ivb 0 = 0xa54ff53a5f1d36f1 /\ nth 3 primes 0 = 7 /\ nth (16 * 10 + 1) blake_sigma 99%nat = 1%nat.
Proof. vm_compute. repeat split. Qed.

(** The mixing function and the compression function are those of the RFC and never panic, for every
    state, block, counter below 2^64 and flag. *)
Theorem C55_mix_is_rfc : forall v a b c d x y, words_n 16 v -> (a < 16)%nat -> (b < 16)%nat -> (c < 16)%nat -> (d < 16)%nat ->
  mix U64 v a b c d x y = Ok (mix_G B v a b c d x y) /\ words_n 16 (mix_G B v a b c d x y).
Proof. exact mix_Ok. Qed.
Example C55_mix_is_rfc_ex : words_n 16 (ivb ++ ivb).
Proof. split; [reflexivity|]. repeat constructor; discriminate. Qed.
Theorem C55_compress_is_rfc : forall h b t f, words_n 8 h -> bytes_n 128 b -> word64 t ->
  compress U64 h b [t; 0] f Blake2B = Ok (blake_F B h (blake_block B b 0) t f) /\ words_n 8 (blake_F B h (blake_block B b 0) t f).
Proof.
  intros h b t f Hh Hb Ht. pose proof Hb as [L F]. rewrite block_full by lia. change (128 * 0)%nat with 0%nat.
  change (skipn 0 b) with b. rewrite (firstn_all2 b) by lia. now apply compress_Ok.
Qed.
Example C55_compress_is_rfc_ex : words_n 8 ivb /\ bytes_n 128 (repeat 7 128) /\ word64 (2 ^ 63).
Proof. split; [split; [reflexivity|repeat constructor; discriminate]|]. split; [check_bytes|unfold word64; lia]. Qed.
Lemma blake2b_Ok m : Forall byte m -> Z.of_nat (length m) < 2 ^ 64 ->
  blake2b m = Ok (blake_output B 64 (blake_state m)) /\ bytes_n 64 (blake_output B 64 (blake_state m)).
Proof.
  intros F L. destruct (blake2_Ok m F L) as [E O]. split; [|exact O]. unfold blake2b. rewrite E. cbn [bind].
  apply arr_from_seq_Ok, O.
Qed.
(** Full statement of C55: for all m, blake2b m = Ok (rfc_blake2 B 64 m). It is false for messages of whole
    blocks (below); it holds for all others. *)
Theorem C55_blake2b_partial : forall m, Forall byte m -> Z.of_nat (length m) < 2 ^ 64 -> (length m mod 128)%nat <> 0%nat ->
  blake2b m = Ok (rfc_blake2 B 64 m) /\ bytes_n 64 (rfc_blake2 B 64 m).
Proof.
  intros m F L R. rewrite <- blake_state_rfc by exact R. now apply blake2b_Ok.
Qed.
Example C55_blake2b_partial_ex : Forall byte kat_blake_msg /\ (length kat_blake_msg mod 128)%nat <> 0%nat /\
  blake2b [0x61; 0x62; 0x63] = Ok kat_blake_abc /\ blake2b kat_blake_msg = Ok kat_blake_digest.
Proof.
  split; [apply (bytes_check 140); vm_compute; reflexivity|]. split; [vm_compute; discriminate|].
  split; vm_compute; reflexivity.
Qed.
(** What the code does for messages of whole blocks: no block is marked final; the empty message is
    not compressed at all. *)
Theorem C55_whole_blocks_never_final : forall m, Forall byte m -> Z.of_nat (length m) < 2 ^ 64 -> (length m mod 128)%nat = 0%nat ->
  blake2b m = Ok (blake_output B 64 (blake_chain B 64 m (length m / 128))).
Proof.
  intros m F L R. destruct (blake2b_Ok m F L) as [E _]. rewrite E. unfold blake_state. cbv zeta. now rewrite R.
Qed.
Example C55_whole_blocks_never_final_ex : Forall byte (repeat 9 256) /\ (length (repeat 9 256) mod 128 = 0)%nat.
Proof. split; [apply (bytes_check 256); vm_compute; reflexivity|reflexivity]. Qed.
Theorem C55_blake2b_refuted :
  (exists d, blake2b [] = Ok d /\ d <> rfc_blake2 B 64 []) /\
  (exists m d, length m = 128%nat /\ Forall byte m /\ blake2b m = Ok d /\ d <> rfc_blake2 B 64 m).
Proof.
  split.
  - eexists. split; [vm_compute; reflexivity|]. vm_compute. discriminate.
  - exists (repeat 1 128). eexists. split; [reflexivity|]. split; [apply (bytes_check 128); vm_compute; reflexivity|].
    split; [vm_compute; reflexivity|]. vm_compute. discriminate.
Qed.

(** * C56: the variant Blake2S *)
Lemma for_range_panic {S} (I : S -> Prop) (f : nat -> S -> res S) n k s : (k < n)%nat -> I s ->
  (forall i s s', I s -> f i s = Ok s' -> I s') -> (forall s, I s -> panics (f k s)) -> panics (for_range 0 n f s).
Proof.
  intros Hk. assert (G : forall m a s, (a <= k < a + m)%nat -> I s -> (forall i s s', I s -> f i s = Ok s' -> I s') ->
     (forall s, I s -> panics (f k s)) -> panics (for_range a m f s)).
  { clear. induction m; intros a s Hk H P Q; [lia|]. cbn [for_range].
    destruct (f a s) as [s'|p] eqn:E; cbn [bind]; [|now exists p].
    destruct (Nat.eq_dec a k) as [->|N]; [destruct (Q s H) as [p Ep]; congruence|].
    apply IHm; trivial; [lia|]. exact (P a s s' H E). }
  intros H P Q. apply G; trivial. lia.
Qed.
Lemma upd_len {A} (l : list A) i x l' : upd l i x = Ok l' -> length l' = length l.
Proof. unfold upd. destruct (i <? length l)%nat; [|discriminate]. intros [= <-]. apply set_nth_length. Qed.
Lemma bind_panics {A C} (x : res A) (f : A -> res C) : panics x -> panics (bind x f).
Proof. intros [p ->]. now exists p. Qed.
(** The output loop cannot fill a digest of 32 bytes. *)
Lemma digest32_panics t h : panics (for_range 0 8 (fun i d => for_range 0 8 (fun j d =>
      let* hi := idx h i in
      let* b := blake_get_byte t hi j in
      upd d (i * 8 + j) b) d) (seq_new 0 32)).
Proof.
  apply (for_range_panic (fun d => length d = 32%nat)) with (k := 4%nat); [lia|reflexivity| |].
  - intros i s s' L E.
    assert (G : forall n a s s', length s = 32%nat -> for_range a n (fun j d => let* hi := idx h i in
      let* b := blake_get_byte t hi j in upd d (i * 8 + j) b) s = Ok s' -> length s' = 32%nat).
    { clear. induction n; intros a s s' L E; cbn [for_range] in E; [now injection E as <-|].
      destruct (idx h i) as [hi|]; [|discriminate E]. cbn [bind] in E.
      destruct (blake_get_byte t hi a) as [b|]; [|discriminate E]. cbn [bind] in E.
      destruct (upd s (i * 8 + a) b) as [s1|] eqn:U; [|discriminate E]. cbn [bind] in E. apply IHn in E; trivial.
      now rewrite (upd_len _ _ _ _ U). }
    now apply (G 8%nat 0%nat s).
  - intros s L. cbn [for_range]. apply bind_panics.
    destruct (idx h 4) as [hi|p]; cbn [bind]; [|now exists p]. destruct (blake_get_byte t hi 0) as [b|p]; cbn [bind]; [|now exists p].
    exists PIndex. rewrite upd_panic by (rewrite L; lia). reflexivity.
Qed.
Lemma blake2s_panics t data : panics (blake2 t data Blake2S).
Proof.
  unfold blake2. 
  destruct (idx (iv t) 0) as [h0|p]; cbn [bind]; [|now exists p].
  destruct (upd (iv t) 0 _) as [h1|p]; cbn [bind]; [|now exists p].
  destruct (num_chunks data 128) as [n|p]; cbn [bind]; [|now exists p].
  destruct (for_range 0 n _ _) as [[h c]|p]; cbn [bind]; [|now exists p]. apply digest32_panics.
Qed.
Lemma u32_panics data alg : panics (blake2 U32 data alg).
Proof.
  unfold blake2. change (idx (iv U32) 0) with (Ok 0x6a09e667). cbn [bind].
  destruct (upd (iv U32) 0 _) as [h1|p] eqn:U; cbn [bind]; [|now exists p].
  apply upd_len in U. change (length (iv U32)) with 8%nat in U.
  rewrite num_chunks_Ok by lia. cbn [bind].
  destruct data as [|x data].
  - (* the output reads byte 4 of a 32-bit word *)
    cbn [length Nat.add Nat.sub]. change (127 / 128)%nat with 0%nat.
    match goal with |- panics (bind (for_range 0 0 ?f ?s) ?g) => change (panics (g s)) end. cbv beta iota zeta.
    apply (for_range_panic (fun _ => True)) with (k := 0%nat); [lia|exact I|trivial|]. intros s _.
    apply (for_range_panic (fun _ => True)) with (k := 4%nat); [lia|exact I|trivial|]. intros s' _.
    rewrite (idx_Ok h1 0 0) by lia. now exists POverflow.
  - (* the block is not sixteen words long *)
    set (data' := x :: data). assert (L : (1 <= length data')%nat) by (cbn; lia). clearbody data'. clear x data.
    assert (N : exists n, ((length data' + 128 - 1) / 128)%nat = S n).
    { exists ((length data' - 1) / 128)%nat. replace (length data' + 128 - 1)%nat with (1 * 128 + (length data' - 1))%nat by lia.
      rewrite Nat.div_add_l by lia. lia. }
    destruct N as [n ->]. apply bind_panics. cbn [for_range]. apply bind_panics. 
    rewrite get_chunk_Ok by lia. cbn [bind].
    assert (P : forall h m c l, length m = 128%nat -> panics (compress U32 h m c l alg)).
    { intros h m c l Lm. unfold compress, make_array. change (bytes_of U32) with 4%nat. rewrite Lm. now exists PAssert. }
    destruct (Nat.eqb_spec (Nat.min 128 (length data' - 128 * 0)) 128) as [Q|Q].
    + match goal with |- panics (bind ?X _) => destruct X as [?|p]; [cbn [bind]|now exists p] end.
      rewrite seq_from_seq_Ok. cbn [bind]. apply bind_panics, P. rewrite firstn_length, skipn_length. lia.
    + match goal with |- panics (bind ?X _) => destruct X as [?|p]; [cbn [bind]|now exists p] end.
      rewrite (update_start_Ok 0) by (rewrite firstn_length, seq_new_length; lia). cbn [bind]. apply bind_panics, P.
      unfold seq_new. rewrite skipn_repeat, app_length, repeat_length, firstn_length. lia.
Qed.
(** Full statement of C56: blake2::<U32>(data, Blake2S) returns a digest. It never does. *)
Theorem C56_blake2s_always_panics : forall data, panics (blake2 U32 data Blake2S).
Proof. intros data. apply blake2s_panics. Qed.
Theorem C56_blake2s_refuted : exists data, Forall byte data /\ ~ is_ok (blake2 U32 data Blake2S).
Proof.
  exists [0x61; 0x62; 0x63]. split; [apply (bytes_check 3); reflexivity|]. intros [d E].
  destruct (C56_blake2s_always_panics [0x61; 0x62; 0x63]) as [p Ep]. congruence.
Qed.
(** Of the four instances the types allow, only U64 with Blake2B ever returns a digest. *)
Theorem C56_only_blake2b_usable : forall t alg data, (t = U32 \/ t = U64) -> Forall byte data -> Z.of_nat (length data) < 2 ^ 64 ->
  (is_ok (blake2 t data alg) <-> t = U64 /\ alg = Blake2B).
Proof.
  intros t alg data Ht F L. split.
  - intros [d E]. destruct alg; [destruct (blake2s_panics t data) as [p Ep]; congruence|].
    destruct Ht as [->| ->]; [destruct (u32_panics data Blake2B) as [p Ep]; congruence|now split].
  - intros [-> ->]. destruct (blake2_Ok data F L) as [E _]. unfold is_ok. eexists. exact E.
Qed.
Example C56_only_blake2b_usable_ex : Forall byte [1; 2; 3] /\ blake2 U32 [1; 2; 3] Blake2S = Panic PAssert /\ is_ok (blake2 U64 [1; 2; 3] Blake2B).
Proof.
  split; [apply (bytes_check 3); reflexivity|]. split; [vm_compute; reflexivity|].
  apply (C56_only_blake2b_usable U64 Blake2B [1; 2; 3]); [now right|apply (bytes_check 3); reflexivity|cbn; lia|now split].
Qed.

(** * C57: the counter *)
(** Value of a counter of two words of w bits, low word first. *)
Definition counter_value (w : Z) (t : list Z) : Z := nth 0 t 0 + 2 ^ w * nth 1 t 0.
(** Full statement of C57: inc_counter t x has the value of t plus x, modulo 2^128, for all t and x. *)
Theorem C57_inc_counter_partial : forall t0 x, word64 t0 -> word64 x -> t0 + x < 2 ^ 64 ->
  exists r, inc_counter u64 [t0; 0] x = Ok r /\ words_n 2 r /\ counter_value 64 r = counter_value 64 [t0; 0] + x.
Proof.
  unfold word64. intros t0 x H0 Hx H. exists [t0 + x; 0]. split; [apply inc_counter_Ok; lia|]. split.
  - split; [reflexivity|]. repeat constructor; unfold word64; lia.
  - unfold counter_value. cbn [nth]. lia.
Qed.
Example C57_inc_counter_partial_ex : word64 (2 ^ 64 - 129) /\ word64 128 /\ (2 ^ 64 - 129) + 128 < 2 ^ 64.
Proof. unfold word64. lia. Qed.
(** The high word of the result is always zero, and there is no carry: the addition panics. *)
Theorem C57_high_word_lost : forall t0 t1 x, word64 t0 -> word64 t1 -> word64 x ->
  (t0 + x < 2 ^ 64 -> inc_counter u64 [t0; t1] x = Ok [t0 + x; 0]) /\
  (2 ^ 64 <= t0 + x -> panics (inc_counter u64 [t0; t1] x)).
Proof.
  unfold word64. intros t0 t1 x H0 H1 Hx. split; intros H; [apply inc_counter_Ok; lia|].
  exists POverflow. unfold inc_counter. cbn [idx nth_error bind]. unfold op_add. cbn [sec u64]. unfold chk.
  destruct (in_tyb u64 (t0 + x)) eqn:E; [|reflexivity]. apply in_tyb_spec in E. unfold in_ty in E. cbn in E. lia.
Qed.
Example C57_high_word_lost_ex : word64 5 /\ word64 7 /\ inc_counter u64 [5; 7] 128 = Ok [133; 0].
Proof. split; [unfold word64; lia|]. split; [unfold word64; lia|reflexivity]. Qed.
Theorem C57_inc_counter_refuted :
  (exists t x r, words_n 2 t /\ word64 x /\ counter_value 64 t + x < 2 ^ 128 /\ inc_counter u64 t x = Ok r /\
     counter_value 64 r <> counter_value 64 t + x) /\
  (exists t x, words_n 2 t /\ word64 x /\ counter_value 64 t + x < 2 ^ 128 /\ panics (inc_counter u64 t x)).
Proof.
  split.
  - exists [0; 1], 128, [128; 0]. split; [split; [reflexivity|repeat constructor; discriminate]|].
    split; [unfold word64; lia|]. split; [reflexivity|]. split; [reflexivity|discriminate].
  - exists [2 ^ 64 - 1; 0], 128. split; [split; [reflexivity|repeat constructor; discriminate]|].
    split; [unfold word64; lia|]. split; [reflexivity|]. now exists POverflow.
Qed.
Print Assumptions C55_constants.
Print Assumptions C55_mix_is_rfc.
Print Assumptions C55_compress_is_rfc.
Print Assumptions C55_blake2b_partial.
Print Assumptions C55_whole_blocks_never_final.
Print Assumptions C55_blake2b_refuted.
Print Assumptions C56_blake2s_always_panics.
Print Assumptions C56_blake2s_refuted.
Print Assumptions C56_only_blake2b_usable.
Print Assumptions C57_inc_counter_partial.
Print Assumptions C57_high_word_lost.
Print Assumptions C57_inc_counter_refuted.
