(** Lemmas about the Keccak sponge. *)
From Coq Require Import ZArith List Bool Arith Lia.
From Verif Require Import Base P_Base M_Int P_Int M_Seq P_Seq P_Word P_Stream S_ChaCha P_AES S_Keccak M_Keccak P_Keccak.
Import ListNotations.
Local Open Scope nat_scope.
#[local] Opaque kf_pure keccak_f.
Lemma nth_firstn {A} (d : A) n l i : nth i (firstn n l) d = if i <? n then nth i l d else d.
Proof.
  revert n i. induction l as [|x l IH]; intros n i.
  - rewrite firstn_nil. destruct (i <? n), i; reflexivity.
  - destruct n; [now destruct i|]. destruct i; [reflexivity|]. cbn [firstn nth]. rewrite IH. reflexivity.
Qed.

Lemma xor_bits_length a b : length (xor_bits a b) = Nat.min (length a) (length b).
Proof. unfold xor_bits. now rewrite map_length, combine_length. Qed.
Lemma nth_xor_bits a b i : length a = length b -> i < length a ->
  nth i (xor_bits a b) false = xorb (nth i a false) (nth i b false).
Proof.
  intros L Hi. unfold xor_bits.
  rewrite (nth_indep _ false (xorb (fst (false, false)) (snd (false, false)))) by (rewrite map_length, combine_length; lia).
  rewrite (map_nth (fun p => xorb (fst p) (snd p))), combine_nth by exact L. reflexivity.
Qed.
Lemma nth_concat_const {A} (d : A) k ls i : 0 < k -> Forall (fun l => length l = k) ls -> i < k * length ls ->
  nth i (concat ls) d = nth (i mod k) (nth (i / k) ls []) d.
Proof.
  intros Hk F. revert i. induction F as [|l ls L F IH]; intros i Hi; [cbn in Hi; lia|]. cbn [concat length] in *.
  destruct (Nat.lt_ge_cases i k).
  - rewrite app_nth1 by lia. now rewrite Nat.div_small, Nat.mod_small by lia.
  - rewrite app_nth2 by lia. rewrite L, IH by lia.
    replace i with (i - k + 1 * k) at 3 4 by lia. rewrite Nat.div_add, Nat.mod_add by lia.
    rewrite Nat.add_1_r. reflexivity.
Qed.
Lemma nth_bits_bytes l i : i < 8 * length l ->
  nth i (byte_bits l) false = Z.testbit (nth (i / 8) l 0%Z) (Z.of_nat (i mod 8)).
Proof. intros. apply nth_string_bits; lia. Qed.
Lemma nth_bits_lanes s i : state s -> i < 1600 ->
  nth i (lane_bits s) false = Z.testbit (nth (i / 64) s 0%Z) (Z.of_nat (i mod 64)).
Proof. intros [L _] H. apply nth_string_bits; lia. Qed.
Lemma byte_bits_length l : length (byte_bits l) = 8 * length l.
Proof. apply string_bits_length. Qed.
Lemma byte_bits_app a b : byte_bits (a ++ b) = byte_bits a ++ byte_bits b.
Proof. apply string_bits_app. Qed.
Lemma byte_bits_zero n : byte_bits (repeat 0%Z n) = repeat false (8 * n).
Proof. induction n; [reflexivity|]. replace (8 * S n) with (8 + 8 * n) by lia. cbn [repeat byte_bits string_bits flat_map] in *.
  unfold byte_bits, string_bits in IHn. rewrite IHn. rewrite repeat_app. reflexivity. Qed.
Lemma byte_bits_part l a k : byte_bits (firstn k (skipn a l)) = firstn (8 * k) (skipn (8 * a) (byte_bits l)).
Proof.
  unfold byte_bits, string_bits. rewrite !flat_map_concat_map.
  assert (F : Forall (fun w => length w = 8) (map (word_bits 8) l)).
  { apply Forall_forall. intros x Hx. apply in_map_iff in Hx as (y & <- & _). apply word_bits_length. }
  rewrite concat_skipn by exact F.
  rewrite concat_firstn.
  - now rewrite <- firstn_map, <- skipn_map.
  - rewrite skipn_map. apply Forall_forall. intros x Hx. apply in_map_iff in Hx as (y & <- & _). apply word_bits_length.
Qed.

(** ** Absorbing one block *)
Lemma shl_byte b o : byte b -> (0 <= o <= 56)%Z ->
  op_shl U64 (cast U64 b) o = Ok (Z.shiftl b o) /\ wordn 64 (Z.shiftl b o).
Proof.
  intros Hb Ho. unfold byte in Hb.
  assert (R : (0 <= Z.shiftl b o < 2 ^ 64)%Z).
  { rewrite Z.shiftl_mul_pow2 by lia. split; [assert (0 < 2 ^ o)%Z by (apply Z.pow_pos_nonneg; lia); nia|].
    apply Z.lt_le_trans with (2 ^ 8 * 2 ^ o)%Z.
    - apply Z.mul_lt_mono_pos_r; [apply Z.pow_pos_nonneg; lia|lia].
    - rewrite <- Z.pow_add_r by lia. apply Z.pow_le_mono_r; lia. }
  split; [|exact R]. unfold op_shl, cast, iwrap. cbn [sgn bits U64].
  replace (o <? 64)%Z with true by (symmetry; apply Z.ltb_lt; lia).
  rewrite (Z.mod_small b) by lia. now rewrite Z.mod_small by exact R.
Qed.
Definition block_bit (block : list Z) (n j : nat) : bool :=
  if j / 8 <? n then Z.testbit (nth (j / 8) block 0%Z) (Z.of_nat (j mod 8)) else false.
Lemma absorb_xor s block : state s -> Forall byte block -> length block <= 200 ->
  exists s', for_range 0 (length block) (fun i s =>
    let* b := idx block i in
    let w := (i / 8)%nat in
    let o := (8 * Z.of_nat (i mod 8))%Z in
    let* x := idx s w in
    let* y := op_shl U64 (cast U64 b) o in
    upd s w (op_xor x y)) s = Ok s' /\ state s' /\
  lane_bits s' = xor_bits (lane_bits s) (byte_bits block ++ repeat false (1600 - 8 * length block)).
Proof.
  intros Hs Hb HL.
  match goal with |- context [for_range 0 ?n ?f s] =>
    destruct (for_range_inv (fun i s' => state s' /\ forall j, j < 1600 ->
       nth j (lane_bits s') false = xorb (nth j (lane_bits s) false) (block_bit block i j)) f 0 n s) as (s' & E & I1 & I2) end.
  - split; [exact Hs|]. intros j Hj. unfold block_bit. cbn. now rewrite xorb_false_r.
  - intros i s' Hi [I1 I2]. cbn [Nat.add] in Hi.
    assert (W : i / 8 < 25) by (apply Nat.div_lt_upper_bound; lia).
    assert (M := Nat.mod_upper_bound i 8 ltac:(discriminate)). assert (D := Nat.div_mod_eq i 8).
    rewrite (idx_Ok _ _ 0%Z) by lia. cbn [bind]. rewrite (idx_Ok _ _ 0%Z) by (destruct I1; lia). cbn [bind].
    assert (B : byte (nth i block 0%Z)) by (rewrite Forall_forall in Hb; apply Hb, nth_In; lia).
    destruct (shl_byte (nth i block 0%Z) (8 * Z.of_nat (i mod 8)) B ltac:(lia)) as [-> R]. cbn [bind].
    rewrite upd_Ok by (destruct I1; lia). eexists. split; [reflexivity|].
    assert (I1' : state (set_nth s' (i / 8) (op_xor (nth (i / 8) s' 0%Z) (Z.shiftl (nth i block 0%Z) (8 * Z.of_nat (i mod 8)))))).
    { split; [rewrite set_nth_length; apply I1|]. apply Forall_set_nth; [apply I1|].
      apply wordn_lxor; [apply nth_word, I1|exact R]. }
    split; [exact I1'|]. intros j Hj. rewrite nth_bits_lanes by assumption. rewrite nth_set_nth.
    specialize (I2 j Hj). rewrite nth_bits_lanes in I2 by assumption.
    assert (Dj := Nat.div_mod_eq j 64). assert (Mj := Nat.mod_upper_bound j 64 ltac:(discriminate)).
    assert (D8 := Nat.div_mod_eq j 8). assert (M8 := Nat.mod_upper_bound j 8 ltac:(discriminate)).
    destruct I1 as [L1 F1]. rewrite L1. replace (i / 8 <? 25) with true by (symmetry; apply Nat.ltb_lt; lia).
    rewrite andb_true_r. destruct (Nat.eqb_spec (j / 64) (i / 8)) as [Q|Q].
    + rewrite <- Q at 1. unfold op_xor. rewrite Z.lxor_spec, I2, xorb_assoc. f_equal.
      rewrite Z.shiftl_spec by lia. unfold block_bit.
      destruct (Nat.ltb_spec (j / 8) i), (Nat.ltb_spec (j / 8) (S i)); try lia.
      * (* earlier byte of the word *)
        rewrite (Z.testbit_neg_r _ (Z.of_nat (j mod 64) - 8 * Z.of_nat (i mod 8))) by lia. now rewrite xorb_false_r.
      * assert (Ji : j / 8 = i) by lia. rewrite Ji, xorb_false_l. f_equal.
        clear - Q Ji D M Dj Mj D8 M8. lia.
      * (* later byte *)
        rewrite xorb_false_l. apply (P_Int.testbit_small _ 8); [exact B|]. lia.
    + rewrite I2. f_equal. unfold block_bit.
      destruct (Nat.ltb_spec (j / 8) i), (Nat.ltb_spec (j / 8) (S i)); try lia; try reflexivity.
  - exists s'. split; [exact E|]. split; [exact I1|].
    apply (nth_ext_eq _ _ false).
    + rewrite xor_bits_length, app_length, repeat_length, byte_bits_length, !lane_bits_length by assumption. lia.
    + intros j Hj. rewrite lane_bits_length in Hj by assumption. rewrite I2 by exact Hj.
      rewrite nth_xor_bits; [|rewrite app_length, repeat_length, byte_bits_length, lane_bits_length by assumption; lia|now rewrite lane_bits_length].
      f_equal. unfold block_bit. cbn [Nat.add].
      assert (D8 := Nat.div_mod_eq j 8). assert (M8 := Nat.mod_upper_bound j 8 ltac:(discriminate)).
      destruct (Nat.ltb_spec (j / 8) (length block)).
      * rewrite app_nth1 by (rewrite byte_bits_length; lia). now rewrite nth_bits_bytes by lia.
      * rewrite app_nth2 by (rewrite byte_bits_length; lia). now rewrite nth_repeat.
Qed.
Lemma absorb_block_Ok s block : state s -> Forall byte block -> length block <= 200 ->
  exists s', absorb_block s block = Ok s' /\ state s' /\
  lane_bits s' = keccak_f (xor_bits (lane_bits s) (byte_bits block ++ repeat false (1600 - 8 * length block))).
Proof.
  intros Hs Hb HL. destruct (absorb_xor s block Hs Hb HL) as (s' & E & S' & B). exists (kf_pure s'). split.
  { unfold absorb_block. etransitivity; [apply (f_equal (fun r => bind r keccakf1600)); exact E|]. cbn [bind].
    now apply keccakf_Ok. }
  split; [now apply kf_state|].
  rewrite kf_bits by assumption. now rewrite B.
Qed.

(** ** Squeezing *)
Definition iter_kf (k : nat) (s : list Z) : list Z := Nat.iter k kf_pure s.
Lemma iter_kf_state k s : state s -> state (iter_kf k s).
Proof. intros H. induction k; [exact H|]. now apply (kf_state (iter_kf k s)). Qed.
Lemma iter_kf_bits k s : state s -> lane_bits (iter_kf k s) = Nat.iter k keccak_f (lane_bits s).
Proof. intros H. induction k; [reflexivity|]. change (lane_bits (kf_pure (iter_kf k s)) = keccak_f (Nat.iter k keccak_f (lane_bits s))). rewrite kf_bits by now apply iter_kf_state. now rewrite <- IHk. Qed.
Definition out_byte (s : list Z) (rate i : nat) : Z :=
  cast U8 (op_and (Z.shiftr (nth ((i mod rate) / 8) (iter_kf (i / rate) s) 0%Z) (8 * Z.of_nat ((i mod rate) mod 8))) 0xff).
Lemma squeeze_Ok s n rate : state s -> 0 < rate <= 200 ->
  squeeze s n rate = Ok (map (out_byte s rate) (seq 0 n)).
Proof.
  intros Hs Hr. unfold squeeze.
  match goal with |- context [for_range 0 n ?f ?s0] =>
    destruct (for_range_inv (fun i st => st = (map (out_byte s rate) (seq 0 i) ++ repeat 0%Z (n - i), iter_kf (i / rate) s)) f 0 n s0)
      as (st & E & I) end.
  - cbn [seq map app]. rewrite Nat.sub_0_r, Nat.div_0_l by lia. reflexivity.
  - intros i st Hi ->. replace (rate =? 0) with false by (symmetry; apply Nat.eqb_neq; lia). cbn [bind].
    assert (M := Nat.mod_upper_bound i rate ltac:(lia)). assert (D := Nat.div_mod_eq i rate).
    assert (P : (i mod rate) / 8 < 25) by (apply Nat.div_lt_upper_bound; lia).
    assert (St := iter_kf_state (i / rate) s Hs).
    rewrite (idx_Ok _ _ 0%Z) by (destruct St; lia). cbn [bind].
    assert (M8 := Nat.mod_upper_bound (i mod rate) 8 ltac:(lia)).
    unfold op_shr. cbn [bits U64]. replace (8 * Z.of_nat ((i mod rate) mod 8) <? 64)%Z with true by (symmetry; apply Z.ltb_lt; lia).
    cbn [bind]. rewrite upd_Ok by (rewrite app_length, map_length, seq_length, repeat_length; lia). cbn [bind].
    rewrite set_nth_app by (rewrite app_length, map_length, seq_length, repeat_length; lia).
    assert (Q : (if (i + 1) mod rate =? 0 then keccakf1600 (iter_kf (i / rate) s) else Ok (iter_kf (i / rate) s))
      = Ok (iter_kf (S i / rate) s)).
    { destruct (Nat.eqb_spec ((i + 1) mod rate) 0) as [Z|Z].
      - rewrite keccakf_Ok by assumption. apply (f_equal Ok).
        assert (D' := Nat.div_mod_eq (i + 1) rate). rewrite Z, Nat.add_0_r in D'.
        replace (S i / rate) with (S (i / rate)); [reflexivity|]. rewrite Nat.add_1_r in D'. nia.
      - apply (f_equal Ok). f_equal. apply (Nat.div_unique _ _ _ (S (i mod rate))); [|lia].
        destruct (Nat.eq_dec (S (i mod rate)) rate); [|lia]. exfalso. apply Z.
        replace (i + 1) with ((i / rate + 1) * rate) by nia. now apply Nat.mod_mul; lia. }
    rewrite Q. cbn [bind]. eexists. split; [reflexivity|]. f_equal.
    rewrite seq_S, map_app. cbn [map Nat.add]. rewrite <- app_assoc.
    rewrite firstn_app, map_length, seq_length, Nat.sub_diag. cbn [firstn]. rewrite app_nil_r.
    rewrite firstn_all2 by (rewrite map_length, seq_length; lia). f_equal. cbn [app]. f_equal.
    rewrite skipn_app, map_length, seq_length. rewrite skipn_all2 by (rewrite map_length, seq_length; lia).
    rewrite skipn_repeat. cbn [app]. f_equal. lia.
  - rewrite E. cbn [Nat.add] in I. subst st. cbn [bind]. now rewrite Nat.sub_diag, app_nil_r.
Qed.
Lemma out_byte_bit s rate i k : k < 8 ->
  Z.testbit (out_byte s rate i) (Z.of_nat k) =
  Z.testbit (nth ((i mod rate) / 8) (iter_kf (i / rate) s) 0%Z) (Z.of_nat (8 * ((i mod rate) mod 8) + k)).
Proof.
  intros Hk. unfold out_byte, cast. rewrite iwrap_testbit by (cbn; lia).
  cbn [bits U8]. replace (Z.of_nat k <? 8)%Z with true by (symmetry; apply Z.ltb_lt; lia).
  unfold op_and. rewrite Z.land_spec.
  replace (Z.testbit 0xff (Z.of_nat k)) with true by (do 8 (destruct k; [reflexivity|]); lia).
  rewrite andb_true_r, Z.shiftr_spec by lia. f_equal. lia.
Qed.
Lemma out_byte_byte s rate i : byte (out_byte s rate i).
Proof.
  unfold out_byte, cast, iwrap, byte. cbn [sgn bits U8]. apply Z.mod_pos_bound. lia.
Qed.
Lemma squeeze_bits_Ok s n rate : state s -> 0 < rate <= 200 ->
  byte_bits (map (out_byte s rate) (seq 0 n)) = squeeze_bits keccak_f (8 * rate) (8 * n) (lane_bits s).
Proof.
  intros Hs Hr. unfold squeeze_bits.
  set (m := 8 * n / (8 * rate) + 1).
  assert (F : Forall (fun l => length l = 8 * rate) (map (fun k => firstn (8 * rate) (Nat.iter k keccak_f (lane_bits s))) (seq 0 m))).
  { apply Forall_forall. intros x Hx. apply in_map_iff in Hx as (k & <- & _). rewrite <- iter_kf_bits by assumption.
    rewrite firstn_length, lane_bits_length by now apply iter_kf_state. lia. }
  assert (Dn := Nat.div_mod_eq (8 * n) (8 * rate)). assert (Mn := Nat.mod_upper_bound (8 * n) (8 * rate) ltac:(lia)).
  assert (LC : 8 * n <= 8 * rate * m) by (unfold m; nia).
  apply (nth_ext_eq _ _ false).
  - rewrite byte_bits_length, map_length, seq_length, firstn_length, (concat_length_const (8 * rate)) by exact F.
    rewrite map_length, seq_length. lia.
  - intros j Hj. rewrite byte_bits_length, map_length, seq_length in Hj.
    rewrite nth_bits_bytes by (rewrite map_length, seq_length; lia).
    rewrite nth_map_seq by (apply Nat.div_lt_upper_bound; lia).
    assert (D8 := Nat.div_mod_eq j 8). assert (M8 := Nat.mod_upper_bound j 8 ltac:(discriminate)).
    rewrite out_byte_bit by exact M8.
    rewrite nth_firstn. replace (j <? 8 * n) with true by (symmetry; apply Nat.ltb_lt; lia).
    rewrite (nth_concat_const false (8 * rate)) by (trivial; rewrite ?map_length, ?seq_length; lia).
    assert (Q : j / (8 * rate) = j / 8 / rate) by (now rewrite Nat.div_div by lia).
    rewrite Q. assert (Dr := Nat.div_mod_eq (j / 8) rate). assert (Mr := Nat.mod_upper_bound (j / 8) rate ltac:(lia)).
    assert (R : j mod (8 * rate) = 8 * ((j / 8) mod rate) + j mod 8).
    { symmetry. apply (Nat.mod_unique _ _ (j / 8 / rate)); nia. }
    rewrite R. rewrite nth_map_seq.
    2: { unfold m. rewrite <- Q. assert (j / (8 * rate) <= 8 * n / (8 * rate)) by (apply Nat.div_le_mono; lia). lia. }
    cbn [Nat.add]. rewrite <- iter_kf_bits by assumption.
    rewrite nth_firstn. replace (_ <? 8 * rate) with true by (symmetry; apply Nat.ltb_lt; lia).
    set (p := (j / 8) mod rate) in *.
    assert (Dp := Nat.div_mod_eq p 8). assert (Mp := Nat.mod_upper_bound p 8 ltac:(discriminate)).
    rewrite nth_bits_lanes by (first [now apply iter_kf_state | lia]).
    replace ((8 * p + j mod 8) / 64) with (p / 8) by (apply (Nat.div_unique _ _ _ (8 * (p mod 8) + j mod 8)); lia).
    replace ((8 * p + j mod 8) mod 64) with (8 * (p mod 8) + j mod 8) by (apply (Nat.mod_unique _ _ (p / 8)); lia).
    reflexivity.
Qed.

(** ** The last block *)
Definition kblock (rate : nat) (tail : list Z) (p : Z) : list Z :=
  if length tail =? rate - 1 then tail ++ [Z.lor p 128] else tail ++ [p] ++ repeat 0%Z (rate - 2 - length tail) ++ [128%Z].
Lemma kblock_length rate tail p : length tail < rate -> length (kblock rate tail p) = rate.
Proof.
  intros H. unfold kblock. destruct (Nat.eqb_spec (length tail) (rate - 1)); rewrite !app_length, ?repeat_length; cbn [length]; lia.
Qed.
Lemma finish_buf rate tail p : length tail < rate ->
  (let* buf := upd (tail ++ repeat 0%Z (rate - length tail)) (length tail) p in
   let* k := usub rate 1 in
   let* x := idx buf k in
   upd buf k (op_or x 128)) = Ok (kblock rate tail p).
Proof.
  intros H. rewrite upd_Ok by (rewrite app_length, repeat_length; lia). cbn [bind].
  rewrite usub_Ok by lia. cbn [bind].
  rewrite set_nth_app by (rewrite app_length, repeat_length; lia).
  rewrite firstn_app, Nat.sub_diag, firstn_all. cbn [firstn]. rewrite app_nil_r.
  replace (skipn (S (length tail)) (tail ++ repeat 0%Z (rate - length tail))) with (repeat 0%Z (rate - 1 - length tail)).
  2: { rewrite skipn_app, skipn_all2, skipn_repeat by lia. cbn [app]. f_equal. lia. }
  unfold kblock. destruct (Nat.eqb_spec (length tail) (rate - 1)) as [E|E].
  - rewrite <- E, Nat.sub_diag. cbn [repeat].
    rewrite (idx_Ok _ _ 0%Z) by (rewrite app_length; cbn; lia). cbn [bind]. rewrite upd_Ok by (rewrite app_length; cbn; lia).
    rewrite set_nth_app by (rewrite app_length; cbn; lia).
    rewrite app_nth2, Nat.sub_diag by lia. cbn [nth].
    rewrite firstn_app, Nat.sub_diag, firstn_all. cbn [firstn]. rewrite app_nil_r.
    rewrite skipn_all2 by (rewrite app_length; cbn; lia). reflexivity.
  - replace (rate - 1 - length tail) with (rate - 2 - length tail + 1) by lia. rewrite repeat_app. cbn [repeat].
    set (z := rate - 2 - length tail).
    replace (tail ++ p :: repeat 0%Z z ++ [0%Z]) with ((tail ++ [p] ++ repeat 0%Z z) ++ [0%Z]) by (now rewrite <- !app_assoc).
    assert (L : length (tail ++ [p] ++ repeat 0%Z z) = rate - 1) by (rewrite !app_length, repeat_length; cbn [length]; unfold z; lia).
    rewrite (idx_Ok _ _ 0%Z) by (rewrite app_length, L; cbn; lia). cbn [bind]. rewrite upd_Ok by (rewrite app_length, L; cbn; lia).
    rewrite set_nth_app by (rewrite app_length, L; cbn; lia). rewrite app_nth2, L, Nat.sub_diag by lia. cbn [nth].
    rewrite firstn_app, L, Nat.sub_diag. cbn [firstn]. rewrite app_nil_r. rewrite firstn_all2 by lia.
    rewrite skipn_all2 by (rewrite app_length, L; cbn; lia). now rewrite <- !app_assoc.
Qed.
(** p is the byte of the suffix bits, the first bit of the padding, and zeros. *)
Definition suffix_byte (sfx : list bool) (p : Z) : Prop :=
  byte p /\ length sfx <= 6 /\ word_bits 8 p = sfx ++ [true] ++ repeat false (7 - length sfx).
Lemma word_bits_lor p : word_bits 8 (Z.lor p 128) = firstn 7 (word_bits 8 p) ++ [true].
Proof. unfold word_bits. cbn [seq map firstn app]. rewrite !Z.lor_spec. cbn. now rewrite !orb_false_r, orb_true_r. Qed.
Lemma kblock_bits rate tail p sfx (m : list Z) : suffix_byte sfx p -> length tail < rate ->
  length m mod rate = length tail -> 
  byte_bits (kblock rate tail p) = byte_bits tail ++ sfx ++ pad101 (8 * rate) (8 * length m + length sfx).
Proof.
  intros (Hp & L6 & E) Hl Hm.
  assert (J : (8 * rate - (8 * length m + length sfx + 2) mod (8 * rate)) mod (8 * rate) = 8 * rate - 8 * length tail - length sfx - 2).
  { assert (D := Nat.div_mod_eq (length m) rate). rewrite Hm in D.
    destruct (Nat.eq_dec (8 * length tail + length sfx + 2) (8 * rate)) as [Q|Q].
    - replace ((8 * length m + length sfx + 2) mod (8 * rate)) with 0.
      + rewrite Nat.sub_0_r, Nat.mod_same by lia. lia.
      + apply (Nat.mod_unique _ _ (length m / rate + 1)); nia.
    - replace ((8 * length m + length sfx + 2) mod (8 * rate)) with (8 * length tail + length sfx + 2).
      + rewrite Nat.mod_small by lia. lia.
      + apply (Nat.mod_unique _ _ (length m / rate)); nia. }
  unfold pad101. rewrite J. unfold kblock. destruct (Nat.eqb_spec (length tail) (rate - 1)) as [Q|Q].
  - rewrite byte_bits_app. f_equal. cbn [byte_bits string_bits flat_map]. unfold byte_bits, string_bits. cbn [flat_map]. rewrite app_nil_r, word_bits_lor, E.
    replace (8 * rate - 8 * length tail - length sfx - 2) with (6 - length sfx) by lia.
    replace (7 - length sfx) with (6 - length sfx + 1) by lia. rewrite repeat_app. rewrite !app_assoc.
    rewrite firstn_app. replace (7 - length ((sfx ++ [true]) ++ repeat false (6 - length sfx))) with 0
      by (rewrite !app_length, repeat_length; cbn [length]; lia).
    rewrite firstn_O, app_nil_r, firstn_all2 by (rewrite !app_length, repeat_length; cbn [length]; lia). reflexivity.
  - rewrite byte_bits_app. f_equal. rewrite !byte_bits_app, byte_bits_zero.
    change (byte_bits [p]) with (word_bits 8 p ++ []). change (byte_bits [128%Z]) with (repeat false 7 ++ [true]).
    rewrite app_nil_r, E. rewrite <- !app_assoc. f_equal. f_equal. rewrite !app_assoc, <- !repeat_app. f_equal. f_equal. lia.
Qed.

(** ** Absorbing *)
Definition absorb_n (r n : nat) (P : list bool) : list bool :=
  fold_left (fun S i => keccak_f (xor_bits S (firstn r (skipn (r * i) P) ++ repeat false (1600 - r)))) (seq 0 n) (repeat false 1600).
Lemma absorb_n_S r n P : absorb_n r (S n) P = keccak_f (xor_bits (absorb_n r n P) (firstn r (skipn (r * n) P) ++ repeat false (1600 - r))).
Proof. unfold absorb_n. now rewrite seq_S, fold_left_app. Qed.
Lemma absorb_n_app r n P Q : r * n <= length P -> absorb_n r n (P ++ Q) = absorb_n r n P.
Proof.
  induction n; intros H; [reflexivity|]. rewrite !absorb_n_S, IHn by lia. f_equal. f_equal. f_equal.
  rewrite skipn_app, firstn_app, skipn_length. replace (r - (length P - r * n)) with 0 by lia. cbn [firstn]. now rewrite app_nil_r.
Qed.
Lemma absorb_eq r P : absorb keccak_f r P = absorb_n r (length P / r) P.
Proof. reflexivity. Qed.
Definition absorb_step (rate : nat) (data : list Z) (i : nat) (st : list Z * list Z * nat) : res (list Z * list Z * nat) :=
  let '(s, buf, last_block_len) := st in
  let* ' (block_len, block) := get_chunk 0%Z data rate i in
  if (block_len =? rate)%nat then
    let* s := absorb_block s block in Ok (s, buf, last_block_len)
  else
    let* buf := update_start buf block in Ok (s, buf, block_len).
Lemma zero_state : state (repeat 0%Z 25) /\ lane_bits (repeat 0%Z 25) = repeat false 1600.
Proof. split; [split; [reflexivity|]|vm_compute; reflexivity]. repeat constructor; discriminate. Qed.
Lemma part_bytes' (m : list Z) a k : Forall byte m -> Forall byte (firstn k (skipn a m)).
Proof. intros H. apply Forall_forall. intros x Hx. rewrite Forall_forall in H. apply H.
  rewrite <- (firstn_skipn a m). apply in_or_app. right. rewrite <- (firstn_skipn k (skipn a m)). apply in_or_app. now left. Qed.
Lemma absorb_loop rate data : 0 < rate <= 200 -> Forall byte data ->
  exists s, for_range 0 ((length data + rate - 1) / rate) (absorb_step rate data) (repeat 0%Z 25, repeat 0%Z rate, 0)
    = Ok (s, skipn (rate * (length data / rate)) data ++ repeat 0%Z (rate - length data mod rate), length data mod rate)
  /\ state s /\ lane_bits s = absorb_n (8 * rate) (length data / rate) (byte_bits data).
Proof.
  intros Hr Hb. assert (D := Nat.div_mod_eq (length data) rate). assert (M := Nat.mod_upper_bound (length data) rate ltac:(lia)).
  set (q := length data / rate) in *. set (t := length data mod rate) in *.
  destruct (for_range_inv (fun i st => exists s, st = (s, repeat 0%Z rate, 0) /\ state s /\
      lane_bits s = absorb_n (8 * rate) i (byte_bits data)) (absorb_step rate data) 0 q (repeat 0%Z 25, repeat 0%Z rate, 0))
    as (st & E & s & -> & Hs & B).
  - exists (repeat 0%Z 25). split; [reflexivity|]. apply zero_state.
  - intros i st Hi (s & -> & Hs & B). unfold absorb_step.
    assert (Li : rate * (i + 1) <= length data) by nia.
    rewrite get_chunk_Ok by lia. cbn [bind]. rewrite Nat.min_l by lia. rewrite Nat.eqb_refl.
    assert (LL : length (firstn rate (skipn (rate * i) data)) = rate) by (rewrite firstn_length, skipn_length; lia).
    destruct (absorb_block_Ok s (firstn rate (skipn (rate * i) data)) Hs) as (s' & E & Hs' & B');
      [now apply part_bytes'|lia|]. rewrite E. cbn [bind]. eexists. split; [reflexivity|]. exists s'. split; [reflexivity|].
    split; [assumption|]. rewrite B', LL, B, absorb_n_S, byte_bits_part. do 5 f_equal. lia.
  - cbn [Nat.add] in B. exists s. split; [|split; assumption].
    destruct (Nat.eq_dec t 0) as [T|T].
    + replace ((length data + rate - 1) / rate) with q by (apply (Nat.div_unique _ _ _ (rate - 1)); lia).
      rewrite E. rewrite T. rewrite Nat.sub_0_r, skipn_all2 by lia. reflexivity.
    + replace ((length data + rate - 1) / rate) with (q + 1) by (apply (Nat.div_unique _ _ _ (t - 1)); lia).
      rewrite for_range_app, E. cbn [bind Nat.add for_range]. unfold absorb_step at 1.
      rewrite get_chunk_Ok by lia. cbn [bind]. rewrite Nat.min_r by lia.
      replace (length data - rate * q) with t by lia. replace (t =? rate) with false by (symmetry; apply Nat.eqb_neq; lia).
      rewrite firstn_all2 by (rewrite skipn_length; lia).
      assert (LS : length (skipn (rate * q) data) = t) by (rewrite skipn_length; lia).
      rewrite (update_start_Ok 0%Z) by (rewrite repeat_length; lia). cbn [bind]. rewrite skipn_repeat, LS. reflexivity.
Qed.
Lemma keccak_squeezes rate data p sfx : 0 < rate <= 200 -> Forall byte data -> suffix_byte sfx p ->
  exists s, state s /\ (forall n, keccak rate data p n = Ok (map (out_byte s rate) (seq 0 n))) /\
  lane_bits s = absorb keccak_f (8 * rate) ((byte_bits data ++ sfx) ++ pad101 (8 * rate) (length (byte_bits data ++ sfx))).
Proof.
  intros Hr Hb Hp. destruct (absorb_loop rate data Hr Hb) as (s & E & Hs & B).
  assert (D := Nat.div_mod_eq (length data) rate). assert (M := Nat.mod_upper_bound (length data) rate ltac:(lia)).
  set (q := length data / rate) in *. set (t := length data mod rate) in *. set (tail := skipn (rate * q) data) in *.
  assert (LT : length tail = t) by (unfold tail; rewrite skipn_length; lia).
  assert (TB : Forall byte tail).
  { unfold tail. rewrite <- (firstn_all (skipn (rate * q) data)). now apply part_bytes'. }
  assert (KB : Forall byte (kblock rate tail p)).
  { destruct Hp as (Hp & _). unfold kblock. destruct (_ =? _); apply Forall_app; (split; [exact TB|]).
    - repeat constructor; apply (lor_range 8); unfold byte in *; lia.
    - apply Forall_app. split; [repeat constructor; apply Hp|]. apply Forall_app. split; [|repeat constructor; lia].
      apply Forall_forall. intros x Hx. apply repeat_spec in Hx. subst. unfold byte; lia. }
  assert (KL : length (kblock rate tail p) = rate) by (apply kblock_length; lia).
  destruct (absorb_block_Ok s (kblock rate tail p) Hs KB ltac:(lia)) as (s' & E' & Hs' & B').
  exists s'. split; [exact Hs'|]. split.
  - intros n. unfold keccak. rewrite num_chunks_Ok by lia. cbn [bind].
    match goal with |- bind ?X ?g = _ => assert (EX : X = Ok (s, tail ++ repeat 0%Z (rate - t), t)) by exact E end.
    rewrite EX. cbn [bind]. clear EX.
    assert (F := finish_buf rate tail p ltac:(lia)). rewrite LT in F.
    destruct (upd (tail ++ repeat 0%Z (rate - t)) t p) as [b1|]; [|discriminate F]. cbn [bind] in F |- *.
    destruct (usub rate 1) as [k|]; [|discriminate F]. cbn [bind] in F |- *.
    destruct (idx b1 k) as [x|]; [|discriminate F]. cbn [bind] in F |- *. rewrite F. cbn [bind].
    rewrite E'. cbn [bind]. now apply squeeze_Ok.
  - rewrite B'.
    assert (PB : (byte_bits data ++ sfx) ++ pad101 (8 * rate) (length (byte_bits data ++ sfx)) =
       byte_bits (firstn (rate * q) data) ++ byte_bits (kblock rate tail p)).
    { rewrite (kblock_bits rate tail p sfx data) by (trivial; lia).
      rewrite app_length, byte_bits_length. rewrite !app_assoc. f_equal. f_equal.
      rewrite <- byte_bits_app. unfold tail. now rewrite firstn_skipn. }
    rewrite PB, absorb_eq. rewrite app_length, !byte_bits_length, KL, firstn_length, Nat.min_l by lia.
    replace ((8 * (rate * q) + 8 * rate) / (8 * rate)) with (S q) by (apply (Nat.div_unique _ _ _ 0); lia).
    rewrite absorb_n_S. assert (LF : length (byte_bits (firstn (rate * q) data)) = 8 * rate * q) by (rewrite byte_bits_length, firstn_length; lia).
    rewrite absorb_n_app by lia. rewrite skipn_app, skipn_all2 by lia. rewrite LF, Nat.sub_diag. cbn [skipn app].
    rewrite (firstn_all2 (byte_bits (kblock rate tail p))) by (rewrite byte_bits_length; lia). f_equal. f_equal.
    rewrite B. rewrite <- (firstn_skipn (rate * q) data) at 1. rewrite byte_bits_app. apply absorb_n_app. lia.
Qed.
Lemma keccak_Ok rate data p sfx n : 0 < rate <= 200 -> Forall byte data -> suffix_byte sfx p ->
  exists out, keccak rate data p n = Ok out /\ length out = n /\ Forall byte out /\
  byte_bits out = sponge keccak_f pad101 (8 * rate) (byte_bits data ++ sfx) (8 * n).
Proof.
  intros Hr Hb Hp. destruct (keccak_squeezes rate data p sfx Hr Hb Hp) as (s & Hs & E & B).
  exists (map (out_byte s rate) (seq 0 n)). split; [apply E|]. split; [now rewrite map_length, seq_length|]. split.
  - apply Forall_forall. intros x Hx. apply in_map_iff in Hx as (i & <- & _). apply out_byte_byte.
  - rewrite squeeze_bits_Ok by assumption. unfold sponge. now rewrite B.
Qed.
Lemma firstn_seq k a n : k <= n -> firstn k (seq a n) = seq a k.
Proof. intros H. replace n with (k + (n - k)) by lia. rewrite seq_app, firstn_app, seq_length, Nat.sub_diag, firstn_O, app_nil_r, firstn_all2 by (rewrite seq_length; lia). reflexivity. Qed.
Lemma keccak_prefix rate data p sfx k n : 0 < rate <= 200 -> Forall byte data -> suffix_byte sfx p -> k <= n ->
  exists out, keccak rate data p n = Ok out /\ keccak rate data p k = Ok (firstn k out).
Proof.
  intros Hr Hb Hp Hk. destruct (keccak_squeezes rate data p sfx Hr Hb Hp) as (s & Hs & E & B).
  exists (map (out_byte s rate) (seq 0 n)). split; [apply E|]. rewrite firstn_map, firstn_seq by assumption. apply E.
Qed.
