(** One ciphertext, two keys, for ChaCha20-Poly1305 (C102). *)
From Coq Require Import ZArith List Bool Arith Lia Znumtheory.
From Verif Require Import Base P_Base M_Int P_Int M_Seq P_Seq M_Bytes P_Bytes P_Word P_Stream S_ChaCha M_ChaCha P_ChaCha P_Poly1305
  T_ChaCha P_Prime T_Mac P_SumSet.
Import ListNotations.
Local Open Scope Z_scope.

(** ** The accumulator from an arbitrary start *)
Definition racc (a : Z) (m : list Z) (r : Z) : Z :=
  fold_left (fun acc i => ((acc + block_num m i) * r) mod P1305) (seq 0 (nblocks m)) a.
Lemma nblocks_app x y q : length x = (16 * q)%nat -> nblocks (x ++ y) = (q + nblocks y)%nat.
Proof.
  intros L. unfold nblocks. rewrite app_length, L. replace (16 * q + length y + 15)%nat with ((length y + 15) + q * 16)%nat by lia.
  rewrite Nat.div_add by lia. lia.
Qed.
Lemma block_num_app_l x y q i : length x = (16 * q)%nat -> (i < q)%nat -> block_num (x ++ y) i = block_num x i.
Proof.
  intros L H. unfold block_num. rewrite skipn_app, firstn_app, skipn_length.
  replace (16 - (length x - 16 * i))%nat with 0%nat by lia. cbn [firstn]. now rewrite app_nil_r.
Qed.
Lemma block_num_app_r x y q i : length x = (16 * q)%nat -> block_num (x ++ y) (q + i) = block_num y i.
Proof.
  intros L. unfold block_num. rewrite skipn_app. rewrite (skipn_all2 x) by lia.
  replace (16 * (q + i) - length x)%nat with (16 * i)%nat by lia. reflexivity.
Qed.
Lemma fold_left_ext_in {A B} (f g : A -> B -> A) l : (forall a b, In b l -> f a b = g a b) -> forall a, fold_left f l a = fold_left g l a.
Proof.
  induction l as [|b l IH]; intros H a; cbn [fold_left]; [reflexivity|]. rewrite (H a b) by now left. apply IH. intros. apply H. now right.
Qed.
Lemma seq_shift_q q n : seq q n = map (fun i => (q + i)%nat) (seq 0 n).
Proof.
  revert q; induction n as [|n IH]; intros q; [reflexivity|]. cbn [seq map]. f_equal; [lia|]. rewrite IH, (IH 1%nat), map_map.
  apply map_ext. intros; lia.
Qed.
Lemma fold_left_map' {A B C} (f : A -> C -> A) (g : B -> C) l : forall a, fold_left f (map g l) a = fold_left (fun x b => f x (g b)) l a.
Proof. induction l as [|b l IH]; intros a; cbn [fold_left map]; [reflexivity|apply IH]. Qed.
Lemma racc_app a x y r q : length x = (16 * q)%nat -> racc a (x ++ y) r = racc (racc a x r) y r.
Proof.
  intros L. unfold racc at 1. rewrite (nblocks_app x y q L), seq_app, fold_left_app. cbn [Nat.add].
  rewrite seq_shift_q, fold_left_map'. unfold racc at 1.
  assert (N : nblocks x = q).
  { rewrite <- (app_nil_r x), (nblocks_app x [] q L). unfold nblocks. cbn. lia. }
  unfold racc. rewrite N. rewrite (fold_left_ext_in _ (fun acc i => ((acc + block_num x i) * r) mod P1305) (seq 0 q)).
  - apply fold_left_ext_in. intros b i _. now rewrite (block_num_app_r x y q).
  - intros b i Hi. apply in_seq in Hi. now rewrite (block_num_app_l x y q) by (trivial; lia).
Qed.
Lemma racc_block a b r : length b = 16%nat -> racc a b r = ((a + (le_num b + 2 ^ 128)) * r) mod P1305.
Proof.
  intros L. unfold racc, nblocks. rewrite L. change ((16 + 15) / 16)%nat with 1%nat. cbn [seq fold_left].
  unfold block_num. rewrite Nat.mul_0_r. cbn [skipn]. rewrite firstn_all2 by lia.
  assert (E : le_num (b ++ [1]) = le_num b + 2 ^ 128); [|now rewrite E].
  rewrite !le_num_val, le_val_app, L. reflexivity.
Qed.
(** ** Blocks as unknowns *)
Fixpoint pw (r : Z) (n : nat) : list Z := match n with O => [] | S k => r ^ Z.of_nat n :: pw r k end.
Definition zsum (l : list Z) : Z := fold_right Z.add 0 l.
Definition cblocks (cs : list Z) : list Z := concat (map (le_bytes 16) cs).
Lemma cblocks_bytes cs : bytes_n (16 * length cs) (cblocks cs).
Proof.
  induction cs as [|c cs [L F]]; [split; [reflexivity|constructor]|]. unfold cblocks in *. cbn [map concat length]. split.
  - rewrite app_length, le_bytes_length, L. lia.
  - apply Forall_app. split; [apply le_bytes_is_bytes|exact F].
Qed.
Definition cg (x y : Z) : Prop := x mod P1305 = y mod P1305.
Lemma cg_iff x y : cg x y <-> (P1305 | x - y).
Proof.
  unfold cg. split; intros H.
  - apply Z.mod_divide; [discriminate|]. rewrite Zminus_mod, H, Z.sub_diag. reflexivity.
  - destruct H as [k H]. replace x with (y + k * P1305) by lia. apply Z.mod_add. discriminate.
Qed.
Lemma cg_mod x : cg (x mod P1305) x.
Proof. unfold cg. apply Z.mod_mod. discriminate. Qed.
Lemma cg_refl x : cg x x. Proof. reflexivity. Qed.
Lemma cg_sym x y : cg x y -> cg y x. Proof. unfold cg. now intros ->. Qed.
Lemma cg_trans x y z : cg x y -> cg y z -> cg x z. Proof. unfold cg. now intros ->. Qed.
Lemma cg_add x y x' y' : cg x x' -> cg y y' -> cg (x + y) (x' + y').
Proof. unfold cg. intros H H'. now rewrite Zplus_mod, H, H', <- Zplus_mod. Qed.
Lemma cg_mul x y x' y' : cg x x' -> cg y y' -> cg (x * y) (x' * y').
Proof. unfold cg. intros H H'. now rewrite Zmult_mod, H, H', <- Zmult_mod. Qed.
Lemma racc_cblocks r cs : Forall (fun c => 0 <= c <= 2 ^ 128 - 1) cs -> forall a,
  cg (racc a (cblocks cs) r)
     (a * r ^ Z.of_nat (length cs) + dot cs (pw r (length cs)) + 2 ^ 128 * zsum (pw r (length cs))).
Proof.
  induction 1 as [|c cs Hc F IH]; intros a.
  - unfold racc, cblocks, nblocks. cbn. apply f_equal2; [lia|reflexivity].
  - unfold cblocks. cbn [map concat]. fold (cblocks cs). rewrite (racc_app a _ _ r 1) by apply le_bytes_length.
    rewrite (racc_block a (le_bytes 16 c) r) by apply le_bytes_length. rewrite le_num_val, le_val_le_bytes.
    change (256 ^ Z.of_nat 16) with (2 ^ 128). rewrite (Z.mod_small c) by lia.
    eapply cg_trans; [apply IH|]. cbn [length pw]. set (n := length cs). unfold dot. cbn [combine map fold_right fst snd zsum].
    fold (dot cs (pw r n)). fold (zsum (pw r n)). set (d := dot cs _). set (s := zsum _).
    replace (a * r ^ Z.of_nat (S n) + (c * r ^ Z.of_nat (S n) + d) + 2 ^ 128 * (r ^ Z.of_nat (S n) + s))
      with ((a + (c + 2 ^ 128)) * r * r ^ Z.of_nat n + d + 2 ^ 128 * s).
    + apply cg_add; [|apply cg_refl]. apply cg_add; [|apply cg_refl]. apply cg_mul; [|apply cg_refl]. apply cg_mod.
    + rewrite Nat2Z.inj_succ, Z.pow_succ_r by lia. ring.
Qed.
(** Differences of powers: the coefficients of the unknowns. *)
Fixpoint coefs (r1 r2 : Z) (n : nat) : list Z :=
  match n with O => [] | S k => (r1 ^ Z.of_nat (S n) - r2 ^ Z.of_nat (S n)) :: coefs r1 r2 k end.
Lemma coefs_length r1 r2 n : length (coefs r1 r2 n) = n.
Proof. induction n as [|n IH]; cbn [coefs length]; [reflexivity|now rewrite IH]. Qed.
Lemma dot_coefs r1 r2 n : forall cs, length cs = n ->
  dot cs (coefs r1 r2 n) = r1 * dot cs (pw r1 n) - r2 * dot cs (pw r2 n).
Proof.
  induction n as [|n IH]; intros [|c cs] L; cbn [length] in L; try discriminate L.
  - unfold dot. cbn. lia.
  - specialize (IH cs ltac:(lia)). unfold dot in *. cbn [coefs pw combine map fold_right fst snd]. rewrite IH.
    rewrite (Nat2Z.inj_succ (S n)), !Z.pow_succ_r by lia. ring.
Qed.
Lemma prime_P : prime P1305.
Proof. exact prime_1305. Qed.
Lemma pow_divides r e : (P1305 | r ^ Z.of_nat e) -> (P1305 | r).
Proof.
  induction e as [|e IH]; intros H.
  - exfalso. change (r ^ Z.of_nat 0) with 1 in H. apply Z.divide_1_r in H. destruct H; discriminate.
  - rewrite Nat2Z.inj_succ, Z.pow_succ_r in H by lia. apply prime_mult in H; [|exact prime_P]. destruct H; auto.
Qed.
Lemma consecutive r1 r2 e : 0 <= r1 < P1305 -> 0 <= r2 < P1305 -> r1 <> r2 ->
  (P1305 | r1 ^ Z.of_nat e - r2 ^ Z.of_nat e) -> (P1305 | r1 ^ Z.of_nat (S e) - r2 ^ Z.of_nat (S e)) -> False.
Proof.
  intros H1 H2 N D D'. rewrite Nat2Z.inj_succ, !Z.pow_succ_r in D' by lia.
  set (x := r1 ^ Z.of_nat e) in *. set (y := r2 ^ Z.of_nat e) in *.
  assert (Q : (P1305 | (r1 - r2) * y)).
  { replace ((r1 - r2) * y) with ((r1 * x - r2 * y) - r1 * (x - y)) by ring. apply Z.divide_sub_r; trivial. now apply Z.divide_mul_r. }
  assert (S : forall z, 0 <= z < P1305 -> (P1305 | z) -> z = 0).
  { intros z Hz Hd. apply Z.mod_divide in Hd; [|discriminate]. now rewrite Z.mod_small in Hd. }
  apply prime_mult in Q; [|exact prime_P]. destruct Q as [Q|Q].
  - apply N. apply cg_iff in Q. unfold cg in Q. now rewrite !Z.mod_small in Q.
  - pose proof (pow_divides _ _ Q) as R2. pose proof (S r2 H2 R2) as E2.
    assert (Dx : (P1305 | x)) by (replace x with ((x - y) + y) by ring; now apply Z.divide_add_r).
    pose proof (S r1 H1 (pow_divides _ _ Dx)). lia.
Qed.
Lemma nonzeros_pair p x y l : ~ ((p | x) /\ (p | y)) -> 0 < p -> (S (nonzeros p l) <= nonzeros p (x :: y :: l))%nat.
Proof.
  intros N Hp. unfold nonzeros. cbn [filter]. destruct (Z.eqb_spec (x mod p) 0) as [E|E], (Z.eqb_spec (y mod p) 0) as [E'|E'];
    cbn [negb length]; try lia. exfalso. apply N. split; apply Z.mod_divide; trivial; lia.
Qed.
Lemma coefs_nonzero r1 r2 n : 0 <= r1 < P1305 -> 0 <= r2 < P1305 -> r1 <> r2 -> (n <= nonzeros P1305 (coefs r1 r2 (2 * n)))%nat.
Proof.
  intros H1 H2 N. induction n as [|n IH]; [lia|]. replace (2 * S n)%nat with (S (S (2 * n))) by lia. cbn [coefs].
  eapply Nat.le_trans; [|apply nonzeros_pair; [|reflexivity]]; [lia|]. intros [D D'].
  exact (consecutive r1 r2 (S (S (2 * n))) H1 H2 N D' D).
Qed.
(** ** Two keys *)
Lemma racc_0 m r : rfc_acc m r = racc 0 m r.
Proof. reflexivity. Qed.
Definition konst (pre lens : list Z) (r : Z) : Z :=
  (racc 0 pre r * r ^ 8 + 2 ^ 128 * zsum (pw r 8) + (le_num lens + 2 ^ 128)) * r.
Lemma acc_linear pre lens q r cs : length pre = (16 * q)%nat -> length lens = 16%nat -> length cs = 8%nat ->
  Forall (fun c => 0 <= c <= 2 ^ 128 - 1) cs ->
  cg (rfc_acc (pre ++ cblocks cs ++ lens) r) (konst pre lens r + r * dot cs (pw r 8)).
Proof.
  intros Lq Ll Ls F. assert (Lc : length (cblocks cs) = (16 * 8)%nat) by (destruct (cblocks_bytes cs) as [-> _]; now rewrite Ls).
  rewrite racc_0, (racc_app _ _ _ _ q) by exact Lq. rewrite (racc_app _ _ _ _ 8) by exact Lc.
  rewrite (racc_block _ lens) by exact Ll. eapply cg_trans; [apply cg_mod|].
  pose proof (racc_cblocks r cs F (racc 0 pre r)) as Q. rewrite Ls in Q.
  eapply cg_trans; [apply cg_mul; [apply cg_add; [exact Q|apply cg_refl]|apply cg_refl]|].
  unfold konst. change (Z.of_nat 8) with 8. generalize (racc 0 pre r) (r ^ 8) (2 ^ 128) (zsum (pw r 8)) (le_num lens) (dot cs (pw r 8)).
  intros. apply cg_iff. exists 0. ring.
Qed.
Lemma solve r1 r2 k1 k2 : 0 <= r1 < P1305 -> 0 <= r2 < P1305 -> r1 <> r2 ->
  exists cs, length cs = 8%nat /\ Forall (fun c => 0 <= c <= 2 ^ 128 - 1) cs /\
    cg (k1 + r1 * dot cs (pw r1 8)) (k2 + r2 * dot cs (pw r2 8)).
Proof.
  intros R1 R2 N. pose proof (coefs_nonzero r1 r2 4 R1 R2 N) as NZ. change (2 * 4)%nat with 8%nat in NZ.
  destruct (every_residue P1305 prime_P (2 ^ 128 - 1) (coefs r1 r2 8)) with (t := k2 - k1) as (cs & Ls & F & E).
  { assert (B : P1305 <= 1 + 4 * (2 ^ 128 - 1)) by (apply Z.leb_le; reflexivity).
    assert (B2 : 0 <= 2 ^ 128 - 1) by (apply Z.leb_le; reflexivity). nia. }
  { apply Z.leb_le; reflexivity. }
  rewrite coefs_length in Ls. rewrite dot_coefs in E by exact Ls. exists cs. split; [exact Ls|]. split; [exact F|].
  assert (E2 : cg (r1 * dot cs (pw r1 8) - r2 * dot cs (pw r2 8)) (k2 - k1)) by exact E.
  apply cg_iff in E2. destruct E2 as [j E2]. apply cg_iff. exists j. lia.
Qed.
Lemma mac_data_shape aad c0 c q : length c0 = (16 * q)%nat -> length c = 128%nat -> exists q',
  length (aad ++ pad16 aad ++ c0) = (16 * q')%nat /\
  rfc_mac_data aad (c0 ++ c) = (aad ++ pad16 aad ++ c0) ++ c ++ le64 (Z.of_nat (length aad)) ++ le64 (Z.of_nat (length c0 + 128)).
Proof.
  intros Lq Lc. exists ((length aad + 15) / 16 + q)%nat. split.
  - unfold pad16. rewrite !app_length, repeat_length, Lq. set (l := length aad).
    pose proof (Nat.div_mod l 16 ltac:(lia)). pose proof (Nat.mod_upper_bound l 16 ltac:(lia)).
    pose proof (Nat.div_mod (l + 15) 16 ltac:(lia)). pose proof (Nat.mod_upper_bound (l + 15) 16 ltac:(lia)).
    pose proof (Nat.div_mod (16 - l mod 16) 16 ltac:(lia)). pose proof (Nat.mod_upper_bound (16 - l mod 16) 16 ltac:(lia)). nia.
  - unfold rfc_mac_data. rewrite (app_length c0), Lc.
    assert (P0 : pad16 (c0 ++ c) = []).
    { unfold pad16. rewrite app_length, Lq, Lc. replace (16 * q + 128)%nat with ((q + 8) * 16)%nat by lia.
      rewrite Nat.mod_mul by lia. reflexivity. }
    rewrite P0, <- !app_assoc. reflexivity.
Qed.
Lemma shared_tag aad c0 q r1 r2 s1 s2 : length c0 = (16 * q)%nat -> 0 <= r1 < P1305 -> 0 <= r2 < P1305 -> r1 <> r2 ->
  exists c, bytes_n 128 c /\
    (rfc_acc (rfc_mac_data aad (c0 ++ c)) r1 + s1) mod P1305 = (rfc_acc (rfc_mac_data aad (c0 ++ c)) r2 + s2) mod P1305.
Proof.
  intros Lq R1 R2 N. set (pre := aad ++ pad16 aad ++ c0).
  set (lens := le64 (Z.of_nat (length aad)) ++ le64 (Z.of_nat (length c0 + 128))).
  destruct (solve r1 r2 (konst pre lens r1 + s1) (konst pre lens r2 + s2) R1 R2 N) as (cs & Ls & F & E).
  assert (B : bytes_n 128 (cblocks cs)) by (destruct (cblocks_bytes cs) as [L B]; split; [now rewrite L, Ls|exact B]).
  exists (cblocks cs). split; [exact B|].
  destruct (mac_data_shape aad c0 (cblocks cs) q Lq (proj1 B)) as (q' & Lp & D). fold pre in Lp, D. fold lens in D.
  assert (Ll : length lens = 16%nat) by (unfold lens; now rewrite app_length, !le64_length). clearbody pre lens.
  rewrite D. pose proof (acc_linear pre lens q' r1 cs Lp Ll Ls F) as V1. pose proof (acc_linear pre lens q' r2 cs Lp Ll Ls F) as V2.
  revert V1 V2 E. generalize (rfc_acc (pre ++ cblocks cs ++ lens) r1) (rfc_acc (pre ++ cblocks cs ++ lens) r2)
    (konst pre lens r1) (konst pre lens r2) (r1 * dot cs (pw r1 8)) (r2 * dot cs (pw r2 8)).
  intros a1 a2 k1 k2 d1 d2 V1 V2 E. apply cg_iff in V1, V2, E. destruct V1 as [i V1], V2 as [j V2], E as [h E].
  change (cg (a1 + s1) (a2 + s2)). apply cg_iff. exists (i - j + h). lia.
Qed.
Lemma r_of_otk key iv : r_of (otk key iv) = le_num (clamp (firstn 16 (rfc_block key 0 iv))) /\
  bytes_n 16 (clamp (firstn 16 (rfc_block key 0 iv))).
Proof.
  assert (E : firstn 16 (otk key iv) = firstn 16 (rfc_block key 0 iv)) by (unfold otk; now rewrite firstn_firstn).
  unfold r_of. rewrite <- E. split; [reflexivity|]. apply key_r_bytes, otk_bytes.
Qed.
Lemma le_num_inj16 a b : bytes_n 16 a -> bytes_n 16 b -> le_num a = le_num b -> a = b.
Proof.
  intros [La Fa] [Lb Fb] E. rewrite !le_num_val in E.
  apply le_val_inj; [now rewrite La, Lb|apply bytes_is, Fa|apply bytes_is, Fb|exact E].
Qed.
(** For any two pairs of key and nonce whose clamped one-time keys r differ, any associated data and any ciphertext of whole
    blocks, eight more blocks can be found that make it a ciphertext which one tag opens under both. *)
Theorem C102_chacha_two_keys : forall key1 key2 iv1 iv2 aad c0 b1 b2,
  bytes_n 32 key1 -> bytes_n 32 key2 -> bytes_n 12 iv1 -> bytes_n 12 iv2 -> Forall byte aad -> Forall byte c0 ->
  (length c0 mod 16 = 0)%nat -> Z.of_nat (length aad) < 2 ^ 64 -> Z.of_nat (length c0) + 128 < 2 ^ 64 ->
  block key1 0 iv1 = Ok b1 -> block key2 0 iv2 = Ok b2 -> clamp (firstn 16 b1) <> clamp (firstn 16 b2) ->
  exists c tag, bytes_n 128 c /\ bytes_n 16 tag /\
    (exists m, cp_decrypt key1 iv1 aad (c0 ++ c) tag = Ok (Some m)) /\
    (exists m, cp_decrypt key2 iv2 aad (c0 ++ c) tag = Ok (Some m)).
Proof.
  intros key1 key2 iv1 iv2 aad c0 b1 b2 K1 K2 I1 I2 A C M LA LC B1 B2 N.
  assert (W0 : word32 0) by (split; [lia|reflexivity]).
  rewrite (block_Ok key1 0 iv1 K1 I1 W0) in B1. rewrite (block_Ok key2 0 iv2 K2 I2 W0) in B2.
  apply (f_equal (fun r => match r with Ok x => x | Panic _ => [] end)) in B1, B2. cbv beta iota in B1, B2. subst b1 b2.
  destruct (r_of_otk key1 iv1) as [E1 [L1 F1]], (r_of_otk key2 iv2) as [E2 [L2 F2]].
  assert (Nr : r_of (otk key1 iv1) <> r_of (otk key2 iv2)).
  { rewrite E1, E2. intros E. apply N. exact (le_num_inj16 _ _ (conj L1 F1) (conj L2 F2) E). }
  pose proof (r_of_range _ (otk_bytes key1 iv1)) as R1. pose proof (r_of_range _ (otk_bytes key2 iv2)) as R2.
  assert (Lq : length c0 = (16 * (length c0 / 16))%nat) by (pose proof (Nat.div_mod (length c0) 16 ltac:(lia)); lia).
  destruct (shared_tag aad c0 (length c0 / 16) (r_of (otk key1 iv1)) (r_of (otk key2 iv2)) (s_of (otk key1 iv1)) (s_of (otk key2 iv2)) Lq R1 R2 Nr)
    as (c & [Lc Bc] & E).
  assert (T : cp_tag key1 iv1 aad (c0 ++ c) = cp_tag key2 iv2 aad (c0 ++ c)) by (unfold cp_tag; now rewrite E).
  assert (Fc : Forall byte (c0 ++ c)) by (apply Forall_app; now split).
  assert (Sc : Z.of_nat (length (c0 ++ c)) < 2 ^ 64) by (rewrite app_length, Lc; lia).
  exists c, (cp_tag key1 iv1 aad (c0 ++ c)). split; [now split|].
  split; [split; [apply le_bytes_length|apply le_bytes_is_bytes]|]. split; eexists.
  - rewrite (cp_decrypt_Ok key1 iv1 aad (c0 ++ c) _ K1 I1 A Fc LA Sc). now rewrite (proj2 (list_eqb_spec _ _)) by reflexivity.
  - rewrite (cp_decrypt_Ok key2 iv2 aad (c0 ++ c) _ K2 I2 A Fc LA Sc), T. now rewrite (proj2 (list_eqb_spec _ _)) by reflexivity.
Qed.
(** The keys of [C102_chacha_key_commitment_refuted] meet the hypotheses, with one chosen ciphertext block. *)
Example C102_ex_chacha : exists b1 b2, block (map Z.of_nat (seq 0 32)) 0 (map Z.of_nat (seq 0 12)) = Ok b1 /\
  block (map Z.of_nat (seq 100 32)) 0 (map Z.of_nat (seq 0 12)) = Ok b2 /\ clamp (firstn 16 b1) <> clamp (firstn 16 b2) /\
  (length (repeat 7 16) mod 16 = 0)%nat /\ Z.of_nat (length (repeat 7 16)) + 128 < 2 ^ 64.
Proof.
  do 2 eexists. split; [vm_compute; reflexivity|]. split; [vm_compute; reflexivity|]. split; [vm_compute; discriminate|].
  split; reflexivity.
Qed.
Print Assumptions C102_chacha_two_keys.
