(** GF(2^128) as a field (C80) and GHASH as an almost-universal hash (C79). *)
From Coq Require Import ZArith List Bool Arith Lia Ring.
From Verif Require Import Base P_Base M_Int M_Seq M_Bytes P_Int P_Seq P_Bytes P_Word P_Stream M_AES S_GF2 P_GF2 S_AES
  P_AES P_GF128 P_GCM S_ChaCha P_ChaCha T_AES P_GFField P_Roots.
From Verif Require P_Poly1305.
Import ListNotations.
Open Scope Z_scope.
#[local] Opaque gf_mul.

(** ** The GCM representation *)
Definition gin (x : Z) : G := gof (brev 128 x).
Lemma gval_gin x : gval (gin x) = brev 128 x.
Proof. apply gval_of. exact (brev_range 128 x). Qed.
Lemma gin_inj x y : u128r x -> u128r y -> gin x = gin y -> x = y.
Proof.
  intros Hx Hy E. apply (f_equal gval) in E. rewrite !gval_gin in E.
  rewrite <- (brev_invol 128 x Hx), <- (brev_invol 128 y Hy). now rewrite E.
Qed.
Lemma gin_mul x y : gin (gcm_mul x y) = gmul (gin x) (gin y).
Proof.
  apply gval_inj. rewrite gval_mul, !gval_gin. unfold gcm_mul. apply (brev_invol 128).
  apply (gf_mul_range 128 P128); first [lia | apply P128_range | apply (brev_range 128)].
Qed.
Lemma gin_add x y : gin (Z.lxor x y) = gadd (gin x) (gin y).
Proof. apply gval_inj. rewrite gval_add, !gval_gin. apply brev_lxor. Qed.
Lemma gin_0 : gin 0 = g0.
Proof. apply gval_inj. rewrite gval_gin. apply brev_0. Qed.
Lemma gin_1 : gin gcm_one = g1.
Proof. apply gval_inj. rewrite gval_gin. apply brev_one. Qed.
Definition gout (x : G) : Z := brev 128 (gval x).
Lemma gout_range x : u128r (gout x).
Proof. exact (brev_range 128 _). Qed.
Lemma gin_gout x : gin (gout x) = x.
Proof. apply gval_inj. rewrite gval_gin. apply (brev_invol 128). exact (gval_range x). Qed.
Lemma u128r_0 : u128r 0.
Proof. split; [lia|reflexivity]. Qed.
Lemma u128r_one : u128r gcm_one.
Proof. split; [discriminate|reflexivity]. Qed.

#[local] Opaque gcm_mul fmul brev gin gout gof gadd gmul g0 g1 ginv.
Lemma Ok_inj (a b : Z) : Ok a = Ok b -> a = b.
Proof. congruence. Qed.

Lemma lxor128 x y : u128r x -> u128r y -> u128r (Z.lxor x y).
Proof. apply (lxor_range 128 x y). lia. Qed.

(** ** C80 *)
Theorem C80_no_zero_divisors : forall x y, 0 <= x < 2 ^ 128 -> 0 <= y < 2 ^ 128 ->
  (fmul x y = Ok 0 <-> x = 0 \/ y = 0).
Proof.
  intros x y Hx Hy. rewrite fmul_Ok by assumption. split.
  - intros E. apply Ok_inj in E. apply (f_equal gin) in E. rewrite gin_mul, gin_0 in E.
    apply g_domain in E as [E|E]; [left|right]; rewrite <- gin_0 in E; apply gin_inj in E; trivial; exact u128r_0.
  - intros [->| ->]; [|rewrite gcm_mul_comm]; now rewrite gcm_mul_0_l.
Qed.
Theorem C80_cancel : forall x y z, 0 < x < 2 ^ 128 -> 0 <= y < 2 ^ 128 -> 0 <= z < 2 ^ 128 ->
  fmul x y = fmul x z -> y = z.
Proof.
  intros x y z Hx Hy Hz E. rewrite !fmul_Ok in E by (unfold u128r; lia). apply Ok_inj in E.
  assert (D : fmul x (Z.lxor y z) = Ok 0).
  { rewrite fmul_Ok; [|unfold u128r; lia|now apply lxor128]. rewrite gcm_mul_lxor_r, E. now rewrite Z.lxor_nilpotent. }
  apply C80_no_zero_divisors in D; [|lia|now apply lxor128].
  destruct D as [D|D]; [lia|]. now apply Z.lxor_eq.
Qed.
(** 2^127, the string 1000..0, is the one of this field. *)
Theorem C80_one : forall x, 0 <= x < 2 ^ 128 -> fmul (2 ^ 127) x = Ok x /\ fmul x (2 ^ 127) = Ok x.
Proof.
  intros x Hx. change (2 ^ 127) with gcm_one. rewrite !fmul_Ok by (exact Hx || exact u128r_one).
  split; [|rewrite gcm_mul_comm]; now rewrite gcm_mul_one_l.
Qed.
Theorem C80_inverse : forall x, 0 < x < 2 ^ 128 -> exists y, 0 < y < 2 ^ 128 /\ fmul x y = Ok (2 ^ 127) /\
  fmul y x = Ok (2 ^ 127) /\ (forall z, 0 <= z < 2 ^ 128 -> fmul x z = Ok (2 ^ 127) -> z = y).
Proof.
  intros x Hx. set (y := gout (ginv (gin x))). pose proof (gout_range (ginv (gin x))) as Ry. fold y in Ry.
  assert (Rx : u128r x) by (unfold u128r; lia).
  assert (N : gin x <> g0).
  { intros E. rewrite <- gin_0 in E. apply gin_inj in E; [lia|exact Rx|exact u128r_0]. }
  assert (E : fmul x y = Ok (2 ^ 127)).
  { rewrite fmul_Ok by assumption. f_equal. change (2 ^ 127) with gcm_one.
    apply gin_inj; [apply gcm_mul_range|exact u128r_one|]. rewrite gin_mul, gin_1. unfold y. rewrite gin_gout.
    now apply g_inverse. }
  exists y. refine (conj _ (conj _ (conj _ _))).
  - assert (y <> 0); [|unfold u128r in Ry; lia]. intros Z. rewrite Z in E. 
    rewrite (proj2 (C80_no_zero_divisors x 0 Rx u128r_0)) in E by auto.
    apply Ok_inj in E. pose proof (Z.pow_pos_nonneg 2 127 ltac:(lia) ltac:(lia)). lia.
  - exact E.
  - rewrite fmul_Ok in * by assumption. now rewrite gcm_mul_comm.
  - intros z Rz Ez. apply (C80_cancel x); trivial. congruence.
Qed.
(** The inverse of x is x^127 + x^6 + x + 1. *)
#[local] Transparent gcm_mul fmul brev gf_mul.
Example C80_ex : fmul (2 ^ 126) (1 + 2 ^ 121 + 2 ^ 126 + 2 ^ 127) = Ok (2 ^ 127) /\
  fmul 0x66e94bd4ef8a2c3b884cfa59ca342b2e 0x0388dace60b6a392f328c2b971b2fe78 = Ok 0x5e2ec746917062882c85b0685353deb7.
Proof. split; vm_compute; reflexivity. Qed.
Print Assumptions C80_no_zero_divisors.
Print Assumptions C80_cancel.
Print Assumptions C80_one.
Print Assumptions C80_inverse.

(** ** GHASH as a polynomial over G *)
#[local] Opaque gcm_mul fmul brev gf_mul.
Definition nblk (m : list Z) : nat := ((length m + 15) / 16)%nat.
Definition gblocks (m : list Z) : list G := map (fun i => gin (ghash_block m i)) (seq 0 (nblk m)).
Lemma gblocks_length m : length (gblocks m) = nblk m.
Proof. unfold gblocks. now rewrite map_length, seq_length. Qed.
Lemma nth_gblocks m i : (i < nblk m)%nat -> nth i (gblocks m) g0 = gin (ghash_block m i).
Proof.
  intros H. unfold gblocks. rewrite (nth_indep _ _ (gin (ghash_block m 0))) by (rewrite map_length, seq_length; exact H).
  rewrite (map_nth (fun i => gin (ghash_block m i))), seq_nth by exact H. reflexivity.
Qed.
Definition gmac_f := mac G g0 gadd gmul.
Lemma gadd_comm x y : gadd x y = gadd y x.
Proof. apply gval_inj. rewrite !gval_add. apply Z.lxor_comm. Qed.
Lemma fold_morph {A B I C} (phi : A -> B) (f : A -> I -> A) (g : B -> C -> B) (h : I -> C) l :
  (forall a i, phi (f a i) = g (phi a) (h i)) -> forall a, phi (fold_left f l a) = fold_left g (map h l) (phi a).
Proof. intros H. induction l as [|i l IH]; intros a; cbn [fold_left map]; [reflexivity|]. now rewrite IH, H. Qed.
Lemma gin_step h x a : gin (gcm_mul (Z.lxor x a) h) = gmul (gadd (gin a) (gin x)) (gin h).
Proof. rewrite gin_mul, gin_add, gadd_comm. reflexivity. Qed.
Lemma fold_gmac h (f : nat -> Z) l : forall a,
  gin (fold_left (fun acc i => gcm_mul (Z.lxor (f i) acc) h) l a) =
  fold_left (fun acc b => gmul (gadd acc b) (gin h)) (map (fun i => gin (f i)) l) (gin a).
Proof.
  exact (fold_morph gin (fun acc i => gcm_mul (Z.lxor (f i) acc) h) (fun acc b => gmul (gadd acc b) (gin h))
    (fun i => gin (f i)) l (fun a i => gin_step h (f i) a)).
Qed.
Lemma horner_gmac h m : gin (horner h m (nblk m)) = gmac_f (gblocks m) (gin h).
Proof. unfold gmac_f, mac, gblocks, horner. rewrite <- gin_0. apply (fold_gmac h (ghash_block m)). Qed.
Lemma g_universal bs bs' d rs : NoDup rs -> (forall r, In r rs -> gadd (gmac_f bs r) (gmac_f bs' r) = d) ->
  ~ (forall i, nth i (rev bs) g0 = nth i (rev bs') g0) -> (length rs <= Nat.max (length bs) (length bs'))%nat.
Proof. exact (mac_universal G g0 g1 gadd gmul gadd gid g_ring g_domain bs bs' d rs). Qed.
Lemma be_num_inj a b : Forall byte a -> Forall byte b -> length a = length b -> be_num a = be_num b -> a = b.
Proof.
  intros Ha Hb L E. rewrite !be_num_val in E. unfold be_val in E.
  rewrite <- (rev_involutive a), <- (rev_involutive b). f_equal.
  apply (le_val_inj (rev a) (rev b)); [now rewrite !rev_length|now apply Forall_rev|now apply Forall_rev|exact E].
Qed.
Lemma ghash_mblock m i : ghash_block m i = be_num (mblock m i).
Proof. unfold ghash_block, mblock. reflexivity. Qed.
Lemma ghash_block_u m i : Forall byte m -> u128r (ghash_block m i).
Proof. intros H. rewrite ghash_mblock. exact (proj2 (encode_Ok _ (mblock_block m i H))). Qed.
Lemma mblock_inj (m m' : list Z) i : Forall byte m -> Forall byte m' ->
  gin (ghash_block m i) = gin (ghash_block m' i) -> mblock m i = mblock m' i.
Proof.
  intros H H' E. apply gin_inj in E; try now apply ghash_block_u.
  destruct (mblock_block m i H) as [L B], (mblock_block m' i H') as [L' B'].
  rewrite !ghash_mblock in E. apply (be_num_inj _ _ B B'); [now rewrite L, L'|exact E].
Qed.
Lemma nth_mblock m i j : (j < 16)%nat -> nth j (mblock m i) 0 = nth (16 * i + j) m 0.
Proof. intros H. unfold mblock. now rewrite (nth_map_seq (fun j => nth (16 * i + j) m 0)) by exact H. Qed.
Lemma nblk_bound m : (length m <= 16 * nblk m)%nat.
Proof.
  unfold nblk. pose proof (Nat.div_mod (length m + 15) 16 ltac:(lia)).
  pose proof (Nat.mod_upper_bound (length m + 15) 16 ltac:(lia)). lia.
Qed.
(** Messages of one length with the same coefficients are equal. *)
Lemma gblocks_eq m m' : Forall byte m -> Forall byte m' -> length m = length m' ->
  (forall i, nth i (rev (gblocks m)) g0 = nth i (rev (gblocks m')) g0) -> m = m'.
Proof.
  intros H H' L E. assert (NB : nblk m' = nblk m) by (unfold nblk; now rewrite L).
  apply (nth_ext_eq _ _ 0); [exact L|]. intros j Hj. pose proof (nblk_bound m) as B.
  pose proof (Nat.div_mod j 16 ltac:(lia)) as D. pose proof (Nat.mod_upper_bound j 16 ltac:(lia)) as M.
  set (q := (j / 16)%nat) in *. set (r := (j mod 16)%nat) in *. clearbody q r.
  specialize (E (nblk m - 1 - q)%nat). rewrite !rev_nth in E by (rewrite gblocks_length; lia).
  rewrite !gblocks_length, NB in E. replace (nblk m - S (nblk m - 1 - q))%nat with q in E by lia.
  rewrite !nth_gblocks in E by lia. apply mblock_inj in E; trivial.
  rewrite D, <- !nth_mblock by exact M. now rewrite E.
Qed.

(** ** C79 *)
Lemma map_gin_NoDup ks : (forall k, In k ks -> bytes_n 16 k) -> NoDup ks -> NoDup (map (fun k => gin (be_num k)) ks).
Proof.
  induction ks as [|k ks IH]; intros H ND; cbn; [constructor|]. inversion ND as [|? ? NI ND']; subst. constructor.
  - intros I. apply in_map_iff in I as (k' & E & I).
    destruct (H k (or_introl eq_refl)) as [L B], (H k' (or_intror I)) as [L' B'].
    apply gin_inj in E; [|now apply encode_Ok|now apply encode_Ok].
    apply (be_num_inj _ _ B' B) in E; [now subst|now rewrite L, L'].
  - apply IH; [|exact ND']. intros x Hx. apply H. now right.
Qed.
Lemma be_num_str x : u128r x -> be_num (be_str 16 x) = x.
Proof. intros H. rewrite be_num_val, be_str_eq, be_val_be_bytes. now apply Z.mod_small. Qed.
Lemma gmac_bound m m' d ks : Forall byte m -> Forall byte m' ->
  ~ (forall i, nth i (rev (gblocks m)) g0 = nth i (rev (gblocks m')) g0) ->
  NoDup ks -> (forall k, In k ks -> bytes_n 16 k /\ exists t t',
     gmac m k = Ok t /\ gmac m' k = Ok t' /\ zip_with Z.lxor t t' = d) ->
  (length ks <= Nat.max (nblk m) (nblk m'))%nat.
Proof.
  intros Hm Hm' N ND H. rewrite <- (map_length (fun k => gin (be_num k))), <- !gblocks_length.
  apply (g_universal _ _ (gin (be_num d))); [|intros x Hx|exact N].
  - apply map_gin_NoDup; [|exact ND]. intros k Hk. exact (proj1 (H k Hk)).
  - apply in_map_iff in Hx as (k & <- & Hk). destruct (H k Hk) as (Bk & t & t' & E & E' & D).
    rewrite gmac_Ok in E, E' by assumption.
    assert (F : t = be_str 16 (ghash (be_num k) m)) by congruence.
    assert (F' : t' = be_str 16 (ghash (be_num k) m')) by congruence. subst t t'.
    assert (U : u128r (be_num k)) by now apply encode_Ok.
    rewrite <- be_str_lxor in D. rewrite <- D, be_num_str by (apply lxor128; now apply ghash_range).
    rewrite <- !horner_gmac, <- gin_add. unfold nblk. now rewrite <- !ghash_horner.
Qed.
(** Different texts of one length: GHASH values differ by d for at most one key per block. *)
Theorem C79_ghash_universal_same_length : forall m m' d ks, Forall byte m -> Forall byte m' ->
  length m = length m' -> m <> m' ->
  NoDup ks -> (forall k, In k ks -> bytes_n 16 k /\ exists t t',
     gmac m k = Ok t /\ gmac m' k = Ok t' /\ zip_with Z.lxor t t' = d) ->
  (length ks <= (length m + 15) / 16)%nat.
Proof.
  intros m m' d ks Hm Hm' L N ND H.
  pose proof (gmac_bound m m' d ks Hm Hm' (fun E => N (gblocks_eq m m' Hm Hm' L E)) ND H) as B.
  unfold nblk in B. rewrite <- L, Nat.max_id in B. exact B.
Qed.

(** The last block of the GCM input holds the two lengths. *)
Lemma mac_data_split aad ct : exists pre, gcm_mac_data aad ct =
  pre ++ be_str 8 (8 * Z.of_nat (length aad)) ++ be_str 8 (8 * Z.of_nat (length ct)) /\
  (length pre = 16 * (nblk (gcm_mac_data aad ct) - 1))%nat /\ (0 < nblk (gcm_mac_data aad ct))%nat /\
  (length (gcm_mac_data aad ct) = 16 * nblk (gcm_mac_data aad ct))%nat.
Proof.
  exists (aad ++ pad16 aad ++ ct ++ pad16 ct).
  assert (P : forall x : list Z, exists q, (length x + length (pad16 x) = 16 * q)%nat).
  { intros x. rewrite <- gcm_padded_len_eq. unfold gcm_padded_len. set (l := length x). clearbody l.
    pose proof (Nat.div_mod l 16 ltac:(lia)). pose proof (Nat.mod_upper_bound l 16 ltac:(lia)).
    destruct (Nat.eqb_spec (l mod 16) 0) as [E|E]; [exists (l / 16)%nat|exists (l / 16 + 1)%nat]; lia. }
  destruct (P aad) as [q Q], (P ct) as [q' Q'].
  assert (E : length (gcm_mac_data aad ct) = (16 * (q + q' + 1))%nat).
  { unfold gcm_mac_data. rewrite !app_length, !be_str_length. lia. }
  assert (B : nblk (gcm_mac_data aad ct) = (q + q' + 1)%nat).
  { unfold nblk. rewrite E. replace (16 * (q + q' + 1) + 15)%nat with (15 + (q + q' + 1) * 16)%nat by lia.
    rewrite Nat.div_add by lia. reflexivity. }
  rewrite B, E. rewrite !app_length. conjs; [unfold gcm_mac_data; now rewrite <- !app_assoc|lia|lia|lia].
Qed.
Lemma last_block aad ct : mblock (gcm_mac_data aad ct) (nblk (gcm_mac_data aad ct) - 1) =
  be_str 8 (8 * Z.of_nat (length aad)) ++ be_str 8 (8 * Z.of_nat (length ct)).
Proof.
  destruct (mac_data_split aad ct) as (pre & E & L & _ & _).
  set (n := nblk (gcm_mac_data aad ct)) in *. set (s := be_str 8 _ ++ _) in *.
  assert (Ls : length s = 16%nat) by (unfold s; now rewrite app_length, !be_str_length).
  apply (nth_ext_eq _ _ 0); [unfold mblock; now rewrite map_length, seq_length|].
  unfold mblock at 1. rewrite map_length, seq_length. intros j Hj. rewrite nth_mblock by exact Hj.
  rewrite E, app_nth2 by lia. f_equal. lia.
Qed.
Lemma gcm_blocks_differ aad ct aad' ct' : Forall byte aad -> Forall byte ct -> Forall byte aad' -> Forall byte ct' ->
  short aad -> short ct -> short aad' -> short ct' -> ~ (aad = aad' /\ ct = ct') ->
  ~ (forall i, nth i (rev (gblocks (gcm_mac_data aad ct))) g0 = nth i (rev (gblocks (gcm_mac_data aad' ct'))) g0).
Proof.
  intros Ha Hc Ha' Hc' Sa Sc Sa' Sc' N E. apply N.
  pose proof (gcm_data_bytes aad ct Ha Hc) as F. pose proof (gcm_data_bytes aad' ct' Ha' Hc') as F'.
  destruct (mac_data_split aad ct) as (_ & _ & _ & P & L), (mac_data_split aad' ct') as (_ & _ & _ & P' & L').
  assert (B : be_str 8 (8 * Z.of_nat (length aad)) ++ be_str 8 (8 * Z.of_nat (length ct)) =
    be_str 8 (8 * Z.of_nat (length aad')) ++ be_str 8 (8 * Z.of_nat (length ct'))).
  { rewrite <- !last_block. specialize (E 0%nat). rewrite !rev_nth in E by (rewrite gblocks_length; assumption).
    rewrite !gblocks_length, !nth_gblocks in E by lia.
    apply gin_inj in E; try now apply ghash_block_u.
    destruct (mblock_block _ (nblk (gcm_mac_data aad ct) - 1) F) as [X Y], (mblock_block _ (nblk (gcm_mac_data aad' ct') - 1) F') as [X' Y'].
    rewrite !ghash_mblock in E. apply (be_num_inj _ _ Y Y'); [now rewrite X, X'|exact E]. }
  apply P_Poly1305.app_inj_len in B as [B1 B2]; [|now rewrite !be_str_length]. unfold short in *.
  apply be_str_inj in B1; [|change (256 ^ Z.of_nat 8) with (2 ^ 64); lia..].
  apply be_str_inj in B2; [|change (256 ^ Z.of_nat 8) with (2 ^ 64); lia..].
  apply gcm_data_inj; trivial. apply gblocks_eq; trivial.
  assert (La : length aad = length aad') by lia. assert (Lc : length ct = length ct') by lia.
  unfold gcm_mac_data, pad16. rewrite !app_length, !repeat_length, !be_str_length, La, Lc. reflexivity.
Qed.
(** The same for the padded inputs of two different pairs (associated data, ciphertext) of any lengths. *)
Theorem C79_ghash_universal_gcm : forall aad ct aad' ct' x x' d ks,
  Forall byte aad -> Forall byte ct -> Forall byte aad' -> Forall byte ct' ->
  Z.of_nat (length aad) < 2 ^ 61 -> Z.of_nat (length ct) < 2 ^ 61 ->
  Z.of_nat (length aad') < 2 ^ 61 -> Z.of_nat (length ct') < 2 ^ 61 -> ~ (aad = aad' /\ ct = ct') ->
  gcm_pad_aad_msg aad ct = Ok x -> gcm_pad_aad_msg aad' ct' = Ok x' ->
  NoDup ks -> (forall k, In k ks -> bytes_n 16 k /\ exists t t',
     gmac x k = Ok t /\ gmac x' k = Ok t' /\ zip_with Z.lxor t t' = d) ->
  (length ks <= Nat.max (length x / 16) (length x' / 16))%nat.
Proof.
  intros aad ct aad' ct' x x' d ks Ha Hc Ha' Hc' Sa Sc Sa' Sc' N X X' ND H.
  rewrite gcm_pad_Ok in X, X' by assumption. injection X as <-. injection X' as <-.
  pose proof (gmac_bound _ _ d ks (gcm_data_bytes aad ct Ha Hc) (gcm_data_bytes aad' ct' Ha' Hc')
    (gcm_blocks_differ aad ct aad' ct' Ha Hc Ha' Hc' Sa Sc Sa' Sc' N) ND H) as B.
  destruct (mac_data_split aad ct) as (_ & _ & _ & _ & L), (mac_data_split aad' ct') as (_ & _ & _ & _ & L').
  rewrite L, L', !(Nat.mul_comm 16), !Nat.div_mul by lia. exact B.
Qed.
(** AES-GCM: under one IV, two triples (associated data, ciphertext, tag) that differ in more than the tag are both
    accepted for at most as many hash keys AES_k(0) as the longer one has blocks. *)
Theorem C79_gcm_forgery_bound : forall alg iv aad ct t aad' ct' t' ks,
  bytes_n 12 iv -> Forall byte aad -> Forall byte ct -> Forall byte aad' -> Forall byte ct' ->
  length t = 16%nat -> length t' = 16%nat ->
  Z.of_nat (length aad) < 2 ^ 61 -> Z.of_nat (length ct) < 2 ^ 61 ->
  Z.of_nat (length aad') < 2 ^ 61 -> Z.of_nat (length ct') < 2 ^ 61 -> ~ (aad = aad' /\ ct = ct') ->
  (forall key, In key ks -> bytes_n (match alg with Aes128 => 16 | Aes256 => 32 end) key /\
     (exists m, gcm_decrypt_pub key iv aad ct t alg = Ok (Some m)) /\
     (exists m', gcm_decrypt_pub key iv aad' ct' t' alg = Ok (Some m'))) ->
  NoDup (map (fun key => aes_encrypt_block key (repeat 0 16) (nk_of alg) (nr_of alg) alg) ks) ->
  (length ks <= Nat.max ((length aad + 15) / 16 + (length ct + 15) / 16 + 1)
                        ((length aad' + 15) / 16 + (length ct' + 15) / 16 + 1))%nat.
Proof.
  intros alg iv aad ct t aad' ct' t' ks Hi Ha Hc Ha' Hc' Lt Lt' Sa Sc Sa' Sc' N H ND.
  assert (Z16 : block16 (repeat 0 16)) by (check_bytes).
  assert (HK : forall key, In key ks -> bytes_n (klen alg) key).
  { intros key I. destruct (H key I) as [K _]. destruct alg; exact K. }
  assert (NBE : forall a c, nblk (gcm_mac_data a c) = ((length a + 15) / 16 + (length c + 15) / 16 + 1)%nat).
  { intros a c. destruct (mac_data_split a c) as (_ & _ & _ & _ & L).
    assert (E : length (gcm_mac_data a c) = (gcm_padded_len (length a) + gcm_padded_len (length c) + 16)%nat).
    { unfold gcm_mac_data. rewrite !gcm_padded_len_eq, !app_length, !be_str_length. lia. }
    assert (PL : forall l, gcm_padded_len l = (16 * ((l + 15) / 16))%nat).
    { intros l. unfold gcm_padded_len.
      pose proof (Nat.div_mod l 16 ltac:(lia)). pose proof (Nat.mod_upper_bound l 16 ltac:(lia)).
      pose proof (Nat.div_mod (l + 15) 16 ltac:(lia)). pose proof (Nat.mod_upper_bound (l + 15) 16 ltac:(lia)).
      destruct (Nat.eqb_spec (l mod 16) 0); lia. }
    rewrite !PL in E. lia. }
  rewrite <- !NBE, <- (map_length (fun key => aes_pure alg key (repeat 0 16))).
  apply (gmac_bound _ _ (zip_with Z.lxor t t')); try (now apply gcm_data_bytes); try now apply gcm_blocks_differ.
  - assert (M : map (fun key => aes_encrypt_block key (repeat 0 16) (nk_of alg) (nr_of alg) alg) ks =
                map Ok (map (fun key => aes_pure alg key (repeat 0 16)) ks)).
    { rewrite map_map. apply map_ext_in. intros key I. apply aes_encrypt_block_Ok; auto. }
    rewrite M in ND. exact (NoDup_map_inv _ _ ND).
  - intros k Ik. apply in_map_iff in Ik as (key & <- & I). destruct (H key I) as (_ & (m & D) & (m' & D')).
    specialize (HK key I). destruct (aes_encrypt_block_Ok alg key (repeat 0 16) HK Z16) as [_ B].
    split; [exact B|]. eexists _, _. conjs.
    + apply gmac_Ok; [now apply gcm_data_bytes|exact B].
    + apply gmac_Ok; [now apply gcm_data_bytes|exact B].
    + rewrite gcm_decrypt_Ok in D, D' by assumption.
      destruct (list_eqb _ t) eqn:E in D; [|discriminate]. destruct (list_eqb _ t') eqn:E' in D'; [|discriminate].
      apply list_eqb_spec in E, E'. subst t t'. unfold gcm_tag.
      set (s := be_str 16 _). set (s' := be_str 16 (ghash _ (gcm_mac_data aad' ct'))).
      rewrite (map_nth_zip s s' 16) by apply be_str_length.
      rewrite (map_nth_zip _ _ 16) by now rewrite map_length, seq_length.
      apply map_ext_in. intros i Hi2. apply in_seq in Hi2. rewrite !nth_map_seq by lia. lxor_solve.
Qed.
Lemma ghash_block_shift m i : ghash_block (repeat 0 16 ++ m) (S i) = ghash_block m i.
Proof.
  rewrite !ghash_mblock. apply (f_equal be_num). unfold mblock. apply map_ext. intros j.
  rewrite app_nth2 by (rewrite repeat_length; lia). f_equal. rewrite repeat_length. lia.
Qed.
Lemma ghash_block_zero m : ghash_block (repeat 0 16 ++ m) 0 = 0.
Proof. rewrite ghash_mblock. unfold mblock. cbn [Nat.mul repeat app seq map Nat.add nth]. reflexivity. Qed.
Lemma horner_0 h m : horner h m 0 = 0.
Proof. reflexivity. Qed.
Lemma horner_shift h m n : horner h (repeat 0 16 ++ m) (S n) = horner h m n.
Proof.
  induction n as [|n IH].
  - rewrite horner_S, !horner_0, ghash_block_zero. apply gcm_mul_0_l.
  - rewrite horner_S, IH, ghash_block_shift. symmetry. apply horner_S.
Qed.
(** Without the length block GHASH is not universal: leading zero blocks have no effect. *)
Theorem C79_leading_zero_block : forall m k, Forall byte m -> bytes_n 16 k ->
  exists t, gmac m k = Ok t /\ gmac (repeat 0 16 ++ m) k = Ok t.
Proof.
  intros m k Hm Hk. eexists. split; [now apply gmac_Ok|].
  assert (F : Forall byte (repeat 0 16 ++ m)).
  { apply Forall_app. split; [|exact Hm]. apply Forall_forall. intros x Hx. apply repeat_spec in Hx. subst. unfold byte; lia. }
  rewrite gmac_Ok by assumption. assert (U : u128r (be_num k)) by now apply encode_Ok.
  assert (GE : ghash (be_num k) (repeat 0 16 ++ m) = ghash (be_num k) m); [|now rewrite GE].
  rewrite !ghash_horner by exact U. set (h := be_num k).
  assert (B : ((length (repeat 0%Z 16 ++ m) + 15) / 16 = S ((length m + 15) / 16))%nat).
  { rewrite app_length, repeat_length. replace (16 + length m + 15)%nat with (length m + 15 + 1 * 16)%nat by lia.
    rewrite Nat.div_add by lia. lia. }
  rewrite B. apply horner_shift.
Qed.
Print Assumptions C79_ghash_universal_same_length.
Print Assumptions C79_ghash_universal_gcm.
Print Assumptions C79_gcm_forgery_bound.
Print Assumptions C79_leading_zero_block.
#[local] Transparent gcm_mul fmul brev gf_mul.
(** Two texts of one block and the key for x; two messages under one AES key and IV, both accepted. *)
Example C79_ex : let k := 64 :: repeat 0 15 in
  bytes_n 16 k /\ gmac [128] k = Ok k /\ gmac [64] k = Ok (32 :: repeat 0 15) /\
  zip_with Z.lxor k (32 :: repeat 0 15) = 96 :: repeat 0 15 /\ gmac (repeat 0 16 ++ [128]) k = Ok k.
Proof. intros k. conjs; try check_bytes; vm_compute; reflexivity. Qed.
Example C79_ex_gcm : exists ct t ct' t',
  gcm_encrypt_pub kat_gcm_key kat_gcm_iv kat_gcm_aad [1; 2; 3] Aes128 = Ok (ct, t) /\
  gcm_encrypt_pub kat_gcm_key kat_gcm_iv [] (repeat 7 17) Aes128 = Ok (ct', t') /\
  ~ (kat_gcm_aad = [] /\ ct = ct') /\ length t = 16%nat /\ length t' = 16%nat /\
  gcm_decrypt_pub kat_gcm_key kat_gcm_iv kat_gcm_aad ct t Aes128 = Ok (Some [1; 2; 3]) /\
  gcm_decrypt_pub kat_gcm_key kat_gcm_iv [] ct' t' Aes128 = Ok (Some (repeat 7 17)) /\
  NoDup (map (fun key => aes_encrypt_block key (repeat 0 16) (nk_of Aes128) (nr_of Aes128) Aes128) [kat_gcm_key]).
Proof.
  do 4 eexists. split; [vm_compute; reflexivity|]. split; [vm_compute; reflexivity|].
  split; [intros [E _]; discriminate E|]. conjs; try (vm_compute; reflexivity).
  repeat constructor. intros [].
Qed.
