(** Forgeries against ChaCha20-Poly1305 (C84) and collisions of HMAC (C85). *)
From Coq Require Import ZArith List Bool Arith Lia.
From Verif Require Import Base P_Base M_Int M_Seq M_Bytes P_Seq P_Bytes P_Word P_Stream
  M_ChaCha S_ChaCha P_ChaCha P_Poly1305 T_ChaCha T_Mac.
From Verif Require S_AES P_GCM M_SHA2 S_SHA2 T_SHA2.
Import ListNotations.
Open Scope Z_scope.

(** *** C84 *)
(** The clamped half r of the one-time key: the first 16 bytes of the key stream of counter 0. *)
Definition one_time_r (iv key : list Z) : list Z :=
  match block key 0 iv with Ok b => clamp (firstn 16 b) | Panic _ => [] end.
Lemma mac_data_blocks aad ct : ((length (rfc_mac_data aad ct) + 15) / 16 = (length aad + 15) / 16 + (length ct + 15) / 16 + 1)%nat.
Proof.
  assert (E : length (rfc_mac_data aad ct) = (padded_len (length aad) + padded_len (length ct) + 16)%nat).
  { unfold rfc_mac_data. rewrite !padded_len_eq, !app_length, !le64_length. lia. }
  assert (PL : forall l, padded_len l = (16 * ((l + 15) / 16))%nat).
  { intros l. unfold padded_len.
    pose proof (Nat.div_mod l 16 ltac:(lia)). pose proof (Nat.mod_upper_bound l 16 ltac:(lia)).
    pose proof (Nat.div_mod (l + 15) 16 ltac:(lia)). pose proof (Nat.mod_upper_bound (l + 15) 16 ltac:(lia)).
    destruct (Nat.eqb_spec (l mod 16) 0); lia. }
  rewrite E, !PL. set (x := ((length aad + 15) / 16)%nat). set (y := ((length ct + 15) / 16)%nat).
  replace (16 * x + 16 * y + 16 + 15)%nat with (15 + (x + y + 1) * 16)%nat by lia.
  rewrite Nat.div_add by lia. reflexivity.
Qed.
(** Under one IV, two triples (associated data, ciphertext, tag) that differ in more than the tag are both accepted for
    at most 7 times as many values of the clamped one-time key as the longer one has blocks. *)
Theorem C84_aead_forgery_bound : forall iv aad ct t aad' ct' t' ks,
  bytes_n 12 iv -> Forall byte aad -> Forall byte ct -> Forall byte aad' -> Forall byte ct' ->
  Z.of_nat (length aad) < 2 ^ 64 -> Z.of_nat (length ct) < 2 ^ 64 ->
  Z.of_nat (length aad') < 2 ^ 64 -> Z.of_nat (length ct') < 2 ^ 64 -> ~ (aad = aad' /\ ct = ct') ->
  (forall key, In key ks -> bytes_n 32 key /\
     (exists m, cp_decrypt key iv aad ct t = Ok (Some m)) /\ (exists m', cp_decrypt key iv aad' ct' t' = Ok (Some m'))) ->
  NoDup (map (one_time_r iv) ks) ->
  (length ks <= 7 * Nat.max ((length aad + 15) / 16 + (length ct + 15) / 16 + 1)
                            ((length aad' + 15) / 16 + (length ct' + 15) / 16 + 1))%nat.
Proof.
  intros iv aad ct t aad' ct' t' ks Hi Ha Hc Ha' Hc' La Lc La' Lc' N H ND.
  rewrite <- !mac_data_blocks, <- (map_length (fun key => otk key iv)).
  apply (C78_poly1305_forgery_bound _ _ t t').
  - now apply mac_data_bytes.
  - now apply mac_data_bytes.
  - intros E. apply N. now apply mac_data_inj.
  - intros k Ik. apply in_map_iff in Ik as (key & <- & I). destruct (H key I) as (Hk & (m & D) & (m' & D')).
    split; [apply otk_bytes|].
    rewrite cp_decrypt_Ok in D, D' by assumption.
    destruct (list_eqb _ t) eqn:E in D; [|discriminate]. destruct (list_eqb _ t') eqn:E' in D'; [|discriminate].
    apply list_eqb_spec in E, E'. subst t t'.
    split; apply poly_Ok; try apply otk_bytes; now apply mac_data_bytes.
  - rewrite map_map. erewrite map_ext_in; [exact ND|]. intros key I. destruct (H key I) as (Hk & _).
    unfold one_time_r. rewrite block_Ok by (first [assumption | split; [lia|reflexivity]]). reflexivity.
Qed.
(** The RFC 8439 2.8.2 vector and a second triple under the same key and IV: both are accepted. *)
Example C84_ex : exists t', cp_decrypt kat_aead_key kat_aead_iv kat_aead_aad kat_aead_ct kat_aead_tag = Ok (Some kat_aead_msg) /\
  (exists m', cp_decrypt kat_aead_key kat_aead_iv [] [1; 2; 3] t' = Ok (Some m')) /\ NoDup (map (one_time_r kat_aead_iv) [kat_aead_key]).
Proof.
  eexists. split; [vm_compute; reflexivity|]. split; [|repeat constructor; intros []].
  eexists. destruct (C41_decrypt_accepts_iff kat_aead_key kat_aead_iv [] [1; 2; 3] (cp_tag kat_aead_key kat_aead_iv [] [1; 2; 3])) as (r & E & _);
    [apply bytes_check; reflexivity|apply bytes_check; reflexivity|constructor|repeat constructor; discriminate|reflexivity|reflexivity|].
  rewrite cp_decrypt_Ok; [|apply bytes_check; reflexivity|apply bytes_check; reflexivity|constructor|repeat constructor; discriminate|reflexivity|reflexivity].
  replace (list_eqb _ _) with true by (symmetry; now apply list_eqb_spec). reflexivity.
Qed.

(** *** C85 *)
Import S_AES M_SHA2 S_SHA2 T_SHA2.
(** Two texts with the same tag under one key: k0 is the key (or its digest) filled up to a block with zeros, and hash
    agrees on the two inner inputs, or the inner digests differ and hash agrees on the two outer inputs. *)
Theorem C85_hmac_collision : forall k t t' d, Forall byte k -> Forall byte t -> Forall byte t' ->
  Z.of_nat (length k) < 2 ^ 61 -> Z.of_nat (length t) < 2 ^ 61 - 64 -> Z.of_nat (length t') < 2 ^ 61 - 64 ->
  t <> t' -> hmac k t = Ok d -> hmac k t' = Ok d ->
  exists k0, ((length k <= 64)%nat -> k0 = k ++ repeat 0 (64 - length k)) /\
    ((64 < length k)%nat -> exists kd, hash k = Ok kd /\ k0 = kd ++ repeat 0 32) /\
    let ip := map (fun b => Z.lxor b 0x36) k0 in let op := map (fun b => Z.lxor b 0x5c) k0 in
    hash (ip ++ t) = hash (ip ++ t') \/
    (exists u u', hash (ip ++ t) = Ok u /\ hash (ip ++ t') = Ok u' /\ u <> u' /\ hash (op ++ u) = Ok d /\ hash (op ++ u') = Ok d).
Proof.
  intros k t t' d Fk Ft Ft' Lk Lt Lt' N E E'. destruct C51_hmac_is_rfc2104 as (H & HH & HM).
  destruct (HM k t Fk Ft Lk Lt) as [E1 _]. destruct (HM k t' Fk Ft' Lk Lt') as [E2 _].
  assert (Q : rfc_hmac H k t = rfc_hmac H k t') by congruence. unfold rfc_hmac in Q.
  set (k0 := zero_extend 64 (if (length k <=? 64)%nat then k else H k)) in Q.
  assert (K0 : Forall byte k0 /\ length k0 = 64%nat).
  { assert (K : forall x, Forall byte x -> (length x <= 64)%nat -> Forall byte (zero_extend 64 x) /\ length (zero_extend 64 x) = 64%nat).
    { intros x Fx Lx. unfold zero_extend. split; [|rewrite app_length, repeat_length; lia].
      apply Forall_app. split; [exact Fx|]. apply Forall_forall. intros y Hy. apply repeat_spec in Hy. subst. red; lia. }
    unfold k0. destruct (Nat.leb_spec (length k) 64) as [L|L]; [now apply K|].
    destruct (HH k Fk Lk) as [_ [Ln Fb]]. apply K; [exact Fb|lia]. }
  destruct K0 as [Fk0 Lk0].
  assert (X : forall c, 0 <= c < 256 -> Forall byte (map (fun b => Z.lxor b c) k0) /\ length (map (fun b => Z.lxor b c) k0) = 64%nat).
  { intros c Hc. rewrite map_length. split; [|exact Lk0]. apply Forall_map. apply (Forall_impl _ (P := byte)); [|exact Fk0].
    intros b Hb. apply (lxor_range 8); [lia|exact Hb|exact Hc]. }
  destruct (X 0x36 ltac:(lia)) as [Fi Li], (X 0x5c ltac:(lia)) as [Fo Lo].
  set (pi := map (fun b => Z.lxor b 0x36) k0) in *. set (po := map (fun b => Z.lxor b 0x5c) k0) in *.
  assert (HI : hash (pi ++ t) = Ok (H (pi ++ t)) /\ bytes_n 32 (H (pi ++ t))) by (apply HH; [now apply Forall_app|rewrite app_length; lia]).
  assert (HI' : hash (pi ++ t') = Ok (H (pi ++ t')) /\ bytes_n 32 (H (pi ++ t'))) by (apply HH; [now apply Forall_app|rewrite app_length; lia]).
  destruct HI as [HI [Ln Fn]], HI' as [HI' [Ln' Fn']].
  exists k0. split.
  { intros L. unfold k0. rewrite (proj2 (Nat.leb_le _ _) L). reflexivity. }
  split.
  { intros L. exists (H k). destruct (HH k Fk Lk) as [HK [LH _]]. split; [exact HK|]. unfold k0.
    rewrite (proj2 (Nat.leb_gt _ _) L). unfold zero_extend. now rewrite LH. }
  cbv zeta. fold pi po.
  destruct (list_eq_dec Z.eq_dec (H (pi ++ t)) (H (pi ++ t'))) as [S|S]; [left; congruence|right].
  exists (H (pi ++ t)), (H (pi ++ t')). split; [exact HI|]. split; [exact HI'|]. split; [exact S|].
  destruct (HH (po ++ H (pi ++ t))) as [-> _]; [now apply Forall_app|rewrite app_length; lia|].
  destruct (HH (po ++ H (pi ++ t'))) as [-> _]; [now apply Forall_app|rewrite app_length; lia|].
  change (rfc_hmac H k t) with (H (po ++ H (pi ++ t))) in E1. change (rfc_hmac H k t') with (H (po ++ H (pi ++ t'))) in E2.
  split; congruence.
Qed.
(** The text t followed by the padding that SHA-256 adds to a message 64 bytes longer. *)
Definition extended (t : list Z) : list Z :=
  t ++ [0x80] ++ repeat 0 ((119 - length t mod 64) mod 64)%nat ++ be_str 8 (8 * Z.of_nat (64 + length t)).
Lemma extended_pad p t : length p = 64%nat -> p ++ extended t = sha_pad (p ++ t).
Proof.
  intros L. unfold extended, sha_pad. rewrite <- app_assoc, app_length, L.
  replace ((64 + length t) mod 64)%nat with (length t mod 64)%nat; [reflexivity|].
  replace (64 + length t)%nat with (length t + 1 * 64)%nat by lia. now rewrite Nat.mod_add by lia.
Qed.
(** Because hash leaves out the padding of whole blocks, the tag of t is also the tag of the other text extended t,
    under every key: a forgery that needs no key. *)
Theorem C85_hmac_forgery : forall t, Forall byte t -> Z.of_nat (length t) < 2 ^ 61 - 256 -> (length t mod 64)%nat <> 0%nat ->
  extended t <> t /\ Forall byte (extended t) /\
  forall k, Forall byte k -> Z.of_nat (length k) < 2 ^ 61 -> exists d, hmac k t = Ok d /\ hmac k (extended t) = Ok d.
Proof.
  intros t Ft Lt M.
  assert (Fe : Forall byte (extended t)).
  { unfold extended. repeat (apply Forall_app; split); trivial.
    - repeat constructor; discriminate.
    - apply Forall_forall. intros y Hy. apply repeat_spec in Hy. subst. red; lia.
    - now destruct (P_GCM.be_str_bytes 8 (8 * Z.of_nat (64 + length t))). }
  assert (Le : Z.of_nat (length (extended t)) < 2 ^ 61 - 64).
  { unfold extended. rewrite !app_length, repeat_length, P_GCM.be_str_length. cbn [length].
    pose proof (Nat.mod_upper_bound (119 - length t mod 64) 64 ltac:(lia)). lia. }
  split; [intros E; apply (f_equal (@length Z)) in E; unfold extended in E; rewrite !app_length in E; cbn [length] in E; lia|].
  split; [exact Fe|]. intros k Fk Lk. destruct C51_hmac_is_rfc2104 as (H & HH & HM).
  destruct (HM k t Fk Ft Lk ltac:(lia)) as [-> _]. destruct (HM k (extended t) Fk Fe Lk Le) as [-> _].
  eexists. split; [reflexivity|]. unfold rfc_hmac.
  set (k0 := zero_extend 64 (if (length k <=? 64)%nat then k else H k)).
  assert (K0 : Forall byte k0 /\ length k0 = 64%nat).
  { assert (K : forall x, Forall byte x -> (length x <= 64)%nat -> Forall byte (zero_extend 64 x) /\ length (zero_extend 64 x) = 64%nat).
    { intros x Fx Lx. unfold zero_extend. split; [|rewrite app_length, repeat_length; lia].
      apply Forall_app. split; [exact Fx|]. apply Forall_forall. intros y Hy. apply repeat_spec in Hy. subst. red; lia. }
    unfold k0. destruct (Nat.leb_spec (length k) 64) as [L|L]; [now apply K|].
    destruct (HH k Fk Lk) as [_ [Ln Fb]]. apply K; [exact Fb|lia]. }
  destruct K0 as [Fk0 Lk0].
  set (pi := map (fun b => Z.lxor b 0x36) k0).
  assert (Fi : Forall byte pi).
  { apply Forall_map. apply (Forall_impl _ (P := byte)); [|exact Fk0]. intros b Hb. apply (lxor_range 8); [lia|exact Hb|lia]. }
  assert (Li : length pi = 64%nat) by (unfold pi; now rewrite map_length).
  assert (E : H (pi ++ extended t) = H (pi ++ t)); [|now rewrite E].
  assert (Fp : Forall byte (pi ++ t)) by now apply Forall_app.
  destruct (HH (pi ++ t) Fp) as [E1 _]; [rewrite app_length; lia|].
  destruct (HH (pi ++ extended t)) as [E2 _]; [now apply Forall_app|rewrite app_length; lia|].
  rewrite (extended_pad pi t Li) in *.
  destruct (C50_padded_message_collides (pi ++ t) Fp) as [_ E3]; [rewrite app_length; lia| |congruence].
  rewrite app_length, Li. replace (64 + length t)%nat with (length t + 1 * 64)%nat by lia. now rewrite Nat.mod_add by lia.
Qed.
Theorem C85_hmac_unforgeable_refuted : exists t t', t <> t' /\ Forall byte t /\ Forall byte t' /\
  forall k, Forall byte k -> Z.of_nat (length k) < 2 ^ 61 -> exists d, hmac k t = Ok d /\ hmac k t' = Ok d.
Proof.
  assert (F : Forall byte [1]) by (repeat constructor; discriminate).
  destruct (C85_hmac_forgery [1] F ltac:(reflexivity) ltac:(discriminate)) as (N & Fe & H).
  exists [1], (extended [1]). split; [now apply not_eq_sym|]. split; [exact F|]. split; [exact Fe|exact H].
Qed.
(** So the hypotheses of C85_hmac_collision are met, for instance by the key and text of the tests: *)
Example C85_ex : kat_hmac_txt <> extended kat_hmac_txt /\ hmac kat_hmac_key kat_hmac_txt = Ok kat_hmac_tag /\
  hmac kat_hmac_key (extended kat_hmac_txt) = Ok kat_hmac_tag /\ Z.of_nat (length (extended kat_hmac_txt)) < 2 ^ 61 - 64.
Proof. split; [discriminate|]. split; [exact C51_kat|]. split; vm_compute; reflexivity. Qed.
Print Assumptions C84_aead_forgery_bound.
Print Assumptions C85_hmac_collision.
Print Assumptions C85_hmac_forgery.
Print Assumptions C85_hmac_unforgeable_refuted.
