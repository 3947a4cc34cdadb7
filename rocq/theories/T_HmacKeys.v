(** Which keys of HMAC and salts of HKDF are interchangeable (property C113). *)
From Coq Require Import ZArith List Bool Arith Lia.
From Verif Require Import Base P_Base M_Int P_Int M_Seq M_Bytes P_Seq P_Bytes P_Word P_Stream
  S_ChaCha M_SHA2 S_SHA2 P_SHA2 P_HMAC T_SHA2.
Import ListNotations.
Open Scope Z_scope.

(** The block a key is turned into (RFC 2104, section 2): short keys are filled up with zeros,
    long ones are replaced by their digest first. *)
Definition key_block (k k0 : list Z) : Prop :=
  ((length k <= 64)%nat -> k0 = k ++ repeat 0 (64 - length k)) /\
  ((64 < length k)%nat -> exists kd, hash k = Ok kd /\ k0 = kd ++ repeat 0 32).

Lemma zero_extend_zeros k j : (length k + j <= 64)%nat -> zero_extend 64 (k ++ repeat 0 j) = zero_extend 64 k.
Proof.
  intros L. unfold zero_extend. rewrite <- app_assoc, <- repeat_app, app_length, repeat_length.
  now replace (j + (64 - (length k + j)))%nat with (64 - length k)%nat by lia.
Qed.
Lemma rfc_hmac_zeros H k j t : (length k + j <= 64)%nat -> rfc_hmac H (k ++ repeat 0 j) t = rfc_hmac H k t.
Proof.
  intros L. unfold rfc_hmac. rewrite app_length, repeat_length.
  rewrite !(proj2 (Nat.leb_le _ _)) by lia. now rewrite zero_extend_zeros.
Qed.
Lemma padded_bytes k j : Forall byte k -> Forall byte (k ++ repeat 0 j).
Proof. intros F. apply Forall_app. split; [exact F|apply repeat_bytes]. Qed.
Lemma short_padded (k : list Z) j : (length k + j <= 64)%nat -> Z.of_nat (length (k ++ repeat 0 j)) < 2 ^ 61.
Proof. intros L. rewrite app_length, repeat_length. lia. Qed.

(** Zeros at the end of a key of at most 64 bytes do not matter, for any text. *)
Theorem C113_padded_keys : forall k j t, Forall byte k -> Forall byte t -> (length k + j <= 64)%nat ->
  Z.of_nat (length t) < 2 ^ 61 - 64 -> exists d, hmac k t = Ok d /\ hmac (k ++ repeat 0 j) t = Ok d.
Proof.
  intros k j t Fk Ft L Lt. exists (mac_pure k t).
  destruct (hmac_Ok k t Fk Ft) as [-> _]; [unfold short61; lia|exact Lt|].
  destruct (hmac_Ok (k ++ repeat 0 j) t (padded_bytes k j Fk) Ft (short_padded k j L) Lt) as [-> _].
  unfold mac_pure. rewrite rfc_hmac_zeros by exact L. now split.
Qed.
Example C113_padded_keys_ex : Forall byte [11; 0; 7] /\ (length [11; 0; 7] + 61 <= 64)%nat.
Proof. split; [repeat constructor; discriminate|cbn; lia]. Qed.
(** The same of the salt of HKDF-Extract; the empty salt is the salt of zeros. *)
Theorem C113_padded_salts : forall salt j ikm, Forall byte salt -> Forall byte ikm -> (length salt + j <= 64)%nat ->
  Z.of_nat (length ikm) < 2 ^ 61 - 64 -> exists prk, extract salt ikm = Ok prk /\ extract (salt ++ repeat 0 j) ikm = Ok prk.
Proof.
  intros s j t Fs Ft L Lt. exists (mac_pure s t).
  assert (E : forall x, Forall byte x -> (length x <= 64)%nat -> extract x t = Ok (mac_pure x t)).
  { intros x Fx Lx. destruct (extract_Ok x t Fx Ft) as [-> _]; [unfold short61; lia|exact Lt|].
    unfold rfc_extract. destruct x; [|reflexivity]. apply (f_equal Ok). unfold mac_pure.
    exact (rfc_hmac_zeros hash_pure [] 32 t ltac:(cbn; lia)). }
  rewrite !E; [|now apply padded_bytes|rewrite app_length, repeat_length; lia|exact Fs|lia].
  unfold mac_pure. rewrite rfc_hmac_zeros by exact L. now split.
Qed.
(** Without salt: *)
Example C113_padded_salts_ex : extract [] kat_hkdf_ikm = extract [0] kat_hkdf_ikm /\
  extract [0] kat_hkdf_ikm = extract (repeat 0 64) kat_hkdf_ikm /\ (length (@nil Z) + 64 <= 64)%nat.
Proof. split; [vm_compute; reflexivity|]. split; [vm_compute; reflexivity|cbn; lia]. Qed.

(** Nothing else is interchangeable: when two keys have different blocks, the tags of any two texts
    are the SHA-256 digests of two different inputs of 96 bytes, named here; equal tags would be a
    collision between them. *)
Theorem C113_other_keys : forall k k' k0 k0' t t', Forall byte k -> Forall byte k' -> Forall byte t -> Forall byte t' ->
  Z.of_nat (length k) < 2 ^ 61 -> Z.of_nat (length k') < 2 ^ 61 ->
  Z.of_nat (length t) < 2 ^ 61 - 64 -> Z.of_nat (length t') < 2 ^ 61 - 64 ->
  key_block k k0 -> key_block k' k0' -> k0 <> k0' ->
  exists u u', hash (map (fun b => Z.lxor b 0x36) k0 ++ t) = Ok u /\ hash (map (fun b => Z.lxor b 0x36) k0' ++ t') = Ok u' /\
  let x := map (fun b => Z.lxor b 0x5c) k0 ++ u in let x' := map (fun b => Z.lxor b 0x5c) k0' ++ u' in
  hmac k t = Ok (fips_sha256 x) /\ hmac k' t' = Ok (fips_sha256 x') /\
  x <> x' /\ length x = 96%nat /\ length x' = 96%nat.
Proof.
  assert (A : forall k k0 t, Forall byte k -> Forall byte t -> Z.of_nat (length k) < 2 ^ 61 ->
    Z.of_nat (length t) < 2 ^ 61 - 64 -> key_block k k0 -> length k0 = 64%nat /\
    exists u, hash (map (fun b => Z.lxor b 0x36) k0 ++ t) = Ok u /\ length u = 32%nat /\
      hmac k t = Ok (fips_sha256 (map (fun b => Z.lxor b 0x5c) k0 ++ u))).
  { intros k k0 t Fk Ft Lk Lt [Ks Kl]. destruct (hmac_Ok k t Fk Ft Lk Lt) as [E _].
    unfold mac_pure, rfc_hmac in E.
    assert (K : zero_extend 64 (if (length k <=? 64)%nat then k else hash_pure k) = k0 /\ Forall byte k0 /\ length k0 = 64%nat).
    { destruct (Nat.leb_spec (length k) 64) as [L|L].
      - rewrite (Ks L). unfold zero_extend. split; [reflexivity|]. split; [now apply padded_bytes|].
        rewrite app_length, repeat_length. lia.
      - destruct (Kl L) as (kd & Hk & ->). rewrite (hash_short k Fk Lk) in Hk.
        assert (kd = hash_pure k) by congruence. subst kd. destruct (hash_pure_bytes k Fk) as [Lh Bh].
        unfold zero_extend. rewrite Lh. split; [reflexivity|]. split; [now apply padded_bytes|].
        rewrite app_length, Lh. reflexivity. }
    destruct K as (K & Fk0 & Lk0). rewrite K in E. split; [exact Lk0|].
    assert (FI : Forall byte (map (fun b => Z.lxor b 0x36) k0 ++ t))
      by (apply Forall_app; split; [apply map_xor_bytes; [exact byte36|exact Fk0]|exact Ft]).
    exists (hash_pure (map (fun b => Z.lxor b 0x36) k0 ++ t)).
    split; [apply hash_short; [exact FI|unfold short61; rewrite app_length, map_length; lia]|].
    destruct (hash_pure_bytes _ FI) as [U _]. split; [exact U|].
    rewrite <- hash_pure_fips by (rewrite app_length, map_length, U, Lk0; discriminate). exact E. }
  intros k k' k0 k0' t t' Fk Fk' Ft Ft' Lk Lk' Lt Lt' K K' N.
  destruct (A k k0 t Fk Ft Lk Lt K) as (L0 & u & Hu & Lu & E), (A k' k0' t' Fk' Ft' Lk' Lt' K') as (L0' & u' & Hu' & Lu' & E').
  exists u, u'. split; [exact Hu|]. split; [exact Hu'|]. cbv zeta. split; [exact E|]. split; [exact E'|].
  split; [|rewrite !app_length, !map_length; lia]. intros X. apply N. apply (f_equal (firstn 64)) in X.
  assert (P : forall l v, length l = 64%nat -> firstn 64 (map (fun b => Z.lxor b 0x5c) l ++ v) = map (fun b => Z.lxor b 0x5c) l).
  { intros l v L. rewrite firstn_app, map_length, L, Nat.sub_diag, firstn_O, app_nil_r.
    apply firstn_all2. rewrite map_length. lia. }
  rewrite (P k0 u L0), (P k0' u' L0') in X. clear - X. revert k0' X.
  induction k0 as [|a k0 IH]; intros [|b k0'] X; try discriminate; [reflexivity|]. cbn [map] in X.
  assert (P1 : Z.lxor a 0x5c = Z.lxor b 0x5c) by congruence.
  assert (P2 : map (fun b => Z.lxor b 0x5c) k0 = map (fun b => Z.lxor b 0x5c) k0') by congruence.
  rewrite (IH k0' P2). f_equal. apply (f_equal (fun z => Z.lxor z 0x5c)) in P1.
  now rewrite !Z.lxor_assoc, Z.lxor_nilpotent, !Z.lxor_0_r in P1.
Qed.
(** A short and a long key with different blocks: *)
Example C113_other_keys_ex : key_block [1] (1 :: repeat 0 63) /\
  exists kd, hash (repeat 0xaa 131) = Ok kd /\ key_block (repeat 0xaa 131) (kd ++ repeat 0 32) /\ kd ++ repeat 0 32 <> 1 :: repeat 0 63.
Proof.
  split; [split; [reflexivity|cbn [length]; lia]|].
  eexists. split; [vm_compute; reflexivity|]. split; [split; [cbn [length repeat]; lia|]|discriminate].
  intros _. eexists. split; [vm_compute; reflexivity|reflexivity].
Qed.
(** So a key, or salt, is not determined by the function it gives. *)
Theorem C113_keys_refuted : exists k k', k <> k' /\ Forall byte k /\ Forall byte k' /\
  forall t, Forall byte t -> Z.of_nat (length t) < 2 ^ 61 - 64 ->
  exists d, hmac k t = Ok d /\ hmac k' t = Ok d /\ extract k t = Ok d /\ extract k' t = Ok d.
Proof.
  exists [7], [7; 0]. split; [discriminate|]. split; [repeat constructor; discriminate|].
  split; [repeat constructor; discriminate|]. intros t Ft Lt.
  assert (F : Forall byte [7]) by (repeat constructor; discriminate).
  destruct (C113_padded_keys [7] 1 t F Ft ltac:(cbn; lia) Lt) as (d & E1 & E2).
  destruct (C113_padded_salts [7] 1 t F Ft ltac:(cbn; lia) Lt) as (d' & E3 & E4).
  exists d. change ([7] ++ repeat 0 1) with [7; 0] in *.
  assert (D : d' = d); [|rewrite D in E3, E4; exact (conj E1 (conj E2 (conj E3 E4)))].
  destruct (extract_Ok [7] t F Ft ltac:(reflexivity) Lt) as [Q _], (hmac_Ok [7] t F Ft ltac:(reflexivity) Lt) as [Q' _].
  cbn [rfc_extract] in Q. unfold rfc_extract in Q. congruence.
Qed.

Print Assumptions C113_padded_keys.
Print Assumptions C113_padded_salts.
Print Assumptions C113_other_keys.
Print Assumptions C113_keys_refuted.
