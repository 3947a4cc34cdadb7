(** Lemmas about HMAC and HKDF and about collisions of the iterated hash. *)
From Coq Require Import ZArith List Bool Arith Lia.
From Verif Require Import Base P_Base M_Int P_Int M_Seq P_Seq M_Bytes P_Bytes M_Vec P_Word P_Stream
  S_ChaCha S_AES S_SHA2 P_AES P_Poly1305 P_GCM M_SHA2 P_SHA2 P_Float.
Import ListNotations.
Open Scope Z_scope.
#[local] Opaque hash_pure.

Definition short61 (l : list Z) : Prop := Z.of_nat (length l) < 2 ^ 61.
Lemma hash_short m : Forall byte m -> short61 m -> hash m = Ok (hash_pure m).
Proof. intros. now apply hash_Ok. Qed.
Lemma zero_extend_length n k : (length k <= n)%nat -> length (zero_extend n k) = n.
Proof. intros. unfold zero_extend. rewrite app_length, repeat_length. lia. Qed.
Lemma repeat_bytes n : Forall byte (repeat 0 n).
Proof. apply Forall_forall. intros x Hx. apply repeat_spec in Hx. subst. unfold byte; lia. Qed.
Lemma zero_extend_bytes n k : Forall byte k -> Forall byte (zero_extend n k).
Proof. intros. apply Forall_app. split; [assumption|apply repeat_bytes]. Qed.
Lemma xor_const k c : length k = 64%nat -> sarr_xor 64 k (repeat c 64) = Ok (map (fun b => Z.lxor b c) k).
Proof.
  intros L. rewrite sarr_xor_Ok by (trivial; apply repeat_length). apply (f_equal Ok).
  rewrite <- L. clear L. induction k as [|x k IH]; [reflexivity|]. cbn [length repeat map].
  unfold zip_with in *. cbn [combine map]. now rewrite IH.
Qed.
Lemma map_xor_bytes c k : byte c -> Forall byte k -> Forall byte (map (fun b => Z.lxor b c) k).
Proof.
  intros Hc F. apply Forall_forall. intros x Hx. apply in_map_iff in Hx as (y & <- & Hy).
  apply xor_byte; [|assumption]. rewrite Forall_forall in F. now apply F.
Qed.
Lemma concat2 n (a b : list Z) : length a = n ->
  (let* h := update (seq_new 0 (n + length b)) 0 a in update h n b) = Ok (a ++ b).
Proof.
  intros L. rewrite (update_Ok 0) by (rewrite seq_new_length; lia). cbn [bind].
  change (firstn 0 (seq_new 0 (n + length b))) with (@nil Z). rewrite app_nil_l.
  unfold seq_new at 1. rewrite skipn_repeat.
  rewrite (update_Ok 0) by (rewrite app_length, repeat_length; lia).
  rewrite firstn_app. replace (n - length a)%nat with 0%nat by lia. cbn [firstn]. rewrite app_nil_r.
  rewrite firstn_all2 by lia. rewrite skipn_all2 by (rewrite app_length, repeat_length; lia).
  now rewrite app_nil_r.
Qed.
Definition mac_pure (k t : list Z) : list Z := rfc_hmac hash_pure k t.
Lemma byte36 : byte 0x36. Proof. unfold byte; lia. Qed.
Lemma byte5c : byte 0x5c. Proof. unfold byte; lia. Qed.
Lemma hmac_Ok k t : Forall byte k -> Forall byte t -> short61 k -> Z.of_nat (length t) < 2 ^ 61 - 64 ->
  hmac k t = Ok (mac_pure k t) /\ bytes_n 32 (mac_pure k t).
Proof.
  intros Fk Ft Sk St. unfold mac_pure, rfc_hmac.
  set (k1 := if (length k <=? 64)%nat then k else hash_pure k).
  assert (B1 : Forall byte k1 /\ (length k1 <= 64)%nat).
  { unfold k1. destruct (Nat.leb_spec (length k) 64); [split; [assumption|lia]|].
    destruct (hash_pure_bytes k Fk) as [L F]. split; [assumption|lia]. }
  set (k0 := zero_extend 64 k1).
  assert (L0 : length k0 = 64%nat) by now apply zero_extend_length.
  assert (F0 : Forall byte k0) by now apply zero_extend_bytes.
  assert (K : (if (64 <? length k)%nat then let* d := hash k in update_start (seq_new 0 64) d
               else update_start (seq_new 0 64) k) = Ok k0).
  { unfold k0, zero_extend, k1 in *. destruct (Nat.ltb_spec 64 (length k)), (Nat.leb_spec (length k) 64); try lia.
    - rewrite hash_short by assumption. cbn [bind]. now apply update_start_pad.
    - now apply update_start_pad. }
  set (ip := map (fun b => Z.lxor b 54) k0). set (op := map (fun b => Z.lxor b 92) k0).
  assert (Fi : bytes_n 64 ip) by (split; [unfold ip; now rewrite map_length|apply map_xor_bytes; [apply byte36|assumption]]).
  assert (Fo : bytes_n 64 op) by (split; [unfold op; now rewrite map_length|apply map_xor_bytes; [apply byte5c|assumption]]).
  assert (H1 : hash (ip ++ t) = Ok (hash_pure (ip ++ t))).
  { apply hash_short; [apply Forall_app; split; [apply Fi|assumption]|].
    unfold short61. rewrite app_length, (proj1 Fi). lia. }
  assert (B2 : bytes_n 32 (hash_pure (ip ++ t))) by (apply hash_pure_bytes, Forall_app; split; [apply Fi|assumption]).
  assert (B3 : bytes_n 32 (hash_pure (op ++ hash_pure (ip ++ t)))).
  { apply hash_pure_bytes, Forall_app; split; [apply Fo|apply B2]. }
  assert (H2 : hash (op ++ hash_pure (ip ++ t)) = Ok (hash_pure (op ++ hash_pure (ip ++ t)))).
  { apply hash_short; [apply Forall_app; split; [apply Fo|apply B2]|].
    unfold short61. rewrite app_length, (proj1 Fo), (proj1 B2). lia. }
  split; [|exact B3].
  unfold hmac. rewrite K. cbn [bind].
  rewrite !xor_const by assumption. cbn [bind]. fold ip op.
  assert (E1 := concat2 64 ip t (proj1 Fi)). assert (E2 := concat2 64 op (hash_pure (ip ++ t)) (proj1 Fo)).
  destruct (update (seq_new 0 (64 + length t)) 0 ip) as [x|]; [|discriminate E1]. cbn [bind] in E1 |- *.
  rewrite E1. cbn [bind]. rewrite H1. cbn [bind].
  destruct (update (seq_new 0 (64 + length (hash_pure (ip ++ t)))) 0 op) as [y|]; [|discriminate E2].
  cbn [bind] in E2 |- *. rewrite E2. cbn [bind]. rewrite H2. cbn [bind]. apply arr_from_seq_Ok, B3.
Qed.

(** HKDF *)
Lemma build_Ok t info c : build_hmac_txt t info c = Ok (t ++ info ++ [c]).
Proof.
  unfold build_hmac_txt. rewrite (update_Ok 0) by (rewrite seq_new_length; lia). cbn [bind].
  change (firstn 0 (seq_new 0 (length t + length info + 1))) with (@nil Z). rewrite app_nil_l.
  unfold seq_new. rewrite skipn_repeat. replace (length t + length info + 1 - (0 + length t))%nat with (length info + 1)%nat by lia.
  rewrite (update_Ok 0) by (rewrite app_length, repeat_length; lia). cbn [bind].
  rewrite firstn_app, Nat.sub_diag, firstn_all. cbn [firstn]. rewrite app_nil_r.
  rewrite skipn_app, skipn_all2, app_nil_l, skipn_repeat by lia.
  replace (length info + 1 - (length t + length info - length t))%nat with 1%nat by lia. cbn [repeat].
  rewrite upd_Ok by (rewrite !app_length; cbn [length]; lia).
  rewrite set_nth_app by (rewrite !app_length; cbn [length]; lia). apply (f_equal Ok).
  rewrite app_assoc. rewrite firstn_app, app_length, Nat.sub_diag. cbn [firstn]. rewrite app_nil_r.
  rewrite firstn_all2 by (rewrite app_length; lia). rewrite skipn_all2 by (rewrite !app_length; cbn [length]; lia).
  now rewrite <- app_assoc.
Qed.
Lemma extract_Ok salt ikm : Forall byte salt -> Forall byte ikm -> short61 salt -> Z.of_nat (length ikm) < 2 ^ 61 - 64 ->
  extract salt ikm = Ok (rfc_extract mac_pure salt ikm) /\ bytes_n 32 (rfc_extract mac_pure salt ikm).
Proof.
  intros Fs Fi Ss Si. unfold extract, rfc_extract.
  set (s := match salt with [] => repeat 0 32 | _ => salt end).
  assert (E : (if (0 <? length salt)%nat then seq_from_seq 0 salt else Ok (seq_new 0 32)) = Ok s).
  { unfold s. destruct salt; [reflexivity|]. cbn [length Nat.ltb Nat.leb]. apply seq_from_seq_Ok. }
  assert (B : Forall byte s /\ short61 s).
  { unfold s. destruct salt; [split; [apply repeat_bytes|unfold short61; cbn; lia]|split; assumption]. }
  rewrite E. cbn [bind]. destruct B as [B1 B2]. destruct (hmac_Ok s ikm B1 Fi B2 Si) as [-> B]. cbn [bind].
  split; [|exact B]. apply arr_from_seq_Ok, B.
Qed.
Lemma T_bytes prk info i : Forall byte prk -> Forall byte info -> short61 prk ->
  Z.of_nat (length info) < 2 ^ 61 - 97 -> (i < 255)%nat ->
  (i = 0%nat /\ rfc_T mac_pure prk info i = []) \/ bytes_n 32 (rfc_T mac_pure prk info i).
Proof.
  intros Fp Fi Sp Si. induction i; intros Hi; [left; split; reflexivity|right]. cbn [rfc_T].
  destruct IHi as [[-> ->]|B]; [lia| |]; apply hmac_Ok; trivial.
  - apply Forall_app; split; [constructor|]. apply Forall_app; split; [assumption|]. repeat constructor; lia.
  - cbn [app]. rewrite app_length. cbn [length]. lia.
  - apply Forall_app; split; [apply B|]. apply Forall_app; split; [assumption|]. repeat constructor; lia.
  - rewrite !app_length, (proj1 B). cbn [length]. lia.
Qed.
Lemma expand_Ok prk info l : Forall byte prk -> Forall byte info -> short61 prk ->
  Z.of_nat (length info) < 2 ^ 61 - 97 -> (l <= 254 * 32)%nat ->
  expand prk info l = Ok (rfc_expand mac_pure prk info l).
Proof.
  intros Fp Fi Sp Si Hl. unfold expand. rewrite div_ceil_small by lia.
  set (n := ((l + 31) / 32)%nat).
  assert (Hn : (n < 255)%nat) by (apply Nat.div_lt_upper_bound; lia).
  assert (Hl' : (l <= 32 * n)%nat).
  { assert (D := Nat.div_mod_eq (l + 31) 32). assert (M := Nat.mod_upper_bound (l + 31) 32 ltac:(discriminate)).
    fold n in D. clearbody n. lia. }
  rewrite assert_true by (apply Z.ltb_lt; lia). cbn [bind].
  replace (Z.to_nat (cast u8 (Z.of_nat n))) with n.
  2: { unfold cast, iwrap. cbn [sgn u8 bits]. rewrite Z.mod_small by lia. now rewrite Nat2Z.id. }
  set (T := rfc_T mac_pure prk info).
  assert (TB : forall i, (1 <= i <= 254)%nat -> bytes_n 32 (T i)).
  { intros i Hi. destruct (T_bytes prk info i Fp Fi Sp Si ltac:(lia)) as [[? _]|B]; [lia|exact B]. }
  match goal with |- context [for_range 0 n ?f ?s0] =>
    destruct (for_range_inv (fun i st => (i = 0%nat \/ fst st = T i) /\
      snd st = concat (map T (seq 1 i)) ++ repeat 0 (32 * (n - i))) f 0 n s0) as (st & E & I0 & I1)
  end.
  - cbn [fst snd]. split; [now left|]. cbn [seq map concat app]. unfold seq_new. f_equal. lia.
  - intros i [ti t] Hi [I0 I1]. cbn [fst snd] in I0, I1.
    assert (U : op_add u8 (Z.of_nat i) 1 = Ok (Z.of_nat (S i))).
    { unfold op_add. cbn [sec u8]. unfold chk, in_tyb, imin, imax. cbn [sgn bits u8].
      destruct (_ && _)%bool eqn:X; [f_equal; lia|]. exfalso. revert X. rewrite andb_false_iff, !Z.leb_gt. lia. }
    rewrite U. cbn [bind].
    assert (B : (if (i =? 0)%nat then build_hmac_txt (seq_new 0 0) info (Z.of_nat (S i))
                 else let* ts := seq_from_seq 0 ti in build_hmac_txt ts info (Z.of_nat (S i)))
                = Ok (T i ++ info ++ [Z.of_nat (S i)])).
    { destruct (Nat.eqb_spec i 0) as [->|Hne].
      - rewrite build_Ok. reflexivity.
      - destruct I0 as [I0|I0]; [contradiction|rewrite I0]. rewrite seq_from_seq_Ok. cbn [bind]. apply build_Ok. }
    rewrite B. cbn [bind]. clear B.
    assert (FT : Forall byte (T i) /\ (length (T i) <= 32)%nat).
    { destruct i; [split; [constructor|cbn; lia]|]. destruct (TB (S i) ltac:(lia)) as [L F]. split; [assumption|lia]. }
    destruct (hmac_Ok prk (T i ++ info ++ [Z.of_nat (S i)])) as [-> B]; trivial.
    { apply Forall_app; split; [apply FT|]. apply Forall_app; split; [assumption|]. repeat constructor; lia. }
    { rewrite !app_length. cbn [length]. lia. }
    cbn [bind]. change (mac_pure prk (T i ++ info ++ [Z.of_nat (S i)])) with (T (S i)) in *.
    assert (LC : length (concat (map T (seq 1 i))) = (32 * i)%nat).
    { rewrite (concat_length_const 32), map_length, seq_length; [reflexivity|].
      apply Forall_forall. intros x Hx. apply in_map_iff in Hx as (j & <- & Hj). apply in_seq in Hj.
      apply TB. lia. }
    rewrite I1, (proj1 B).
    rewrite (update_Ok 0) by (rewrite app_length, LC, repeat_length, (proj1 B); lia). cbn [bind].
    eexists. split; [reflexivity|]. cbn [fst snd]. split; [now right|].
    rewrite seq_S, map_app, concat_app. cbn [map concat Nat.add]. rewrite app_nil_r, <- app_assoc.
    rewrite firstn_app, LC. replace (i * 32 - 32 * i)%nat with 0%nat by lia. cbn [firstn]. rewrite app_nil_r.
    rewrite firstn_all2 by lia. f_equal. f_equal.
    rewrite skipn_app, LC, skipn_all2, app_nil_l by lia. rewrite skipn_repeat. f_equal. rewrite (proj1 B). lia.
  - rewrite E. cbn [bind]. destruct st as [ti t]. cbn [snd] in I1. cbn [Nat.add] in I1.
    rewrite Nat.sub_diag, Nat.mul_0_r in I1. cbn [repeat] in I1. rewrite app_nil_r in I1. subst t.
    unfold sub_. rewrite from_sub_Ok.
    + cbn [skipn]. reflexivity.
    + rewrite (concat_length_const 32), map_length, seq_length; [lia|].
      apply Forall_forall. intros x Hx. apply in_map_iff in Hx as (j & <- & Hj). apply in_seq in Hj. apply TB. lia.
Qed.
Lemma expand_panic prk info l : (254 * 32 < l)%nat -> expand prk info l = Panic PAssert.
Proof.
  intros H. unfold expand. assert (D : 255 <= div_ceil l 32).
  { destruct (Z.lt_ge_cases (Z.of_nat l) (2 ^ 53)); [|now apply div_ceil_large].
    rewrite div_ceil_small by assumption. assert (255 <= (l + 31) / 32)%nat by (apply Nat.div_le_lower_bound; lia). lia. }
  rewrite assert_false by (apply Z.ltb_ge; lia). reflexivity.
Qed.

(** ** Collisions of the iterated hash *)
Lemma concat_inj k (a b : list (list Z)) : Forall (fun x => length x = k) a -> Forall (fun x => length x = k) b ->
  length a = length b -> concat a = concat b -> a = b.
Proof.
  intros Ha. revert b. induction Ha as [|x a Lx Ha IH]; intros [|y b] Hb L E; try discriminate; [reflexivity|].
  inversion_clear Hb as [|? ? Ly Hb']. cbn [concat] in E. apply app_inj_len in E as [-> E]; [|lia].
  f_equal. apply IH; trivial. cbn in L. lia.
Qed.
Lemma sha_digest_inj h h' : words8 h -> words8 h' -> sha_digest h = sha_digest h' -> h = h'.
Proof.
  intros [L W] [L' W'] E. unfold sha_digest in E. apply (concat_inj 4) in E.
  - clear - W W' L L' E. assert (LL : length h = length h') by lia. clear L L'. revert h' W' LL E.
    induction W as [|x h Hx W IH]; intros [|y h'] W' LL E; try discriminate; [reflexivity|].
    inversion_clear W' as [|? ? Hy W'']. cbn [map] in E.
    assert (E1 := f_equal (hd []) E). assert (E2 := f_equal (@tl _) E). cbn [hd tl] in E1, E2. f_equal.
    + revert E1. apply (be_str_inj 4); [exact Hx|exact Hy].
    + apply IH; trivial. cbn in LL; lia.
  - apply Forall_forall. intros x Hx. apply in_map_iff in Hx as (y & <- & _). apply be_str_length.
  - apply Forall_forall. intros x Hx. apply in_map_iff in Hx as (y & <- & _). apply be_str_length.
  - rewrite !map_length. lia.
Qed.
Lemma sha_pad_mod m : (length (sha_pad m) mod 64 = 0)%nat.
Proof. rewrite sha_pad_length, Nat.mul_comm. now apply Nat.mod_mul. Qed.
Lemma sha_pad_inj m m' : short61 m -> short61 m' -> length (sha_pad m) = length (sha_pad m') -> sha_pad m = sha_pad m' -> m = m'.
Proof.
  intros S S' L E. unfold sha_pad in E, L. rewrite !app_assoc in E.
  assert (LL : length ((m ++ [128]) ++ repeat 0 ((119 - length m mod 64) mod 64)) =
               length ((m' ++ [128]) ++ repeat 0 ((119 - length m' mod 64) mod 64))).
  { rewrite !app_length, !be_str_length in L. rewrite !app_length. lia. }
  apply app_inj_len in E as [E1 E2]; [|exact LL].
  apply be_str_inj in E2; [|unfold short61 in *; lia|unfold short61 in *; lia].
  assert (Q : length m = length m') by lia. rewrite <- !app_assoc in E1. now apply app_inj_len in E1 as [-> _].
Qed.
Lemma sha_pad_tail m : exists x, sha_pad m = x ++ be_str 8 (8 * Z.of_nat (length m)) /\ (56 <= length x)%nat.
Proof.
  exists ((m ++ [128]) ++ repeat 0 ((119 - length m mod 64) mod 64)). unfold sha_pad. split; [now rewrite !app_assoc|].
  assert (L := sha_pad_length m). unfold sha_pad in L. rewrite !app_length, be_str_length in L. rewrite !app_length.
  destruct (_ <? _)%nat; lia.
Qed.
Lemma last8 (x y : list Z) k : length y = 8%nat -> length (x ++ y) = (64 * S k)%nat ->
  skipn 56 (sha_block (x ++ y) k) = y.
Proof.
  intros Ly L. unfold sha_block. rewrite app_length in L.
  assert (E : skipn (64 * k) (x ++ y) = skipn (64 * k) x ++ y).
  { rewrite skipn_app. replace (64 * k - length x)%nat with 0%nat by lia. reflexivity. }
  rewrite E. rewrite firstn_all2 by (rewrite app_length, skipn_length; lia).
  rewrite skipn_app, skipn_length. replace (56 - (length x - 64 * k))%nat with 0%nat by lia.
  change (skipn 0 y) with y. rewrite (skipn_all2 (skipn (64 * k) x)) by (rewrite skipn_length; lia). reflexivity.
Qed.
