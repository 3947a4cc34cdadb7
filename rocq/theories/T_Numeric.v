(** Theorems about the trait-level operations (C75-C77). *)
From Coq Require Import ZArith List Bool Lia Arith.
From Verif Require Import Base P_Base M_Int P_Word P_Int M_Seq P_Seq M_Bytes P_Bytes M_Vec M_BigInt M_NatMod M_Numeric
  S_Int S_Seq S_BigInt T_Seq T_BigInt.
Import ListNotations.
Open Scope Z_scope.

Lemma horner_acc b l : forall a, fold_left (fun acc d => acc * b + d) l a = a * b ^ Z.of_nat (length l) + horner b l.
Proof.
  unfold horner. induction l as [|x l IH]; intros a; cbn [fold_left length]; [change (b ^ Z.of_nat 0) with 1; ring|].
  rewrite IH, (IH (0 * b + x)), Nat2Z.inj_succ, Z.pow_succ_r by lia. ring.
Qed.
Lemma horner_cons b x l : horner b (x :: l) = x * b ^ Z.of_nat (length l) + horner b l.
Proof. unfold horner at 1. cbn [fold_left]. rewrite horner_acc. ring. Qed.
Lemma horner_be l : horner 256 l = be_val l.
Proof. induction l as [|x l IH]; [reflexivity|]. now rewrite horner_cons, be_val_cons, IH. Qed.
Lemma horner_le l : horner 256 (rev l) = le_val l.
Proof. rewrite horner_be. unfold be_val. now rewrite rev_involutive. Qed.

Lemma bytes_of_8 t : bits t = 8 -> bytes_of t = 1%nat.
Proof. intros E. unfold bytes_of. now rewrite E. Qed.
Lemma le_bytes_1 x : 0 <= x < 256 -> le_bytes 1 x = [x].
Proof. intros H. cbn. now rewrite Z.mod_small. Qed.
Lemma be_bytes_1 x : 0 <= x < 256 -> be_bytes 1 x = [x].
Proof. intros H. unfold be_bytes. now rewrite le_bytes_1. Qed.
Lemma copy_all l : copy_into (seq_new 0 (length l)) l = Ok l.
Proof.
  rewrite (copy_into_Ok 0) by (rewrite seq_new_length; lia). f_equal.
  rewrite skipn_all2 by (rewrite seq_new_length; lia). apply app_nil_r.
Qed.
Lemma arr_from_seq_all k l : length l = k -> arr_from_seq 0 k l = Ok l.
Proof. intros <-. unfold arr_from_seq. rewrite Nat.eqb_refl. cbn [assert_ bind]. apply copy_all. Qed.
Lemma arr_from_seq_bad k (l : list Z) : length l <> k -> arr_from_seq 0 k l = Panic PAssert.
Proof. intros H. unfold arr_from_seq. now rewrite (proj2 (Nat.eqb_neq _ _) H). Qed.

(** *** C75: the byte codecs of the integer traits *)
Theorem C75_encode : forall w c x, rust_width w -> uval w x ->
  let t := mkity w false c in let k := Z.to_nat (w / 8) in
  exists le be,
    sec_to_le t x = Ok le /\ pub_to_le t x = Ok le /\ sec_to_be t x = Ok be /\ pub_to_be t x = Ok be /\
    length le = k /\ be = rev le /\ bytes le /\
    (forall j, (j < k)%nat -> nth j le 0 = (x / 256 ^ Z.of_nat j) mod 256) /\ horner 256 be = x.
Proof.
  intros w c x H X t k. exists (le_bytes k x), (be_bytes k x).
  assert (Hk : k = bytes_of t) by reflexivity. pose proof (rust_aligned t H) as Al.
  pose proof (aligned_pow t Al) as P. cbn [bits t] in P. unfold uval in X.
  assert (S8 : (bits t =? 8) = true -> byte_to_seq x = Ok (le_bytes k x) /\ byte_to_seq x = Ok (be_bytes k x)).
  { intros E. apply Z.eqb_eq in E. rewrite Hk, (bytes_of_8 t E). cbn [bits t] in E. rewrite E in X.
    rewrite le_bytes_1, be_bytes_1 by lia. now split. }
  assert (C : forall l, seq_from_seq 0 l = Ok l) by (intros l; apply copy_all).
  unfold sec_to_le, sec_to_be, pub_to_le, pub_to_be, pub_to_le_bytes, pub_to_be_bytes.
  rewrite word_to_le_Ok, word_to_be_Ok, <- !Hk. cbn [bind]. rewrite !C.
  conjs.
  1-4: destruct (bits t =? 8); [now apply S8|reflexivity].
  - apply le_bytes_length.
  - reflexivity.
  - apply bytes_is. apply le_bytes_is_bytes.
  - intros j Hj. now apply nth_le_bytes.
  - rewrite horner_be, be_val_be_bytes, Hk, P. now apply Z.mod_small.
Qed.
Print Assumptions C75_encode.

Theorem C75_decode : forall w c bs, rust_width w -> bytes bs ->
  let t := mkity w false c in let k := Z.to_nat (w / 8) in
  (length bs = k ->
     uval w (horner 256 bs) /\ uval w (horner 256 (rev bs)) /\
     sec_from_le t bs = Ok (horner 256 (rev bs)) /\ pub_from_le t bs = Ok (horner 256 (rev bs)) /\
     sec_from_be t bs = Ok (horner 256 bs) /\ pub_from_be t bs = Ok (horner 256 bs)) /\
  (length bs <> k ->
     panics (sec_from_le t bs) /\ panics (pub_from_le t bs) /\ panics (sec_from_be t bs) /\ panics (pub_from_be t bs)).
Proof.
  intros w c bs H B t k.
  assert (Hk : k = bytes_of t) by reflexivity. pose proof (rust_aligned t H) as Al.
  pose proof (aligned_pow t Al) as P. cbn [bits t] in P. apply bytes_is in B.
  unfold sec_from_le, sec_from_be, pub_from_le, pub_from_be, pub_from_le_bytes, pub_from_be_bytes. rewrite <- Hk.
  split; intros L.
  - rewrite horner_be, horner_le. rewrite arr_from_seq_all by assumption. cbn [bind].
    rewrite word_from_le_Ok, word_from_be_Ok by (assumption || congruence).
    rewrite cast_unsigned_le, cast_unsigned_be by (assumption || reflexivity || congruence).
    pose proof (be_val_range bs B) as R1. pose proof (le_val_range bs B) as R2. rewrite L, Hk, P in R1, R2.
    assert (S8 : (bits t =? 8) = true -> byte_from_seq bs = Ok (le_val bs) /\ byte_from_seq bs = Ok (be_val bs)).
    { intros E. apply Z.eqb_eq in E. rewrite Hk, (bytes_of_8 t E) in L.
      destruct bs as [|b [|? ?]]; try discriminate L. unfold be_val, byte_from_seq. cbn [rev app le_val length Nat.eqb assert_ bind].
      rewrite Z.mul_0_r, Z.add_0_r. now split. }
    conjs; try (exact R1 || exact R2); destruct (bits t =? 8); try reflexivity; now apply S8.
  - rewrite arr_from_seq_bad by assumption. cbn [bind].
    assert (S8 : (bits t =? 8) = true -> panics (byte_from_seq bs)).
    { intros E. apply Z.eqb_eq in E. rewrite Hk, (bytes_of_8 t E) in L. unfold byte_from_seq.
      rewrite (proj2 (Nat.eqb_neq _ _) L). now eexists. }
    conjs; (destruct (bits t =? 8); [now apply S8|now eexists]).
Qed.
Print Assumptions C75_decode.

Theorem C75_roundtrip : forall w c x, rust_width w -> uval w x ->
  let t := mkity w false c in
  bind (sec_to_le t x) (sec_from_le t) = Ok x /\ bind (sec_to_be t x) (sec_from_be t) = Ok x /\
  bind (pub_to_le t x) (pub_from_le t) = Ok x /\ bind (pub_to_be t x) (pub_from_be t) = Ok x.
Proof.
  intros w c x H X t. destruct (C75_encode w c x H X) as (le & be & E1 & E2 & E3 & E4 & L & R & B & _ & V).
  fold t in E1, E2, E3, E4. rewrite E1, E2, E3, E4. cbn [bind].
  assert (Bb : bytes be). { intros b Hb. apply B. subst be. now apply in_rev. }
  assert (Lb : length be = Z.to_nat (w / 8)) by (subst be; now rewrite rev_length).
  destruct (proj1 (C75_decode w c le H B) L) as (_ & _ & D1 & D2 & _ & _).
  destruct (proj1 (C75_decode w c be H Bb) Lb) as (_ & _ & _ & _ & D3 & D4).
  fold t in D1, D2, D3, D4. rewrite D1, D2, D3, D4, <- R, V. auto.
Qed.
Print Assumptions C75_roundtrip.
Example C75_ex : sec_to_le U32 0x01020304 = Ok [4; 3; 2; 1] /\ sec_to_be U32 0x01020304 = Ok [1; 2; 3; 4] /\
  pub_from_be u16 [1; 0] = Ok 256 /\ sec_to_le U8 200 = Ok [200] /\ sec_from_le U64 [1; 2] = Panic PAssert.
Proof. repeat split; reflexivity. Qed.

(** *** C76: the order of public arrays *)
Lemma arr_cmp_Eq x : forall y, arr_cmp x y = Eq <-> x = y.
Proof.
  induction x as [|a x IH]; intros [|b y]; cbn; try (split; congruence).
  destruct (Z.compare_spec a b) as [->|L|L].
  - rewrite IH. split; congruence.
  - split; [discriminate|]. intros E. injection E. lia.
  - split; [discriminate|]. intros E. injection E. lia.
Qed.
Lemma arr_cmp_sym x : forall y, arr_cmp y x = CompOpp (arr_cmp x y).
Proof.
  induction x as [|a x IH]; intros [|b y]; cbn; try reflexivity.
  rewrite (Z.compare_antisym a b). destruct (a ?= b); cbn; auto.
Qed.
(** x comes before y: they agree up to position i, where x is smaller. *)
Definition lex_less (x y : list Z) : Prop :=
  exists i, (i < length x)%nat /\ (i < length y)%nat /\ (forall j, (j < i)%nat -> nth j x 0 = nth j y 0) /\ nth i x 0 < nth i y 0.
Lemma arr_cmp_Lt x : forall y, length x = length y -> arr_cmp x y = Lt <-> lex_less x y.
Proof.
  induction x as [|a x IH]; intros [|b y] L; try discriminate L.
  - cbn. split; [discriminate|]. intros (i & H & _). cbn in H. lia.
  - injection L as L. cbn [arr_cmp]. destruct (Z.compare_spec a b) as [->|C|C].
    + rewrite IH by assumption. split.
      * intros (i & H1 & H2 & H3 & H4). exists (S i). cbn [length nth]. conjs; try lia.
        intros [|j] Hj; [reflexivity|]. apply H3. lia.
      * intros (i & H1 & H2 & H3 & H4). destruct i as [|i]; [cbn in H4; lia|]. exists i.
        cbn [length nth] in *. conjs; try lia. intros j Hj. apply (H3 (S j)). lia.
    + split; [|reflexivity]. intros _. exists 0%nat. cbn [length nth]. conjs; try lia.
    + split; [discriminate|]. intros (i & H1 & H2 & H3 & H4). destruct i as [|i]; [cbn in H4; lia|].
      specialize (H3 0%nat ltac:(lia)). cbn in H3. lia.
Qed.
Lemma arr_cmp_be x : forall y, length x = length y -> is_bytes x -> is_bytes y -> arr_cmp x y = (be_val x ?= be_val y).
Proof.
  induction x as [|a x IH]; intros [|b y] L Bx By; try discriminate L; [reflexivity|].
  injection L as L. inversion Bx as [|? ? Ha Bx']; inversion By as [|? ? Hb By']; subst.
  rewrite !be_val_cons, L. cbn [arr_cmp]. rewrite IH by assumption.
  pose proof (be_val_range x Bx') as R1. pose proof (be_val_range y By') as R2. rewrite L in R1.
  pose proof (pow256_pos (length y)) as P. symmetry. destruct (Z.compare_spec a b) as [->|C|C].
  - destruct (Z.compare_spec (be_val x) (be_val y)) as [E|E|E].
    + apply Z.compare_eq_iff. lia.
    + apply Z.compare_lt_iff. lia.
    + apply Z.compare_gt_iff. lia.
  - apply Z.compare_lt_iff. nia.
  - apply Z.compare_gt_iff. nia.
Qed.
(** Arrays of the same type have the same length: their order is decided at the first difference,
    it is a total order compatible with ==, and on byte arrays it is the order of the big-endian values. *)
Theorem C76_array_order : forall l x y, length x = l -> length y = l ->
  (arr_cmp x y = Lt <-> lex_less x y) /\ (arr_cmp x y = Gt <-> lex_less y x) /\ (arr_cmp x y = Eq <-> x = y) /\
  arr_partial_cmp x y = Some (arr_cmp x y) /\ (arr_eqb x y = true <-> arr_cmp x y = Eq) /\
  (bytes x -> bytes y -> arr_cmp x y = (horner 256 x ?= horner 256 y)) /\
  (forall z, length z = l -> arr_cmp x y <> Gt -> arr_cmp y z <> Gt -> arr_cmp x z <> Gt).
Proof.
  intros l x y Lx Ly. conjs.
  - apply arr_cmp_Lt. congruence.
  - rewrite <- arr_cmp_Lt by congruence. rewrite (arr_cmp_sym y x). destruct (arr_cmp y x); cbn; split; congruence.
  - apply arr_cmp_Eq.
  - reflexivity.
  - rewrite arr_cmp_Eq. clear. revert y. induction x as [|a x IH]; intros [|b y]; cbn; try (split; congruence).
    rewrite andb_true_iff, IH, Z.eqb_eq. split; [intros [-> ->]; reflexivity|]. intros E; injection E; auto.
  - intros Bx By. rewrite !horner_be. apply arr_cmp_be; [congruence| |]; now apply bytes_is.
  - intros z Lz. clear Lx Ly Lz. revert y z. induction x as [|a x IH]; intros [|b y] [|c z]; cbn; try congruence.
    destruct (Z.compare_spec a b), (Z.compare_spec b c), (Z.compare_spec a c); subst; try lia; try congruence; apply IH.
Qed.
Print Assumptions C76_array_order.
Example C76_ex : arr_cmp [1; 255; 0] [2; 0; 0] = Lt /\ arr_cmp [1; 2; 4] [1; 2; 3] = Gt /\ horner 256 [1; 255; 0] < horner 256 [2; 0; 0].
Proof. repeat split; reflexivity. Qed.

(** *** C77: wrap_add, wrap_sub and wrap_mul *)
(** The claim (a wrapping operation always returns the residue modulo 2^bits) is false of the bounded integers. *)
Theorem C77_bounded_wrap_refuted : exists bits a b, 0 < bits /\ 0 <= a < 2 ^ bits - 1 /\ 0 <= b < 2 ^ bits - 1 /\
  panics (bwrap_add bits false a b) /\ panics (bwrap_sub bits false b a) /\ panics (bwrap_mul bits false a b).
Proof. exists 8, 200, 100. conjs; try lia; eexists; reflexivity. Qed.
Print Assumptions C77_bounded_wrap_refuted.
(** What holds: they agree with the residue modulo 2^bits whenever they return, and they return exactly when the
    integer result is in the range of the type. *)
Lemma eop_mod r z b : 0 < b -> exact_or_panic r z 0 (2 ^ b - 1) ->
  (forall v, r = Ok v -> residue (2 ^ b) z v) /\ (is_ok r <-> 0 <= z < 2 ^ b - 1).
Proof.
  intros Hb [H1 H2]. destruct (Z_le_dec 0 z), (Z_lt_dec z (2 ^ b - 1)).
  1: { rewrite H1 by lia. split; [|split; [lia|now eexists]].
       intros v E. injection E as <-. split; [lia|]. exists 0. ring. }
  all: destruct H2 as [p ->]; [lia|]; split; [discriminate|]; split; [intros [v E]; discriminate|lia].
Qed.
Theorem C77_bounded_wrap : forall b a c, 0 < b -> 0 <= a -> 0 <= c ->
  let good r z := (forall v, r = Ok v -> residue (2 ^ b) z v) /\ (is_ok r <-> 0 <= z < 2 ^ b - 1) in
  good (bwrap_add b false a c) (a + c) /\ good (bwrap_sub b false a c) (a - c) /\ good (bwrap_mul b false a c) (a * c).
Proof.
  intros b a c Hb Ha Hc good. destruct (C24_unsigned_arithmetic b a c Hb Ha Hc) as (A & S & M & _).
  conjs; now apply eop_mod.
Qed.
Print Assumptions C77_bounded_wrap.
(** Modular integers and arrays do wrap. *)
Theorem C77_modular_wrap : forall bits n a b, 0 < bits -> 0 < n < 2 ^ bits - 1 -> 0 <= a < n -> 0 <= b < n ->
  (exists r, nm_wrap_add bits n a b = Ok r /\ residue n (a + b) r) /\
  (exists r, nm_wrap_sub bits n a b = Ok r /\ residue n (a - b) r) /\
  (exists r, nm_wrap_mul bits n a b = Ok r /\ residue n (a * b) r).
Proof. exact C27_ring_operations. Qed.
Print Assumptions C77_modular_wrap.
Theorem C77_array_wrap : forall w s l x y, 0 < w -> arr_of w s l x -> arr_of w s l y ->
  let S := mkity w s true in let P := mkity w s false in
  (exists r, sarr_wrap_add S l x y = Ok r /\ pointwise_mod w s Z.add l x y r) /\
  (exists r, sarr_wrap_sub S l x y = Ok r /\ pointwise_mod w s Z.sub l x y r) /\
  (exists r, sarr_wrap_mul S l x y = Ok r /\ pointwise_mod w s Z.mul l x y r) /\
  (exists r, parr_wrap_add P l x y = Ok r /\ pointwise_mod w s Z.add l x y r) /\
  (exists r, parr_wrap_sub P l x y = Ok r /\ pointwise_mod w s Z.sub l x y r) /\
  (forall fuel, exists r, parr_wrap_mul fuel P l x y = Ok r /\ pointwise_mod w s Z.mul l x y r) /\
  (forall fuel, exists r, pseq_wrap_add fuel P x y = Ok r /\ pointwise_mod w s Z.add l x y r) /\
  (forall fuel, exists r, pseq_wrap_sub fuel P x y = Ok r /\ pointwise_mod w s Z.sub l x y r) /\
  (forall fuel, exists r, pseq_wrap_mul fuel P x y = Ok r /\ pointwise_mod w s Z.mul l x y r).
Proof. exact C21_array_arithmetic. Qed.
Print Assumptions C77_array_wrap.
Example C77_ex : bwrap_add 8 false 100 100 = Ok 200 /\ nm_wrap_sub 8 7 2 5 = Ok 4 /\ sarr_wrap_sub U8 1 [1] [2] = Ok [255].
Proof. repeat split; reflexivity. Qed.
