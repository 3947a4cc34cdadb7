(** Index arithmetic on usize (C105): the overflow checks of usize never change what the sequence
    functions return, except in num_chunks for chunk sizes near the end of the address space. *)
From Coq Require Import ZArith List Bool Arith Lia.
From Verif Require Import Base P_Base M_Int M_Seq P_Seq M_Index M_Usize.
Import ListNotations.
Local Open Scope Z_scope.

(** ** Specification *)
(** Both computations return the same value or both panic. *)
Definition same {A} (x y : res A) : Prop := x = y \/ (panics x /\ panics y).
(** The same for computations whose results are the numbers [Z] and [nat]. *)
Definition same_num (x : res Z) (y : res nat) : Prop :=
  same x (let* n := y in Ok (Z.of_nat n)).
(** [k] pieces of size [cs] are needed, and suffice, to cover [n] elements. *)
Definition covers (n cs k : Z) : Prop := n <= k * cs /\ forall k', 0 <= k' -> n <= k' * cs -> k <= k'.
(** A usize of [w] bits; a sequence that can exist on such a target. *)
Definition usz (w : Z) (n : nat) : Prop := Z.of_nat n < 2 ^ w.
Definition exists_on {A} (w : Z) (l : list A) : Prop := Z.of_nat (length l) < 2 ^ (w - 1).

(** ** Lemmas *)
Lemma half w : 1 <= w -> 2 ^ w = 2 * 2 ^ (w - 1).
Proof. intros H. rewrite <- Z.pow_succ_r by lia. f_equal; lia. Qed.
Lemma same_refl {A} (x : res A) : same x x.
Proof. now left. Qed.
Lemma both_panic {A} p q : @same A (Panic p) (Panic q).
Proof. right. split; eexists; reflexivity. Qed.
Lemma same_bind {A B} (x y : res A) (f g : A -> res B) :
  same x y -> (forall a, x = Ok a -> same (f a) (g a)) -> same (bind x f) (bind y g).
Proof.
  intros [->|[[p ->] [q ->]]] H; [destruct y as [a|p]; cbn; [now apply H|apply same_refl]|apply both_panic].
Qed.
Lemma usz_add_Ok w a b : a + b < 2 ^ w -> usz_add w a b = Ok (a + b).
Proof. intros H. unfold usz_add. destruct (Z.ltb_spec (a + b) (2 ^ w)); [reflexivity|lia]. Qed.
Lemma index_nat {A} (l : list A) i : index_usize l (Z.of_nat i) = idx l i.
Proof.
  unfold index_usize, builtin_index. rewrite Nat2Z.id. destruct (Z.ltb_spec (Z.of_nat i) (Z.of_nat (length l))); [reflexivity|].
  unfold idx. now rewrite (proj2 (nth_error_None l i)) by lia.
Qed.
Lemma set_nat {A} (l : list A) i x : set_usize l (Z.of_nat i) x = upd l i x.
Proof.
  unfold set_usize, builtin_set. rewrite Nat2Z.id. destruct (Z.ltb_spec (Z.of_nat i) (Z.of_nat (length l))); [reflexivity|].
  unfold upd. destruct (Nat.ltb_spec i (length l)); [lia|reflexivity].
Qed.
Lemma update_sub_agree {A} w (s v : list A) so si n : 1 <= w -> exists_on w s -> exists_on w v ->
  same (update_sub_w w s (Z.of_nat so) v (Z.of_nat si) (Z.of_nat n)) (update_sub s so v si n).
Proof.
  unfold exists_on. intros Hw Hs Hv. pose proof (half w Hw) as E. unfold update_sub_w, update_sub, zlen.
  destruct (Nat.leb_spec (so + n) (length s)) as [H1|H1].
  2:{ unfold usz_add at 1. destruct (Z.ltb_spec (Z.of_nat so + Z.of_nat n) (2 ^ w)); cbn [bind assert_]; [|apply both_panic].
      destruct (Z.leb_spec (Z.of_nat so + Z.of_nat n) (Z.of_nat (length s))); [lia|apply both_panic]. }
  rewrite (usz_add_Ok w (Z.of_nat so)) by lia. cbn [bind].
  destruct (Z.leb_spec (Z.of_nat so + Z.of_nat n) (Z.of_nat (length s))); [|lia]. cbn [assert_ bind].
  destruct (Nat.leb_spec (si + n) (length v)) as [H2|H2].
  2:{ unfold usz_add at 1. destruct (Z.ltb_spec (Z.of_nat si + Z.of_nat n) (2 ^ w)); cbn [bind assert_]; [|apply both_panic].
      destruct (Z.leb_spec (Z.of_nat si + Z.of_nat n) (Z.of_nat (length v))); [lia|apply both_panic]. }
  rewrite (usz_add_Ok w (Z.of_nat si)) by lia. cbn [bind].
  destruct (Z.leb_spec (Z.of_nat si + Z.of_nat n) (Z.of_nat (length v))); [|lia]. cbn [assert_ bind].
  left. rewrite Nat2Z.id. apply for_range_ext. intros i t Hi. cbn [Nat.add] in Hi.
  rewrite usz_add_Ok by lia. cbn [bind]. rewrite <- Nat2Z.inj_add, index_nat.
  destruct (idx v (si + i)); cbn [bind]; [|reflexivity].
  rewrite usz_add_Ok by lia. cbn [bind]. now rewrite <- Nat2Z.inj_add, set_nat.
Qed.
Lemma from_sub_agree {A} (d : A) w (v : list A) a n : 1 <= w -> exists_on w v ->
  same (from_sub_w d w v (Z.of_nat a) (Z.of_nat n)) (from_sub d v a n).
Proof.
  intros Hw Hv. unfold from_sub_w, from_sub, alloc_w.
  destruct (Z.ltb_spec (Z.of_nat n) (2 ^ (w - 1))) as [H|H]; cbn [bind].
  - rewrite Nat2Z.id. apply (update_sub_agree w (repeat d n) v 0 a n Hw); [|exact Hv].
    unfold exists_on. now rewrite repeat_length.
  - unfold exists_on in Hv. rewrite update_sub_panic; [apply both_panic|]. right. lia.
Qed.
Lemma chunk_len_agree {A} w (s : list A) cs cn : 1 <= w -> exists_on w s -> usz w cs ->
  same_num (get_chunk_len_w w s (Z.of_nat cs) (Z.of_nat cn)) (get_chunk_len s cs cn) /\
  (is_ok (get_chunk_len s cs cn) -> (cs * cn <= length s)%nat \/ cs = 0%nat).
Proof.
  unfold exists_on, usz. intros Hw Hs Hc. pose proof (half w Hw) as E. unfold get_chunk_len_w, get_chunk_len, same_num, zlen.
  unfold usz_mul. rewrite <- Nat2Z.inj_mul. split.
  - destruct (Z.ltb_spec (Z.of_nat (cs * cn)) (2 ^ w)) as [H|H]; cbn [bind].
    + unfold usz_add. rewrite <- Nat2Z.inj_add. destruct (Z.ltb_spec (Z.of_nat (cs * cn + cs)) (2 ^ w)) as [H'|H']; cbn [bind].
      * destruct (Nat.ltb_spec (length s) (cs * cn + cs)) as [L|L];
        destruct (Z.ltb_spec (Z.of_nat (length s)) (Z.of_nat (cs * cn + cs))); try lia; [|apply same_refl].
        unfold usz_sub, usub. destruct (Z.leb_spec (Z.of_nat (cs * cn)) (Z.of_nat (length s))) as [M|M],
          (Nat.leb_spec (cs * cn) (length s)); try lia; [|apply both_panic]. left. cbn [bind]. f_equal. lia.
      * destruct (Nat.ltb_spec (length s) (cs * cn + cs)); [|lia]. unfold usub.
        destruct (Nat.leb_spec (cs * cn) (length s)); [|apply both_panic]. exfalso.
        destruct cn as [|cn]; [lia|]. assert (cs <= cs * S cn)%nat by nia. lia.
    + destruct (Nat.ltb_spec (length s) (cs * cn + cs)); [|lia]. unfold usub.
      destruct (Nat.leb_spec (cs * cn) (length s)); [lia|apply both_panic].
  - intros [k Hk]. destruct (Nat.ltb_spec (length s) (cs * cn + cs)); [|lia]. unfold usub in Hk.
    destruct (Nat.leb_spec (cs * cn) (length s)); [lia|discriminate].
Qed.
Lemma covers_div n cs : 0 <= n -> 0 < cs -> covers n cs ((n + cs - 1) / cs).
Proof.
  intros Hn Hc. pose proof (Z.div_mod (n + cs - 1) cs ltac:(lia)) as D. pose proof (Z.mod_pos_bound (n + cs - 1) cs Hc) as B.
  split; [lia|]. intros k' Hk Hk'. apply Z.lt_succ_r. apply Z.div_lt_upper_bound; lia.
Qed.

(** ** Theorems *)
(** update, sub, from_sub, subr, get_chunk and set_chunk: the usize checks change nothing. *)
Theorem C105_agree : forall A (d : A) w (s v : list A) a b n, 1 <= w -> exists_on w s -> exists_on w v ->
  same (update_sub_w w s (Z.of_nat a) v (Z.of_nat b) (Z.of_nat n)) (update_sub s a v b n) /\
  same (update_w w s (Z.of_nat a) v) (update s a v) /\
  same (from_sub_w d w s (Z.of_nat a) (Z.of_nat n)) (from_sub d s a n) /\
  same (from_sub_range_w d w s (Z.of_nat a) (Z.of_nat b)) (from_sub_range d s a b).
Proof.
  intros A d w s v a b n Hw Hs Hv. split; [now apply update_sub_agree|]. split; [|split; [now apply from_sub_agree|]].
  - exact (update_sub_agree w s v a 0 (length v) Hw Hs Hv).
  - unfold from_sub_range_w, from_sub_range, usz_sub, usub.
    destruct (Z.leb_spec (Z.of_nat a) (Z.of_nat b)), (Nat.leb_spec a b); try lia; cbn [bind]; [|apply both_panic].
    rewrite <- Nat2Z.inj_sub by lia. now apply from_sub_agree.
Qed.
Theorem C105_agree_chunks : forall A (d : A) w (s v : list A) cs cn, 1 <= w -> exists_on w s -> exists_on w v ->
  usz w cs -> usz w cn ->
  same (get_chunk_w d w s (Z.of_nat cs) (Z.of_nat cn))
       (let* r := get_chunk d s cs cn in Ok (Z.of_nat (fst r), snd r)) /\
  same (set_chunk_w w s (Z.of_nat cs) (Z.of_nat cn) v) (set_chunk s cs cn v).
Proof.
  intros A d w s v cs cn Hw Hs Hv Hc _. destruct (chunk_len_agree w s cs cn Hw Hs Hc) as [G L].
  pose proof (half w Hw) as E. unfold exists_on, usz in *.
  unfold get_chunk_w, set_chunk_w, get_chunk, set_chunk, usz_mul. rewrite <- Nat2Z.inj_mul. unfold same_num in G.
  destruct (get_chunk_len s cs cn) as [k|p]; cbn [bind] in *.
  - assert (HL : (cs * cn <= length s)%nat) by (destruct (L (ex_intro _ k eq_refl)) as [?| ->]; lia).
    destruct (Z.ltb_spec (Z.of_nat (cs * cn)) (2 ^ w)); [|lia]. cbn [bind].
    destruct G as [->|[_ [q Q]]]; [|discriminate]. cbn [bind]. split.
    + unfold sub_. destruct (from_sub_agree d w s (cs * cn) k Hw Hs) as [->|[[p1 ->] [p2 ->]]]; [|apply both_panic].
      destruct (from_sub d s (cs * cn) k); apply same_refl.
    + unfold zlen. destruct (Z.eqb_spec (Z.of_nat (length v)) (Z.of_nat k)), (Nat.eqb_spec (length v) k); try lia;
        cbn [assert_ bind]; [|apply same_refl]. exact (update_sub_agree w s v (cs * cn) 0 k Hw Hs Hv).
  - assert (P : panics (get_chunk_len_w w s (Z.of_nat cs) (Z.of_nat cn))).
    { destruct G as [->|[P _]]; [eexists; reflexivity|exact P]. }
    destruct P as [q P]. rewrite P.
    destruct (Z.ltb_spec (Z.of_nat (cs * cn)) (2 ^ w)); cbn [bind]; split; apply both_panic.
Qed.

(** num_chunks, debug profile: the right number, or a panic exactly when the chunk size is 0 or
    so large that length plus chunk size overflows. *)
Theorem C105_num_chunks : forall A w (s : list A) cs, 1 <= w -> 0 <= cs < 2 ^ w ->
  (0 < cs -> zlen s + cs < 2 ^ w -> exists k, num_chunks_w w s cs = Ok k /\ covers (zlen s) cs k) /\
  (cs = 0 \/ 2 ^ w <= zlen s + cs -> panics (num_chunks_w w s cs)).
Proof.
  intros A w s cs Hw Hc. unfold num_chunks_w. split.
  - intros H0 H. rewrite usz_add_Ok by lia. cbn [bind]. unfold usz_sub.
    destruct (Z.leb_spec 1 (zlen s + cs)); [|unfold zlen in *; lia]. cbn [bind]. unfold usz_div.
    destruct (Z.eqb_spec cs 0); [lia|]. eexists. split; [reflexivity|]. apply covers_div; unfold zlen; lia.
  - intros H. unfold usz_add. destruct (Z.ltb_spec (zlen s + cs) (2 ^ w)); cbn [bind]; [|eexists; reflexivity].
    destruct H as [->|H]; [|lia]. unfold usz_sub. destruct (1 <=? zlen s + 0); cbn; eexists; reflexivity.
Qed.

(** Release profile: right as long as length plus chunk size does not exceed 2^w; beyond that
    0, where one chunk is needed. *)
Theorem C105_num_chunks_release : forall A w (s : list A) cs, 1 <= w -> exists_on w s -> 0 < cs < 2 ^ w ->
  (zlen s + cs <= 2 ^ w -> exists k, num_chunks_r w s cs = Ok k /\ covers (zlen s) cs k) /\
  (2 ^ w < zlen s + cs -> num_chunks_r w s cs = Ok 0 /\ covers (zlen s) cs 1).
Proof.
  intros A w s cs Hw Hs Hc. pose proof (half w Hw) as E. unfold exists_on in Hs. fold (zlen s) in Hs.
  assert (H0 : 0 <= zlen s) by (unfold zlen; lia).
  unfold num_chunks_r, usz_div. destruct (Z.eqb_spec cs 0); [lia|].
  rewrite Zminus_mod_idemp_l. split; intros H.
  - rewrite Z.mod_small by lia. eexists. split; [reflexivity|]. now apply covers_div.
  - split.
    + f_equal. rewrite <- (Z.mod_add _ (-1)) by lia. rewrite Z.mod_small by lia. apply Z.div_small. lia.
    + split; [lia|]. intros k' Hk Hk'. destruct (Z.eq_dec k' 0) as [->|]; lia.
Qed.

(** So the release profile may report that a non-empty sequence has no chunks at all. *)
Theorem C105_num_chunks_refuted : exists (s : list Z) cs, exists_on 64 s /\ 0 < cs < 2 ^ 64 /\
  num_chunks_r 64 s cs = Ok 0 /\ ~ covers (zlen s) cs 0 /\ panics (num_chunks_w 64 s cs).
Proof.
  exists [1; 2; 3], (2 ^ 64 - 1). split; [reflexivity|]. split; [lia|]. split; [reflexivity|]. split.
  - intros [H _]. cbn in H. lia.
  - eexists. reflexivity.
Qed.

Example C105_ex : num_chunks_w 64 [1; 2; 3; 4; 5] 2 = Ok 3 /\ num_chunks_r 32 [1; 2; 3; 4; 5] 2 = Ok 3 /\
  get_chunk_w 0 64 [1; 2; 3; 4; 5] 2 2 = Ok (1, [5]) /\ get_chunk_w 0 64 [1; 2; 3] (2 ^ 63) 2 = Panic POverflow /\
  get_chunk_w 0 64 [1; 2; 3] (2 ^ 64 - 1) 0 = Ok (3, [1; 2; 3]) /\
  set_chunk_w 32 [1; 2; 3; 4; 5] 2 1 [8; 9] = Ok [1; 2; 8; 9; 5] /\
  update_sub_w 64 [1; 2; 3] 1 [8; 9] (2 ^ 64 - 1) 1 = Panic POverflow /\
  update_w 64 [1; 2; 3] 1 [8; 9] = Ok [1; 8; 9] /\ from_sub_w 0 64 [1; 2; 3] 1 2 = Ok [2; 3] /\
  from_sub_range_w 0 64 [1; 2; 3] 2 1 = Panic POverflow /\ exists_on 64 [1; 2; 3] /\ usz 32 7.
Proof. repeat split. Qed.

Print Assumptions C105_agree.
Print Assumptions C105_agree_chunks.
Print Assumptions C105_num_chunks.
Print Assumptions C105_num_chunks_release.
Print Assumptions C105_num_chunks_refuted.
