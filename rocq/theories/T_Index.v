(** Indexing (C104): whatever the index type, an index names the element at that position or the access panics. *)
From Coq Require Import ZArith List Bool Arith Lia.
From Verif Require Import Base P_Base M_Int P_Int M_Seq M_Bytes S_Seq M_Index T_Seq.
Import ListNotations.
Local Open Scope Z_scope.

(** ** Specification *)
(** [at_pos l i x]: counting from 0, the element number [i] of [l] is [x] *)
Definition at_pos {A} (l : list A) (i : Z) (x : A) : Prop :=
  exists pre post, l = pre ++ x :: post /\ Z.of_nat (length pre) = i.
(** [l'] is [l] with element number [i] replaced by [x] *)
Definition replaced {A} (l : list A) (i : Z) (x : A) (l' : list A) : Prop :=
  exists pre y post, l = pre ++ y :: post /\ Z.of_nat (length pre) = i /\ l' = pre ++ x :: post.
(** the part of [l] from position [a] up to but excluding [b] *)
Definition part {A} (l : list A) (a b : Z) (m : list A) : Prop :=
  exists pre post, l = pre ++ m ++ post /\ Z.of_nat (length pre) = a /\ Z.of_nat (length pre + length m) = b.

(** ** Lemmas *)
Lemma index_spec {A} (l : list A) (j : Z) : 0 <= j ->
  (forall x, builtin_index l j = Ok x <-> at_pos l j x) /\
  (Z.of_nat (length l) <= j -> builtin_index l j = Panic PIndex).
Proof.
  intros Hj. unfold builtin_index. split.
  - intros x. destruct (Z.ltb_spec j (Z.of_nat (length l))) as [H|H].
    + unfold idx. split.
      * destruct (nth_error l (Z.to_nat j)) eqn:E; intros Hx; [injection Hx as <-|discriminate].
        apply nth_error_split in E. destruct E as (pre & post & -> & E). exists pre, post. split; [reflexivity|lia].
      * intros (pre & post & -> & E). subst j. rewrite Nat2Z.id, nth_error_app2, Nat.sub_diag by lia. reflexivity.
    + split; [discriminate|]. intros (pre & post & -> & E). rewrite app_length in H. cbn in H. lia.
  - intros H. destruct (Z.ltb_spec j (Z.of_nat (length l))); [lia|reflexivity].
Qed.
Lemma set_nth_app {A} (pre : list A) y post x : set_nth (pre ++ y :: post) (length pre) x = pre ++ x :: post.
Proof. induction pre as [|a pre IH]; cbn; [reflexivity|now rewrite IH]. Qed.
Lemma set_spec {A} (l : list A) (j : Z) (x : A) : 0 <= j ->
  (forall l', builtin_set l j x = Ok l' <-> replaced l j x l') /\
  (Z.of_nat (length l) <= j -> builtin_set l j x = Panic PIndex).
Proof.
  intros Hj. unfold builtin_set. split.
  - intros l'. destruct (Z.ltb_spec j (Z.of_nat (length l))) as [H|H].
    + unfold upd. destruct (Nat.ltb_spec (Z.to_nat j) (length l)); [|lia]. split.
      * intros Hx. injection Hx as <-.
        destruct (nth_error l (Z.to_nat j)) as [y|] eqn:E; [|apply nth_error_None in E; lia].
        apply nth_error_split in E. destruct E as (pre & post & -> & E). exists pre, y, post.
        rewrite <- E, set_nth_app. repeat split; lia.
      * intros (pre & y & post & -> & E & ->). subst j. now rewrite Nat2Z.id, set_nth_app.
    + split; [discriminate|]. intros (pre & y & post & -> & E & _). rewrite app_length in H. cbn in H. lia.
  - intros H. destruct (Z.ltb_spec j (Z.of_nat (length l))); [lia|reflexivity].
Qed.
Lemma cast_usize w i : 0 <= w -> cast (usize_t w) i = i mod 2 ^ w.
Proof. reflexivity. Qed.
Lemma cast_small w i : 32 <= w -> 0 <= i < 2 ^ 32 -> cast (usize_t w) i = i.
Proof.
  intros Hw Hi. rewrite cast_usize by lia. apply Z.mod_small.
  pose proof (Z.pow_le_mono_r 2 32 w ltac:(lia) Hw). lia.
Qed.
Lemma cast_neg w i : 32 <= w -> - 2 ^ 31 <= i < 0 -> 2 ^ (w - 1) <= cast (usize_t w) i.
Proof.
  intros Hw Hi. rewrite cast_usize by lia.
  pose proof (Z.pow_le_mono_r 2 31 (w - 1) ltac:(lia) ltac:(lia)).
  assert (E : 2 ^ w = 2 * 2 ^ (w - 1)) by (rewrite <- Z.pow_succ_r by lia; f_equal; lia).
  rewrite <- (Z.mod_add i 1 (2 ^ w)) by (apply Z.pow_nonzero; lia). rewrite Z.mul_1_l, Z.mod_small; lia.
Qed.

(** ** Theorems *)
(** Reading: u8, u32 and usize indices. *)
Theorem C104_read_unsigned : forall A w (l : list A) i, 32 <= w -> 0 <= i ->
  ((forall x, index_usize l i = Ok x <-> at_pos l i x) /\
   (Z.of_nat (length l) <= i -> index_usize l i = Panic PIndex)) /\
  (i < 2 ^ 8 -> index_u8 w l i = index_usize l i) /\
  (i < 2 ^ 32 -> index_u32 w l i = index_usize l i).
Proof.
  intros A w l i Hw Hi. split; [exact (index_spec l i Hi)|]. unfold index_u8, index_u32, index_usize.
  split; intros H; rewrite cast_small by lia; reflexivity.
Qed.

(** Reading with an i32: positions as above; every negative index panics. That no list is as
    long as half the address space is Rust's limit on the size of an allocation. *)
Theorem C104_read_i32 : forall A w (l : list A) i, 32 <= w -> - 2 ^ 31 <= i < 2 ^ 31 ->
  Z.of_nat (length l) < 2 ^ (w - 1) ->
  (forall x, index_i32 w l i = Ok x <-> at_pos l i x) /\
  (i < 0 \/ Z.of_nat (length l) <= i -> index_i32 w l i = Panic PIndex).
Proof.
  intros A w l i Hw Hi Hl. unfold index_i32. destruct (Z.neg_nonneg_cases i) as [Hn|Hn].
  - pose proof (cast_neg w i Hw ltac:(lia)) as Hc.
    assert (H0 : 0 < 2 ^ (w - 1)) by (apply Z.pow_pos_nonneg; lia).
    pose proof (proj2 (index_spec l (cast (usize_t w) i) ltac:(lia)) ltac:(lia)) as E. rewrite E.
    split; [|reflexivity]. intros x. split; [discriminate|]. intros (pre & post & _ & F). lia.
  - rewrite cast_small by lia. destruct (index_spec l i Hn) as [H1 H2]. split; [exact H1|]. intros [H|H]; [lia|auto].
Qed.

(** Writing replaces that element and no other, or panics under the same conditions. *)
Theorem C104_write_unsigned : forall A w (l : list A) i x, 32 <= w -> 0 <= i ->
  ((forall l', set_usize l i x = Ok l' <-> replaced l i x l') /\
   (Z.of_nat (length l) <= i -> set_usize l i x = Panic PIndex)) /\
  (i < 2 ^ 8 -> set_u8 w l i x = set_usize l i x) /\
  (i < 2 ^ 32 -> set_u32 w l i x = set_usize l i x).
Proof.
  intros A w l i x Hw Hi. split; [exact (set_spec l i x Hi)|]. unfold set_u8, set_u32, set_usize.
  split; intros H; rewrite cast_small by lia; reflexivity.
Qed.
Theorem C104_write_i32 : forall A w (l : list A) i x, 32 <= w -> - 2 ^ 31 <= i < 2 ^ 31 ->
  Z.of_nat (length l) < 2 ^ (w - 1) ->
  (forall l', set_i32 w l i x = Ok l' <-> replaced l i x l') /\
  (i < 0 \/ Z.of_nat (length l) <= i -> set_i32 w l i x = Panic PIndex).
Proof.
  intros A w l i x Hw Hi Hl. unfold set_i32. destruct (Z.neg_nonneg_cases i) as [Hn|Hn].
  - pose proof (cast_neg w i Hw ltac:(lia)) as Hc.
    assert (H0 : 0 < 2 ^ (w - 1)) by (apply Z.pow_pos_nonneg; lia).
    pose proof (proj2 (set_spec l (cast (usize_t w) i) x ltac:(lia)) ltac:(lia)) as E. rewrite E.
    split; [|reflexivity]. intros l'. split; [discriminate|]. intros (pre & y & post & _ & F & _). lia.
  - rewrite cast_small by lia. destruct (set_spec l i x Hn) as [H1 H2]. split; [exact H1|]. intros [H|H]; [lia|auto].
Qed.

(** Ranges: the part from a up to b, or a panic when a > b or b lies beyond the end. *)
Theorem C104_range : forall A (l : list A) a b, 0 <= a -> 0 <= b ->
  (forall m, index_range l a b = Ok m <-> part l a b m) /\
  (b < a \/ Z.of_nat (length l) < b -> index_range l a b = Panic PIndex) /\
  index_full l = Ok l.
Proof.
  intros A l a b Ha Hb. unfold index_full, index_range. split; [|split].
  - intros m. destruct (Z.leb_spec a b) as [H|H]; [destruct (Z.leb_spec b (Z.of_nat (length l))) as [H'|H']|].
    + split.
      * intros E. injection E as <-.
        exists (firstn (Z.to_nat a) l), (skipn (Z.to_nat (b - a)) (skipn (Z.to_nat a) l)).
        rewrite firstn_skipn, firstn_skipn. split; [reflexivity|].
        rewrite !firstn_length, skipn_length. lia.
      * intros (pre & post & -> & E1 & E2). subst a b. f_equal.
        replace (Z.to_nat (Z.of_nat (length pre + length m) - Z.of_nat (length pre))) with (length m) by lia.
        rewrite Nat2Z.id, skipn_app, skipn_all, Nat.sub_diag. cbn.
        rewrite firstn_app, firstn_all, Nat.sub_diag. cbn. apply app_nil_r.
    + split; [discriminate|]. intros (pre & post & -> & E1 & E2). rewrite !app_length in H'. lia.
    + split; [discriminate|]. intros (pre & post & -> & E1 & E2). lia.
  - intros H. destruct (Z.leb_spec a b); [destruct (Z.leb_spec b (Z.of_nat (length l))); [lia|reflexivity]|reflexivity].
  - destruct (Z.leb_spec 0 (Z.of_nat (length l))); [|lia]. rewrite Z.leb_refl, Z.sub_0_r, Nat2Z.id. cbn.
    now rewrite firstn_all.
Qed.

(** A read sees the last write to its position and is not disturbed by writes elsewhere,
    whichever types the two indices have. *)
Theorem C104_read_write : forall A w (l l' : list A) i j x, 32 <= w ->
  0 <= i < 2 ^ 31 -> 0 <= j < 2 ^ 31 -> set_i32 w l i x = Ok l' ->
  index_u32 w l' j = (if i =? j then Ok x else index_u32 w l j) /\ length l' = length l.
Proof.
  intros A w l l' i j x Hw Hi Hj. unfold set_i32, index_u32. rewrite !cast_small by lia. intros H.
  apply (proj1 (set_spec l i x ltac:(lia))) in H. destruct H as (pre & y & post & -> & E & ->).
  split; [|rewrite !app_length; reflexivity]. unfold builtin_index. rewrite !app_length. cbn [length].
  destruct (Z.eqb_spec i j) as [->|N].
  - destruct (Z.ltb_spec j (Z.of_nat (length pre + S (length post)))); [|lia].
    unfold idx. rewrite <- E, Nat2Z.id, nth_error_app2, Nat.sub_diag by lia. reflexivity.
  - destruct (Z.ltb_spec j (Z.of_nat (length pre + S (length post)))); [|reflexivity].
    unfold idx. destruct (Nat.lt_ge_cases (Z.to_nat j) (length pre)) as [C|C].
    + now rewrite !nth_error_app1 by lia.
    + rewrite !nth_error_app2 by lia. destruct (Z.to_nat j - length pre)%nat eqn:D; [lia|reflexivity].
Qed.

(** create gives a list of the requested length of default elements; from_string reads back what to_hex writes. *)
Theorem C104_create : forall A (d : A) n, seq_len (seq_create d n) = n /\
  forall w i, 32 <= w -> 0 <= i < Z.min (Z.of_nat n) (2 ^ 32) -> index_u32 w (seq_create d n) i = Ok d.
Proof.
  intros A d n. unfold seq_len, seq_create, seq_new. rewrite repeat_length. split; [reflexivity|].
  intros w i Hw Hi. unfold index_u32, builtin_index. rewrite cast_small, repeat_length by lia.
  destruct (Z.ltb_spec i (Z.of_nat n)); [|lia]. unfold idx.
  now rewrite nth_error_repeat by lia.
Qed.
Theorem C104_from_string : forall bs, bytes bs -> seq_from_string (to_hex bs) = Ok bs.
Proof. intros bs B. exact (proj1 (C18_decode_encode bs B)). Qed.

Example C104_ex : index_u8 64 [10; 20; 30] 2 = Ok 30 /\ index_i32 64 [10; 20; 30] 1 = Ok 20 /\
  index_i32 64 [10; 20; 30] (-1) = Panic PIndex /\ index_i32 32 [10; 20; 30] (-2147483648) = Panic PIndex /\
  set_i32 32 [10; 20; 30] 1 5 = Ok [10; 5; 30] /\ set_u8 64 [10; 20; 30] 3 5 = Panic PIndex /\
  index_range [10; 20; 30; 40] 1 3 = Ok [20; 30] /\ index_range [10; 20] 2 2 = Ok [] /\
  index_range [10; 20] 2 1 = Panic PIndex /\ index_full [10; 20] = Ok [10; 20] /\
  seq_from_string [49; 102; 48; 48] = Ok [31; 0] /\ seq_create 0 2 = [0; 0].
Proof. repeat split. Qed.
Example C104_spec_ex : at_pos [10; 20; 30] 1 20 /\ replaced [10; 20; 30] 1 5 [10; 5; 30] /\ part [10; 20; 30; 40] 1 3 [20; 30].
Proof.
  split; [exists [10], [30]; split; reflexivity|]. split; [exists [10], 20, [30]; repeat split|].
  exists [10], [40]. repeat split.
Qed.

Print Assumptions C104_read_unsigned.
Print Assumptions C104_read_i32.
Print Assumptions C104_write_unsigned.
Print Assumptions C104_write_i32.
Print Assumptions C104_range.
Print Assumptions C104_read_write.
Print Assumptions C104_create.
Print Assumptions C104_from_string.
