(** Where two inputs with one output collide inside the sponge of fips202.rs (C89). *)
From Coq Require Import ZArith List Bool Arith Lia.
From Verif Require Import Base P_Base M_Int M_Seq M_Bytes P_Word S_ChaCha T_ChaCha P_Seq P_GCM T_AES S_Keccak M_Keccak P_Keccak P_Sponge P_KeccakBij T_Keccak T_Collide.
Import ListNotations.
Local Open Scope nat_scope.
#[local] Opaque keccak_f.

(** The blocks of a bit string whose length is a multiple of r, and the state after absorbing blocks *)
Definition blocks_of_bits (r : nat) (P : list bool) : list (list bool) := map (fun i => firstn r (skipn (r * i) P)) (seq 0 (length P / r)).
Definition take_in (r : nat) (S b : list bool) : list bool := keccak_f (xor_bits S (b ++ repeat false (1600 - r))).
Definition state_after (r : nat) (l : list (list bool)) : list bool := fold_left (take_in r) l (repeat false 1600).
Lemma absorb_blocks r P : absorb keccak_f r P = state_after r (blocks_of_bits r P).
Proof.
  unfold absorb, state_after, blocks_of_bits. generalize (repeat false 1600). induction (seq 0 _) as [|i l IH]; intros S; [reflexivity|].
  cbn [fold_left map]. apply IH.
Qed.
(** The padding can be taken off again. *)
Lemma zeros_one_inj j j' (x x' : list bool) : repeat false j ++ true :: x = repeat false j' ++ true :: x' -> x = x'.
Proof.
  revert j'; induction j as [|j IH]; intros [|j'] E; cbn [repeat app] in E; try discriminate; [congruence|]. apply (IH j'). congruence.
Qed.
Lemma rev_repeat {A} (a : A) n : rev (repeat a n) = repeat a n.
Proof. induction n as [|n IH]; [reflexivity|]. cbn [repeat rev]. rewrite IH. symmetry. apply repeat_cons. Qed.
Lemma pad101_inj r r' N N' : N ++ pad101 r (length N) = N' ++ pad101 r' (length N') -> N = N'.
Proof.
  unfold pad101. intros E. apply (f_equal (@rev bool)) in E. rewrite !rev_app_distr in E. cbn [rev app] in E.
  rewrite !rev_repeat, <- !app_assoc in E. cbn [app] in E. injection E as E. apply zeros_one_inj in E.
  rewrite <- (rev_involutive N), E. apply rev_involutive.
Qed.
Lemma pad101_mod r N : 0 < r -> length (N ++ pad101 r (length N)) mod r = 0.
Proof.
  intros H. unfold pad101. rewrite !app_length, repeat_length. cbn [length].
  pose proof (Nat.div_mod_eq (length N + 2) r) as D. pose proof (Nat.mod_upper_bound (length N + 2) r ltac:(lia)) as U.
  set (x := (length N + 2) mod r) in *. set (q := (length N + 2) / r) in *. destruct (Nat.eq_dec x 0) as [E|E].
  - rewrite E, Nat.sub_0_r, Nat.mod_same by lia. replace (length N + (1 + (0 + 1))) with (q * r) by lia. apply Nat.mod_mul; lia.
  - rewrite (Nat.mod_small (r - x)) by lia. replace (length N + (1 + (r - x + 1))) with ((q + 1) * r) by lia. apply Nat.mod_mul; lia.
Qed.
Lemma blocks_concat r P : 0 < r -> length P mod r = 0 -> concat (blocks_of_bits r P) = P.
Proof.
  intros H M. pose proof (Nat.div_mod_eq (length P) r) as D. unfold blocks_of_bits. rewrite concat_chunks. apply firstn_all2. lia.
Qed.
Lemma blocks_length r P : 0 < r -> Forall (fun b => length b = r) (blocks_of_bits r P).
Proof.
  intros H. apply Forall_forall. intros b Hb. apply in_map_iff in Hb as (i & <- & Hi). apply in_seq in Hi.
  rewrite firstn_length, skipn_length. pose proof (Nat.mul_div_le (length P) r ltac:(lia)).
  assert (r * i + r <= r * (length P / r)) by nia. lia.
Qed.
Lemma xor_bits_inj (S S' T T' : list bool) : length S = length T -> length S' = length T' -> length S = length S' ->
  xor_bits S T = xor_bits S' T' -> forall i, nth i S false = nth i S' false <-> nth i T false = nth i T' false.
Proof.
  intros L L' LS E i. destruct (Nat.lt_ge_cases i (length S)) as [H|H].
  - apply (f_equal (fun l => nth i l false)) in E. rewrite !nth_xor_bits in E by lia.
    destruct (nth i S false), (nth i S' false), (nth i T false), (nth i T' false); cbn in E; try discriminate; split; intros X; first [reflexivity|discriminate X].
  - rewrite !nth_overflow by lia. tauto.
Qed.
Lemma nth_skipn_ {A} (d : A) n i (l : list A) : nth i (skipn n l) d = nth (n + i) l d.
Proof. revert l; induction n as [|n IH]; intros l; [reflexivity|]. destruct l as [|a l]; [now destruct i|]. cbn [skipn Nat.add nth]. apply IH. Qed.
Lemma state_length r l : r <= 1600 -> Forall (fun b => length b = r) l -> length (state_after r l) = 1600.
Proof.
  intros Hr. induction l as [|b l IH] using rev_ind; intros F; [apply repeat_length|]. unfold state_after in *. rewrite fold_left_app. cbn [fold_left].
  apply Forall_app in F as [F Fb]. inversion_clear Fb as [|? ? Lb _]. unfold take_in at 1.
  destruct keccak_f_pbij as (g & G). apply G. rewrite xor_bits_length, IH, app_length, repeat_length by exact F. lia.
Qed.
Lemma keccak_f_inj S T : length S = 1600 -> length T = 1600 -> keccak_f S = keccak_f T -> S = T.
Proof.
  intros LS LT E. destruct keccak_f_pbij as (g & G). destruct (G S LS) as (_ & _ & E1 & _), (G T LT) as (_ & _ & E2 & _). congruence.
Qed.
(** Equal states after different blocks come from an inner collision: two different sequences of first blocks whose states
    agree outside the first r bits. *)
Lemma state_collision r l l' : 0 < r <= 1600 -> Forall (fun b => length b = r) l -> Forall (fun b => length b = r) l' -> l <> l' ->
  state_after r l = state_after r l' ->
  exists a c a' c', l = a ++ c /\ l' = a' ++ c' /\ a <> a' /\ skipn r (state_after r a) = skipn r (state_after r a').
Proof.
  intros Hr F F' N E.
  assert (dec : forall x y : list bool * list bool, {x = y} + {x <> y}) by (repeat decide equality).
  apply (iterated_collision dec) in E as [E|[E|[E|E]]]; [contradiction| | |].
  - destruct E as (a & b & a' & b' & c & -> & -> & D & X). fold (state_after r a) in D, X. fold (state_after r a') in D, X.
    apply Forall_app in F as [Fa Fb], F' as [Fa' Fb']. inversion_clear Fb as [|? ? Lb _]. inversion_clear Fb' as [|? ? Lb' _].
    pose proof (state_length r a ltac:(lia) Fa) as La. pose proof (state_length r a' ltac:(lia) Fa') as La'.
    assert (LZ : forall u : list bool, length u = r -> length (u ++ repeat false (1600 - r)) = 1600)
      by (intros u Lu; rewrite app_length, repeat_length; lia).
    unfold take_in in X. apply keccak_f_inj in X; [|rewrite xor_bits_length, La, LZ by exact Lb; lia|rewrite xor_bits_length, La', LZ by exact Lb'; lia].
    pose proof (xor_bits_inj _ _ _ _ (eq_trans La (eq_sym (LZ b Lb))) (eq_trans La' (eq_sym (LZ b' Lb'))) (eq_trans La (eq_sym La')) X) as Q.
    exists a, (b :: c), a', (b' :: c). split; [reflexivity|]. split; [reflexivity|]. split.
    + intros <-. apply D. f_equal. apply (nth_ext_eq _ _ false); [lia|]. intros i Hi.
      pose proof (proj1 (Q i) eq_refl) as Y. now rewrite !app_nth1 in Y by lia.
    + apply (nth_ext_eq _ _ false); [rewrite !skipn_length; lia|]. intros i Hi. rewrite !nth_skipn_. apply Q.
      rewrite !app_nth2 by lia. now rewrite Lb, Lb'.
  - destruct E as (a & Na & -> & X). exists a, l', [], l'. split; [reflexivity|]. split; [reflexivity|]. split; [exact Na|].
    unfold state_after at 1. now rewrite X.
  - destruct E as (a & Na & -> & X). exists [], l, a, l. split; [reflexivity|]. split; [reflexivity|]. split; [intros <-; now apply Na|].
    unfold state_after at 2. now rewrite X.
Qed.
(** Two different inputs of the sponge (message and suffix) with one output of n bytes: either the states before squeezing
    differ and only the n bytes squeezed from them agree, or there is an inner collision among the first blocks. *)
Theorem C89_sponge_collisions : forall rate data p sfx data' p' sfx' n out, 0 < rate <= 200 -> Forall byte data -> Forall byte data' ->
  suffix_byte sfx p -> suffix_byte sfx' p' -> byte_bits data ++ sfx <> byte_bits data' ++ sfx' ->
  keccak rate data p n = Ok out -> keccak rate data' p' n = Ok out ->
  let r := 8 * rate in
  let padded := fun N => blocks_of_bits r (N ++ pad101 r (length N)) in
  let l := padded (byte_bits data ++ sfx) in let l' := padded (byte_bits data' ++ sfx') in
  (state_after r l <> state_after r l' /\
   squeeze_bits keccak_f r (8 * n) (state_after r l) = squeeze_bits keccak_f r (8 * n) (state_after r l')) \/
  (exists a c a' c', l = a ++ c /\ l' = a' ++ c' /\ a <> a' /\ skipn r (state_after r a) = skipn r (state_after r a')).
Proof.
  intros rate data p sfx data' p' sfx' n out Hr Fd Fd' Hp Hp' D E E' r padded l l'.
  destruct (C53_keccak_is_sponge rate data p sfx n Hr Fd Hp) as (o & K & _ & Bo).
  destruct (C53_keccak_is_sponge rate data' p' sfx' n Hr Fd' Hp') as (o' & K' & _ & Bo').
  assert (Q : byte_bits o = byte_bits o') by congruence. rewrite Bo, Bo' in Q. unfold sponge in Q. rewrite !absorb_blocks in Q.
  fold r in Q. change (blocks_of_bits r ((byte_bits data ++ sfx) ++ pad101 r (length (byte_bits data ++ sfx)))) with l in Q.
  change (blocks_of_bits r ((byte_bits data' ++ sfx') ++ pad101 r (length (byte_bits data' ++ sfx')))) with l' in Q.
  destruct (list_eq_dec bool_dec (state_after r l) (state_after r l')) as [S|S]; [|now left].
  right. apply state_collision; [unfold r; lia|apply blocks_length; unfold r; lia|apply blocks_length; unfold r; lia| |exact S].
  intros X. apply D. apply (f_equal (@concat bool)) in X. unfold l, l', padded in X.
  rewrite !blocks_concat in X by (first [unfold r; lia|apply pad101_mod; unfold r; lia]). now apply pad101_inj in X.
Qed.
(** The suffixes keep SHA3-256 and SHAKE256, which have the same rate, apart: no two messages give the same padded input. *)
Theorem C89_domains_separate : forall data data' r r', 
  let N := byte_bits data ++ [false; true] in let N' := byte_bits data' ++ [true; true; true; true] in
  N ++ pad101 r (length N) <> N' ++ pad101 r' (length N').
Proof.
  intros data data' r r' N N' E. apply pad101_inj in E. unfold N, N' in E.
  apply (f_equal (@rev bool)) in E. rewrite !rev_app_distr in E. cbn [rev app] in E. discriminate E.
Qed.
Example C89_ex : let N := byte_bits [7%Z] ++ [false; true] in let l := blocks_of_bits 1088 (N ++ pad101 1088 (length N)) in
  length l = 1 /\ firstn 12 (concat l) = [true; true; true; false; false; false; false; false; false; true; true; false] /\
  byte_bits [7%Z] ++ [false; true] <> byte_bits [8%Z] ++ [false; true] /\ suffix_byte [false; true] 0x06%Z.
Proof. split; [vm_compute; reflexivity|]. split; [vm_compute; reflexivity|]. split; [discriminate|apply sha3_suffix]. Qed.
Print Assumptions C89_sponge_collisions.
Print Assumptions C89_domains_separate.
