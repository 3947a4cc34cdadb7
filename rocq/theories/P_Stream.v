(** Lemmas about block-wise XOR loops, shared by the stream ciphers. *)
From Coq Require Import ZArith List Bool Arith Lia.
From Verif Require Import Base P_Base M_Int M_Seq M_Vec P_Seq P_Vec.
Import ListNotations.
Local Open Scope nat_scope.

Definition xor_ks (cs : nat) (ks : nat -> list Z) (m : list Z) : list Z :=
  map (fun j => Z.lxor (nth j m 0%Z) (nth (j mod cs) (ks (j / cs)) 0%Z)) (seq 0 (length m)).

Lemma xor_ks_length cs ks m : length (xor_ks cs ks m) = length m.
Proof. unfold xor_ks. now rewrite map_length, seq_length. Qed.
Lemma nth_xor_ks cs ks m j : j < length m ->
  nth j (xor_ks cs ks m) 0%Z = Z.lxor (nth j m 0%Z) (nth (j mod cs) (ks (j / cs)) 0%Z).
Proof. intros H. unfold xor_ks. now rewrite nth_map_seq. Qed.
Lemma xor_ks_invol cs ks m : xor_ks cs ks (xor_ks cs ks m) = m.
Proof.
  apply (nth_ext_eq _ _ 0%Z); rewrite !xor_ks_length; [reflexivity|].
  intros i Hi. rewrite !nth_xor_ks by (rewrite ?xor_ks_length; exact Hi).
  now rewrite Z.lxor_assoc, Z.lxor_nilpotent, Z.lxor_0_r.
Qed.
Lemma xor_ks_ext cs ks ks' m : (forall i, cs * i < length m -> ks i = ks' i) -> 0 < cs ->
  xor_ks cs ks m = xor_ks cs ks' m.
Proof.
  intros H Hc. apply (nth_ext_eq _ _ 0%Z); rewrite !xor_ks_length; [reflexivity|].
  intros i Hi. rewrite !nth_xor_ks by exact Hi. rewrite H; [reflexivity|].
  pose proof (Nat.mul_div_le i cs). lia.
Qed.

(** [p.update_start(chunk) ^ kb] truncated to the length of the chunk *)
Lemma update_start_pad cs (chunk : list Z) : length chunk <= cs ->
  update_start (seq_new 0%Z cs) chunk = Ok (chunk ++ repeat 0%Z (cs - length chunk)).
Proof.
  intros H. rewrite (update_start_Ok 0%Z) by (now rewrite seq_new_length).
  unfold seq_new. now rewrite skipn_repeat.
Qed.
Lemma sarr_xor_Ok l x y : length x = l -> length y = l ->
  sarr_xor l x y = Ok (zip_with Z.lxor x y).
Proof. intros. unfold sarr_xor. now apply pointwise_Ok. Qed.
Lemma zip_with_app {A B C} (f : A -> B -> C) a b c : 
  zip_with f (a ++ b) c = zip_with f a (firstn (length a) c) ++ zip_with f b (skipn (length a) c).
Proof.
  revert c; induction a as [|x a IH]; intros c; cbn [app length firstn skipn]; [reflexivity|].
  destruct c as [|y c]; cbn [firstn skipn].
  - unfold zip_with. cbn. now rewrite !combine_nil.
  - rewrite !zip_with_cons. cbn [app]. now rewrite IH.
Qed.
Lemma zip_with_firstn {A B C} (f : A -> B -> C) a c :
  zip_with f a (firstn (length a) c) = zip_with f a c.
Proof.
  revert c; induction a as [|x a IH]; intros c; [reflexivity|].
  destruct c as [|y c]; [reflexivity|]. cbn [length firstn]. now rewrite !zip_with_cons, IH.
Qed.
Lemma subr_Ok (v : list Z) a b : a <= b <= length v ->
  subr 0%Z v a b = Ok (firstn (b - a) (skipn a v)).
Proof.
  intros H. unfold subr. rewrite usub_Ok by lia. cbn [bind]. unfold sub_.
  apply from_sub_Ok. lia.
Qed.
Lemma xor_pad_sub cs (chunk kb : list Z) : length chunk <= cs -> length kb = cs ->
  bind (update_start (seq_new 0%Z cs) chunk) (fun p =>
    bind (sarr_xor cs p kb) (fun x => subr 0%Z x 0 (length chunk)))
  = Ok (zip_with Z.lxor chunk kb).
Proof.
  intros H1 H2. rewrite update_start_pad by assumption. cbn [bind].
  rewrite sarr_xor_Ok; [|rewrite app_length, repeat_length; lia|assumption]. cbn [bind].
  rewrite subr_Ok by (rewrite zip_with_length, app_length, repeat_length; lia).
  cbn [skipn]. rewrite Nat.sub_0_r, zip_with_app, zip_with_firstn.
  f_equal. rewrite firstn_app, zip_with_length.
  replace (Nat.min (length chunk) (length kb)) with (length chunk) by lia.
  rewrite Nat.sub_diag. cbn [firstn]. rewrite app_nil_r. apply firstn_all2.
  rewrite zip_with_length. lia.
Qed.

(** The whole loop: [c] is the value of the rest of the loop state before iteration i. *)
Lemma stream_loop {S : Type} cs (ks : nat -> list Z) (c : nat -> S)
    (f : nat -> list Z * S -> res (list Z * S)) m :
  0 < cs -> (forall i, length (ks i) = cs) ->
  (forall i out, cs * i < length m -> length out = length m ->
     f i (out, c i) = Ok (firstn (cs * i) out
        ++ zip_with Z.lxor (firstn cs (skipn (cs * i) m)) (ks i)
        ++ skipn (cs * i + Nat.min cs (length m - cs * i)) out, c (Datatypes.S i))) ->
  for_range 0 ((length m + cs - 1) / cs) f (seq_new 0%Z (length m), c 0)
  = Ok (xor_ks cs ks m, c ((length m + cs - 1) / cs)).
Proof.
  intros Hcs Hks Hf. set (n := (length m + cs - 1) / cs).
  destruct (num_chunks_bounds (length m) cs Hcs) as (Hn1 & Hn0 & Hn2). fold n in Hn1, Hn0, Hn2.
  destruct (for_range_inv (fun i (s : list Z * S) => snd s = c i /\ length (fst s) = length m /\
     forall j, j < length m -> j < cs * i ->
       nth j (fst s) 0%Z = Z.lxor (nth j m 0%Z) (nth (j mod cs) (ks (j / cs)) 0%Z))
     f 0 n (seq_new 0%Z (length m), c 0)) as (s' & E & H1 & H2 & H3).
  - cbn [fst snd]. rewrite seq_new_length. repeat split. intros j _ Hj. lia.
  - intros i [out x] Hi (Hx & Hl & Hj). cbn [fst snd] in *. subst x.
    assert (Hlt : cs * i < length m).
    { destruct (Nat.eq_dec (length m) 0) as [E0|E0]; [lia|].
      apply Nat.le_lt_trans with (cs * (n - 1)); [apply Nat.mul_le_mono_l|]; lia. }
    eexists. split; [apply Hf; assumption|]. cbn [fst snd].
    set (bl := Nat.min cs (length m - cs * i)).
    assert (Hbl : length (firstn cs (skipn (cs * i) m)) = bl)
      by (rewrite firstn_length, skipn_length; reflexivity).
    assert (Hz : length (zip_with Z.lxor (firstn cs (skipn (cs * i) m)) (ks i)) = bl)
      by (rewrite zip_with_length, Hbl, Hks; lia).
    assert (Hf1 : length (firstn (cs * i) out) = cs * i) by (rewrite firstn_length; lia).
    split; [reflexivity|]. split.
    { rewrite !app_length, Hz, Hf1, skipn_length. lia. }
    intros j Hj1 Hj2. destruct (Nat.lt_ge_cases j (cs * i)) as [C|C].
    + rewrite app_nth1 by lia. rewrite <- Hj by lia.
      rewrite <- (firstn_skipn (cs * i) out) at 2. now rewrite app_nth1 by lia.
    + rewrite app_nth2 by lia. rewrite Hf1. rewrite app_nth1 by lia.
      rewrite (nth_zip_with _ _ _ _ 0%Z 0%Z) by (rewrite ?Hbl, ?Hks; lia).
      assert (Ed : j / cs = i /\ j mod cs = j - cs * i).
      { split; [symmetry; apply (Nat.div_unique _ _ _ (j - cs * i))
               |symmetry; apply (Nat.mod_unique _ _ i)]; lia. }
      destruct Ed as [-> ->]. f_equal.
      rewrite <- (firstn_skipn (cs * i) m) at 2.
      rewrite app_nth2 by (rewrite firstn_length; lia). rewrite firstn_length.
      replace (Nat.min (cs * i) (length m)) with (cs * i) by lia.
      rewrite <- (firstn_skipn cs (skipn (cs * i) m)) at 2. rewrite app_nth1; [reflexivity|lia].
  - rewrite E. destruct s' as [out x]. cbn [fst snd Nat.add] in *. subst x. f_equal. f_equal.
    apply (nth_ext_eq _ _ 0%Z); [now rewrite xor_ks_length|].
    intros j Hj. rewrite H2 in Hj. rewrite H3 by lia. now rewrite nth_xor_ks.
Qed.
