(** Lemmas about M_Bytes.v *)
From Coq Require Import ZArith List Bool Arith Lia.
From Verif Require Import Base P_Base M_Int P_Int M_Seq P_Seq M_Bytes S_Int.
Import ListNotations.
Open Scope Z_scope.

Definition is_bytes (l : list Z) : Prop := Forall (fun b => 0 <= b < 256) l.

Lemma pow256_S k : 256 ^ Z.of_nat (S k) = 256 * 256 ^ Z.of_nat k.
Proof. rewrite Nat2Z.inj_succ, Z.pow_succ_r by lia. lia. Qed.
Lemma pow256_pos k : 0 < 256 ^ Z.of_nat k.
Proof. apply Z.pow_pos_nonneg; lia. Qed.

Lemma le_bytes_length k x : length (le_bytes k x) = k.
Proof. revert x; induction k; intros; cbn; auto. Qed.
Lemma be_bytes_length k x : length (be_bytes k x) = k.
Proof. unfold be_bytes. now rewrite rev_length, le_bytes_length. Qed.
Lemma le_bytes_is_bytes k x : is_bytes (le_bytes k x).
Proof. unfold is_bytes. revert x; induction k; intros; cbn; constructor; auto. apply Z.mod_pos_bound; lia. Qed.
Lemma is_bytes_rev l : is_bytes l -> is_bytes (rev l).
Proof. apply Forall_rev. Qed.
Lemma be_bytes_is_bytes k x : is_bytes (be_bytes k x).
Proof. apply is_bytes_rev, le_bytes_is_bytes. Qed.

Lemma le_val_le_bytes k x : le_val (le_bytes k x) = x mod 256 ^ Z.of_nat k.
Proof.
  revert x; induction k as [|k IH]; intros x; cbn [le_bytes le_val].
  - change (256 ^ Z.of_nat 0) with 1. now rewrite Z.mod_1_r.
  - rewrite IH, pow256_S. pose proof (pow256_pos k).
    rewrite Z.rem_mul_r by lia. reflexivity.
Qed.
Lemma le_val_range bs : is_bytes bs -> 0 <= le_val bs < 256 ^ Z.of_nat (length bs).
Proof.
  induction 1 as [|b t Hb H IH]; cbn [le_val length]; [cbn; lia|].
  rewrite pow256_S. lia.
Qed.
Lemma le_bytes_le_val bs : is_bytes bs -> le_bytes (length bs) (le_val bs) = bs.
Proof.
  induction 1 as [|b t Hb H IH]; cbn [le_val length le_bytes]; [reflexivity|].
  rewrite (Z.mul_comm 256). rewrite Z_mod_plus_full, Z.div_add by lia.
  rewrite Z.mod_small, Z.div_small by lia. now rewrite Z.add_0_l, IH.
Qed.
Lemma nth_le_bytes k x j : (j < k)%nat -> nth j (le_bytes k x) 0 = (x / 256 ^ Z.of_nat j) mod 256.
Proof.
  revert x j; induction k as [|k IH]; intros x j H; [lia|]. destruct j; cbn [le_bytes nth].
  - change (256 ^ Z.of_nat 0) with 1. now rewrite Z.div_1_r.
  - rewrite IH by lia. rewrite pow256_S. now rewrite <- Z.div_div by (pose proof (pow256_pos j); lia).
Qed.
Lemma le_bytes_mod k x : le_bytes k (x mod 256 ^ Z.of_nat k) = le_bytes k x.
Proof.
  rewrite <- le_val_le_bytes. rewrite <- (le_bytes_length k x) at 1.
  apply le_bytes_le_val, le_bytes_is_bytes.
Qed.
Lemma le_val_app a b : le_val (a ++ b) = le_val a + 256 ^ Z.of_nat (length a) * le_val b.
Proof.
  induction a as [|x a IH]; cbn [app le_val length].
  - change (256 ^ Z.of_nat 0) with 1. lia.
  - rewrite IH, pow256_S. lia.
Qed.
Lemma le_val_inj a b : length a = length b -> is_bytes a -> is_bytes b -> le_val a = le_val b -> a = b.
Proof.
  intros L Ha Hb E. rewrite <- (le_bytes_le_val a Ha), <- (le_bytes_le_val b Hb). now rewrite L, E.
Qed.
Lemma le_bytes_inj k x y : le_bytes k x = le_bytes k y -> x mod 256 ^ Z.of_nat k = y mod 256 ^ Z.of_nat k.
Proof. intros E. rewrite <- !le_val_le_bytes. now rewrite E. Qed.
Lemma be_val_range bs : is_bytes bs -> 0 <= be_val bs < 256 ^ Z.of_nat (length bs).
Proof.
  intros H. unfold be_val. rewrite <- (rev_length bs). apply le_val_range. now apply is_bytes_rev.
Qed.
Lemma be_val_be_bytes k x : be_val (be_bytes k x) = x mod 256 ^ Z.of_nat k.
Proof. unfold be_val, be_bytes. rewrite rev_involutive. apply le_val_le_bytes. Qed.
Lemma be_bytes_be_val bs : is_bytes bs -> be_bytes (length bs) (be_val bs) = bs.
Proof.
  intros H. unfold be_val, be_bytes. rewrite <- (rev_length bs), le_bytes_le_val by now apply is_bytes_rev.
  apply rev_involutive.
Qed.
Lemma nth_be_bytes k x j : (j < k)%nat ->
  nth j (be_bytes k x) 0 = (x / 256 ^ Z.of_nat (k - 1 - j)) mod 256.
Proof.
  intros H. unfold be_bytes. rewrite rev_nth by now rewrite le_bytes_length.
  rewrite le_bytes_length, nth_le_bytes by lia.
  now replace (k - 1 - j)%nat with (k - S j)%nat by lia.
Qed.
Lemma be_val_cons b t : be_val (b :: t) = b * 256 ^ Z.of_nat (length t) + be_val t.
Proof.
  unfold be_val. cbn [rev]. rewrite le_val_app, rev_length. cbn [le_val]. lia.
Qed.

(** ** Machine words *)
Definition aligned (t : ity) : Prop := bits t = 8 * Z.of_nat (bytes_of t) /\ (0 < bytes_of t)%nat.
Lemma rust_aligned t : rust_width (bits t) -> aligned t.
Proof.
  unfold rust_width, aligned, bytes_of. cbn [In]. intros H.
  destruct H as [<-|[<-|[<-|[<-|[<-|[]]]]]]; vm_compute; split; try reflexivity; lia.
Qed.
Lemma aligned_pow t : aligned t -> 256 ^ Z.of_nat (bytes_of t) = 2 ^ bits t.
Proof. intros [H _]. rewrite H. change 256 with (2 ^ 8). rewrite <- Z.pow_mul_r by lia. reflexivity. Qed.
Lemma aligned_bits t : aligned t -> 0 < bits t.
Proof. intros [H ?]. lia. Qed.

Lemma iwrap_of_mod t x : 0 < bits t -> in_ty t x -> iwrap t (x mod 2 ^ bits t) = x.
Proof.
  intros Hb Hx. apply (in_ty_unique t); [assumption|now apply iwrap_range|assumption|].
  rewrite iwrap_mod by assumption. apply Z.mod_mod. pose proof (pow2_pos (bits t)). lia.
Qed.

Lemma read_chunk_Ok k c : length c = k -> read_chunk k c = Ok c.
Proof.
  intros L. unfold read_chunk. rewrite (mapM_pure _ (fun i => nth (0 + i) c 0)).
  - rewrite firstn_skipn_map_seq by lia. cbn [skipn]. subst k. now rewrite firstn_all.
  - intros i Hi. apply in_seq in Hi. now apply idx_Ok; lia.
Qed.

(** Decoding generic in the digit value function. *)
Definition decode_chunks (v : list Z -> Z) (t : ity) (bytes : list Z) : res (list Z) :=
  let k := bytes_of t in
  let* _ := assert_ (length bytes mod k =? 0)%nat in
  mapM (fun chunk => let* raw := read_chunk k chunk in Ok (cast t (v raw))) (chunks k bytes).
Lemma from_le_bytes_alt t bs : from_le_bytes t bs = decode_chunks le_val t bs.
Proof. reflexivity. Qed.
Lemma from_be_bytes_alt t bs : from_be_bytes t bs = decode_chunks be_val t bs.
Proof. reflexivity. Qed.

Lemma decode_concat v t ls : (0 < bytes_of t)%nat ->
  Forall (fun l => length l = bytes_of t) ls ->
  decode_chunks v t (concat ls) = Ok (map (fun c => cast t (v c)) ls).
Proof.
  intros Hk F. unfold decode_chunks. rewrite (concat_length_const _ _ F).
  rewrite assert_true by (rewrite Nat.mul_comm, Nat.mod_mul by lia; reflexivity). cbn [bind].
  rewrite chunks_concat by assumption. apply mapM_pure. intros c Hc.
  rewrite Forall_forall in F. rewrite read_chunk_Ok by now apply F. reflexivity.
Qed.
Lemma decode_panic v t bs : (0 < bytes_of t)%nat -> (length bs mod bytes_of t <> 0)%nat ->
  decode_chunks v t bs = Panic PAssert.
Proof. intros Hk H. unfold decode_chunks. now rewrite assert_false by now apply Nat.eqb_neq. Qed.
Lemma decode_ok_split v t bs : (0 < bytes_of t)%nat -> (length bs mod bytes_of t = 0)%nat ->
  exists ls, bs = concat ls /\ Forall (fun l => length l = bytes_of t) ls /\
    length ls = (length bs / bytes_of t)%nat /\ decode_chunks v t bs = Ok (map (fun c => cast t (v c)) ls).
Proof.
  intros Hk H. pose proof (Nat.div_mod (length bs) (bytes_of t) ltac:(lia)) as E.
  rewrite H, Nat.add_0_r in E.
  destruct (split_multiple (bytes_of t) _ bs E) as (ls & -> & F & N).
  exists ls. split; [reflexivity|]. split; [assumption|]. split; [assumption|].
  now apply decode_concat.
Qed.

Lemma to_from_le t ints : aligned t -> Forall (in_ty t) ints -> from_le_bytes t (to_le_bytes t ints) = Ok ints.
Proof.
  intros Al H. rewrite from_le_bytes_alt. unfold to_le_bytes. rewrite flat_map_concat_map, decode_concat.
  - f_equal. rewrite map_map. rewrite <- (map_id ints) at 2. apply map_ext_in. intros x Hx.
    rewrite Forall_forall in H. rewrite le_val_le_bytes, aligned_pow by assumption.
    unfold cast. apply iwrap_of_mod; [now apply aligned_bits|auto].
  - apply Al.
  - apply Forall_map, Forall_forall. intros; apply le_bytes_length.
Qed.
Lemma to_from_be t ints : aligned t -> Forall (in_ty t) ints -> from_be_bytes t (to_be_bytes t ints) = Ok ints.
Proof.
  intros Al H. rewrite from_be_bytes_alt. unfold to_be_bytes. rewrite flat_map_concat_map, decode_concat.
  - f_equal. rewrite map_map. rewrite <- (map_id ints) at 2. apply map_ext_in. intros x Hx.
    rewrite Forall_forall in H. rewrite be_val_be_bytes, aligned_pow by assumption.
    unfold cast. apply iwrap_of_mod; [now apply aligned_bits|auto].
  - apply Al.
  - apply Forall_map, Forall_forall. intros; apply be_bytes_length.
Qed.

Lemma Forall_concat_inv {A} (P : A -> Prop) ls : Forall P (concat ls) -> Forall (Forall P) ls.
Proof.
  induction ls as [|l ls IH]; cbn; intros H; [constructor|].
  apply Forall_app in H. constructor; tauto.
Qed.

Lemma le_bytes_cast t c : aligned t -> is_bytes c -> length c = bytes_of t ->
  le_bytes (bytes_of t) (cast t (le_val c)) = c.
Proof.
  intros Al B L. rewrite <- (le_bytes_mod _ (cast t _)), aligned_pow by assumption. unfold cast.
  rewrite iwrap_mod by now apply aligned_bits. rewrite <- aligned_pow, le_bytes_mod by assumption.
  rewrite <- L. now apply le_bytes_le_val.
Qed.
Lemma be_bytes_cast t c : aligned t -> is_bytes c -> length c = bytes_of t ->
  be_bytes (bytes_of t) (cast t (be_val c)) = c.
Proof.
  intros Al B L. unfold be_bytes, be_val. rewrite le_bytes_cast; [apply rev_involutive|assumption| |].
  - now apply is_bytes_rev.
  - now rewrite rev_length.
Qed.

Lemma from_to_le t bs : aligned t -> is_bytes bs -> (length bs mod bytes_of t = 0)%nat ->
  exists ints, from_le_bytes t bs = Ok ints /\ length ints = (length bs / bytes_of t)%nat /\
    Forall (in_ty t) ints /\ to_le_bytes t ints = bs.
Proof.
  intros Al B H. destruct (decode_ok_split le_val t bs (proj2 Al) H) as (ls & -> & F & N & E).
  exists (map (fun c => cast t (le_val c)) ls). rewrite from_le_bytes_alt, E.
  apply Forall_concat_inv in B. rewrite Forall_forall in F, B.
  split; [reflexivity|]. split; [now rewrite map_length|]. split.
  - apply Forall_map, Forall_forall. intros; unfold cast; now apply iwrap_range, aligned_bits.
  - unfold to_le_bytes. rewrite flat_map_concat_map, map_map. f_equal.
    rewrite <- (map_id ls) at 2. apply map_ext_in. intros c Hc. apply le_bytes_cast; auto.
    now apply B.
Qed.
Lemma from_to_be t bs : aligned t -> is_bytes bs -> (length bs mod bytes_of t = 0)%nat ->
  exists ints, from_be_bytes t bs = Ok ints /\ length ints = (length bs / bytes_of t)%nat /\
    Forall (in_ty t) ints /\ to_be_bytes t ints = bs.
Proof.
  intros Al B H. destruct (decode_ok_split be_val t bs (proj2 Al) H) as (ls & -> & F & N & E).
  exists (map (fun c => cast t (be_val c)) ls). rewrite from_be_bytes_alt, E.
  apply Forall_concat_inv in B. rewrite Forall_forall in F, B.
  split; [reflexivity|]. split; [now rewrite map_length|]. split.
  - apply Forall_map, Forall_forall. intros; unfold cast; now apply iwrap_range, aligned_bits.
  - unfold to_be_bytes. rewrite flat_map_concat_map, map_map. f_equal.
    rewrite <- (map_id ls) at 2. apply map_ext_in. intros c Hc. apply be_bytes_cast; auto.
    now apply B.
Qed.

Lemma nth_concat_const {A} (d : A) k ls i j : Forall (fun l => length l = k) ls ->
  (i < length ls)%nat -> (j < k)%nat -> nth (k * i + j) (concat ls) d = nth j (nth i ls []) d.
Proof.
  intros F. revert i; induction F as [|l ls L F IH]; intros i Hi Hj; cbn in Hi; [lia|].
  cbn [concat]. destruct i; cbn [nth].
  - rewrite Nat.mul_0_r, app_nth1 by lia. reflexivity.
  - rewrite app_nth2 by nia. rewrite <- IH by lia. f_equal. rewrite L. nia.
Qed.

(** Single words *)
Lemma word_to_le_Ok t x : word_to_le_bytes t x = Ok (le_bytes (bytes_of t) x).
Proof.
  unfold word_to_le_bytes, to_le_bytes. cbn [flat_map]. rewrite app_nil_r.
  apply arr_from_vec_Ok, le_bytes_length.
Qed.
Lemma word_to_be_Ok t x : word_to_be_bytes t x = Ok (be_bytes (bytes_of t) x).
Proof.
  unfold word_to_be_bytes, to_be_bytes. cbn [flat_map]. rewrite app_nil_r.
  apply arr_from_vec_Ok, be_bytes_length.
Qed.
Lemma word_from_le_Ok t s : aligned t -> length s = bytes_of t ->
  word_from_le_bytes t s = Ok (cast t (le_val s)).
Proof.
  intros Al L. unfold word_from_le_bytes. rewrite from_le_bytes_alt.
  rewrite <- (app_nil_r s) at 1. change (s ++ []) with (concat [s]).
  rewrite decode_concat; [reflexivity|apply Al|now constructor].
Qed.
Lemma word_from_be_Ok t s : aligned t -> length s = bytes_of t ->
  word_from_be_bytes t s = Ok (cast t (be_val s)).
Proof.
  intros Al L. unfold word_from_be_bytes. rewrite from_be_bytes_alt.
  rewrite <- (app_nil_r s) at 1. change (s ++ []) with (concat [s]).
  rewrite decode_concat; [reflexivity|apply Al|now constructor].
Qed.
Lemma cast_unsigned_le t s : aligned t -> sgn t = false -> is_bytes s -> length s = bytes_of t ->
  cast t (le_val s) = le_val s.
Proof.
  intros Al Hs B L. unfold cast, iwrap. rewrite Hs. apply Z.mod_small.
  rewrite <- aligned_pow, <- L by assumption. now apply le_val_range.
Qed.
Lemma cast_unsigned_be t s : aligned t -> sgn t = false -> is_bytes s -> length s = bytes_of t ->
  cast t (be_val s) = be_val s.
Proof.
  intros Al Hs B L. apply cast_unsigned_le; [assumption..|now apply is_bytes_rev|now rewrite rev_length].
Qed.

(** ** Word arrays *)
Lemma arr_to_bytes_gen enc t l self :
  (forall x, length (enc t [x]) = bytes_of t) -> length self = l ->
  arr_to_bytes enc t l self = Ok (concat (map (fun x => enc t [x]) self)).
Proof.
  intros He L. unfold arr_to_bytes. set (F := bytes_of t).
  destruct (for_range_inv (fun i r => r = concat (map (fun x => enc t [x]) (firstn i self)) ++ repeat 0 ((l - i) * F))
    (fun i out => let* tmp := idx self i in
       for_range 0 F (fun j out => let* b := idx (enc t [tmp]) j in upd out (i * F + j) b) out)
    0 l (seq_new 0 (l * F))) as (r & E & ->).
  - cbn. now rewrite Nat.sub_0_r.
  - intros i r Hi ->. rewrite (idx_Ok self i 0) by lia. cbn [bind]. eexists. split.
    + assert (LC : length (concat (map (fun x => enc t [x]) (firstn i self))) = (i * F)%nat).
      { rewrite (concat_length_const F), map_length, firstn_length by (apply Forall_map, Forall_forall; auto).
        rewrite Nat.min_l by lia. lia. }
      rewrite (fill_gen (fun j => nth (0 + j) (enc t [nth i self 0]) 0) _ (i * F) F).
      * rewrite firstn_skipn_map_seq by (rewrite He; cbn; fold F; lia).
        cbn [skipn]. unfold F at 3. rewrite <- (He (nth i self 0)), firstn_all.
        rewrite firstn_app, LC, Nat.sub_diag, firstn_O, app_nil_r.
        rewrite firstn_all2 by lia.
        rewrite skipn_app, LC. rewrite (skipn_all2 (concat _)) by lia. cbn [app].
        replace (i * F + F - i * F)%nat with F by lia.
        rewrite skipn_repeat. reflexivity.
      * rewrite app_length, LC, repeat_length. nia.
      * intros j s' Hj Ls. rewrite (idx_Ok _ _ 0) by (rewrite He; exact Hj). cbn [bind].
        apply upd_Ok. rewrite Ls, app_length, LC, repeat_length. nia.
    + assert (firstn (S i) self = firstn i self ++ [nth i self 0]) as ->.
      { apply nth_error_ext. intros j. rewrite nth_error_app, !nth_error_firstn, firstn_length, Nat.min_l by lia.
        destruct (Nat.ltb_spec j i), (Nat.ltb_spec j (S i)); try lia; try reflexivity.
        - replace j with i by lia. rewrite Nat.sub_diag. cbn. apply nth_error_nth'. lia.
        - destruct (j - i)%nat as [|m] eqn:Em; [lia|]. cbn. now destruct m. }
      rewrite map_app, concat_app. cbn [map concat]. rewrite app_nil_r, <- app_assoc. do 2 f_equal.
      f_equal. fold F. nia.
  - rewrite E. f_equal. rewrite Nat.add_0_l, Nat.sub_diag. cbn [repeat Nat.mul]. rewrite app_nil_r.
    now rewrite <- L, firstn_all.
Qed.
Lemma arr_to_le_bytes_Ok t l self : length self = l -> arr_to_le_bytes t l self = Ok (to_le_bytes t self).
Proof.
  intros L. unfold arr_to_le_bytes. rewrite arr_to_bytes_gen; [|intros|assumption].
  - unfold to_le_bytes. rewrite flat_map_concat_map. do 2 f_equal. apply map_ext. intros. cbn. now rewrite app_nil_r.
  - unfold to_le_bytes. cbn. now rewrite app_nil_r, le_bytes_length.
Qed.
Lemma arr_to_be_bytes_Ok t l self : length self = l -> arr_to_be_bytes t l self = Ok (to_be_bytes t self).
Proof.
  intros L. unfold arr_to_be_bytes. rewrite arr_to_bytes_gen; [|intros|assumption].
  - unfold to_be_bytes. rewrite flat_map_concat_map. do 2 f_equal. apply map_ext. intros. cbn. now rewrite app_nil_r.
  - unfold to_be_bytes. cbn. now rewrite app_nil_r, be_bytes_length.
Qed.

(** The word loops, generic. *)
Lemma fill_words {A} (ls : list (list A)) (f : nat -> list Z -> res (list Z)) h :
  (forall i s, (i < length ls)%nat -> length s = length ls -> f i s = Ok (set_nth s i (h (nth i ls [])))) ->
  for_range 0 (length ls) f (repeat 0 (length ls)) = Ok (map h ls).
Proof.
  intros Hf. rewrite (fill_gen (fun i => h (nth i ls [])) f 0 (length ls)).
  - cbn [firstn app Nat.add]. rewrite skipn_all2 by now rewrite repeat_length. rewrite app_nil_r. f_equal.
    rewrite <- (map_map (fun i => nth i ls []) h). f_equal.
    pose proof (firstn_skipn_map_seq [] ls 0 (length ls) ltac:(lia)) as E. cbn [Nat.add skipn] in E.
    rewrite E. apply firstn_all.
  - now rewrite repeat_length.
  - intros i s' Hi L. rewrite repeat_length in L. now apply Hf.
Qed.

Lemma to_words_Ok dec v t ls : aligned t ->
  (forall s, length s = bytes_of t -> dec t s = Ok (v s)) ->
  Forall (fun l => length l = bytes_of t) ls ->
  to_words dec t (length (concat ls)) (concat ls) = Ok (map v ls).
Proof.
  intros Al Hd F. unfold to_words. rewrite chunks_concat by (assumption || apply Al).
  rewrite (concat_length_const _ _ F). rewrite Nat.mul_comm, Nat.div_mul by (destruct Al; lia).
  unfold seq_new. apply fill_words. intros i s Hi Ls.
  rewrite (idx_Ok _ _ []) by assumption. cbn [bind].
  assert (L : length (nth i ls []) = bytes_of t).
  { rewrite Forall_forall in F. apply F, nth_In, Hi. }
  rewrite assert_true by now apply Nat.eqb_eq. cbn [bind].
  rewrite arr_from_slice_exact by assumption. cbn [bind]. rewrite Hd by assumption. cbn [bind].
  apply upd_Ok. lia.
Qed.
Lemma to_pub_words_Ok v t ls : aligned t ->
  Forall (fun l => length l = bytes_of t) ls ->
  to_pub_words v t (length (concat ls)) (concat ls) = Ok (map v ls).
Proof.
  intros Al F. unfold to_pub_words. rewrite chunks_concat by (assumption || apply Al).
  rewrite (concat_length_const _ _ F). rewrite Nat.mul_comm, Nat.div_mul by (destruct Al; lia).
  unfold seq_new. apply fill_words. intros i s Hi Ls.
  rewrite (idx_Ok _ _ []) by assumption. cbn [bind].
  assert (L : length (nth i ls []) = bytes_of t).
  { rewrite Forall_forall in F. apply F, nth_In, Hi. }
  rewrite assert_true by now apply Nat.eqb_eq. cbn [bind].
  apply upd_Ok. lia.
Qed.

(** When the length is not a multiple, the last block is short and the assertion fails. *)
Lemma chunks_app_many {A} k (ls : list (list A)) m : (0 < k)%nat -> Forall (fun l => length l = k) ls ->
  chunks k (concat ls ++ m) = ls ++ chunks k m.
Proof.
  intros Hk F. induction F as [|l ls L F IH]; [reflexivity|]. cbn [concat].
  rewrite <- app_assoc, chunks_app, IH by assumption. reflexivity.
Qed.
Lemma chunks_short {A} k (m : list A) : (0 < length m < k)%nat -> chunks k m = [m].
Proof.
  intros H. rewrite chunks_unfold; [|lia|destruct m; cbn in *; [lia|congruence]].
  rewrite firstn_all2, skipn_all2 by lia. reflexivity.
Qed.
Lemma split_remainder {A} k (l : list A) : (0 < k)%nat -> (length l mod k <> 0)%nat ->
  exists ls m, l = concat ls ++ m /\ Forall (fun x => length x = k) ls /\ (0 < length m < k)%nat.
Proof.
  intros Hk H. pose proof (Nat.div_mod (length l) k ltac:(lia)) as E.
  pose proof (Nat.mod_upper_bound (length l) k ltac:(lia)).
  destruct (split_multiple k (length l / k) (firstn (k * (length l / k)) l)) as (ls & El & F & _).
  { rewrite firstn_length. lia. }
  exists ls, (skipn (k * (length l / k)) l). rewrite <- El, firstn_skipn. split; [reflexivity|].
  split; [assumption|]. rewrite skipn_length. lia.
Qed.

Lemma short_last_panics {A} k (ls : list (list A)) m (f : list A -> list Z -> nat -> res (list Z)) s0 :
  (0 < length m < k)%nat -> Forall (fun l => length l = k) ls ->
  panics (for_range 0 (length (ls ++ [m])) (fun i out =>
    let* block := idx (ls ++ [m]) i in
    let* _ := assert_ (length block =? k)%nat in f block out i) s0).
Proof.
  intros Hm F. set (g := fun i out => _).
  assert (forall c st s, (st + c = length ls)%nat -> panics (for_range st (S c) g s)) as H.
  { induction c as [|c IH]; intros st s E; cbn [for_range].
    - unfold g at 1. rewrite (idx_Ok _ st []) by (rewrite app_length; cbn; lia). cbn [bind].
      rewrite app_nth2 by lia. replace (st - length ls)%nat with 0%nat by lia. cbn [nth].
      rewrite assert_false by (apply Nat.eqb_neq; lia). cbn [bind]. eexists. reflexivity.
    - destruct (g st s) eqn:G; cbn [bind].
      + apply IH. lia.
      + eexists. reflexivity. }
  rewrite app_length. cbn [length]. rewrite Nat.add_1_r. apply H. lia.
Qed.
Lemma to_words_panics dec t l self : aligned t -> (length self mod bytes_of t <> 0)%nat ->
  panics (to_words dec t l self).
Proof.
  intros Al H. destruct (split_remainder (bytes_of t) self (proj2 Al) H) as (ls & m & -> & F & Hm).
  unfold to_words. rewrite chunks_app_many, chunks_short by (assumption || apply Al).
  now apply (short_last_panics (bytes_of t) ls m (fun block out i =>
    let* w := arr_from_slice 0 (bytes_of t) block in let* v := dec t w in upd out i v)).
Qed.
Lemma to_pub_words_panics dec t l self : aligned t -> (length self mod bytes_of t <> 0)%nat ->
  panics (to_pub_words dec t l self).
Proof.
  intros Al H. destruct (split_remainder (bytes_of t) self (proj2 Al) H) as (ls & m & -> & F & Hm).
  unfold to_pub_words. rewrite chunks_app_many, chunks_short by (assumption || apply Al).
  now apply (short_last_panics (bytes_of t) ls m (fun block out i => upd out i (dec block))).
Qed.

(** ** Hex *)
Lemma hex_char_digit n : 0 <= n < 16 -> hex_digit (hex_char n) = Some n.
Proof.
  intros H. assert (In n (map Z.of_nat (seq 0 16))) as Hin.
  { apply in_map_iff. exists (Z.to_nat n). split; [lia|]. apply in_seq. lia. }
  cbn in Hin. decompose [or] Hin; try (subst n; reflexivity); tauto.
Qed.
Lemma hex_char_not_plus n : 0 <= n < 16 -> hex_char n <> 43.
Proof. unfold hex_char. intros H. destruct (Z.ltb_spec n 10); lia. Qed.
Lemma hex_digit_range c n : hex_digit c = Some n -> 0 <= n < 16.
Proof.
  unfold hex_digit.
  destruct ((48 <=? c) && (c <=? 57)) eqn:E1; [intros E; injection E as <-; lia|].
  destruct ((97 <=? c) && (c <=? 102)) eqn:E2; [intros E; injection E as <-; lia|].
  destruct ((65 <=? c) && (c <=? 70)) eqn:E3; [intros E; injection E as <-; lia|]. discriminate.
Qed.
Lemma parse_to_hex bs : is_bytes bs -> parse_hex (to_hex bs) = Ok bs.
Proof.
  induction 1 as [|b t Hb H IH]; [reflexivity|].
  unfold to_hex in *. cbn [flat_map byte_hex app parse_hex].
  assert (0 <= b / 16 < 16) by (split; [apply Z.div_pos|apply Z.div_lt_upper_bound]; lia).
  assert (0 <= b mod 16 < 16) by (apply Z.mod_pos_bound; lia).
  unfold parse_pair. destruct (Z.eqb_spec (hex_char (b / 16)) 43) as [E|_].
  { now apply hex_char_not_plus in E. }
  rewrite !hex_char_digit by assumption. rewrite IH. cbn [bind]. do 2 f_equal.
  symmetry. apply Z.div_mod. lia.
Qed.
Lemma to_hex_length bs : length (to_hex bs) = (2 * length bs)%nat.
Proof. unfold to_hex. induction bs as [|b t IH]; cbn [flat_map byte_hex app length]; lia. Qed.
