(** What a release build of the library does (properties C94, C95 and C96): theorems of record
    about M_Release.v, in which debug assertions are compiled out and arithmetic wraps. *)
From Coq Require Import ZArith List Bool Arith Lia.
From Verif Require Import Base P_Base M_Int P_Int M_MathUtil P_MathUtil P_Mod M_Seq P_Seq M_Bytes P_Bytes M_Vec P_Word P_Stream
  S_Int T_Int S_ChaCha S_AES S_SHA2 P_AES P_Poly1305 P_GCM M_SHA2 P_SHA2 P_Float P_HMAC T_ChaCha T_AES T_SHA2 T_Exact2
  M_Blake2 M_Release P_Release.
Import ListNotations.
Open Scope Z_scope.

(** * C94: what the debug build returns, the release build returns *)
Theorem C94_integers : forall w s c a b n e v, 1 < w -> 0 <= n ->
  let t := mkity w s c in
  (op_add t a b = Ok v -> rop_add t a b = v) /\
  (op_sub t a b = Ok v -> rop_sub t a b = v) /\
  (op_mul t a b = Ok v -> rop_mul t a b = v) /\
  (op_shl t a n = Ok v -> rop_shl t a n = v) /\
  (op_shr t a n = Ok v -> rop_shr t a n = v) /\
  (val w s a -> op_neg t a = Ok v -> rop_neg t a = v) /\
  (val w s a -> num_pow t a e = Ok v -> rnum_pow t a e = v) /\
  (get_bit t a n = Ok v -> rget_bit t a n = v) /\
  (set_bit t a b n = Ok v -> rset_bit t a b n = v) /\
  (get_byte t a n = Ok v -> rget_byte t a n = v).
Proof.
  intros w s c a b n e v Hw Hn t. assert (Hb : 0 < bits t) by (cbn; lia).
  assert (K : forall x y, refines x (Ok y) -> x = Ok v -> y = v).
  { intros x y R E. apply R in E. now apply Ok_inj in E. }
  conjs.
  - apply K. now apply ref_add.
  - apply K. now apply ref_sub.
  - apply K. now apply ref_mul.
  - apply K. now apply ref_shl.
  - apply K. now apply ref_shr.
  - intros Ha E. unfold op_neg in E. destruct (sgn t) eqn:S.
    + now apply ref_chk in E.
    + apply Ok_inj in E. subst v. unfold rop_neg. apply iwrap_cong; [|assumption].
      unfold op_not. rewrite <- Zplus_mod_idemp_l, iwrap_mod, Zplus_mod_idemp_l by assumption. f_equal. unfold Z.lnot. lia.
  - intros Ha E. unfold rnum_pow. destruct c.
    + rewrite secret_pow in E by (trivial; now apply val_in_ty). now apply Ok_inj in E.
    + unfold num_pow in E. cbn [sec t] in E. now apply ref_chk in E.
  - apply K. now apply ref_get_bit.
  - apply K. now apply ref_set_bit.
  - apply K. now apply ref_get_byte.
Qed.
Print Assumptions C94_integers.
Example C94_integers_ex : op_add u8 200 55 = Ok 255 /\ op_neg i8 (-127) = Ok 127 /\ op_shl u32 3 31 = Ok (2 ^ 31) /\
  get_byte U32 0x01020304 1 = Ok 3 /\ set_bit U8 0 1 7 = Ok 128.
Proof. conjs; reflexivity. Qed.

Theorem C94_modular : forall w s c fuel a b n v, 0 < w ->
  let t := mkity w s c in
  (add_mod fuel t a b n = Ok v -> radd_mod fuel t a b n = Ok v) /\
  (sub_mod fuel t a b n = Ok v -> rsub_mod fuel t a b n = Ok v) /\
  (mul_mod fuel t a b n = Ok v -> rmul_mod fuel t a b n = Ok v) /\
  (modulo fuel t a n = Ok v -> rmodulo fuel t a n = Ok v) /\
  (num_inv fuel t a n = Ok v -> rnum_inv fuel t a n = Ok v).
Proof.
  intros w s c fuel a b n v Hw t. conjs.
  - now apply ref_add_mod.
  - now apply ref_sub_mod.
  - now apply ref_mul_mod.
  - now apply ref_modulo.
  - now apply ref_inv.
Qed.
Print Assumptions C94_modular.
Example C94_modular_ex : mul_mod 9 u8 15 17 251 = Ok 4 /\ sub_mod 9 u8 3 5 7 = Ok 5 /\ num_inv 300 u8 3 7 = Ok 5.
Proof. conjs; reflexivity. Qed.

(** For sequences of at most isize::MAX elements and usize chunk sizes. *)
Theorem C94_sequences : forall (x v : list Z) a b k cs cn l r p,
  Z.of_nat (length x) < 2 ^ 63 -> Z.of_nat cs < 2 ^ 64 ->
  (update_sub x a v b k = Ok r -> rupdate_sub x a v b k = Ok r) /\
  (update x a v = Ok r -> rupdate x a v = Ok r) /\
  (update_start x v = Ok r -> rupdate_start x v = Ok r) /\
  (sub_ 0 x a k = Ok r -> rsub_ 0 x a k = Ok r) /\
  (subr 0 x a b = Ok r -> rsubr 0 x a b = Ok r) /\
  (get_chunk 0 x cs cn = Ok p -> rget_chunk 0 x cs cn = Ok p) /\
  (set_chunk x cs cn v = Ok r -> rset_chunk x cs cn v = Ok r) /\
  (arr_from_slice 0 l v = Ok r -> rarr_from 0 l v = Ok r) /\
  (arr_from_vec 0 l v = Ok r -> rarr_from 0 l v = Ok r) /\
  (arr_from_seq 0 l v = Ok r -> rarr_from 0 l v = Ok r) /\
  (arr_from_sub 0 l v a k = Ok r -> rarr_from_sub 0 l v a k = Ok r) /\
  (hex_string_to_bytes v = Ok r -> rhex_string_to_bytes v = Ok r) /\
  (forall es, arr_from_hex es l v = Ok r -> rarr_from_hex l v = Ok r).
Proof.
  intros x v a b k cs cn l r p L C. conjs.
  - apply ref_update_sub.
  - apply ref_update_sub.
  - apply ref_update_sub.
  - now apply ref_sub_.
  - now apply ref_subr.
  - now apply ref_get_chunk.
  - now apply ref_set_chunk.
  - apply refines_assert, refines_refl.
  - apply refines_assert, refines_refl.
  - apply refines_assert, refines_refl.
  - apply refines_assert, ref_update_sub.
  - apply refines_assert, refines_refl.
  - intros es. unfold arr_from_hex, rarr_from_hex, hex_string_to_vec.
    apply refines_bind; [apply refines_assert, refines_refl|]. intros y _. apply refines_assert, refines_refl.
Qed.
Print Assumptions C94_sequences.
Example C94_sequences_ex : set_chunk [1; 2; 3; 4; 5] 2 1 [8; 9] = Ok [1; 2; 8; 9; 5] /\
  get_chunk 0 [1; 2; 3; 4; 5] 2 2 = Ok (1%nat, [5]) /\ arr_from_hex 1 2 [48; 49; 65; 98] = Ok [1; 0xab].
Proof. conjs; reflexivity. Qed.

Ltac ref_arith a :=
  match goal with |- refines (bind ?x ?f) ?y =>
    let y' := eval pattern a in y in
    match y' with ?g _ => apply (refines_Ok_l x a f g) end end.
Lemma ref_hash m : real m -> refines (hash m) (rhash m).
Proof.
  intros R. unfold hash, rhash. apply refines_bind; [apply refines_refl|]. intros n _.
  apply refines_bind.
  - apply refines_for. intros i h. apply refines_bind; [apply ref_get_chunk; [exact R|reflexivity]|].
    intros [bl block] _. destruct (bl <? 64)%nat.
    + apply refines_bind; [apply ref_update_sub|]. intros b1 _.
      apply refines_bind; [apply ref_update_sub|]. intros b2 _.
      apply refines_bind; [apply refines_refl|]. intros b3 _.
      ref_arith (rop_mul u64 (Z.of_nat (length m)) 8); [now apply ref_mul|]. intros lz.
      apply refines_bind; [apply refines_refl|]. intros lb _.
      destruct (bl <? 64 - 8)%nat; (apply refines_bind; [apply ref_update_sub|]); intros; apply refines_refl.
    + apply refines_bind; [apply ref_update_sub|]. intros; apply refines_refl.
  - intros h _. apply refines_bind; [apply refines_refl|]. intros d _. apply refines_assert, refines_refl.
Qed.
Lemma refines_alloc {B} n (f g : list Z -> res B) : Z.of_nat n < 2 ^ 63 -> refines (f (seq_new 0 n)) (g (seq_new 0 n)) ->
  refines (f (seq_new 0 n)) (bind (ralloc 0 n) g).
Proof. intros H K. now rewrite ref_alloc. Qed.
Lemma upd_len (s : list Z) so v r : update s so v = Ok r -> length r = length s.
Proof. apply (update_sub_length 0). Qed.
Lemma hash_len m d : hash m = Ok d -> length d = 32%nat.
Proof.
  unfold hash. intros E. destruct (num_chunks m 64); [|discriminate E]. cbn [bind] in E.
  destruct (for_range _ _ _ _); [|discriminate E]. cbn [bind] in E. destruct (arr_to_be_bytes _ _ _) as [x|]; [|discriminate E].
  cbn [bind] in E. unfold arr_from_seq in E. destruct (Nat.eqb_spec (length x) 32); [|discriminate E]. cbn [assert_ bind] in E.
  rewrite (copy_into_Ok 0) in E by (rewrite seq_new_length; lia). apply Ok_inj in E. subst d.
  rewrite app_length, skipn_length, seq_new_length. lia.
Qed.
Lemma ref_hmac k t : real k -> Z.of_nat (length t) < 2 ^ 63 - 64 -> refines (hmac k t) (rhmac k t).
Proof.
  intros Rk Rt. unfold hmac, rhmac. apply refines_bind.
  - destruct (64 <? length k)%nat; [|apply ref_update_sub]. apply refines_bind; [now apply ref_hash|].
    intros; apply ref_update_sub.
  - intros kb _. apply refines_bind; [apply refines_refl|]. intros ki _. apply refines_bind; [apply refines_refl|]. intros ko _.
    cbv zeta. apply (refines_alloc (64 + length t) (fun h => let* h_in := update h 0 ki in _)); [lia|].
    apply refines_bind; [apply ref_update_sub|]. intros h1 E1. apply refines_bind; [apply ref_update_sub|]. intros h2 E2.
    apply upd_len in E1, E2. rewrite seq_new_length in E1.
    apply refines_bind; [apply ref_hash; unfold real; lia|]. intros hi E3. apply hash_len in E3.
    apply (refines_alloc (64 + length hi) (fun h => let* h_in := update h 0 ko in _)); [lia|].
    apply refines_bind; [apply ref_update_sub|]. intros h3 E4. apply refines_bind; [apply ref_update_sub|]. intros h4 E5.
    apply upd_len in E4, E5. rewrite seq_new_length in E4.
    apply refines_bind; [apply ref_hash; unfold real; lia|]. intros d _. apply refines_assert, refines_refl.
Qed.
Lemma hmac_len k t d : hmac k t = Ok d -> length d = 32%nat.
Proof.
  unfold hmac. intros E.
  repeat match type of E with bind ?x _ = _ => destruct x; [cbn [bind] in E|discriminate E] end.
  match type of E with arr_from_seq _ _ ?x = _ => unfold arr_from_seq in E; destruct (Nat.eqb_spec (length x) 32) end; [|discriminate E].
  cbn [assert_ bind] in E.
  rewrite (copy_into_Ok 0) in E by (rewrite seq_new_length; lia). apply Ok_inj in E. subst d.
  rewrite app_length, skipn_length, seq_new_length. lia.
Qed.
Lemma refines_for_inv {S} (I : S -> Prop) n (f g : nat -> S -> res S) :
  (forall i s, I s -> refines (f i s) (g i s)) -> (forall i s s', I s -> f i s = Ok s' -> I s') ->
  forall k s, I s -> refines (for_range k n f s) (for_range k n g s).
Proof.
  intros H K. induction n; intros k s Hs; [apply refines_refl|]. cbn [for_range]. apply refines_bind; [now apply H|].
  intros a E. apply IHn. eapply K; eauto.
Qed.
Lemma for_range_keeps {S} (I : S -> Prop) n (f : nat -> S -> res S) : (forall i s s', I s -> f i s = Ok s' -> I s') ->
  forall k s r, I s -> for_range k n f s = Ok r -> I r.
Proof.
  intros K. induction n; intros k s r Hs E; cbn [for_range] in E; [apply Ok_inj in E; now subst|].
  destruct (f k s) as [s'|] eqn:F; [|discriminate E]. cbn [bind] in E. eapply IHn; [|exact E]. eapply K; eauto.
Qed.
Lemma ref_build t info c : Z.of_nat (length t + length info + 1) < 2 ^ 63 -> refines (build_hmac_txt t info c) (rbuild_hmac_txt t info c).
Proof.
  intros B v E. rewrite rbuild_Ok by assumption. now rewrite build_Ok in E.
Qed.
Lemma ref_expand prk info l : real prk -> Z.of_nat (length info) < 2 ^ 63 - 97 -> refines (expand prk info l) (rexpand prk info l).
Proof.
  intros Rp Ri. unfold expand, rexpand. cbv zeta. apply refines_assert_eq. intros Hn. apply Z.ltb_lt in Hn.
  set (n := Z.to_nat (cast u8 (div_ceil l 32))).
  assert (Bn : (n < 256)%nat).
  { unfold n, cast, iwrap. cbn [sgn u8 bits]. pose proof (Z.mod_pos_bound (div_ceil l 32) (2 ^ 8) ltac:(lia)). lia. }
  set (I := fun st : list Z * list Z => length (fst st) = 32%nat /\ length (snd st) = (n * 32)%nat).
  assert (K : forall i (s s' : list Z * list Z), I s -> (let '(t_i, t) := s in
      let* c := op_add u8 (Z.of_nat i) 1 in
      let* hmac_txt_in := (if (i =? 0)%nat then build_hmac_txt (seq_new 0 0) info c
                           else let* ts := seq_from_seq 0 t_i in build_hmac_txt ts info c) in
      let* t_i := hmac prk hmac_txt_in in
      let* t := update t (i * length t_i) t_i in
      Ok (t_i, t)) = Ok s' -> I s').
  { intros i [ti t] s' [H1 H2] E. destruct (op_add u8 _ _); [|discriminate E]. cbn [bind] in E.
    match type of E with bind ?x _ = _ => destruct x; [cbn [bind] in E|discriminate E] end.
    destruct (hmac _ _) as [ti'|] eqn:H; [|discriminate E]. cbn [bind] in E.
    destruct (update _ _ _) as [t'|] eqn:U; [|discriminate E]. cbn [bind] in E. apply Ok_inj in E. subst s'.
    apply hmac_len in H. apply upd_len in U. split; cbn [fst snd] in *; lia. }
  assert (I0 : I (seq_new 0 32, seq_new 0 (n * 32))) by (split; cbn [fst snd]; apply seq_new_length).
  apply refines_bind.
  - apply (refines_for_inv I); [|exact K|exact I0].
    intros i [ti t] [H1 H2]. cbn [fst snd] in *.
    ref_arith (rop_add u8 (Z.of_nat i) 1); [now apply ref_add|]. intros c.
    apply refines_bind.
    + destruct (i =? 0)%nat; [apply ref_build; rewrite seq_new_length; lia|].
      rewrite !seq_from_seq_Ok. cbn [bind]. apply ref_build. lia.
    + intros txt E. assert (L : (length txt <= 33 + length info)%nat).
      { destruct (i =? 0)%nat; rewrite ?seq_from_seq_Ok in E; cbn [bind] in E; rewrite build_Ok in E; apply Ok_inj in E; subst txt;
          rewrite !app_length, ?seq_new_length; cbn [length]; lia. }
      apply refines_bind; [apply ref_hmac; [exact Rp|lia]|]. intros ti' _. apply refines_bind; [apply ref_update_sub|].
      intros; apply refines_refl.
  - intros [ti t] E. apply (for_range_keeps I) in E; [|exact K|exact I0]. destruct E as [_ E]. cbn [snd] in E.
    apply ref_sub_. lia.
Qed.
Theorem C94_hashes : forall m k t prk info l v,
  Z.of_nat (length m) < 2 ^ 63 -> Z.of_nat (length k) < 2 ^ 63 -> Z.of_nat (length prk) < 2 ^ 63 ->
  Z.of_nat (length t) < 2 ^ 63 - 64 -> Z.of_nat (length info) < 2 ^ 63 - 97 ->
  (hash m = Ok v -> rhash m = Ok v) /\ (hmac k t = Ok v -> rhmac k t = Ok v) /\
  (expand prk info l = Ok v -> rexpand prk info l = Ok v) /\
  (forall t0 t1 x, inc_counter u64 [t0; t1] x = Ok v -> rinc_counter u64 [t0; t1] x = Ok v).
Proof.
  intros m k t prk info l v Lm Lk Lp Lt Li. conjs.
  - now apply ref_hash.
  - now apply ref_hmac.
  - now apply ref_expand.
  - intros t0 t1 x.
    enough (R : refines (inc_counter u64 [t0; t1] x) (rinc_counter u64 [t0; t1] x)) by apply R.
    unfold inc_counter, rinc_counter. cbn [idx nth_error bind]. cbv zeta.
    ref_arith (rop_add u64 t0 x); [now apply ref_add|]. intros z. apply refines_bind; [apply refines_refl|]. intros r _.
    destruct (num_less_than z x); [|apply refines_refl].
    ref_arith (rop_add u64 t1 1); [now apply ref_add|]. intros y. apply refines_refl.
Qed.
Print Assumptions C94_hashes.
Example C94_hashes_ex : is_ok (expand kat_hkdf_prk kat_hkdf_info 42) /\ inc_counter u64 [5; 7] 128 = Ok [133; 0].
Proof. split; [|reflexivity]. exists kat_hkdf_okm. exact C52_expand_kat. Qed.

(** * C95: what the release build does where the debug build panics *)
Lemma u_in_ty w c a : 0 <= a < 2 ^ w -> in_ty (mkity w false c) a.
Proof. intros H. apply unsigned_range; trivial. Qed.
Lemma urem w c a n : 0 < w -> 0 <= a < 2 ^ w -> 0 < n -> op_rem (mkity w false c) a n = Ok (a mod n).
Proof.
  intros Hw Ha Hn. unfold op_rem. destruct (Z.eqb_spec n 0); [lia|].
  rewrite Z.quot_div_nonneg, Z.rem_mod_nonneg by lia.
  assert (B : in_ty (mkity w false c) (a / n)).
  { apply u_in_ty. split; [apply Z.div_pos; lia|]. apply Z.le_lt_trans with a; [|lia].
    rewrite <- (Z.div_1_r a) at 2. apply Z.div_le_compat_l; lia. }
  apply in_tyb_spec in B. now rewrite B.
Qed.
Lemma wrapped_right w x n : 0 < w -> 0 <= x -> 0 < n ->
  ((x mod 2 ^ w) mod n = x mod n <-> (n | 2 ^ w * (x / 2 ^ w))).
Proof.
  intros Hw Hx Hn. assert (P := pow2_pos w ltac:(lia)).
  assert (D : x = 2 ^ w * (x / 2 ^ w) + x mod 2 ^ w) by (apply Z.div_mod; lia).
  set (q := 2 ^ w * (x / 2 ^ w)) in *. set (r := x mod 2 ^ w) in *. rewrite D. split.
  - intros E. apply Z.mod_divide; [lia|]. assert (K : (q + r - r) mod n = 0).
    { rewrite Zminus_mod, E, Z.sub_diag. apply Z.mod_0_l. lia. }
    now replace (q + r - r) with q in K by lia.
  - intros [k E]. rewrite E, Z.add_comm, Z.mod_add by lia. reflexivity.
Qed.
(** add_mod and mul_mod of the unsigned types, public and secret: the sum or product is first reduced
    modulo 2^w, and the answer is right exactly when n divides what was lost. *)
Theorem C95_mod_exact : forall w c fuel a b n, 0 < w -> 0 <= a < 2 ^ w -> 0 <= b < 2 ^ w -> 0 < n < 2 ^ w ->
  let t := mkity w false c in
  radd_mod fuel t a b n = Ok (((a + b) mod 2 ^ w) mod n) /\
  rmul_mod fuel t a b n = Ok (((a * b) mod 2 ^ w) mod n) /\
  (radd_mod fuel t a b n = Ok ((a + b) mod n) <-> (n | 2 ^ w * ((a + b) / 2 ^ w))) /\
  (rmul_mod fuel t a b n = Ok ((a * b) mod n) <-> (n | 2 ^ w * ((a * b) / 2 ^ w))).
Proof.
  intros w c fuel a b n Hw Ha Hb Hn t. assert (P := pow2_pos w ltac:(lia)).
  assert (E1 : radd_mod fuel t a b n = Ok (((a + b) mod 2 ^ w) mod n)).
  { unfold radd_mod, t. cbn [sgn]. unfold pub, rop_add, iwrap. cbn [sgn bits].
    apply urem; [assumption| |lia]. apply Z.mod_pos_bound. lia. }
  assert (E2 : rmul_mod fuel t a b n = Ok (((a * b) mod 2 ^ w) mod n)).
  { unfold rmul_mod, t. cbn [sgn]. unfold pub, rop_mul, iwrap. cbn [sgn bits].
    apply urem; [assumption| |lia]. apply Z.mod_pos_bound. lia. }
  split; [exact E1|]. split; [exact E2|]. rewrite E1, E2. split.
  - rewrite <- wrapped_right by lia. split; [apply Ok_inj|now intros ->].
  - rewrite <- wrapped_right by nia. split; [apply Ok_inj|now intros ->].
Qed.
Print Assumptions C95_mod_exact.
Example C95_mod_exact_ex : rmul_mod 1 U64 (2 ^ 40) (2 ^ 40) (2 ^ 61 - 1) = Ok 0 /\ (2 ^ 40 * 2 ^ 40) mod (2 ^ 61 - 1) = 2 ^ 19 /\
  radd_mod 1 u8 200 100 251 = Ok 44 /\ (200 + 100) mod 251 = 49.
Proof. conjs; reflexivity. Qed.
(** Inversion modulo n on a public type is, in release, the wrapping inversion of the secret type. *)
Theorem C95_inverse_as_secret : forall w s c fuel x n,
  rnum_inv fuel (mkity w s c) x n = num_inv fuel (mkity w s true) x n.
Proof. intros. apply rinv_secret. Qed.
Print Assumptions C95_inverse_as_secret.
Example C95_inverse_ex : num_inv 300 u8 13 251 = Panic POverflow /\ rnum_inv 300 u8 13 251 = Ok 68.
Proof. vm_compute. auto. Qed.
(** get_byte of a U8 is 0, whatever the value. *)
Theorem C95_get_byte_u8 : forall a i, rget_byte U8 a i = 0.
Proof. intros. unfold rget_byte. change (rop_sub U8 (rop_shl U8 1 8) 1) with 0. apply Z.land_0_r. Qed.
Print Assumptions C95_get_byte_u8.
Example C95_get_byte_ex : panics (get_byte U8 0xab 0) /\ rget_byte U8 0xab 0 = 0.
Proof. split; [now eexists|reflexivity]. Qed.
(** A shift by the width or more is a shift by the remainder. *)
Theorem C95_shift_amount : forall w s c a n k, 0 < w -> 0 <= n < w -> 0 <= k ->
  let t := mkity w s c in
  op_shl t a n = Ok (rop_shl t a (n + k * w)) /\ op_shr t a n = Ok (rop_shr t a (n + k * w)).
Proof.
  intros w s c a n k Hw Hn Hk t. unfold op_shl, op_shr, rop_shl, rop_shr. cbn [bits t].
  rewrite Z.mod_add, Z.mod_small by lia. apply proj2 in Hn as L. apply Z.ltb_lt in L. now rewrite L.
Qed.
Print Assumptions C95_shift_amount.
Example C95_shift_ex : panics (op_shr u32 77 32) /\ rop_shr u32 77 32 = 77.
Proof. split; [now eexists|reflexivity]. Qed.

(** update_sub: the same as in debug, except that copying nothing to (or from) beyond the end is accepted. *)
Theorem C95_update_sub_exact : forall (x v : list Z) a b k,
  (k = 0%nat -> rupdate_sub x a v b k = Ok x) /\
  (k <> 0%nat -> (a + k <= length x)%nat -> (b + k <= length v)%nat ->
     rupdate_sub x a v b k = Ok (firstn a x ++ firstn k (skipn b v) ++ skipn (a + k) x)) /\
  (k <> 0%nat -> (length x < a + k \/ length v < b + k)%nat -> panics (rupdate_sub x a v b k)).
Proof.
  intros x v a b k. split; [|split].
  - intros ->. reflexivity.
  - intros _ H1 H2. now apply (rupdate_sub_Ok 0).
  - intros Hk H. apply rupdate_sub_panic; [lia|exact H].
Qed.
Print Assumptions C95_update_sub_exact.
Example C95_update_sub_ex : update_sub [1; 2] 5 [] 0 0 = Panic PAssert /\ rupdate_sub [1; 2] 5 [] 0 0 = Ok [1; 2] /\
  rupdate_sub [1; 2] 1 [7; 8] 0 2 = Panic PIndex.
Proof. conjs; reflexivity. Qed.
(** set_chunk with an input of the wrong length: cut off when too long, panic when too short. *)
Theorem C95_set_chunk_exact : forall (x v : list Z) cs cn, Z.of_nat (length x) < 2 ^ 63 -> Z.of_nat cs < 2 ^ 64 ->
  (cs * cn <= length x)%nat ->
  let n := Nat.min cs (length x - cs * cn) in
  ((n <= length v)%nat -> rset_chunk x cs cn v = Ok (firstn (cs * cn) x ++ firstn n v ++ skipn (cs * cn + n) x)) /\
  ((length v < n)%nat -> panics (rset_chunk x cs cn v)).
Proof.
  intros x v cs cn L C H n. unfold rset_chunk. rewrite rget_chunk_len_Ok by assumption. rewrite uwrap_small by lia. fold n.
  split; intros Hv.
  - rewrite (rupdate_sub_Ok 0) by (unfold n in *; lia). reflexivity.
  - apply rupdate_sub_panic; lia.
Qed.
Print Assumptions C95_set_chunk_exact.
Example C95_set_chunk_ex : set_chunk [1; 2; 3; 4; 5] 2 1 [7; 8; 9] = Panic PAssert /\
  rset_chunk [1; 2; 3; 4; 5] 2 1 [7; 8; 9] = Ok [1; 2; 7; 8; 5].
Proof. conjs; reflexivity. Qed.
(** The array constructors fill up with zeros; only too much input panics. *)
Theorem C95_array_from_exact : forall l (v : list Z),
  ((length v <= l)%nat -> rarr_from 0 l v = Ok (v ++ repeat 0 (l - length v))) /\
  ((l < length v)%nat -> panics (rarr_from 0 l v)).
Proof.
  intros l v. split; intros H; [now apply rarr_from_Ok|]. apply (copy_panic 0). now rewrite seq_new_length.
Qed.
Print Assumptions C95_array_from_exact.
Example C95_array_from_ex : arr_from_vec 0 4 [1; 2] = Panic PAssert /\ rarr_from 0 4 [1; 2] = Ok [1; 2; 0; 0].
Proof. conjs; reflexivity. Qed.
(** from_hex of an array keeps the first l bytes of a longer string. *)
Theorem C95_array_from_hex_exact : forall l s v, hex_string_to_bytes s = Ok v ->
  ((l <= length v)%nat -> rarr_from_hex l s = Ok (firstn l v)) /\
  ((length v < l)%nat -> panics (rarr_from_hex l s)).
Proof.
  intros l s v E. assert (P : parse_hex s = Ok v) by (revert E; apply refines_assert, refines_refl).
  unfold rarr_from_hex. rewrite P. cbn [bind]. split; intros H.
  - rewrite (fill_gen (fun i => nth i v 0) _ 0 l (seq_new 0 l)) by
      (rewrite ?seq_new_length; first [lia | intros i s' Hi Ls; rewrite (idx_Ok v _ 0) by lia; cbn [bind]; apply upd_Ok; lia]).
    cbn [firstn app Nat.add]. rewrite skipn_all2 by (rewrite seq_new_length; lia). rewrite app_nil_r. apply (f_equal Ok).
    exact (firstn_skipn_map_seq 0 v 0 l ltac:(lia)).
  - apply (for_range_panics (fun _ o => length o = l) _ 0 l (length v)); [lia|apply seq_new_length| |].
    + intros j o Hj Lo. exists (set_nth o j (nth j v 0)). rewrite (idx_Ok v _ 0) by lia. cbn [bind]. rewrite upd_Ok by lia.
      split; [reflexivity|]. now rewrite set_nth_length.
    + intros o _. rewrite idx_panic by lia. now eexists.
Qed.
Print Assumptions C95_array_from_hex_exact.
Example C95_array_from_hex_ex : arr_from_hex 1 1 [48; 49; 48; 50] = Panic PAssert /\ rarr_from_hex 1 [48; 49; 48; 50] = Ok [1].
Proof. conjs; reflexivity. Qed.
(** The operators of PublicSeq ignore what the right operand has in excess. *)
Theorem C95_pseq_exact : forall fw t (x y : list Z),
  ((length x <= length y)%nat -> rpseq_op fw t x y = Ok (map (fun i => fw t (nth i x 0) (nth i y 0)) (seq 0 (length x)))) /\
  ((length y < length x)%nat -> panics (rpseq_op fw t x y)).
Proof.
  intros fw t x y. unfold rpseq_op. split; intros H.
  - rewrite (fill_gen (fun i => fw t (nth i x 0) (nth i y 0)) _ 0 (length x) (seq_new 0 (length x))).
    + cbn [firstn app Nat.add]. rewrite skipn_all2 by (rewrite seq_new_length; lia). now rewrite app_nil_r.
    + rewrite seq_new_length. lia.
    + rewrite seq_new_length. intros i s' Hi Ls. rewrite (idx_Ok x _ 0), (idx_Ok y _ 0) by lia. cbn [bind]. apply upd_Ok. lia.
  - apply (for_range_panics (fun _ o => length o = length x) _ 0 (length x) (length y)); [lia|apply seq_new_length| |].
    + intros j o Hj Lo. eexists. rewrite (idx_Ok x _ 0), (idx_Ok y _ 0) by lia. cbn [bind]. rewrite upd_Ok by lia.
      split; [reflexivity|]. now rewrite set_nth_length.
    + intros o _. rewrite (idx_Ok x _ 0) by lia. cbn [bind]. rewrite idx_panic by lia. now eexists.
Qed.
Print Assumptions C95_pseq_exact.
Example C95_pseq_ex : pseq_add 1 u8 [1; 2] [3; 4; 5] = Panic PAssert /\ rpseq_op wrap_add u8 [1; 2] [3; 4; 5] = Ok [4; 6].
Proof. conjs; reflexivity. Qed.
(** Chunks beyond the end: panic as long as the position fits usize; positions that do not are taken
    modulo 2^64 and can name a chunk that exists. *)
Theorem C95_chunk_beyond_end : forall (x v : list Z) cs cn, Z.of_nat (length x) < 2 ^ 63 -> (0 < cs)%nat -> Z.of_nat cs < 2 ^ 64 ->
  (length x < cs * cn)%nat -> Z.of_nat (cs * cn) < 2 ^ 64 ->
  panics (rget_chunk 0 x cs cn) /\ panics (rset_chunk x cs cn v).
Proof.
  intros x v cs cn L C C' H B. unfold rget_chunk, rset_chunk, rget_chunk_len. rewrite (uwrap_small (cs * cn)) by exact B.
  assert (G : forall n, (0 < n)%nat -> panics (let* out := rsub_ 0 x (cs * cn) n in Ok (n, out)) /\ panics (rupdate_sub x (cs * cn) v 0 n)).
  { intros n Hn. split.
    - destruct (rsub_panic 0 x (cs * cn) n Hn ltac:(lia)) as [e ->]. now exists e.
    - apply rupdate_sub_panic; [assumption|]. left. lia. }
  destruct (_ <? _)%nat; apply G; [|exact C].
  pose proof (rusub_neg (length x) (cs * cn) H ltac:(lia)). lia.
Qed.
Print Assumptions C95_chunk_beyond_end.
Example C95_chunk_beyond_end_ex : panics (rget_chunk 0 [1; 2; 3] 2 2) /\ panics (get_chunk 0 [1; 2; 3] 2 2).
Proof.
  split; [|now eexists]. refine (proj1 (C95_chunk_beyond_end [1; 2; 3] [] 2 2 _ _ _ _ _)); [reflexivity|lia|reflexivity|cbn; lia|reflexivity].
Qed.
Theorem C95_chunk_wraps_refuted : exists cs cn, Z.of_nat cs < 2 ^ 64 /\ Z.of_nat cn < 2 ^ 64 /\ (3 < cs * cn)%nat /\
  panics (get_chunk 0 [1; 2; 3] cs cn) /\ rget_chunk 0 [1; 2; 3] cs cn = Ok (3%nat, [1; 2; 3]).
Proof.
  assert (N : exists n, Z.of_nat n = 2 ^ 32) by (exists (Z.to_nat (2 ^ 32)); apply Z2Nat.id; lia).
  destruct N as [n N]. assert (M : Z.of_nat (n * n) = 2 ^ 64) by (rewrite Nat2Z.inj_mul, N; reflexivity).
  assert (U0 : uwrap (n * n) = 0%nat) by (unfold uwrap; rewrite M; reflexivity).
  exists n, n. split; [lia|]. split; [lia|]. split; [lia|]. split.
  - unfold get_chunk. rewrite get_chunk_len_panic by (cbn [length]; lia). now eexists.
  - unfold rget_chunk, rget_chunk_len. rewrite U0. rewrite (uwrap_small (0 + n)) by lia. cbn [length].
    destruct (Nat.ltb_spec 3 (0 + n)); [|lia]. rewrite rusub_small by (cbn; lia). reflexivity.
Qed.
Print Assumptions C95_chunk_wraps_refuted.
(** So a release build does return wrong results silently. *)
Theorem C95_release_never_wrong_refuted :
  (exists a b n v, 0 <= a < n /\ 0 <= b < n /\ n < 2 ^ 64 /\ rmul_mod 1 U64 a b n = Ok v /\ v <> (a * b) mod n) /\
  (exists a b n v, 0 <= a < n /\ 0 <= b < n /\ n < 2 ^ 8 /\ rsub_mod 9 u8 a b n = Ok v /\ v <> (a - b) mod n) /\
  (exists x n v, 0 < x < n /\ n < 2 ^ 8 /\ rnum_inv 300 u8 x n = Ok v /\ (x * v) mod n <> 1) /\
  (exists a, 0 <= a < 2 ^ 8 /\ rget_byte U8 a 0 <> a).
Proof.
  conjs.
  - exists (2 ^ 40), (2 ^ 40), (2 ^ 61 - 1), 0. conjs; try lia; [reflexivity|]. vm_compute. discriminate.
  - exists 10, 20, 251, 231. conjs; try lia; [reflexivity|]. vm_compute. discriminate.
  - exists 13, 251, 68. conjs; try lia; [vm_compute; reflexivity|]. vm_compute. discriminate.
  - exists 1. split; [lia|]. vm_compute. discriminate.
Qed.
Print Assumptions C95_release_never_wrong_refuted.

(** * C96: SHA-256, HMAC and HKDF of the release build *)
(** hash never panics: FIPS 180-4 padding (with the bit count modulo 2^64) unless the length is a
    multiple of 64. *)
Theorem C96_hash_total : forall m, Forall byte m -> Z.of_nat (length m) < 2 ^ 63 ->
  ((length m mod 64 <> 0)%nat -> rhash m = Ok (fips_sha256 m)) /\
  ((length m mod 64 = 0)%nat -> rhash m = Ok (sha_digest (sha_iter m))).
Proof.
  intros m F L. rewrite rhash_Ok by assumption. split; intros M; apply (f_equal Ok).
  - now apply hash_pure_fips.
  - unfold hash_pure, code_pad. now rewrite M.
Qed.
Print Assumptions C96_hash_total.
Example C96_hash_ex : exists m, Forall byte m /\ Z.of_nat (length m) < 2 ^ 63 /\ panics (hash m) /\ rhash m = Ok (fips_sha256 m).
Proof.
  assert (N : exists n, Z.of_nat n = 2 ^ 61 + 1) by (exists (Z.to_nat (2 ^ 61 + 1)); apply Z2Nat.id; lia).
  destruct N as [n N]. exists (repeat 7 n).
  assert (F' : Forall byte (repeat 7 n)) by (apply Forall_forall; intros x Hx; apply repeat_spec in Hx; subst; unfold byte; lia).
  assert (M' : (length (repeat 7%Z n) mod 64 <> 0)%nat).
  { rewrite repeat_length. intros E. apply (f_equal Z.of_nat) in E. rewrite Nat2Z.inj_mod, N in E. discriminate E. }
  assert (L1 : Z.of_nat (length (repeat 7 n)) < 2 ^ 63) by (rewrite repeat_length; lia).
  assert (L2 : 2 ^ 61 <= Z.of_nat (length (repeat 7 n))) by (rewrite repeat_length; lia).
  split; [exact F'|]. split; [exact L1|]. split.
  - exact (proj2 (proj2 (C49_hash_exact _ F')) M' L2).
  - exact (proj1 (C96_hash_total _ F' L1) M').
Qed.
(** HKDF-Expand is defined on exactly the lengths RFC 5869 allows, and is RFC 5869's there. *)
Theorem C96_hkdf_exact : exists mac : list Z -> list Z -> list Z,
  (forall k t, Forall byte k -> Forall byte t -> Z.of_nat (length k) < 2 ^ 63 -> Z.of_nat (length t) < 2 ^ 63 - 64 ->
     rhmac k t = Ok (mac k t) /\ bytes_n 32 (mac k t)) /\
  (forall prk info l, Forall byte prk -> Forall byte info -> Z.of_nat (length prk) < 2 ^ 63 ->
     Z.of_nat (length info) < 2 ^ 63 - 97 ->
     ((l <= 255 * 32)%nat -> rexpand prk info l = Ok (rfc_expand mac prk info l)) /\
     ((255 * 32 < l)%nat -> panics (rexpand prk info l))).
Proof.
  exists mac_pure. split; [exact rhmac_Ok|]. intros prk info l Fp Fi Lp Li. split; intros H.
  - now apply rexpand_Ok.
  - now apply rexpand_panics.
Qed.
Print Assumptions C96_hkdf_exact.
Example C96_hkdf_ex : Forall byte kat_hkdf_prk /\ Forall byte kat_hkdf_info /\ (42 <= 255 * 32)%nat /\
  panics (expand kat_hkdf_prk kat_hkdf_info (255 * 32)) /\ rexpand kat_hkdf_prk kat_hkdf_info 42 = Ok kat_hkdf_okm.
Proof.
  conjs.
  - apply (bytes_check 32); reflexivity.
  - apply (bytes_check 10); reflexivity.
  - lia.
  - exists PAssert. apply C52_expand_too_long_panics. lia.
  - apply ref_expand; [reflexivity|reflexivity|exact C52_expand_kat].
Qed.
(** inc_counter: with a carry into the high word the result is the 128-bit sum; without one the high word is lost. *)
Theorem C96_counter_exact : forall t0 t1 x, 0 <= t0 < 2 ^ 64 -> 0 <= t1 < 2 ^ 64 -> 0 <= x < 2 ^ 64 ->
  (2 ^ 64 <= t0 + x -> exists r0 r1, rinc_counter u64 [t0; t1] x = Ok [r0; r1] /\
     r0 + 2 ^ 64 * r1 = (t0 + 2 ^ 64 * t1 + x) mod 2 ^ 128) /\
  (t0 + x < 2 ^ 64 -> rinc_counter u64 [t0; t1] x = Ok [t0 + x; 0]).
Proof.
  intros t0 t1 x H0 H1 Hx. unfold rinc_counter. cbn [idx nth_error bind]. cbv zeta.
  assert (E : rop_add u64 t0 x = (t0 + x) mod 2 ^ 64) by reflexivity. rewrite E. clear E.
  change (upd (seq_new 0 2) 0 ((t0 + x) mod 2 ^ 64)) with (Ok [(t0 + x) mod 2 ^ 64; 0]). cbn [bind]. split; intros H.
  - rewrite <- (Z.mod_unique (t0 + x) (2 ^ 64) 1 (t0 + x - 2 ^ 64)) by lia.
    unfold num_less_than. destruct (Z.ltb_spec (t0 + x - 2 ^ 64) x); [|lia].
    assert (E : rop_add u64 t1 1 = (t1 + 1) mod 2 ^ 64) by reflexivity. rewrite E.
    exists (t0 + x - 2 ^ 64), ((t1 + 1) mod 2 ^ 64). split; [reflexivity|].
    replace (t0 + 2 ^ 64 * t1 + x) with (t0 + x - 2 ^ 64 + 2 ^ 64 * (t1 + 1)) by lia.
    change (2 ^ 128) with (2 ^ 64 * 2 ^ 64).
    rewrite Z.rem_mul_r by lia.
    rewrite (Z.mul_comm (2 ^ 64) (t1 + 1)), Z.mod_add, Z.div_add, (Z.mod_small (t0 + x - 2 ^ 64)), (Z.div_small (t0 + x - 2 ^ 64)) by lia.
    reflexivity.
  - rewrite Z.mod_small by lia. unfold num_less_than. destruct (Z.ltb_spec (t0 + x) x); [lia|]. reflexivity.
Qed.
Print Assumptions C96_counter_exact.
Example C96_counter_ex : rinc_counter u64 [2 ^ 64 - 1; 7] 128 = Ok [127; 8] /\ panics (inc_counter u64 [2 ^ 64 - 1; 7] 128) /\
  rinc_counter u64 [5; 7] 128 = Ok [133; 0].
Proof. conjs; [reflexivity|now eexists|reflexivity]. Qed.
