(** Lemmas about the release profile (M_Release.v). *)
From Coq Require Import ZArith List Bool Arith Lia.
From Verif Require Import Base P_Base M_Int P_Int M_MathUtil M_Seq P_Seq M_Bytes P_Bytes M_Vec P_Word P_Stream
  S_ChaCha S_AES S_SHA2 P_AES P_Poly1305 P_GCM M_SHA2 P_SHA2 P_Float P_HMAC M_Release.
Import ListNotations.
Open Scope Z_scope.

(** y returns what x returns, whenever x returns. *)
Definition refines {A} (x y : res A) : Prop := forall v, x = Ok v -> y = Ok v.
Lemma refines_refl {A} (x : res A) : refines x x.
Proof. intros v E. exact E. Qed.
Lemma refines_bind {A B} (x y : res A) (f g : A -> res B) : refines x y ->
  (forall a, x = Ok a -> refines (f a) (g a)) -> refines (bind x f) (bind y g).
Proof.
  intros H K v E. destruct x as [a|]; [|discriminate E]. rewrite (H a eq_refl). exact (K a eq_refl v E).
Qed.
Lemma refines_assert {B} b (f : res B) g : refines f g -> refines (let* _ := assert_ b in f) g.
Proof. intros H v E. destruct b; [now apply H|discriminate E]. Qed.
Lemma refines_assert_eq {B} b (f : res B) g : (b = true -> refines f g) -> refines (let* _ := assert_ b in f) g.
Proof. intros H v E. destruct b; [now apply H|discriminate E]. Qed.
Lemma refines_for {S} n (f g : nat -> S -> res S) : (forall i s, refines (f i s) (g i s)) -> forall k s,
  refines (for_range k n f s) (for_range k n g s).
Proof.
  intros H. induction n; intros k s; [apply refines_refl|]. cbn [for_range]. apply refines_bind; [apply H|].
  intros a _. apply IHn.
Qed.
Lemma refines_while {S} c (f g : S -> res S) : (forall s, refines (f s) (g s)) -> forall fuel s,
  refines (while_ fuel c f s) (while_ fuel c g s).
Proof.
  intros H. induction fuel as [|k IH]; intros s; [apply refines_refl|]. cbn [while_].
  destruct (c s); [|apply refines_refl]. apply refines_bind; [apply H|]. intros a _. apply IH.
Qed.

(** ** Integers *)
Lemma ref_chk t z v : 0 < bits t -> chk t z = Ok v -> iwrap t z = v.
Proof. intros H E. apply chk_inv in E as [-> I]. now apply iwrap_id. Qed.
Lemma ref_add t a b : 0 < bits t -> refines (op_add t a b) (Ok (rop_add t a b)).
Proof. intros H v E. unfold op_add in E. destruct (sec t); [exact E|]. apply (f_equal Ok). now apply ref_chk. Qed.
Lemma ref_sub t a b : 0 < bits t -> refines (op_sub t a b) (Ok (rop_sub t a b)).
Proof. intros H v E. unfold op_sub in E. destruct (sec t); [exact E|]. apply (f_equal Ok). now apply ref_chk. Qed.
Lemma ref_mul t a b : 0 < bits t -> refines (op_mul t a b) (Ok (rop_mul t a b)).
Proof. intros H v E. unfold op_mul in E. destruct (sec t); [exact E|]. apply (f_equal Ok). now apply ref_chk. Qed.
Lemma ref_shl t a n : 0 <= n -> refines (op_shl t a n) (Ok (rop_shl t a n)).
Proof.
  intros H v E. unfold op_shl in E. destruct (Z.ltb_spec n (bits t)); [|discriminate E].
  unfold rop_shl. now rewrite Z.mod_small by lia.
Qed.
Lemma ref_shr t a n : 0 <= n -> refines (op_shr t a n) (Ok (rop_shr t a n)).
Proof.
  intros H v E. unfold op_shr in E. destruct (Z.ltb_spec n (bits t)); [|discriminate E].
  unfold rop_shr. now rewrite Z.mod_small by lia.
Qed.
Lemma bind_Ok_l {A B} (a : A) (f : A -> res B) : bind (Ok a) f = f a.
Proof. reflexivity. Qed.
Lemma ref_get_bit t a i : 0 <= i -> refines (get_bit t a i) (Ok (rget_bit t a i)).
Proof.
  intros H. unfold get_bit, rget_bit. intros v E.
  destruct (op_shr t a i) as [s|] eqn:S; [|discriminate E]. apply ref_shr in S; [|assumption].
  injection S as ->. exact E.
Qed.
Lemma ref_set_bit t a b i : 0 <= i -> refines (set_bit t a b i) (Ok (rset_bit t a b i)).
Proof.
  intros H v E. unfold set_bit in E. destruct (_ || _)%bool; [|discriminate E]. cbn [assert_ bind] in E.
  destruct (op_shl u128 1 i) as [o|] eqn:S1; [|discriminate E]. cbn [bind] in E.
  destruct (op_shl t b i) as [p|] eqn:S2; [|discriminate E]. cbn [bind] in E.
  apply ref_shl in S1; [|assumption]. apply ref_shl in S2; [|assumption]. injection S1 as <-. injection S2 as <-.
  exact E.
Qed.
Lemma ref_get_byte t a i : 0 < bits t -> 0 <= i -> refines (get_byte t a i) (Ok (rget_byte t a i)).
Proof.
  intros H Hi v E. unfold get_byte in E. destruct (chk u32 (i * 8)) as [k|] eqn:C; [|discriminate E]. cbn [bind] in E.
  assert (Hk : 0 <= k) by (apply chk_inv in C; lia). apply ref_chk in C; [|reflexivity].
  destruct (op_shr t a k) as [s|] eqn:S1; [|discriminate E]. cbn [bind] in E.
  destruct (op_shl t 1 8) as [p|] eqn:S2; [|discriminate E]. cbn [bind] in E.
  destruct (op_sub t p 1) as [m|] eqn:S3; [|discriminate E]. cbn [bind] in E.
  apply ref_shr in S1; [|assumption]. apply ref_shl in S2; [|lia]. injection S1 as <-. injection S2 as <-.
  apply ref_sub in S3; [|assumption]. injection S3 as <-. unfold rget_byte, rop_mul. rewrite C. exact E.
Qed.

(** ** Modular arithmetic *)
Lemma refines_Ok_l {A B} (x : res A) a (f g : A -> res B) : refines x (Ok a) -> (forall b, refines (f b) (g b)) ->
  refines (bind x f) (g a).
Proof. intros H K. exact (refines_bind x (Ok a) f g H (fun b _ => K b)). Qed.
Lemma ref_signed_mod fuel x n : refines (signed_mod fuel x n) (rsigned_mod fuel x n).
Proof.
  apply refines_bind; [apply refines_refl|]. intros a _. apply refines_while. intros s. apply ref_add. reflexivity.
Qed.
Lemma ref_cast fuel t x n :
  refines (let* r := signed_mod fuel x n in Ok (cast t r)) (let* r := rsigned_mod fuel x n in Ok (cast t r)).
Proof. apply refines_bind; [apply ref_signed_mod|intros; apply refines_refl]. Qed.
Lemma ref_sub_mod fuel t a b n : 0 < bits t -> refines (sub_mod fuel t a b n) (rsub_mod fuel t a b n).
Proof.
  intros H. unfold sub_mod, rsub_mod. destruct (sgn t).
  - apply (refines_Ok_l _ (rop_sub i128 a b) _ (fun d => let* r := rsigned_mod fuel d n in Ok (cast t r))).
    + apply ref_sub. reflexivity.
    + intros d. apply ref_cast.
  - apply refines_bind; [apply refines_while; intros s; now apply ref_add|]. intros x _.
    apply (refines_Ok_l _ (rop_sub (pub t) x b) _ (fun d => op_rem (pub t) d n)); [now apply ref_sub|].
    intros d. apply refines_refl.
Qed.
Lemma ref_add_mod fuel t a b n : 0 < bits t -> refines (add_mod fuel t a b n) (radd_mod fuel t a b n).
Proof.
  intros H. unfold add_mod, radd_mod. destruct (sgn t).
  - apply (refines_Ok_l _ (rop_add i128 a b) _ (fun d => let* r := rsigned_mod fuel d n in Ok (cast t r))).
    + apply ref_add. reflexivity.
    + intros d. apply ref_cast.
  - apply (refines_Ok_l _ (rop_add (pub t) a b) _ (fun d => op_rem (pub t) d n)); [now apply ref_add|].
    intros d. apply refines_refl.
Qed.
Lemma ref_mul_mod fuel t a b n : 0 < bits t -> refines (mul_mod fuel t a b n) (rmul_mod fuel t a b n).
Proof.
  intros H. unfold mul_mod, rmul_mod. destruct (sgn t).
  - apply (refines_Ok_l _ (rop_mul i128 a b) _ (fun d => let* r := rsigned_mod fuel d n in Ok (cast t r))).
    + apply ref_mul. reflexivity.
    + intros d. apply ref_cast.
  - apply (refines_Ok_l _ (rop_mul (pub t) a b) _ (fun d => op_rem (pub t) d n)); [now apply ref_mul|].
    intros d. apply refines_refl.
Qed.
Lemma ref_modulo fuel t a n : refines (modulo fuel t a n) (rmodulo fuel t a n).
Proof. unfold modulo, rmodulo. destruct (sgn t); [apply ref_cast|apply refines_refl]. Qed.
Lemma ref_eea_step fuel t n s : 0 < bits t -> refines (eea_step fuel t n s) (reea_step fuel t n s).
Proof.
  intros H. unfold eea_step, reea_step. apply refines_bind; [apply refines_refl|]. intros q _. cbv zeta.
  match goal with |- refines (bind ?x ?f) (bind (while_ _ _ _ _) ?g) => idtac end.
  apply (refines_Ok_l _ (rop_mul t q (ee_new_r s)) _ (fun tp => let* tmp_r := while_ fuel (fun x => num_less_than x tp)
    (fun x => Ok (rop_add t x n)) (ee_r s) in
    let* tmp_t := while_ fuel (fun x => num_less_than x (rop_mul t q (ee_new_t s)))
      (fun x => Ok (rop_add t x n)) (ee_t s) in
    Ok (mkeea (ee_new_t s) (ee_new_r s) (rop_sub t tmp_t (rop_mul t q (ee_new_t s))) (rop_sub t tmp_r tp)))); [now apply ref_mul|].
  intros tp. apply refines_bind; [apply refines_while; intros; now apply ref_add|]. intros tr _.
  apply (refines_Ok_l _ (rop_sub t tr tp) _ (fun new_r =>
    let* tmp_t := while_ fuel (fun x => num_less_than x (rop_mul t q (ee_new_t s)))
      (fun x => Ok (rop_add t x n)) (ee_t s) in
    Ok (mkeea (ee_new_t s) (ee_new_r s) (rop_sub t tmp_t (rop_mul t q (ee_new_t s))) new_r))); [now apply ref_sub|].
  intros nr. apply (refines_Ok_l _ (rop_mul t q (ee_new_t s)) _ (fun tp =>
    let* tmp_t := while_ fuel (fun x => num_less_than x tp)
      (fun x => Ok (rop_add t x n)) (ee_t s) in
    Ok (mkeea (ee_new_t s) (ee_new_r s) (rop_sub t tmp_t tp) nr))); [now apply ref_mul|].
  intros tp2. apply refines_bind; [apply refines_while; intros; now apply ref_add|]. intros tt _.
  apply (refines_Ok_l _ (rop_sub t tt tp2) _ (fun nt => Ok (mkeea (ee_new_t s) (ee_new_r s) nt nr))); [now apply ref_sub|].
  intros. apply refines_refl.
Qed.
Lemma ref_inv fuel t x n sg : 0 < bits t ->
  refines (extended_euclid_invert fuel t x n sg) (rextended_euclid_invert fuel t x n sg).
Proof.
  intros H. apply refines_bind; [apply refines_while; intros; now apply ref_eea_step|]. intros s _.
  destruct (_ && _)%bool; [apply refines_refl|]. destruct (num_less_than _ _); [|apply refines_refl].
  destruct sg; [apply refines_refl|now apply ref_add].
Qed.
(** Public and secret types are the same in release, and both are the secret type of the debug profile. *)
Lemma while_ext {S} c (f g : S -> res S) : (forall s, f s = g s) -> forall fuel s, while_ fuel c f s = while_ fuel c g s.
Proof.
  intros H. induction fuel as [|k IH]; intros s; [reflexivity|]. cbn [while_]. destruct (c s); [|reflexivity].
  rewrite H. destruct (g s); [apply IH|reflexivity].
Qed.
Definition secret (t : ity) : ity := mkity (bits t) (sgn t) true.
Lemma rinv_secret fuel t x n sg :
  rextended_euclid_invert fuel t x n sg = extended_euclid_invert fuel (secret t) x n sg.
Proof.
  unfold rextended_euclid_invert, extended_euclid_invert. rewrite (while_ext _ (reea_step fuel t n) (eea_step fuel (secret t) n)).
  - reflexivity.
  - intros s. reflexivity.
Qed.

(** ** Sequences *)
Section Elem.
Context {A : Type} (d : A).
Lemma rupdate_sub_Ok (s : list A) so v si n : (so + n <= length s)%nat -> (si + n <= length v)%nat ->
  rupdate_sub s so v si n = Ok (firstn so s ++ firstn n (skipn si v) ++ skipn (so + n) s).
Proof.
  intros H1 H2. unfold rupdate_sub.
  rewrite (fill_gen (fun i => nth (si + i) v d) _ so n s H1).
  - now rewrite firstn_skipn_map_seq.
  - intros i s' Hi L. rewrite (idx_Ok v _ d) by lia. cbn [bind]. apply upd_Ok. lia.
Qed.
Lemma rupdate_sub_zero (s : list A) so v si : rupdate_sub s so v si 0 = Ok s.
Proof. reflexivity. Qed.
Lemma rupdate_sub_panic (s : list A) so v si n : (0 < n)%nat ->
  (length s < so + n \/ length v < si + n)%nat -> panics (rupdate_sub s so v si n).
Proof.
  intros Hn H. unfold rupdate_sub. set (f := fun (i : nat) (s : list A) => _).
  assert (K : forall m k s', length s' = length s -> (k + m = n)%nat -> (0 < m)%nat -> panics (for_range k m f s')).
  { induction m as [|m IH]; intros k s' L E Hm; [lia|]. cbn [for_range]. unfold f at 1.
    destruct (idx v (si + k)) as [x|e] eqn:I; cbn [bind]; [|now exists e].
    destruct (upd s' (so + k) x) as [s2|e] eqn:U; cbn [bind]; [|now exists e].
    apply idx_inv in I. assert (N := nth_error_Some v (si + k)). rewrite I in N.
    assert (V : (si + k < length v)%nat) by (apply N; discriminate).
    unfold upd in U. destruct (Nat.ltb_spec (so + k) (length s')); [|discriminate U]. injection U as <-.
    destruct m; [lia|]. apply IH; [now rewrite set_nth_length|lia|lia]. }
  apply K; [reflexivity|lia|lia].
Qed.
Lemma ref_update_sub (s : list A) so v si n : refines (update_sub s so v si n) (rupdate_sub s so v si n).
Proof. unfold update_sub. apply refines_assert, refines_assert, refines_refl. Qed.
Lemma ref_alloc (n : nat) : Z.of_nat n < 2 ^ 63 -> ralloc d n = Ok (seq_new d n).
Proof. intros H. unfold ralloc. apply Z.ltb_lt in H. now rewrite H. Qed.
Lemma from_sub_bound (v : list A) si n r : from_sub d v si n = Ok r -> (si + n <= length v)%nat.
Proof.
  intros E. destruct (le_lt_dec (si + n) (length v)); [assumption|]. rewrite from_sub_panic in E by lia. discriminate E.
Qed.
Lemma rsub_Ok (v : list A) si n : Z.of_nat (length v) < 2 ^ 63 -> (si + n <= length v)%nat ->
  rsub_ d v si n = from_sub d v si n.
Proof.
  intros L H. unfold rsub_, from_sub. rewrite ref_alloc by lia. cbn [bind].
  rewrite rupdate_sub_Ok, (update_sub_Ok d); rewrite ?seq_new_length; trivial.
Qed.
Lemma rsub_panic (v : list A) si n : (0 < n)%nat -> (length v < si + n)%nat -> panics (rsub_ d v si n).
Proof.
  intros Hn H. unfold rsub_, ralloc. destruct (_ <? _); [|now eexists]. cbn [bind].
  apply rupdate_sub_panic; [assumption|now right].
Qed.
Lemma ref_sub_ (v : list A) si n : Z.of_nat (length v) < 2 ^ 63 -> refines (sub_ d v si n) (rsub_ d v si n).
Proof. intros L r E. pose proof (from_sub_bound _ _ _ _ E). rewrite rsub_Ok; trivial. Qed.
Lemma uwrap_small n : Z.of_nat n < 2 ^ 64 -> uwrap n = n.
Proof. intros H. unfold uwrap. rewrite Z.mod_small by lia. apply Nat2Z.id. Qed.
Lemma rusub_small a b : (b <= a)%nat -> Z.of_nat a < 2 ^ 64 -> rusub a b = (a - b)%nat.
Proof. intros L H. unfold rusub. rewrite Z.mod_small by lia. lia. Qed.
Lemma rusub_neg a b : (a < b)%nat -> Z.of_nat b <= 2 ^ 64 -> Z.of_nat (rusub a b) = 2 ^ 64 - (Z.of_nat b - Z.of_nat a).
Proof.
  intros L H. unfold rusub. rewrite <- (Z.mod_unique (Z.of_nat a - Z.of_nat b) (2 ^ 64) (-1) (2 ^ 64 - (Z.of_nat b - Z.of_nat a))) by lia.
  rewrite Z2Nat.id; lia.
Qed.
Lemma ref_subr (v : list A) a b : Z.of_nat (length v) < 2 ^ 63 -> refines (subr d v a b) (rsubr d v a b).
Proof.
  intros L r E. unfold subr, usub in E. destruct (Nat.leb_spec a b); [|discriminate E]. cbn [bind] in E.
  pose proof (from_sub_bound _ _ _ _ E). unfold rsubr. rewrite rusub_small by lia. now apply ref_sub_.
Qed.
Lemma rget_chunk_len_Ok (s : list A) cs cn : Z.of_nat (length s) < 2 ^ 63 -> Z.of_nat cs < 2 ^ 64 ->
  (cs * cn <= length s)%nat -> rget_chunk_len s cs cn = Nat.min cs (length s - cs * cn).
Proof.
  intros L C H. unfold rget_chunk_len. rewrite (uwrap_small (cs * cn)) by lia.
  assert (B : Z.of_nat (cs * cn + cs) < 2 ^ 64).
  { destruct cn; [rewrite Nat.mul_0_r, Nat.add_0_l; exact C|]. assert (cs <= cs * S cn)%nat by (rewrite Nat.mul_succ_r; lia). lia. }
  rewrite uwrap_small by exact B. destruct (Nat.ltb_spec (length s) (cs * cn + cs)).
  - rewrite rusub_small by lia. lia.
  - lia.
Qed.
Lemma get_chunk_bound (s : list A) cs cn n : get_chunk_len s cs cn = Ok n -> (cs * cn <= length s)%nat.
Proof.
  intros E. destruct (le_lt_dec (cs * cn) (length s)); [assumption|]. rewrite get_chunk_len_panic in E by lia. discriminate E.
Qed.
Lemma ref_get_chunk (s : list A) cs cn : Z.of_nat (length s) < 2 ^ 63 -> Z.of_nat cs < 2 ^ 64 ->
  refines (get_chunk d s cs cn) (rget_chunk d s cs cn).
Proof.
  intros L C r E. unfold get_chunk in E. destruct (get_chunk_len s cs cn) as [n|] eqn:G; [|discriminate E]. cbn [bind] in E.
  pose proof (get_chunk_bound _ _ _ _ G) as B. rewrite get_chunk_len_Ok in G by assumption. injection G as <-.
  unfold rget_chunk. rewrite rget_chunk_len_Ok by assumption. rewrite uwrap_small by lia.
  destruct (sub_ d s _ _) as [o|] eqn:S; [|discriminate E]. cbn [bind] in E. apply ref_sub_ in S; [|assumption].
  rewrite S. exact E.
Qed.
Lemma ref_set_chunk (s v : list A) cs cn : Z.of_nat (length s) < 2 ^ 63 -> Z.of_nat cs < 2 ^ 64 ->
  refines (set_chunk s cs cn v) (rset_chunk s cs cn v).
Proof.
  intros L C r E. unfold set_chunk in E. destruct (get_chunk_len s cs cn) as [n|] eqn:G; [|discriminate E]. cbn [bind] in E.
  pose proof (get_chunk_bound _ _ _ _ G) as B. rewrite get_chunk_len_Ok in G by assumption. injection G as <-.
  unfold rset_chunk. rewrite rget_chunk_len_Ok by assumption. rewrite uwrap_small by lia.
  destruct (_ =? _)%nat; [|discriminate E]. cbn [assert_ bind] in E. now apply ref_update_sub.
Qed.
Lemma rarr_from_Ok l (x : list A) : (length x <= l)%nat -> rarr_from d l x = Ok (x ++ repeat d (l - length x)).
Proof.
  intros H. unfold rarr_from. rewrite (copy_into_Ok d) by (rewrite seq_new_length; assumption). unfold seq_new.
  now rewrite (skipn_repeat d).
Qed.
Lemma copy_panic (o x : list A) : (length o < length x)%nat -> panics (copy_into o x).
Proof.
  intros H. unfold copy_into. apply (for_range_panics (fun _ s => length s = length o) _ 0 (length x) (length o)); trivial.
  - lia.
  - intros j s Hj L. exists (set_nth s j (nth j x d)). rewrite (idx_Ok x _ d) by lia. cbn [bind]. rewrite upd_Ok by lia.
    split; [reflexivity|]. now rewrite set_nth_length.
  - intros s L. rewrite (idx_Ok x _ d) by lia. cbn [bind]. rewrite upd_panic by lia. now eexists.
Qed.
End Elem.

(** ** SHA-256, HMAC, HKDF *)
Definition real (l : list Z) : Prop := Z.of_nat (length l) < 2 ^ 63.
Lemma rupdate_eq (s v : list Z) so : (so + length v <= length s)%nat -> rupdate s so v = update s so v.
Proof. intros H. unfold rupdate, update. rewrite (rupdate_sub_Ok 0), (update_sub_Ok 0) by lia. reflexivity. Qed.
Lemma rupdate_start_eq (s v : list Z) : (length v <= length s)%nat -> rupdate_start s v = update_start s v.
Proof. intros H. unfold rupdate_start, update_start. rewrite (rupdate_sub_Ok 0), (update_sub_Ok 0) by lia. reflexivity. Qed.
Lemma rget_chunk_eq (m : list Z) i : real m -> (64 * i <= length m)%nat -> rget_chunk 0 m 64 i = get_chunk 0 m 64 i.
Proof.
  intros R H. pose proof (ref_get_chunk 0 m 64 i R ltac:(lia)) as E. rewrite get_chunk_Ok in * by assumption.
  now apply E.
Qed.
Lemma be_str_mod k x : be_str k (x mod 256 ^ Z.of_nat k) = be_str k x.
Proof.
  unfold be_str. apply map_ext_in. intros i Hi. apply in_seq in Hi.
  set (e := (k - 1 - i)%nat). assert (He : (Z.of_nat k = Z.of_nat e + 1 + Z.of_nat i)) by (unfold e; lia).
  rewrite He, Z.pow_add_r, Z.pow_add_r, Z.pow_1_r by lia.
  assert (P : 0 < 256 ^ Z.of_nat e) by (apply Z.pow_pos_nonneg; lia).
  assert (Q : 0 < 256 ^ Z.of_nat i) by (apply Z.pow_pos_nonneg; lia).
  rewrite <- Z.mul_assoc. rewrite Z.rem_mul_r by lia.
  rewrite (Z.mul_comm (256 ^ Z.of_nat e)), Z.div_add, (Z.div_small (x mod _)) by (apply Z.mod_pos_bound || lia; assumption).
  rewrite Z.add_0_l. rewrite Z.rem_mul_r by lia. rewrite (Z.mul_comm 256), Z.mod_add by lia. now rewrite Zmod_mod.
Qed.
Definition rfull_step (m : list Z) (i : nat) (h : list Z) : res (list Z) :=
    let* ' (block_len, block) := rget_chunk 0 m 64 i in
    if (block_len <? 64)%nat then
      let last_block := seq_new 0 64 in
      let* block := rupdate_start (seq_new 0 64) block in
      let* last_block := rupdate last_block 0 block in
      let* last_block := upd last_block block_len 0x80 in
      let len_bist := rop_mul u64 (Z.of_nat (length m)) 8 in
      let* lb := word_to_be_bytes U64 (classify len_bist) in
      if (block_len <? 64 - 8)%nat then
        let* last_block := rupdate last_block (64 - 8) lb in
        M_SHA2.compress last_block h
      else
        let* pad_block := rupdate (seq_new 0 64) (64 - 8) lb in
        let* h := M_SHA2.compress last_block h in
        M_SHA2.compress pad_block h
    else
      let* compress_input := rupdate_start (seq_new 0 64) block in
      M_SHA2.compress compress_input h.
Lemma rfull_step_full m i h : Forall byte m -> real m -> words8 h -> (64 * (i + 1) <= length m)%nat ->
  rfull_step m i h = Ok (sha_compress h (sha_block m i)).
Proof.
  intros F R W L. unfold rfull_step. rewrite rget_chunk_eq by (trivial; lia). rewrite get_chunk_Ok by lia. cbn [bind].
  rewrite Nat.min_l by lia. change (64 <? 64)%nat with false. cbn iota.
  fold (sha_block m i). pose proof (sha_block_bytes m i F L) as B.
  rewrite rupdate_start_eq by (rewrite (proj1 B), seq_new_length; lia).
  rewrite update_start_pad by (rewrite (proj1 B); lia). rewrite (proj1 B). cbn [Nat.sub repeat].
  rewrite app_nil_r. cbn [bind]. now apply compress_Ok.
Qed.
Lemma rlen_be n : word_to_be_bytes U64 (classify (rop_mul u64 (Z.of_nat n) 8)) = Ok (be_str 8 (8 * Z.of_nat n)).
Proof.
  unfold classify. rewrite len_be. apply (f_equal Ok). unfold rop_mul, iwrap. cbn [sgn u64 bits].
  rewrite (Z.mul_comm _ 8). change (2 ^ 64) with (256 ^ Z.of_nat 8). apply be_str_mod.
Qed.
Lemma rfull_step_last m h : Forall byte m -> real m -> words8 h -> (length m mod 64 <> 0)%nat ->
  let q := (length m / 64)%nat in
  rfull_step m q h = Ok (if (length m mod 64 <? 56)%nat then sha_compress h (sha_block (sha_pad m) q)
                        else sha_compress (sha_compress h (sha_block (sha_pad m) q)) (sha_block (sha_pad m) (S q))).
Proof.
  intros F B W R q. pose proof (Nat.div_mod (length m) 64 ltac:(lia)) as D.
  pose proof (Nat.mod_upper_bound (length m) 64 ltac:(lia)) as Ur. fold q in D.
  pose proof (last_if m h F W R) as LI. cbv zeta in LI. fold q in LI. rewrite <- LI. clear LI.
  set (r := (length m mod 64)%nat) in *.
  unfold rfull_step. rewrite rget_chunk_eq by (trivial; lia). rewrite get_chunk_Ok by lia. cbn [bind].
  replace (Nat.min 64 (length m - 64 * q)) with r by lia.
  destruct (Nat.ltb_spec r 64); [|lia].
  rewrite firstn_all2 by (rewrite skipn_length; lia). fold q.
  set (t := skipn (64 * q) m). assert (Lt : length t = r) by (unfold t; rewrite skipn_length; lia).
  pose proof (last_block_Ok t ltac:(lia)) as E. rewrite Lt in E. rewrite rlen_be.
  set (lb := be_str 8 (8 * Z.of_nat (length m))) in *.
  assert (Llb : length lb = 8%nat) by apply be_str_length.
  rewrite rupdate_start_eq by (rewrite seq_new_length; lia).
  destruct (update_start (seq_new 0 64) t) as [b|] eqn:U; [|discriminate E]. cbn [bind] in E |- *.
  rewrite update_start_pad in U by lia. apply Ok_inj in U. subst b.
  rewrite rupdate_eq by (rewrite app_length, repeat_length, seq_new_length; lia).
  destruct (update (seq_new 0 64) 0 _) as [b'|]; [|discriminate E]. cbn [bind] in E |- *. rewrite E. cbn [bind].
  rewrite !rupdate_eq; [reflexivity| |].
  - rewrite seq_new_length, Llb. lia.
  - rewrite !app_length, repeat_length, Lt, Llb. cbn [length]. lia.
Qed.
Lemma rfull_blocks m q H : Forall byte m -> real m -> words8 H -> (64 * q <= length m)%nat ->
  for_range 0 q (rfull_step m) H = Ok (sha_steps m q H).
Proof.
  intros F R W L. destruct (for_range_inv (fun i h => h = sha_steps m i H) (rfull_step m) 0 q H) as (s' & E & I).
  - reflexivity.
  - intros i s Hi ->. eexists. split; [|symmetry; apply sha_steps_S].
    apply rfull_step_full; [assumption|assumption| |lia]. apply sha_steps_words; [assumption|assumption|lia].
  - now rewrite E, I.
Qed.
Lemma rarr_from_eq l (x : list Z) : length x = l -> rarr_from 0 l x = Ok x.
Proof. intros H. rewrite rarr_from_Ok by lia. replace (l - length x)%nat with 0%nat by lia. cbn [repeat]. now rewrite app_nil_r. Qed.
Lemma rhash_Ok m : Forall byte m -> real m -> rhash m = Ok (hash_pure m).
Proof.
  intros F B. unfold rhash. rewrite num_chunks_Ok by lia. cbn [bind].
  pose proof (Nat.div_mod (length m) 64 ltac:(lia)) as D.
  pose proof (Nat.mod_upper_bound (length m) 64 ltac:(lia)) as Ur.
  set (q := (length m / 64)%nat) in *. set (r := (length m mod 64)%nat) in *.
  match goal with |- bind (for_range 0 ?n ?f ?s) ?g = _ => change f with (rfull_step m); set (k := n) end.
  rewrite sha256_init_eq.
  assert (Q : for_range 0 q (rfull_step m) H256 = Ok (sha_steps m q H256)).
  { apply rfull_blocks; [assumption|assumption|apply H256_words8|lia]. }
  assert (X : for_range 0 k (rfull_step m) H256 = Ok (sha_iter (code_pad m))).
  { assert (W : words8 (sha_steps m q H256)) by (apply sha_steps_words; [apply H256_words8|assumption|lia]).
    unfold code_pad. fold r. destruct (Nat.eqb_spec r 0) as [E|E].
    - replace k with q. 2: { unfold k. apply (Nat.div_unique _ _ _ 63); lia. }
      rewrite sha_iter_steps. exact Q.
    - replace k with (q + 1)%nat. 2: { unfold k. apply (Nat.div_unique _ _ _ (r - 1)); lia. }
      rewrite for_range_app, Q. cbn [bind Nat.add for_range].
      unfold q at 1. rewrite rfull_step_last; trivial. cbn [bind]. fold q r. f_equal.
      rewrite sha_iter_steps, sha_pad_length. fold q r.
      rewrite (Nat.mul_comm 64), Nat.div_mul by lia.
      assert (A : sha_steps (sha_pad m) q H256 = sha_steps m q H256) by (apply sha_steps_app; lia).
      destruct (r <? 56)%nat.
      + rewrite Nat.add_1_r, sha_steps_S, A. reflexivity.
      + replace (q + 2)%nat with (S (S q)) by lia. rewrite !sha_steps_S, A. reflexivity. }
  rewrite X. cbn [bind].
  destruct (be_digest (sha_iter (code_pad m))) as [-> L]; [now apply sha_iter_words, code_pad_bytes|].
  cbn [bind]. apply rarr_from_eq, L.
Qed.
#[local] Opaque hash_pure.
Lemma rconcat2 n (a b : list Z) : length a = n -> Z.of_nat (n + length b) < 2 ^ 63 ->
  (let* h := ralloc 0 (n + length b) in let* h := rupdate h 0 a in rupdate h n b) = Ok (a ++ b).
Proof.
  intros L B. rewrite ref_alloc by assumption. cbn [bind]. rewrite rupdate_eq by (rewrite seq_new_length; lia).
  pose proof (concat2 n a b L) as E.
  destruct (update (seq_new 0 (n + length b)) 0 a) as [h|] eqn:U; [|discriminate E]. cbn [bind] in *.
  apply (update_sub_length 0) in U. rewrite seq_new_length in U. rewrite rupdate_eq by lia. exact E.
Qed.
Lemma rhmac_Ok k t : Forall byte k -> Forall byte t -> real k -> Z.of_nat (length t) < 2 ^ 63 - 64 ->
  rhmac k t = Ok (mac_pure k t) /\ bytes_n 32 (mac_pure k t).
Proof.
  intros Fk Ft Sk St. unfold mac_pure, rfc_hmac.
  set (k1 := if (length k <=? 64)%nat then k else hash_pure k).
  assert (B1 : Forall byte k1 /\ (length k1 <= 64)%nat).
  { unfold k1. destruct (Nat.leb_spec (length k) 64); [split; [assumption|lia]|].
    destruct (hash_pure_bytes k Fk) as [L F]. split; [assumption|lia]. }
  set (k0 := zero_extend 64 k1).
  assert (L0 : length k0 = 64%nat) by now apply zero_extend_length.
  assert (F0 : Forall byte k0) by now apply zero_extend_bytes.
  assert (K : (if (64 <? length k)%nat then let* d := rhash k in rupdate_start (seq_new 0 64) d
               else rupdate_start (seq_new 0 64) k) = Ok k0).
  { unfold k0, zero_extend, k1 in *. destruct (Nat.ltb_spec 64 (length k)), (Nat.leb_spec (length k) 64); try lia.
    - rewrite rhash_Ok by assumption. cbn [bind]. rewrite rupdate_start_eq by (rewrite seq_new_length; lia). now apply update_start_pad.
    - rewrite rupdate_start_eq by (rewrite seq_new_length; lia). now apply update_start_pad. }
  set (ip := map (fun b => Z.lxor b 54) k0). set (op := map (fun b => Z.lxor b 92) k0).
  assert (Fi : bytes_n 64 ip) by (split; [unfold ip; now rewrite map_length|apply map_xor_bytes; [apply byte36|assumption]]).
  assert (Fo : bytes_n 64 op) by (split; [unfold op; now rewrite map_length|apply map_xor_bytes; [apply byte5c|assumption]]).
  assert (H1 : rhash (ip ++ t) = Ok (hash_pure (ip ++ t))).
  { apply rhash_Ok; [apply Forall_app; split; [apply Fi|assumption]|].
    unfold real. rewrite app_length, (proj1 Fi). lia. }
  assert (B2 : bytes_n 32 (hash_pure (ip ++ t))) by (apply hash_pure_bytes, Forall_app; split; [apply Fi|assumption]).
  assert (B3 : bytes_n 32 (hash_pure (op ++ hash_pure (ip ++ t)))).
  { apply hash_pure_bytes, Forall_app; split; [apply Fo|apply B2]. }
  assert (H2 : rhash (op ++ hash_pure (ip ++ t)) = Ok (hash_pure (op ++ hash_pure (ip ++ t)))).
  { apply rhash_Ok; [apply Forall_app; split; [apply Fo|apply B2]|].
    unfold real. rewrite app_length, (proj1 Fo), (proj1 B2). lia. }
  split; [|exact B3].
  unfold rhmac. rewrite K. cbn [bind].
  rewrite !xor_const by assumption. cbn [bind]. fold ip op.
  assert (E1 := rconcat2 64 ip t (proj1 Fi) ltac:(lia)).
  assert (E2 := rconcat2 64 op (hash_pure (ip ++ t)) (proj1 Fo) ltac:(rewrite (proj1 B2); lia)).
  destruct (ralloc 0 (64 + length t)) as [x|]; [|discriminate E1]. cbn [bind] in E1 |- *.
  destruct (rupdate x 0 ip) as [x'|]; [|discriminate E1]. cbn [bind] in E1 |- *.
  rewrite E1. cbn [bind]. rewrite H1. cbn [bind].
  destruct (ralloc 0 (64 + length (hash_pure (ip ++ t)))) as [y|]; [|discriminate E2]. cbn [bind] in E2 |- *.
  destruct (rupdate y 0 op) as [y'|]; [|discriminate E2].
  cbn [bind] in E2 |- *. rewrite E2. cbn [bind]. rewrite H2. cbn [bind]. apply rarr_from_eq, B3.
Qed.
Lemma rbuild_Ok t info c : Z.of_nat (length t + length info + 1) < 2 ^ 63 -> rbuild_hmac_txt t info c = Ok (t ++ info ++ [c]).
Proof.
  intros B. unfold rbuild_hmac_txt. rewrite ref_alloc by assumption. cbn [bind].
  pose proof (build_Ok t info c) as E. unfold build_hmac_txt in E.
  rewrite rupdate_eq by (rewrite seq_new_length; lia).
  destruct (update (seq_new 0 (length t + length info + 1)) 0 t) as [x|] eqn:U; [|discriminate E]. cbn [bind] in E |- *.
  apply (update_sub_length 0) in U. rewrite seq_new_length in U. rewrite rupdate_eq by lia. exact E.
Qed.
Lemma rT_bytes prk info i : Forall byte prk -> Forall byte info -> real prk ->
  Z.of_nat (length info) < 2 ^ 63 - 97 -> (i <= 255)%nat ->
  (i = 0%nat /\ rfc_T mac_pure prk info i = []) \/ bytes_n 32 (rfc_T mac_pure prk info i).
Proof.
  intros Fp Fi Sp Si. induction i; intros Hi; [left; split; reflexivity|right]. cbn [rfc_T].
  destruct IHi as [[-> ->]|B]; [lia| |]; apply rhmac_Ok; trivial.
  - apply Forall_app; split; [constructor|]. apply Forall_app; split; [assumption|]. repeat constructor; lia.
  - cbn [app]. rewrite app_length. cbn [length]. lia.
  - apply Forall_app; split; [apply B|]. apply Forall_app; split; [assumption|]. repeat constructor; lia.
  - rewrite !app_length, (proj1 B). cbn [length]. lia.
Qed.
Definition rexpand_step (prk info : list Z) (i : nat) (st : list Z * list Z) : res (list Z * list Z) :=
  let '(t_i, t) := st in
    let c := rop_add u8 (Z.of_nat i) 1 in
    let* hmac_txt_in := (if (i =? 0)%nat then rbuild_hmac_txt (seq_new 0 0) info c
                         else let* ts := seq_from_seq 0 t_i in rbuild_hmac_txt ts info c) in
    let* t_i := rhmac prk hmac_txt_in in
    let* t := rupdate t (i * length t_i) t_i in
    Ok (t_i, t).
(** The loop of expand for any n below 256. *)
Lemma rexpand_loop prk info n : Forall byte prk -> Forall byte info -> real prk ->
  Z.of_nat (length info) < 2 ^ 63 - 97 -> (n <= 255)%nat ->
  exists ti, for_range 0 n (rexpand_step prk info) (seq_new 0 32, seq_new 0 (n * 32)) =
    Ok (ti, concat (map (rfc_T mac_pure prk info) (seq 1 n))) /\
    length (concat (map (rfc_T mac_pure prk info) (seq 1 n))) = (32 * n)%nat.
Proof.
  intros Fp Fi Sp Si Hn.
  set (T := rfc_T mac_pure prk info).
  assert (TB : forall i, (1 <= i <= 255)%nat -> bytes_n 32 (T i)).
  { intros i Hi. destruct (rT_bytes prk info i Fp Fi Sp Si ltac:(lia)) as [[? _]|B]; [lia|exact B]. }
  assert (LC : forall i, (i <= 255)%nat -> length (concat (map T (seq 1 i))) = (32 * i)%nat).
  { intros i Hi. rewrite (concat_length_const 32), map_length, seq_length; [reflexivity|].
    apply Forall_forall. intros x Hx. apply in_map_iff in Hx as (j & <- & Hj). apply in_seq in Hj.
    apply TB. lia. }
  destruct (for_range_inv (fun i st => (i = 0%nat \/ fst st = T i) /\
      snd st = concat (map T (seq 1 i)) ++ repeat 0 (32 * (n - i))) (rexpand_step prk info) 0 n (seq_new 0 32, seq_new 0 (n * 32)))
    as (st & E & I0 & I1).
  - cbn [fst snd]. split; [now left|]. cbn [seq map concat app]. unfold seq_new. f_equal. lia.
  - intros i [ti t] Hi [I0 I1]. cbn [fst snd] in I0, I1. unfold rexpand_step.
    assert (U : rop_add u8 (Z.of_nat i) 1 = Z.of_nat (S i)).
    { unfold rop_add. rewrite iwrap_id; [lia|reflexivity|]. unfold in_ty, imin, imax. cbn [sgn bits u8]. lia. }
    rewrite U. cbv zeta.
    assert (FT : Forall byte (T i) /\ (length (T i) <= 32)%nat).
    { destruct i; [split; [constructor|cbn; lia]|]. destruct (TB (S i) ltac:(lia)) as [L F]. split; [assumption|lia]. }
    assert (B : (if (i =? 0)%nat then rbuild_hmac_txt (seq_new 0 0) info (Z.of_nat (S i))
                 else let* ts := seq_from_seq 0 ti in rbuild_hmac_txt ts info (Z.of_nat (S i)))
                = Ok (T i ++ info ++ [Z.of_nat (S i)])).
    { destruct (Nat.eqb_spec i 0) as [->|Hne].
      - rewrite rbuild_Ok by (rewrite seq_new_length; lia). reflexivity.
      - destruct I0 as [I0|I0]; [contradiction|rewrite I0]. rewrite seq_from_seq_Ok. cbn [bind]. apply rbuild_Ok. lia. }
    rewrite B. cbn [bind]. clear B.
    destruct (rhmac_Ok prk (T i ++ info ++ [Z.of_nat (S i)])) as [-> B]; trivial.
    { apply Forall_app; split; [apply FT|]. apply Forall_app; split; [assumption|]. repeat constructor; lia. }
    { rewrite !app_length. cbn [length]. lia. }
    cbn [bind]. change (mac_pure prk (T i ++ info ++ [Z.of_nat (S i)])) with (T (S i)) in *.
    specialize (LC i ltac:(lia)).
    rewrite I1, (proj1 B).
    rewrite rupdate_eq by (rewrite app_length, LC, repeat_length, (proj1 B); lia).
    rewrite (update_Ok 0) by (rewrite app_length, LC, repeat_length, (proj1 B); lia). cbn [bind].
    eexists. split; [reflexivity|]. cbn [fst snd]. split; [now right|].
    rewrite seq_S, map_app, concat_app. cbn [map concat Nat.add]. rewrite app_nil_r, <- app_assoc.
    rewrite firstn_app, LC. replace (i * 32 - 32 * i)%nat with 0%nat by lia. cbn [firstn]. rewrite app_nil_r.
    rewrite firstn_all2 by lia. f_equal. f_equal.
    rewrite skipn_app, LC, skipn_all2, app_nil_l by lia. rewrite skipn_repeat. f_equal. rewrite (proj1 B). lia.
  - destruct st as [ti t]. cbn [snd] in I1. cbn [Nat.add] in I1. exists ti. rewrite E, I1.
    rewrite Nat.sub_diag, Nat.mul_0_r. cbn [repeat]. rewrite app_nil_r. split; [reflexivity|]. now apply LC.
Qed.
Lemma rexpand_Ok prk info l : Forall byte prk -> Forall byte info -> real prk ->
  Z.of_nat (length info) < 2 ^ 63 - 97 -> (l <= 255 * 32)%nat ->
  rexpand prk info l = Ok (rfc_expand mac_pure prk info l).
Proof.
  intros Fp Fi Sp Si Hl. unfold rexpand. rewrite div_ceil_small by lia. cbv zeta.
  set (n := ((l + 31) / 32)%nat).
  assert (Hn : (n < 256)%nat) by (apply Nat.div_lt_upper_bound; lia).
  assert (Hl' : (l <= 32 * n)%nat).
  { assert (D := Nat.div_mod_eq (l + 31) 32). assert (M := Nat.mod_upper_bound (l + 31) 32 ltac:(discriminate)).
    fold n in D. clearbody n. lia. }
  replace (Z.to_nat (cast u8 (Z.of_nat n))) with n.
  2: { unfold cast, iwrap. cbn [sgn u8 bits]. rewrite Z.mod_small by lia. now rewrite Nat2Z.id. }
  destruct (rexpand_loop prk info n Fp Fi Sp Si ltac:(lia)) as (ti & E & L).
  match goal with |- bind (for_range 0 n ?f ?s) _ = _ => change f with (rexpand_step prk info) end.
  rewrite E. cbn [bind]. rewrite rsub_Ok by (unfold real in *; lia). rewrite (from_sub_Ok 0) by lia. cbn [skipn].
  reflexivity.
Qed.
Lemma rexpand_panics prk info l : Forall byte prk -> Forall byte info -> real prk ->
  Z.of_nat (length info) < 2 ^ 63 - 97 -> (255 * 32 < l)%nat -> panics (rexpand prk info l).
Proof.
  intros Fp Fi Sp Si Hl. unfold rexpand. cbv zeta. set (n := Z.to_nat (cast u8 (div_ceil l 32))).
  assert (Hn : (n < 256)%nat).
  { unfold n, cast, iwrap. cbn [sgn u8 bits]. pose proof (Z.mod_pos_bound (div_ceil l 32) (2 ^ 8) ltac:(lia)). lia. }
  destruct (rexpand_loop prk info n Fp Fi Sp Si ltac:(lia)) as (ti & E & L).
  match goal with |- panics (bind (for_range 0 n ?f ?s) _) => change f with (rexpand_step prk info) end.
  rewrite E. cbn [bind]. apply rsub_panic; lia.
Qed.
