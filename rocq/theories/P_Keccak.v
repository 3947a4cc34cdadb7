(** Lemmas about the Keccak model. *)
From Coq Require Import ZArith List Bool Arith Lia.
From Verif Require Import Base P_Base M_Int P_Int M_Seq P_Seq P_Word P_Stream S_ChaCha P_AES S_Keccak M_Keccak.
Import ListNotations.
Local Open Scope nat_scope.

(** ** Bit strings of words *)
Lemma word_bits_length n b : length (word_bits n b) = n.
Proof. unfold word_bits. now rewrite map_length, seq_length. Qed.
Lemma string_bits_length n l : length (string_bits n l) = n * length l.
Proof.
  unfold string_bits. induction l; cbn [flat_map length]; [lia|].
  rewrite app_length, word_bits_length, IHl. lia.
Qed.
Lemma string_bits_app n a b : string_bits n (a ++ b) = string_bits n a ++ string_bits n b.
Proof. apply flat_map_app. Qed.
Lemma nth_word_bits n b i : i < n -> nth i (word_bits n b) false = Z.testbit b (Z.of_nat i).
Proof. intros H. unfold word_bits. now rewrite nth_map_seq. Qed.
Lemma nth_string_bits n l i : 0 < n -> i < n * length l ->
  nth i (string_bits n l) false = Z.testbit (nth (i / n) l 0%Z) (Z.of_nat (i mod n)).
Proof.
  intros Hn. revert i. induction l as [|b l IH]; intros i Hi; [cbn [length] in Hi; lia|].
  cbn [length] in Hi. change (string_bits n (b :: l)) with (word_bits n b ++ string_bits n l).
  destruct (Nat.lt_ge_cases i n) as [L|L].
  - rewrite app_nth1 by (now rewrite word_bits_length). rewrite nth_word_bits by exact L.
    now rewrite Nat.div_small, Nat.mod_small by exact L.
  - rewrite app_nth2 by (now rewrite word_bits_length). rewrite word_bits_length, IH by lia.
    replace i with (i - n + 1 * n) at 3 4 by lia. rewrite Nat.div_add, Nat.mod_add by lia.
    rewrite Nat.add_1_r. reflexivity.
Qed.
(** A range of words: below 2^n. *)
Definition wordn (n : nat) (x : Z) : Prop := (0 <= x < 2 ^ Z.of_nat n)%Z.
Lemma wordn_bits_inj n a b : wordn n a -> wordn n b -> word_bits n a = word_bits n b -> a = b.
Proof.
  intros Ha Hb E. apply Z.bits_inj'. intros k Hk.
  destruct (Z.lt_ge_cases k (Z.of_nat n)) as [L|L].
  - apply (f_equal (fun l => nth (Z.to_nat k) l false)) in E. rewrite !nth_word_bits in E by lia.
    now rewrite Z2Nat.id in E by lia.
  - rewrite !(testbit_small _ (Z.of_nat n)) by (unfold wordn in *; lia). reflexivity.
Qed.
Lemma string_bits_inj n a b : Forall (wordn n) a -> Forall (wordn n) b -> length a = length b ->
  string_bits n a = string_bits n b -> a = b.
Proof.
  intros Ha. revert b. induction Ha as [|x a Hx Ha IH]; intros [|y b] Hb L E; try discriminate; [reflexivity|].
  inversion_clear Hb as [|? ? Hy Hb']. cbn [string_bits flat_map] in E.
  assert (E1 := f_equal (firstn n) E). assert (E2 := f_equal (skipn n) E).
  rewrite !firstn_app, !word_bits_length, !Nat.sub_diag in E1. cbn [firstn] in E1.
  rewrite !app_nil_r, !firstn_all2 in E1 by (rewrite word_bits_length; lia).
  rewrite !skipn_app, !word_bits_length, !Nat.sub_diag in E2. cbn [skipn] in E2.
  rewrite !skipn_all2 in E2 by (rewrite word_bits_length; lia). cbn [app] in E2.
  f_equal; [now apply (wordn_bits_inj n)|]. apply IH; trivial. cbn in L. lia.
Qed.
(** The value of a list of bits, and words from bit strings. *)
Fixpoint bits_num (l : list bool) : Z :=
  match l with [] => 0 | b :: l => Z.b2z b + 2 * bits_num l end%Z.
Lemma bits_num_range l : wordn (length l) (bits_num l).
Proof.
  unfold wordn. induction l as [|b l IH]; [cbn; lia|]. cbn [length bits_num].
  rewrite Nat2Z.inj_succ, Z.pow_succ_r by lia. destruct b; cbn [Z.b2z]; lia.
Qed.
Lemma bits_num_bits l : word_bits (length l) (bits_num l) = l.
Proof.
  induction l as [|b l IH]; [reflexivity|]. unfold word_bits in *. cbn [length seq map bits_num].
  f_equal.
  - rewrite Z.add_comm, Z.testbit_0_r. reflexivity.
  - rewrite <- seq_shift, map_map. etransitivity; [|exact IH]. apply map_ext. intros i.
    rewrite Z.add_comm, Nat2Z.inj_succ, Z.testbit_succ_r by lia. reflexivity.
Qed.
Definition pack (n k : nat) (S : list bool) : list Z := map (fun i => bits_num (firstn n (skipn (n * i) S))) (seq 0 k).
Lemma pack_bits n k S : length S = n * k -> string_bits n (pack n k S) = S.
Proof.
  intros L. unfold string_bits, pack. rewrite flat_map_concat_map, map_map.
  rewrite (map_ext_in _ (fun i => firstn n (skipn (n * i) S))).
  - rewrite concat_chunks. rewrite <- L. apply firstn_all.
  - intros i Hi. apply in_seq in Hi. 
    assert (LL : length (firstn n (skipn (n * i) S)) = n).
    { rewrite firstn_length, skipn_length, L. apply Nat.min_l. nia. }
    rewrite <- LL at 1. apply bits_num_bits.
Qed.
Lemma pack_words n k S : length S = n * k -> length (pack n k S) = k /\ Forall (wordn n) (pack n k S).
Proof.
  intros L. unfold pack. split; [now rewrite map_length, seq_length|].
  apply Forall_forall. intros x Hx. apply in_map_iff in Hx as (i & <- & Hi). apply in_seq in Hi.
  assert (LL : length (firstn n (skipn (n * i) S)) = n).
  { rewrite firstn_length, skipn_length, L. apply Nat.min_l. nia. }
  rewrite <- LL at 1. apply bits_num_range.
Qed.

(** ** State arrays *)
Definition state (s : list Z) : Prop := length s = 25 /\ Forall (wordn 64) s.
Lemma lane_bits_length s : state s -> length (lane_bits s) = 1600.
Proof. intros [L _]. unfold lane_bits. now rewrite string_bits_length, L. Qed.
Lemma idx_split x y z : x < 5 -> y < 5 -> z < 64 ->
  64 * (5 * y + x) + z < 1600 /\ (64 * (5 * y + x) + z) / 64 = 5 * y + x /\ (64 * (5 * y + x) + z) mod 64 = z /\
  (5 * y + x) mod 5 = x /\ (64 * (5 * y + x) + z) / 320 = y /\ (5 * y + x) / 5 = y.
Proof.
  intros Hx Hy Hz. split; [lia|]. split; [symmetry; apply (Nat.div_unique _ _ _ z); lia|].
  split; [symmetry; apply (Nat.mod_unique _ _ (5 * y + x)); lia|].
  split; [symmetry; apply (Nat.mod_unique _ _ y); lia|].
  split; [symmetry; apply (Nat.div_unique _ _ _ (64 * x + z)); lia|].
  symmetry; apply (Nat.div_unique _ _ _ x); lia.
Qed.
Lemma rd_lane s x y z : state s -> x < 5 -> y < 5 -> z < 64 ->
  rd (lane_bits s) x y z = Z.testbit (nth (5 * y + x) s 0%Z) (Z.of_nat z).
Proof.
  intros [L _] Hx Hy Hz. destruct (idx_split x y z Hx Hy Hz) as (A & B & C & _).
  unfold rd, lane_bits. rewrite nth_string_bits by (rewrite ?L; lia). now rewrite B, C.
Qed.
Lemma mk_length A : length (mk A) = 1600.
Proof. unfold mk. now rewrite map_length, seq_length. Qed.
Lemma rd_mk A x y z : x < 5 -> y < 5 -> z < 64 -> rd (mk A) x y z = A x y z.
Proof.
  intros Hx Hy Hz. destruct (idx_split x y z Hx Hy Hz) as (L & B & C & D & E & _).
  unfold rd, mk. rewrite nth_map_seq by exact L. now rewrite B, C, D, E.
Qed.
Lemma coords i : i < 1600 -> (i / 64) mod 5 < 5 /\ i / 320 < 5 /\ i mod 64 < 64 /\
  64 * (5 * (i / 320) + (i / 64) mod 5) + i mod 64 = i.
Proof.
  intros H. split; [apply Nat.mod_upper_bound; lia|]. split; [apply Nat.div_lt_upper_bound; lia|].
  split; [apply Nat.mod_upper_bound; lia|].
  assert (E : i / 320 = i / 64 / 5) by (rewrite Nat.div_div by lia; reflexivity).
  rewrite E. rewrite <- (Nat.div_mod_eq (i / 64) 5). symmetry. apply Nat.div_mod_eq.
Qed.
Lemma bits_ext S T : length S = 1600 -> length T = 1600 ->
  (forall x y z, x < 5 -> y < 5 -> z < 64 -> rd S x y z = rd T x y z) -> S = T.
Proof.
  intros LS LT H. apply (nth_ext_eq _ _ false); [congruence|]. intros i Hi. rewrite LS in Hi.
  destruct (coords i Hi) as (A & B & C & D). specialize (H _ _ _ A B C). unfold rd in H. now rewrite D in H.
Qed.
Lemma mk_ext A B : (forall x y z, x < 5 -> y < 5 -> z < 64 -> A x y z = B x y z) -> mk A = mk B.
Proof. intros H. apply bits_ext; try apply mk_length. intros. rewrite !rd_mk by assumption. now apply H. Qed.
Lemma lane_mk s A : state s ->
  (forall x y z, x < 5 -> y < 5 -> z < 64 -> Z.testbit (nth (5 * y + x) s 0%Z) (Z.of_nat z) = A x y z) ->
  lane_bits s = mk A.
Proof.
  intros Hs H. apply bits_ext; [now apply lane_bits_length|apply mk_length|].
  intros. rewrite rd_lane, rd_mk by assumption. now apply H.
Qed.
Lemma nth_word n s i : Forall (wordn n) s -> wordn n (nth i s 0%Z).
Proof.
  intros F. destruct (Nat.lt_ge_cases i (length s)).
  - rewrite Forall_forall in F. apply F, nth_In; assumption.
  - rewrite nth_overflow by assumption. unfold wordn. lia.
Qed.
Lemma wordn_lxor n a b : wordn n a -> wordn n b -> wordn n (Z.lxor a b).
Proof. intros. apply lxor_range; trivial; lia. Qed.
Lemma wordn_land n a b : wordn n a -> wordn n b -> wordn n (Z.land a b).
Proof. intros. apply land_range; trivial; lia. Qed.
Lemma wordn_u64 a : in_ty U64 a -> wordn 64 a.
Proof. unfold in_ty, imin, imax, wordn. cbn [sgn bits U64]. change (Z.of_nat 64) with 64%Z. lia. Qed.
Lemma wordn_rotl a n : wordn 64 (rotate_left U64 a n).
Proof. apply wordn_u64, rotate_left_range. cbn; lia. Qed.
Lemma wordn_not a : wordn 64 (op_not U64 a).
Proof. apply wordn_u64. unfold op_not. apply iwrap_range. cbn; lia. Qed.
Lemma map_state f : (forall i, wordn 64 (f i)) -> state (map f (seq 0 25)).
Proof.
  intros H. split; [now rewrite map_length, seq_length|]. apply Forall_forall. intros x Hx.
  apply in_map_iff in Hx as (i & <- & _). apply H.
Qed.
Lemma destruct25 (s : list Z) : length s = 25 -> exists a0 a1 a2 a3 a4 a5 a6 a7 a8 a9 a10 a11 a12 a13 a14 a15 a16 a17 a18 a19 a20 a21 a22 a23 a24,
  s = [a0;a1;a2;a3;a4;a5;a6;a7;a8;a9;a10;a11;a12;a13;a14;a15;a16;a17;a18;a19;a20;a21;a22;a23;a24].
Proof.
  intros L. do 25 (destruct s as [|? s]; [discriminate L|]). destruct s; [|discriminate L].
  do 25 eexists. reflexivity.
Qed.

(** ** The step mappings on lanes *)
Definition lane_parity (s : list Z) (j : nat) : Z :=
  Z.lxor (Z.lxor (Z.lxor (Z.lxor (nth j s 0%Z) (nth (j + 5) s 0%Z)) (nth (j + 10) s 0%Z)) (nth (j + 15) s 0%Z)) (nth (j + 20) s 0%Z).
Definition theta_pure (s : list Z) : list Z :=
  map (fun i => Z.lxor (nth i s 0%Z) (Z.lxor (lane_parity s ((i mod 5 + 4) mod 5)) (rotate_left U64 (lane_parity s ((i mod 5 + 1) mod 5)) 1))) (seq 0 25).
Lemma theta_Ok s : state s -> theta s = Ok (theta_pure s).
Proof.
  intros [L _]. destruct (destruct25 s L) as (a0 & a1 & a2 & a3 & a4 & a5 & a6 & a7 & a8 & a9 & a10 & a11 & a12 & a13 & a14 & a15 & a16 & a17 & a18 & a19 & a20 & a21 & a22 & a23 & a24 & ->).
  cbv -[Z.lxor rotate_left]. reflexivity.
Qed.
Definition rho_pure (s : list Z) : list Z := map (fun i => rotate_left U64 (nth i s 0%Z) (nth i rotc 0%Z)) (seq 0 25).
Lemma rho_Ok s : state s -> rho s = Ok (rho_pure s).
Proof.
  intros [L _]. destruct (destruct25 s L) as (a0 & a1 & a2 & a3 & a4 & a5 & a6 & a7 & a8 & a9 & a10 & a11 & a12 & a13 & a14 & a15 & a16 & a17 & a18 & a19 & a20 & a21 & a22 & a23 & a24 & ->).
  cbv -[Z.lxor rotate_left]. reflexivity.
Qed.
Definition pi_pure (s : list Z) : list Z := map (fun i => nth (nth i pi_table 0) s 0%Z) (seq 0 25).
Lemma pi_Ok s : state s -> pi s = Ok (pi_pure s).
Proof.
  intros [L _]. destruct (destruct25 s L) as (a0 & a1 & a2 & a3 & a4 & a5 & a6 & a7 & a8 & a9 & a10 & a11 & a12 & a13 & a14 & a15 & a16 & a17 & a18 & a19 & a20 & a21 & a22 & a23 & a24 & ->).
  cbv -[Z.lxor rotate_left]. reflexivity.
Qed.
Definition chi_pure (s : list Z) : list Z :=
  map (fun i => Z.lxor (nth i s 0%Z) (Z.land (op_not U64 (nth (5 * (i / 5) + (i mod 5 + 1) mod 5) s 0%Z))
                                             (nth (5 * (i / 5) + (i mod 5 + 2) mod 5) s 0%Z))) (seq 0 25).
Lemma chi_Ok s : state s -> chi s = Ok (chi_pure s).
Proof.
  intros [L _]. destruct (destruct25 s L) as (a0 & a1 & a2 & a3 & a4 & a5 & a6 & a7 & a8 & a9 & a10 & a11 & a12 & a13 & a14 & a15 & a16 & a17 & a18 & a19 & a20 & a21 & a22 & a23 & a24 & ->).
  cbv -[Z.lxor Z.land op_not]. reflexivity.
Qed.
Definition iota_pure (c : Z) (s : list Z) : list Z :=
  map (fun i => if i =? 0 then Z.lxor (nth i s 0%Z) c else nth i s 0%Z) (seq 0 25).
Lemma iota_Ok s c : state s -> iota s c = Ok (iota_pure c s).
Proof.
  intros [L _]. destruct (destruct25 s L) as (a0 & a1 & a2 & a3 & a4 & a5 & a6 & a7 & a8 & a9 & a10 & a11 & a12 & a13 & a14 & a15 & a16 & a17 & a18 & a19 & a20 & a21 & a22 & a23 & a24 & ->).
  cbv -[Z.lxor]. reflexivity.
Qed.
Lemma nth_map25 f i : i < 25 -> nth i (map f (seq 0 25)) 0%Z = f i.
Proof. intros. now rewrite nth_map_seq. Qed.
(** The bit strings of the step mappings *)
Lemma lane_parity_word s j : state s -> wordn 64 (lane_parity s j).
Proof. intros [_ F]. unfold lane_parity. repeat apply wordn_lxor; now apply nth_word. Qed.
Lemma theta_state s : state s -> state (theta_pure s).
Proof.
  intros H. apply map_state. intros i. apply wordn_lxor; [apply nth_word, H|]. apply wordn_lxor; [now apply lane_parity_word|apply wordn_rotl].
Qed.
Lemma lane_parity_bits s x z : state s -> x < 5 -> z < 64 ->
  Z.testbit (lane_parity s x) (Z.of_nat z) = theta_C (lane_bits s) x z.
Proof.
  intros H Hx Hz. unfold theta_C. rewrite !rd_lane by (trivial; lia). unfold lane_parity. rewrite !Z.lxor_spec.
  replace (5 * 0 + x) with x by lia. replace (5 * 1 + x) with (x + 5) by lia. replace (5 * 2 + x) with (x + 10) by lia.
  replace (5 * 3 + x) with (x + 15) by lia. replace (5 * 4 + x) with (x + 20) by lia. reflexivity.
Qed.
Lemma rotl_bits a n z : z < 64 -> (0 <= n)%Z ->
  Z.testbit (rotate_left U64 a n) (Z.of_nat z) = Z.testbit a (Z.of_nat ((z + (64 - Z.to_nat (n mod 64))) mod 64)).
Proof.
  intros Hz Hn. rewrite rotate_left_testbit by (cbn; lia). cbn [bits U64]. f_equal.
  assert (B := Z.mod_pos_bound n 64 ltac:(lia)).
  rewrite Nat2Z.inj_mod, Nat2Z.inj_add, Nat2Z.inj_sub, Z2Nat.id by lia. change (Z.of_nat 64) with 64%Z.
  rewrite <- Zminus_mod_idemp_r. replace (Z.of_nat z + (64 - n mod 64))%Z with (Z.of_nat z - n mod 64 + 1 * 64)%Z by lia.
  now rewrite Z_mod_plus_full.
Qed.
Lemma theta_bits s : state s -> lane_bits (theta_pure s) = k_theta (lane_bits s).
Proof.
  intros H. apply lane_mk; [now apply theta_state|]. intros x y z Hx Hy Hz.
  destruct (idx_split x y z Hx Hy Hz) as (_ & _ & _ & D & _ & _).
  unfold theta_pure. rewrite nth_map25 by lia. rewrite D, !Z.lxor_spec, rotl_bits by lia.
  unfold theta_D. rewrite rd_lane by assumption. f_equal.
  rewrite <- !lane_parity_bits; trivial; try (apply Nat.mod_upper_bound; lia).
Qed.
Lemma rho_state s : state s -> state (rho_pure s).
Proof. intros H. apply map_state. intros. apply wordn_rotl. Qed.
Lemma lanes_check (P : nat -> nat -> bool) :
  forallb (fun i => P (i mod 5) (i / 5)) (seq 0 25) = true -> forall x y, x < 5 -> y < 5 -> P x y = true.
Proof.
  intros C x y Hx Hy. rewrite forallb_forall in C. specialize (C (5 * y + x)). rewrite in_seq in C. specialize (C ltac:(lia)).
  destruct (idx_split x y 0 Hx Hy ltac:(lia)) as (_ & _ & _ & D & _ & E). now rewrite D, E in C.
Qed.
Lemma rotc_offsets x y : x < 5 -> y < 5 ->
  (0 <= nth (5 * y + x) rotc 0)%Z /\ Z.to_nat (nth (5 * y + x) rotc 0 mod 64)%Z = rho_offset x y mod 64.
Proof.
  assert (C : forallb (fun i => (fun x y => (0 <=? nth (5 * y + x) rotc 0)%Z &&
     (Z.to_nat (nth (5 * y + x) rotc 0 mod 64)%Z =? rho_offset x y mod 64)) (i mod 5) (i / 5)) (seq 0 25) = true)
    by (vm_compute; reflexivity).
  intros Hx Hy. apply (lanes_check (fun x y => (0 <=? nth (5 * y + x) rotc 0)%Z &&
     (Z.to_nat (nth (5 * y + x) rotc 0 mod 64)%Z =? rho_offset x y mod 64))) with (x := x) (y := y) in C; trivial.
  rewrite andb_true_iff, Z.leb_le, Nat.eqb_eq in C. exact C.
Qed.
Lemma rho_bits s : state s -> lane_bits (rho_pure s) = k_rho (lane_bits s).
Proof.
  intros H. apply lane_mk; [now apply rho_state|]. intros x y z Hx Hy Hz.
  unfold rho_pure. rewrite nth_map25 by lia. destruct (rotc_offsets x y Hx Hy) as [P E].
  rewrite rotl_bits, E by assumption. rewrite rd_lane; trivial. apply Nat.mod_upper_bound. lia.
Qed.
Lemma pi_state s : state s -> state (pi_pure s).
Proof. intros H. apply map_state. intros. apply nth_word, H. Qed.
Lemma pi_offsets x y : x < 5 -> y < 5 -> nth (5 * y + x) pi_table 0 = 5 * x + (x + 3 * y) mod 5.
Proof.
  assert (C : forallb (fun i => (fun x y => nth (5 * y + x) pi_table 0 =? 5 * x + (x + 3 * y) mod 5) (i mod 5) (i / 5)) (seq 0 25) = true)
    by (vm_compute; reflexivity).
  intros Hx Hy. apply (lanes_check (fun x y => nth (5 * y + x) pi_table 0 =? 5 * x + (x + 3 * y) mod 5)) with (x := x) (y := y) in C; trivial.
  now apply Nat.eqb_eq.
Qed.
Lemma pi_bits s : state s -> lane_bits (pi_pure s) = k_pi (lane_bits s).
Proof.
  intros H. apply lane_mk; [now apply pi_state|]. intros x y z Hx Hy Hz.
  unfold pi_pure. rewrite nth_map25 by lia. rewrite pi_offsets by assumption.
  rewrite rd_lane; trivial. apply Nat.mod_upper_bound. lia.
Qed.
Lemma chi_state s : state s -> state (chi_pure s).
Proof. intros H. apply map_state. intros. apply wordn_lxor; [apply nth_word, H|]. apply wordn_land; [apply wordn_not|apply nth_word, H]. Qed.
Lemma chi_bits s : state s -> lane_bits (chi_pure s) = k_chi (lane_bits s).
Proof.
  intros H. apply lane_mk; [now apply chi_state|]. intros x y z Hx Hy Hz.
  destruct (idx_split x y z Hx Hy Hz) as (_ & _ & _ & D & _ & E).
  unfold chi_pure. rewrite nth_map25 by lia. rewrite D, E, Z.lxor_spec, Z.land_spec.
  rewrite op_not_testbit by (cbn; lia). rewrite !rd_lane; trivial; apply Nat.mod_upper_bound; lia.
Qed.
Lemma rc_table ir z : ir < 24 -> z < 64 -> Z.testbit (nth ir roundconstants 0%Z) (Z.of_nat z) = RC ir z.
Proof.
  assert (C : forallb (fun ir => forallb (fun z => Bool.eqb (Z.testbit (nth ir roundconstants 0%Z) (Z.of_nat z)) (RC ir z)) (seq 0 64)) (seq 0 24) = true)
    by (vm_compute; reflexivity).
  intros H1 H2. rewrite forallb_forall in C. specialize (C ir). rewrite in_seq, forallb_forall in C.
  specialize (C ltac:(lia) z). rewrite in_seq in C. apply Bool.eqb_prop, C. lia.
Qed.
Lemma rc_words ir : wordn 64 (nth ir roundconstants 0%Z).
Proof.
  apply nth_word. assert (C : forallb (fun x => (0 <=? x)%Z && (x <? 2 ^ 64)%Z) roundconstants = true) by reflexivity.
  apply Forall_forall. intros x Hx. rewrite forallb_forall in C. apply C in Hx. unfold wordn. change (Z.of_nat 64) with 64%Z. lia.
Qed.
Lemma iota_state s ir : state s -> state (iota_pure (nth ir roundconstants 0%Z) s).
Proof.
  intros H. apply map_state. intros i. destruct (i =? 0); [apply wordn_lxor; [|apply rc_words]|]; apply nth_word, H.
Qed.
Lemma iota_bits s ir : state s -> ir < 24 -> lane_bits (iota_pure (nth ir roundconstants 0%Z) s) = k_iota ir (lane_bits s).
Proof.
  intros H Hir. apply lane_mk; [now apply iota_state|]. intros x y z Hx Hy Hz.
  unfold iota_pure. rewrite nth_map25 by lia. rewrite rd_lane by assumption.
  destruct (Nat.eqb_spec (5 * y + x) 0) as [E|E].
  - assert (x = 0) by lia. assert (y = 0) by lia. subst x y. rewrite Z.lxor_spec, rc_table by assumption. reflexivity.
  - replace ((x =? 0) && (y =? 0)) with false; [now rewrite xorb_false_r|].
    symmetry. apply andb_false_iff. rewrite !Nat.eqb_neq. lia.
Qed.
Definition round_pure (ir : nat) (s : list Z) : list Z :=
  iota_pure (nth ir roundconstants 0%Z) (chi_pure (pi_pure (rho_pure (theta_pure s)))).
Lemma round_state ir s : state s -> state (round_pure ir s).
Proof. intros. now apply iota_state, chi_state, pi_state, rho_state, theta_state. Qed.
Lemma round_bits ir s : ir < 24 -> state s -> lane_bits (round_pure ir s) = k_round ir (lane_bits s).
Proof.
  intros Hir H. unfold round_pure, k_round.
  assert (H1 := theta_state s H). assert (H2 := rho_state _ H1). assert (H3 := pi_state _ H2). assert (H4 := chi_state _ H3).
  now rewrite iota_bits, chi_bits, pi_bits, rho_bits, theta_bits by assumption.
Qed.
Definition rounds_pure (n : nat) (s : list Z) : list Z := fold_left (fun s i => round_pure i s) (seq 0 n) s.
Lemma rounds_state n s : state s -> state (rounds_pure n s).
Proof.
  intros H. unfold rounds_pure. induction n; [exact H|]. rewrite seq_S, fold_left_app. now apply round_state.
Qed.
Definition kf_pure (s : list Z) : list Z := rounds_pure 24 s.
Lemma kf_state s : state s -> state (kf_pure s).
Proof. apply rounds_state. Qed.
#[local] Opaque theta_pure rho_pure pi_pure chi_pure iota_pure.
Lemma keccakf_Ok s : state s -> keccakf1600 s = Ok (kf_pure s).
Proof.
  intros H. unfold keccakf1600, keccak_rounds.
  match goal with |- for_range 0 24 ?f s = _ =>
    destruct (for_range_inv (fun i s' => s' = rounds_pure i s) f 0 24 s) as (s' & E & I) end.
  - reflexivity.
  - intros i s' Hi ->. assert (H0 := rounds_state i s H). assert (H1 := theta_state _ H0). assert (H2 := rho_state _ H1).
    assert (H3 := pi_state _ H2). assert (H4 := chi_state _ H3).
    rewrite theta_Ok by assumption. cbn [bind]. rewrite rho_Ok by assumption. cbn [bind].
    rewrite pi_Ok by assumption. cbn [bind]. rewrite chi_Ok by assumption. cbn [bind].
    rewrite (idx_Ok _ _ 0%Z) by (change (length roundconstants) with 24; lia). cbn [bind].
    rewrite iota_Ok by assumption. eexists. split; [reflexivity|].
    unfold rounds_pure. now rewrite seq_S, fold_left_app.
  - rewrite E. apply (f_equal Ok). exact I.
Qed.
Lemma kf_bits s : state s -> lane_bits (kf_pure s) = keccak_f (lane_bits s).
Proof.
  intros H. unfold kf_pure, rounds_pure, keccak_f.
  assert (G : forall n, n <= 24 -> lane_bits (fold_left (fun s i => round_pure i s) (seq 0 n) s)
     = fold_left (fun S ir => k_round ir S) (seq 0 n) (lane_bits s)).
  { induction n; intros Hn; [reflexivity|]. rewrite seq_S, !fold_left_app. cbn [fold_left].
    rewrite <- IHn by lia. apply round_bits; [lia|]. apply (rounds_state n s H). }
  now apply G.
Qed.
