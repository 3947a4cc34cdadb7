(** What printing gives away (C92) and which values the random constructors return (C91). *)
From Coq Require Import ZArith String Ascii List Bool Lia.
From Verif Require Import Base P_Base M_Int P_Int M_Seq P_Seq S_Int M_MathUtil M_Poly P_Poly T_Poly M_Fmt.
Import ListNotations.
Local Open Scope Z_scope.

(** Text of a natural number in base b: digits 0-9a-f, most significant first, no leading zero. *)
Definition digit_value (c d : Z) : Prop := (48 <= c <= 57 /\ d = c - 48) \/ (97 <= c <= 102 /\ d = c - 87).
Definition is_numeral (b : Z) (text : list Z) (n : Z) : Prop :=
  exists ds, Forall2 digit_value text ds /\ Forall (fun d => 0 <= d < b) ds /\ ds <> [] /\ (hd 0 ds = 0 -> length ds = 1%nat) /\
    n = fold_left (fun a d => b * a + d) ds 0.
(** Decimal numbers: an optional minus sign, never before 0. *)
Definition is_decimal (text : list Z) (x : Z) : Prop :=
  (0 <= x /\ is_numeral 10 text x) \/ (x < 0 /\ exists t, text = 45 :: t /\ is_numeral 10 t (- x)).

Lemma digit_ok d : 0 <= d < 16 -> digit_value (digit d) d.
Proof. intros H. unfold digit_value, digit. destruct (Z.ltb_spec d 10); lia. Qed.
Lemma digits_acc fuel b n acc : digits fuel b n acc = digits fuel b n [] ++ acc.
Proof.
  revert n acc; induction fuel as [|k IH]; intros n acc; [reflexivity|]. cbn [digits]. destruct (n <? b); [reflexivity|].
  rewrite (IH _ (_ :: acc)), (IH _ [_]), <- app_assoc. reflexivity.
Qed.
Lemma digits_numeral b fuel : 2 <= b <= 16 -> forall n, 0 <= n < 2 ^ Z.of_nat (S fuel) -> is_numeral b (digits (S fuel) b n []) n.
Proof.
  intros Hb. induction fuel as [|k IH]; intros n Hn.
  - assert (E : n <? b = true) by (change (2 ^ Z.of_nat 1) with 2 in Hn; apply Z.ltb_lt; lia). cbn [digits]. rewrite E.
    exists [n mod b]. rewrite Z.mod_small by (apply Z.ltb_lt in E; lia). apply Z.ltb_lt in E.
    split; [constructor; [apply digit_ok; lia|constructor]|]. split; [constructor; [lia|constructor]|]. split; [discriminate|]. split; [reflexivity|]. cbn. lia.
  - remember (S k) as j eqn:Ej. cbn [digits]. destruct (Z.ltb_spec n b) as [C|C].
    + exists [n mod b]. rewrite Z.mod_small by lia.
      split; [constructor; [apply digit_ok; lia|constructor]|]. split; [constructor; [lia|constructor]|]. split; [discriminate|]. split; [reflexivity|]. cbn. lia.
    + rewrite digits_acc.
      assert (Hd : 0 <= n / b < 2 ^ Z.of_nat j).
      { split; [apply Z.div_pos; lia|]. apply Z.div_lt_upper_bound; [lia|].
        replace (Z.of_nat (S j)) with (1 + Z.of_nat j) in Hn by lia. rewrite Z.pow_add_r in Hn by lia. nia. }
      subst j. destruct (IH _ Hd) as (ds & F & R & N & L & V). exists (ds ++ [n mod b]).
      pose proof (Z.mod_pos_bound n b ltac:(lia)) as M.
      split; [apply Forall2_app; [exact F|constructor; [apply digit_ok; lia|constructor]]|].
      split; [apply Forall_app; split; [exact R|constructor; [lia|constructor]]|]. split; [now destruct ds|]. split.
      * intros H0. exfalso. destruct ds as [|d ds]; [now apply N|]. cbn [app hd] in H0. cbn [hd] in L. specialize (L H0).
        destruct ds; [|discriminate L]. cbn in V. subst d. assert (n / b = 0) by lia. apply Z.div_small_iff in H; lia.
      * rewrite fold_left_app. cbn [fold_left]. rewrite <- V. apply Z.div_mod. lia.
Qed.
Lemma show_nat_numeral b n : 2 <= b <= 16 -> 0 <= n -> is_numeral b (show_nat b n) n.
Proof.
  intros Hb Hn. unfold show_nat. apply digits_numeral; [exact Hb|]. split; [exact Hn|].
  destruct (Z.eq_dec n 0) as [->|Z0]; [reflexivity|]. pose proof (Z.log2_spec n ltac:(lia)) as L. pose proof (Z.log2_nonneg n).
  rewrite Nat2Z.inj_succ, Z2Nat.id by lia. apply L.
Qed.
(** The numeral determines the number. *)
Lemma numeral_value b t n m : is_numeral b t n -> is_numeral b t m -> n = m.
Proof.
  intros (ds & F & _ & _ & _ & ->) (ds' & F' & _ & _ & _ & ->). f_equal.
  revert ds ds' F F'. induction t as [|c t IH]; intros ds ds' F F'; inversion F; inversion F'; [reflexivity|]. subst. f_equal.
  - unfold digit_value in *. lia.
  - now apply IH.
Qed.
Lemma numeral_chars b t n : is_numeral b t n -> b <= 10 -> Forall (fun c => 48 <= c <= 57) t.
Proof.
  intros (ds & F & R & _) Hb. revert R. induction F as [|c d t ds V F IH]; intros R; constructor; inversion_clear R; [unfold digit_value in V; lia|auto].
Qed.
Theorem C92_decimal : forall x, is_decimal (show_dec x) x.
Proof.
  intros x. unfold show_dec, is_decimal. destruct (Z.ltb_spec x 0) as [H|H].
  - right. split; [exact H|]. exists (show_nat 10 (- x)). split; [reflexivity|]. apply show_nat_numeral; lia.
  - left. split; [exact H|]. apply show_nat_numeral; lia.
Qed.
Lemma decimal_value t x y : is_decimal t x -> is_decimal t y -> x = y.
Proof.
  assert (M : forall s n, ~ is_numeral 10 (45 :: s) n).
  { intros s n H. apply numeral_chars in H; [|lia]. inversion_clear H. lia. }
  intros [[Hx X]|[Hx (t1 & E1 & X)]] [[Hy Y]|[Hy (t2 & E2 & Y)]].
  - now apply (numeral_value 10 t).
  - subst t. exfalso. now apply M in X.
  - subst t. exfalso. now apply M in Y.
  - rewrite E1 in E2. injection E2 as <-. pose proof (numeral_value _ _ _ _ X Y). lia.
Qed.
(** Characters of a decimal number *)
Definition dec_char (c : Z) : Prop := c = 45 \/ 48 <= c <= 57.
Lemma dec_chars x : Forall dec_char (show_dec x).
Proof.
  destruct (C92_decimal x) as [[_ H]|[_ (t & E & H)]].
  - apply numeral_chars in H; [|lia]. eapply Forall_impl; [|exact H]. unfold dec_char; lia.
  - rewrite E. apply numeral_chars in H; [|lia]. constructor; [now left|]. eapply Forall_impl; [|exact H]. unfold dec_char; lia.
Qed.
(** A text that starts with a number and then something else is read in one way. *)
Definition stops (r : list Z) : Prop := match r with [] => True | c :: _ => ~ dec_char c end.
Lemma read_number x y r s : stops r -> stops s -> show_dec x ++ r = show_dec y ++ s -> x = y /\ r = s.
Proof.
  intros Hr Hs E.
  assert (G : forall a b : list Z, Forall dec_char a -> Forall dec_char b -> a ++ r = b ++ s -> a = b /\ r = s).
  { induction a as [|c a IH]; intros [|d b] Fa Fb Q; cbn [app] in Q.
    - auto.
    - exfalso. subst r. inversion_clear Fb. now apply Hr.
    - exfalso. subst s. inversion_clear Fa. now apply Hs.
    - injection Q as -> Q. inversion_clear Fa. inversion_clear Fb. destruct (IH b) as [-> ->]; auto. }
  destruct (G _ _ (dec_chars x) (dec_chars y) E) as [Q ->]. split; [|reflexivity].
  apply (decimal_value (show_dec x)); [apply C92_decimal|rewrite Q; apply C92_decimal].
Qed.
Lemma read_items l : forall l' r s, show_items l ++ 93 :: r = show_items l' ++ 93 :: s -> l = l' /\ r = s.
Proof.
  assert (ST : forall l r, stops (show_items l ++ 93 :: r)) by (intros [|a u] t; cbn; unfold dec_char; lia).
  induction l as [|x l IH]; intros [|y l'] r s E.
  - split; [reflexivity|]. cbn in E. congruence.
  - cbn in E. discriminate E.
  - cbn in E. discriminate E.
  - cbn [show_items codes] in E. rewrite <- !app_assoc in E. apply app_inv_head in E. apply read_number in E as [-> E]; [|apply ST|apply ST].
    destruct (IH _ _ _ E) as [-> ->]. auto.
Qed.
Lemma read_list l l' r s : show_list l ++ r = show_list l' ++ s -> l = l' /\ r = s.
Proof.
  assert (ST : forall l r, stops (show_items l ++ 93 :: r)) by (intros [|a u] t; cbn; unfold dec_char; lia).
  assert (N : forall x t, exists c u, show_dec x ++ t = c :: u /\ c <> 93).
  { intros x t. pose proof (dec_chars x) as F. destruct (show_dec x) as [|c u] eqn:E.
    - exfalso. destruct (C92_decimal x) as [[_ (ds & G & _ & H & _)]|[_ (w & G & _)]]; rewrite E in G; [inversion G; now subst|discriminate G].
    - exists c, (u ++ t). split; [reflexivity|]. inversion_clear F. unfold dec_char in H. lia. }
  unfold show_list. intros E. cbn [app] in E. injection E as E. rewrite <- !app_assoc in E. cbn [app] in E.
  destruct l as [|x l], l' as [|y l']; cbn [app] in E.
  - split; congruence.
  - rewrite <- app_assoc in E. destruct (N y (show_items l' ++ 93 :: s)) as (c & u & Q & H). rewrite Q in E. congruence.
  - rewrite <- app_assoc in E. destruct (N x (show_items l ++ 93 :: r)) as (c & u & Q & H). rewrite Q in E. congruence.
  - rewrite <- !app_assoc in E. apply read_number in E as [-> E]; [|apply ST|apply ST]. apply read_items in E as [-> ->]. auto.
Qed.
(** Printing an integer, an array or a polynomial in the plain formats gives the value away completely. *)
Theorem C92_printed_integer : forall x y, show_dec x = show_dec y -> x = y.
Proof. intros x y E. apply (decimal_value (show_dec x)); [apply C92_decimal|rewrite E; apply C92_decimal]. Qed.
Theorem C92_printed_hex : forall w s c x y, 0 < w -> val w s x -> val w s y ->
  show_hex (mkity w s c) x = show_hex (mkity w s c) y -> x = y.
Proof.
  intros w s c x y Hw Hx Hy E. unfold show_hex in E. cbn [bits] in E.
  assert (Q : x mod 2 ^ w = y mod 2 ^ w).
  { apply (numeral_value 16 (show_nat 16 (x mod 2 ^ w))); [|rewrite E]; apply show_nat_numeral; try lia; apply Z.mod_pos_bound; lia. }
  unfold val, uval, sval in *. assert (P : 2 ^ w = 2 * 2 ^ (w - 1)) by (rewrite <- Z.pow_succ_r by lia; f_equal; lia).
  assert (Pw : 0 < 2 ^ w) by lia. pose proof (Z.div_mod x (2 ^ w) ltac:(lia)) as X. pose proof (Z.div_mod y (2 ^ w) ltac:(lia)) as Y.
  set (u := x / 2 ^ w) in *. set (v := y / 2 ^ w) in *. assert (u = v) by (destruct s; nia). nia.
Qed.
Theorem C92_printed_array : forall l l', show_list l = show_list l' -> l = l'.
Proof. intros l l' E. apply (read_list l l' [] []). now rewrite !app_nil_r. Qed.
Theorem C92_printed_poly : forall a b, show_poly a = show_poly b -> a = b.
Proof.
  intros [p i n] [p' i' n'] E. unfold show_poly in E. cbn [p_poly p_irr p_n] in E.
  apply app_inv_head in E. apply read_list in E as [-> E]. apply app_inv_head in E. apply read_list in E as [-> E].
  apply app_inv_head in E. apply C92_printed_integer in E. now subst.
Qed.
(** The text of each format, character by character. [lit] is the text of a literal, numbers are as in is_decimal and
    is_numeral. *)
Definition lit (s : string) : list Z := map (fun c => Z.of_nat (nat_of_ascii c)) (list_ascii_of_string s).
(** The texts ts, separated by ", ". *)
Fixpoint separated (ts : list (list Z)) : list Z :=
  match ts with [] => [] | [t] => t | t :: r => t ++ lit ", " ++ separated r end.
(** "[a, b, c]" *)
Definition is_array_text (text l : list Z) : Prop :=
  exists ts, Forall2 is_decimal ts l /\ text = lit "[" ++ separated ts ++ lit "]".
Theorem C92_hex_text : forall w s c x, 0 < w -> val w s x ->
  is_numeral 16 (show_hex (mkity w s c) x) (if x <? 0 then x + 2 ^ w else x).
Proof.
  intros w s c x Hw Hx. unfold show_hex. cbn [bits].
  replace (if x <? 0 then x + 2 ^ w else x) with (x mod 2 ^ w); [apply show_nat_numeral; [lia|apply Z.mod_pos_bound; lia]|].
  unfold val, uval, sval in Hx. assert (P : 2 ^ w = 2 * 2 ^ (w - 1)) by (rewrite <- Z.pow_succ_r by lia; f_equal; lia).
  destruct (Z.ltb_spec x 0).
  - symmetry. apply (Z.mod_unique_pos x (2 ^ w) (-1)); destruct s; lia.
  - apply Z.mod_small. destruct s; lia.
Qed.
Lemma show_items_text l t : separated (t :: map show_dec l) = t ++ show_items l.
Proof.
  revert t. induction l as [|x l IH]; intros t; [cbn; now rewrite app_nil_r|].
  change (separated (t :: map show_dec (x :: l))) with (t ++ lit ", " ++ separated (show_dec x :: map show_dec l)).
  now rewrite IH.
Qed.
Theorem C92_array_text : forall l, is_array_text (show_list l) l.
Proof.
  intros l. exists (map show_dec l). split.
  - induction l; constructor; [apply C92_decimal|assumption].
  - destruct l as [|x l]; [reflexivity|]. cbn [map]. rewrite show_items_text. reflexivity.
Qed.
(** The Debug output of a polynomial; its labels come with quotes. *)
Theorem C92_poly_text : forall a, exists tp ti tn, is_array_text tp (p_poly a) /\ is_array_text ti (p_irr a) /\ is_decimal tn (p_n a) /\
  show_poly a = 34 :: lit "poly: " ++ 34 :: tp ++ 34 :: lit ", irr: " ++ 34 :: ti ++ 34 :: lit ", n: " ++ 34 :: tn /\
  polyt_inv_prints a = [lit "inv " ++ show_poly a].
Proof.
  intros a. exists (show_list (p_poly a)), (show_list (p_irr a)), (show_dec (p_n a)).
  split; [apply C92_array_text|]. split; [apply C92_array_text|]. split; [apply C92_decimal|]. split; [|reflexivity].
  unfold show_poly, show_str. cbn [app]. rewrite <- !app_assoc. reflexivity.
Qed.
Lemma sub_loop_result fuel t n b a tmp : sec t = false ->
  while_ fuel (fun x => x <? b) (fun x => op_add t x n) a = Ok tmp ->
  exists k, 0 <= k /\ tmp = a + k * n /\ b <= tmp /\ (k = 0 \/ tmp - n < b).
Proof.
  intros Hs. revert a. induction fuel as [|f IH]; intros a E; [discriminate E|]. cbn [while_] in E.
  destruct (Z.ltb_spec a b) as [L|L].
  - unfold op_add in E at 1. rewrite Hs in E. destruct (chk t (a + n)) as [a'|] eqn:C; [|discriminate E]. cbn [bind] in E.
    apply chk_inv in C as [-> _]. apply IH in E as (k & K & T & B & O). exists (k + 1). lia.
  - injection E as <-. exists 0. lia.
Qed.
(** What sub_mod prints when it returns: the operands, then the first a + k*n that is at least b, b, and their difference,
    from which the result follows. *)
Theorem C92_sub_mod_text : forall fuel w c a b n r, sub_mod fuel (mkity w false c) a b n = Ok r ->
  exists ta tb tn ts td k, is_decimal ta a /\ is_decimal tb b /\ is_decimal tn n /\ is_decimal ts (a + k * n) /\
    is_decimal td (a + k * n - b) /\
    sub_mod_prints fuel (mkity w false c) a b n =
      [lit "FOOOOOO " ++ ta ++ lit ", " ++ tb ++ lit ", " ++ tn; ts ++ lit " = " ++ tb ++ lit " - " ++ td] /\
    0 <= k /\ b <= a + k * n /\ (k = 0 \/ a + (k - 1) * n < b) /\ r = Z.rem (a + k * n - b) n.
Proof.
  intros fuel w c a b n r E. unfold sub_mod in E. cbn [sgn] in E.
  destruct (while_ _ _ _ _) as [tmp|] eqn:W; [|discriminate E]. cbn [bind] in E.
  destruct (sub_loop_result fuel (pub (mkity w false c)) n b a tmp eq_refl W) as (k & K & T & B & O).
  exists (show_dec a), (show_dec b), (show_dec n), (show_dec (a + k * n)), (show_dec (a + k * n - b)), k.
  do 5 (split; [apply C92_decimal|]). split.
  { unfold sub_mod_prints. cbn [sgn]. rewrite W, T. reflexivity. }
  split; [exact K|]. split; [lia|]. split; [destruct O; [now left|right; lia]|].
  unfold op_sub in E. cbn [sec pub] in E. destruct (chk _ (tmp - b)) as [d|] eqn:C; [|discriminate E]. cbn [bind] in E.
  apply chk_inv in C as [-> _]. unfold op_rem in E. destruct (n =? 0); [discriminate E|]. destruct (in_tyb _ _); [|discriminate E].
  injection E as <-. now rewrite T.
Qed.
(** sub_mod of the unsigned types prints its operands, also when they are secret: whatever the outcome, the printed
    lines determine them. *)
Theorem C92_sub_mod_printed : forall fuel w c a b n fuel' a' b' n',
  sub_mod_prints fuel (mkity w false c) a b n = sub_mod_prints fuel' (mkity w false c) a' b' n' -> a = a' /\ b = b' /\ n = n'.
Proof.
  intros fuel w c a b n fuel' a' b' n' E. unfold sub_mod_prints in E. cbn [sgn] in E.
  apply (f_equal (hd [])) in E. cbn [hd] in E. apply app_inv_head in E.
  apply read_number in E as [-> E]; [|cbn; unfold dec_char; lia|cbn; unfold dec_char; lia]. apply app_inv_head in E.
  apply read_number in E as [-> E]; [|cbn; unfold dec_char; lia|cbn; unfold dec_char; lia]. apply app_inv_head in E.
  apply C92_printed_integer in E. auto.
Qed.
Theorem C92_invert_printed : forall x n x' n', invert_prints x n = invert_prints x' n' <-> n = n'.
Proof.
  intros x n x' n'. split; [|now intros ->]. intros E. apply (f_equal (hd [])) in E. cbn [hd invert_prints] in E. apply app_inv_head in E.
  now apply C92_printed_integer.
Qed.
Theorem C92_poly_inv_printed : forall a b, polyt_inv_prints a = polyt_inv_prints b -> a = b.
Proof. intros a b E. apply (f_equal (hd [])) in E. cbn [hd polyt_inv_prints] in E. apply app_inv_head in E. now apply C92_printed_poly. Qed.
(** The claim that operations on secret integers print nothing that depends on them is false. *)
Theorem C92_silent_refuted : exists a b, uval 8 a /\ uval 8 b /\
  sub_mod_prints 300 U8 a 1 251 <> sub_mod_prints 300 U8 b 1 251.
Proof. exists 3, 4. unfold uval. split; [lia|]. split; [lia|]. intros E. apply C92_sub_mod_printed in E. lia. Qed.
Example C92_ex : show_dec (-120) = codes "-120" /\ show_hex i8 (-1) = codes "ff" /\ show_list [1; 20; 0] = codes "[1, 20, 0]" /\
  sub_mod_prints 300 U8 3 5 7 = [codes "FOOOOOO 3, 5, 7"; codes "10 = 5 - 5"] /\
  sub_mod_prints 300 U8 0 254 200 = [codes "FOOOOOO 0, 254, 200"].
Proof. split; [|split; [|split; [|split]]]; vm_compute; reflexivity. Qed.
Print Assumptions C92_decimal.
Print Assumptions C92_hex_text.
Print Assumptions C92_array_text.
Print Assumptions C92_poly_text.
Print Assumptions C92_sub_mod_text.
Print Assumptions C92_printed_hex.
Print Assumptions C92_printed_array.
Print Assumptions C92_printed_poly.
Print Assumptions C92_sub_mod_printed.
Print Assumptions C92_invert_printed.
Print Assumptions C92_poly_inv_printed.
Print Assumptions C92_silent_refuted.

(** *** C91: random values *)
(** Arrays and sequences: l values of the generator, whatever they are; every list of values can come out. *)
Theorem C91_random_array : forall (P : Z -> Prop) g l, (forall i, P (g i)) ->
  exists r, arr_random g l = Ok r /\ seq_random g l = r /\ length r = l /\ Forall P r.
Proof.
  intros P g l H. exists (map g (seq 0 l)). unfold arr_random, seq_random, get_random_vec. cbv zeta.
  assert (L : length (map g (seq 0 l)) = l) by now rewrite map_length, seq_length.
  rewrite L, Nat.ltb_irrefl, firstn_all2, L, Nat.eqb_refl by lia. split; [reflexivity|]. split; [reflexivity|]. split; [reflexivity|].
  apply Forall_forall. intros x Hx. apply in_map_iff in Hx as (i & <- & _). apply H.
Qed.
Theorem C91_random_array_any : forall (P : Z -> Prop) v d, Forall P v -> P d ->
  exists g, (forall i, P (g i)) /\ arr_random g (length v) = Ok v /\ seq_random g (length v) = v.
Proof.
  intros P v d F Hd. exists (fun i => nth i v d). split.
  - intros i. destruct (Nat.lt_ge_cases i (length v)) as [H|H]; [|now rewrite nth_overflow]. rewrite Forall_forall in F. apply F. now apply nth_In.
  - assert (E : map (fun i => nth i v d) (seq 0 (length v)) = v).
    { apply (nth_ext_eq _ _ d); rewrite map_length, seq_length; [reflexivity|]. intros i Hi. now rewrite nth_map_seq. }
    unfold arr_random, seq_random, get_random_vec. rewrite E. now rewrite Nat.ltb_irrefl, firstn_all, Nat.eqb_refl.
Qed.

Lemma mapM_gen n (g : nat -> Z) l : 0 < n -> mapM (fun i => gen_range 0 n (g i)) l = Ok (map (fun i => g i mod n) l).
Proof.
  intros Hn. induction l as [|i l IH]; [reflexivity|]. cbn [mapM map]. unfold gen_range at 1.
  destruct (Z.ltb_spec 0 n); [|lia]. cbn [bind]. rewrite IH. cbn [bind]. now rewrite Z.sub_0_r.
Qed.

Lemma fixed_same v l : length v = l -> make_fixed_length v l = v.
Proof. intros <-. induction v as [|a v IH]; [reflexivity|]. cbn [length make_fixed_length]. now rewrite IH. Qed.
(** poly! types: with a positive modulus, exactly the polynomials of the type are returned; otherwise the call panics. *)
Theorem C91_random_poly : forall g l n m irr, fill_sparse (l + 1) m = Ok irr -> 0 < n ->
  exists r, poly_random g l n m = Ok r /\ poly_value l n irr r.
Proof.
  intros g l n m irr E Hn. unfold poly_random. rewrite E. cbn [bind]. rewrite mapM_gen by exact Hn. cbn [bind].
  eexists. split; [reflexivity|]. assert (L : length (map (fun i => g i mod n) (seq 0 l)) = l) by now rewrite map_length, seq_length.
  rewrite fixed_same by exact L. split; [reflexivity|]. split; [reflexivity|]. split; [exact L|]. cbn [p_poly].
  intros x Hx. apply in_map_iff in Hx as (i & <- & _). now apply Z.mod_pos_bound.
Qed.
Theorem C91_random_poly_any : forall l n m irr a, fill_sparse (l + 1) m = Ok irr -> 0 < n -> poly_value l n irr a ->
  exists g, poly_random g l n m = Ok a.
Proof.
  intros l n m irr [p i k] E Hn (Ei & En & L & Z). cbn [p_poly p_irr p_n] in *. subst i k. exists (fun i => nth i p 0).
  unfold poly_random. rewrite E. cbn [bind]. rewrite mapM_gen by exact Hn. cbn [bind].
  assert (Q : map (fun i => nth i p 0 mod n) (seq 0 l) = p).
  { apply (nth_ext_eq _ _ 0); rewrite map_length, seq_length; [auto|]. intros i Hi. rewrite nth_map_seq by exact Hi.
    apply Z.mod_small. apply Z. apply nth_In. lia. }
  rewrite Q, fixed_same by exact L. reflexivity.
Qed.
Theorem C91_random_poly_panics : forall g l n m irr, fill_sparse (l + 1) m = Ok irr -> n <= 0 ->
  (l <> 0%nat <-> panics (poly_random g l n m)).
Proof.
  intros g l n m irr E Hn. unfold poly_random, panics. rewrite E. cbn [bind]. destruct l as [|l].
  - split; [congruence|]. intros (e & H). discriminate H.
  - split; [|discriminate]. intros _. cbn [seq mapM]. unfold gen_range at 1. destruct (Z.ltb_spec 0 n); [lia|]. cbn [bind]. now eexists.
Qed.
Example C91_ex : arr_random (fun i => Z.of_nat (7 * i)) 3 = Ok [0; 7; 14] /\
  poly_random (fun i => Z.of_nat (7 * i)) 3 5 [(0%nat, 1); (3%nat, 1)] = Ok (mkpoly [0; 2; 4] [1; 0; 0; 1] 5) /\
  poly_random (fun i => Z.of_nat (7 * i)) 3 0 [(0%nat, 1); (3%nat, 1)] = Panic PExplicit.
Proof. split; [|split]; reflexivity. Qed.
Print Assumptions C91_random_array.
Print Assumptions C91_random_array_any.
Print Assumptions C91_random_poly.
Print Assumptions C91_random_poly_any.
Print Assumptions C91_random_poly_panics.
