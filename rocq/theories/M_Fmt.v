(** Models what the library prints: the Display, Debug and LowerHex instances and the println! calls of
    /repo/hacspec/src, /repo/abstract-integers/src and /repo/secret-integers/src; also the random constructors.
    Text is a list of character codes. Only the plain formats {}, {:?} and {:x} are modelled, not width, sign or # flags. *)
From Coq Require Import ZArith String Ascii List Bool.
From Verif Require Import Base M_Int M_Seq M_Bytes M_BigInt M_MathUtil M_Poly.
Import ListNotations.
Open Scope Z_scope.

(** A string literal as codes (the literals of machine_integers.rs:20,25, math_util.rs:31 and poly.rs:423,452-456) *)
Definition codes (s : string) : list Z := map (fun c => Z.of_nat (nat_of_ascii c)) (list_ascii_of_string s).
(** A digit; the std formatting of integers, called from secret-integers/src/lib.rs:296,302,308 *)
Definition digit (d : Z) : Z := if d <? 10 then 48 + d else 87 + d.
(** Digits of n >= 0 in base b, most significant first (std, called from secret-integers/src/lib.rs:296,302,308); the fuel is the
    number of binary digits, which is enough for any base. *)
Fixpoint digits (fuel : nat) (b n : Z) (acc : list Z) : list Z :=
  match fuel with
  | O => acc
  | S k => let acc := digit (n mod b) :: acc in if n <? b then acc else digits k b (n / b) acc
  end.
(** Numbers in base b (std, called from secret-integers/src/lib.rs:296,302,308) *)
Definition show_nat (b n : Z) : list Z := digits (S (Z.to_nat (Z.log2 n))) b n [].
(** Decimal output with sign: the std instances used by secret-integers/src/lib.rs:293-304, abstract_int.rs:115-128 and
    nat_mod.rs:7-20, which convert to the public type or to BigInt and print that; Display and Debug agree. *)
Definition show_dec (x : Z) : list Z := if x <? 0 then 45 :: show_nat 10 (- x) else show_nat 10 x.
(** LowerHex secret-integers/src/lib.rs:305-310: negative numbers in two's complement *)
Definition show_hex (t : ity) (x : Z) : list Z := show_nat 16 (x mod 2 ^ bits t).
(** std's Debug of a vector or slice, called from array.rs:498-503,518-524,625-627 and poly.rs:453,455 *)
Fixpoint show_items (l : list Z) : list Z :=
  match l with [] => [] | x :: r => codes ", " ++ show_dec x ++ show_items r end.
(** Debug of arrays array.rs:496-504,516-525,623-628 (secret ones are declassified first) *)
Definition show_list (l : list Z) : list Z :=
  91 :: (match l with [] => [] | x :: r => show_dec x ++ show_items r end) ++ [93].
(** Debug of a string literal: with quotes (none of the literals needs escapes); poly.rs:452,454,456, where Debug is the
    trait in scope (prelude.rs:28) *)
Definition show_str (s : string) : list Z := 34 :: codes s ++ [34].
(** Debug of poly! types poly.rs:449-458 *)
Definition show_poly (a : polyt) : list Z :=
  show_str "poly: " ++ show_list (p_poly a) ++ show_str ", irr: " ++ show_list (p_irr a) ++ show_str ", n: " ++ show_dec (p_n a).

(** Lines printed by sub_mod of unsigned types, machine_integers.rs:19-27 (secret ones call it after declassifying, 246-251);
    signed types print nothing (58-60,290-295). The second line is missing if the loop panics. *)
Definition sub_mod_prints (fuel : nat) (t : ity) (a b n : Z) : list (list Z) :=
  if sgn t then []
  else (codes "FOOOOOO " ++ show_dec a ++ codes ", " ++ show_dec b ++ codes ", " ++ show_dec n) ::
    match while_ fuel (fun x => x <? b) (fun x => op_add (pub t) x n) a with
    | Ok tmp => [show_dec tmp ++ codes " = " ++ show_dec b ++ codes " - " ++ show_dec (tmp - b)]
    | Panic _ => []
    end.
(** Lines printed by extended_euclid_invert math_util.rs:25-68: one, at line 31 *)
Definition invert_prints (x n : Z) : list (list Z) := [codes "n: " ++ show_dec n].
(** Lines printed by inv of poly! types poly.rs:422-425 *)
Definition polyt_inv_prints (a : polyt) : list (list Z) := [codes "inv " ++ show_poly a].

(** get_random_vec seq.rs:291-296, array.rs:542-546,618-620; the generator is given by its i-th answer (rand::random is not
    modelled) *)
Definition get_random_vec (g : nat -> Z) (l : nat) : list Z := map g (seq 0 l).
(** Seq::random seq.rs:299-303 *)
Definition seq_random (g : nat -> Z) (l : nat) : list Z := get_random_vec g l.
(** random of arrays array.rs:243-247: slice [..l], then copy_from_slice, which needs equal lengths *)
Definition arr_random (g : nat -> Z) (l : nat) : res (list Z) :=
  let v := get_random_vec g l in
  if (length v <? l)%nat then Panic PIndex
  else let s := firstn l v in if (length s =? l)%nat then Ok s else Panic PExplicit.
(** rng.gen_range(lo, hi) called at poly.rs:389: panics unless lo < hi, else some number of the range; how rand computes it from
    its random bits is not modelled, here the i-th answer is reduced into the range. *)
Definition gen_range (lo hi x : Z) : res Z := if lo <? hi then Ok (lo + x mod (hi - lo)) else Panic PExplicit.
(** random of poly! types poly.rs:383-398 *)
Definition poly_random (g : nat -> Z) (l : nat) (n : Z) (m : list (nat * Z)) : res polyt :=
  let* irr := fill_sparse (l + 1) m in
  let* p_vec := mapM (fun i => gen_range 0 n (g i)) (seq 0 l) in
  Ok (mkpoly (make_fixed_length p_vec l) irr n).

(** from_hex of signed types abstract_int.rs:343-351, the sign given as text ("+", "-", "" or anything else) *)
Definition bsfrom_hex_str (bits : Z) (sign s : list Z) : res Z :=
  match sign with
  | [43] => bsfrom_hex bits (Some true) s
  | [45] => bsfrom_hex bits (Some false) s
  | [] => bsfrom_hex bits None s
  | _ => Panic PExplicit
  end.
