(** Independent specification: the cipher of FIPS 197 for a given key schedule, and a key schedule with
    two parameters where FIPS 197 has one. Nothing here is taken from the M_*.v files. *)
From Coq Require Import ZArith List Bool.
From Verif Require Import S_AES.
Import ListNotations.
Open Scope nat_scope.

(** FIPS 197, 5.1 with the words w of the key schedule. *)
Definition cipher (nr : nat) (w : list (list Z)) (input : list Z) : list Z :=
  let s := fold_left (fun s i => AddRoundKey (MixColumns (ShiftRows (SubBytes s))) (round_key w i))
                     (seq 1 (nr - 1)) (AddRoundKey input (round_key w 0)) in
  AddRoundKey (ShiftRows (SubBytes s)) (round_key w nr).
(** FIPS 197, 5.2, for a key of ws words, the words chosen for RotWord, SubWord and Rcon as for a key of
    nk words; the standard has ws = nk. *)
Fixpoint sched (ws nk : nat) (key : list Z) (n : nat) : list (list Z) :=
  match n with
  | O => []
  | S i => let w := sched ws nk key i in
      w ++ [if i <? ws then word_n key i
            else next_word nk i (nth (i - ws) w []) (nth (i - 1) w [])]
  end.
