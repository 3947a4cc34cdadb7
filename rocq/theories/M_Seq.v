(** Sequences and fixed-length arrays.
    Models /repo/hacspec/src/traits.rs (SeqTrait), /repo/hacspec/src/seq.rs and
    /repo/hacspec/src/array.rs. A sequence, array, Vec or slice is a [list]; an
    array of declared length l is a list of length l and its associated functions
    take l as a parameter.  [d] is the element type's Default value.
    usize values are [nat], which is a simplification: sums and products of indices that
    would exceed 2^64 panic in the code and, being larger than any length, also panic here
    (C105). The exception is num_chunks with a chunk size near 2^64; see M_Usize.v. *)
From Coq Require Import ZArith List Bool Arith.
From Verif Require Import Base M_Int.
Import ListNotations.

Local Open Scope nat_scope.

Section Elem.
Context {A : Type} (d : A).

(** Seq::new seq.rs:36-40; array new array.rs:32-34,286-288 *)
Definition seq_new (l : nat) : list A := repeat d l.

(** SeqTrait::update_sub traits.rs:28-41 *)
Definition update_sub (self : list A) (start_out : nat) (v : list A) (start_in len : nat) : res (list A) :=
  let* _ := assert_ (start_out + len <=? length self)%nat in
  let* _ := assert_ (start_in + len <=? length v)%nat in
  for_range 0 len (fun i s => let* x := idx v (start_in + i) in upd s (start_out + i) x) self.
(** SeqTrait::update traits.rs:56-59 *)
Definition update (self : list A) (start : nat) (v : list A) : res (list A) :=
  update_sub self start v 0 (length v).
(** SeqTrait::update_start traits.rs:62-65 *)
Definition update_start (self : list A) (v : list A) : res (list A) :=
  update_sub self 0 v 0 (length v).

(** Seq::from_sub seq.rs:59-63 *)
Definition from_sub (input : list A) (start len : nat) : res (list A) :=
  update_sub (seq_new len) 0 input start len.
(** Seq::from_sub_range seq.rs:66-68, [r = a..b] *)
Definition from_sub_range (input : list A) (a b : nat) : res (list A) :=
  let* l := usub b a in from_sub input a l.
(** Seq::sub seq.rs:49-51; array sub array.rs:77-79,330-332 *)
Definition sub_ (self : list A) (start_out len : nat) : res (list A) := from_sub self start_out len.
(** Seq::subr seq.rs:54-56; array subr array.rs:82-84,335-337 *)
Definition subr (self : list A) (a b : nat) : res (list A) :=
  let* l := usub b a in sub_ self a l.

(** num_chunks seq.rs:71-76, array.rs:87-92,340-345; simplified: the sum is not limited to 2^64 (M_Usize.v) *)
Definition num_chunks (self : list A) (chunk_size : nat) : res nat :=
  let* x := usub (length self + chunk_size) 1 in udiv x chunk_size.
(** length part of get_chunk/set_chunk seq.rs:84-89,101-106; get_chunk_len array.rs:95-106,348-359 *)
Definition get_chunk_len (self : list A) (chunk_size chunk_number : nat) : res nat :=
  let idx_start := chunk_size * chunk_number in
  if (length self <? idx_start + chunk_size)%nat then usub (length self) idx_start else Ok chunk_size.
(** get_chunk seq.rs:79-92, array.rs:109-118,362-371 *)
Definition get_chunk (self : list A) (chunk_size chunk_number : nat) : res (nat * list A) :=
  let idx_start := chunk_size * chunk_number in
  let* len := get_chunk_len self chunk_size chunk_number in
  let* out := sub_ self idx_start len in
  Ok (len, out).
(** set_chunk seq.rs:95-109, array.rs:121-131,374-384 *)
Definition set_chunk (self : list A) (chunk_size chunk_number : nat) (input : list A) : res (list A) :=
  let idx_start := chunk_size * chunk_number in
  let* len := get_chunk_len self chunk_size chunk_number in
  let* _ := assert_ (length input =? len)%nat in
  update_sub self idx_start input 0 len.

(** Seq::from_vec / from_slice seq.rs:199-211 (clones) *)
Definition seq_from_vec (x : list A) : list A := x.
(** Copy loop [for i in 0..x.len() { out[i] = x[i] }]: seq.rs:215-217, array.rs:50-52,222-224,234-236 *)
Definition copy_into (out x : list A) : res (list A) :=
  for_range 0 (length x) (fun i s => let* e := idx x i in upd s i e) out.
(** Seq::from_seq seq.rs:213-220 *)
Definition seq_from_seq (x : list A) : res (list A) := copy_into (seq_new (length x)) x.

(** array from_slice array.rs:47-54,299-306 *)
Definition arr_from_slice (l : nat) (v : list A) : res (list A) :=
  let* _ := assert_ (length v <=? l)%nat in copy_into (seq_new l) v.
(** array from_vec array.rs:219-226,476-483 *)
Definition arr_from_vec (l : nat) (x : list A) : res (list A) :=
  let* _ := assert_ (length x =? l)%nat in copy_into (seq_new l) x.
(** array from_seq array.rs:231-238,488-495 *)
Definition arr_from_seq (l : nat) (x : list A) : res (list A) :=
  let* _ := assert_ (length x =? l)%nat in copy_into (seq_new l) x.
(** array from_sub array.rs:64-69,317-322 *)
Definition arr_from_sub (l : nat) (input : list A) (start len : nat) : res (list A) :=
  let* _ := assert_ (len =? l)%nat in update_sub (seq_new l) 0 input start len.
(** array from_sub_range array.rs:72-74,325-327 *)
Definition arr_from_sub_range (l : nat) (input : list A) (a b : nat) : res (list A) :=
  let* n := usub b a in arr_from_sub l input a n.
(** array create array.rs:142-145,395-398 *)
Definition arr_create (l x : nat) : res (list A) :=
  let* _ := assert_ (x =? l)%nat in Ok (seq_new l).
End Elem.

(** std slice::chunks(k), k > 0: used by array.rs:652.. and secret-integers/src/lib.rs:202,228.
    Fuel [length l] always suffices. *)
Fixpoint chunks_aux {A} (fuel k : nat) (l : list A) : list (list A) :=
  match l with
  | [] => []
  | _ => match fuel with
         | O => []
         | S f => firstn k l :: chunks_aux f k (skipn k l)
         end
  end.
(** std slice::chunks(k), see chunks_aux: array.rs:652, secret-integers/src/lib.rs:202,228 *)
Definition chunks {A} (k : nat) (l : list A) : list (list A) := chunks_aux (length l) k l.

(** declassify_eq array.rs:529-538, PartialEq for Seq<U8> seq.rs:253-265,
    PartialEq for public arrays array.rs:629-634: [==] on vectors. *)
Fixpoint list_eqb (x y : list Z) : bool :=
  match x, y with
  | [], [] => true
  | a :: s, b :: t => (a =? b)%Z && list_eqb s t
  | _, _ => false
  end.

(** Ord for public arrays vec_integers.rs:16-21: lexicographic slice comparison. *)
Fixpoint list_cmp (x y : list Z) : comparison :=
  match x, y with
  | [], [] => Eq
  | [], _ => Lt
  | _, [] => Gt
  | a :: s, b :: t => match Z.compare a b with Eq => list_cmp s t | c => c end
  end.

(** both_arrays! array.rs:880-900: from_public / from_secret_declassify;
    from_public_slice / from_public_array array.rs:578-610, seq.rs:312-319. *)
Definition from_public (l : nat) (v : list Z) : res (list Z) :=
  arr_from_vec 0%Z l (map classify v).
(** from_secret_declassify array.rs:893-900 *)
Definition from_secret_declassify (l : nat) (v : list Z) : res (list Z) :=
  arr_from_vec 0%Z l (map declassify v).
(** array from_public_slice, from_public_array array.rs:578-610 *)
Definition from_public_slice (l : nat) (v : list Z) : res (list Z) :=
  let* _ := assert_ (length v =? l)%nat in arr_from_vec 0%Z l (map classify v).
(** Seq::from_public_slice seq.rs:312-319 *)
Definition seq_from_public_slice (v : list Z) : list Z := seq_from_vec (map classify v).
