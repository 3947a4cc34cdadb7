(** The index arithmetic of sequences again, with usize arithmetic on [w]-bit numbers (32 or 64)
    instead of unbounded naturals, in the debug profile (overflow panics) and, for the number
    of chunks, in the release profile (overflow wraps).
    Models /repo/hacspec/src/traits.rs:28-65, seq.rs:49-109, array.rs:64-131,317-384. *)
From Coq Require Import ZArith List Bool Arith.
From Verif Require Import Base M_Int M_Seq M_Index.
Import ListNotations.
Local Open Scope Z_scope.

(** usize [+] in the debug profile (Rust language; e.g. traits.rs:35) *)
Definition usz_add (w a b : Z) : res Z := if a + b <? 2 ^ w then Ok (a + b) else Panic POverflow.
(** usize [-] in the debug profile (Rust language; e.g. seq.rs:55) *)
Definition usz_sub (a b : Z) : res Z := if b <=? a then Ok (a - b) else Panic POverflow.
(** usize [*] in the debug profile (Rust language; e.g. seq.rs:84) *)
Definition usz_mul (w a b : Z) : res Z := if a * b <? 2 ^ w then Ok (a * b) else Panic POverflow.
(** usize [/] (Rust language; e.g. seq.rs:75) *)
Definition usz_div (a b : Z) : res Z := if b =? 0 then Panic PDivZero else Ok (a / b).
(** len() as a number, seq.rs:44-46 *)
Definition zlen {A} (l : list A) : Z := Z.of_nat (length l).

Section Elem.
Context {A : Type} (d : A) (w : Z).

(** Seq::new seq.rs:36-40; simplified: elements are taken to be one byte wide, so that exactly the
    lengths of at least half the address space are refused ("capacity overflow") *)
Definition alloc_w (l : Z) : res (list A) :=
  if l <? 2 ^ (w - 1) then Ok (repeat d (Z.to_nat l)) else Panic PExplicit.
(** SeqTrait::update_sub traits.rs:28-41 *)
Definition update_sub_w (self : list A) (start_out : Z) (v : list A) (start_in len : Z) : res (list A) :=
  let* a := usz_add w start_out len in
  let* _ := assert_ (a <=? zlen self) in
  let* b := usz_add w start_in len in
  let* _ := assert_ (b <=? zlen v) in
  for_range 0 (Z.to_nat len) (fun i s =>
    let* p := usz_add w start_in (Z.of_nat i) in
    let* x := index_usize v p in
    let* q := usz_add w start_out (Z.of_nat i) in
    set_usize s q x) self.
(** SeqTrait::update traits.rs:56-59 *)
Definition update_w (self : list A) (start : Z) (v : list A) : res (list A) :=
  update_sub_w self start v 0 (zlen v).
(** Seq::from_sub seq.rs:59-63; Seq::sub seq.rs:49-51, array sub array.rs:77-79,330-332 *)
Definition from_sub_w (input : list A) (start len : Z) : res (list A) :=
  let* a := alloc_w len in update_sub_w a 0 input start len.
(** Seq::from_sub_range seq.rs:66-68; subr seq.rs:54-56, array.rs:82-84,335-337 *)
Definition from_sub_range_w (input : list A) (a b : Z) : res (list A) :=
  let* l := usz_sub b a in from_sub_w input a l.
(** num_chunks seq.rs:71-76, array.rs:87-92,340-345 *)
Definition num_chunks_w (self : list A) (chunk_size : Z) : res Z :=
  let* a := usz_add w (zlen self) chunk_size in
  let* b := usz_sub a 1 in
  usz_div b chunk_size.
(** num_chunks in the release profile, seq.rs:71-76, array.rs:87-92,340-345 *)
Definition num_chunks_r (self : list A) (chunk_size : Z) : res Z :=
  usz_div (((zlen self + chunk_size) mod 2 ^ w - 1) mod 2 ^ w) chunk_size.
(** length part of get_chunk/set_chunk seq.rs:84-89,101-106; get_chunk_len array.rs:95-106,348-359 *)
Definition get_chunk_len_w (self : list A) (chunk_size chunk_number : Z) : res Z :=
  let* idx_start := usz_mul w chunk_size chunk_number in
  let* e := usz_add w idx_start chunk_size in
  if zlen self <? e then usz_sub (zlen self) idx_start else Ok chunk_size.
(** get_chunk seq.rs:79-92, array.rs:109-118,362-371 *)
Definition get_chunk_w (self : list A) (chunk_size chunk_number : Z) : res (Z * list A) :=
  let* idx_start := usz_mul w chunk_size chunk_number in
  let* len := get_chunk_len_w self chunk_size chunk_number in
  let* out := from_sub_w self idx_start len in
  Ok (len, out).
(** set_chunk seq.rs:95-109, array.rs:121-131,374-384 *)
Definition set_chunk_w (self : list A) (chunk_size chunk_number : Z) (input : list A) : res (list A) :=
  let* idx_start := usz_mul w chunk_size chunk_number in
  let* len := get_chunk_len_w self chunk_size chunk_number in
  let* _ := assert_ (zlen input =? len) in
  update_sub_w self idx_start input 0 len.
End Elem.
