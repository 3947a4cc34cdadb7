(** Indexing of sequences and arrays by u8, u32, i32, usize and ranges.
    Models /repo/hacspec/src/seq.rs:129-195 and /repo/hacspec/src/array.rs:157-216,411-470.
    [w] is the width of usize on the target (32 or 64). *)
From Coq Require Import ZArith List Bool Arith.
From Verif Require Import Base M_Int M_Seq M_Bytes.
Import ListNotations.
Local Open Scope Z_scope.

(** the usize type of a target with [w]-bit addresses (Rust language; the `usize` of seq.rs:133) *)
Definition usize_t (w : Z) : ity := mkity w false false.

(** The built-in `v[j]` of a Vec or array at a usize [j], seq.rs:178, array.rs:161,415. The
    comparison comes first only so that [j] is never turned into a huge [nat]. *)
Definition builtin_index {A} (l : list A) (j : Z) : res A :=
  if j <? Z.of_nat (length l) then idx l (Z.to_nat j) else Panic PIndex.
(** The built-in `v[j] = x`, seq.rs:185, array.rs:167,421; simplified: the &mut returned by
    index_mut is modelled by the assignment made through it *)
Definition builtin_set {A} (l : list A) (j : Z) (x : A) : res (list A) :=
  if j <? Z.of_nat (length l) then upd l (Z.to_nat j) x else Panic PIndex.

(** Index<usize> seq.rs:174-180, array.rs:157-163,411-417 *)
Definition index_usize {A} (l : list A) (i : Z) : res A := builtin_index l i.
(** IndexMut<usize> seq.rs:182-187, array.rs:164-169,418-423 *)
Definition set_usize {A} (l : list A) (i : Z) (x : A) : res (list A) := builtin_set l i x.
(** Index<u8> seq.rs:129-135, array.rs:171-177,425-431: `self.b[i as usize]` *)
Definition index_u8 {A} (w : Z) (l : list A) (i : Z) : res A := builtin_index l (cast (usize_t w) i).
(** IndexMut<u8> seq.rs:137-142, array.rs:178-183,432-437 *)
Definition set_u8 {A} (w : Z) (l : list A) (i : Z) (x : A) : res (list A) := builtin_set l (cast (usize_t w) i) x.
(** Index<u32> seq.rs:144-150, array.rs:184-190,438-444 *)
Definition index_u32 {A} (w : Z) (l : list A) (i : Z) : res A := builtin_index l (cast (usize_t w) i).
(** IndexMut<u32> seq.rs:152-157, array.rs:191-196,445-450 *)
Definition set_u32 {A} (w : Z) (l : list A) (i : Z) (x : A) : res (list A) := builtin_set l (cast (usize_t w) i) x.
(** Index<i32> seq.rs:159-165, array.rs:197-203,451-457: a negative index is sign-extended by `as usize` *)
Definition index_i32 {A} (w : Z) (l : list A) (i : Z) : res A := builtin_index l (cast (usize_t w) i).
(** IndexMut<i32> seq.rs:167-172, array.rs:204-209,458-463 *)
Definition set_i32 {A} (w : Z) (l : list A) (i : Z) (x : A) : res (list A) := builtin_set l (cast (usize_t w) i) x.

(** Index<Range<usize>> seq.rs:189-195, `&self.b[a..b]`: panics if a > b or b > len *)
Definition index_range {A} (l : list A) (a b : Z) : res (list A) :=
  if a <=? b then
    if b <=? Z.of_nat (length l) then Ok (firstn (Z.to_nat (b - a)) (skipn (Z.to_nat a) l)) else Panic PIndex
  else Panic PIndex.
(** Index<RangeFull> array.rs:210-216,464-470 *)
Definition index_full {A} (l : list A) : res (list A) := index_range l 0 (Z.of_nat (length l)).

(** SeqTrait::create / len / iter of sequences, seq.rs:115-126 and the inherent len seq.rs:44-46;
    [iter] is the list itself *)
Definition seq_create {A} (d : A) (l : nat) : list A := seq_new d l.
(** len seq.rs:44-46,120-122 *)
Definition seq_len {A} (l : list A) : nat := length l.

(** Seq<U8>::from_string seq.rs:243-250, PublicSeq<u8>::from_string seq.rs:279-286; simplified: the
    String is its list of bytes *)
Definition seq_from_string (s : list Z) : res (list Z) :=
  let* b := hex_string_to_bytes s in Ok (seq_from_vec (map classify b)).
