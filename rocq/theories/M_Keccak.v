(** SHA-3 and SHAKE: /repo/spec-examples/src/fips202/fips202.rs.
    A State is a list of 25 U64, byte sequences are lists; array indices are nat. *)
From Coq Require Import ZArith List Bool.
From Verif Require Import Base M_Int M_Seq.
Import ListNotations.
Open Scope Z_scope.

(** ROUNDS fips202.rs:4 *)
Definition keccak_rounds : nat := 24.
(** The rates, fips202.rs:5-10 *)
Definition sha3224_rate : nat := 144.
(** fips202.rs:6 *)
Definition sha3256_rate : nat := 136.
(** fips202.rs:7 *)
Definition sha3384_rate : nat := 104.
(** fips202.rs:8 *)
Definition sha3512_rate : nat := 72.
(** fips202.rs:9 *)
Definition shake128_rate : nat := 168.
(** fips202.rs:10 *)
Definition shake256_rate : nat := 136.
(** ROUNDCONSTANTS fips202.rs:19-44 *)
Definition roundconstants : list Z :=
  [0x1; 0x8082; 0x800000000000808a; 0x8000000080008000; 0x808b;
   0x80000001; 0x8000000080008081; 0x8000000000008009; 0x8a; 0x88;
   0x80008009; 0x8000000a; 0x8000808b; 0x800000000000008b; 0x8000000000008089;
   0x8000000000008003; 0x8000000000008002; 0x8000000000000080; 0x800a; 0x800000008000000a;
   0x8000000080008081; 0x8000000000008080; 0x80000001; 0x8000000080008008].
(** ROTC fips202.rs:46-48 *)
Definition rotc : list Z :=
  [0; 1; 62; 28; 27; 36; 44; 6; 55; 20; 3; 10; 43; 25; 39; 41; 45; 15; 21; 8; 18; 2; 61; 56; 14].
(** PI fips202.rs:50-52 *)
Definition pi_table : list nat :=
  [0; 6; 12; 18; 24; 3; 9; 10; 16; 22; 1; 7; 13; 19; 20; 4; 5; 11; 17; 23; 2; 8; 14; 15; 21]%nat.

(** theta fips202.rs:54-67 *)
Definition theta (s : list Z) : res (list Z) :=
  let* b := for_range 0 5 (fun i b =>
    let* s0 := idx s i in
    let* s1 := idx s (i + 5) in
    let* s2 := idx s (i + 10) in
    let* s3 := idx s (i + 15) in
    let* s4 := idx s (i + 20) in
    upd b i (op_xor (op_xor (op_xor (op_xor s0 s1) s2) s3) s4)) (seq_new 0 5) in
  for_range 0 5 (fun i s =>
    let* u := idx b ((i + 1) mod 5)%nat in
    let* v := idx b ((i + 4) mod 5)%nat in
    let t := op_xor v (rotate_left U64 u 1) in
    for_range 0 5 (fun j s =>
      let* x := idx s (5 * j + i) in upd s (5 * j + i) (op_xor x t)) s) s.
(** rho fips202.rs:69-75 *)
Definition rho (s : list Z) : res (list Z) :=
  for_range 0 25 (fun i s =>
    let* u := idx s i in
    let* n := idx rotc i in
    upd s i (rotate_left U64 u n)) s.
(** pi fips202.rs:77-83 *)
Definition pi (s : list Z) : res (list Z) :=
  for_range 0 25 (fun i v =>
    let* k := idx pi_table i in
    let* x := idx s k in upd v i x) (seq_new 0 25).
(** chi fips202.rs:85-97; the row buffer b is carried from row to row *)
Definition chi (s : list Z) : res (list Z) :=
  let* ' (s, _) := for_range 0 5 (fun i '(s, b) =>
    let* b := for_range 0 5 (fun j b => let* x := idx s (5 * i + j) in upd b j x) b in
    let* s := for_range 0 5 (fun j s =>
      let* u := idx b ((j + 1) mod 5)%nat in
      let* v := idx b ((j + 2) mod 5)%nat in
      let* x := idx s (5 * i + j) in
      upd s (5 * i + j) (op_xor x (op_and (op_not U64 u) v))) s in
    Ok (s, b)) (s, seq_new 0 5) in
  Ok s.
(** iota fips202.rs:99-102 *)
Definition iota (s : list Z) (rndconst : Z) : res (list Z) :=
  let* x := idx s 0 in upd s 0 (op_xor x rndconst).
(** keccakf1600 fips202.rs:104-113 *)
Definition keccakf1600 (s : list Z) : res (list Z) :=
  for_range 0 keccak_rounds (fun i s =>
    let* s := theta s in
    let* s := rho s in
    let* s := pi s in
    let* s := chi s in
    let* c := idx roundconstants i in
    iota s c) s.
(** absorb_block fips202.rs:115-122; i >> 3 and i & 7 on usize *)
Definition absorb_block (s block : list Z) : res (list Z) :=
  let* s := for_range 0 (length block) (fun i s =>
    let* b := idx block i in
    let w := (i / 8)%nat in
    let o := 8 * Z.of_nat (i mod 8) in
    let* x := idx s w in
    let* y := op_shl U64 (cast U64 b) o in
    upd s w (op_xor x y)) s in
  keccakf1600 s.
(** squeeze fips202.rs:124-137; % by a zero rate panics *)
Definition squeeze (s : list Z) (nbytes rate : nat) : res (list Z) :=
  let* ' (out, _) := for_range 0 nbytes (fun i '(out, s) =>
    let* pos := (if (rate =? 0)%nat then Panic PDivZero else Ok (i mod rate)%nat) in
    let w := (pos / 8)%nat in
    let o := 8 * Z.of_nat (pos mod 8) in
    let* x := idx s w in
    let* x := op_shr U64 x o in
    let* out := upd out i (cast U8 (op_and x 0xff)) in
    let* s := (if ((i + 1) mod rate =? 0)%nat then keccakf1600 s else Ok s) in
    Ok (out, s)) (seq_new 0 nbytes, s) in
  Ok out.
(** keccak fips202.rs:139-158 *)
Definition keccak (rate : nat) (data : list Z) (p : Z) (outbytes : nat) : res (list Z) :=
  let buf := seq_new 0 rate in
  let* n := num_chunks data rate in
  let* ' (s, buf, last_block_len) := for_range 0 n (fun i '(s, buf, last_block_len) =>
    let* ' (block_len, block) := get_chunk 0 data rate i in
    if (block_len =? rate)%nat then
      let* s := absorb_block s block in Ok (s, buf, last_block_len)
    else
      let* buf := update_start buf block in Ok (s, buf, block_len)) (seq_new 0 25, buf, 0%nat) in
  let* buf := upd buf last_block_len p in
  let* k := usub rate 1 in
  let* x := idx buf k in
  let* buf := upd buf k (op_or x 128) in
  let* s := absorb_block s buf in
  squeeze s outbytes rate.
(** sha3224 fips202.rs:160-163 *)
Definition sha3224 (data : list Z) : res (list Z) :=
  let* t := keccak sha3224_rate data 0x06 28 in arr_from_seq 0 28 t.
(** sha3256 fips202.rs:165-168 *)
Definition sha3256 (data : list Z) : res (list Z) :=
  let* t := keccak sha3256_rate data 0x06 32 in arr_from_seq 0 32 t.
(** sha3384 fips202.rs:170-173 *)
Definition sha3384 (data : list Z) : res (list Z) :=
  let* t := keccak sha3384_rate data 0x06 48 in arr_from_seq 0 48 t.
(** sha3512 fips202.rs:175-178 *)
Definition sha3512 (data : list Z) : res (list Z) :=
  let* t := keccak sha3512_rate data 0x06 64 in arr_from_seq 0 64 t.
(** shake128 fips202.rs:180-182 *)
Definition shake128 (data : list Z) (outlen : nat) : res (list Z) := keccak shake128_rate data 0x1f outlen.
(** shake256 fips202.rs:184-186 *)
Definition shake256 (data : list Z) (outlen : nat) : res (list Z) := keccak shake256_rate data 0x1f outlen.
