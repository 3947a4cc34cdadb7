(** The release profile of part of the library.
    Every other model file describes the debug profile.  A release build differs in two ways:
    debug_assert! is compiled out, and + - * of machine integers wrap (shift amounts are taken
    modulo the width) instead of panicking.  assert!, index checks, division by zero and
    MIN / -1 panic in both profiles.  The functions below are those of the other files
    with these two changes; functions without either are shared.
    poly.rs is in M_ReleasePoly.v; ChaCha20-Poly1305, AES-GCM, SHA-3, BLAKE2 and X25519 are in
    M_ReleaseSpecs.v. Not repeated: p256.rs, which has neither beyond the modular arithmetic. *)
From Coq Require Import ZArith List Bool Arith.
From Verif Require Import Base M_Int M_MathUtil M_Seq M_Bytes M_Vec M_SHA2.
Import ListNotations.
Open Scope Z_scope.

(** ** Integers *)
(** Add: public integers wrap in release, secret ones always (secret-integers/src/lib.rs:85-89,264) *)
Definition rop_add (t : ity) (a b : Z) : Z := iwrap t (a + b).
(** Sub: public integers wrap in release, secret ones always (secret-integers/src/lib.rs:85-89,265) *)
Definition rop_sub (t : ity) (a b : Z) : Z := iwrap t (a - b).
(** Mul: public integers wrap in release, secret ones always (secret-integers/src/lib.rs:85-89,266) *)
Definition rop_mul (t : ity) (a b : Z) : Z := iwrap t (a * b).
(** Shl secret-integers/src/lib.rs:153-156,268: the amount is taken modulo the width *)
Definition rop_shl (t : ity) (a n : Z) : Z := iwrap t (Z.shiftl a (n mod bits t)).
(** Shr secret-integers/src/lib.rs:153-156,269: the amount is taken modulo the width *)
Definition rop_shr (t : ity) (a n : Z) : Z := Z.shiftr a (n mod bits t).
(** Neg secret-integers/src/lib.rs:323-330,401: MIN is its own negative *)
Definition rop_neg (t : ity) (a : Z) : Z := iwrap t (- a).
(** NumericBase::pow machine_integers.rs:127-129 (public: wraps in release), 372-382 (secret) *)
Definition rnum_pow (t : ity) (a : Z) (e : nat) : Z := iwrap t (a ^ Z.of_nat e).
(** Integer::get_bit traits.rs:84-86 *)
Definition rget_bit (t : ity) (a i : Z) : Z := op_and (rop_shr t a i) 1.
(** Integer::set_bit traits.rs:92-97, the assertion of line 93 left out *)
Definition rset_bit (t : ity) (a b i : Z) : Z :=
  let tmp1 := from_literal t (op_not u128 (rop_shl u128 1 i)) in
  let tmp2 := rop_shl t b i in
  op_or (op_and a tmp1) tmp2.
(** Integer::set traits.rs:102-105 *)
Definition rset (t : ity) (a pos y yi : Z) : Z := rset_bit t a (rget_bit t y yi) pos.
(** UnsignedSecretInteger::get_byte traits.rs:267-269; [i * 8] is u32 *)
Definition rget_byte (t : ity) (a i : Z) : Z :=
  op_and (rop_shr t a (rop_mul u32 i 8)) (rop_sub t (rop_shl t 1 8) 1).

(** signed_mod math_util.rs:11-17, on i128 *)
Definition rsigned_mod (fuel : nat) (x n : Z) : res Z :=
  let* ret := op_rem i128 x n in
  while_ fuel (fun r => r <? 0) (fun r => Ok (rop_add i128 r n)) ret.
(** sub_mod machine_integers.rs:19-27,58-60,246-251,290-295 (printing left out) *)
Definition rsub_mod (fuel : nat) (t : ity) (a b n : Z) : res Z :=
  if sgn t then
    let* r := rsigned_mod fuel (rop_sub i128 a b) n in Ok (cast t r)
  else
    let* tmp := while_ fuel (fun x => x <? b) (fun x => Ok (rop_add (pub t) x n)) a in
    op_rem (pub t) (rop_sub (pub t) tmp b) n.
(** add_mod machine_integers.rs:30-32,63-65,254-259,298-303 *)
Definition radd_mod (fuel : nat) (t : ity) (a b n : Z) : res Z :=
  if sgn t then
    let* r := rsigned_mod fuel (rop_add i128 a b) n in Ok (cast t r)
  else op_rem (pub t) (rop_add (pub t) a b) n.
(** mul_mod machine_integers.rs:35-37,68-70,262-267,306-311 *)
Definition rmul_mod (fuel : nat) (t : ity) (a b n : Z) : res Z :=
  if sgn t then
    let* r := rsigned_mod fuel (rop_mul i128 a b) n in Ok (cast t r)
  else op_rem (pub t) (rop_mul (pub t) a b) n.
(** modulo machine_integers.rs:45-47,78-80,275-279,319-323 *)
Definition rmodulo (fuel : nat) (t : ity) (a n : Z) : res Z :=
  if sgn t then
    let* r := rsigned_mod fuel a n in Ok (cast t r)
  else op_rem (pub t) a n.

(** the body of the outer loop of extended_euclid_invert, math_util.rs:33-53 *)
Definition reea_step (fuel : nat) (ty : ity) (n : Z) (s : eea) : res eea :=
  let* q := num_div ty (ee_r s) (ee_new_r s) in
  let tmp := ee_new_r s in
  let tmp_prod := rop_mul ty q (ee_new_r s) in
  let* tmp_r := while_ fuel (fun x => num_less_than x tmp_prod) (fun x => Ok (rop_add ty x n)) (ee_r s) in
  let new_r := rop_sub ty tmp_r tmp_prod in
  let r := tmp in
  let tmp := ee_new_t s in
  let tmp_prod := rop_mul ty q (ee_new_t s) in
  let* tmp_t := while_ fuel (fun x => num_less_than x tmp_prod) (fun x => Ok (rop_add ty x n)) (ee_t s) in
  let new_t := rop_sub ty tmp_t tmp_prod in
  Ok (mkeea tmp r new_t new_r).
(** extended_euclid_invert math_util.rs:25-68 *)
Definition rextended_euclid_invert (fuel : nat) (ty : ity) (x n : Z) (signed : bool) : res Z :=
  let* s := while_ fuel (fun s => negb (num_equal (ee_new_r s) 0)) (reea_step fuel ty n)
                   (mkeea 0 n 1 x) in
  if num_greater_than (ee_r s) 1 && negb (num_equal x 0) then Panic PExplicit else
  if num_less_than (ee_t s) 0
  then (if signed then Panic PUnimpl else Ok (rop_add ty (ee_t s) n))
  else Ok (ee_t s).
(** NumericBase::inv machine_integers.rs:142-144,398-401 *)
Definition rnum_inv (fuel : nat) (ty : ity) (x n : Z) : res Z :=
  rextended_euclid_invert fuel ty x n false.

(** ** usize arithmetic *)
(** A sum or product of usize values, reduced modulo 2^64 (Rust release arithmetic, e.g. seq.rs:72,84) *)
Definition uwrap (n : nat) : nat := Z.to_nat (Z.of_nat n mod 2 ^ 64).
(** usize subtraction (Rust release arithmetic, e.g. seq.rs:55,86) *)
Definition rusub (a b : nat) : nat := Z.to_nat ((Z.of_nat a - Z.of_nat b) mod 2 ^ 64).

(** ** Sequences and arrays *)
Section Elem.
Context {A : Type} (d : A).

(** [vec![T::default(); l]] of Seq::new seq.rs:36-40: more than isize::MAX bytes panic in both
    profiles ("capacity overflow"); elements are taken to be one byte wide *)
Definition ralloc (l : nat) : res (list A) :=
  if (Z.of_nat l <? 2 ^ 63)%Z then Ok (repeat d l) else Panic PExplicit.
(** SeqTrait::update_sub traits.rs:28-41 without the assertions; an index that wraps around was out of
    range one iteration before *)
Definition rupdate_sub (self : list A) (start_out : nat) (v : list A) (start_in len : nat) : res (list A) :=
  for_range 0 len (fun i s => let* x := idx v (start_in + i) in upd s (start_out + i) x) self.
(** SeqTrait::update traits.rs:56-59 *)
Definition rupdate (self : list A) (start : nat) (v : list A) : res (list A) :=
  rupdate_sub self start v 0 (length v).
(** SeqTrait::update_start traits.rs:62-65 *)
Definition rupdate_start (self : list A) (v : list A) : res (list A) :=
  rupdate_sub self 0 v 0 (length v).
(** Seq::from_sub seq.rs:59-63; Seq::sub seq.rs:49-51, array sub array.rs:77-79,330-332 *)
Definition rsub_ (input : list A) (start len : nat) : res (list A) :=
  let* s := ralloc len in rupdate_sub s 0 input start len.
(** Seq::from_sub_range seq.rs:66-68; subr seq.rs:54-56, array.rs:82-84,335-337 *)
Definition rsubr (input : list A) (a b : nat) : res (list A) := rsub_ input a (rusub b a).
(** length part of get_chunk/set_chunk seq.rs:84-89,101-106; get_chunk_len array.rs:95-106,348-359 *)
Definition rget_chunk_len (self : list A) (chunk_size chunk_number : nat) : nat :=
  let idx_start := uwrap (chunk_size * chunk_number) in
  if (length self <? uwrap (idx_start + chunk_size))%nat then rusub (length self) idx_start else chunk_size.
(** get_chunk seq.rs:79-92, array.rs:109-118,362-371 *)
Definition rget_chunk (self : list A) (chunk_size chunk_number : nat) : res (nat * list A) :=
  let idx_start := uwrap (chunk_size * chunk_number) in
  let len := rget_chunk_len self chunk_size chunk_number in
  let* out := rsub_ self idx_start len in
  Ok (len, out).
(** set_chunk seq.rs:95-109, array.rs:121-131,374-384, the assertions of lines 107, 129 and 383 left out *)
Definition rset_chunk (self : list A) (chunk_size chunk_number : nat) (input : list A) : res (list A) :=
  let idx_start := uwrap (chunk_size * chunk_number) in
  let len := rget_chunk_len self chunk_size chunk_number in
  rupdate_sub self idx_start input 0 len.
(** array from_vec array.rs:219-226,476-483, from_seq 231-238,488-495, from_slice 47-54,299-306: without the
    assertions the three are the same loop *)
Definition rarr_from (l : nat) (x : list A) : res (list A) := copy_into (seq_new d l) x.
(** array from_sub array.rs:64-69,317-322 *)
Definition rarr_from_sub (l : nat) (input : list A) (start len : nat) : res (list A) :=
  rupdate_sub (seq_new d l) 0 input start len.
End Elem.

(** hex_string_to_bytes util.rs:9-16; an odd length still panics, at the slice of line 14 *)
Definition rhex_string_to_bytes (s : list Z) : res (list Z) := parse_hex s.
(** array from_hex array.rs:248-267, the assertions of lines 249 and 262 left out *)
Definition rarr_from_hex (l : nat) (s : list Z) : res (list Z) :=
  let* v := parse_hex s in
  for_range 0 l (fun i o => let* x := idx v i in upd o i x) (seq_new 0 l).

(** vec_poly_mul/add/sub vec_integers.rs:1119-1160 for n = 0, as used by the operators of
    PublicSeq vec_integers.rs:1163-1187; the assertion left out *)
Definition rpseq_op (fw : ity -> Z -> Z -> Z) (t : ity) (x y : list Z) : res (list Z) :=
  for_range 0 (length x) (fun i out =>
    let* a := idx x i in
    let* b := idx y i in
    upd out i (fw t a b)) (seq_new 0 (length x)).

(** ** SHA-256, HMAC, HKDF, the BLAKE2 counter *)
(** hash sha2.rs:164-193; [msg.len() * 8] wraps *)
Definition rhash (msg : list Z) : res (list Z) :=
  let* n := num_chunks msg 64 in
  let* h := for_range 0 n (fun i h =>
    let* ' (block_len, block) := rget_chunk 0 msg 64 i in
    if (block_len <? 64)%nat then
      let last_block := seq_new 0 64 in
      let* block := rupdate_start (seq_new 0 64) block in
      let* last_block := rupdate last_block 0 block in
      let* last_block := upd last_block block_len 0x80 in
      let len_bist := rop_mul u64 (Z.of_nat (length msg)) 8 in
      let* lb := word_to_be_bytes U64 (classify len_bist) in
      if (block_len <? 64 - 8)%nat then
        let* last_block := rupdate last_block (64 - 8) lb in
        compress last_block h
      else
        let* pad_block := rupdate (seq_new 0 64) (64 - 8) lb in
        let* h := compress last_block h in
        compress pad_block h
    else
      let* compress_input := rupdate_start (seq_new 0 64) block in
      compress compress_input h) sha256_init in
  let* d := arr_to_be_bytes U32 8 h in
  rarr_from 0 32 d.
(** hmac hmac.rs:15-51 *)
Definition rhmac (k txt : list Z) : res (list Z) :=
  let i_pad := repeat 0x36 64 in
  let o_pad := repeat 0x5c 64 in
  let* k_block := (if (64 <? length k)%nat
                   then let* d := rhash k in rupdate_start (seq_new 0 64) d
                   else rupdate_start (seq_new 0 64) k) in
  let* k_ipad := sarr_xor 64 k_block i_pad in
  let* k_opad := sarr_xor 64 k_block o_pad in
  let* h_in := ralloc 0 (64 + length txt) in
  let* h_in := rupdate h_in 0 k_ipad in
  let* h_in := rupdate h_in 64 txt in
  let* h_inner := rhash h_in in
  let* h_in := ralloc 0 (64 + length h_inner) in
  let* h_in := rupdate h_in 0 k_opad in
  let* h_in := rupdate h_in 64 h_inner in
  let* d := rhash h_in in
  rarr_from 0 32 d.
(** build_hmac_txt hkdf.rs:25-31 *)
Definition rbuild_hmac_txt (t info : list Z) (iteration : Z) : res (list Z) :=
  let* out := ralloc 0 (length t + length info + 1) in
  let* out := rupdate out 0 t in
  let* out := rupdate out (length t) info in
  upd out (length t + length info) iteration.
(** expand hkdf.rs:43-60, the assertion of line 45 left out *)
Definition rexpand (prk info : list Z) (l : nat) : res (list Z) :=
  let n := div_ceil l 32 in
  let n := Z.to_nat (cast u8 n) in
  let* ' (_, t) := for_range 0 n (fun i '(t_i, t) =>
    let c := rop_add u8 (Z.of_nat i) 1 in
    let* hmac_txt_in := (if (i =? 0)%nat then rbuild_hmac_txt (seq_new 0 0) info c
                         else let* ts := seq_from_seq 0 t_i in rbuild_hmac_txt ts info c) in
    let* t_i := rhmac prk hmac_txt_in in
    let* t := rupdate t (i * length t_i) t_i in
    Ok (t_i, t)) (seq_new 0 32, seq_new 0 (n * 32)) in
  rsub_ 0 t 0 l.
(** inc_counter blake2b.rs:74-82, at a public word type *)
Definition rinc_counter (pt : ity) (t : list Z) (x : Z) : res (list Z) :=
  let result := seq_new 0 2 in
  let* t0 := idx t 0 in
  let new_val := rop_add pt t0 x in
  let* result := upd result 0 new_val in
  if num_less_than new_val x then
    let* t1 := idx t 1 in
    upd result 1 (rop_add pt t1 1)
  else Ok result.
