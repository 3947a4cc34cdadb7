(** BLAKE2: /repo/spec-examples/src/blake2/blake2b.rs. The word type of the generic functions is the
    parameter [t]: U64, or U32 for the variant Blake2S. Arrays are lists, their indices nat. *)
From Coq Require Import ZArith List Bool.
From Verif Require Import Base M_Int M_Seq M_Bytes.
Import ListNotations.
Open Scope Z_scope.

(** SIGMA blake2b.rs:11-19 *)
Definition blake_sigma : list nat :=
  [0; 1; 2; 3; 4; 5; 6; 7; 8; 9; 10; 11; 12; 13; 14; 15;
   14; 10; 4; 8; 9; 15; 13; 6; 1; 12; 0; 2; 11; 7; 5; 3;
   11; 8; 12; 0; 5; 2; 15; 13; 10; 14; 3; 6; 7; 1; 9; 4;
   7; 9; 3; 1; 13; 12; 11; 14; 2; 6; 5; 10; 4; 0; 15; 8;
   9; 0; 5; 7; 2; 4; 10; 15; 14; 1; 11; 12; 6; 8; 3; 13;
   2; 12; 6; 10; 0; 11; 8; 3; 4; 13; 7; 5; 15; 14; 1; 9;
   12; 5; 1; 15; 14; 13; 4; 10; 0; 7; 6; 3; 9; 2; 8; 11;
   13; 11; 7; 14; 12; 1; 3; 9; 5; 0; 15; 4; 8; 6; 2; 10;
   6; 15; 14; 9; 11; 3; 0; 8; 12; 2; 13; 7; 1; 4; 10; 5;
   10; 2; 8; 4; 7; 6; 1; 5; 15; 11; 9; 14; 3; 12; 13; 0;
   0; 1; 2; 3; 4; 5; 6; 7; 8; 9; 10; 11; 12; 13; 14; 15;
   14; 10; 4; 8; 9; 15; 13; 6; 1; 12; 0; 2; 11; 7; 5; 3]%nat.
(** IVS blake2b.rs:21-33 *)
Definition ivs : list Z := [0x6A09E667; 0xBB67AE85; 0x3C6EF372; 0xA54FF53A; 0x510E527F; 0x9B05688C; 0x1F83D9AB; 0x5BE0CD19].
(** IVB blake2b.rs:35-47 *)
Definition ivb : list Z := [0x6a09e667f3bcc908; 0xbb67ae8584caa73b; 0x3c6ef372fe94f82b; 0xa54ff53a5f1d36f1; 0x510e527fade682d1; 0x9b05688c2b3e6c1f; 0x1f83d9abfb41bd6b; 0x5be0cd19137e2179].
(** HasIV::iv blake2b.rs:94-104; the trait is implemented for State<U64> and State<U32> only *)
Definition iv (t : ity) : list Z := if bits t =? 32 then ivs else ivb.
(** SecretInteger::PublicVersion for U64 and U32, hacspec/src/traits.rs:122-160 *)
Definition public_version (t : ity) : ity := if bits t =? 32 then u32 else u64.
(** BlakeVariant blake2b.rs:106-110 *)
Inductive blake_variant := Blake2S | Blake2B.

(** mix blake2b.rs:49-72; rotate_right is the one of the trait Integer *)
Definition mix (t : ity) (v : list Z) (a b c d : nat) (x y : Z) : res (list Z) :=
  let* va := idx v a in let* vb := idx v b in
  let* s := op_add t va vb in let* s := op_add t s x in
  let* v := upd v a s in
  let* vd := idx v d in let* va := idx v a in
  let* r := tr_rotate_right t (op_xor vd va) 32 in
  let* v := upd v d r in
  let* vc := idx v c in let* vd := idx v d in
  let* s := op_add t vc vd in
  let* v := upd v c s in
  let* vb := idx v b in let* vc := idx v c in
  let* r := tr_rotate_right t (op_xor vb vc) 24 in
  let* v := upd v b r in
  let* va := idx v a in let* vb := idx v b in
  let* s := op_add t va vb in let* s := op_add t s y in
  let* v := upd v a s in
  let* vd := idx v d in let* va := idx v a in
  let* r := tr_rotate_right t (op_xor vd va) 16 in
  let* v := upd v d r in
  let* vc := idx v c in let* vd := idx v d in
  let* s := op_add t vc vd in
  let* v := upd v c s in
  let* vb := idx v b in let* vc := idx v c in
  let* r := tr_rotate_right t (op_xor vb vc) 63 in
  upd v b r.
(** inc_counter blake2b.rs:74-82, at a public word type *)
Definition inc_counter (pt : ity) (t : list Z) (x : Z) : res (list Z) :=
  let result := seq_new 0 2 in
  let* t0 := idx t 0 in
  let* new_val := op_add pt t0 x in
  let* result := upd result 0 new_val in
  if num_less_than new_val x then
    let* t1 := idx t 1 in
    let* s := op_add pt t1 1 in
    upd result 1 s
  else Ok result.
(** make_array blake2b.rs:84-92; from_le_bytes first copies into a word array
    (traits.rs:318-350), which asserts the length *)
Definition make_array (t : ity) (h : list Z) : res (list Z) :=
  let* _ := assert_ (length h / bytes_of t =? 16)%nat in
  for_range 0 16 (fun i result =>
    let* ' (_, h_chunk) := get_chunk 0 h (bytes_of t) i in
    let* w := arr_from_seq 0 (bytes_of t) h_chunk in
    let* x := word_from_le_bytes t w in
    upd result i x) (seq_new 0 16).
(** One call of mix in the loop of compress, blake2b.rs:142-158: the words m[SIGMA[i*16+k]] and the next *)
Definition mix_call (t : ity) (m : list Z) (i k : nat) (v : list Z) (a b c d : nat) : res (list Z) :=
  let* j := idx blake_sigma (i * 16 + k) in let* x := idx m j in
  let* j := idx blake_sigma (i * 16 + (k + 1)) in let* y := idx m j in
  mix t v a b c d x y.
(** The body of the loop of compress, blake2b.rs:142-158 *)
Definition compress_round (t : ity) (m : list Z) (i : nat) (v : list Z) : res (list Z) :=
  let* v := mix_call t m i 0 v 0 4 8 12 in
  let* v := mix_call t m i 2 v 1 5 9 13 in
  let* v := mix_call t m i 4 v 2 6 10 14 in
  let* v := mix_call t m i 6 v 3 7 11 15 in
  let* v := mix_call t m i 8 v 0 5 10 15 in
  let* v := mix_call t m i 10 v 1 6 11 12 in
  let* v := mix_call t m i 12 v 2 7 8 13 in
  mix_call t m i 14 v 3 4 9 14.
(** compress blake2b.rs:112-166 *)
Definition compress (t : ity) (h m : list Z) (ctr : list Z) (last_block : bool) (alg : blake_variant) : res (list Z) :=
  let v := seq_new 0 16 in
  let* m := make_array t m in
  let* v := update_sub v 0 h 0 8 in
  let* v := update_sub v 8 (iv t) 0 8 in
  let* old_v12 := idx v 12 in let* t0 := idx ctr 0 in
  let* v := upd v 12 (op_xor old_v12 (classify t0)) in
  let* old_v13 := idx v 13 in let* t1 := idx ctr 1 in
  let* v := upd v 13 (op_xor old_v13 (classify t1)) in
  let* v := (if last_block then let* old_v14 := idx v 14 in upd v 14 (op_not t old_v14) else Ok v) in
  let num_rounds := match alg with Blake2S => 10%nat | Blake2B => 12%nat end in
  let* v := for_range 0 num_rounds (compress_round t m) v in
  for_range 0 8 (fun i compressed =>
    let* hi := idx h i in let* vi := idx v i in let* vi8 := idx v (i + 8) in
    upd compressed i (op_xor (op_xor hi vi) vi8)) (seq_new 0 8).
(** get_byte blake2b.rs:169-172 *)
Definition blake_get_byte (t : ity) (x : Z) (i : nat) : res Z :=
  let* b := get_byte t x (Z.of_nat i) in
  let* bytes := word_to_le_bytes t b in
  idx bytes 0.
(** blake2 blake2b.rs:174-205 *)
Definition blake2 (t : ity) (data : list Z) (alg : blake_variant) : res (list Z) :=
  let pt := public_version t in
  let h := iv t in
  let* h0 := idx h 0 in
  let* h := upd h 0 (op_xor (op_xor h0 (from_literal t 0x01010000)) (from_literal t 64)) in
  let* n := num_chunks data 128 in
  let* ' (h, _) := for_range 0 n (fun i '(h, ctr) =>
    let* ' (block_len, block) := get_chunk 0 data 128 i in
    if (block_len =? 128)%nat then
      let* ctr := inc_counter pt ctr (from_literal pt 128) in
      let* b := seq_from_seq 0 block in
      let* h := compress t h b ctr false alg in
      Ok (h, ctr)
    else
      let* ctr := inc_counter pt ctr (from_literal pt (Z.of_nat block_len)) in
      let* compress_input := update_start (seq_new 0 128) block in
      let* h := compress t h compress_input ctr true alg in
      Ok (h, ctr)) (h, seq_new 0 2) in
  let digest_size := match alg with Blake2S => 32%nat | Blake2B => 64%nat end in
  for_range 0 8 (fun i d =>
    for_range 0 8 (fun j d =>
      let* hi := idx h i in
      let* b := blake_get_byte t hi j in
      upd d (i * 8 + j) b) d) (seq_new 0 digest_size).
(** blake2b blake2b.rs:207-209 *)
Definition blake2b (data : list Z) : res (list Z) :=
  let* d := blake2 U64 data Blake2B in arr_from_seq 0 64 d.
