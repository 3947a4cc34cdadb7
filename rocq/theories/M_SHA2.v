(** SHA-256, HMAC and HKDF: /repo/spec-examples/src/{sha2/sha2.rs,hmac/hmac.rs,hkdf/hkdf.rs}.
    Arrays and byte sequences are lists, array indices are nat. *)
From Coq Require Import ZArith List Bool.
From Coq Require SpecFloat.
From Verif Require Import Base M_Int M_Seq M_Bytes M_Vec.
Import ListNotations.
Open Scope Z_scope.

(** ** sha2.rs *)
(** ch sha2.rs:24-26 *)
Definition ch (x y z : Z) : Z := op_xor (op_and x y) (op_and (op_not U32 x) z).
(** maj sha2.rs:28-30 *)
Definition maj (x y z : Z) : Z := op_xor (op_and x y) (op_xor (op_and x z) (op_and y z)).
(** The table of sigma, sha2.rs:33 *)
Definition op_table : list Z := [2; 13; 22; 6; 11; 25; 7; 18; 3; 17; 19; 10].
(** sigma sha2.rs:32-40; the amounts are declassified by [into] *)
Definition sigma (x : Z) (i op : nat) : res Z :=
  let* n2 := idx op_table (3 * i + 2) in
  let* tmp := (if (op =? 0)%nat then op_shr U32 x n2 else Ok (rotate_right U32 x n2)) in
  let* n0 := idx op_table (3 * i) in
  let* n1 := idx op_table (3 * i + 1) in
  Ok (op_xor (op_xor (rotate_right U32 x n0) (rotate_right U32 x n1)) tmp).
(** schedule sha2.rs:42-59 *)
Definition schedule (block : list Z) : res (list Z) :=
  let* b := to_be_words U32 64 block in
  for_range 0 64 (fun i s =>
    if (i <? 16)%nat then let* x := idx b i in upd s i x
    else
      let* j := usub i 16 in let* t16 := idx s j in
      let* j := usub i 15 in let* t15 := idx s j in
      let* j := usub i 7 in let* t7 := idx s j in
      let* j := usub i 2 in let* t2 := idx s j in
      let* s1 := sigma t2 3 0 in
      let* s0 := sigma t15 2 0 in
      let* x := op_add U32 s1 t7 in
      let* x := op_add U32 x s0 in
      let* x := op_add U32 x t16 in
      upd s i x) (seq_new 0 64).
(** k_table sha2.rs:62-127 *)
Definition k_table : list Z :=
 [0x428a2f98; 0x71374491; 0xb5c0fbcf; 0xe9b5dba5; 0x3956c25b; 0x59f111f1; 0x923f82a4; 0xab1c5ed5;
  0xd807aa98; 0x12835b01; 0x243185be; 0x550c7dc3; 0x72be5d74; 0x80deb1fe; 0x9bdc06a7; 0xc19bf174;
  0xe49b69c1; 0xefbe4786; 0x0fc19dc6; 0x240ca1cc; 0x2de92c6f; 0x4a7484aa; 0x5cb0a9dc; 0x76f988da;
  0x983e5152; 0xa831c66d; 0xb00327c8; 0xbf597fc7; 0xc6e00bf3; 0xd5a79147; 0x06ca6351; 0x14292967;
  0x27b70a85; 0x2e1b2138; 0x4d2c6dfc; 0x53380d13; 0x650a7354; 0x766a0abb; 0x81c2c92e; 0x92722c85;
  0xa2bfe8a1; 0xa81a664b; 0xc24b8b70; 0xc76c51a3; 0xd192e819; 0xd6990624; 0xf40e3585; 0x106aa070;
  0x19a4c116; 0x1e376c08; 0x2748774c; 0x34b0bcb5; 0x391c0cb3; 0x4ed8aa4a; 0x5b9cca4f; 0x682e6ff3;
  0x748f82ee; 0x78a5636f; 0x84c87814; 0x8cc70208; 0x90befffa; 0xa4506ceb; 0xbef9a3f7; 0xc67178f2].
(** The body of the loop of shuffle, sha2.rs:131-150 *)
Definition shuffle_step (ws : list Z) (i : nat) (h : list Z) : res (list Z) :=
  let* a0 := idx h 0 in
  let* b0 := idx h 1 in
  let* c0 := idx h 2 in
  let* d0 := idx h 3 in
  let* e0 := idx h 4 in
  let* f0 := idx h 5 in
  let* g0 := idx h 6 in
  let* h0 := idx h 7 in
  let* s := sigma e0 1 1 in
  let* t1 := op_add U32 h0 s in
  let* t1 := op_add U32 t1 (ch e0 f0 g0) in
  let* k := idx k_table i in
  let* t1 := op_add U32 t1 k in
  let* w := idx ws i in
  let* t1 := op_add U32 t1 w in
  let* s := sigma a0 0 1 in
  let* t2 := op_add U32 s (maj a0 b0 c0) in
  let* x := op_add U32 t1 t2 in
  let* h := upd h 0 x in
  let* h := upd h 1 a0 in
  let* h := upd h 2 b0 in
  let* h := upd h 3 c0 in
  let* x := op_add U32 d0 t1 in
  let* h := upd h 4 x in
  let* h := upd h 5 e0 in
  let* h := upd h 6 f0 in
  upd h 7 g0.
(** shuffle sha2.rs:61-153 *)
Definition shuffle (ws hashi : list Z) : res (list Z) := for_range 0 64 (shuffle_step ws) hashi.
(** compress sha2.rs:155-162 *)
Definition compress (block h_in : list Z) : res (list Z) :=
  let* s := schedule block in
  let* h := shuffle s h_in in
  for_range 0 8 (fun i h =>
    let* x := idx h i in let* y := idx h_in i in let* z := op_add U32 x y in upd h i z) h.
(** The initial value of hash, sha2.rs:165-168 *)
Definition sha256_init : list Z :=
  [0x6a09e667; 0xbb67ae85; 0x3c6ef372; 0xa54ff53a; 0x510e527f; 0x9b05688c; 0x1f83d9ab; 0x5be0cd19].
(** hash sha2.rs:164-193; the usize product [msg.len() * 8] is checked *)
Definition hash (msg : list Z) : res (list Z) :=
  let* n := num_chunks msg 64 in
  let* h := for_range 0 n (fun i h =>
    let* ' (block_len, block) := get_chunk 0 msg 64 i in
    if (block_len <? 64)%nat then
      let last_block := seq_new 0 64 in
      let* block := update_start (seq_new 0 64) block in
      let* last_block := update last_block 0 block in
      let* last_block := upd last_block block_len 0x80 in
      let* len_bist := op_mul u64 (Z.of_nat (length msg)) 8 in
      let* lb := word_to_be_bytes U64 (classify len_bist) in
      if (block_len <? 64 - 8)%nat then
        let* last_block := update last_block (64 - 8) lb in
        compress last_block h
      else
        let* pad_block := update (seq_new 0 64) (64 - 8) lb in
        let* h := compress last_block h in
        compress pad_block h
    else
      let* compress_input := update_start (seq_new 0 64) block in
      compress compress_input h) sha256_init in
  let* d := arr_to_be_bytes U32 8 h in
  arr_from_seq 0 32 d.

(** ** hmac.rs *)
(** hmac hmac.rs:15-51 *)
Definition hmac (k txt : list Z) : res (list Z) :=
  let i_pad := repeat 0x36 64 in
  let o_pad := repeat 0x5c 64 in
  let* k_block := (if (64 <? length k)%nat
                   then let* d := hash k in update_start (seq_new 0 64) d
                   else update_start (seq_new 0 64) k) in
  let* k_ipad := sarr_xor 64 k_block i_pad in
  let* k_opad := sarr_xor 64 k_block o_pad in
  let h_in := seq_new 0 (64 + length txt) in
  let* h_in := update h_in 0 k_ipad in
  let* h_in := update h_in 64 txt in
  let* h_inner := hash h_in in
  let h_in := seq_new 0 (64 + length h_inner) in
  let* h_in := update h_in 0 k_opad in
  let* h_in := update h_in 64 h_inner in
  let* d := hash h_in in
  arr_from_seq 0 32 d.

(** ** hkdf.rs *)
(** extract hkdf.rs:17-23 *)
Definition extract (salt ikm : list Z) : res (list Z) :=
  let salt_or_zero := seq_new 0 32 in
  let* salt_or_zero := (if (0 <? length salt)%nat then seq_from_seq 0 salt else Ok salt_or_zero) in
  let* p := hmac salt_or_zero ikm in
  arr_from_seq 0 32 p.
(** build_hmac_txt hkdf.rs:25-31 *)
Definition build_hmac_txt (t info : list Z) (iteration : Z) : res (list Z) :=
  let out := seq_new 0 (length t + length info + 1) in
  let* out := update out 0 t in
  let* out := update out (length t) info in
  upd out (length t + length info) iteration.
(** The conversion [a as f64] of hkdf.rs:37, IEEE 754 binary64, round to nearest even *)
Definition f64_of (a : nat) : SpecFloat.spec_float :=
  SpecFloat.binary_normalize 53 1024 (Z.of_nat a) 0 false.
(** f64::ceil followed by [as u64] of hkdf.rs:37. The ceiling of a double is a double, so both
    steps are one function to the integers; [as] saturates, and NaN becomes 0 *)
Definition f64_ceil_as_u64 (x : SpecFloat.spec_float) : Z :=
  match x with
  | SpecFloat.S754_zero _ => 0
  | SpecFloat.S754_nan => 0
  | SpecFloat.S754_infinity s => if s then 0 else 2 ^ 64 - 1
  | SpecFloat.S754_finite s m e =>
      if s then 0
      else Z.min (2 ^ 64 - 1)
             (if 0 <=? e then Z.pos m * 2 ^ e else - ((- Z.pos m) / 2 ^ (- e)))
  end.
(** div_ceil hkdf.rs:36-38 *)
Definition div_ceil (a b : nat) : Z :=
  f64_ceil_as_u64 (SpecFloat.SFdiv 53 1024 (f64_of a) (f64_of b)).
(** expand hkdf.rs:43-60 *)
Definition expand (prk info : list Z) (l : nat) : res (list Z) :=
  let n := div_ceil l 32 in
  let* _ := assert_ (n <? 255) in
  let n := Z.to_nat (cast u8 n) in
  let* ' (_, t) := for_range 0 n (fun i '(t_i, t) =>
    let* c := op_add u8 (Z.of_nat i) 1 in
    let* hmac_txt_in := (if (i =? 0)%nat then build_hmac_txt (seq_new 0 0) info c
                         else let* ts := seq_from_seq 0 t_i in build_hmac_txt ts info c) in
    let* t_i := hmac prk hmac_txt_in in
    let* t := update t (i * length t_i) t_i in
    Ok (t_i, t)) (seq_new 0 32, seq_new 0 (n * 32)) in
  sub_ 0 t 0 l.
