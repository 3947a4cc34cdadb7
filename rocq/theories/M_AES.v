(** AES, GF(2^128) and AES-GCM: /repo/spec-examples/src/aes_gcm/{aes,gf128,aesgcm}.rs.
    Arrays and byte sequences are lists, array indices are nat. *)
From Coq Require Import ZArith List Bool Arith.
From Verif Require Import Base M_Int M_Seq M_Bytes M_Vec.
Import ListNotations.
Open Scope Z_scope.

(** ** aes.rs *)
(** SBOX aes.rs:22-39 *)
Definition SBOX : list Z :=
  [0x63; 0x7C; 0x77; 0x7B; 0xF2; 0x6B; 0x6F; 0xC5; 0x30; 0x01; 0x67; 0x2B; 0xFE; 0xD7; 0xAB; 0x76;
   0xCA; 0x82; 0xC9; 0x7D; 0xFA; 0x59; 0x47; 0xF0; 0xAD; 0xD4; 0xA2; 0xAF; 0x9C; 0xA4; 0x72; 0xC0;
   0xB7; 0xFD; 0x93; 0x26; 0x36; 0x3F; 0xF7; 0xCC; 0x34; 0xA5; 0xE5; 0xF1; 0x71; 0xD8; 0x31; 0x15;
   0x04; 0xC7; 0x23; 0xC3; 0x18; 0x96; 0x05; 0x9A; 0x07; 0x12; 0x80; 0xE2; 0xEB; 0x27; 0xB2; 0x75;
   0x09; 0x83; 0x2C; 0x1A; 0x1B; 0x6E; 0x5A; 0xA0; 0x52; 0x3B; 0xD6; 0xB3; 0x29; 0xE3; 0x2F; 0x84;
   0x53; 0xD1; 0x00; 0xED; 0x20; 0xFC; 0xB1; 0x5B; 0x6A; 0xCB; 0xBE; 0x39; 0x4A; 0x4C; 0x58; 0xCF;
   0xD0; 0xEF; 0xAA; 0xFB; 0x43; 0x4D; 0x33; 0x85; 0x45; 0xF9; 0x02; 0x7F; 0x50; 0x3C; 0x9F; 0xA8;
   0x51; 0xA3; 0x40; 0x8F; 0x92; 0x9D; 0x38; 0xF5; 0xBC; 0xB6; 0xDA; 0x21; 0x10; 0xFF; 0xF3; 0xD2;
   0xCD; 0x0C; 0x13; 0xEC; 0x5F; 0x97; 0x44; 0x17; 0xC4; 0xA7; 0x7E; 0x3D; 0x64; 0x5D; 0x19; 0x73;
   0x60; 0x81; 0x4F; 0xDC; 0x22; 0x2A; 0x90; 0x88; 0x46; 0xEE; 0xB8; 0x14; 0xDE; 0x5E; 0x0B; 0xDB;
   0xE0; 0x32; 0x3A; 0x0A; 0x49; 0x06; 0x24; 0x5C; 0xC2; 0xD3; 0xAC; 0x62; 0x91; 0x95; 0xE4; 0x79;
   0xE7; 0xC8; 0x37; 0x6D; 0x8D; 0xD5; 0x4E; 0xA9; 0x6C; 0x56; 0xF4; 0xEA; 0x65; 0x7A; 0xAE; 0x08;
   0xBA; 0x78; 0x25; 0x2E; 0x1C; 0xA6; 0xB4; 0xC6; 0xE8; 0xDD; 0x74; 0x1F; 0x4B; 0xBD; 0x8B; 0x8A;
   0x70; 0x3E; 0xB5; 0x66; 0x48; 0x03; 0xF6; 0x0E; 0x61; 0x35; 0x57; 0xB9; 0x86; 0xC1; 0x1D; 0x9E;
   0xE1; 0xF8; 0x98; 0x11; 0x69; 0xD9; 0x8E; 0x94; 0x9B; 0x1E; 0x87; 0xE9; 0xCE; 0x55; 0x28; 0xDF;
   0x8C; 0xA1; 0x89; 0x0D; 0xBF; 0xE6; 0x42; 0x68; 0x41; 0x99; 0x2D; 0x0F; 0xB0; 0x54; 0xBB; 0x16].
(** RCON aes.rs:41-43 *)
Definition RCON : list Z :=
  [0x8d; 0x01; 0x02; 0x04; 0x08; 0x10; 0x20; 0x40; 0x80; 0x1b; 0x36; 0x6c; 0xd8; 0xab; 0x4d].
(** The table lookup [SBOX[U8::declassify(x)]] / [SBOX[usize::from(x)]] of aes.rs:48,143-146 *)
Definition sbox_at (x : Z) : res Z := idx SBOX (Z.to_nat (declassify x)).
(** sub_bytes aes.rs:45-51 *)
Definition sub_bytes (state : list Z) : res (list Z) :=
  for_range 0 16 (fun i st => let* x := idx state i in let* y := sbox_at x in upd st i y) state.
(** shift_row aes.rs:53-60 *)
Definition shift_row (i shift : nat) (state : list Z) : res (list Z) :=
  let out := state in
  let* x := idx state (i + 4 * (shift mod 4)) in let* out := upd out i x in
  let* x := idx state (i + 4 * ((shift + 1) mod 4)) in let* out := upd out (i + 4) x in
  let* x := idx state (i + 4 * ((shift + 2) mod 4)) in let* out := upd out (i + 8) x in
  let* x := idx state (i + 4 * ((shift + 3) mod 4)) in upd out (i + 12) x.
(** shift_rows aes.rs:62-66 *)
Definition shift_rows (state : list Z) : res (list Z) :=
  let* state := shift_row 1 1 state in
  let* state := shift_row 2 2 state in
  shift_row 3 3 state.
(** xtime aes.rs:68-74 *)
Definition xtime (x : Z) : res Z :=
  let* x1 := op_shl U8 x 1 in
  let* x7 := op_shr U8 x 7 in
  let x71 := op_and x7 0x01 in
  let* x711b := op_mul U8 x71 0x1b in
  Ok (op_xor x1 x711b).
(** mix_column aes.rs:76-89 *)
Definition mix_column (c : nat) (state : list Z) : res (list Z) :=
  let i0 := (4 * c)%nat in
  let* s0 := idx state i0 in
  let* s1 := idx state (i0 + 1) in
  let* s2 := idx state (i0 + 2) in
  let* s3 := idx state (i0 + 3) in
  let st := state in
  let tmp := op_xor (op_xor (op_xor s0 s1) s2) s3 in
  let* x := xtime (op_xor s0 s1) in let* st := upd st i0 (op_xor (op_xor s0 tmp) x) in
  let* x := xtime (op_xor s1 s2) in let* st := upd st (i0 + 1) (op_xor (op_xor s1 tmp) x) in
  let* x := xtime (op_xor s2 s3) in let* st := upd st (i0 + 2) (op_xor (op_xor s2 tmp) x) in
  let* x := xtime (op_xor s3 s0) in upd st (i0 + 3) (op_xor (op_xor s3 tmp) x).
(** mix_columns aes.rs:91-96 *)
Definition mix_columns (state : list Z) : res (list Z) :=
  let* state := mix_column 0 state in
  let* state := mix_column 1 state in
  let* state := mix_column 2 state in
  mix_column 3 state.
(** add_round_key aes.rs:98-104 *)
Definition add_round_key (state key : list Z) : res (list Z) :=
  for_range 0 16 (fun i out =>
    let* x := idx out i in let* y := idx key i in upd out i (op_xor x y)) state.
(** aes_enc aes.rs:106-111 *)
Definition aes_enc (state round_key : list Z) : res (list Z) :=
  let* state := sub_bytes state in
  let* state := shift_rows state in
  let* state := mix_columns state in
  add_round_key state round_key.
(** aes_enc_last aes.rs:113-117 *)
Definition aes_enc_last (state round_key : list Z) : res (list Z) :=
  let* state := sub_bytes state in
  let* state := shift_rows state in
  add_round_key state round_key.
(** rounds_aes aes.rs:119-126 *)
Definition rounds_aes (state key : list Z) : res (list Z) :=
  let* n := num_chunks key 16 in
  for_range 0 n (fun i out =>
    let* ' (_, key_block) := get_chunk 0 key 16 i in
    let* rk := arr_from_seq 0 16 key_block in
    aes_enc out rk) state.
(** block_cipher_aes aes.rs:128-135; the product nr * 16 is not limited to 2^64: above it the program panics
    with an overflow, the model with an index out of range *)
Definition block_cipher_aes (input key : list Z) (nr : nat) : res (list Z) :=
  let* k0 := arr_from_sub_range 0 16 key 0 16 in
  let* k := from_sub_range 0 key 16 (nr * 16) in
  let* kn := arr_from_sub 0 16 key (nr * 16) 16 in
  let* state := add_round_key input k0 in
  let* state := rounds_aes state k in
  aes_enc_last state kn.
(** rotate_word aes.rs:137-139 *)
Definition rotate_word (w : list Z) : res (list Z) :=
  let* a := idx w 1 in let* b := idx w 2 in let* c := idx w 3 in let* d := idx w 0 in
  Ok [a; b; c; d].
(** sub_word aes.rs:141-148 *)
Definition sub_word (w : list Z) : res (list Z) :=
  let* x := idx w 0 in let* a := sbox_at x in
  let* x := idx w 1 in let* b := sbox_at x in
  let* x := idx w 2 in let* c := sbox_at x in
  let* x := idx w 3 in let* d := sbox_at x in
  Ok [a; b; c; d].
(** aes_keygen_assist aes.rs:150-155 *)
Definition aes_keygen_assist (w : list Z) (rcon : Z) : res (list Z) :=
  let* k := rotate_word w in
  let* k := sub_word k in
  let* x := idx k 0 in upd k 0 (op_xor x rcon).
(** key_expansion_word aes.rs:157-169 ([i % nk] and [i / nk] panic for nk = 0) *)
Definition key_expansion_word (w0 w1 : list Z) (i nk nr : nat) : res (list Z) :=
  let* _ := assert_ (i <? 4 * (nr + 1))%nat in
  let k := w1 in
  let* q := udiv i nk in
  let* k := (if (i mod nk =? 0)%nat then let* rc := idx RCON q in aes_keygen_assist k rc
             else if ((6 <? nk) && (i mod nk =? 4))%nat then sub_word k
             else Ok k) in
  for_range 0 4 (fun i k => let* x := idx k i in let* y := idx w0 i in upd k i (op_xor x y)) k.
(** AesVariant aes.rs:171-175 *)
Inductive aes_variant : Type := Aes128 | Aes256.
(** key_expansion_aes aes.rs:177-204 *)
Definition key_expansion_aes (key : list Z) (nk nr : nat) (alg : aes_variant) : res (list Z) :=
  let key_ex := seq_new 0 (match alg with Aes128 => 176 | Aes256 => 240 end) in
  let* key_ex := update_start key_ex key in
  let num_iters := (match alg with Aes128 => 40 | Aes256 => 52 end)%nat in
  let word_size := (match alg with Aes128 => 4 | Aes256 => 8 end)%nat in
  for_range 0 num_iters (fun j key_ex =>
    let i := (j + word_size)%nat in
    let* im := usub i word_size in
    let* w0 := arr_from_sub 0 4 key_ex (4 * im) 4 in
    let* i4 := usub (4 * i) 4 in
    let* w1 := arr_from_sub 0 4 key_ex i4 4 in
    let* word := key_expansion_word w0 w1 i nk nr in
    update key_ex (4 * i) word) key_ex.
(** aes_encrypt_block aes.rs:206-209 *)
Definition aes_encrypt_block (k input : list Z) (nk nr : nat) (alg : aes_variant) : res (list Z) :=
  let* key_ex := key_expansion_aes k nk nr alg in
  block_cipher_aes input key_ex nr.
(** aes128_encrypt_block aes.rs:211-213 *)
Definition aes128_encrypt_block (k input : list Z) (nk nr : nat) : res (list Z) :=
  let* ks := seq_from_seq 0 k in aes_encrypt_block ks input nk nr Aes128.
(** aes256_encrypt_block aes.rs:214-216 *)
Definition aes256_encrypt_block (k input : list Z) (nk nr : nat) : res (list Z) :=
  let* ks := seq_from_seq 0 k in aes_encrypt_block ks input nk nr Aes256.
(** aes_ctr_keyblock aes.rs:218-223 *)
Definition aes_ctr_keyblock (k n : list Z) (c : Z) (nk nr : nat) (alg : aes_variant) : res (list Z) :=
  let input := seq_new 0 16 in
  let* input := update input 0 n in
  let* cb := word_to_be_bytes U32 c in
  let* input := update input 12 cb in
  aes_encrypt_block k input nk nr alg.
(** xor_block aes.rs:225-231 *)
Definition xor_block (block keyblock : list Z) : res (list Z) :=
  for_range 0 16 (fun i out =>
    let* x := idx out i in let* y := idx keyblock i in upd out i (op_xor x y)) block.
(** aes_counter_mode aes.rs:233-265 *)
Definition aes_counter_mode (key nonce : list Z) (counter : Z) (msg : list Z) (nk nr : nat)
    (alg : aes_variant) : res (list Z) :=
  let* n := num_chunks msg 16 in
  let* ' (blocks_out, _) := for_range 0 n (fun i '(blocks_out, ctr) =>
      let* ' (block_len, msg_block) := get_chunk 0 msg 16 i in
      let* key_block := aes_ctr_keyblock key nonce ctr nk nr alg in
      if (length msg_block =? 16)%nat then
        let* b := arr_from_seq 0 16 msg_block in
        let* x := xor_block b key_block in
        let* blocks_out := set_chunk blocks_out 16 i x in
        let* ctr := op_add U32 ctr 1 in
        Ok (blocks_out, ctr)
      else
        let* last_block := update_start (seq_new 0 16) msg_block in
        let* x := xor_block last_block key_block in
        let* x := subr 0 x 0 block_len in
        let* blocks_out := set_chunk blocks_out 16 i x in
        Ok (blocks_out, ctr)) (seq_new 0 (length msg), counter) in
  Ok blocks_out.
(** nk aes.rs:274-279 *)
Definition nk_of (alg : aes_variant) : nat := match alg with Aes128 => 4 | Aes256 => 8 end.
(** nr aes.rs:281-286 *)
Definition nr_of (alg : aes_variant) : nat := match alg with Aes128 => 10 | Aes256 => 14 end.
(** aes_encrypt aes.rs:288-290 *)
Definition aes_encrypt (key nonce : list Z) (counter : Z) (msg : list Z) (alg : aes_variant) : res (list Z) :=
  aes_counter_mode key nonce counter msg (nk_of alg) (nr_of alg) alg.
(** aes_decrypt aes.rs:292-294 *)
Definition aes_decrypt (key nonce : list Z) (counter : Z) (ctxt : list Z) (alg : aes_variant) : res (list Z) :=
  aes_counter_mode key nonce counter ctxt (nk_of alg) (nr_of alg) alg.
(** aes128_encrypt aes.rs:296-298 and aes256_encrypt aes.rs:303-305, by variant *)
Definition aes_encrypt_pub (key nonce : list Z) (counter : Z) (msg : list Z) (alg : aes_variant) : res (list Z) :=
  let* ks := seq_from_seq 0 key in aes_encrypt ks nonce counter msg alg.
(** aes128_decrypt aes.rs:299-301 and aes256_decrypt aes.rs:306-308, by variant *)
Definition aes_decrypt_pub (key nonce : list Z) (counter : Z) (ctxt : list Z) (alg : aes_variant) : res (list Z) :=
  let* ks := seq_from_seq 0 key in aes_decrypt ks nonce counter ctxt alg.

(** ** gf128.rs *)
(** IRRED gf128.rs:15 *)
Definition IRRED : Z := 0xE1000000000000000000000000000000.
(** fadd gf128.rs:17-19 *)
Definition fadd (x y : Z) : Z := op_xor x y.
(** fmul gf128.rs:21-35 *)
Definition fmul (x y : Z) : res Z :=
  let* ' (res, _) := for_range 0 128 (fun i '(res, sh) =>
    let* m := op_shl U128 1 (127 - Z.of_nat i) in
    let res := if negb (declassify (op_and y m) =? declassify 0) then op_xor res sh else res in
    let* s1 := op_shr U128 sh 1 in
    let sh := if negb (declassify (op_and sh 1) =? declassify 0) then op_xor s1 IRRED else s1 in
    Ok (res, sh)) (0, x) in
  Ok res.
(** encode gf128.rs:40-42 *)
Definition gf_encode (block : list Z) : res Z :=
  let* w := arr_from_seq 0 16 block in word_from_be_bytes U128 w.
(** decode gf128.rs:44-46 *)
Definition gf_decode (e : Z) : res (list Z) :=
  let* w := word_to_be_bytes U128 e in arr_from_seq 0 16 w.
(** update gf128.rs:49-51 *)
Definition gf_update (r : Z) (block : list Z) (acc : Z) : res Z :=
  let* e := gf_encode block in fmul (fadd e acc) r.
(** poly gf128.rs:53-71 *)
Definition gf_poly (msg : list Z) (r : Z) : res Z :=
  let l := length msg in
  let n_blocks := (l / 16)%nat in
  let rem := (l mod 16)%nat in
  let* acc := for_range 0 n_blocks (fun i acc =>
    let k := (i * 16)%nat in
    let block := seq_new 0 16 in
    let* s := subr 0 msg k (k + 16) in
    let* block := update_start block s in
    gf_update r block acc) 0 in
  if negb (rem =? 0)%nat then
    let k := (n_blocks * 16)%nat in
    let* last_block := update_sub (seq_new 0 16) 0 msg k rem in
    gf_update r last_block acc
  else Ok acc.
(** gmac gf128.rs:73-78 *)
Definition gmac (text k : list Z) : res (list Z) :=
  let s := seq_new 0 16 in
  let* kb := arr_from_seq 0 16 k in
  let* r := gf_encode kb in
  let* a := gf_poly text r in
  let* se := gf_encode s in
  let* d := gf_decode (fadd a se) in
  arr_from_seq 0 16 d.

(** ** aesgcm.rs *)
(** The padded length of aesgcm.rs:14-23 *)
Definition gcm_padded_len (l : nat) : nat := if (l mod 16 =? 0)%nat then l else (l + (16 - l mod 16))%nat.
(** pad_aad_msg aesgcm.rs:11-36; usize sums above 2^64 are not modelled *)
Definition gcm_pad_aad_msg (aad msg : list Z) : res (list Z) :=
  let laad := length aad in
  let lmsg := length msg in
  let pad_aad := gcm_padded_len laad in
  let pad_msg := gcm_padded_len lmsg in
  let padded_msg := seq_new 0 (pad_aad + pad_msg + 16) in
  let* padded_msg := update padded_msg 0 aad in
  let* padded_msg := update padded_msg pad_aad msg in
  let* x := op_mul U64 (cast u64 (Z.of_nat laad)) 8 in
  let* la := word_to_be_bytes U64 x in
  let* padded_msg := update padded_msg (pad_aad + pad_msg) la in
  let* x := op_mul U64 (cast u64 (Z.of_nat lmsg)) 8 in
  let* lm := word_to_be_bytes U64 x in
  update padded_msg (pad_aad + pad_msg + 8) lm.
(** encrypt_aes aesgcm.rs:38-56 *)
Definition gcm_encrypt (key iv aad msg : list Z) (alg : aes_variant) : res (list Z * list Z) :=
  let iv0 := seq_new 0 12 in
  let* mac_key := aes_ctr_keyblock key iv0 0 (nk_of alg) (nr_of alg) alg in
  let* tag_mix := aes_ctr_keyblock key iv 1 (nk_of alg) (nr_of alg) alg in
  let* cipher_text := aes_encrypt key iv 2 msg alg in
  let* padded_msg := gcm_pad_aad_msg aad cipher_text in
  let* gk := arr_from_seq 0 16 mac_key in
  let* tag := gmac padded_msg gk in
  let* tb := arr_from_seq 0 16 tag in
  let* tag := xor_block tb tag_mix in
  let* t := arr_from_seq 0 16 tag in
  Ok (cipher_text, t).
(** encrypt_aes128 aesgcm.rs:58-65 and encrypt_aes256 aesgcm.rs:67-74, by variant *)
Definition gcm_encrypt_pub (key iv aad msg : list Z) (alg : aes_variant) : res (list Z * list Z) :=
  let* ks := seq_from_seq 0 key in gcm_encrypt ks iv aad msg alg.
(** decrypt_aes aesgcm.rs:76-98; [None] is the Err result *)
Definition gcm_decrypt (key iv aad cipher_text tag : list Z) (alg : aes_variant) : res (option (list Z)) :=
  let iv0 := seq_new 0 12 in
  let* mac_key := aes_ctr_keyblock key iv0 0 (nk_of alg) (nr_of alg) alg in
  let* tag_mix := aes_ctr_keyblock key iv 1 (nk_of alg) (nr_of alg) alg in
  let* padded_msg := gcm_pad_aad_msg aad cipher_text in
  let* gk := arr_from_seq 0 16 mac_key in
  let* my_tag := gmac padded_msg gk in
  let* tb := arr_from_seq 0 16 my_tag in
  let* my_tag := xor_block tb tag_mix in
  let* t := arr_from_seq 0 16 tag in
  if list_eqb my_tag t then
    let* m := aes_decrypt key iv 2 cipher_text alg in Ok (Some m)
  else Ok None.
(** decrypt_aes128 aesgcm.rs:100-108 and decrypt_aes256 aesgcm.rs:110-118, by variant *)
Definition gcm_decrypt_pub (key iv aad cipher_text tag : list Z) (alg : aes_variant) : res (option (list Z)) :=
  let* ks := seq_from_seq 0 key in gcm_decrypt ks iv aad cipher_text tag alg.
