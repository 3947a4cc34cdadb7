(** The release profile of the specifications in /repo/spec-examples/src that M_Release does not cover:
    ChaCha20-Poly1305, AES and AES-GCM, SHA-3 and SHAKE, BLAKE2, X25519.
    The functions are those of M_ChaCha, M_AES, M_Keccak, M_Blake2 and M_X25519 with the library functions
    replaced by their release versions: no debug_assert!, usize subtractions, shift amounts and the
    counter of BLAKE2 wrap.  Functions in which neither occurs are shared with the debug model; that
    includes all arithmetic of secret integers, which wraps in both profiles, and the whole of
    p256.rs, whose only assertion is an assert_ne!.
    An allocation whose length does not follow from the length of an argument is [ralloc]. *)
From Coq Require Import ZArith List Bool Arith.
From Verif Require Import Base M_Int M_Seq M_Bytes M_Vec M_BigInt M_NatMod M_ChaCha M_AES M_Keccak M_Blake2 M_X25519 M_Release.
Import ListNotations.
Open Scope Z_scope.

(** ** Library functions *)
(** Shl secret-integers/src/lib.rs:153-156,268 *)
Definition rshl (t : ity) (a n : Z) : res Z := Ok (rop_shl t a n).
(** Shr secret-integers/src/lib.rs:153-156,269 *)
Definition rshr (t : ity) (a n : Z) : res Z := Ok (rop_shr t a n).
(** Integer::rotate_right traits.rs:115-119; its assertion is an assert!, and it keeps the negation
    of line 118 from overflowing *)
Definition rtr_rotate_right (t : ity) (a n : Z) : res Z :=
  let* _ := assert_ (n <? bits t) in
  let* r := rshr t a n in
  let* l := rshl t a (rot_amount t n) in
  Ok (op_or r l).
(** array from_sub_range array.rs:72-74,326-328 *)
Definition rarr_from_sub_range {A} (d : A) (l : nat) (input : list A) (a b : nat) : res (list A) :=
  rarr_from_sub d l input a (rusub b a).
(** Ux_to_be_bytes transmute.rs:13-15,35-37,57-59,79-81 *)
Definition rword_to_be_bytes (t : ity) (x : Z) : res (list Z) := rarr_from 0 (bytes_of t) (to_be_bytes t [x]).
(** Ux_to_le_bytes transmute.rs:8-10,30-32,52-54,74-76 *)
Definition rword_to_le_bytes (t : ity) (x : Z) : res (list Z) := rarr_from 0 (bytes_of t) (to_le_bytes t [x]).

(** ** ChaCha20-Poly1305 *)
(** state_to_bytes chacha20.rs:9-19 *)
Definition rstate_to_bytes (x : list Z) : res (list Z) :=
  for_range 0 (length x) (fun i r =>
    let* xi := idx x i in
    let* bytes := rword_to_be_bytes U32 xi in
    let* b := idx bytes 3 in let* r := upd r (i * 4) b in
    let* b := idx bytes 2 in let* r := upd r (i * 4 + 1) b in
    let* b := idx bytes 1 in let* r := upd r (i * 4 + 2) b in
    let* b := idx bytes 0 in upd r (i * 4 + 3) b) (seq_new 0 64).
(** The repeated expression [U32_from_le_bytes(U32Word::from_sub_range(&key, a..b))] of
    chacha20.rs:55-66 *)
Definition rload_word (src : list Z) (a b : nat) : res Z :=
  let* w := rarr_from_sub_range 0 4 src a b in word_from_le_bytes U32 w.
(** block_init chacha20.rs:49-68 *)
Definition rblock_init (key : list Z) (ctr : Z) (iv : list Z) : res (list Z) :=
  let* k0 := rload_word key 0 4 in
  let* k1 := rload_word key 4 8 in
  let* k2 := rload_word key 8 12 in
  let* k3 := rload_word key 12 16 in
  let* k4 := rload_word key 16 20 in
  let* k5 := rload_word key 20 24 in
  let* k6 := rload_word key 24 28 in
  let* k7 := rload_word key 28 32 in
  let* n0 := rload_word iv 0 4 in
  let* n1 := rload_word iv 4 8 in
  let* n2 := rload_word iv 8 12 in
  Ok [0x61707865; 0x3320646e; 0x79622d32; 0x6b206574;
      k0; k1; k2; k3; k4; k5; k6; k7; ctr; n0; n1; n2].
(** block_inner chacha20.rs:70-80 *)
Definition rblock_inner (key : list Z) (ctr : Z) (iv : list Z) : res (list Z) :=
  let* st := rblock_init key ctr iv in
  let* state := for_range 0 10 (fun _ state => double_round state) st in
  for_range 0 16 (fun i state =>
    let* x := idx state i in let* y := idx st i in
    let* z := op_add U32 x y in upd state i z) state.
(** block chacha20.rs:82-85 *)
Definition rblock (key : list Z) (ctr : Z) (iv : list Z) : res (list Z) :=
  let* state := rblock_inner key ctr iv in rstate_to_bytes state.
(** chacha chacha20.rs:87-99. The Rust result type is Result, but only Ok is ever built. *)
Definition rchacha (key iv m : list Z) : res (list Z) :=
  let* n := num_chunks m 64 in
  let* ' (blocks_out, _) := for_range 0 n (fun i '(blocks_out, ctr) =>
      let* ' (block_len, msg_block) := rget_chunk 0 m 64 i in
      let* key_block := rblock key ctr iv in
      let msg_block_padded := seq_new 0 64 in
      let* msg_block_padded := rupdate_start msg_block_padded msg_block in
      let* x := sarr_xor 64 msg_block_padded key_block in
      let* x := rsubr 0 x 0 block_len in
      let* blocks_out := rset_chunk blocks_out 64 i x in
      let* ctr := op_add U32 ctr 1 in
      Ok (blocks_out, ctr)) (seq_new 0 (length m), 1) in
  Ok blocks_out.
(** key_gen poly1305.rs:23-26 *)
Definition rkey_gen (key iv : list Z) : res (list Z) :=
  let* b := rblock key 0 iv in rarr_from_sub_range 0 32 b 0 32.
(** encode_r poly1305.rs:28-34 *)
Definition rencode_r (r : list Z) : res Z :=
  let r_128 := seq_new 0 16 in
  let* r_128 := rupdate_sub r_128 0 r 0 16 in
  let* r_uint := word_from_le_bytes U128 r_128 in
  let r_uint := op_and r_uint 0x0ffffffc0ffffffc0ffffffc0fffffff in
  nm_from_secret_literal fe_bits fe_mod r_uint.
(** encode poly1305.rs:36-43 *)
Definition rencode (block : list Z) : res Z :=
  let block_as_u128 := seq_new 0 16 in
  let block_len := length block in
  let* block_as_u128 := rupdate_sub block_as_u128 0 block 0 (Nat.min 16 block_len) in
  let* w := word_from_le_bytes U128 block_as_u128 in
  let* w_elem := nm_from_secret_literal fe_bits fe_mod w in
  let* l := bpow2 fe_bits false (8 * block_len) in
  let* l_elem := nm_of_base fe_bits fe_mod l in
  nm_add fe_bits fe_mod w_elem l_elem.
(** poly_inner poly1305.rs:45-55: iteration k of [(0..m_len).step_by(16)] has i = 16*k *)
Definition rpoly_inner (m : list Z) (r : Z) : res Z :=
  let* acc := nm_from_literal fe_bits fe_mod 0 in
  let m_len := length m in
  for_range 0 ((m_len + 15) / 16) (fun k acc =>
    let i := (16 * k)%nat in
    let block_len := Nat.min 16 (m_len - i) in
    let b := seq_new 0 block_len in
    let* b := rupdate_sub b 0 m i block_len in
    let* e := rencode b in
    let* s := nm_add fe_bits fe_mod acc e in
    nm_mul fe_bits fe_mod s r) acc.
(** poly poly1305.rs:57-72 *)
Definition rpoly (m key : list Z) : res (list Z) :=
  let* sw := rarr_from_sub 0 16 key 16 16 in
  let* s := word_from_le_bytes U128 sw in
  let* s_elem := nm_from_secret_literal fe_bits fe_mod s in
  let* rb := rarr_from_sub_range 0 16 key 0 16 in
  let* r_elem := rencode_r rb in
  let* a := rpoly_inner m r_elem in
  let* n := nm_add fe_bits fe_mod a s_elem in
  let n_v := nm_to_public_byte_seq_le n in
  let tag := seq_new 0 16 in
  for_range 0 (Nat.min (length tag) (length n_v)) (fun i tag =>
    let* b := idx n_v i in upd tag i b) tag.
(** poly_mac poly1305.rs:74-77 *)
Definition rpoly_mac (m key iv : list Z) : res (list Z) :=
  let* mac_key := rkey_gen key iv in rpoly m mac_key.
(** pad_aad_msg chacha20poly1305.rs:8-27; the allocation of line 21 can fail. usize sums that exceed
    2^64 are not modelled (no two byte sequences in memory are that long) *)
Definition rpad_aad_msg (aad msg : list Z) : res (list Z) :=
  let laad := length aad in
  let lmsg := length msg in
  let pad_aad := padded_len laad in
  let pad_msg := padded_len lmsg in
  let* padded_msg := ralloc 0 (pad_aad + pad_msg + 16) in
  let* padded_msg := rupdate padded_msg 0 aad in
  let* padded_msg := rupdate padded_msg pad_aad msg in
  let* la := rword_to_le_bytes U64 (cast u64 (Z.of_nat laad)) in
  let* padded_msg := rupdate padded_msg (pad_aad + pad_msg) la in
  let* lm := rword_to_le_bytes U64 (cast u64 (Z.of_nat lmsg)) in
  rupdate padded_msg (pad_aad + pad_msg + 8) lm.
(** encrypt chacha20poly1305.rs:29-42 (the Err branch is unreachable, see chacha) *)
Definition rcp_encrypt (key iv aad msg : list Z) : res (list Z * list Z) :=
  let* key_block := rblock key 0 iv in
  let* mac_key := rarr_from_sub_range 0 32 key_block 0 32 in
  let* cipher_text := rchacha key iv msg in
  let* padded_msg := rpad_aad_msg aad cipher_text in
  let* tag := rpoly padded_msg mac_key in
  Ok (cipher_text, tag).
(** decrypt chacha20poly1305.rs:44-66; [None] is the Err result *)
Definition rcp_decrypt (key iv aad cipher_text tag : list Z) : res (option (list Z)) :=
  let* key_block := rblock key 0 iv in
  let* mac_key := rarr_from_sub_range 0 32 key_block 0 32 in
  let* padded_msg := rpad_aad_msg aad cipher_text in
  let* my_tag := rpoly padded_msg mac_key in
  if list_eqb my_tag tag then
    let* c := rchacha key iv cipher_text in Ok (Some c)
  else Ok None.

(** ** AES, GF(2^128), AES-GCM *)
(** xtime aes.rs:68-74 *)
Definition rxtime (x : Z) : res Z :=
  let* x1 := rshl U8 x 1 in
  let* x7 := rshr U8 x 7 in
  let x71 := op_and x7 0x01 in
  let* x711b := op_mul U8 x71 0x1b in
  Ok (op_xor x1 x711b).
(** mix_column aes.rs:76-89 *)
Definition rmix_column (c : nat) (state : list Z) : res (list Z) :=
  let i0 := (4 * c)%nat in
  let* s0 := idx state i0 in
  let* s1 := idx state (i0 + 1) in
  let* s2 := idx state (i0 + 2) in
  let* s3 := idx state (i0 + 3) in
  let st := state in
  let tmp := op_xor (op_xor (op_xor s0 s1) s2) s3 in
  let* x := rxtime (op_xor s0 s1) in let* st := upd st i0 (op_xor (op_xor s0 tmp) x) in
  let* x := rxtime (op_xor s1 s2) in let* st := upd st (i0 + 1) (op_xor (op_xor s1 tmp) x) in
  let* x := rxtime (op_xor s2 s3) in let* st := upd st (i0 + 2) (op_xor (op_xor s2 tmp) x) in
  let* x := rxtime (op_xor s3 s0) in upd st (i0 + 3) (op_xor (op_xor s3 tmp) x).
(** mix_columns aes.rs:91-96 *)
Definition rmix_columns (state : list Z) : res (list Z) :=
  let* state := rmix_column 0 state in
  let* state := rmix_column 1 state in
  let* state := rmix_column 2 state in
  rmix_column 3 state.
(** aes_enc aes.rs:106-111 *)
Definition raes_enc (state round_key : list Z) : res (list Z) :=
  let* state := sub_bytes state in
  let* state := shift_rows state in
  let* state := rmix_columns state in
  add_round_key state round_key.
(** rounds_aes aes.rs:119-126 *)
Definition rrounds_aes (state key : list Z) : res (list Z) :=
  let* n := num_chunks key 16 in
  for_range 0 n (fun i out =>
    let* ' (_, key_block) := rget_chunk 0 key 16 i in
    let* rk := rarr_from 0 16 key_block in
    raes_enc out rk) state.
(** block_cipher_aes aes.rs:128-135; [nr * 16] wraps *)
Definition rblock_cipher_aes (input key : list Z) (nr : nat) : res (list Z) :=
  let* k0 := rarr_from_sub_range 0 16 key 0 16 in
  let* k := rsubr 0 key 16 (uwrap (nr * 16)) in
  let* kn := rarr_from_sub 0 16 key (uwrap (nr * 16)) 16 in
  let* state := add_round_key input k0 in
  let* state := rrounds_aes state k in
  aes_enc_last state kn.
(** key_expansion_word aes.rs:157-169; [4 * (nr + 1)] wraps *)
Definition rkey_expansion_word (w0 w1 : list Z) (i nk nr : nat) : res (list Z) :=
  let* _ := assert_ (i <? uwrap (4 * uwrap (nr + 1)))%nat in
  let k := w1 in
  let* q := udiv i nk in
  let* k := (if (i mod nk =? 0)%nat then let* rc := idx RCON q in aes_keygen_assist k rc
             else if ((6 <? nk) && (i mod nk =? 4))%nat then sub_word k
             else Ok k) in
  for_range 0 4 (fun i k => let* x := idx k i in let* y := idx w0 i in upd k i (op_xor x y)) k.
(** key_expansion_aes aes.rs:177-204 *)
Definition rkey_expansion_aes (key : list Z) (nk nr : nat) (alg : aes_variant) : res (list Z) :=
  let key_ex := seq_new 0 (match alg with Aes128 => 176 | Aes256 => 240 end) in
  let* key_ex := rupdate_start key_ex key in
  let num_iters := (match alg with Aes128 => 40 | Aes256 => 52 end)%nat in
  let word_size := (match alg with Aes128 => 4 | Aes256 => 8 end)%nat in
  for_range 0 num_iters (fun j key_ex =>
    let i := (j + word_size)%nat in
    let im := rusub i word_size in
    let* w0 := rarr_from_sub 0 4 key_ex (4 * im) 4 in
    let i4 := rusub (4 * i) 4 in
    let* w1 := rarr_from_sub 0 4 key_ex i4 4 in
    let* word := rkey_expansion_word w0 w1 i nk nr in
    rupdate key_ex (4 * i) word) key_ex.
(** aes_encrypt_block aes.rs:206-209 *)
Definition raes_encrypt_block (k input : list Z) (nk nr : nat) (alg : aes_variant) : res (list Z) :=
  let* key_ex := rkey_expansion_aes k nk nr alg in
  rblock_cipher_aes input key_ex nr.
(** aes128_encrypt_block aes.rs:211-213 *)
Definition raes128_encrypt_block (k input : list Z) (nk nr : nat) : res (list Z) :=
  let* ks := seq_from_seq 0 k in raes_encrypt_block ks input nk nr Aes128.
(** aes256_encrypt_block aes.rs:214-216 *)
Definition raes256_encrypt_block (k input : list Z) (nk nr : nat) : res (list Z) :=
  let* ks := seq_from_seq 0 k in raes_encrypt_block ks input nk nr Aes256.
(** aes_ctr_keyblock aes.rs:218-223 *)
Definition raes_ctr_keyblock (k n : list Z) (c : Z) (nk nr : nat) (alg : aes_variant) : res (list Z) :=
  let input := seq_new 0 16 in
  let* input := rupdate input 0 n in
  let* cb := rword_to_be_bytes U32 c in
  let* input := rupdate input 12 cb in
  raes_encrypt_block k input nk nr alg.
(** aes_counter_mode aes.rs:233-265 *)
Definition raes_counter_mode (key nonce : list Z) (counter : Z) (msg : list Z) (nk nr : nat)
    (alg : aes_variant) : res (list Z) :=
  let* n := num_chunks msg 16 in
  let* ' (blocks_out, _) := for_range 0 n (fun i '(blocks_out, ctr) =>
      let* ' (block_len, msg_block) := rget_chunk 0 msg 16 i in
      let* key_block := raes_ctr_keyblock key nonce ctr nk nr alg in
      if (length msg_block =? 16)%nat then
        let* b := rarr_from 0 16 msg_block in
        let* x := xor_block b key_block in
        let* blocks_out := rset_chunk blocks_out 16 i x in
        let* ctr := op_add U32 ctr 1 in
        Ok (blocks_out, ctr)
      else
        let* last_block := rupdate_start (seq_new 0 16) msg_block in
        let* x := xor_block last_block key_block in
        let* x := rsubr 0 x 0 block_len in
        let* blocks_out := rset_chunk blocks_out 16 i x in
        Ok (blocks_out, ctr)) (seq_new 0 (length msg), counter) in
  Ok blocks_out.
(** aes_encrypt aes.rs:288-290 *)
Definition raes_encrypt (key nonce : list Z) (counter : Z) (msg : list Z) (alg : aes_variant) : res (list Z) :=
  raes_counter_mode key nonce counter msg (nk_of alg) (nr_of alg) alg.
(** aes_decrypt aes.rs:292-294 *)
Definition raes_decrypt (key nonce : list Z) (counter : Z) (ctxt : list Z) (alg : aes_variant) : res (list Z) :=
  raes_counter_mode key nonce counter ctxt (nk_of alg) (nr_of alg) alg.
(** aes128_encrypt aes.rs:296-298 and aes256_encrypt aes.rs:303-305, by variant *)
Definition raes_encrypt_pub (key nonce : list Z) (counter : Z) (msg : list Z) (alg : aes_variant) : res (list Z) :=
  let* ks := seq_from_seq 0 key in raes_encrypt ks nonce counter msg alg.
(** aes128_decrypt aes.rs:299-301 and aes256_decrypt aes.rs:306-308, by variant *)
Definition raes_decrypt_pub (key nonce : list Z) (counter : Z) (ctxt : list Z) (alg : aes_variant) : res (list Z) :=
  let* ks := seq_from_seq 0 key in raes_decrypt ks nonce counter ctxt alg.
(** fmul gf128.rs:21-35 *)
Definition rfmul (x y : Z) : res Z :=
  let* ' (res, _) := for_range 0 128 (fun i '(res, sh) =>
    let* m := rshl U128 1 (127 - Z.of_nat i) in
    let res := if negb (declassify (op_and y m) =? declassify 0) then op_xor res sh else res in
    let* s1 := rshr U128 sh 1 in
    let sh := if negb (declassify (op_and sh 1) =? declassify 0) then op_xor s1 IRRED else s1 in
    Ok (res, sh)) (0, x) in
  Ok res.
(** encode gf128.rs:40-42 *)
Definition rgf_encode (block : list Z) : res Z :=
  let* w := rarr_from 0 16 block in word_from_be_bytes U128 w.
(** decode gf128.rs:44-46 *)
Definition rgf_decode (e : Z) : res (list Z) :=
  let* w := rword_to_be_bytes U128 e in rarr_from 0 16 w.
(** update gf128.rs:49-51 *)
Definition rgf_update (r : Z) (block : list Z) (acc : Z) : res Z :=
  let* e := rgf_encode block in rfmul (fadd e acc) r.
(** poly gf128.rs:53-71 *)
Definition rgf_poly (msg : list Z) (r : Z) : res Z :=
  let l := length msg in
  let n_blocks := (l / 16)%nat in
  let rem := (l mod 16)%nat in
  let* acc := for_range 0 n_blocks (fun i acc =>
    let k := (i * 16)%nat in
    let block := seq_new 0 16 in
    let* s := rsubr 0 msg k (k + 16) in
    let* block := rupdate_start block s in
    rgf_update r block acc) 0 in
  if negb (rem =? 0)%nat then
    let k := (n_blocks * 16)%nat in
    let* last_block := rupdate_sub (seq_new 0 16) 0 msg k rem in
    rgf_update r last_block acc
  else Ok acc.
(** gmac gf128.rs:73-78 *)
Definition rgmac (text k : list Z) : res (list Z) :=
  let s := seq_new 0 16 in
  let* kb := rarr_from 0 16 k in
  let* r := rgf_encode kb in
  let* a := rgf_poly text r in
  let* se := rgf_encode s in
  let* d := rgf_decode (fadd a se) in
  rarr_from 0 16 d.
(** pad_aad_msg aesgcm.rs:11-36; the allocation of line 24 can fail. usize sums above 2^64 are not modelled *)
Definition rgcm_pad_aad_msg (aad msg : list Z) : res (list Z) :=
  let laad := length aad in
  let lmsg := length msg in
  let pad_aad := gcm_padded_len laad in
  let pad_msg := gcm_padded_len lmsg in
  let* padded_msg := ralloc 0 (pad_aad + pad_msg + 16) in
  let* padded_msg := rupdate padded_msg 0 aad in
  let* padded_msg := rupdate padded_msg pad_aad msg in
  let* x := op_mul U64 (cast u64 (Z.of_nat laad)) 8 in
  let* la := rword_to_be_bytes U64 x in
  let* padded_msg := rupdate padded_msg (pad_aad + pad_msg) la in
  let* x := op_mul U64 (cast u64 (Z.of_nat lmsg)) 8 in
  let* lm := rword_to_be_bytes U64 x in
  rupdate padded_msg (pad_aad + pad_msg + 8) lm.
(** encrypt_aes aesgcm.rs:38-56 *)
Definition rgcm_encrypt (key iv aad msg : list Z) (alg : aes_variant) : res (list Z * list Z) :=
  let iv0 := seq_new 0 12 in
  let* mac_key := raes_ctr_keyblock key iv0 0 (nk_of alg) (nr_of alg) alg in
  let* tag_mix := raes_ctr_keyblock key iv 1 (nk_of alg) (nr_of alg) alg in
  let* cipher_text := raes_encrypt key iv 2 msg alg in
  let* padded_msg := rgcm_pad_aad_msg aad cipher_text in
  let* gk := rarr_from 0 16 mac_key in
  let* tag := rgmac padded_msg gk in
  let* tb := rarr_from 0 16 tag in
  let* tag := xor_block tb tag_mix in
  let* t := rarr_from 0 16 tag in
  Ok (cipher_text, t).
(** encrypt_aes128 aesgcm.rs:58-65 and encrypt_aes256 aesgcm.rs:67-74, by variant *)
Definition rgcm_encrypt_pub (key iv aad msg : list Z) (alg : aes_variant) : res (list Z * list Z) :=
  let* ks := seq_from_seq 0 key in rgcm_encrypt ks iv aad msg alg.
(** decrypt_aes aesgcm.rs:76-98; [None] is the Err result *)
Definition rgcm_decrypt (key iv aad cipher_text tag : list Z) (alg : aes_variant) : res (option (list Z)) :=
  let iv0 := seq_new 0 12 in
  let* mac_key := raes_ctr_keyblock key iv0 0 (nk_of alg) (nr_of alg) alg in
  let* tag_mix := raes_ctr_keyblock key iv 1 (nk_of alg) (nr_of alg) alg in
  let* padded_msg := rgcm_pad_aad_msg aad cipher_text in
  let* gk := rarr_from 0 16 mac_key in
  let* my_tag := rgmac padded_msg gk in
  let* tb := rarr_from 0 16 my_tag in
  let* my_tag := xor_block tb tag_mix in
  let* t := rarr_from 0 16 tag in
  if list_eqb my_tag t then
    let* m := raes_decrypt key iv 2 cipher_text alg in Ok (Some m)
  else Ok None.
(** decrypt_aes128 aesgcm.rs:100-108 and decrypt_aes256 aesgcm.rs:110-118, by variant *)
Definition rgcm_decrypt_pub (key iv aad cipher_text tag : list Z) (alg : aes_variant) : res (option (list Z)) :=
  let* ks := seq_from_seq 0 key in rgcm_decrypt ks iv aad cipher_text tag alg.

(** ** SHA-3 and SHAKE *)
(** absorb_block fips202.rs:115-122; i >> 3 and i & 7 on usize *)
Definition rabsorb_block (s block : list Z) : res (list Z) :=
  let* s := for_range 0 (length block) (fun i s =>
    let* b := idx block i in
    let w := (i / 8)%nat in
    let o := 8 * Z.of_nat (i mod 8) in
    let* x := idx s w in
    let* y := rshl U64 (cast U64 b) o in
    upd s w (op_xor x y)) s in
  keccakf1600 s.
(** squeeze fips202.rs:124-137; % by a zero rate panics, and so does a failed allocation (line 125) *)
Definition rsqueeze (s : list Z) (nbytes rate : nat) : res (list Z) :=
  let* out := ralloc 0 nbytes in
  let* ' (out, _) := for_range 0 nbytes (fun i '(out, s) =>
    let* pos := (if (rate =? 0)%nat then Panic PDivZero else Ok (i mod rate)%nat) in
    let w := (pos / 8)%nat in
    let o := 8 * Z.of_nat (pos mod 8) in
    let* x := idx s w in
    let* x := rshr U64 x o in
    let* out := upd out i (cast U8 (op_and x 0xff)) in
    let* s := (if ((i + 1) mod rate =? 0)%nat then keccakf1600 s else Ok s) in
    Ok (out, s)) (out, s) in
  Ok out.
(** keccak fips202.rs:139-158 *)
Definition rkeccak (rate : nat) (data : list Z) (p : Z) (outbytes : nat) : res (list Z) :=
  let buf := seq_new 0 rate in
  let* n := num_chunks data rate in
  let* ' (s, buf, last_block_len) := for_range 0 n (fun i '(s, buf, last_block_len) =>
    let* ' (block_len, block) := rget_chunk 0 data rate i in
    if (block_len =? rate)%nat then
      let* s := rabsorb_block s block in Ok (s, buf, last_block_len)
    else
      let* buf := rupdate_start buf block in Ok (s, buf, block_len)) (seq_new 0 25, buf, 0%nat) in
  let* buf := upd buf last_block_len p in
  let k := rusub rate 1 in
  let* x := idx buf k in
  let* buf := upd buf k (op_or x 128) in
  let* s := rabsorb_block s buf in
  rsqueeze s outbytes rate.
(** sha3224 fips202.rs:160-163 *)
Definition rsha3224 (data : list Z) : res (list Z) :=
  let* t := rkeccak sha3224_rate data 0x06 28 in rarr_from 0 28 t.
(** sha3256 fips202.rs:165-168 *)
Definition rsha3256 (data : list Z) : res (list Z) :=
  let* t := rkeccak sha3256_rate data 0x06 32 in rarr_from 0 32 t.
(** sha3384 fips202.rs:170-173 *)
Definition rsha3384 (data : list Z) : res (list Z) :=
  let* t := rkeccak sha3384_rate data 0x06 48 in rarr_from 0 48 t.
(** sha3512 fips202.rs:175-178 *)
Definition rsha3512 (data : list Z) : res (list Z) :=
  let* t := rkeccak sha3512_rate data 0x06 64 in rarr_from 0 64 t.
(** shake128 fips202.rs:180-182 *)
Definition rshake128 (data : list Z) (outlen : nat) : res (list Z) := rkeccak shake128_rate data 0x1f outlen.
(** shake256 fips202.rs:184-186 *)
Definition rshake256 (data : list Z) (outlen : nat) : res (list Z) := rkeccak shake256_rate data 0x1f outlen.

(** ** BLAKE2 *)
(** mix blake2b.rs:49-72; rotate_right is the one of the trait Integer *)
Definition rmix (t : ity) (v : list Z) (a b c d : nat) (x y : Z) : res (list Z) :=
  let* va := idx v a in let* vb := idx v b in
  let* s := op_add t va vb in let* s := op_add t s x in
  let* v := upd v a s in
  let* vd := idx v d in let* va := idx v a in
  let* r := rtr_rotate_right t (op_xor vd va) 32 in
  let* v := upd v d r in
  let* vc := idx v c in let* vd := idx v d in
  let* s := op_add t vc vd in
  let* v := upd v c s in
  let* vb := idx v b in let* vc := idx v c in
  let* r := rtr_rotate_right t (op_xor vb vc) 24 in
  let* v := upd v b r in
  let* va := idx v a in let* vb := idx v b in
  let* s := op_add t va vb in let* s := op_add t s y in
  let* v := upd v a s in
  let* vd := idx v d in let* va := idx v a in
  let* r := rtr_rotate_right t (op_xor vd va) 16 in
  let* v := upd v d r in
  let* vc := idx v c in let* vd := idx v d in
  let* s := op_add t vc vd in
  let* v := upd v c s in
  let* vb := idx v b in let* vc := idx v c in
  let* r := rtr_rotate_right t (op_xor vb vc) 63 in
  upd v b r.
(** make_array blake2b.rs:84-92; from_le_bytes first copies into a word array
    (traits.rs:318-350), which asserts the length *)
Definition rmake_array (t : ity) (h : list Z) : res (list Z) :=
  let* _ := assert_ (length h / bytes_of t =? 16)%nat in
  for_range 0 16 (fun i result =>
    let* ' (_, h_chunk) := rget_chunk 0 h (bytes_of t) i in
    let* w := rarr_from 0 (bytes_of t) h_chunk in
    let* x := word_from_le_bytes t w in
    upd result i x) (seq_new 0 16).
(** One call of mix in the loop of compress, blake2b.rs:142-158: the words m[SIGMA[i*16+k]] and the next *)
Definition rmix_call (t : ity) (m : list Z) (i k : nat) (v : list Z) (a b c d : nat) : res (list Z) :=
  let* j := idx blake_sigma (i * 16 + k) in let* x := idx m j in
  let* j := idx blake_sigma (i * 16 + (k + 1)) in let* y := idx m j in
  rmix t v a b c d x y.
(** The body of the loop of compress, blake2b.rs:142-158 *)
Definition rcompress_round (t : ity) (m : list Z) (i : nat) (v : list Z) : res (list Z) :=
  let* v := rmix_call t m i 0 v 0 4 8 12 in
  let* v := rmix_call t m i 2 v 1 5 9 13 in
  let* v := rmix_call t m i 4 v 2 6 10 14 in
  let* v := rmix_call t m i 6 v 3 7 11 15 in
  let* v := rmix_call t m i 8 v 0 5 10 15 in
  let* v := rmix_call t m i 10 v 1 6 11 12 in
  let* v := rmix_call t m i 12 v 2 7 8 13 in
  rmix_call t m i 14 v 3 4 9 14.
(** compress blake2b.rs:112-166 *)
Definition rcompress (t : ity) (h m : list Z) (ctr : list Z) (last_block : bool) (alg : blake_variant) : res (list Z) :=
  let v := seq_new 0 16 in
  let* m := rmake_array t m in
  let* v := rupdate_sub v 0 h 0 8 in
  let* v := rupdate_sub v 8 (iv t) 0 8 in
  let* old_v12 := idx v 12 in let* t0 := idx ctr 0 in
  let* v := upd v 12 (op_xor old_v12 (classify t0)) in
  let* old_v13 := idx v 13 in let* t1 := idx ctr 1 in
  let* v := upd v 13 (op_xor old_v13 (classify t1)) in
  let* v := (if last_block then let* old_v14 := idx v 14 in upd v 14 (op_not t old_v14) else Ok v) in
  let num_rounds := match alg with Blake2S => 10%nat | Blake2B => 12%nat end in
  let* v := for_range 0 num_rounds (rcompress_round t m) v in
  for_range 0 8 (fun i compressed =>
    let* hi := idx h i in let* vi := idx v i in let* vi8 := idx v (i + 8) in
    upd compressed i (op_xor (op_xor hi vi) vi8)) (seq_new 0 8).
(** get_byte blake2b.rs:169-172 *)
Definition rblake_get_byte (t : ity) (x : Z) (i : nat) : res Z :=
  let b := rget_byte t x (Z.of_nat i) in
  let* bytes := rword_to_le_bytes t b in
  idx bytes 0.
(** blake2 blake2b.rs:174-205 *)
Definition rblake2 (t : ity) (data : list Z) (alg : blake_variant) : res (list Z) :=
  let pt := public_version t in
  let h := iv t in
  let* h0 := idx h 0 in
  let* h := upd h 0 (op_xor (op_xor h0 (from_literal t 0x01010000)) (from_literal t 64)) in
  let* n := num_chunks data 128 in
  let* ' (h, _) := for_range 0 n (fun i '(h, ctr) =>
    let* ' (block_len, block) := rget_chunk 0 data 128 i in
    if (block_len =? 128)%nat then
      let* ctr := rinc_counter pt ctr (from_literal pt 128) in
      let* b := seq_from_seq 0 block in
      let* h := rcompress t h b ctr false alg in
      Ok (h, ctr)
    else
      let* ctr := rinc_counter pt ctr (from_literal pt (Z.of_nat block_len)) in
      let* compress_input := rupdate_start (seq_new 0 128) block in
      let* h := rcompress t h compress_input ctr true alg in
      Ok (h, ctr)) (h, seq_new 0 2) in
  let digest_size := match alg with Blake2S => 32%nat | Blake2B => 64%nat end in
  for_range 0 8 (fun i d =>
    for_range 0 8 (fun j d =>
      let* hi := idx h i in
      let* b := rblake_get_byte t hi j in
      upd d (i * 8 + j) b) d) (seq_new 0 digest_size).
(** blake2b blake2b.rs:207-209 *)
Definition rblake2b (data : list Z) : res (list Z) :=
  let* d := rblake2 U64 data Blake2B in rarr_from 0 64 d.

(** ** X25519 *)
(** encode_point curve25519.rs:44-48 *)
Definition rencode_point (p : xpoint) : res (list Z) :=
  let (x, y) := p in
  let* i := nm_inv 256 x_p y in
  let* b := nm_mul 256 x_p x i in
  rupdate_start (seq_new 0 32) (nm_to_byte_seq_le b).
(** body of the loop of montgomery_ladder curve25519.rs:81-87 *)
Definition rx_ladder_step (k : Z) (init : xpoint) (i : nat) (acc : xpoint * xpoint) : res (xpoint * xpoint) :=
  let j := rusub 255 i in
  let* b := nm_bit 256 k j in
  if b
  then
    let acc := xswap acc in
    let* acc := point_add_and_double init acc in
    Ok (xswap acc)
  else point_add_and_double init acc.
(** montgomery_ladder curve25519.rs:76-90 *)
Definition rx_montgomery_ladder (k : Z) (init : xpoint) : res xpoint :=
  let* one := nm_from_literal 256 x_p 1 in
  let* zero := nm_from_literal 256 x_p 0 in
  let* acc := for_range 0 256 (rx_ladder_step k init) ((one, zero), init) in
  Ok (fst acc).
(** scalarmult curve25519.rs:92-97 *)
Definition rscalarmult (s p : list Z) : res (list Z) :=
  let* s_ := decode_scalar s in
  let* p_ := decode_point p in
  let* r := rx_montgomery_ladder s_ p_ in
  rencode_point r.
(** secret_to_public curve25519.rs:99-102; 48 and 57 are the characters of "09" *)
Definition rsecret_to_public (s : list Z) : res (list Z) :=
  let* base := rarr_from_hex 32 [48; 57] in
  rscalarmult s base.
