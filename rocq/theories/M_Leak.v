(** What the code of /repo/spec-examples/src/aes_gcm makes public: the functions of aes.rs, gf128.rs and aesgcm.rs
    that (directly or through calls) turn secret values into public ones, with a record of every such value in order.
    secret-integers/src/lib.rs:13-15 says of [declassify]: "Your crypto code should not contain any `declassify`
    occurence though to guarantee constant-timedness".
    Functions without such calls are taken from M_AES as they are. *)
From Coq Require Import ZArith List Bool Arith.
From Verif Require Import Base M_Int M_Seq M_Bytes M_Vec M_AES.
Import ListNotations.
Open Scope Z_scope.

(** A computation with the values it makes public (through secret-integers/src/lib.rs:179-183) *)
Definition traced (A : Type) : Type := (res A * list Z)%type.
(** a computation that makes nothing public (no call of secret-integers/src/lib.rs:179-183) *)
Definition quiet {A} (r : res A) : traced A := (r, []).
(** Sequencing; a panic ends the record (Rust language; e.g. the statements of aes.rs:106-111) *)
Definition tbind {A B} (x : traced A) (f : A -> traced B) : traced B :=
  match fst x with
  | Ok a => let y := f a in (fst y, snd x ++ snd y)
  | Panic p => (Panic p, snd x)
  end.
Notation "'let!' x := a 'in' b" := (tbind a (fun x => b))
  (at level 200, x name, a at level 100, b at level 200, right associativity) : res_scope.
Notation "'let!' ' x := a 'in' b" := (tbind a (fun x => b))
  (at level 200, x strict pattern, a at level 100, b at level 200, right associativity) : res_scope.
(** [for i in start..start+count], e.g. aes.rs:47 *)
Fixpoint for_range_t {S : Type} (start count : nat) (f : nat -> S -> traced S) (s : S) : traced S :=
  match count with
  | O => quiet (Ok s)
  | Datatypes.S c => let! s' := f start s in for_range_t (Datatypes.S start) c f s'
  end.
(** declassify secret-integers/src/lib.rs:179-183: the value becomes public *)
Definition declassify_t (x : Z) : traced Z := (Ok (declassify x), [declassify x]).

(** The table lookups [SBOX[U8::declassify(x)]], [SBOX[usize::from(x)]] of aes.rs:48,143-146 *)
Definition sbox_at_t (x : Z) : traced Z :=
  let! i := declassify_t x in quiet (idx SBOX (Z.to_nat i)).
(** sub_bytes aes.rs:45-51 *)
Definition sub_bytes_t (state : list Z) : traced (list Z) :=
  for_range_t 0 16 (fun i st => let! x := quiet (idx state i) in let! y := sbox_at_t x in quiet (upd st i y)) state.
(** aes_enc aes.rs:106-111 *)
Definition aes_enc_t (state round_key : list Z) : traced (list Z) :=
  let! state := sub_bytes_t state in
  let! state := quiet (shift_rows state) in
  let! state := quiet (mix_columns state) in
  quiet (add_round_key state round_key).
(** aes_enc_last aes.rs:113-117 *)
Definition aes_enc_last_t (state round_key : list Z) : traced (list Z) :=
  let! state := sub_bytes_t state in
  let! state := quiet (shift_rows state) in
  quiet (add_round_key state round_key).
(** rounds_aes aes.rs:119-126 *)
Definition rounds_aes_t (state key : list Z) : traced (list Z) :=
  let! n := quiet (num_chunks key 16) in
  for_range_t 0 n (fun i out =>
    let! ' (_, key_block) := quiet (get_chunk 0 key 16 i) in
    let! rk := quiet (arr_from_seq 0 16 key_block) in
    aes_enc_t out rk) state.
(** block_cipher_aes aes.rs:128-135 *)
Definition block_cipher_aes_t (input key : list Z) (nr : nat) : traced (list Z) :=
  let! k0 := quiet (arr_from_sub_range 0 16 key 0 16) in
  let! k := quiet (from_sub_range 0 key 16 (nr * 16)) in
  let! kn := quiet (arr_from_sub 0 16 key (nr * 16) 16) in
  let! state := quiet (add_round_key input k0) in
  let! state := rounds_aes_t state k in
  aes_enc_last_t state kn.
(** sub_word aes.rs:141-148 *)
Definition sub_word_t (w : list Z) : traced (list Z) :=
  let! x := quiet (idx w 0) in let! a := sbox_at_t x in
  let! x := quiet (idx w 1) in let! b := sbox_at_t x in
  let! x := quiet (idx w 2) in let! c := sbox_at_t x in
  let! x := quiet (idx w 3) in let! d := sbox_at_t x in
  quiet (Ok [a; b; c; d]).
(** aes_keygen_assist aes.rs:150-155 *)
Definition aes_keygen_assist_t (w : list Z) (rcon : Z) : traced (list Z) :=
  let! k := quiet (rotate_word w) in
  let! k := sub_word_t k in
  let! x := quiet (idx k 0) in quiet (upd k 0 (op_xor x rcon)).
(** key_expansion_word aes.rs:157-169 *)
Definition key_expansion_word_t (w0 w1 : list Z) (i nk nr : nat) : traced (list Z) :=
  let! _ := quiet (assert_ (i <? 4 * (nr + 1))%nat) in
  let k := w1 in
  let! q := quiet (udiv i nk) in
  let! k := (if (i mod nk =? 0)%nat then let! rc := quiet (idx RCON q) in aes_keygen_assist_t k rc
             else if ((6 <? nk) && (i mod nk =? 4))%nat then sub_word_t k
             else quiet (Ok k)) in
  quiet (for_range 0 4 (fun i k => let* x := idx k i in let* y := idx w0 i in upd k i (op_xor x y)) k).
(** key_expansion_aes aes.rs:177-204 *)
Definition key_expansion_aes_t (key : list Z) (nk nr : nat) (alg : aes_variant) : traced (list Z) :=
  let key_ex := seq_new 0 (match alg with Aes128 => 176 | Aes256 => 240 end) in
  let! key_ex := quiet (update_start key_ex key) in
  let num_iters := (match alg with Aes128 => 40 | Aes256 => 52 end)%nat in
  let word_size := (match alg with Aes128 => 4 | Aes256 => 8 end)%nat in
  for_range_t 0 num_iters (fun j key_ex =>
    let i := (j + word_size)%nat in
    let! im := quiet (usub i word_size) in
    let! w0 := quiet (arr_from_sub 0 4 key_ex (4 * im) 4) in
    let! i4 := quiet (usub (4 * i) 4) in
    let! w1 := quiet (arr_from_sub 0 4 key_ex i4 4) in
    let! word := key_expansion_word_t w0 w1 i nk nr in
    quiet (update key_ex (4 * i) word)) key_ex.
(** aes_encrypt_block aes.rs:206-209 *)
Definition aes_encrypt_block_t (k input : list Z) (nk nr : nat) (alg : aes_variant) : traced (list Z) :=
  let! key_ex := key_expansion_aes_t k nk nr alg in
  block_cipher_aes_t input key_ex nr.
(** aes_ctr_keyblock aes.rs:218-223 *)
Definition aes_ctr_keyblock_t (k n : list Z) (c : Z) (nk nr : nat) (alg : aes_variant) : traced (list Z) :=
  let input := seq_new 0 16 in
  let! input := quiet (update input 0 n) in
  let! cb := quiet (word_to_be_bytes U32 c) in
  let! input := quiet (update input 12 cb) in
  aes_encrypt_block_t k input nk nr alg.
(** aes_counter_mode aes.rs:233-265 *)
Definition aes_counter_mode_t (key nonce : list Z) (counter : Z) (msg : list Z) (nk nr : nat)
    (alg : aes_variant) : traced (list Z) :=
  let! n := quiet (num_chunks msg 16) in
  let! ' (blocks_out, _) := for_range_t 0 n (fun i '(blocks_out, ctr) =>
      let! ' (block_len, msg_block) := quiet (get_chunk 0 msg 16 i) in
      let! key_block := aes_ctr_keyblock_t key nonce ctr nk nr alg in
      quiet (if (length msg_block =? 16)%nat then
        let* b := arr_from_seq 0 16 msg_block in
        let* x := xor_block b key_block in
        let* blocks_out := set_chunk blocks_out 16 i x in
        let* ctr := op_add U32 ctr 1 in
        Ok (blocks_out, ctr)
      else
        let* last_block := update_start (seq_new 0 16) msg_block in
        let* x := xor_block last_block key_block in
        let* x := subr 0 x 0 block_len in
        let* blocks_out := set_chunk blocks_out 16 i x in
        Ok (blocks_out, ctr))) (seq_new 0 (length msg), counter) in
  quiet (Ok blocks_out).
(** aes_encrypt aes.rs:288-290, aes_decrypt aes.rs:292-294 *)
Definition aes_encrypt_t (key nonce : list Z) (counter : Z) (msg : list Z) (alg : aes_variant) : traced (list Z) :=
  aes_counter_mode_t key nonce counter msg (nk_of alg) (nr_of alg) alg.

(** fmul gf128.rs:21-35; the two conditions are public *)
Definition fmul_t (x y : Z) : traced Z :=
  let! ' (res, _) := for_range_t 0 128 (fun i '(res, sh) =>
    let! m := quiet (op_shl U128 1 (127 - Z.of_nat i)) in
    let! b := declassify_t (op_and y m) in
    let res := if negb (b =? declassify 0) then op_xor res sh else res in
    let! c := declassify_t (op_and sh 1) in
    let! s1 := quiet (op_shr U128 sh 1) in
    let sh := if negb (c =? declassify 0) then op_xor s1 IRRED else s1 in
    quiet (Ok (res, sh))) (0, x) in
  quiet (Ok res).
(** update gf128.rs:49-51 *)
Definition gf_update_t (r : Z) (block : list Z) (acc : Z) : traced Z :=
  let! e := quiet (gf_encode block) in fmul_t (fadd e acc) r.
(** poly gf128.rs:53-71 *)
Definition gf_poly_t (msg : list Z) (r : Z) : traced Z :=
  let l := length msg in
  let n_blocks := (l / 16)%nat in
  let rem := (l mod 16)%nat in
  let! acc := for_range_t 0 n_blocks (fun i acc =>
    let k := (i * 16)%nat in
    let block := seq_new 0 16 in
    let! s := quiet (subr 0 msg k (k + 16)) in
    let! block := quiet (update_start block s) in
    gf_update_t r block acc) 0 in
  if negb (rem =? 0)%nat then
    let k := (n_blocks * 16)%nat in
    let! last_block := quiet (update_sub (seq_new 0 16) 0 msg k rem) in
    gf_update_t r last_block acc
  else quiet (Ok acc).
(** gmac gf128.rs:73-78 *)
Definition gmac_t (text k : list Z) : traced (list Z) :=
  let s := seq_new 0 16 in
  let! kb := quiet (arr_from_seq 0 16 k) in
  let! r := quiet (gf_encode kb) in
  let! a := gf_poly_t text r in
  let! se := quiet (gf_encode s) in
  let! d := quiet (gf_decode (fadd a se)) in
  quiet (arr_from_seq 0 16 d).
(** encrypt_aes aesgcm.rs:38-56 *)
Definition gcm_encrypt_t (key iv aad msg : list Z) (alg : aes_variant) : traced (list Z * list Z) :=
  let iv0 := seq_new 0 12 in
  let! mac_key := aes_ctr_keyblock_t key iv0 0 (nk_of alg) (nr_of alg) alg in
  let! tag_mix := aes_ctr_keyblock_t key iv 1 (nk_of alg) (nr_of alg) alg in
  let! cipher_text := aes_encrypt_t key iv 2 msg alg in
  let! padded_msg := quiet (gcm_pad_aad_msg aad cipher_text) in
  let! gk := quiet (arr_from_seq 0 16 mac_key) in
  let! tag := gmac_t padded_msg gk in
  let! tb := quiet (arr_from_seq 0 16 tag) in
  let! tag := quiet (xor_block tb tag_mix) in
  let! t := quiet (arr_from_seq 0 16 tag) in
  quiet (Ok (cipher_text, t)).
(** encrypt_aes128 aesgcm.rs:58-65 and encrypt_aes256 aesgcm.rs:67-74, by variant *)
Definition gcm_encrypt_pub_t (key iv aad msg : list Z) (alg : aes_variant) : traced (list Z * list Z) :=
  let! ks := quiet (seq_from_seq 0 key) in gcm_encrypt_t ks iv aad msg alg.
(** declassify_eq hacspec/src/array.rs:526-540: all elements of both arrays become public *)
Definition declassify_eq_t (a b : list Z) : traced bool :=
  (Ok (list_eqb a b), map declassify a ++ map declassify b).
(** decrypt_aes aesgcm.rs:76-98; [None] is the Err result *)
Definition gcm_decrypt_t (key iv aad cipher_text tag : list Z) (alg : aes_variant) : traced (option (list Z)) :=
  let iv0 := seq_new 0 12 in
  let! mac_key := aes_ctr_keyblock_t key iv0 0 (nk_of alg) (nr_of alg) alg in
  let! tag_mix := aes_ctr_keyblock_t key iv 1 (nk_of alg) (nr_of alg) alg in
  let! padded_msg := quiet (gcm_pad_aad_msg aad cipher_text) in
  let! gk := quiet (arr_from_seq 0 16 mac_key) in
  let! my_tag := gmac_t padded_msg gk in
  let! tb := quiet (arr_from_seq 0 16 my_tag) in
  let! my_tag := quiet (xor_block tb tag_mix) in
  let! t := quiet (arr_from_seq 0 16 tag) in
  let! b := declassify_eq_t my_tag t in
  if b then
    let! m := aes_encrypt_t key iv 2 cipher_text alg in quiet (Ok (Some m))
  else quiet (Ok None).
(** decrypt_aes128 aesgcm.rs:100-108 and decrypt_aes256 aesgcm.rs:110-118, by variant *)
Definition gcm_decrypt_pub_t (key iv aad cipher_text tag : list Z) (alg : aes_variant) : traced (option (list Z)) :=
  let! ks := quiet (seq_from_seq 0 key) in gcm_decrypt_t ks iv aad cipher_text tag alg.
