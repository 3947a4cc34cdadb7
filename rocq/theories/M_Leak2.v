(** What /repo/spec-examples/src/chacha20_poly1305 and /repo/spec-examples/src/curve25519 make public: the functions
    that (directly or through calls) declassify, with a record of every such value in order; see M_Leak for [traced].
    Functions without such calls (all of chacha20.rs among them) are taken from M_ChaCha and M_X25519 as they are. *)
From Coq Require Import ZArith List Bool Arith.
From Verif Require Import Base M_Int M_Seq M_Bytes M_BigInt M_NatMod M_ChaCha M_X25519 M_Leak.
Import ListNotations.
Open Scope Z_scope.

(** from_secret_literal hacspec/src/math_integers.rs:707-709 *)
Definition nm_from_secret_literal_t (bits n x : Z) : traced Z :=
  let! v := declassify_t x in quiet (nm_from_literal bits n v).
(** from_byte_seq_le hacspec/src/math_integers.rs:680-687: every byte becomes public *)
Definition nm_from_byte_seq_le_t (bits n : Z) (s : list Z) : traced Z :=
  (nm_from_le_bytes bits n (map declassify s), map declassify s).

(** encode_r poly1305.rs:28-34 *)
Definition encode_r_t (r : list Z) : traced Z :=
  let r_128 := seq_new 0 16 in
  let! r_128 := quiet (update_sub r_128 0 r 0 16) in
  let! r_uint := quiet (word_from_le_bytes U128 r_128) in
  let r_uint := op_and r_uint 0x0ffffffc0ffffffc0ffffffc0fffffff in
  nm_from_secret_literal_t fe_bits fe_mod r_uint.
(** encode poly1305.rs:36-43 *)
Definition encode_t (block : list Z) : traced Z :=
  let block_as_u128 := seq_new 0 16 in
  let block_len := length block in
  let! block_as_u128 := quiet (update_sub block_as_u128 0 block 0 (Nat.min 16 block_len)) in
  let! w := quiet (word_from_le_bytes U128 block_as_u128) in
  let! w_elem := nm_from_secret_literal_t fe_bits fe_mod w in
  let! l := quiet (bpow2 fe_bits false (8 * block_len)) in
  let! l_elem := quiet (nm_of_base fe_bits fe_mod l) in
  quiet (nm_add fe_bits fe_mod w_elem l_elem).
(** poly_inner poly1305.rs:45-55: iteration k of [(0..m_len).step_by(16)] has i = 16*k *)
Definition poly_inner_t (m : list Z) (r : Z) : traced Z :=
  let! acc := quiet (nm_from_literal fe_bits fe_mod 0) in
  let m_len := length m in
  for_range_t 0 ((m_len + 15) / 16) (fun k acc =>
    let i := (16 * k)%nat in
    let block_len := Nat.min 16 (m_len - i) in
    let b := seq_new 0 block_len in
    let! b := quiet (update_sub b 0 m i block_len) in
    let! e := encode_t b in
    let! s := quiet (nm_add fe_bits fe_mod acc e) in
    quiet (nm_mul fe_bits fe_mod s r)) acc.
(** poly poly1305.rs:57-72 *)
Definition poly_t (m key : list Z) : traced (list Z) :=
  let! sw := quiet (arr_from_sub 0 16 key 16 16) in
  let! s := quiet (word_from_le_bytes U128 sw) in
  let! s_elem := nm_from_secret_literal_t fe_bits fe_mod s in
  let! rb := quiet (arr_from_sub_range 0 16 key 0 16) in
  let! r_elem := encode_r_t rb in
  let! a := poly_inner_t m r_elem in
  let! n := quiet (nm_add fe_bits fe_mod a s_elem) in
  let n_v := nm_to_public_byte_seq_le n in
  let tag := seq_new 0 16 in
  quiet (for_range 0 (Nat.min (length tag) (length n_v)) (fun i tag =>
    let* b := idx n_v i in upd tag i b) tag).
(** poly_mac poly1305.rs:74-77 *)
Definition poly_mac_t (m key iv : list Z) : traced (list Z) :=
  let! mac_key := quiet (key_gen key iv) in poly_t m mac_key.
(** encrypt chacha20poly1305.rs:29-42 *)
Definition cp_encrypt_t (key iv aad msg : list Z) : traced (list Z * list Z) :=
  let! key_block := quiet (block key 0 iv) in
  let! mac_key := quiet (arr_from_sub_range 0 32 key_block 0 32) in
  let! cipher_text := quiet (chacha key iv msg) in
  let! padded_msg := quiet (pad_aad_msg aad cipher_text) in
  let! tag := poly_t padded_msg mac_key in
  quiet (Ok (cipher_text, tag)).
(** decrypt chacha20poly1305.rs:44-66; [None] is the Err result; both tags compared are of a public type *)
Definition cp_decrypt_t (key iv aad cipher_text tag : list Z) : traced (option (list Z)) :=
  let! key_block := quiet (block key 0 iv) in
  let! mac_key := quiet (arr_from_sub_range 0 32 key_block 0 32) in
  let! padded_msg := quiet (pad_aad_msg aad cipher_text) in
  let! my_tag := poly_t padded_msg mac_key in
  if list_eqb my_tag tag then
    let! c := quiet (chacha key iv cipher_text) in quiet (Ok (Some c))
  else quiet (Ok None).

(** decode_scalar curve25519.rs:30-33 *)
Definition decode_scalar_t (s : list Z) : traced Z :=
  let! k := quiet (mask_scalar s) in
  nm_from_byte_seq_le_t 256 x_n k.
(** decode_point curve25519.rs:35-42 *)
Definition decode_point_t (u : list Z) : traced xpoint :=
  let! b := quiet (idx u 31) in
  let! u_ := quiet (upd u 31 (op_and b 127)) in
  let! x := nm_from_byte_seq_le_t 256 x_p u_ in
  let! z := quiet (nm_from_literal 256 x_p 1) in
  quiet (Ok (x, z)).
(** scalarmult curve25519.rs:92-97; the ladder runs on public integers *)
Definition scalarmult_t (s p : list Z) : traced (list Z) :=
  let! s_ := decode_scalar_t s in
  let! p_ := decode_point_t p in
  let! r := quiet (x_montgomery_ladder s_ p_) in
  quiet (encode_point r).
