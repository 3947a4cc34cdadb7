(** ChaCha20, Poly1305 and their AEAD combination:
    /repo/spec-examples/src/chacha20_poly1305/{chacha20,poly1305,chacha20poly1305}.rs.
    Arrays and byte sequences are lists, array indices are nat. *)
From Coq Require Import ZArith List Bool.
From Verif Require Import Base M_Int M_MathUtil M_Seq M_Bytes M_Vec M_BigInt M_NatMod.
Import ListNotations.
Open Scope Z_scope.

(** ** chacha20.rs *)
(** state_to_bytes chacha20.rs:9-19 *)
Definition state_to_bytes (x : list Z) : res (list Z) :=
  for_range 0 (length x) (fun i r =>
    let* xi := idx x i in
    let* bytes := word_to_be_bytes U32 xi in
    let* b := idx bytes 3 in let* r := upd r (i * 4) b in
    let* b := idx bytes 2 in let* r := upd r (i * 4 + 1) b in
    let* b := idx bytes 1 in let* r := upd r (i * 4 + 2) b in
    let* b := idx bytes 0 in upd r (i * 4 + 3) b) (seq_new 0 64).
(** line chacha20.rs:21-28 *)
Definition line (a b d : nat) (s : Z) (m : list Z) : res (list Z) :=
  let state := m in
  let* x := idx state a in let* y := idx state b in
  let* z := op_add U32 x y in let* state := upd state a z in
  let* x := idx state d in let* y := idx state a in
  let* state := upd state d (op_xor x y) in
  let* x := idx state d in
  upd state d (rotate_left U32 x s).
(** quarter_round chacha20.rs:30-35 *)
Definition quarter_round (a b c d : nat) (state : list Z) : res (list Z) :=
  let* state := line a b d 16 state in
  let* state := line c d b 12 state in
  let* state := line a b d 8 state in
  line c d b 7 state.
(** double_round chacha20.rs:37-47 *)
Definition double_round (state : list Z) : res (list Z) :=
  let* state := quarter_round 0 4 8 12 state in
  let* state := quarter_round 1 5 9 13 state in
  let* state := quarter_round 2 6 10 14 state in
  let* state := quarter_round 3 7 11 15 state in
  let* state := quarter_round 0 5 10 15 state in
  let* state := quarter_round 1 6 11 12 state in
  let* state := quarter_round 2 7 8 13 state in
  quarter_round 3 4 9 14 state.
(** The repeated expression [U32_from_le_bytes(U32Word::from_sub_range(&key, a..b))] of
    chacha20.rs:55-66 *)
Definition load_word (src : list Z) (a b : nat) : res Z :=
  let* w := arr_from_sub_range 0 4 src a b in word_from_le_bytes U32 w.
(** block_init chacha20.rs:49-68 *)
Definition block_init (key : list Z) (ctr : Z) (iv : list Z) : res (list Z) :=
  let* k0 := load_word key 0 4 in
  let* k1 := load_word key 4 8 in
  let* k2 := load_word key 8 12 in
  let* k3 := load_word key 12 16 in
  let* k4 := load_word key 16 20 in
  let* k5 := load_word key 20 24 in
  let* k6 := load_word key 24 28 in
  let* k7 := load_word key 28 32 in
  let* n0 := load_word iv 0 4 in
  let* n1 := load_word iv 4 8 in
  let* n2 := load_word iv 8 12 in
  Ok [0x61707865; 0x3320646e; 0x79622d32; 0x6b206574;
      k0; k1; k2; k3; k4; k5; k6; k7; ctr; n0; n1; n2].
(** block_inner chacha20.rs:70-80 *)
Definition block_inner (key : list Z) (ctr : Z) (iv : list Z) : res (list Z) :=
  let* st := block_init key ctr iv in
  let* state := for_range 0 10 (fun _ state => double_round state) st in
  for_range 0 16 (fun i state =>
    let* x := idx state i in let* y := idx st i in
    let* z := op_add U32 x y in upd state i z) state.
(** block chacha20.rs:82-85 *)
Definition block (key : list Z) (ctr : Z) (iv : list Z) : res (list Z) :=
  let* state := block_inner key ctr iv in state_to_bytes state.
(** chacha chacha20.rs:87-99. The Rust result type is Result, but only Ok is ever built. *)
Definition chacha (key iv m : list Z) : res (list Z) :=
  let* n := num_chunks m 64 in
  let* ' (blocks_out, _) := for_range 0 n (fun i '(blocks_out, ctr) =>
      let* ' (block_len, msg_block) := get_chunk 0 m 64 i in
      let* key_block := block key ctr iv in
      let msg_block_padded := seq_new 0 64 in
      let* msg_block_padded := update_start msg_block_padded msg_block in
      let* x := sarr_xor 64 msg_block_padded key_block in
      let* x := subr 0 x 0 block_len in
      let* blocks_out := set_chunk blocks_out 64 i x in
      let* ctr := op_add U32 ctr 1 in
      Ok (blocks_out, ctr)) (seq_new 0 (length m), 1) in
  Ok blocks_out.

(** ** poly1305.rs *)
(** The canvas width and the modulus 0x03ff..fb of FieldElement, poly1305.rs:16-21 *)
Definition fe_bits : Z := 272.
(** the modulus of FieldElement, poly1305.rs:16-21 *)
Definition fe_mod : Z := 0x03fffffffffffffffffffffffffffffffb.
(** key_gen poly1305.rs:23-26 *)
Definition key_gen (key iv : list Z) : res (list Z) :=
  let* b := block key 0 iv in arr_from_sub_range 0 32 b 0 32.
(** encode_r poly1305.rs:28-34 *)
Definition encode_r (r : list Z) : res Z :=
  let r_128 := seq_new 0 16 in
  let* r_128 := update_sub r_128 0 r 0 16 in
  let* r_uint := word_from_le_bytes U128 r_128 in
  let r_uint := op_and r_uint 0x0ffffffc0ffffffc0ffffffc0fffffff in
  nm_from_secret_literal fe_bits fe_mod r_uint.
(** encode poly1305.rs:36-43 *)
Definition encode (block : list Z) : res Z :=
  let block_as_u128 := seq_new 0 16 in
  let block_len := length block in
  let* block_as_u128 := update_sub block_as_u128 0 block 0 (Nat.min 16 block_len) in
  let* w := word_from_le_bytes U128 block_as_u128 in
  let* w_elem := nm_from_secret_literal fe_bits fe_mod w in
  let* l := bpow2 fe_bits false (8 * block_len) in
  let* l_elem := nm_of_base fe_bits fe_mod l in
  nm_add fe_bits fe_mod w_elem l_elem.
(** poly_inner poly1305.rs:45-55: iteration k of [(0..m_len).step_by(16)] has i = 16*k *)
Definition poly_inner (m : list Z) (r : Z) : res Z :=
  let* acc := nm_from_literal fe_bits fe_mod 0 in
  let m_len := length m in
  for_range 0 ((m_len + 15) / 16) (fun k acc =>
    let i := (16 * k)%nat in
    let block_len := Nat.min 16 (m_len - i) in
    let b := seq_new 0 block_len in
    let* b := update_sub b 0 m i block_len in
    let* e := encode b in
    let* s := nm_add fe_bits fe_mod acc e in
    nm_mul fe_bits fe_mod s r) acc.
(** poly poly1305.rs:57-72 *)
Definition poly (m key : list Z) : res (list Z) :=
  let* sw := arr_from_sub 0 16 key 16 16 in
  let* s := word_from_le_bytes U128 sw in
  let* s_elem := nm_from_secret_literal fe_bits fe_mod s in
  let* rb := arr_from_sub_range 0 16 key 0 16 in
  let* r_elem := encode_r rb in
  let* a := poly_inner m r_elem in
  let* n := nm_add fe_bits fe_mod a s_elem in
  let n_v := nm_to_public_byte_seq_le n in
  let tag := seq_new 0 16 in
  for_range 0 (Nat.min (length tag) (length n_v)) (fun i tag =>
    let* b := idx n_v i in upd tag i b) tag.
(** poly_mac poly1305.rs:74-77 *)
Definition poly_mac (m key iv : list Z) : res (list Z) :=
  let* mac_key := key_gen key iv in poly m mac_key.

(** ** chacha20poly1305.rs *)
(** The padded length of chacha20poly1305.rs:11-20 *)
Definition padded_len (l : nat) : nat := if (l mod 16 =? 0)%nat then l else (16 * (l / 16 + 1))%nat.
(** pad_aad_msg chacha20poly1305.rs:8-27; usize sums that exceed 2^64 are not modelled (no
    two byte sequences in memory are that long) *)
Definition pad_aad_msg (aad msg : list Z) : res (list Z) :=
  let laad := length aad in
  let lmsg := length msg in
  let pad_aad := padded_len laad in
  let pad_msg := padded_len lmsg in
  let padded_msg := seq_new 0 (pad_aad + pad_msg + 16) in
  let* padded_msg := update padded_msg 0 aad in
  let* padded_msg := update padded_msg pad_aad msg in
  let* la := word_to_le_bytes U64 (cast u64 (Z.of_nat laad)) in
  let* padded_msg := update padded_msg (pad_aad + pad_msg) la in
  let* lm := word_to_le_bytes U64 (cast u64 (Z.of_nat lmsg)) in
  update padded_msg (pad_aad + pad_msg + 8) lm.
(** encrypt chacha20poly1305.rs:29-42 (the Err branch is unreachable, see chacha) *)
Definition cp_encrypt (key iv aad msg : list Z) : res (list Z * list Z) :=
  let* key_block := block key 0 iv in
  let* mac_key := arr_from_sub_range 0 32 key_block 0 32 in
  let* cipher_text := chacha key iv msg in
  let* padded_msg := pad_aad_msg aad cipher_text in
  let* tag := poly padded_msg mac_key in
  Ok (cipher_text, tag).
(** decrypt chacha20poly1305.rs:44-66; [None] is the Err result *)
Definition cp_decrypt (key iv aad cipher_text tag : list Z) : res (option (list Z)) :=
  let* key_block := block key 0 iv in
  let* mac_key := arr_from_sub_range 0 32 key_block 0 32 in
  let* padded_msg := pad_aad_msg aad cipher_text in
  let* my_tag := poly padded_msg mac_key in
  if list_eqb my_tag tag then
    let* c := chacha key iv cipher_text in Ok (Some c)
  else Ok None.
