(** The stand-alone ChaCha20 of /repo/secret-integers/examples/chacha20.rs (called ex.rs in the
    comments below). Arrays, slices and vectors are lists, array indices are nat. *)
From Coq Require Import ZArith List Bool.
From Verif Require Import Base M_Int M_Seq M_Bytes.
Import ListNotations.
Open Scope Z_scope.

(** Rust's [dst[a..b].copy_from_slice(src)] on an array: panics when the range is not inside the
    array or the lengths differ. Used by ex.rs:47-50,73,83,90. *)
Definition copy_range (dst : list Z) (a b : nat) (src : list Z) : res (list Z) :=
  if negb ((a <=? b) && (b <=? length dst))%nat then Panic PIndex
  else if negb (length src =? b - a)%nat then Panic PExplicit
  else Ok (firstn a dst ++ src ++ skipn b dst).

(** BLOCK_SIZE ex.rs:3 *)
Definition ex_block_size : nat := 64.
(** classify_u32s ex.rs:12-14 *)
Definition classify_u32s (v : list Z) : list Z := map classify v.
(** line ex.rs:17-21 *)
Definition ex_line (a b d : nat) (s : Z) (m : list Z) : res (list Z) :=
  let* x := idx m a in let* y := idx m b in
  let* z := op_add U32 x y in let* m := upd m a z in
  let* x := idx m d in let* y := idx m a in
  let* m := upd m d (op_xor x y) in
  let* x := idx m d in
  upd m d (rotate_left U32 x s).
(** quarter_round ex.rs:24-29 *)
Definition ex_quarter_round (a b c d : nat) (m : list Z) : res (list Z) :=
  let* m := ex_line a b d 16 m in
  let* m := ex_line c d b 12 m in
  let* m := ex_line a b d 8 m in
  ex_line c d b 7 m.
(** double_round ex.rs:31-41 *)
Definition ex_double_round (m : list Z) : res (list Z) :=
  let* m := ex_quarter_round 0 4 8 12 m in
  let* m := ex_quarter_round 1 5 9 13 m in
  let* m := ex_quarter_round 2 6 10 14 m in
  let* m := ex_quarter_round 3 7 11 15 m in
  let* m := ex_quarter_round 0 5 10 15 m in
  let* m := ex_quarter_round 1 6 11 12 m in
  let* m := ex_quarter_round 2 7 8 13 m in
  ex_quarter_round 3 4 9 14 m.
(** CONSTANTS ex.rs:43 *)
Definition ex_constants : list Z := [0x61707865; 0x3320646e; 0x79622d32; 0x6b206574].
(** chacha20_init ex.rs:45-52 *)
Definition chacha20_init (k : list Z) (counter : Z) (nonce : list Z) : res (list Z) :=
  let st := repeat (classify 0) 16 in
  let* st := copy_range st 0 4 (classify_u32s ex_constants) in
  let* kw := from_le_bytes U32 k in
  let* st := copy_range st 4 12 kw in
  let* st := upd st 12 counter in
  let* nw := from_le_bytes U32 nonce in
  copy_range st 13 16 nw.
(** chacha20_core ex.rs:54-62 *)
Definition chacha20_core (st : list Z) : res (list Z) :=
  let* working_state := for_range 0 10 (fun _ w => ex_double_round w) st in
  for_range 0 16 (fun i st =>
    let* x := idx st i in let* y := idx working_state i in
    let* z := op_add U32 x y in upd st i z) st.
(** chacha20 ex.rs:64-68 *)
Definition chacha20 (k : list Z) (counter : Z) (nonce : list Z) : res (list Z) :=
  let* st := chacha20_init k counter nonce in chacha20_core st.
(** chacha20_block ex.rs:70-75 *)
Definition chacha20_block (k : list Z) (counter : Z) (nonce : list Z) : res (list Z) :=
  let* st := chacha20 k counter nonce in
  copy_range (repeat (classify 0) ex_block_size) 0 ex_block_size (to_le_bytes U32 st).
(** xor_block ex.rs:77-85 *)
Definition xor_block (block key_block : list Z) : res (list Z) :=
  let* v_out := for_range 0 ex_block_size (fun i v_out =>
    let* x := idx block i in let* y := idx key_block i in
    upd v_out i (op_xor x y)) (repeat 0 ex_block_size) in
  copy_range (repeat 0 ex_block_size) 0 ex_block_size v_out.
(** The closure of ex.rs:88-92: a chunk copied to the front of a zero block *)
Definition pad_block (block : list Z) : res (list Z) :=
  copy_range (repeat zero_ ex_block_size) 0 (length block) block.
(** chacha20_counter_mode ex.rs:87-105 *)
Definition chacha20_counter_mode (key : list Z) (counter : Z) (nonce msg : list Z) : res (list Z) :=
  let* blocks := mapM pad_block (chunks ex_block_size msg) in
  let nb_blocks := length blocks in
  let* n1 := usub (length blocks) 1 in
  let* ' (blocks, ctr) := for_range 0 n1 (fun i '(blocks, ctr) =>
      let* key_block := chacha20_block key ctr nonce in
      let* b := idx blocks i in
      let* x := xor_block b key_block in
      let* blocks := upd blocks i x in
      let* ctr := op_add U32 ctr one_ in
      Ok (blocks, ctr)) (blocks, counter) in
  let* l := usub nb_blocks 1 in
  let* last := idx blocks l in
  let* key_block := chacha20_block key ctr nonce in
  let* x := xor_block last key_block in
  let* blocks := upd blocks l x in
  Ok (firstn (length msg) (concat blocks)).
(** chacha20_encrypt ex.rs:107-109 *)
Definition chacha20_encrypt (key : list Z) (counter : Z) (nonce msg : list Z) : res (list Z) :=
  chacha20_counter_mode key counter nonce msg.
(** chacha20_decrypt ex.rs:111-113 *)
Definition chacha20_decrypt (key : list Z) (counter : Z) (nonce msg : list Z) : res (list Z) :=
  chacha20_counter_mode key counter nonce msg.
