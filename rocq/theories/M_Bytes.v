(** Byte codecs of machine integers and hex strings.
    Models /repo/secret-integers/src/lib.rs:200-250, /repo/hacspec/src/transmute.rs,
    the word views of /repo/hacspec/src/array.rs and the hex conversions. *)
From Coq Require Import ZArith List Bool Arith.
From Verif Require Import Base M_Int M_Seq.
Import ListNotations.
Open Scope Z_scope.

(** Rust's to_le_bytes / transmute(x.to_le()) of a k-byte integer: base-256 digits,
    least significant first (floor division: two's complement for negative values);
    used by transmute.rs:97,119,141,163 and secret-integers/src/lib.rs:215-224 *)
Fixpoint le_bytes (k : nat) (x : Z) : list Z :=
  match k with O => [] | S k' => x mod 256 :: le_bytes k' (x / 256) end.
(** most significant byte first: transmute(x.to_be()), secret-integers/src/lib.rs:244-246 *)
Definition be_bytes (k : nat) (x : Z) : list Z := rev (le_bytes k x).
(** Rust's from_le_bytes / transmute(..).to_le(): value of digits, secret-integers/src/lib.rs:207-211 *)
Fixpoint le_val (bs : list Z) : Z :=
  match bs with [] => 0 | b :: t => b + 256 * le_val t end.
(** value of digits, most significant first: transmute(..).to_be(), secret-integers/src/lib.rs:233-237 *)
Definition be_val (bs : list Z) : Z := le_val (rev bs).

(** Bytes per word, [$bits/8] in secret-integers/src/lib.rs:201-204 *)
Definition bytes_of (t : ity) : nat := Z.to_nat (bits t / 8).

(** The copy loop of secret-integers/src/lib.rs:203-206 ([chunk_raw[i] = chunk[i]]). *)
Definition read_chunk (k : nat) (chunk : list Z) : res (list Z) :=
  mapM (fun i => idx chunk i) (seq 0 k).

(** from_le_bytes secret-integers/src/lib.rs:200-213 *)
Definition from_le_bytes (t : ity) (bytes : list Z) : res (list Z) :=
  let k := bytes_of t in
  let* _ := assert_ (length bytes mod k =? 0)%nat in
  mapM (fun chunk => let* raw := read_chunk k chunk in Ok (cast t (le_val raw))) (chunks k bytes).
(** to_le_bytes secret-integers/src/lib.rs:215-224 *)
Definition to_le_bytes (t : ity) (ints : list Z) : list Z := flat_map (le_bytes (bytes_of t)) ints.
(** from_be_bytes secret-integers/src/lib.rs:226-239 *)
Definition from_be_bytes (t : ity) (bytes : list Z) : res (list Z) :=
  let k := bytes_of t in
  let* _ := assert_ (length bytes mod k =? 0)%nat in
  mapM (fun chunk => let* raw := read_chunk k chunk in Ok (cast t (be_val raw))) (chunks k bytes).
(** to_be_bytes secret-integers/src/lib.rs:241-250 *)
Definition to_be_bytes (t : ity) (ints : list Z) : list Z := flat_map (be_bytes (bytes_of t)) ints.

(** transmute.rs:8-91: Ux_to_le_bytes etc. (U16, U32, U64, U128) *)
Definition word_to_le_bytes (t : ity) (x : Z) : res (list Z) :=
  arr_from_vec 0 (bytes_of t) (to_le_bytes t [x]).
(** Ux_to_be_bytes transmute.rs:13-15,35-37,57-59,79-81 *)
Definition word_to_be_bytes (t : ity) (x : Z) : res (list Z) :=
  arr_from_vec 0 (bytes_of t) (to_be_bytes t [x]).
(** Ux_from_be_bytes transmute.rs:18-20,40-42,62-64,84-86 *)
Definition word_from_be_bytes (t : ity) (s : list Z) : res Z :=
  let* v := from_be_bytes t s in idx v 0.
(** Ux_from_le_bytes transmute.rs:23-25,45-47,67-69,89-91 *)
Definition word_from_le_bytes (t : ity) (s : list Z) : res Z :=
  let* v := from_le_bytes t s in idx v 0.
(** transmute.rs:96-179: public versions on Rust's own to_le_bytes etc. *)
Definition pub_to_le_bytes (t : ity) (x : Z) : list Z := le_bytes (bytes_of t) x.
(** ux_to_be_bytes transmute.rs:101-103,123-125,145-147,167-169 *)
Definition pub_to_be_bytes (t : ity) (x : Z) : list Z := be_bytes (bytes_of t) x.
(** ux_from_le_bytes transmute.rs:111-113,133-135,155-157,177-179 *)
Definition pub_from_le_bytes (s : list Z) : Z := le_val s.
(** ux_from_be_bytes transmute.rs:106-108,128-130,150-152,172-174 *)
Definition pub_from_be_bytes (s : list Z) : Z := be_val s.

(** array to_be_bytes / to_le_bytes array.rs:549-573 *)
Definition arr_to_bytes (enc : ity -> list Z -> list Z) (t : ity) (l : nat) (self : list Z) : res (list Z) :=
  let F := bytes_of t in
  for_range 0 l (fun i out =>
    let* tmp := idx self i in
    let bs := enc t [tmp] in
    for_range 0 F (fun j out => let* b := idx bs j in upd out (i * F + j) b) out)
    (seq_new 0 (l * F)).
(** array to_be_bytes array.rs:549-560 *)
Definition arr_to_be_bytes := arr_to_bytes to_be_bytes.
(** array to_le_bytes array.rs:563-573 *)
Definition arr_to_le_bytes := arr_to_bytes to_le_bytes.

(** to_be_U32s, to_le_U32s, to_be_U64s, to_le_U64s, to_U128s_be, to_U128s_le
    array.rs:650-706. [t] is the word type. *)
Definition to_words (dec : ity -> list Z -> res Z) (t : ity) (l : nat) (self : list Z) : res (list Z) :=
  let k := bytes_of t in
  let bl := chunks k self in
  for_range 0 (length bl) (fun i out =>
    let* block := idx bl i in
    let* _ := assert_ (length block =? k)%nat in
    let* w := arr_from_slice 0 k block in
    let* v := dec t w in
    upd out i v) (seq_new 0 (l / k)).
(** to_be_U32s, to_be_U64s, to_U128s_be array.rs:650-657,670-677,690-697 *)
Definition to_be_words := to_words word_from_be_bytes.
(** to_le_U32s, to_le_U64s, to_U128s_le array.rs:660-667,680-687,700-706 *)
Definition to_le_words := to_words word_from_le_bytes.
(** Public to_be_u32s .. to_u128s_le array.rs:738-791: to_array (util.rs:20-28,
    copy_from_slice, lengths equal by the assertion) and Rust's from_xx_bytes. *)
Definition to_pub_words (dec : list Z -> Z) (t : ity) (l : nat) (self : list Z) : res (list Z) :=
  let k := bytes_of t in
  let bl := chunks k self in
  for_range 0 (length bl) (fun i out =>
    let* block := idx bl i in
    let* _ := assert_ (length block =? k)%nat in
    upd out i (dec block)) (seq_new 0 (l / k)).

(** ** Hex strings. A string is the list of its UTF-8 bytes. *)
(** char::to_digit(16) on a byte, as from_str_radix uses it in util.rs:14, array.rs:252 *)
Definition hex_digit (c : Z) : option Z :=
  if (48 <=? c) && (c <=? 57) then Some (c - 48)
  else if (97 <=? c) && (c <=? 102) then Some (c - 87)
  else if (65 <=? c) && (c <=? 70) then Some (c - 55)
  else None.
(** u8::from_str_radix(two-byte slice, 16): one leading '+' (43) is accepted when
    another character follows. Two hex digits never overflow a u8. util.rs:14, array.rs:252 *)
Definition parse_pair (a b : Z) : option Z :=
  if a =? 43 then hex_digit b
  else match hex_digit a, hex_digit b with
       | Some x, Some y => Some (16 * x + y)
       | _, _ => None
       end.
(** The step_by(2) loop of util.rs:11-15 / array.rs:249-253; [&s[i..i+2]] panics
    when the string ends or a UTF-8 character is cut (a byte >= 128 never is a
    digit, so that case is also an error here). *)
Fixpoint parse_hex (s : list Z) : res (list Z) :=
  match s with
  | [] => Ok []
  | [_] => Panic PIndex
  | a :: b :: t =>
      match parse_pair a b with
      | None => Panic PExplicit
      | Some x => let* r := parse_hex t in Ok (x :: r)
      end
  end.
(** hex_string_to_bytes util.rs:9-16 *)
Definition hex_string_to_bytes (s : list Z) : res (list Z) :=
  let* _ := assert_ (length s mod 2 =? 0)%nat in parse_hex s.
(** Seq<U8>::from_hex seq.rs:233-240 / PublicSeq<u8>::from_hex seq.rs:268-276 *)
Definition seq_from_hex (s : list Z) : res (list Z) :=
  let* b := hex_string_to_bytes s in Ok (map classify b).
(** array hex_string_to_vec array.rs:248-255; [es] = size_of element *)
Definition hex_string_to_vec (es : nat) (s : list Z) : res (list Z) :=
  let* _ := assert_ (length s mod es =? 0)%nat in parse_hex s.
(** array from_hex array.rs:259-267 *)
Definition arr_from_hex (es l : nat) (s : list Z) : res (list Z) :=
  let* v := hex_string_to_vec es s in
  let* _ := assert_ (length v =? l)%nat in
  for_range 0 l (fun i o => let* x := idx v i in upd o i x) (seq_new 0 l).
(** [format!("{:02x}", b)] and to_hex: array.rs:709-712,793-796, seq.rs:306-309,322-326 *)
Definition hex_char (n : Z) : Z := if n <? 10 then 48 + n else 87 + n.
(** [format!("{:02x}", b)] for one byte, array.rs:710,794, seq.rs:307,323 *)
Definition byte_hex (b : Z) : list Z := [hex_char (b / 16); hex_char (b mod 16)].
(** to_hex array.rs:709-712,793-796, seq.rs:306-309,322-326 *)
Definition to_hex (bs : list Z) : list Z := flat_map byte_hex bs.
