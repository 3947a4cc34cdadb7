(** Independent specification of AES (FIPS 197), of counter mode and of GCM (SP 800-38D),
    written from the standards. Nothing here is taken from the M_*.v files. *)
From Coq Require Import ZArith List Bool.
From Verif Require Import S_ChaCha S_GF2.
Import ListNotations.
Open Scope Z_scope.

(** FIPS 197, 4.2: products in GF(2)[x]/(x^8 + x^4 + x^3 + x + 1). *)
Definition mul8 (a b : Z) : Z := gf_mul 8 0x11b a b.
(** a^254, which is the inverse of a and 0 for a = 0 (proved in T_AES.v, [C43_inverse]). *)
Definition inv8 (a : Z) : Z :=
  let a2 := mul8 a a in let a4 := mul8 a2 a2 in let a8 := mul8 a4 a4 in
  let a16 := mul8 a8 a8 in let a32 := mul8 a16 a16 in let a64 := mul8 a32 a32 in let a128 := mul8 a64 a64 in
  mul8 a128 (mul8 a64 (mul8 a32 (mul8 a16 (mul8 a8 (mul8 a4 a2))))).
(** 5.1.1: the affine map b'_i = b_i + b_(i+4) + b_(i+5) + b_(i+6) + b_(i+7) + c_i, c = 63. *)
Definition affine (b : Z) : Z :=
  let bit i := Z.testbit b (Z.of_nat (i mod 8)) in
  bits_val (fun i => xorb (bit i) (xorb (bit (i + 4)%nat) (xorb (bit (i + 5)%nat)
     (xorb (bit (i + 6)%nat) (xorb (bit (i + 7)%nat) (Z.testbit 0x63 (Z.of_nat i))))))) 8.
Definition fips_sbox (a : Z) : Z := affine (inv8 a).

(** 3.4: the state is a 4 by 4 matrix, s[r,c] = in[r + 4c]. *)
Definition at_rc (s : list Z) (r c : nat) : Z := nth (r + 4 * c) s 0.
Definition of_rc (f : nat -> nat -> Z) : list Z := map (fun k => f (k mod 4)%nat (k / 4)%nat) (seq 0 16).
(** 5.1: the round functions. *)
Definition SubBytes (s : list Z) : list Z := of_rc (fun r c => fips_sbox (at_rc s r c)).
Definition ShiftRows (s : list Z) : list Z := of_rc (fun r c => at_rc s r ((c + r) mod 4)).
Definition MixColumns (s : list Z) : list Z := of_rc (fun r c =>
  Z.lxor (mul8 2 (at_rc s r c)) (Z.lxor (mul8 3 (at_rc s ((r + 1) mod 4) c))
    (Z.lxor (at_rc s ((r + 2) mod 4) c) (at_rc s ((r + 3) mod 4) c)))).
Definition AddRoundKey (s k : list Z) : list Z := of_rc (fun r c => Z.lxor (at_rc s r c) (at_rc k r c)).

(** 5.2: key expansion; words are lists of four bytes. *)
Definition word_n (l : list Z) (i : nat) : list Z := firstn 4 (skipn (4 * i) l).
Definition xorw (a b : list Z) : list Z := map (fun i => Z.lxor (nth i a 0) (nth i b 0)) (seq 0 4).
Definition RotWord (w : list Z) : list Z := [nth 1 w 0; nth 2 w 0; nth 3 w 0; nth 0 w 0].
Definition SubWord (w : list Z) : list Z := map (fun i => fips_sbox (nth i w 0)) (seq 0 4).
Definition Rcon (j : nat) : list Z := [gf_pow 8 0x11b 2 (j - 1); 0; 0; 0].
Definition next_word (nk i : nat) (back prev : list Z) : list Z :=
  xorw back (if (i mod nk =? 0)%nat then xorw (SubWord (RotWord prev)) (Rcon (i / nk))
             else if ((6 <? nk) && (i mod nk =? 4))%nat then SubWord prev
             else prev).
(** The first n words of the key schedule. *)
Fixpoint schedule (nk : nat) (key : list Z) (n : nat) : list (list Z) :=
  match n with
  | O => []
  | S i => let w := schedule nk key i in
      w ++ [if (i <? nk)%nat then word_n key i
            else next_word nk i (nth (i - nk) w []) (nth (i - 1) w [])]
  end.
(** 5.1: the cipher. *)
Definition round_key (w : list (list Z)) (i : nat) : list Z := concat (firstn 4 (skipn (4 * i) w)).
Definition fips_aes (nk nr : nat) (key input : list Z) : list Z :=
  let w := schedule nk key (4 * (nr + 1)) in
  let s := AddRoundKey input (round_key w 0) in
  let s := fold_left (fun s i => AddRoundKey (MixColumns (ShiftRows (SubBytes s))) (round_key w i))
                     (seq 1 (nr - 1)) s in
  AddRoundKey (ShiftRows (SubBytes s)) (round_key w nr).

(** Big-endian integers. *)
Definition be_num (l : list Z) : Z := fold_left (fun a b => 256 * a + b) l 0.
Definition be_str (n : nat) (x : Z) : list Z :=
  map (fun i => (x / 256 ^ Z.of_nat (n - 1 - i)) mod 256) (seq 0 n).

(** Counter mode: byte j of the text is combined with byte j mod 16 of the encryption of the
    nonce followed by the 32-bit block counter ctr + j / 16. *)
Definition ctr_block (E : list Z -> list Z) (nonce : list Z) (ctr : Z) : list Z :=
  E (nonce ++ be_str 4 (ctr mod 2 ^ 32)).
Definition ctr_byte (E : list Z -> list Z) (nonce : list Z) (ctr : Z) (m : list Z) (j : nat) : Z :=
  Z.lxor (nth j m 0) (nth (j mod 16) (ctr_block E nonce (ctr + Z.of_nat (j / 16))) 0).

(** SP 800-38D, 6.4: GHASH as the sum X_1 H^n + X_2 H^(n-1) + ... + X_n H of the 16-byte
    blocks, the last one padded with zeros. *)
Definition ghash_block (m : list Z) (i : nat) : Z :=
  be_num (map (fun j => nth (16 * i + j) m 0) (seq 0 16)).
Fixpoint gcm_pow (h : Z) (e : nat) : Z :=
  match e with O => gcm_one | S e => gcm_mul h (gcm_pow h e) end.
Definition ghash (h : Z) (m : list Z) : Z :=
  let n := ((length m + 15) / 16)%nat in
  gf_sum (map (fun i => gcm_mul (ghash_block m i) (gcm_pow h (n - i))) (seq 0 n)).
(** 7.1: the input of GHASH. *)
Definition gcm_mac_data (aad ct : list Z) : list Z :=
  aad ++ pad16 aad ++ ct ++ pad16 ct
  ++ be_str 8 (8 * Z.of_nat (length aad)) ++ be_str 8 (8 * Z.of_nat (length ct)).
(** 7.1: the tag, for a 96-bit IV. *)
Definition gcm_tag (E : list Z -> list Z) (iv aad ct : list Z) : list Z :=
  let h := be_num (E (repeat 0 16)) in
  let s := be_str 16 (ghash h (gcm_mac_data aad ct)) in
  map (fun i => Z.lxor (nth i s 0) (nth i (ctr_block E iv 1) 0)) (seq 0 16).
