# Formal model of hacspec in Coq: design

Everything lives in `rocq/theories` (logical name `Verif`). Coq 8.16.1, standard
library and the `zify`/`lia`/`ring`/`field` tactics only. The Rust code in
`/repo` is read as text and transcribed function by function into executable
Gallina.

## 1. Conventions of the model

* **Machine words** are integers (`Z`) together with a type descriptor `ity`
  (`bits`, `signed`, `secret`). A value of a type satisfies an explicit range
  predicate. Wrapping is an explicit `mod 2^bits` (two's complement for signed).
  Theorems are stated for every width unless the code fixes one.
* **Panics** are an explicit value: `res A = Ok a | Panic reason`. Index out of
  range, `assert!`, `debug_assert!`, arithmetic overflow on public integers,
  `usize` underflow, division by zero, `unimplemented!()`, `expect` all give
  `Panic`. The model is the *debug profile* (the one `cargo test` uses):
  `debug_assert!` is active and plain `+ - * << >>` on public integers check
  for overflow. A theorem "f never panics" or "f panics exactly when …" is about
  that profile. `M_Release.v` models the *release profile* (both off) of the
  integer, modular, sequence, SHA-256, HMAC and HKDF functions and of Blake2b's
  `inc_counter`, `M_ReleasePoly.v` that of `poly.rs`, `M_ReleaseSpecs.v` that of
  ChaCha20-Poly1305, AES-GCM, SHA-3, BLAKE2 and X25519; C94, C100 and C106 show
  that it agrees with the debug model wherever that returns, C95, C96, C101 and
  C106 say what it does elsewhere. `p256.rs`
  has no debug-only check and is the same in both; neither
  has `abstract-integers`, whose modular integers it uses.
* **Sequences and arrays** are lists. A fixed array type of length `l` is a list
  whose length is proved or checked to be `l`.
* **`usize`** values are `nat`. Underflow is a panic. Overflow past 2^64 of
  index arithmetic is left out of `M_Seq.v`; `M_Usize.v` has the sequence
  functions with it, and C105 shows that both return the same or both panic
  (except `num_chunks` with a chunk size near 2^64). Where the code multiplies a
  length by 8 (SHA-256, HMAC, HKDF, GCM) the theorems carry the bound.
* **Loops**: `for i in a..b` is `for_range`; `while` loops take fuel and return
  `Panic OutOfFuel` when it runs out. Where fuel occurs, a theorem shows that the
  fuel passed is enough for every input (or, for `sub_mod` with modulus 0, that
  no fuel is).
* `f64` appears once (HKDF `ceil(l / 32)`): round-to-nearest-even division is
  modelled on integers and proved exact on the range used (`P_Float.v`).
* `num::BigInt`/`BigUint` are `Z`; Rust `Vec` push/index/collect are lists.

## 2. Layout

| files | content |
|---|---|
| `Base.v` | result monad, loops, list indexing |
| `M_*.v` | the model; each definition cites file and lines |
| `S_*.v` | independent specifications (RFC/FIPS/mathematics); import no `M_` file |
| `P_*.v` | lemmas |
| `T_*.v` | the theorems of record, examples meeting the hypotheses, `Print Assumptions` |

`MANIFEST.json` maps the properties of `properties.jsonl` to theorem names.
`seeded/LOG.jsonl` records deliberate errors put into scratch copies of the model
and which theorems stopped proving.

## 3. Trusted base

* The kernel of Coq 8.16.1, including its bytecode machine (`vm_compute` is used
  for closed computations: tables, primality certificates, addition chains,
  examples). `coqchk` re-checks all of it without the bytecode machine.
* `Print Assumptions` answers *Closed under the global context* for every theorem
  named in the manifest: no axiom is used. (The axioms a whole-library listing
  shows, `Coq.ssr.ssrunder.Under_rel.*`, are parameters of the standard library's
  `ssr` files pulled in by `lia`; no theorem depends on them.)
* The transcription from Rust to Gallina. It is by hand. It is tested in two ways:
  the known-answer vectors of the repository's tests and of the RFCs/FIPS are
  evaluated inside Coq (Examples in the `T_` files), and the specification theorems
  tie the model to independent definitions, so a slip would have to be made in
  both places in the same way. Two vectors are too slow for the committed build and
  were run in scratch copies only: the X25519 vector of RFC 7748 (true, 36 s)
  and P-256 `point_mul(20)` (true, 23 s).
* The `S_` files say what they transcribe. Their definitions are short; where
  possible they are characterised further (e.g. AES and GCM products as the unique
  remainder of the carry-less product, the curve additions as group laws).

## 4. What is modelled

| source | model |
|---|---|
| `secret-integers/src/lib.rs` | `M_Int.v` (operators, casts, rotations, masks), `M_Bytes.v` (codecs) |
| `hacspec/src/machine_integers.rs` | `M_Int.v`, `M_MathUtil.v` |
| `hacspec/src/math_util.rs` | `M_MathUtil.v` |
| `hacspec/src/traits.rs` | trait methods where implemented; codecs in `M_Numeric.v` |
| `hacspec/src/seq.rs`, `array.rs` | `M_Seq.v`, `M_Bytes.v`, `M_Index.v` (indexing by each index type), `M_Usize.v` (index arithmetic with overflow) |
| `hacspec/src/transmute.rs`, `util.rs` | `M_Bytes.v` |
| `hacspec/src/vec_integers.rs`, `math_integers.rs` | `M_Vec.v`, `M_NatMod.v`, `M_Numeric.v` |
| `hacspec/src/poly.rs` | `M_Poly.v`; `M_ReleasePoly.v` (release profile) |
| `abstract-integers/src/*` | `M_BigInt.v`, `M_NatMod.v`, `M_Numeric.v` |
| `spec-examples/src/*` | `M_ChaCha.v` (ChaCha20, Poly1305, AEAD), `M_AES.v` (AES, CTR, GCM, GF(2^128)), `M_Leak.v`, `M_Leak2.v` (AES-GCM, ChaCha20-Poly1305 and X25519 again, with a record of the declassified values), `M_SHA2.v` (SHA-256, HMAC, HKDF), `M_Keccak.v`, `M_Blake2.v`, `M_X25519.v`, `M_P256.v`; `M_Release.v` (release profile of parts of the library, SHA-256, HMAC, HKDF), `M_ReleaseSpecs.v` (release profile of the other specifications; P-256 is the same in both) |
| formatting, `println!`, `random` of the library crates | `M_Fmt.v` |
| `secret-integers/examples/*` | `M_Dalek.v`, `M_ChachaEx.v` |

Not modelled: the random number generator itself (an arbitrary function in `M_Fmt.v`),
format flags other than `{}`, `{:?}`, `{:x}`, file and JSON input (`hacspec-dev`), the procedural
macros of `attributes`, timing and other side channels (except the record of
declassified values in `M_Leak.v` and `M_Leak2.v`), memory exhaustion, the
type-level part of the macros (that a type exists and that an operator is not
offered). "Secret" selects wrapping instead of checked operators and which
operations exist; the information-flow promise of the types is stated for AES-GCM, ChaCha20-Poly1305 and X25519 only (C87, C93).

## 5. Findings: where the code does not do what it says

Each is proved of the model as a `…_refuted` theorem or an exact characterisation.

Integers
* C05 `rotate_left`/`rotate_right` on signed types are wrong for negative values (except where the smeared bits happen to be ones).
* C09 `_bm` comparison masks of public signed types are `0x7F…F`, not all ones.
* C13 `extended_euclid_invert(0, n)` answers 0 instead of failing.
* C65 modular inverse is wrong when `n*n` exceeds the type (U8: 13⁻¹ mod 251 gives 68) on secret types; public types panic instead.
* C97 `inv` of a negative number: if -x divides n the answer is 1 (e.g. for -1 modulo 7), and invertible values can be refused (-3 mod 5).
* C92 `sub_mod` of the unsigned types prints its operands, also secret ones; `inv` prints the modulus.
* C66 `get_byte` panics on every U8 (`ONE << 8` overflows).
* C11 `sub_mod` with modulus 0 does not terminate; with a negative modulus and a negative result `signed_mod` counts away from zero until i128 overflows.

Sequences
* C16 asking for the chunk that starts exactly at the end gives an empty chunk.
* C105 `num_chunks` with a chunk size near 2^64 panics, and in the release profile says that a non-empty sequence has 0 chunks.
* C18 hex decoding accepts a sign ("+f"); arrays of wider elements reject valid strings.
* C22 `PublicSeq ^ PublicSeq` is always empty.
* C35 the product of sequences is point-wise; `poly!` types over plain integers
  panic when multiplied or divided.

Big and modular integers
* C24 `from_signed_literal` of a negative number gives `x + 2^128` on wide types.
* C25 `max()` is not a value of the type; signed ranges are not symmetric as documented.
* C26 signed `from_hex` with an empty digit string gives 0.
* C28 `pow` panics for exponents ≥ 2^bits − 1; modulus ≥ 2^bits − 1 makes every operation panic.
* C29 `from_literal(n)` is stored unreduced; negative literals are wrong.
* `nat_mod` `/` is integer division of representatives; C77 `wrap_*` of bounded integers panic on overflow.
* C33 polynomial division overflows for n³ > type maximum.
* C99 over secret types the division of polynomials can return a wrong quotient (U8 modulo 19: 15 / 18 = 14); public types panic there (C98).
* C101 in a release build polynomial products and quotients over public types can be silently wrong (u8 modulo 251: 30 * 50 = 220), `extended_euclid` silently drops the leading coefficients of an unreduced argument (it "inverts" the modulus polynomial itself), and `from_vec` drops coefficients. The debug build panics in each case.
* C91 `random` of a `poly!` type with modulus 0 panics.
* C82 `from_vec` of a `poly!` type accepts degree `l` and drops the leading coefficient.

Cryptography
* C106 in a release build the AES block functions, called with r + 2^60 as the number of rounds, encrypt with r rounds; a debug build panics. `blake2` over 32-bit words with the variant Blake2B returns a digest of the empty input there; Blake2S and `secret_to_public` panic in both profiles.
* C39, C69 ChaCha20 and GCM counters wrap silently after 2^32 blocks.
* C40 Poly1305 adds `s` modulo 2^130 − 5 instead of 2^128 (witness r = 2, s = 1, m = fd ff…ff).
* C103 ChaCha20-Poly1305 does not interoperate: when accumulator plus s reaches 2^130-5 (one pair in eight) the tag is that of RFC 8439 plus 5, and tags of conforming senders are refused. Witness: the key of RFC 8439 section 2.8.2, nonce ending in 0x49, no associated data, message `hell`.
* C102 neither AEAD commits to its key: for any two AES-GCM keys with different hash keys every whole-block ciphertext is completed by exactly one block to one that a single tag opens under both keys; for ChaCha20-Poly1305 eight blocks always suffice. This is so of the standards as well.
* C49, C50, C70 SHA-256 leaves out the padding when the length is a multiple of 64
  bytes (so `hash(pad(m)) = hash(m)`); HMAC/HKDF inherit it. C85: the tag
  of t is under every key also the tag of t followed by SHA-256's padding.
* C52 HKDF expand refuses outputs longer than 254 blocks instead of 255.
* C55 BLAKE2b never finalises messages of whole blocks; C56 BLAKE2s always panics;
  C57 the counter loses its high word and its carry is unreachable.
* C88 in particular the BLAKE2b digest of the empty message is the initial state itself.
* C86 hence the SHA-256 and BLAKE2b digests of a whole-block message determine those of all its extensions.
* C95 Without the debug checks `mul_mod`, `add_mod`, `sub_mod` and `inv` return wrong residues, `get_byte` of a `U8` is 0, `set_chunk` and array `from_hex` cut off excess input, array `from_vec` pads with zeros, and `get_chunk` of a chunk beyond 2^64 returns an existing one.
* C93 Poly1305 declassifies its one-time key and X25519 the secret scalar (`from_secret_literal`, `from_byte_seq_le`).
* C87 AES-GCM declassifies its state at every S-box lookup and the bits of the GHASH key: the
  declassified values of one run determine the key.
* C60 `secret_to_public` (X25519) always panics.
* C110 two points on the singular cubics y^2 = x^3 - 3x - 2 and y^2 = x^3 - 3x + 2 have ladder results that determine the whole scalar; their orders, 2 * 3 * 5^2 * 17 * 257 * 641 * 1531 * 65537 * 490463 * 6700417 and 2^96 * 7 * 274177 * 67280421310721, have small prime factors only (again only the private function is affected).
* C112 `from_literal(n)` of a modular type with a modulus n below 2^128 is congruent to 0, unequal to it and above it; this is the only program of ring operations that compares wrongly.
* C113 HMAC keys, and HKDF salts, of at most 64 bytes that differ in trailing zeros are interchangeable (as in RFC 2104).
* C109 the public AES block functions take nk and nr from the caller: a wrong nr panics, a wrong nk from 3 (AES-256: 4) on silently gives another cipher.
* C108 AES-GCM has no length check: texts beyond 2^39 - 256 bits are encrypted and decrypted although SP 800-38D forbids it; within the limit the code is the standard's GCM-AE and GCM-AD.
* C107 the P-256 ladder refuses no point: off the curve it computes on the curve through the point, and small orders there reveal the scalar modulo the order (only the private function is affected; `point_mul` starts at the base point).
* C61/C62 P-256 `point_add` panics on equal finite points; `point_mul` returns (0, 0) for
  infinity, which is not a point of the curve (exactly on multiples of n, C72).
* C64 the stand-alone ChaCha20 example panics on the empty message.
* C74 X25519 returns the all-zero string on exactly five abscissas; there is no check.

## 6. How properties are stated

Each property has an entry in `properties.jsonl`. "proved" in the manifest means the
statement is proved for all inputs under the stated (reachable) conditions. "partial"
is used whenever the statement as written is false of the code or holds for part of
its range; the note says which, a `_refuted` theorem gives the witness and the other
theorems say exactly what does hold.

Known-answer vectors inside Coq are *tests of model fidelity*; they are not counted
as proofs.
