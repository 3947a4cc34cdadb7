{"id": "C01", "title": "Secret integer arithmetic is exact modulo 2^bits and never panics", "statement": "For every unsigned secret integer type and all operands, +, -, * and unary minus return the value congruent to the mathematical result modulo 2^bits and lying in [0,2^bits); for signed secret types +, -, * return the unique congruent value in [-2^(bits-1), 2^(bits-1)). None of these operations panics. The bitwise operators &, |, ^, ! act bit by bit.", "quantifier": "all bit widths, all pairs of operand values", "why_tests_cant": "There are 2^(2*bits) operand pairs per type; tests sample a handful.", "anchors": ["secret-integers/src/lib.rs:78-146 define_wrapping_op!, define_bitwise_op!, define_unary_op!", "secret-integers/src/lib.rs:323-330,401 Neg"]}
{"id": "C02", "title": "Constant-time comparison masks decide the comparison", "statement": "For unsigned secret integers comp_eq, comp_ne, comp_gte, comp_gt, comp_lte, comp_lt return all-ones exactly when the mathematical relation holds between the declassified operands and zero otherwise.", "quantifier": "all bit widths and all pairs of operands", "why_tests_cant": "The bit tricks fail, if at all, on rare carry/borrow patterns; tests use 3 and 42.", "anchors": ["secret-integers/src/lib.rs: comp_eq, comp_ne, comp_gte, comp_gt, comp_lte, comp_lt"]}
{"id": "C03", "title": "Word/byte codecs are mutually inverse and positional", "statement": "to_le_bytes/to_be_bytes of a list of words has length k*words; the bytes of each word are the base-256 digits of its value in little (big) endian order; from_le_bytes/from_be_bytes invert them on every word list, and they invert from_* on every byte list whose length is a multiple of k; other lengths panic. The single-word helpers (U32_to_le_bytes etc.) and public helpers agree with them.", "quantifier": "all word sizes, all word lists, all byte lists", "why_tests_cant": "Roundtrip for all inputs and exact panic condition is an infinite family.", "anchors": ["secret-integers/src/lib.rs: from_le_bytes, to_le_bytes, from_be_bytes, to_be_bytes", "hacspec/src/transmute.rs"]}
{"id": "C04", "title": "Rotations permute bits and invert each other", "statement": "rotate_left(n) moves bit i to bit (i+n) mod bits, rotate_right(n) is its inverse; the generic rotate of the Integer trait coincides with it for unsigned types when n < bits and panics when n >= bits.", "quantifier": "all widths, all values, all rotation counts", "why_tests_cant": "All values times all counts.", "anchors": ["secret-integers/src/lib.rs: rotate_left, rotate_right", "hacspec/src/traits.rs: Integer::rotate_left, Integer::rotate_right"]}
{"id": "C05", "title": "Generic rotate of the Integer trait also rotates signed integers", "statement": "The Integer trait documents rotate_left/rotate_right as bit rotations for every implementing type; for signed types the two's-complement bit pattern must be rotated.", "quantifier": "all signed widths, values, counts", "why_tests_cant": "Only negative values expose the sign smearing of the arithmetic right shift.", "anchors": ["hacspec/src/traits.rs: Integer::rotate_left, Integer::rotate_right"]}
{"id": "C06", "title": "Casts preserve or truncate exactly as documented", "statement": "Widening unsigned conversions preserve the value; narrowing ones keep the value modulo 2^target; widening signed conversions preserve the value; signed/unsigned reinterpretation preserves the bit pattern; narrowing after widening is the identity.", "quantifier": "all source/target widths, all values", "why_tests_cant": "All pairs of widths and values.", "anchors": ["secret-integers/src/lib.rs: define_safe_casting!, define_unsafe_casting!, define_signed_unsigned_casting!, define_uU_casting!, define_Uu_casting!, define_usize_casting!"]}
{"id": "C07", "title": "get_bit/set_bit/set address exactly one bit", "statement": "For unsigned integers get_bit(i) is bit i of the value; set_bit(b,i) makes bit i equal b and leaves every other bit unchanged; set(pos,y,yi) copies bit yi of y into pos; out-of-range positions or b not in {0,1} panic.", "quantifier": "all widths, values, positions, bits", "why_tests_cant": "All values times all positions.", "anchors": ["hacspec/src/traits.rs: Integer::get_bit, set_bit, set"]}
{"id": "C08", "title": "Conditional swap/set/add/sub/mul select by mask or bit", "statement": "For unsigned types: cswap with mask 0 returns (x,y), with mask all-ones returns (y,x); cswap_bit with 0/1 likewise; cset_bit, cadd, csub, cmul with mask 0 return x unchanged and with all-ones the wrapped sum/difference/product; no panic.", "quantifier": "all widths, all operands, both conditions", "why_tests_cant": "All operand pairs.", "anchors": ["hacspec/src/math_util.rs: cswap_bit, cswap, cset_bit, cadd, csub, cmul"]}
{"id": "C09", "title": "Comparison *_bm bit masks are 0xF..F / 0", "statement": "Every *_bm comparison returns the all-ones bit mask when true and 0 when false, so that it can drive cswap/cadd (documented for all numeric types, public signed types included).", "quantifier": "all integer types, all operand pairs", "why_tests_cant": "Needs every type and both outcomes in combination with the consumers of masks.", "anchors": ["hacspec/src/traits.rs: Numeric::*_bm docs", "hacspec/src/machine_integers.rs: *_bm"]}
{"id": "C10", "title": "Constant-time division is division", "statement": "ct_div(a,d) returns (a / d, a mod d) for all unsigned a and all d > 0 and does not panic; for d = 0 it returns (all-ones, a).", "quantifier": "all widths, all numerators, all divisors including those with the top bit set", "why_tests_cant": "Bit-serial division may lose the top bit of the remainder; tests use tiny divisors.", "anchors": ["hacspec/src/math_util.rs: ct_div"]}
{"id": "C11", "title": "Modular add/sub/mul of machine integers are modular or panic, never silently wrong", "statement": "For public unsigned integers with n > 0: add_mod/mul_mod return (x op y) mod n when x op y fits the type and panic otherwise; sub_mod returns (x - y) mod n whenever it returns; the secret versions compute the same value for the same operands. For signed types the result is the canonical representative in [0,n) for n > 0.", "quantifier": "all widths, operands, moduli", "why_tests_cant": "Overflow occurs only near the type bound.", "anchors": ["hacspec/src/machine_integers.rs: sub_mod, add_mod, mul_mod, modulo, signed_mod users", "hacspec/src/math_util.rs: signed_mod"]}
{"id": "C12", "title": "Extended-Euclid inversion returns a modular inverse", "statement": "If n > 1, n^2+n fits the type and gcd(x,n)=1 then extended_euclid_invert(x,n,_) terminates without panic and returns r with 0 <= r < n and x*r = 1 mod n; if gcd(x,n) > 1 and x <> 0 it panics.", "quantifier": "all widths, moduli, arguments", "why_tests_cant": "Number-theoretic, every modulus and argument.", "anchors": ["hacspec/src/math_util.rs: extended_euclid_invert", "hacspec/src/machine_integers.rs: inv"]}
{"id": "C13", "title": "Inversion of a non-invertible element panics", "statement": "Documented: extended_euclid_invert panics if x is not invertible modulo n; in particular for x = 0.", "quantifier": "all non-invertible x", "why_tests_cant": "Boundary value 0 takes a different branch.", "anchors": ["hacspec/src/math_util.rs: extended_euclid_invert"]}
{"id": "C14", "title": "Integer powers are exact", "statement": "pow on secret unsigned integers equals x^e mod 2^bits; pow on public integers equals x^e when it fits and panics otherwise.", "quantifier": "all widths, bases and exponents", "why_tests_cant": "All base/exponent pairs.", "anchors": ["hacspec/src/machine_integers.rs: pow"]}
{"id": "C15", "title": "Sequence updates copy exactly the requested window", "statement": "update_sub(start_out, v, start_in, len) returns a sequence of unchanged length in which positions start_out..start_out+len hold v[start_in..start_in+len] and all other positions are unchanged; it panics exactly when either window is out of range. update, update_start are the documented special cases; sub/subr/from_sub return exactly the window.", "quantifier": "all sequences, offsets, lengths, element types", "why_tests_cant": "Off-by-one errors in any of four indices.", "anchors": ["hacspec/src/traits.rs: SeqTrait::update_sub, update, update_start", "hacspec/src/seq.rs: sub, subr, from_sub, from_sub_range", "hacspec/src/array.rs: sub, subr, from_sub, from_sub_range"]}
{"id": "C16", "title": "Chunks partition a sequence", "statement": "For chunk size > 0, concatenating get_chunk(cs,0..num_chunks(cs)) gives back the sequence; each chunk but the last has length cs, the last is non-empty and at most cs, the reported length equals the chunk's length; set_chunk(i, get_chunk(i)) is the identity; get_chunk(i) after set_chunk(i,c) is c and other chunks are unchanged; out-of-range or wrong length panics.", "quantifier": "all sequences, chunk sizes, chunk numbers", "why_tests_cant": "All lengths modulo all chunk sizes.", "anchors": ["hacspec/src/seq.rs: num_chunks, get_chunk, set_chunk", "hacspec/src/array.rs: num_chunks, get_chunk_len, get_chunk, set_chunk"]}
{"id": "C17", "title": "Fixed-length array conversions keep content and enforce length", "statement": "from_vec/from_seq/from_array succeed exactly on inputs of the array length and keep every element; from_slice accepts shorter input and zero-pads; an array always has its declared length.", "quantifier": "all lengths and contents", "why_tests_cant": "All lengths.", "anchors": ["hacspec/src/array.rs: from_vec, from_seq, from_slice, create", "hacspec/src/seq.rs: from_vec, from_slice, from_seq"]}
{"id": "C18", "title": "Hex encoding and decoding of bytes are inverse", "statement": "from_hex(to_hex(b)) = b for every byte sequence/array; to_hex(from_hex(s)) is s in lower case for every even-length hex string; odd length or non-hex characters panic.", "quantifier": "all byte strings and character strings", "why_tests_cant": "All strings.", "anchors": ["hacspec/src/seq.rs: from_hex, to_hex", "hacspec/src/array.rs: hex_string_to_vec, from_hex, to_hex", "hacspec/src/util.rs: hex_string_to_bytes"]}
{"id": "C19", "title": "Byte arrays convert to word arrays and back without loss", "statement": "to_be_U32s/to_le_U32s/to_be_U64s/to_le_U64s/to_U128s_be/le on a byte array of length a multiple of the word size are inverted by to_be_bytes/to_le_bytes of the word array; other lengths panic.", "quantifier": "all array contents and lengths", "why_tests_cant": "All contents.", "anchors": ["hacspec/src/array.rs: to_be_U32s, to_le_U32s, to_be_U64s, to_le_U64s, to_U128s_be, to_U128s_le, to_be_bytes, to_le_bytes"]}
{"id": "C20", "title": "Secret sequence equality decides equality", "statement": "declassify_eq on arrays and == on ByteSeq return true exactly if lengths and all declassified elements agree.", "quantifier": "all pairs of sequences", "why_tests_cant": "All pairs.", "anchors": ["hacspec/src/array.rs: declassify_eq", "hacspec/src/seq.rs: PartialEq for Seq<U8>"]}
{"id": "C21", "title": "Element-wise array arithmetic", "statement": "+, -, * and ^ on secret and public unsigned arrays act element by element with wrapping semantics and keep the length; xor is an involution.", "quantifier": "all arrays, lengths, widths", "why_tests_cant": "All contents.", "anchors": ["hacspec/src/vec_integers.rs: Add/Sub/Mul/BitXor impls, vec_poly_add, vec_poly_sub, vec_poly_mul"]}
{"id": "C22", "title": "Xor of public sequences is element-wise", "statement": "For two public sequences of equal length, x ^ y has that length and holds x[i]^y[i].", "quantifier": "all public sequences", "why_tests_cant": "No test covers it; needs every length.", "anchors": ["hacspec/src/vec_integers.rs: BitXor for PublicSeq"]}
{"id": "C23", "title": "Public/secret array conversion preserves content", "statement": "from_public then from_secret_declassify is the identity, and conversely; classification never changes a value.", "quantifier": "all arrays", "why_tests_cant": "All contents.", "anchors": ["hacspec/src/array.rs: both_arrays!", "secret-integers/src/lib.rs: classify, declassify"]}
{"id": "C24", "title": "Bounded integers are exact or panic", "statement": "Every +, -, *, /, % and from_* on a bounded unsigned integer type either returns the exact integer result, which lies in the range of the type, or panics; it never wraps silently.", "quantifier": "all bit sizes, all operand pairs, public and secret versions", "why_tests_cant": "Overflow behaviour at the boundary for every size.", "anchors": ["abstract-integers/src/abstract_int.rs: From<BigInt>, from_literal, Add, Sub, Mul, Div, Rem, pow2, from_le_bytes, from_hex"]}
{"id": "C25", "title": "Bounded integers cover the whole documented range", "statement": "Documented: a type of b bits holds every integer up to the upper bound max() = 2^b - 1, so from_literal(max) and operations whose result is max() succeed.", "quantifier": "all bit sizes", "why_tests_cant": "Only the single extreme value shows the off-by-one.", "anchors": ["abstract-integers/src/abstract_int.rs: max, From<BigInt>"]}
{"id": "C26", "title": "Big-integer encodings round-trip", "statement": "from_le_bytes(to_le_bytes(x)) = x and from_hex of the hex form of x gives x for every bounded integer x below max; bit(i) is the i-th binary digit.", "quantifier": "all sizes and values", "why_tests_cant": "All values.", "anchors": ["abstract-integers/src/abstract_int.rs: from_le_bytes, to_le_bytes, from_hex, bit"]}
{"id": "C27", "title": "Modular integers form the ring Z/n", "statement": "For canonical operands, +, -, * of a nat_mod type return the canonical representative of the corresponding element of Z/n without panicking (public and secret); they satisfy the commutative ring laws.", "quantifier": "all moduli n with 1 < n < 2^bits - 1, all canonical operands", "why_tests_cant": "Every modulus and operand.", "anchors": ["abstract-integers/src/nat_mod.rs: Add, Sub, Mul", "hacspec/src/math_integers.rs: public_nat_mod!, nat_mod!"]}
{"id": "C28", "title": "Field inversion is correct for prime moduli", "statement": "If n is prime and x is a non-zero canonical element then x * x.inv() = 1; pow/pow_felem compute powers in Z/n. The moduli of the shipped specs (2^255-19, the P-256 prime, 2^130-5) are prime.", "quantifier": "all prime moduli, all non-zero elements, all exponents", "why_tests_cant": "Number theory over 2^255 values; primality of a constant.", "anchors": ["abstract-integers/src/nat_mod.rs: inv, pow_felem, pow", "abstract-integers/src/abstract_int.rs: inv, pow_felem", "spec-examples/src/curve25519/curve25519.rs: FieldElement", "spec-examples/src/p256/p256.rs: FieldElement", "spec-examples/src/chacha20_poly1305/poly1305.rs: FieldElement"]}
{"id": "C29", "title": "Modular literals are canonical", "statement": "from_literal and from_signed_literal of a modular type return the canonical representative of the literal modulo n.", "quantifier": "all literals and moduli", "why_tests_cant": "Only the literal n itself and negative literals expose it.", "anchors": ["abstract-integers/src/nat_mod.rs: from_literal, from_signed_literal"]}
{"id": "C30", "title": "Modular integers serialise losslessly", "statement": "from_byte_seq_le(to_byte_seq_le(x)) = x for every canonical x and the encoding has at most ceil(bits/8) bytes; decoding any byte string that fits gives its value mod n.", "quantifier": "all moduli and elements", "why_tests_cant": "All values.", "anchors": ["abstract-integers/src/nat_mod.rs: to_le_bytes, from_le_bytes", "hacspec/src/math_integers.rs: from_byte_seq_le, to_byte_seq_le, to_public_byte_seq_le, from_secret_literal"]}
{"id": "C31", "title": "Polynomial addition and subtraction are coefficient-wise", "statement": "poly_add/poly_sub with modulus n > 0 return coefficient-wise sums/differences reduced to [0,n); with n = 0 they return the plain integer result or panic on overflow.", "quantifier": "all coefficient lists, all moduli", "why_tests_cant": "All polynomials.", "anchors": ["hacspec/src/poly.rs: poly_add, poly_sub, make_fixed_length"]}
{"id": "C32", "title": "All polynomial multiplications compute the product", "statement": "poly_mul (sparse), and the operand-scanning and plain variants return the coefficients of the convolution modulo n.", "quantifier": "all polynomials and moduli n > 0 within overflow bounds", "why_tests_cant": "All polynomials.", "anchors": ["hacspec/src/poly.rs: poly_mul, poly_mul_op_scanning, poly_mul_plain"]}
{"id": "C33", "title": "Polynomial division satisfies the division identity", "statement": "For prime n (within the no-overflow bound) and non-zero divisor y, poly_div(x,y,n) = (q,r) with x = q*y + r mod n and deg r < deg y.", "quantifier": "all polynomials and prime moduli", "why_tests_cant": "All polynomials.", "anchors": ["hacspec/src/poly.rs: poly_div, leading_coefficient, normalize, monomial"]}
{"id": "C34", "title": "Polynomial inversion yields an inverse in the quotient ring", "statement": "If the polynomial inverse (poly extended Euclid) returns Ok(v) then a*v = 1 modulo the irreducible and n; for zero it panics.", "quantifier": "all polynomials, all prime n, all non-zero moduli polynomials", "why_tests_cant": "All polynomials.", "anchors": ["hacspec/src/poly.rs: extended_euclid, quot_sub, is_zero"]}
{"id": "C35", "title": "Integer polynomials (n = 0) can be multiplied", "statement": "A poly! type with coefficient modulus 0 models Z[x]; multiplication and division of its elements work as over the integers.", "quantifier": "all polynomials over Z", "why_tests_cant": "Tests only add.", "anchors": ["hacspec/src/poly.rs: poly_mul, poly_div, poly! Mul/Div"]}
{"id": "C36", "title": "ChaCha20 encryption is an involution and length preserving", "statement": "chacha(k,iv,chacha(k,iv,m)) = m for every key, nonce and message; the ciphertext has the message's length; the function never returns an error or panics.", "quantifier": "all keys, nonces, messages of any length", "why_tests_cant": "All message lengths modulo 64.", "anchors": ["spec-examples/src/chacha20_poly1305/chacha20.rs: chacha, block"]}
{"id": "C37", "title": "ChaCha20 block function is RFC 8439's", "statement": "The quarter round acts on four words as in RFC 8439 section 2.1, the state layout, 10 double rounds and final feed-forward and little-endian serialisation are those of the RFC; the keystream for block i uses counter 1+i mod 2^32.", "quantifier": "all keys, counters, nonces", "why_tests_cant": "All 2^384 inputs.", "anchors": ["spec-examples/src/chacha20_poly1305/chacha20.rs: line, quarter_round, double_round, block_init, block_inner, block, state_to_bytes"]}
{"id": "C38", "title": "ChaCha20 rounds are a permutation of the state", "statement": "quarter_round on four distinct indices and double_round are bijections of the 16-word state.", "quantifier": "all states", "why_tests_cant": "2^512 states.", "anchors": ["spec-examples/src/chacha20_poly1305/chacha20.rs: quarter_round, double_round"]}
{"id": "C39", "title": "ChaCha20 never reuses keystream within one message", "statement": "Within one call no two message blocks are encrypted with the same key block position (counter), as RFC 8439 requires by bounding the message size.", "quantifier": "all messages", "why_tests_cant": "Needs messages over 256 GiB.", "anchors": ["spec-examples/src/chacha20_poly1305/chacha20.rs: chacha"]}
{"id": "C40", "title": "Poly1305 is RFC 8439's one-time MAC", "statement": "poly(m,key) equals ((sum of clamped-r polynomial evaluation mod 2^130-5) + s) mod 2^128 for every key and message.", "quantifier": "all keys and messages", "why_tests_cant": "Failure needs a specific carry relation between accumulator and s, about one input in eight.", "anchors": ["spec-examples/src/chacha20_poly1305/poly1305.rs: poly, poly_inner, encode, encode_r"]}
{"id": "C41", "title": "ChaCha20-Poly1305 decrypts what it encrypts and rejects everything else", "statement": "decrypt(k,iv,aad,c,t) with (c,t)=encrypt(k,iv,aad,m) returns m; decrypt returns a plaintext exactly when the given tag equals the tag encrypt attaches to that ciphertext; otherwise an error. Accepted ciphertexts are exactly the outputs of encrypt.", "quantifier": "all keys, nonces, associated data, messages, ciphertexts, tags", "why_tests_cant": "All inputs.", "anchors": ["spec-examples/src/chacha20_poly1305/chacha20poly1305.rs: encrypt, decrypt"]}
{"id": "C42", "title": "AEAD MAC input encoding is injective", "statement": "The padded (aad, ciphertext) strings fed to Poly1305 and to GHASH are the RFC/SP 800-38D layouts and differ for different (aad, ciphertext) pairs (lengths below the field bounds).", "quantifier": "all pairs of byte strings", "why_tests_cant": "Collision freedom over all pairs.", "anchors": ["spec-examples/src/chacha20_poly1305/chacha20poly1305.rs: pad_aad_msg", "spec-examples/src/aes_gcm/aesgcm.rs: pad_aad_msg"]}
{"id": "C43", "title": "AES tables and round functions are FIPS 197's", "statement": "The S-box is the affine image of inversion in GF(2^8) and is a permutation; xtime is multiplication by x in GF(2^8); mix_columns multiplies each column by the FIPS matrix; shift_rows rotates rows; the key schedule follows FIPS 197.", "quantifier": "all bytes, states, keys", "why_tests_cant": "All states.", "anchors": ["spec-examples/src/aes_gcm/aes.rs: SBOX, xtime, mix_column, shift_row, sub_bytes, key_expansion_aes"]}
{"id": "C44", "title": "AES block encryption is a permutation", "statement": "For every key the block cipher (AES-128 and AES-256) is injective on blocks, total, and returns 16 bytes.", "quantifier": "all keys, blocks", "why_tests_cant": "2^128 blocks.", "anchors": ["spec-examples/src/aes_gcm/aes.rs: aes_encrypt_block, block_cipher_aes, rounds_aes"]}
{"id": "C45", "title": "AES counter mode is an involution", "statement": "aes_decrypt(key,nonce,ctr,aes_encrypt(key,nonce,ctr,m)) = m, the output length equals the input length, no panic for keys of the right length.", "quantifier": "all keys, nonces, counters, messages", "why_tests_cant": "All lengths modulo 16.", "anchors": ["spec-examples/src/aes_gcm/aes.rs: aes_counter_mode, aes_encrypt, aes_decrypt"]}
{"id": "C46", "title": "AES-GCM decrypts what it encrypts and rejects everything else", "statement": "decrypt_aes128/256 of the output of encrypt_aes128/256 returns the message; it returns a plaintext exactly when the tag equals the recomputed tag, else an error.", "quantifier": "all keys, nonces, associated data, messages, ciphertexts, tags", "why_tests_cant": "All inputs.", "anchors": ["spec-examples/src/aes_gcm/aesgcm.rs: encrypt_aes, decrypt_aes"]}
{"id": "C47", "title": "GF(2^128) multiplication is polynomial multiplication", "statement": "fmul is the product of GF(2)[x]/(x^128+x^7+x^2+x+1) in GCM bit order: bilinear over xor, commutative, associative, with unit 0x80..0.", "quantifier": "all pairs/triples of 128-bit elements", "why_tests_cant": "2^256 pairs.", "anchors": ["spec-examples/src/aes_gcm/gf128.rs: fmul, fadd"]}
{"id": "C48", "title": "GHASH is polynomial evaluation", "statement": "gmac(text,k) = sum of blocks X_i * H^(n-i+1) over GF(2^128), last block zero padded; consequently it is linear in the text for fixed length.", "quantifier": "all texts, keys", "why_tests_cant": "All lengths.", "anchors": ["spec-examples/src/aes_gcm/gf128.rs: poly, update, gmac, encode, decode"]}
{"id": "C49", "title": "SHA-256 follows FIPS 180-4 on every message", "statement": "hash(m) equals the FIPS 180-4 SHA-256 digest (padding 1||0^k||len64) for every message.", "quantifier": "all messages of any length below 2^61 bytes", "why_tests_cant": "Fails only for lengths that are multiples of 64 (empty message included).", "anchors": ["spec-examples/src/sha2/sha2.rs: hash, compress, schedule, shuffle"]}
{"id": "C50", "title": "SHA-256 padding separates messages", "statement": "No two different messages are fed to the compression function as the same block sequence, so any collision of hash is a collision of the compression function.", "quantifier": "all pairs of messages", "why_tests_cant": "A relation over all pairs.", "anchors": ["spec-examples/src/sha2/sha2.rs: hash"]}
{"id": "C51", "title": "HMAC is RFC 2104's construction over the module's hash", "statement": "hmac(k,t) = H((K0^opad)||H((K0^ipad)||t)) with K0 the zero-padded key or its hash when longer than 64 bytes; never panics; 32 bytes.", "quantifier": "all keys, texts", "why_tests_cant": "All lengths around the block size.", "anchors": ["spec-examples/src/hmac/hmac.rs: hmac"]}
{"id": "C52", "title": "HKDF-Expand/Extract follow RFC 5869 for all permitted lengths", "statement": "expand(prk,info,l) is the first l bytes of T(1)||T(2)||... for every l <= 255*32; outputs for shorter l are prefixes of longer ones; extract uses a zero salt when empty.", "quantifier": "all inputs and lengths up to 255*32", "why_tests_cant": "Fails only for l in the last block (8129..8160).", "anchors": ["spec-examples/src/hkdf/hkdf.rs: extract, expand, build_hmac_txt, div_ceil"]}
{"id": "C53", "title": "SHA-3/SHAKE sponge is FIPS 202's", "statement": "keccak(rate,data,p,n) absorbs pad10*1-padded rate blocks and squeezes n bytes, for every input and output length; shorter SHAKE outputs are prefixes of longer ones; no panic.", "quantifier": "all inputs, output lengths, rates of the standard", "why_tests_cant": "Padding boundary cases for every length modulo rate.", "anchors": ["spec-examples/src/fips202/fips202.rs: keccak, absorb_block, squeeze, sha3*, shake*"]}
{"id": "C54", "title": "Keccak-f step mappings and constants are FIPS 202's and form a permutation", "statement": "theta, rho, pi, chi, iota act on lanes as FIPS 202 defines, the tables ROTC, PI and the round constants are those generated by the standard's formulas, and keccak-f is a bijection of the state.", "quantifier": "all states", "why_tests_cant": "2^1600 states.", "anchors": ["spec-examples/src/fips202/fips202.rs: theta, rho, pi, chi, iota, keccakf1600, ROTC, PI, ROUNDCONSTANTS"]}
{"id": "C55", "title": "BLAKE2b follows RFC 7693 on every message", "statement": "blake2b(m) is the unkeyed 64-byte RFC 7693 digest for every message.", "quantifier": "all messages", "why_tests_cant": "Fails only for lengths that are multiples of 128 (empty message included).", "anchors": ["spec-examples/src/blake2/blake2b.rs: blake2, compress, mix, inc_counter"]}
{"id": "C56", "title": "The Blake2S variant is usable", "statement": "blake2::<U32>(data, Blake2S) returns a digest for every input.", "quantifier": "all inputs", "why_tests_cant": "No test instantiates it.", "anchors": ["spec-examples/src/blake2/blake2b.rs: blake2, make_array, get_byte, IVS"]}
{"id": "C57", "title": "BLAKE2 counter is a two-word counter", "statement": "inc_counter adds x to the 2-word counter with carry into the high word.", "quantifier": "all counters and increments", "why_tests_cant": "The high word matters only after 2^64 bytes.", "anchors": ["spec-examples/src/blake2/blake2b.rs: inc_counter"]}
{"id": "C58", "title": "X25519 scalar and point decoding follow RFC 7748", "statement": "decode_scalar clamps: the result is a multiple of 8 in [2^254,2^255) depending only on the unclamped bits; decode_point ignores the top bit and reduces mod p; encode_point returns the 32-byte little-endian canonical value.", "quantifier": "all 32-byte strings", "why_tests_cant": "2^256 strings.", "anchors": ["spec-examples/src/curve25519/curve25519.rs: mask_scalar, decode_scalar, decode_point, encode_point"]}
{"id": "C59", "title": "X25519 ladder computes RFC 7748's function", "statement": "montgomery_ladder performs, for every scalar and point, the same computation as the RFC 7748 pseudo-code with conditional swaps; the ladder step is differential addition and doubling on the curve y^2=x^3+486662x^2+x.", "quantifier": "all scalars, points", "why_tests_cant": "All scalars.", "anchors": ["spec-examples/src/curve25519/curve25519.rs: montgomery_ladder, point_add_and_double, swap, scalarmult"]}
{"id": "C60", "title": "Every X25519 secret has a public key", "statement": "secret_to_public(s) returns scalarmult(s, 9) for every secret.", "quantifier": "all secrets", "why_tests_cant": "Not called by any test.", "anchors": ["spec-examples/src/curve25519/curve25519.rs: secret_to_public", "hacspec/src/array.rs: from_hex"]}
{"id": "C61", "title": "P-256 point formulas are the group law", "statement": "point_double and point_add return Jacobian coordinates of the affine chord/tangent sum of their inputs on y^2=x^3-3x+b whenever that sum is defined, and the point at infinity for opposite points; results stay on the curve.", "quantifier": "all points on the curve in any Jacobian representation", "why_tests_cant": "All point pairs.", "anchors": ["spec-examples/src/p256/p256.rs: point_double, point_add, jacobian_to_affine, is_point_at_infinity"]}
{"id": "C62", "title": "P-256 ladder never panics and visits consecutive multiples", "statement": "During montgomery_ladder the two working points always differ by the base point in the group, so point_add's assertion cannot fail; the result depends only on the scalar.", "quantifier": "all scalars", "why_tests_cant": "2^256 scalars.", "anchors": ["spec-examples/src/p256/p256.rs: montgomery_ladder, point_mul"]}
{"id": "C63", "title": "Radix-2^51 field multiplication of the secret_integers example is correct", "statement": "For limbs below 2^54 the product's limbs represent a*b mod 2^255-19, no intermediate wraps, and output limbs are below 2^52; larger limbs panic.", "quantifier": "all limb vectors", "why_tests_cant": "2^540 inputs.", "anchors": ["secret-integers/examples/dalek.rs: Mul for FieldElement64"]}
{"id": "C64", "title": "The stand-alone ChaCha20 example agrees with the spec and round-trips", "statement": "chacha20_decrypt inverts chacha20_encrypt and computes the same keystream as the chacha20 spec; the empty message is handled.", "quantifier": "all keys, nonces, counters, messages", "why_tests_cant": "All lengths; the empty one is special.", "anchors": ["secret-integers/examples/chacha20.rs: chacha20_counter_mode, chacha20_block"]}
{"id": "C65", "title": "Inversion works for every modulus of the type", "statement": "inv(x,n) returns the inverse of x modulo n for every n > 1 of the integer type and every x coprime to n (no restriction to n^2 fitting the type), or panics; it never returns a wrong value.", "quantifier": "all unsigned types, moduli, coprime arguments", "why_tests_cant": "Silent wrap-around needs a modulus above the square root of the type range; tests use small moduli.", "anchors": ["hacspec/src/math_util.rs:25-68 extended_euclid_invert", "hacspec/src/machine_integers.rs:398-401 inv"]}
{"id": "C66", "title": "get_byte returns the selected byte", "statement": "For every unsigned secret integer type, get_byte(i) with 8*i < bits returns byte i of the value (base 256, little endian numbering) without panicking.", "quantifier": "all unsigned secret types, values and byte positions", "why_tests_cant": "All values and positions; the U8 instance is never exercised.", "anchors": ["hacspec/src/traits.rs:267-269 get_byte"]}
{"id": "C67", "title": "Public arrays are ordered lexicographically", "statement": "cmp of two public arrays/sequences is Equal exactly on equal content, Less exactly when the left one is a proper prefix or has the smaller element at the first difference, and is antisymmetric.", "quantifier": "all pairs of element lists", "why_tests_cant": "All pairs.", "anchors": ["hacspec/src/vec_integers.rs: Ord for public arrays"]}
{"id": "C68", "title": "Shifts are exact below the width and panic from the width on", "statement": "For every integer type, << and >> by n < bits return the exact shift (wrapped to the type for <<, sign extending for signed >>); by n >= bits they panic.", "quantifier": "all types, all values, all shift amounts", "why_tests_cant": "Boundary amount for every width.", "anchors": ["secret-integers/src/lib.rs:148-166"]}
{"id": "C69", "title": "AES-GCM never uses a key stream block twice", "statement": "Within one encryption no two message blocks use the same AES counter block and none uses the one masking the tag (SP 800-38D limits the message to 2^32-2 blocks).", "quantifier": "all keys, nonces, messages up to the length the code accepts", "why_tests_cant": "The counter wraps only beyond 64 GiB.", "anchors": ["spec-examples/src/aes_gcm/aes.rs: aes_counter_mode", "spec-examples/src/aes_gcm/aesgcm.rs: encrypt_aes"]}
{"id": "C70", "title": "HMAC and HKDF agree with HMAC-SHA-256 and RFC 5869 over the real SHA-256", "statement": "hmac(k,t) equals RFC 2104's HMAC over FIPS 180-4 SHA-256 for every key and text, and expand equals RFC 5869's HKDF-Expand over it.", "quantifier": "all keys, texts, infos and permitted output lengths", "why_tests_cant": "Fails only when an inner hash input is a whole number of 64-byte blocks (e.g. the empty text).", "anchors": ["spec-examples/src/hmac/hmac.rs: hmac", "spec-examples/src/hkdf/hkdf.rs: expand", "spec-examples/src/sha2/sha2.rs: hash"]}
{"id": "C71", "title": "X25519 Diffie-Hellman agreement", "statement": "For all secrets a, b and every public string u, scalarmult(a, scalarmult(b, u)) = scalarmult(b, scalarmult(a, u)), never a panic; the common result is the abscissa of [k_a*k_b]P where P is any point with abscissa u on the curve or its twist.", "quantifier": "all 32-byte secrets and points", "why_tests_cant": "2^768 inputs; needs associativity of the elliptic curve group law.", "anchors": ["spec-examples/src/curve25519/curve25519.rs: scalarmult, montgomery_ladder, point_add_and_double"]}
{"id": "C72", "title": "P-256 group order and what it means for point_mul", "statement": "The number n of FIPS 186-4 is prime, the curve of p256.rs has exactly n points (infinity included), every point other than infinity has order n and is a multiple of G. Hence the ladder ends with z = 0 exactly when n divides the scalar, point_mul(k) = (0,0) exactly when n divides k, and point_mul(j) = point_mul(k) exactly when j = k mod n.", "quantifier": "all points of the curve, all scalars 0 <= k < 2^256", "why_tests_cant": "2^256 scalars and as many points; the order of the group cannot be counted by running the code.", "anchors": ["spec-examples/src/p256/p256.rs: point_mul, montgomery_ladder, point_add, point_double"]}
{"id": "C73", "title": "Orders of curve25519 and its twist", "statement": "The curve of curve25519.rs has exactly 8*l points and its twist 4*l' points, with l = 2^252+27742317777372353535851937790883648493 and l' = 2^253-55484635554744707071703875581767296995 both prime; the base point (abscissa 9) has order l.", "quantifier": "all points of the curve and the twist", "why_tests_cant": "about 2^255 points each; counting needs the group law and primality certificates.", "anchors": ["spec-examples/src/curve25519/curve25519.rs: scalarmult, secret_to_public, point_add_and_double"]}
{"id": "C74", "title": "X25519 zero outputs and colliding scalars", "statement": "scalarmult(s,u) is all zero exactly when u decodes to one of five abscissas of order dividing 8, whatever s; for every other u two scalars give the same output exactly when their clamped values are equal or add up to 8*l (u on the curve) or 8*l' (u on the twist); a public key derived from abscissa 9 never leads to an all-zero secret.", "quantifier": "all 32-byte scalars and points", "why_tests_cant": "2^512 inputs; the only-if directions are statements about every other input.", "anchors": ["spec-examples/src/curve25519/curve25519.rs: scalarmult, decode_scalar, decode_point, montgomery_ladder, encode_point"]}
{"id": "C75", "title": "Byte codecs of the integer traits are positional, inverse to each other, and refuse wrong lengths", "statement": "For every unsigned width (8..128), secret or public: to_le_bytes returns the width/8 base-256 digits least significant first, to_be_bytes the same digits reversed; from_le_bytes/from_be_bytes return exactly the value whose digits they are given when the length is width/8, panic for every other length, and undo the encoders.", "quantifier": "all values, all byte sequences of any length, all five widths, both secrecy variants", "why_tests_cant": "2^128 values and unboundedly many wrong-length inputs; a swapped byte order for one width or a truncating decoder passes palindromic or short samples.", "anchors": ["hacspec/src/traits.rs:259-479", "hacspec/src/transmute.rs:8-179"]}
{"id": "C76", "title": "Public arrays are totally ordered at the first difference, and byte arrays by big-endian value", "statement": "For public arrays of equal length, cmp is decided at the first differing element, is a total order (antisymmetric, transitive, Eq exactly on equal arrays, consistent with == and partial_cmp), and on byte arrays equals the comparison of the big-endian integers.", "quantifier": "all pairs (triples) of arrays of any length", "why_tests_cant": "Transitivity and agreement with the integer order range over all triples of arrays of every length.", "anchors": ["hacspec/src/vec_integers.rs:10-22", "hacspec/src/vec_integers.rs:289-301", "hacspec/src/array.rs:629-634"]}
{"id": "C77", "title": "wrap_add, wrap_sub and wrap_mul of the NumericBase trait wrap", "statement": "For every number type the wrapping operations return the residue of the integer result: modulo 2^bits per element for arrays and sequences, modulo n for modular integers, modulo 2^bits for bounded integers.", "quantifier": "all operands, all widths and moduli", "why_tests_cant": "The operations coincide with the checked ones except at overflow, so samples with small operands cannot tell wrapping from panicking.", "anchors": ["hacspec/src/math_integers.rs:42-52", "hacspec/src/math_integers.rs:578-588", "hacspec/src/vec_integers.rs:189-201", "hacspec/src/vec_integers.rs:679-689", "hacspec/src/vec_integers.rs:1045-1053"]}
{"id": "C78", "title": "Poly1305 is an almost-universal hash and a one-time authenticator", "statement": "For two different messages and any difference d, at most max(blocks) values of r in the field make the two accumulators differ by d; for any two tags t, t', at most 7*max(blocks) clamped halves r of the key give m the tag t and m' the tag t'.", "quantifier": "all pairs of different messages of any lengths, all tags and differences, all sets of keys", "why_tests_cant": "A counting statement over all 2^106 clamped keys and all message pairs; a hash that drops the high bit of a block or reuses a power of r authenticates every sample and is forgeable.", "anchors": ["spec-examples/src/chacha20_poly1305/poly1305.rs:28-72"]}
{"id": "C79", "title": "GHASH over the GCM input is almost universal, hence an AES-GCM forgery bound", "statement": "For two different pairs (associated data, ciphertext) and any difference d, the GHASH values of their padded inputs differ by d for at most as many keys as the longer input has blocks; under one IV two triples (aad, ct, tag) differing in more than the tag are both accepted for at most that many hash keys AES_k(0). Without the length block this fails: a leading zero block never changes gmac.", "quantifier": "all pairs of inputs with lengths below 2^61 bytes, all tags, all sets of keys, AES-128 and AES-256", "why_tests_cant": "A counting statement over all 2^128 hash keys; ambiguous padding or a missing length field collides for every key on inputs no sample contains.", "anchors": ["spec-examples/src/aes_gcm/gf128.rs:17-78", "spec-examples/src/aes_gcm/aesgcm.rs:11-118"]}
{"id": "C80", "title": "GF(2^128) as implemented is a field", "statement": "fmul has no zero divisors, cancels, has the unit 2^127, and every non-zero element has exactly one inverse.", "quantifier": "all 128-bit elements", "why_tests_cant": "Depends on the irreducibility of x^128+x^7+x^2+x+1, i.e. on all 2^128 elements.", "anchors": ["spec-examples/src/aes_gcm/gf128.rs:15-35"]}
{"id": "C81", "title": "Diffie-Hellman over the P-256 functions agrees and is not degenerate", "statement": "If point_mul(a) and point_mul(b) are points other than (0,0), the ladder with a started at b's public key and the ladder with b started at a's public key give the same affine point, it is not (0,0), and it is point_mul(a*b mod n); equal shared points come from equal public keys.", "quantifier": "all pairs of scalars below 2^256", "why_tests_cant": "2^512 pairs of scalars; a ladder that mishandles one exceptional addition agrees on every sampled pair.", "anchors": ["spec-examples/src/p256/p256.rs:16-125"]}
{"id": "C82", "title": "The constructors, comparison and division of the poly! types", "statement": "new(p) has the coefficients listed in p (the last pair of an index wins) and panics on an index out of range; new_full takes the array; == holds exactly of equal values; a / b is the quotient and remainder; from_vec keeps the value of its argument.", "quantifier": "all type parameters, index lists and vectors; for division all prime moduli within the no-overflow bound", "why_tests_cant": "Boundary degrees (exactly l) and repeated indices are not in any test; the modulus polynomial has one more coefficient than the values.", "anchors": ["hacspec/src/poly.rs:353-447", "hacspec/src/poly.rs:463-515"]}
{"id": "C83", "title": "A poly! type over a prime modulus is a field exactly when its polynomial is irreducible", "statement": "inv succeeds on every non-zero value, with a * a.inv() = 1, if and only if the modulus polynomial is irreducible modulo n.", "quantifier": "all types with a prime modulus within the no-overflow bound, all degrees, all values", "why_tests_cant": "All n^l values of all types; tests invert three values of one field.", "anchors": ["hacspec/src/poly.rs:208-340", "hacspec/src/poly.rs:424-427"]}
{"id": "C84", "title": "ChaCha20-Poly1305: a forgery is accepted for few one-time keys only", "statement": "Under one IV two triples (associated data, ciphertext, tag) that differ in more than the tag are both accepted for at most 7 * max(blocks) values of the clamped one-time key r.", "quantifier": "all pairs of triples with lengths below 2^64, all sets of keys with pairwise different r", "why_tests_cant": "A counting statement over all keys; ambiguous padding or a dropped length field is accepted for every key on inputs no sample contains.", "anchors": ["spec-examples/src/chacha20_poly1305/chacha20poly1305.rs:8-66", "spec-examples/src/chacha20_poly1305/poly1305.rs:23-77"]}
{"id": "C85", "title": "HMAC cannot be forged without a key; collisions of HMAC are collisions of the hash", "statement": "No pair of different texts has the same tag under every key; two texts with the same tag under one key give two different inputs of hash with the same digest.", "quantifier": "all keys and texts within the length limits of SHA-256", "why_tests_cant": "The forgery needs a text that ends in the encoded length of another one.", "anchors": ["spec-examples/src/hmac/hmac.rs:15-51", "spec-examples/src/sha2/sha2.rs:164-193"]}
{"id": "C86", "title": "Digests of whole-block messages can be extended", "statement": "From the digest of a message m of whole blocks and the length of m alone, the digest of every message m ++ x is a fixed computable function; this holds of hash (SHA-256, 64-byte blocks) and of blake2b (128-byte blocks), where the finalisation flag of the RFC is meant to rule it out.", "quantifier": "all messages of whole blocks and all continuations within the length limits", "why_tests_cant": "Says that a function exists for all pairs of messages; a test compares single digests.", "anchors": ["spec-examples/src/sha2/sha2.rs:164-193", "spec-examples/src/blake2/blake2b.rs:160-209"]}
{"id": "C87", "title": "What AES-GCM makes public depends on public data only", "statement": "The values that AES-GCM encryption and decryption turn from secret to public (declassify) are a function of the public inputs (lengths, IV, associated data), as the documentation of the secret integers asks of cryptographic code; they say nothing about the key.", "quantifier": "all keys, IVs, associated data, messages, both key sizes", "why_tests_cant": "Compares the records of runs under all pairs of keys; the code keeps no such record.", "anchors": ["secret-integers/src/lib.rs:13-17", "spec-examples/src/aes_gcm/aes.rs:44-52", "spec-examples/src/aes_gcm/gf128.rs:21-35"]}
{"id": "C88", "title": "BLAKE2b collisions are collisions of its compression function", "statement": "If two different non-empty messages have the same BLAKE2b digest, then at a point fixed by the two messages the compression function is called on two different inputs (chaining value, block, counter, last-block flag) with the same result, and all later blocks of the two messages are the same.", "quantifier": "all pairs of messages shorter than 2^64 bytes", "why_tests_cant": "No test can search for colliding messages; the claim is about all of them.", "anchors": ["spec-examples/src/blake2/blake2b.rs:160-209"]}
{"id": "C89", "title": "SHA-3 and SHAKE collisions are output coincidences or inner collisions", "statement": "If two different inputs of the sponge (message with its domain suffix) give the same output, then either the two final states differ and only the squeezed part agrees, or the states after two different sequences of leading blocks agree on the capacity. SHA3-256 and SHAKE256 never absorb the same padded input.", "quantifier": "all rates up to 200 bytes, all messages, suffixes and output lengths", "why_tests_cant": "Speaks of colliding messages, which no test can produce for the full capacity.", "anchors": ["spec-examples/src/fips202/fips202.rs:115-186"]}
{"id": "C90", "title": "What reuse of a nonce gives away; stream splitting", "statement": "Under one key and one nonce, the exclusive or of three accepted AES-GCM ciphertexts of equal lengths (data, ciphertext, tag) is accepted again; with the GHASH key, the tag of any data and ciphertext follows from one accepted one; a known message reveals any other encrypted under the same nonce, for AES-GCM and ChaCha20-Poly1305. AES-CTR splits at block boundaries with the counter advanced; ChaCha20 of a prefix is the prefix of the ciphertext.", "quantifier": "all keys, nonces, associated data and messages within the length limits, both AES key sizes", "why_tests_cant": "Holds for every key; a test shows one.", "anchors": ["spec-examples/src/aes_gcm/aesgcm.rs:38-118", "spec-examples/src/aes_gcm/aes.rs:233-308", "spec-examples/src/chacha20_poly1305/chacha20.rs:82-99"]}
{"id": "C91", "title": "Random constructors return values of the type", "statement": "Whatever the random generator answers, random arrays and sequences have the requested length and consist of generated values; random polynomials of a poly! type with positive modulus have coefficients in 0..n-1; every value of the type can come out. With modulus 0 (integer polynomials) and at least one coefficient, random panics.", "quantifier": "all generators, lengths, moduli and reduction polynomials", "why_tests_cant": "Tests see a handful of random draws.", "anchors": ["hacspec/src/seq.rs:291-303", "hacspec/src/array.rs:243-247", "hacspec/src/array.rs:542-546", "hacspec/src/array.rs:618-620", "hacspec/src/poly.rs:383-398"]}
{"id": "C92", "title": "Library operations on secret integers print nothing that depends on them", "statement": "Printing is done by the caller after declassification only: the arithmetic of the library writes nothing that depends on secret operands. Display, Debug and LowerHex give the exact value.", "quantifier": "all values and operands", "why_tests_cant": "Tests do not look at what is printed, let alone compare it for all operands.", "anchors": ["hacspec/src/machine_integers.rs:19-27", "hacspec/src/machine_integers.rs:246-251", "hacspec/src/math_util.rs:31", "hacspec/src/poly.rs:422-458", "secret-integers/src/lib.rs:293-310", "hacspec/src/array.rs:496-525"]}
{"id": "C93", "title": "What ChaCha20-Poly1305 and X25519 make public depends on public data only", "statement": "The values declassified during encryption, decryption and scalar multiplication do not depend on the key or the secret scalar.", "quantifier": "all keys, nonces, associated data, messages, scalars and points", "why_tests_cant": "Tests look at results, not at what becomes public on the way, and cannot compare all keys.", "anchors": ["hacspec/src/math_integers.rs:680-709", "spec-examples/src/chacha20_poly1305/poly1305.rs:28-77", "spec-examples/src/chacha20_poly1305/chacha20poly1305.rs:29-66", "spec-examples/src/curve25519/curve25519.rs:30-42", "spec-examples/src/curve25519/curve25519.rs:92-97"]}
{"id": "C94", "title": "Release builds agree with debug builds wherever the debug build returns", "statement": "Whenever a function of the integer, modular, sequence, SHA-256, HMAC or HKDF code returns a value with debug assertions and overflow checks on, it returns the same value with both switched off.", "quantifier": "all integer types, values, sequences, messages, keys and output lengths on which the debug build returns", "why_tests_cant": "Tests run in one profile and on few inputs; agreement of two profiles is about every input on which one of them returns.", "anchors": ["hacspec/src/machine_integers.rs:19-80", "hacspec/src/machine_integers.rs:246-401", "hacspec/src/math_util.rs:11-68", "hacspec/src/traits.rs:28-59", "hacspec/src/seq.rs:46-115", "hacspec/src/array.rs:82-130", "spec-examples/src/sha2/sha2.rs:164-193", "spec-examples/src/hkdf/hkdf.rs:25-60"]}
{"id": "C95", "title": "Release builds never silently return a wrong result", "statement": "Where the debug build panics, the release build panics too or still returns the mathematically right result.", "quantifier": "all integer types, values, moduli, sequences, chunk sizes and chunk numbers", "why_tests_cant": "Tests run with the checks on, where these inputs panic; the wrong values only appear in the other profile.", "anchors": ["hacspec/src/machine_integers.rs:19-80", "hacspec/src/machine_integers.rs:246-401", "hacspec/src/math_util.rs:11-68", "hacspec/src/traits.rs:28-59", "hacspec/src/seq.rs:79-115", "hacspec/src/array.rs:95-130"]}
{"id": "C96", "title": "SHA-256, HMAC and HKDF of the release build", "statement": "With the checks off, hash returns on every message, HKDF-Expand returns RFC 5869 output for exactly the lengths RFC 5869 allows, and the Blake2b counter carries correctly.", "quantifier": "all messages, keys, infos shorter than 2^63 bytes, all output lengths, all counters", "why_tests_cant": "Needs messages of more than 2^61 bytes, all output lengths, and a build profile the tests are not run in.", "anchors": ["spec-examples/src/sha2/sha2.rs:164-193", "spec-examples/src/hmac/hmac.rs:15-51", "spec-examples/src/hkdf/hkdf.rs:25-60", "spec-examples/src/blake2/blake2b.rs:74-82"]}
{"id": "C97", "title": "Modular inverses of negative numbers", "statement": "For signed machine integers inv(x, n) with x < 0 returns a y with x*y = 1 mod n if x is invertible, and panics otherwise.", "quantifier": "all signed widths, all negative x, all moduli", "why_tests_cant": "The tests use non-negative arguments; the wrong answers depend on divisibility relations between x and n.", "anchors": ["hacspec/src/math_util.rs:25-68", "hacspec/src/machine_integers.rs:142-144", "hacspec/src/machine_integers.rs:398-401"]}
{"id": "C98", "title": "Polynomial arithmetic over public types is right or panics, for every modulus", "statement": "Over u8..u128 and i8..i128, whatever the modulus n > 1 (n^2 and n^3 need not fit the type), poly_add, poly_sub, poly_mul, poly_div and extended_euclid and the operators of poly! types either panic or return the right residues; poly_div returns only if the divisor's leading coefficient is invertible mod n. Over i8..i64 sums, differences and products never panic.", "quantifier": "all public widths, all moduli > 1 (primes for inversion and poly! types), all canonical operands (all operands for products, and for sums and differences over signed types)", "why_tests_cant": "Whether an intermediate overflows depends on every coefficient; no sample shows that overflow can never slip through silently.", "anchors": ["hacspec/src/poly.rs:79-190", "hacspec/src/poly.rs:315-339", "hacspec/src/poly.rs:477-505", "hacspec/src/machine_integers.rs:19-80"]}
{"id": "C99", "title": "Polynomial arithmetic over secret types is right or panics", "statement": "Over U8..U128 and I8..I128, whatever the modulus, the polynomial operations return the right residues or panic.", "quantifier": "all secret widths, moduli and operands", "why_tests_cant": "The wrap-around that gives a wrong quotient happens for particular coefficients only and leaves no trace.", "anchors": ["hacspec/src/poly.rs:79-190", "hacspec/src/poly.rs:315-339", "secret-integers/src/lib.rs:78-90"]}
{"id": "C100", "title": "Polynomial arithmetic in the release profile agrees with the debug profile", "statement": "In a release build (no debug_assert!, wrapping + - *) every function of poly.rs and every operator of a poly! type returns what the debug build returns wherever that returns a value; so under the bounds of C31-C34 the results are right and inv panics exactly for the non-invertible elements.", "quantifier": "all coefficient types (public or secret, signed or not), moduli, polynomials and fuel", "why_tests_cant": "The tests run in the debug profile only, and equality must hold for every input.", "anchors": ["hacspec/src/poly.rs:79-339", "hacspec/src/poly.rs:424-515"]}
{"id": "C101", "title": "Polynomial arithmetic in the release profile is right or panics", "statement": "In a release build the functions of poly.rs over the public unsigned types return the right result or panic, and extended_euclid and from_vec reject arguments of too high a degree.", "quantifier": "all moduli and polynomials over public unsigned types", "why_tests_cant": "Wrap-around and dropped coefficients give plausible polynomials; the tests run in the debug profile, where these inputs panic.", "anchors": ["hacspec/src/poly.rs:79-190", "hacspec/src/poly.rs:315-339", "hacspec/src/poly.rs:429-447"]}
{"id": "C102", "title": "An AEAD ciphertext opens under one key only", "statement": "If a ciphertext with its tag is accepted by AES-GCM or ChaCha20-Poly1305 under a nonce and associated data, no other key accepts it (key commitment).", "quantifier": "all pairs of keys, nonces, associated data, ciphertexts and tags", "why_tests_cant": "A ciphertext that opens under two keys has to be computed by solving an equation over the field of the authenticator; random testing never meets one.", "anchors": ["spec-examples/src/aes_gcm/aesgcm.rs: encrypt_aes, decrypt_aes", "spec-examples/src/chacha20_poly1305/chacha20poly1305.rs: encrypt, decrypt"]}
{"id": "C103", "title": "ChaCha20-Poly1305 interoperates with other implementations of RFC 8439", "statement": "What a conforming sender seals is opened by decrypt, and what encrypt seals is what RFC 8439 prescribes.", "quantifier": "all keys, nonces, associated data and messages", "why_tests_cant": "The published vectors happen to lie on the right side of the threshold; about one message in eight lies on the other side, which only a proof (or a second implementation) shows.", "anchors": ["spec-examples/src/chacha20_poly1305/chacha20poly1305.rs: encrypt, decrypt", "spec-examples/src/chacha20_poly1305/poly1305.rs: poly"]}
{"id": "C104", "title": "An index names the element at that position, whatever the index type", "statement": "For sequences and arrays indexed by u8, u32, i32 or usize: reading returns the element at that position and writing replaces it and nothing else; an index past the end or negative panics; a range gives exactly that part or panics. create gives default elements and from_string reads back to_hex.", "quantifier": "all element types, lengths, indices, and pointer widths of at least 32 bits", "why_tests_cant": "Negative i32 indices are sign-extended to huge usize values; that none of them ever lands inside a sequence depends on all lengths and both pointer widths.", "anchors": ["hacspec/src/seq.rs:115-195", "hacspec/src/seq.rs:243-286", "hacspec/src/array.rs:157-216", "hacspec/src/array.rs:411-470"]}
{"id": "C105", "title": "Index arithmetic of sequences does not overflow into wrong results", "statement": "The usize sums, differences and products in update_sub, sub, from_sub, subr, get_chunk, set_chunk and num_chunks overflow only where the call has to panic anyway, and num_chunks returns the least number of chunks that covers the sequence.", "quantifier": "all sequences that fit in memory, all indices, lengths, chunk sizes and chunk numbers, every pointer width", "why_tests_cant": "The overflows need operands near 2^64 (or products reaching it), which no test passes.", "anchors": ["hacspec/src/traits.rs:28-65", "hacspec/src/seq.rs:49-109", "hacspec/src/array.rs:64-131"]}
{"id": "C106", "title": "A release build of the cipher and hash specifications computes what a debug build computes", "statement": "With debug assertions compiled out and overflow checks off, ChaCha20-Poly1305, AES, AES-GCM, SHA-3 and SHAKE, BLAKE2b and X25519 return the debug build's result wherever that build returns, and panic or give the specified result elsewhere.", "quantifier": "all keys, nonces, counters, associated data, messages and tags that fit in memory, all output lengths, all round numbers", "why_tests_cant": "cargo test builds the debug profile; the differences are at lengths and round numbers near 2^60 and above.", "anchors": ["spec-examples/src/chacha20_poly1305/chacha20poly1305.rs", "spec-examples/src/aes_gcm/aes.rs", "spec-examples/src/aes_gcm/aesgcm.rs", "spec-examples/src/fips202/fips202.rs", "spec-examples/src/blake2/blake2b.rs", "spec-examples/src/curve25519/curve25519.rs"]}
{"id": "C107", "title": "P-256 scalar multiplication works on points of P-256 only", "statement": "The Montgomery ladder of p256.rs, started at a point that is not on P-256, panics instead of computing on another curve.", "quantifier": "all points of all curves y^2 = x^3 - 3x + b over the field, in all Jacobian coordinates, all scalars", "why_tests_cant": "The tests start the ladder at the base point only; the behaviour elsewhere is a statement about 2^512 points.", "anchors": ["spec-examples/src/p256/p256.rs:12-115"]}
{"id": "C108", "title": "AES-GCM conforms to SP 800-38D", "statement": "For every key, 96-bit IV, associated data and text, encrypt_aes128/256 returns what algorithm 4 (GCM-AE) of SP 800-38D returns with 128-bit tags, and decrypt_aes128/256 returns what algorithm 5 (GCM-AD) returns, FAIL included; fmul is algorithm 1 and gmac is algorithm 2.", "quantifier": "all keys of both sizes, all IVs, all associated data, plaintexts, ciphertexts and tags of any length", "why_tests_cant": "The tests are a handful of vectors of at most 60 bytes; agreement with the standard's bit-level algorithms for all lengths, and behaviour beyond the permitted 2^36 - 32 bytes, is out of reach of running.", "anchors": ["spec-examples/src/aes_gcm/aesgcm.rs:11-118", "spec-examples/src/aes_gcm/gf128.rs:12-78", "spec-examples/src/aes_gcm/aes.rs:211-309"]}
{"id": "C109", "title": "The public AES block functions return AES or panic", "statement": "aes128_encrypt_block(k, b, nk, nr) returns the AES-128 encryption of b under k for nk = 4, nr = 10 and panics for all other nk and nr; aes256_encrypt_block likewise with nk = 8, nr = 14.", "quantifier": "all keys, blocks, and values of nk and nr", "why_tests_cant": "The tests pass (4, 10) and (8, 14) only; the parameters range over all pairs of usize and the keys and blocks over 2^128 values or more.", "anchors": ["spec-examples/src/aes_gcm/aes.rs:128-216"]}
{"id": "C110", "title": "The P-256 ladder at every pair of coordinates, including the singular cubics", "statement": "The Montgomery ladder of p256.rs multiplies every point of the plane without a panic, and its results for points that are not on P-256 do not tell the scalar.", "quantifier": "all points of the plane over the field, in all Jacobian coordinates, all scalars", "why_tests_cant": "The tests start the ladder at the base point only; that no point at all makes it panic, and that two results determine each of 2^256 scalars, are statements about all points and all pairs of scalars.", "anchors": ["spec-examples/src/p256/p256.rs:12-115"]}
{"id": "C111", "title": "Integer division rounds towards zero and panics exactly at zero and on overflow", "statement": "For every integer type, div and % give the quotient and remainder rounding towards zero; they panic exactly for a zero divisor and for MIN / -1. wrap_div gives the same quotient, MIN for MIN / -1, panics at zero, and is unimplemented for secret integers.", "quantifier": "all widths, both signednesses, all pairs of values", "why_tests_cant": "There are 2^256 pairs of 128-bit integers; the exceptional pair MIN, -1 is one of them.", "anchors": ["hacspec/src/machine_integers.rs:121-139", "hacspec/src/machine_integers.rs:365-395"]}
{"id": "C112", "title": "Comparing modular integers compares residues", "statement": "A program made of literals, byte strings, +, -, * and powers of modular integers does not panic, its result is congruent to the integer it stands for, == of two results holds exactly when the two integers are congruent, and cmp orders by least residues.", "quantifier": "all canvas sizes and moduli, all expressions of any depth, all arguments the constructors accept", "why_tests_cant": "The expressions, moduli and values are unbounded; == compares stored integers, so it is only right if no reachable value is stored unreduced.", "anchors": ["abstract-integers/src/nat_mod.rs:21-75", "abstract-integers/src/nat_mod.rs:184-247", "abstract-integers/src/nat_mod.rs:338-341"]}
{"id": "C113", "title": "Different HMAC keys and HKDF salts act differently", "statement": "Two different keys of hmac do not give the same tag for the same text, nor two salts of extract the same key, unless this is a collision of SHA-256.", "quantifier": "all pairs of keys or salts, all texts below 2^61 - 64 bytes", "why_tests_cant": "Keys and texts are unbounded; that tags of inequivalent keys agree only at a collision is a statement about all pairs.", "anchors": ["spec-examples/src/hmac/hmac.rs:15-51", "spec-examples/src/hkdf/hkdf.rs:17-23"]}
