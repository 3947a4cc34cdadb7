{
 "claims": [
  {
   "property": "C01",
   "status": "proved",
   "theorems": [
    "C01_secret_arith_exact",
    "C01_secret_neg_exact",
    "C01_signed_neg",
    "C01_bitwise",
    "C01_checked",
    "C01_named_types"
   ],
   "note": "All widths, signed and unsigned. Unary minus on signed secret integers panics exactly at MIN (C01_signed_neg). C01_named_types fixes width, sign and wrapping of each of the twenty named types."
  },
  {
   "property": "C02",
   "status": "proved",
   "theorems": [
    "C02_comparison_masks",
    "C02_signed_unimplemented"
   ],
   "note": "All six comparisons, every width; signed secret comparisons are unimplemented!() in the code."
  },
  {
   "property": "C03",
   "status": "proved",
   "theorems": [
    "C03_encode_positional",
    "C03_decode_encode",
    "C03_encode_decode",
    "C03_single_word_helpers"
   ],
   "note": ""
  },
  {
   "property": "C04",
   "status": "proved",
   "theorems": [
    "C04_rotations",
    "C04_trait_rotations_unsigned"
   ],
   "note": "Trait rotations for the five Rust widths (the mask NUM_BITS-1 needs a power of two)."
  },
  {
   "property": "C05",
   "status": "partial",
   "theorems": [
    "C05_trait_rotate_signed_refuted",
    "C05_trait_rotate_right_signed_refuted",
    "C05_trait_rotate_signed_nonneg",
    "C05_trait_rotate_signed_exact"
   ],
   "note": "False of the code: refuted with witnesses. What holds: correct on all non-negative signed values, and on a negative value exactly when the bits that the smeared sign covers are all ones; every bit of the result is given (C05_trait_rotate_signed_exact)."
  },
  {
   "property": "C06",
   "status": "proved",
   "theorems": [
    "C06_casts"
   ],
   "note": "Every conversion is modelled by Rust `as`."
  },
  {
   "property": "C07",
   "status": "proved",
   "theorems": [
    "C07_get_set_bit"
   ],
   "note": "Also holds for signed types; panic conditions included."
  },
  {
   "property": "C08",
   "status": "proved",
   "theorems": [
    "C08_conditional_ops"
   ],
   "note": "Signed and unsigned."
  },
  {
   "property": "C09",
   "status": "partial",
   "theorems": [
    "C09_bm_masks_unsigned",
    "C09_bm_masks_signed_refuted",
    "C09_signed_mask_breaks_cswap",
    "C09_bm_signed_exact",
    "C09_bool_comparisons"
   ],
   "note": "Proved for all unsigned types; false for public signed types (mask is 0x7F..F): refuted."
  },
  {
   "property": "C10",
   "status": "proved",
   "theorems": [
    "C10_ct_div_is_division",
    "C10_ct_div_by_zero"
   ],
   "note": "All widths 2..128, public and secret."
  },
  {
   "property": "C100",
   "status": "proved",
   "theorems": [
    "C100_functions",
    "C100_operators",
    "C100_add_sub",
    "C100_mul",
    "C100_division",
    "C100_inverse",
    "C100_poly_type"
   ],
   "note": "C100_functions and C100_operators compare the two profiles; the others state the right result for the release profile directly."
  },
  {
   "property": "C101",
   "status": "partial",
   "theorems": [
    "C101_mul_refuted",
    "C101_division_refuted",
    "C101_inverse_refuted",
    "C101_inverse_truncates",
    "C101_from_vec",
    "C101_integer_wraps"
   ],
   "note": "False of the code: u8 modulo 251 multiplies 30 by 50 to 220, u8 modulo 19 divides with a wrong remainder, and extended_euclid inverts x^2+1 modulo x^2+1. What holds: integer coefficients are exact modulo 2^w (C101_integer_wraps), extended_euclid inverts the polynomial cut to the degree of the modulus (C101_inverse_truncates), from_vec keeps exactly the first l coefficients (C101_from_vec); C100 gives the right results under bounds."
  },
  {
   "property": "C102",
   "status": "partial",
   "theorems": [
    "C102_gcm_two_keys",
    "C102_gcm_same_hash_key",
    "C102_chacha_two_keys",
    "C102_gcm_key_commitment_refuted",
    "C102_chacha_key_commitment_refuted"
   ],
   "note": "False of the code (and of the standards): for AES-GCM any two keys whose encryptions of the zero block differ share ciphertexts, and any ciphertext of whole blocks is completed to a shared one by exactly one block (C102_gcm_two_keys); for ChaCha20-Poly1305 eight more blocks always suffice when the clamped one-time keys differ (C102_chacha_two_keys); explicit witnesses are given for both. What holds: if those encryptions agree, sharing needs equal tag masks (C102_gcm_same_hash_key)."
  },
  {
   "property": "C103",
   "status": "partial",
   "theorems": [
    "C103_seal",
    "C103_open",
    "C103_count_s",
    "C103_count_pairs",
    "C103_interoperates_refuted"
   ],
   "note": "False of the code: if accumulator plus s reaches 2^130-5 the tag is the RFC's plus 5, and the RFC's tag is refused (C103_interoperates_refuted: the key of RFC 8439 2.8.2, a four-byte message). What holds: below that threshold both directions agree with the RFC (C103_seal, C103_open), the ciphertext always does; exactly 2^127*(2^128-1) of the pairs of accumulator and s, one in eight, are above it (C103_count_pairs)."
  },
  {
   "property": "C104",
   "status": "proved",
   "theorems": [
    "C104_read_unsigned",
    "C104_read_i32",
    "C104_write_unsigned",
    "C104_write_i32",
    "C104_range",
    "C104_read_write",
    "C104_create",
    "C104_from_string"
   ],
   "note": "For i32 the length is assumed below half the address space, which Rust guarantees for every allocation."
  },
  {
   "property": "C105",
   "status": "partial",
   "theorems": [
    "C105_agree",
    "C105_agree_chunks",
    "C105_num_chunks",
    "C105_num_chunks_release",
    "C105_num_chunks_refuted"
   ],
   "note": "False of the code: when length plus chunk size exceeds 2^w, num_chunks panics in the debug profile and returns 0 for a non-empty sequence in the release profile (C105_num_chunks_refuted). What holds: everything else agrees with unbounded arithmetic (C105_agree, C105_agree_chunks), and num_chunks is right exactly below that bound (C105_num_chunks, C105_num_chunks_release)."
  },
  {
   "property": "C106",
   "status": "partial",
   "theorems": [
    "C106_refines",
    "C106_chacha20_poly1305",
    "C106_aes_gcm",
    "C106_sha3",
    "C106_blake2b",
    "C106_blake2_other_variants",
    "C106_x25519",
    "C106_reduced_rounds",
    "C106_round_number_refuted"
   ],
   "note": "False of the code: the AES block functions, given r + j*2^60 as the number of rounds (j not a multiple of 4), encrypt with only r rounds in a release build where a debug build panics (C106_reduced_rounds, C106_round_number_refuted), and blake2::<U32> with the variant Blake2B returns a digest for the empty input (C106_blake2_other_variants). What holds: wherever the debug build returns, the release build returns the same (C106_refines), and both return on all inputs of the intended sizes (the other theorems)."
  },
  {
   "property": "C107",
   "status": "partial",
   "theorems": [
    "C107_own_curve",
    "C107_group",
    "C107_ladder",
    "C107_residue",
    "C107_parity",
    "C107_points_off_the_curve_refuted"
   ],
   "note": "False of the code: the coefficient b occurs nowhere in the formulas, no point is refused, and four points off the curve reveal the scalar modulo 2520 (C107_points_off_the_curve_refuted). What holds: every finite point lies on exactly one curve y^2 = x^3 - 3x + b, and on every smooth one (b^2 <> 4) the ladder computes the multiple in the group of that curve (C107_ladder), so the result tells the scalar modulo the order of the point and no more (C107_residue). The only public function, point_mul, starts at the base point (C62)."
  },
  {
   "property": "C108",
   "status": "partial",
   "theorems": [
    "C108_multiplication",
    "C108_ghash",
    "C108_encrypt",
    "C108_decrypt",
    "C108_conforms_refuted"
   ],
   "note": "False of the code: there is no length check, a message one byte over the limit of 2^39 - 256 bits is encrypted and its ciphertext decrypted where the standard gives no result and FAIL (C108_conforms_refuted). What holds: within the supported lengths both directions are the standard's algorithms, which S_GCM.v transcribes on bit strings (C108_encrypt, C108_decrypt), and fmul and gmac are algorithms 1 and 2 (C108_multiplication, C108_ghash). Tags shorter than 128 bits and other IV lengths cannot be expressed in the code's types."
  },
  {
   "property": "C109",
   "status": "partial",
   "theorems": [
    "C109_aes128_returns",
    "C109_aes256_returns",
    "C109_aes128_value",
    "C109_aes256_value",
    "C109_permutation",
    "C109_large_nk",
    "C109_aes_iff",
    "C109_aes_or_panic_refuted"
   ],
   "note": "False of the code: a wrong nk is not refused; nk = 6 with a 128-bit key, and nk = 4 with a 256-bit key, return a block that is not AES's (C109_aes_or_panic_refuted). What holds: the exact set of arguments with which the functions return, nr = 10 and nk >= 3 or nr = 14 and nk >= 4 (C109_aes128_returns, C109_aes256_returns); what they return then, the cipher of FIPS 197 with a modified key schedule (C109_aes128_value, C109_aes256_value), which is a permutation (C109_permutation) and no longer depends on nk from 44 or 60 on (C109_large_nk); they are AES for their own nk and nr and for no other pair (C109_aes_iff). Debug profile; for the release profile see C106_round_number_refuted."
  },
  {
   "property": "C11",
   "status": "proved",
   "theorems": [
    "C11_add_mul_mod_unsigned",
    "C11_sub_mod_unsigned",
    "C11_sub_mod_zero_diverges",
    "C11_signed",
    "C11_signed128",
    "C11_signed_negative_modulus",
    "C11_zero_modulus"
   ],
   "note": "Beyond the statement: modulus 0 never returns on any type, and a negative modulus either gives the residue modulo -n or does not return."
  },
  {
   "property": "C110",
   "status": "partial",
   "theorems": [
    "C110_ladder",
    "C110_parity",
    "C110_singular",
    "C110_discrete_log",
    "C110_two_points_refuted"
   ],
   "note": "False of the code: two points on the singular cubics y^2 = x^3 - 3x - 2 and y^2 = x^3 - 3x + 2, whose orders are products of primes below 2^46, have results that together determine every 256-bit scalar (C110_two_points_refuted). What holds: the ladder panics at no point and gives the multiple of every point, also where C107 does not apply (C110_ladder); y = 0 gives the parity (C110_parity); on the two singular cubics it computes powers of t + s with s^2 = 3 or -3 (C110_singular), on the second one powers modulo p256, so that the scalar is a discrete logarithm modulo p256 (C110_discrete_log). That discrete logarithms in groups of such orders are easy is not formalised. The only public function, point_mul, starts at the base point (C62)."
  },
  {
   "property": "C111",
   "status": "proved",
   "theorems": [
    "C111_division"
   ],
   "note": "Debug profile; the two exceptional cases of / and % panic in the release profile as well."
  },
  {
   "property": "C112",
   "status": "partial",
   "theorems": [
    "C112_programs",
    "C112_comparison",
    "C112_large_modulus",
    "C112_comparison_refuted"
   ],
   "note": "False of the code: the literal equal to the modulus is stored unreduced, so it is unequal to and above 0 (C112_comparison_refuted). What holds: no program panics and all results are congruent to their integers (C112_programs); all programs other than that bare literal compare rightly (C112_comparison), also when the literal occurs inside; with a modulus of 2^128 or more, as in all shipped fields, no literal can be the modulus and == is right without exception (C112_large_modulus)."
  },
  {
   "property": "C113",
   "status": "partial",
   "theorems": [
    "C113_padded_keys",
    "C113_padded_salts",
    "C113_other_keys",
    "C113_keys_refuted"
   ],
   "note": "False of the code, as of RFC 2104 itself: keys of at most 64 bytes that differ in zeros at the end give the same tags for all texts (C113_padded_keys, C113_keys_refuted), and so do salts; the empty salt is the salt of zeros (C113_padded_salts). Keys above 64 bytes are interchangeable with their digests (C51_long_key_is_hashed). What holds: the tags of any two texts under keys with different blocks are the FIPS 180-4 SHA-256 digests of two different, explicitly given inputs of 96 bytes, so that equal tags are a collision between these (C113_other_keys); the padding error of hash does not matter there."
  },
  {
   "property": "C12",
   "status": "proved",
   "theorems": [
    "C12_extended_euclid_inverse"
   ],
   "note": "Under n*n <= 2^bits; see C65 for larger moduli."
  },
  {
   "property": "C13",
   "status": "partial",
   "theorems": [
    "C13_noninvertible_panics_refuted",
    "C13_noninvertible_exact"
   ],
   "note": "False of the code at x = 0 (returns 0): refuted; exact behaviour proved (0 is the only exception)."
  },
  {
   "property": "C14",
   "status": "proved",
   "theorems": [
    "C14_pow"
   ],
   "note": ""
  },
  {
   "property": "C15",
   "status": "proved",
   "theorems": [
    "C15_update_sub",
    "C15_update_whole",
    "C15_sub_windows"
   ],
   "note": ""
  },
  {
   "property": "C16",
   "status": "proved",
   "theorems": [
    "C16_chunks_partition",
    "C16_get_set_chunk",
    "C16_chunk_size_zero_panics"
   ],
   "note": "Exact panic condition: chunk start beyond the length. Chunk number = length/size (start exactly at the end) returns an empty chunk instead of panicking."
  },
  {
   "property": "C17",
   "status": "proved",
   "theorems": [
    "C17_array_conversions"
   ],
   "note": "from_array is the Rust constructor, the identity in the model."
  },
  {
   "property": "C18",
   "status": "partial",
   "theorems": [
    "C18_decode_encode",
    "C18_encode_decode",
    "C18_accepted_exactly",
    "C18_non_hex_panics_refuted",
    "C18_wide_array_from_hex_refuted"
   ],
   "note": "Roundtrips proved. 'Non-hex characters panic' is false of the code: u8::from_str_radix accepts a leading plus sign, so \"+f\" decodes to 0x0f; the accepted strings are characterised exactly. Arrays of wider elements refuse valid digit counts."
  },
  {
   "property": "C19",
   "status": "proved",
   "theorems": [
    "C19_word_views",
    "C19_words_bytes_words"
   ],
   "note": ""
  },
  {
   "property": "C20",
   "status": "proved",
   "theorems": [
    "C20_equality_decides"
   ],
   "note": ""
  },
  {
   "property": "C21",
   "status": "proved",
   "theorems": [
    "C21_array_arithmetic",
    "C21_array_xor",
    "C21_length_mismatch_panics",
    "C21_array_div"
   ],
   "note": ""
  },
  {
   "property": "C22",
   "status": "partial",
   "theorems": [
    "C22_public_seq_xor_refuted",
    "C22_public_seq_xor_always_empty"
   ],
   "note": "False of the code: the result is always the empty sequence."
  },
  {
   "property": "C23",
   "status": "proved",
   "theorems": [
    "C23_public_secret_conversion"
   ],
   "note": ""
  },
  {
   "property": "C24",
   "status": "partial",
   "theorems": [
    "C24_unsigned_arithmetic",
    "C24_unsigned_construction",
    "C24_signed_arithmetic",
    "C24_representation_exact",
    "C24_negative_literal",
    "C24_signed_literal_refuted"
   ],
   "note": "False of the code for one constructor: from_signed_literal casts a negative literal to u128, so on types wider than 128 bits it silently yields x + 2^128 (C24_signed_literal_refuted; exact behaviour in C24_negative_literal). Every other operation and constructor is proved exact or panicking, unsigned and signed."
  },
  {
   "property": "C25",
   "status": "partial",
   "theorems": [
    "C25_full_range_refuted",
    "C25_all_below_max"
   ],
   "note": "False of the code: max() itself is never representable. What holds: every value below max() is."
  },
  {
   "property": "C26",
   "status": "proved",
   "theorems": [
    "C26_le_bytes_roundtrip",
    "C26_hex_roundtrip",
    "C26_bit_is_binary_digit",
    "C26_signed_hex_empty_sign_refuted",
    "C26_signed_hex"
   ],
   "note": "C26_signed_hex is the signed from_hex for every sign text; C26_signed_hex_empty_sign_refuted records that an empty sign drops the digits."
  },
  {
   "property": "C27",
   "status": "proved",
   "theorems": [
    "C27_ring_operations",
    "C27_ring_laws",
    "C27_division_is_integer_division"
   ],
   "note": ""
  },
  {
   "property": "C28",
   "status": "proved",
   "theorems": [
    "C28_inverse",
    "C28_powers",
    "C28_shipped_moduli_prime"
   ],
   "note": "pow(u128) panics when the exponent does not fit the base type (part of C28_powers)."
  },
  {
   "property": "C29",
   "status": "partial",
   "theorems": [
    "C29_literals_canonical_refuted",
    "C29_negative_literals_refuted",
    "C29_literals",
    "C29_modulus_must_fit"
   ],
   "note": "False of the code: from_literal(n) stores n, and negative literals become x + 2^128. What holds is C29_literals."
  },
  {
   "property": "C30",
   "status": "proved",
   "theorems": [
    "C30_roundtrip",
    "C30_decode"
   ],
   "note": ""
  },
  {
   "property": "C31",
   "status": "proved",
   "theorems": [
    "C31_mod_add_sub",
    "C31_integer_add_sub_public",
    "C31_integer_add_sub_secret"
   ],
   "note": "Canonical operands, 2n-2 representable. With n = 0: exact or panic on public types, wrapping on secret types."
  },
  {
   "property": "C32",
   "status": "proved",
   "theorems": [
    "C32_mul_mod",
    "C32_mul_mod_canonical",
    "C32_plain_unsigned",
    "C32_plain_signed",
    "C32_plain_secret"
   ],
   "note": "Modular variants for all operands whose coefficient products are representable; plain variant exact-or-panic (unsigned public), exact when it returns (signed public), modulo 2^w (secret)."
  },
  {
   "property": "C33",
   "status": "proved",
   "theorems": [
    "C33_division_identity",
    "C33_division_identity_prime",
    "C33_zero_divisor_panics",
    "C33_poly_type_ring",
    "C33_division_no_overflow_refuted"
   ],
   "note": "Identity, degree bound and uniqueness of quotient and remainder when n^3 is representable. The bound n^2 is not enough: refuted with a witness (the quotient coefficient is not reduced)."
  },
  {
   "property": "C34",
   "status": "proved",
   "theorems": [
    "C34_extended_euclid",
    "C34_zero_has_no_inverse",
    "C34_poly_type_inverse"
   ],
   "note": "Returns the unique inverse exactly when one exists (also for reducible modulus polynomials), Err otherwise; inv panics on Err."
  },
  {
   "property": "C35",
   "status": "partial",
   "theorems": [
    "C35_seq_mul_is_polynomial_product_refuted",
    "C35_seq_mul_is_pointwise",
    "C35_integer_mul_panics",
    "C35_integer_polynomials_can_be_multiplied_refuted",
    "C35_integer_div_panics"
   ],
   "note": "False of the code: with n = 0 multiplication panics for any two non-zero operands and division panics whenever the quotient would be non-zero. What holds: those panics, and addition/subtraction (C31)."
  },
  {
   "property": "C36",
   "status": "proved",
   "theorems": [
    "C36_chacha_involution"
   ],
   "note": ""
  },
  {
   "property": "C37",
   "status": "proved",
   "theorems": [
    "C37_block_is_rfc",
    "C37_stream_is_rfc"
   ],
   "note": ""
  },
  {
   "property": "C38",
   "status": "proved",
   "theorems": [
    "C38_quarter_round_bijection",
    "C38_double_round_bijection",
    "C38_rounds_bijection",
    "C38_equal_indices_not_injective"
   ],
   "note": ""
  },
  {
   "property": "C39",
   "status": "partial",
   "theorems": [
    "C39_distinct_counters_within_limit",
    "C39_no_keystream_reuse_refuted"
   ],
   "note": "False of the code: the 32-bit counter wraps silently, so a message longer than 2^32-1 blocks reuses key stream (and exposes the Poly1305 key block). What holds: up to 64*(2^32-1) bytes all counters are distinct and non-zero."
  },
  {
   "property": "C40",
   "status": "partial",
   "theorems": [
    "C40_poly1305_value",
    "C40_poly1305_is_rfc_iff",
    "C40_poly1305_is_rfc_refuted",
    "C40_poly_mac_key"
   ],
   "note": "False of the code: the final addition of s is reduced modulo 2^130-5 instead of being taken modulo 2^128. The exact value computed is proved, and it equals the RFC tag if and only if acc + s < 2^130-5."
  },
  {
   "property": "C41",
   "status": "proved",
   "theorems": [
    "C41_decrypt_encrypt",
    "C41_decrypt_accepts_iff",
    "C41_construction"
   ],
   "note": ""
  },
  {
   "property": "C42",
   "status": "proved",
   "theorems": [
    "C42_chacha_mac_input",
    "C42_chacha_mac_input_injective",
    "C42_gcm_mac_input",
    "C42_gcm_mac_input_injective"
   ],
   "note": "Both layouts, byte for byte, and injective. Length bounds: below 2^64 bytes for Poly1305, below 2^61 bytes for GHASH (bit lengths in 64 bits)."
  },
  {
   "property": "C43",
   "status": "proved",
   "theorems": [
    "C43_byte_product",
    "C43_inverse",
    "C43_sbox_is_fips",
    "C43_sbox_permutation",
    "C43_xtime",
    "C43_round_functions",
    "C43_key_schedule"
   ],
   "note": "The byte product of the specification is characterised as the unique remainder of the carry-less product."
  },
  {
   "property": "C44",
   "status": "proved",
   "theorems": [
    "C44_aes128_is_fips",
    "C44_aes256_is_fips",
    "C44_block_permutation"
   ],
   "note": "Injective, onto and total for every key of the right length, and equal to FIPS 197."
  },
  {
   "property": "C45",
   "status": "proved",
   "theorems": [
    "C45_ctr_involution",
    "C45_ctr_stream"
   ],
   "note": ""
  },
  {
   "property": "C46",
   "status": "proved",
   "theorems": [
    "C46_decrypt_encrypt",
    "C46_decrypt_accepts_iff",
    "C46_construction"
   ],
   "note": "Associated data and messages below 2^61 bytes, as SP 800-38D requires; tags of 16 bytes (the type of the argument)."
  },
  {
   "property": "C47",
   "status": "proved",
   "theorems": [
    "C47_fmul_is_field_product",
    "C47_fmul_ring"
   ],
   "note": ""
  },
  {
   "property": "C48",
   "status": "proved",
   "theorems": [
    "C48_gmac_is_polynomial",
    "C48_gmac_linear"
   ],
   "note": ""
  },
  {
   "property": "C49",
   "status": "partial",
   "theorems": [
    "C49_primes",
    "C49_constants",
    "C49_functions_bits",
    "C49_compress_is_fips",
    "C49_hash_is_fips_partial",
    "C49_whole_blocks_unpadded",
    "C49_sha256_refuted",
    "C49_hash_exact"
   ],
   "note": "False of the code: a message whose length is a multiple of 64 (the empty one included) is hashed without padding (C49_sha256_refuted, witness the empty message). What holds: constants, functions and compression are FIPS 180-4's, and hash is FIPS 180-4 SHA-256 for every other length below 2^61, and panics for the others from 2^61 on (C49_hash_exact: every length is covered)."
  },
  {
   "property": "C50",
   "status": "partial",
   "theorems": [
    "C50_padded_message_collides",
    "C50_padding_separates_refuted",
    "C50_padding_injective",
    "C50_collisions_partial",
    "C50_collisions_located"
   ],
   "note": "False of the code: hash(pad(m)) = hash(m) for every m that is not a whole number of blocks. What holds: padding is injective, and collisions between two messages of lengths not multiples of 64, or of equal lengths, give collisions of the compression function. C50_collisions_located gives, for any two colliding messages, the block where they collide or the missing padding as the cause."
  },
  {
   "property": "C51",
   "status": "proved",
   "theorems": [
    "C51_hmac_is_rfc2104",
    "C51_long_key_is_hashed"
   ],
   "note": "Keys below 2^61 bytes and texts below 2^61 - 64 bytes (beyond that the 64-bit length of SHA-256 overflows)."
  },
  {
   "property": "C52",
   "status": "partial",
   "theorems": [
    "C52_hkdf_partial",
    "C52_expand_prefixes",
    "C52_expand_too_long_panics",
    "C52_expand_refuted"
   ],
   "note": "False of the code for the last permitted block: every l > 254*32 panics (debug_assert n < 255). What holds: extract for all inputs, expand and its prefix property for every l <= 254*32; the f64 division is modelled bit for bit and proved exact there."
  },
  {
   "property": "C53",
   "status": "proved",
   "theorems": [
    "C53_keccak_is_sponge",
    "C53_byte_bits_faithful",
    "C53_sha3",
    "C53_shake",
    "C53_shake_prefix"
   ],
   "note": "keccak for every rate of 1..200 bytes, message and output length is the sponge of FIPS 202 over its KECCAK-f with pad10*1; SHA3-224/256/384/512 and SHAKE128/256 follow; no panic; SHAKE outputs are prefixes of longer ones."
  },
  {
   "property": "C54",
   "status": "proved",
   "theorems": [
    "C54_rotc_table",
    "C54_pi_table",
    "C54_round_constants",
    "C54_theta",
    "C54_rho",
    "C54_pi",
    "C54_chi",
    "C54_iota",
    "C54_keccakf",
    "C54_lane_bits_faithful",
    "C54_steps_bijective",
    "C54_keccakf_bijective"
   ],
   "note": "Bitwise equality with the algorithms of FIPS 202; tables computed from the standard's formulas; every step and the permutation are bijections of the states."
  },
  {
   "property": "C55",
   "status": "partial",
   "theorems": [
    "C55_constants",
    "C55_mix_is_rfc",
    "C55_compress_is_rfc",
    "C55_blake2b_partial",
    "C55_whole_blocks_never_final",
    "C55_blake2b_refuted"
   ],
   "note": "False of the code: messages of whole 128-byte blocks (the empty message included) are hashed without a final block; what holds: the RFC 7693 digest for every other message shorter than 2^64 bytes; compression and mixing are the RFC's for all inputs."
  },
  {
   "property": "C56",
   "status": "partial",
   "theorems": [
    "C56_blake2s_always_panics",
    "C56_blake2s_refuted",
    "C56_only_blake2b_usable"
   ],
   "note": "False of the code: blake2::<U32>(data, Blake2S) panics for every input; what holds: of the four instances exactly U64 with Blake2B returns digests."
  },
  {
   "property": "C57",
   "status": "partial",
   "theorems": [
    "C57_inc_counter_partial",
    "C57_high_word_lost",
    "C57_inc_counter_refuted"
   ],
   "note": "False of the code: the high word is dropped, and the carry is unreachable because the checked addition panics; what holds: additions below 2^64 with a zero high word."
  },
  {
   "property": "C58",
   "status": "proved",
   "theorems": [
    "C58_decode_scalar",
    "C58_decode_scalar_unclamped_bits",
    "C58_decode_point",
    "C58_encode_point",
    "C58_encode_decode"
   ],
   "note": "All 32-byte strings."
  },
  {
   "property": "C59",
   "status": "proved",
   "theorems": [
    "C59_scalarmult_is_rfc7748",
    "C59_ladder_is_rfc7748",
    "C59_ladder_step",
    "C59_curve_is_a_group",
    "C59_every_string_is_an_abscissa",
    "C59_scalarmult_multiplies"
   ],
   "note": "Equality with the RFC pseudo-code for all inputs; the ladder is multiplication of points (group law proved, associativity included) on the curve and its twist."
  },
  {
   "property": "C60",
   "status": "partial",
   "theorems": [
    "C60_secret_to_public_refuted",
    "C60_secret_to_public_always_panics"
   ],
   "note": "False of the code: from_hex(\"09\") is one byte for a 32-byte array, so secret_to_public panics for every secret."
  },
  {
   "property": "C61",
   "status": "proved",
   "theorems": [
    "C61_point_double",
    "C61_point_add",
    "C61_opposite_points",
    "C61_point_add_panics_iff",
    "C61_curve_is_a_group"
   ],
   "note": "For every Jacobian representation of every point; the group laws, associativity included, are proved for the affine sum."
  },
  {
   "property": "C62",
   "status": "proved",
   "theorems": [
    "C62_ladder_invariant",
    "C62_ladder_multiplies",
    "C62_point_mul",
    "C62_point_mul_on_curve"
   ],
   "note": "All scalars and all points of the curve."
  },
  {
   "property": "C63",
   "status": "proved",
   "theorems": [
    "C63_mul_correct",
    "C63_no_wrap",
    "C63_panics_iff",
    "C63_chain"
   ],
   "note": "All limb vectors. The panic for limbs of 2^54 or more is a debug_assert, so it holds in the debug profile only."
  },
  {
   "property": "C64",
   "status": "partial",
   "theorems": [
    "C64_block_is_rfc",
    "C64_stream_is_rfc",
    "C64_roundtrip",
    "C64_same_as_spec",
    "C64_seek",
    "C64_succeeds_iff",
    "C64_empty_message_refuted",
    "C64_empty_message_always_panics"
   ],
   "note": "False of the code: the empty message panics (blocks.len() - 1 underflows). What holds: for every non-empty message the stream is that of RFC 8439 for any initial counter, decryption inverts encryption, and the result is that of the spec."
  },
  {
   "property": "C65",
   "status": "partial",
   "theorems": [
    "C65_inverse_any_modulus_refuted",
    "C12_extended_euclid_inverse",
    "C65_public_never_wrong",
    "C65_secret_right_unless_overflow"
   ],
   "note": "False of the code: U8 inverse of 13 mod 251 is computed as 68. What holds: n*n <= 2^bits is enough (C12); on public types a returned value is right for every modulus, and on secret types it is right whenever the public type would return one."
  },
  {
   "property": "C66",
   "status": "partial",
   "theorems": [
    "C66_get_byte",
    "C66_get_byte_U8_refuted",
    "C66_get_byte_U8_panics"
   ],
   "note": "Proved for 16..128 bits; false for U8, where every call panics."
  },
  {
   "property": "C67",
   "status": "proved",
   "theorems": [
    "C67_order_lexicographic"
   ],
   "note": ""
  },
  {
   "property": "C68",
   "status": "proved",
   "theorems": [
    "C68_shifts"
   ],
   "note": ""
  },
  {
   "property": "C69",
   "status": "partial",
   "theorems": [
    "C69_gcm_distinct_counters_within_limit",
    "C69_gcm_no_keystream_reuse_refuted"
   ],
   "note": "False of the code: there is no length check and the counter wraps, block 2^32-1 is encrypted with the mask of the tag; what holds: distinct counters up to 2^32-2 blocks."
  },
  {
   "property": "C70",
   "status": "partial",
   "theorems": [
    "C70_hmac_sha256_partial",
    "C70_hkdf_sha256_partial",
    "C70_hmac_sha256_refuted"
   ],
   "note": "False of the code when the text (or a long key) is a whole number of 64-byte blocks; witness empty key and text. Proved for all other lengths."
  },
  {
   "property": "C71",
   "status": "proved",
   "theorems": [
    "C71_diffie_hellman",
    "C71_scalars_multiply"
   ],
   "note": "All secrets and public strings."
  },
  {
   "property": "C72",
   "status": "proved",
   "theorems": [
    "C72_group_order",
    "C72_every_point_has_order_n",
    "C72_ladder_zero_iff",
    "C72_point_mul_zero_iff",
    "C72_point_mul_equal_iff"
   ],
   "note": "Primality by Pocklington certificate; [n]G = O by an addition chain with given slopes; the count by cosets and the bound 2p+1."
  },
  {
   "property": "C73",
   "status": "proved",
   "theorems": [
    "C73_numbers_of_points",
    "C73_base_point_order"
   ],
   "note": ""
  },
  {
   "property": "C74",
   "status": "proved",
   "theorems": [
    "C74_zero_output_iff_small_order",
    "C74_equal_outputs_curve",
    "C74_equal_outputs_twist",
    "C74_honest_secret_nonzero"
   ],
   "note": "secret_to_public itself always panics (C60); the last theorem is about scalarmult on the 32-byte string for 9."
  },
  {
   "property": "C75",
   "status": "proved",
   "theorems": [
    "C75_encode",
    "C75_decode",
    "C75_roundtrip"
   ],
   "note": "Widths 8, 16, 32, 64, 128; panic condition is exact."
  },
  {
   "property": "C76",
   "status": "proved",
   "theorems": [
    "C76_array_order"
   ],
   "note": ""
  },
  {
   "property": "C77",
   "status": "partial",
   "theorems": [
    "C77_bounded_wrap_refuted",
    "C77_bounded_wrap",
    "C77_modular_wrap",
    "C77_array_wrap"
   ],
   "note": "False of the code: wrap_* of the bounded integers (unsigned_integer!, unsigned_public_integer!) call the checked operators and panic on overflow. What holds: they agree with the residue whenever they return, exactly when the result is in range; modular integers, arrays and sequences do wrap."
  },
  {
   "property": "C78",
   "status": "proved",
   "theorems": [
    "C78_poly1305_almost_universal",
    "C78_poly1305_forgery_bound"
   ],
   "note": "The factor 7 covers the final addition of s modulo 2^128; r ranges over all field elements in the first statement."
  },
  {
   "property": "C79",
   "status": "proved",
   "theorems": [
    "C79_ghash_universal_same_length",
    "C79_ghash_universal_gcm",
    "C79_gcm_forgery_bound",
    "C79_leading_zero_block"
   ],
   "note": "The keys counted in the AES-GCM statement have pairwise different AES_k(0); nothing is claimed about how AES distributes these."
  },
  {
   "property": "C80",
   "status": "proved",
   "theorems": [
    "C80_no_zero_divisors",
    "C80_cancel",
    "C80_one",
    "C80_inverse"
   ],
   "note": "Irreducibility is not assumed: squaring is shown to have only 0 and 1 as fixed points and to have order 128 as a map."
  },
  {
   "property": "C81",
   "status": "proved",
   "theorems": [
    "C81_diffie_hellman",
    "C81_shared_point_injective"
   ],
   "note": "p256.rs has no key agreement function of its own; the exchange is composed of ec_point_mul's pieces (ladder, to_affine)."
  },
  {
   "property": "C82",
   "status": "partial",
   "theorems": [
    "C82_new",
    "C82_new_index_panics",
    "C82_new_full",
    "C82_eq",
    "C82_div",
    "C82_from_vec",
    "C82_from_vec_keeps_the_value_refuted",
    "C82_is_zero",
    "C82_z_inv"
   ],
   "note": "False of the code: from_vec lets a vector of degree exactly l through and drops its leading coefficient; what holds: everything else, and from_vec keeps vectors of degree below l and panics above l."
  },
  {
   "property": "C83",
   "status": "proved",
   "theorems": [
    "C83_field_iff_irreducible"
   ],
   "note": ""
  },
  {
   "property": "C84",
   "status": "proved",
   "theorems": [
    "C84_aead_forgery_bound"
   ],
   "note": "The keys counted have pairwise different clamped r; nothing is claimed about how ChaCha20 distributes these."
  },
  {
   "property": "C85",
   "status": "partial",
   "theorems": [
    "C85_hmac_collision",
    "C85_hmac_forgery",
    "C85_hmac_unforgeable_refuted"
   ],
   "note": "False of the code: because hash leaves out the padding of whole blocks, every text t with a length not divisible by 64 has the same tag as t followed by its SHA-256 padding, under every key; what holds: the reduction of HMAC collisions to collisions of hash."
  },
  {
   "property": "C86",
   "status": "proved",
   "theorems": [
    "C86_sha256_extension",
    "C86_blake2b_extension"
   ],
   "note": "A weakness of the code (see C49, C55): the functions of the standards do not have this property."
  },
  {
   "property": "C87",
   "status": "partial",
   "theorems": [
    "C87_same_result",
    "C87_trace_length",
    "C87_trace_reveals_key",
    "C87_fmul_trace_injective",
    "C87_gmac_trace_reveals_key",
    "C87_secret_independent_refuted"
   ],
   "note": "False of the code: the S-box lookups declassify the state (C87_secret_independent_refuted), and from the record of one run the whole key can be computed, for every key and all other inputs (C87_trace_reveals_key); the same holds for the GHASH key and both factors of each GHASH product. What holds: the number of values made public depends on the lengths only (C87_trace_length), and recording does not change the result (C87_same_result)."
  },
  {
   "property": "C88",
   "status": "proved",
   "theorems": [
    "C88_blake2b_collisions",
    "C88_blake2b_empty"
   ],
   "note": "The empty message is treated apart: its digest is the initial state itself, because the last block is not compressed (C56)."
  },
  {
   "property": "C89",
   "status": "proved",
   "theorems": [
    "C89_sponge_collisions",
    "C89_domains_separate"
   ],
   "note": "Stated for every rate and suffix the sponge accepts; the permutation is the one of C54."
  },
  {
   "property": "C90",
   "status": "proved",
   "theorems": [
    "C90_gcm_forgery",
    "C90_gcm_hash_key_forgery",
    "C90_gcm_keystream",
    "C90_chacha_keystream",
    "C90_ctr_split",
    "C90_chacha_prefix"
   ],
   "note": "These are properties of the standards too; nothing in the code prevents the reuse."
  },
  {
   "property": "C91",
   "status": "proved",
   "theorems": [
    "C91_random_array",
    "C91_random_array_any",
    "C91_random_poly",
    "C91_random_poly_any",
    "C91_random_poly_panics"
   ],
   "note": "The generator is an arbitrary function; its distribution is not modelled."
  },
  {
   "property": "C92",
   "status": "partial",
   "theorems": [
    "C92_decimal",
    "C92_printed_integer",
    "C92_printed_hex",
    "C92_printed_array",
    "C92_printed_poly",
    "C92_sub_mod_printed",
    "C92_invert_printed",
    "C92_poly_inv_printed",
    "C92_silent_refuted",
    "C92_hex_text",
    "C92_array_text",
    "C92_poly_text",
    "C92_sub_mod_text"
   ],
   "note": "False of the code: sub_mod of the unsigned types prints its operands, also for secret types (C92_silent_refuted), and the printed text determines them (C92_sub_mod_printed); inv of machine integers prints the modulus, inv of polynomials the polynomial. What holds: the plain formats are exact (C92_decimal, the *_text theorems and the injectivity theorems)."
  },
  {
   "property": "C93",
   "status": "partial",
   "theorems": [
    "C93_same_result",
    "C93_encrypt_record",
    "C93_record_forges",
    "C93_scalarmult_record",
    "C93_secret_independent_refuted"
   ],
   "note": "False of the code: the record of an encryption is s, the clamped r and the MAC input blocks (C93_encrypt_record), from which a tag accepted for any other associated data and ciphertext under that key and nonce follows (C93_record_forges); the record of scalarmult holds a scalar that replaces the secret in every other exchange (C93_scalarmult_record). What holds: beyond the one-time key and the ciphertext nothing of the ChaCha20 key is in the record, and recording does not change the results."
  },
  {
   "property": "C94",
   "status": "proved",
   "theorems": [
    "C94_integers",
    "C94_modular",
    "C94_sequences",
    "C94_hashes",
    "C94_set"
   ],
   "note": "Release profile = debug assertions and overflow checks off; for the functions of M_Release.v."
  },
  {
   "property": "C95",
   "status": "partial",
   "theorems": [
    "C95_release_never_wrong_refuted",
    "C95_chunk_wraps_refuted",
    "C95_mod_exact",
    "C95_inverse_as_secret",
    "C95_get_byte_u8",
    "C95_shift_amount",
    "C95_update_sub_exact",
    "C95_set_chunk_exact",
    "C95_array_from_exact",
    "C95_array_from_hex_exact",
    "C95_pseq_exact",
    "C95_chunk_beyond_end"
   ],
   "note": "False of the code: refuted with witnesses for mul_mod, sub_mod, inv, get_byte and get_chunk. What holds: the exact release behaviour of each, for all inputs (e.g. add_mod and mul_mod are right exactly when n divides the lost part)."
  },
  {
   "property": "C96",
   "status": "proved",
   "theorems": [
    "C96_hash_total",
    "C96_hkdf_exact",
    "C96_counter_exact"
   ],
   "note": "Messages of whole blocks still get no padding (C49), and the counter loses its high word when there is no carry; both are part of the statements."
  },
  {
   "property": "C97",
   "status": "partial",
   "theorems": [
    "C97_negative_refuted",
    "C97_negative_exact",
    "C97_negative_public"
   ],
   "note": "False of the code: the inverse of -1 is 1 for every n, and -3 is refused as not invertible mod 5. What holds: the exact behaviour for every negative x when n*n fits the type (C97_negative_exact), and on public types for every modulus a returned value is the inverse unless -x divides n."
  },
  {
   "property": "C98",
   "status": "proved",
   "theorems": [
    "C98_add_sub",
    "C98_mul",
    "C98_division",
    "C98_inverse",
    "C98_poly_type",
    "C98_signed_add_sub",
    "C98_signed_mul",
    "C98_signed_total",
    "C98_signed_division",
    "C98_signed_inverse",
    "C98_signed_poly_type"
   ],
   "note": "Partial correctness without the size bounds of C31-C34: a returned value is the right one. When a value is guaranteed to be returned is C31-C34."
  },
  {
   "property": "C99",
   "status": "partial",
   "theorems": [
    "C99_secret_division_refuted",
    "C99_secret"
   ],
   "note": "False of the code: U8 modulo the prime 19 divides 15 by 18 to 14 (the product of coefficient and inverse wraps). What holds: wherever the public type of the same width and sign returns, the secret one returns the same (C99_secret), which is right by C98."
  }
 ]
}
