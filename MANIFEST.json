{"claims": [
{"property": "C01", "status": "proved", "theorems": ["C01_aes_roundtrip"], "note": "All keys of the three sizes and all blocks, both directions (AES-NI through C03)."},
{"property": "C02", "status": "proved", "theorems": ["C02_aes_is_fips197"], "note": "Against FIPS 197 written over GF(2^8) (AesSpec.v); the tables are checked entry by entry."},
{"property": "C03", "status": "proved", "theorems": ["C03_aesni_agrees"], "note": "Equality of the two back-ends as functions on all keys and blocks; the instructions are modelled from Intel's definition."},
{"property": "C04", "status": "proved", "theorems": ["C04_des_roundtrip", "C04_tdes_roundtrip"], "note": "Single DES and three-key Triple-DES, all keys, all blocks, both directions."},
{"property": "C05", "status": "proved", "theorems": ["C05_des_is_fips46", "C05_tdes_is_sp800_67", "C05_parity_ignored"], "note": "Against the bit-level tables of FIPS 46-3 (DesSpec.v)."},
{"property": "C06", "status": "proved", "theorems": ["C06_sm4_is_gbt32907", "C06_sm4_roundtrip"], "note": "Round-trip and equality with GB/T 32907 (Sm4Spec.v), all keys and blocks."},
{"property": "C07", "status": "proved", "theorems": ["C07_key_lengths", "C07_block_lengths", "C07_block_lengths_aesni", "C07_all_are_block_permutations"], "note": "Exact acceptance conditions and error values for blocks and keys of every length."},
{"property": "C08", "status": "proved", "theorems": ["C08_padding"], "note": "All block sizes and messages."},
{"property": "C09", "status": "proved", "theorems": ["C09_unpadding_exact", "C09_unpadding_strict", "C09_strict_refuted"], "note": "Exact behaviour proved; the strict reading (malformed padding rejected) is refuted by a witness."},
{"property": "C10", "status": "proved", "theorems": ["C10_ecb_default", "C10_ecb_empty"], "note": "All ciphers satisfying the block interface, all messages; the library's ciphers are shown to satisfy it."},
{"property": "C11", "status": "proved", "theorems": ["C11_ecb_stream_encrypt", "C11_ecb_stream_encrypt_empty"], "note": "All ways of splitting the input between writes."},
{"property": "C12", "status": "proved", "theorems": ["C12_ecb_stream_decrypt"], "note": "The stream decrypter is right exactly when |m| mod n <> n-1; in the other case it fails, as proved."},
{"property": "C13", "status": "proved", "theorems": ["C13_cbc_decrypt", "C13_cbc_empty", "C13_cbc_default_exact", "C13_cbc_default_roundtrip_needs_zero", "C13_cbc_default_roundtrip_exact", "C13_cbc_default_refuted"], "note": "Holds for decryption of standard CBC and for EmptyPadding; with DefaultPadding encrypt does not chain the padding blocks: exact output, necessary condition and refutation proved."},
{"property": "C14", "status": "proved", "theorems": ["C14_cbc_stream_encrypt"], "note": "Standard CBC except when |m| mod n = n-1, where the last padding block is chained from the IV; both cases proved."},
{"property": "C15", "status": "proved", "theorems": ["C15_cbc_stream_decrypt", "C15_cbc_stream_roundtrip"], "note": "Decryption of every message succeeds except for lengths block size - 1 modulo the block size, where it fails; both directions are stated."},
{"property": "C16", "status": "proved", "theorems": ["C16_cfb_default", "C16_cfb_empty"], "note": "All segment sizes and messages."},
{"property": "C17", "status": "proved", "theorems": ["C17_cfb_stream_encrypt", "C17_cfb_stream_decrypt", "C17_cfb_stream_truncated"], "note": "Stream decryption unpads only what was not drawn yet; exact condition proved, and panic on truncated input."},
{"property": "C18", "status": "proved", "theorems": ["C18_ofb"], "note": "All messages and all ways of splitting them."},
{"property": "C19", "status": "proved", "theorems": ["C19_ctr", "C19_ctr_stream", "C19_same_object_refuted"], "note": "Counter position carried between calls on one object; encrypt-then-decrypt on the same object refuted."},
{"property": "C20", "status": "proved", "theorems": ["C20_counter_distinct", "C20_counter_wraps", "C20_counter_reset", "C20_wide_counter_reuse"], "note": "Distinctness for counter width = block size; for wider counters key-stream reuse proved."},
{"property": "C21", "status": "proved", "theorems": ["C21_reset_is_fresh", "C21_finish_is_fresh", "C21_cbc_empty_padding_refuted"], "note": "CBC encrypt stream with EmptyPadding is not fresh after finish: refuted by witness."},
{"property": "C22", "status": "proved", "theorems": ["C22_iv_length", "C22_set_iv", "C22_counter_width", "C22_counter_object", "C22_set_counter", "C22_default_initial_vec", "C22_cfb_segment"], "note": "Exact acceptance conditions; a refused call changes nothing."},
{"property": "C23", "status": "proved", "theorems": ["C23_chunking"], "note": "Nine hash functions, all messages below 2^64 bytes, all ways of splitting them, from new and after reset."},
{"property": "C24", "status": "proved", "theorems": ["C24_blocks"], "note": "One block of each compression function, all chaining values and blocks."},
{"property": "C25", "status": "proved", "theorems": ["C25_repeat_and_length", "C25_reset_is_new"], "note": "Over all histories of calls."},
{"property": "C26", "status": "proved", "theorems": ["C26_histories", "C26_continuation", "C26_neither_refuted"], "note": "The English expectation (a write after checksum starts a new message or continues) is false of the code: C26_neither_refuted gives witnesses for all nine hashes. C26_histories and C26_continuation say exactly what is computed."},
{"property": "C27", "status": "proved", "theorems": ["C27_domain", "C27_value", "C27_not_standard_refuted", "C27_partial_byte_refuted"], "note": "The code does not compute SHA-512/t: C27_value gives the exact value for every message, C27_not_standard_refuted and C27_partial_byte_refuted the counterexamples."},
{"property": "C28", "status": "proved", "theorems": ["C28_sha3", "C28_hmac", "C28_repo_hashes", "C28_new"], "note": "For every hash object satisfying the digest interface, which the library's hashes are shown to satisfy; all keys and messages."},
{"property": "C29", "status": "proved", "theorems": ["C29_cmac", "C29_repo_ciphers", "C29_block_sizes"], "note": "For every block cipher satisfying the block interface whose block size the code accepts; the library's ciphers are shown to satisfy it. All histories of calls."},
{"property": "C30", "status": "proved", "theorems": ["C30_sha3_histories", "C30_sha3_chunking", "C30_shake_chunking"], "note": "Bit-level specification of FIPS 202; histories mix byte and bit writes."},
{"property": "C31", "status": "proved", "theorems": ["C31_steps", "C31_permutation", "C31_widths", "C31_bijective", "C31_many_rounds_refuted"], "note": "Step mappings, round constants and bijectivity for all widths; rounds beyond 12+2l use wrong constants (refuted)."},
{"property": "C32", "status": "proved", "theorems": ["C32_prefix", "C32_set_len"], "note": "All output lengths and messages."},
{"property": "C33", "status": "proved", "theorems": ["C33_sponge", "C33_every_rate_accepted", "C33_rate_check_refuted", "C33_bad_rates"], "note": "Acceptance of every rate, the panic at rate 0 and collisions at r >= b are proved; the expected check is refuted."},
{"property": "C34", "status": "proved", "theorems": ["C34_histories", "C34_switch_before", "C34_switch_after", "C34_stale_refuted"], "note": "Stale digest after switching exhibited; the digest after further writes is proved to be the raw one."},
{"property": "C35", "status": "proved", "theorems": ["C35_keystream", "C35_cells", "C35_recurrence", "C35_rekey", "C35_lengths"], "note": "Against the specification of ZUC 1.6 with the 31-bit field; all keys and IVs, unbounded key stream."},
{"property": "C36", "status": "proved", "theorems": ["C36_histories", "C36_chunking", "C36_roundtrip", "C36_return", "C36_return_refuted", "C36_lengths"], "note": "Keystream and chunking proved for all inputs; the returned length is characterised exactly and refuted as message length."},
{"property": "C37", "status": "proved", "theorems": ["C37_reset", "C37_writes", "C37_one_write", "C37_chunking_refuted", "C37_repeat_refuted", "C37_never_written", "C37_never_written_refuted"], "note": "One-write MAC equals 128-EIA3; chunked writes, repeated checksum and never-written object are refuted by witnesses."},
{"property": "C38", "status": "proved", "theorems": ["C38_encrypt", "C38_roundtrip"], "note": "All keys made of distinct primes with matching exponents, with and without precomputed CRT values, all representatives, all usable blinding values."},
{"property": "C39", "status": "proved", "theorems": ["C39_crt_plain_blinded", "C39_range", "C39_no_draw", "C39_modulus_accepted_refuted"], "note": "All c <= n; the code also accepts c = n, which RFC 8017 refuses (C39_modulus_accepted_refuted)."},
{"property": "C40", "status": "proved", "theorems": ["C40_is_valid_iff", "C40_public_iff", "C40_accepted_decrypts", "C40_composite_refuted", "C40_repeated_refuted", "C40_from_nat"], "note": "Acceptance characterised exactly; soundness proved for distinct primes; composite and repeated factors refute the plain English claim."},
{"property": "C41", "status": "proved", "theorems": ["C41_encrypt", "C41_roundtrip", "C41_decrypt_iff", "C41_rejections", "C41_empty_refuted"], "note": "Round-trip, exact decoding condition, rejections; the empty message does not round-trip (C41_empty_refuted)."},
{"property": "C42", "status": "proved", "theorems": ["C42_sign", "C42_verify_iff", "C42_sign_verify", "C42_not_unique_refuted", "C42_unsupported_refuted", "C42_repo_hashes"], "note": "Exact acceptance condition; uniqueness refuted for every accepted signature; unsupported digest accepted by the constructor and panicking later."},
{"property": "C43", "status": "proved", "theorems": ["C43_new_iff", "C43_encrypt", "C43_too_long", "C43_roundtrip", "C43_decrypt_iff", "C43_no_separator_refuted"], "note": "Round-trip, wrong label, exact set of accepted data blocks; the missing separator is accepted (C43_no_separator_refuted)."},
{"property": "C44", "status": "proved", "theorems": ["C44_new_iff", "C44_encode", "C44_sign", "C44_verify_512", "C44_sign_verify_512", "C44_verify_iff", "C44_own_signature", "C44_checked_refuted", "C44_own_refused_refuted"], "note": "Encoding equals EMSA-PSS; exact acceptance for every modulus size; correct for multiples of 512 bits without overflow checks; with overflow checks nothing verifies."},
{"property": "C45", "status": "proved", "theorems": ["C45_sign_standard", "C45_sign_first", "C45_sign_total", "C45_verify_iff", "C45_range", "C45_sign_verify", "C45_repo_hashes", "C45_own_signature", "C45_long_digest_refuted"], "note": "Sign/verify consistent and standard when the digest is no longer than q; for longer digests the exact acceptance condition is proved and C45_long_digest_refuted exhibits a refused own signature."},
{"property": "C46", "status": "proved", "theorems": ["C46_parameters", "C46_search_ends", "C46_key", "C46_generated_key_signs", "C46_constructors"], "note": "Primality of generate_prime's result and soundness of positive probably_prime_test answers (rmath) are hypotheses; the lengths, q | p-1, order of g, end of the search and keys are proved."},
{"property": "C47", "status": "proved", "theorems": ["C47_objects", "C47_sign_exact", "C47_nonce_range", "C47_signature_unique", "C47_verify_iff", "C47_range", "C47_sign_verify", "C47_needs_private_key", "C47_auto_generate_key", "C47_group_criterion"], "note": "Any curve whose base point has odd prime order n; sign's nonces are characterised exactly (AES-256-CTR keyed by SHA-512 of key, entropy and hash), and verify accepts exactly the signatures of the standard. The unbounded loop of sign is modelled with fuel; the exact condition for running out is stated."},
{"property": "C48", "status": "proved", "theorems": ["C48_last_pair", "C48_layout", "C48_truncation_refuted"], "note": "All histories of new/form_bigint/set; truncating the bytes through as_mut makes verify panic (C48_truncation_refuted)."},
{"property": "C49", "status": "proved", "theorems": ["C49_is_on_curve", "C49_addition", "C49_sum_is_unique", "C49_double", "C49_commutative", "C49_associative", "C49_identity_and_inverse", "C49_scalar_is_repeated_addition", "C49_scalar_of_sum", "C49_scalar_of_product"], "note": "The chord-and-tangent group law, including associativity, is proved from the curve equation over any prime field; add, double and scalar of the generic curve code compute it."},
{"property": "C50", "status": "proved", "theorems": ["C50_standard_moduli", "C50_sound_curves", "C50_base_point", "C50_order_annihilates", "C50_prime_n", "C50_prime_order", "C50_no_smaller_order", "C50_field_size", "C50_field_size_refuted"], "note": "Moduli, primality of p and n, non-singularity, base point on the curve and exact prime order proved for all four curves. The field-size part is refuted for P-521 (reports 512, and the name says P-512)."},
{"property": "C51", "status": "proved", "theorems": ["C51_generate_key_exact", "C51_candidate", "C51_generate_key_range", "C51_every_key_is_possible", "C51_key_zero_refuted"], "note": "The exact key returned is characterised. The claim that the key is never 0 is false (C51_key_zero_refuted): the draw that cancels 0x42 gives d = 0."},
{"property": "C52", "status": "proved", "theorems": ["C52_add", "C52_sub", "C52_mul", "C52_square", "C52_reduce", "C52_reduce_large", "C52_invert", "C52_from_bigint", "C52_to_bigint", "C52_copy_conditional"], "note": "P224Model.v models p224.rs with the wrapping 32/64-bit operations; every routine is shown to compute its operation modulo p and to re-establish the limb bounds for all limb vectors within the bounds."},
{"property": "C53", "status": "proved", "theorems": ["C53_contract", "C53_contract_canonical", "C53_contract_refuted", "C53_is_zero"], "note": "Exact characterisation of p224_contract for all limb vectors below 2^30 (C53_contract); the claim that it returns the canonical representative is refuted (C53_contract_refuted): p-1 gives 2^28-1, and residues below 2^96-1 whose low 28 bits are all one can be off by 2^28. is_zero is right for all classes."},
{"property": "C54", "status": "proved", "theorems": ["C54_sum", "C54_diff", "C54_scalar3", "C54_scalar4", "C54_scalar8", "C54_scalar8_documented_refuted", "C54_mul", "C54_square", "C54_reduce_degree", "C54_reduce_degree_documented_refuted", "C54_invert", "C54_from_bigint", "C54_to_bigint", "C54_checked_mul", "C54_checked_square"], "note": "P256Model.v models p256.rs with wrapping 32/64-bit operations and a flag for overflow checks. Every routine computes its operation modulo p (Montgomery form, R = 2^257) for all elements and re-establishes the bounds. Two comments in the source promise too much: scalar8 does not keep the documented bounds when the last limb has 30 bits, and the reduction is wrong for a last word of 2^62 (both refuted by a witness; neither is reachable). With overflow checks products panic whenever the low 29 bits of the product of the low limbs are 0 or 1, and otherwise agree."},
{"property": "C55", "status": "proved", "theorems": ["C55_des_complementation"], "note": "All keys and blocks."},
{"property": "C56", "status": "proved", "theorems": ["C56_byte_order", "C56_composition_refuted"], "note": "Exact behaviour of the byte interface; identity at zero rounds refuted."},
{"property": "C57", "status": "proved", "theorems": ["C57_generated_keys", "C57_generate_key", "C57_three_primes_refuted"], "note": "Two-prime keys unconditionally; multi-prime keys when the primes are distinct; three-prime keys with a repeated prime are returned and unusable (refuted)."},
{"property": "C58", "status": "proved", "theorems": ["C58_add", "C58_double", "C58_scalar", "C58_scalar_base_point", "C58_is_on_curve", "C58_is_on_curve_generic", "C58_agreement", "C58_agreement_refuted"], "note": "Exact relation between CurveP224 and the generic code for all points and scalars; agreement holds iff no result coordinate is one of the bad ones, and fails for a concrete pair of points (C58_agreement_refuted)."},
{"property": "C59", "status": "proved", "theorems": ["C59_scalar", "C59_scalar_multiple", "C59_scalar_base", "C59_scalar_base_multiple", "C59_scalar_total", "C59_checked_panics", "C59_ecdsa_signer", "C59_ecdsa_sign_verify"], "note": "Window method and comb method, including the precomputed table, proved equal to the generic code for all points of the curve and all scalars in builds without overflow checks; no panic for any coordinates. With overflow checks every call panics (C59_checked_panics)."},
{"property": "C60", "status": "proved", "theorems": ["C60_annihilated", "C60_scalar_n", "C60_scalar_mod", "C60_exact_order", "C60_cyclic", "C60_private_key", "C60_verify_iff"], "note": "The subgroup of the base point has n > (2p+1)/3 elements and the cubic has no root (a Bezout certificate for x^p - x, checked by the kernel), so no other points exist. Machine integers of the standard library are used in the certificate check."},
{"property": "C61", "status": "proved", "theorems": ["C61_objects", "C61_sign_exact", "C61_sign_verify_iff", "C61_auto_generate_key", "C61_accepted_refuted", "C61_key_on_curve_refuted"], "note": "The claim as one would expect it is refuted (C61_accepted_refuted, C61_key_on_curve_refuted); what holds is C61_sign_exact and C61_sign_verify_iff."},
{"property": "C62", "status": "proved", "theorems": ["C62_update_iv", "C62_short_iv_refused", "C62_short_iv_cbc_decrypt", "C62_history", "C62_failed_update_refuted"], "note": "That a failed call leaves the object unchanged is refuted (C62_failed_update_refuted); the exact behaviour is proved for all sources."},
{"property": "C63", "status": "proved", "theorems": ["C63_sha_histories", "C63_sha_standard", "C63_sha512t", "C63_sha3_histories"], "note": "For sha512t the digests are those of the SHA512T object, described by C27."},
{"property": "C64", "status": "proved", "theorems": ["C64_pkcs1_auto", "C64_pkcs1_encrypts", "C64_pkcs1_signs_iff", "C64_never_signs_refuted", "C64_oaep_auto", "C64_oaep_encrypts", "C64_oaep_late_refuted", "C64_pss_auto", "C64_pss_signs", "C64_pss_longest_salt_refuted"], "note": "Findings: PKCS1 and OAEP compare bits with bytes, so a PKCS1 object that can never sign is created (C64_never_signs_refuted) and most too small OAEP sizes are refused only after the key was generated (C64_oaep_late_refuted); PSS with Some(0) always fails for moduli of 8k+1 bits (C64_pss_longest_salt_refuted)."},
{"property": "C65", "status": "proved", "theorems": ["C65_pkcs1", "C65_oaep", "C65_pss", "C65_oaep_pair", "C65_pkcs1_pair"], "note": "Arguments are within the digest's message limit; the random words and blinding values of each call are part of the call."},
{"property": "C66", "status": "proved", "theorems": ["C66_p256_sum", "C66_p256_diff", "C66_p256_mul", "C66_p256_square", "C66_p256_double", "C66_p256_add", "C66_p256_add_mixed", "C66_p256_add_mixed_in_place_refuted", "C66_p256_scalar_mult", "C66_p224_add", "C66_p224_sub", "C66_p224_mul", "C66_p224_square", "C66_p224_contract", "C66_p224_double", "C66_p224_add_jacobian", "C66_p224_add_in_place_refuted", "C66_p224_scalar_mult"], "note": "The memory operations are taken in program order: making &mut and & references to one array at the same time, as the _a functions do, is undefined behaviour in Rust, and what a compiler may make of that is not modelled. Squarings and products write the output only after the last read of an input, so their out is written as a whole. The two _refuted theorems record that the additions may not be used in place; the code does not do so."},
{"property": "C67", "status": "proved", "theorems": ["C67_ciphers", "C67_streams", "C67_scratch_never_shows", "C67_clones", "C67_ctr_clone", "C67_ctr_clone_two_time_pad", "C67_ctr_clone_refuted"], "note": "For CFB the cipher's output must have at least a segment, which holds for every block cipher. The hypothesis on the cipher is proved for AES (both implementations), SM4, DES and TDES. C67_ctr_clone_refuted records that a CTR clone restarts the counter."},
{"property": "C68", "status": "proved", "theorems": ["C68_constructors", "C68_reachable", "C68_ended_source_refuted", "C68_histories", "C68_nonces", "C68_sign_verify", "C68_verify_iff", "C68_accessors"], "note": "The prime generator, the primality test and random are functions of the source, assumed to give primes of the wanted length, to accept primes only, and to give natural numbers. Loops that need not end are bounded by fuel; running out of it is a panic of the model. C68_ended_source_refuted records the panic when the source ends."},
{"property": "C69", "status": "proved", "theorems": ["C69_histories", "C69_nonces", "C69_sign_verify", "C69_accessors", "C69_ended_source_refuted", "C69_short_source_refuted"], "note": "A panic of the model is only running out of fuel (C47_sign_exact). C69_ended_source_refuted and C69_short_source_refuted record that a source that ends is not noticed."},
{"property": "C70", "status": "proved", "theorems": ["C70_refused", "C70_generate_key", "C70_outcome_unique", "C70_table_reached", "C70_attempt_wasted", "C70_never_a_key", "C70_never_ends_refuted"], "note": "C70_refused, C70_generate_key and C70_outcome_unique use the standard library's axioms of the real numbers. That the platform's logarithm is within 2^-50 is assumed. C70_never_ends_refuted records the endless loop."},
{"property": "C71", "status": "proved", "theorems": ["C71_ecb_block", "C71_cbc_block", "C71_cfb_block", "C71_ecb_altered", "C71_cbc_altered", "C71_ofb_altered", "C71_ctr_altered", "C71_cbc_resync", "C71_cfb_resync", "C71_cbc_access"], "note": "Decryption of the one-shot API without padding; streaming decryption gives the same bytes by C13-C17."},
{"property": "C72", "status": "proved", "theorems": ["C72_weak", "C72_semi_weak", "C72_weak_fixed_points", "C72_tdes_degenerate", "C72_tdes_complementation"], "note": "Key lists as in SP 800-67 section 3.3.2. That the library refuses none of these keys is part of the statements (des_new and tdes_new cannot fail)."},
{"property": "C73", "status": "proved", "theorems": ["C73_ecdsa_second_signature", "C73_second_differs", "C73_ecdsa_known_nonce", "C73_dsa_nonces"], "note": "The ECDSA theorem is about two signature contents that parse to (r, s) and (r, n - s). The key recovery statements describe signatures made by the library, with any random stream."},
{"property": "C74", "status": "proved", "theorems": ["C74_collision", "C74_collision_full", "C74_extension", "C74_md5_refuted"], "note": "The colliding inputs are stated to occur in the traces of the two messages; that some collision exists would say nothing, since the block function cannot be injective."},
{"property": "C75", "status": "proved", "theorems": ["C75_hmac_keys", "C75_hmac_collision", "C75_short_keys", "C75_cmac_one_block", "C75_cmac_padded"], "note": "Stated for any digest meeting the Digest contract and any good cipher; the library's hashes and ciphers are instances (C28, C07)."},
{"property": "C76", "status": "proved", "theorems": ["C76_ecb_decrypt", "C76_cbc_decrypt", "C76_cfb_decrypt", "C76_ecb_stream", "C76_cbc_stream", "C76_stream_empty_refuted", "C76_histories", "C76_cfb_history"], "note": "all ciphertexts and all stream histories of the five modes; the one panic is characterised exactly."},
{"property": "C77", "status": "proved", "theorems": ["C77_decrypt", "C77_pkcs1_verify", "C77_pss_unchecked", "C77_pss_checked", "C77_dsa_ecdsa_verify"], "note": "panics inside rmath are outside the model; empty byte strings read as numbers are excluded where the code does not refuse them."},
{"property": "C78", "status": "proved", "theorems": ["C78_ecb_blocks", "C78_ecb_default", "C78_cbc_collision", "C78_cbc_prefix", "C78_cbc_default_tail", "C78_cfb_collision", "C78_cfb_prefix", "C78_ofb_reuse", "C78_ctr_reuse", "C78_eea3_reuse", "C78_eia3_affine"], "note": "the modes are stated without padding except where the padding is the point."},
{"property": "C79", "status": "proved", "theorems": ["C79_sha3", "C79_shake", "C79_sha3_shake", "C79_inner_gives_collision", "C79_sponge", "C79_sponge_inner", "C79_full_rate_collides"], "note": "the absorbing and squeezing functions of the statement are the standard's (FIPS 202 section 4), with the library's results connected to them by C30 and C33."},
{"property": "C80", "status": "proved", "theorems": ["C80_agreement", "C80_p256", "C80_p224", "C80_not_infinity", "C80_secret_tells_keys_apart", "C80_off_curve", "C80_small_order", "C80_parity", "C80_parity_builtin", "C80_p224_off_curve", "C80_p224_parity", "C80_p224_agreement_refuted"], "note": "Agreement for all keys on the generic code and CurveP256; for CurveP224 with the exact premise, and a refutation without it."},
{"property": "C81", "status": "proved", "theorems": ["C81_accepted_iff_signed", "C81_valid_key", "C81_same_number", "C81_some_key_accepts", "C81_number_first"], "note": "All parts proved for the whole ranges named."},
{"property": "C82", "status": "proved", "theorems": ["C82_encrypt_product", "C82_decrypt_product", "C82_opened_by_another", "C82_permutation", "C82_fixed_points", "C82_small_message", "C82_common_modulus", "C82_pkcs1_signature_number"], "note": "All parts proved for the whole ranges named."},
{"property": "C83", "status": "proved", "theorems": ["C83_accepted_iff_signed", "C83_nonce_zero", "C83_same_number", "C83_some_key_accepts", "C83_number_first", "C83_key_one", "C83_key_zero"], "note": "All parts proved for the whole ranges named; be_val (H msg) is the whole hash value, as verify uses it (C45)."},
{"property": "C84", "status": "proved", "theorems": ["C84_zuc_states", "C84_zuc_period", "C84_ofb_shared", "C84_ofb_period", "C84_shake_period"], "note": "All parts proved for the whole ranges named."},
{"property": "C85", "status": "proved", "theorems": ["C85_recover", "C85_cbc", "C85_cbc_stream", "C85_cbc_message", "C85_cbc_default", "C85_cfb", "C85_ecb", "C85_questions"], "note": "All parts proved for the whole ranges named. The tail of a default-padded message is not chained (C13), so the attack is stated there for the whole blocks."},
{"property": "C86", "status": "proved", "theorems": ["C86_check", "C86_pkcs1_released", "C86_pss_released", "C86_first_half_damaged", "C86_second_half_damaged"], "note": "All parts proved for the whole ranges named. Signatures by keys with CRT values are covered with blinding, where the result is reduced; without blinding an arbitrary damaged value could exceed the modulus."},
{"property": "C87", "status": "proved", "theorems": ["C87_collision_extends", "C87_cbc_gives_tags", "C87_modes_give_tags"], "note": "All parts proved for the whole ranges named."},
{"property": "C88", "status": "proved", "theorems": ["C88_dsa", "C88_ecdsa"], "note": "All parts proved for the whole ranges named. Only exact linear relations are treated; partly known nonces (lattice methods) are outside."},
{"property": "C89", "status": "proved", "theorems": ["C89_same_operation", "C89_text", "C89_few_questions", "C89_recovers", "C89_message"], "note": "RSA of OAEP; n >= 2 B excludes moduli whose bit length is 1 modulo 8."},
{"property": "C90", "status": "proved", "theorems": ["C90_one_bit", "C90_range", "C90_never_lost", "C90_found"], "note": "Soundness of every run and the exact meaning of an answer are proved; how many questions an attacker needs is a matter of probability and is not claimed. The example ends with one candidate after ten successes."},
{"property": "C91", "status": "proved", "theorems": ["C91_same_iv", "C91_tag_from_encryption", "C91_stream_from_tags", "C91_plaintext_from_tags", "C91_direction_1"], "note": "All parts proved for the whole ranges named; messages are written in one call (see C37 for what several writes do)."},
{"property": "C92", "status": "proved", "theorems": ["C92_broadcast", "C92_related", "C92_shared_prime", "C92_units", "C92_crt_exponent", "C92_private_exponent"], "note": "All parts proved for the whole ranges named. That a useful square root of 1 is met for about half of all bases is not part of the statement."},
{"property": "C93", "status": "proved", "theorems": ["C93_cbc", "C93_cfb", "C93_ofb", "C93_ctr"], "note": "For CBC and CFB both parts have whole blocks (segments), for OFB and CTR the first part."}
]}
