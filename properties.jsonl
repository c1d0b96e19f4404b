{"id": "C01", "title": "AES decryption inverts encryption", "statement": "For every AES key of 16, 24 or 32 bytes and every 16-byte block, AES::decrypt of AES::encrypt of the block is the block, and AES::encrypt of AES::decrypt of the block is the block (portable implementation).", "quantifier": "all keys of the three legal lengths, all 16-byte blocks", "why_tests_cant": "2^128 blocks times up to 2^256 keys; known-answer tests sample a handful", "anchors": ["src/aes/aes_generic.rs:AESGeneric::key_schedule,crypt_block,decrypt_block", "src/aes/const_tables.rs"]}
{"id": "C02", "title": "AES computes FIPS 197", "statement": "For every legal key and block, the portable AES encryption equals the FIPS-197 definition (SubBytes by inversion in GF(2^8) plus the affine map, ShiftRows, MixColumns, AddRoundKey, key expansion), i.e. every entry of the T-tables and S-boxes used is the one the standard prescribes.", "quantifier": "all keys, all blocks", "why_tests_cant": "a single wrong table entry out of thousands is hit only by particular round states", "anchors": ["src/aes/aes_generic.rs", "src/aes/const_tables.rs"]}
{"id": "C03", "title": "AES-NI and portable back-ends agree", "statement": "The AES-NI implementation and the portable implementation produce the same output for encrypt and for decrypt for every key and block; in particular the 8 bytes read past the end of a 192-bit key do not influence the result.", "quantifier": "all keys, all blocks, all contents of adjacent memory", "why_tests_cant": "tests run on one machine with one memory layout exercise only one back-end and one out-of-bounds value", "anchors": ["src/aes/aes_amd64.rs", "src/aes/aes_generic.rs"]}
{"id": "C04", "title": "DES and Triple-DES round-trip", "statement": "For every 8-byte key (three keys for TDES) and every 8-byte block, decrypt(encrypt(b)) = b and encrypt(decrypt(b)) = b.", "quantifier": "all keys, all 8-byte blocks", "why_tests_cant": "2^64 blocks times 2^56..2^168 keys", "anchors": ["src/des/des.rs:DES", "src/des/tdes.rs:TDES"]}
{"id": "C05", "title": "DES computes FIPS 46-3", "statement": "DES::encrypt equals the FIPS 46-3 algorithm written with the standard's own 1-based, most-significant-first bit numbering and tables, for every key and block; the eight parity bits of the key never influence the result.", "quantifier": "all keys, all blocks", "why_tests_cant": "table transcription errors touch only specific bit positions and S-box inputs", "anchors": ["src/des/des.rs", "src/des/const_tables.rs"]}
{"id": "C06", "title": "SM4 round-trip and GB/T 32907", "statement": "For every 16-byte key and block SM4::decrypt inverts SM4::encrypt and conversely, and encrypt equals the 32-round unbalanced Feistel of the standard.", "quantifier": "all keys, all blocks", "why_tests_cant": "2^128 blocks times 2^128 keys", "anchors": ["src/sm4/sm4.rs", "src/sm4/sm4_const_tables.rs"]}
{"id": "C07", "title": "Block ciphers accept exactly one block and exactly the legal key sizes", "statement": "AES::new succeeds exactly for key lengths 16, 24, 32; encrypt/decrypt of AES, DES, TDES, SM4 succeed exactly when the block has the cipher's block length, return that length and replace dst by one block; on any other length they return InvalidParameter and leave dst untouched.", "quantifier": "all byte strings of all lengths, all previous contents of dst", "why_tests_cant": "unbounded lengths", "anchors": ["src/aes/aes.rs:AES", "src/des/des.rs", "src/des/tdes.rs", "src/sm4/sm4.rs"]}
{"id": "C08", "title": "Default padding round-trips and fills whole blocks", "statement": "DefaultPadding::padding always appends 0x80 and zeros, yields a positive multiple of the block size strictly longer than the input, and unpadding of the result returns exactly the original bytes.", "quantifier": "all byte strings, all block sizes >= 1", "why_tests_cant": "unbounded lengths and contents (including data that itself ends in 0x80 00..)", "anchors": ["src/cipher_mode/padding.rs:DefaultPadding"]}
{"id": "C09", "title": "Unpadding validates the padding", "statement": "Unpadding accepts exactly the strings of the form m||0x80||00* and returns m; on error the buffer is unchanged. In this code the first part is false: trailing bytes other than 0x00/0x80 are skipped, so any string containing 0x80 anywhere is accepted and truncated; the property is settled by an exact description of what is accepted, what is returned, and that errors leave the buffer alone.", "quantifier": "all byte strings", "why_tests_cant": "all malformed suffixes cannot be enumerated", "anchors": ["src/cipher_mode/padding.rs:DefaultPadding::unpadding"]}
{"id": "C10", "title": "ECB one-shot round-trip", "statement": "For every message, ECB::encrypt with default padding succeeds, yields a whole number of blocks equal to the block-wise encryption of the padded message, and ECB::decrypt of it returns the message; with empty padding the same for messages that are a multiple of the block size, and Err(InvalidParameter) for any other length.", "quantifier": "all messages, all well-behaved block ciphers", "why_tests_cant": "unbounded messages", "anchors": ["src/cipher_mode/ecb.rs:ECB"]}
{"id": "C11", "title": "ECB streaming encryption equals one-shot", "statement": "However a message is split into writes and however often the caller draws off the pond, the concatenation of everything drawn from an ECB encrypt stream, including finish, equals the one-shot ciphertext, and the stream is then back in its initial state.", "quantifier": "all chunkings, all draw-off schedules", "why_tests_cant": "the number of chunkings is exponential in the message length", "anchors": ["src/cipher_mode/ecb.rs:ECBEncrypt", "src/cipher_mode/pond.rs:Pond"]}
{"id": "C12", "title": "ECB streaming decryption", "statement": "Feeding a ciphertext produced by this library to an ECB decrypt stream in any chunking and with any draw-off schedule recovers the message. In this code that holds exactly when len(message) mod block_size <> block_size-1; for the excluded lengths finish always returns UnpaddingNotMatch although the one-shot decrypt succeeds.", "quantifier": "all messages, all chunkings, all draw-off schedules", "why_tests_cant": "unbounded histories; the failing residue class was missed by the unit tests", "anchors": ["src/cipher_mode/ecb.rs:ECBDecrypt"]}
{"id": "C13", "title": "CBC one-shot round-trip and conformance", "statement": "CBC::decrypt implements CBC decryption; CBC::encrypt followed by CBC::decrypt returns the message for EmptyPadding and whole-block messages. With DefaultPadding the final padding block(s) are encrypted without chaining, so the round-trip fails; the exact ciphertext produced and the exact condition under which the final block survives are stated and a concrete failing message is exhibited.", "quantifier": "all messages, all IVs, all well-behaved block ciphers", "why_tests_cant": "unbounded messages", "anchors": ["src/cipher_mode/cbc.rs:CBC"]}
{"id": "C14", "title": "CBC streaming encryption", "statement": "For every chunking and draw-off schedule the output of a CBC encrypt stream depends only on the concatenation of the writes; it equals SP 800-38A CBC of the padded message when len mod block_size <> block_size-1, and in the remaining residue class the last block is chained to the IV instead of the previous ciphertext block.", "quantifier": "all messages, chunkings, draw-off schedules, IVs", "why_tests_cant": "exponentially many chunkings", "anchors": ["src/cipher_mode/cbc.rs:CBCEncrypt"]}
{"id": "C15", "title": "CBC streaming decryption", "statement": "A CBC decrypt stream fed with the SP 800-38A CBC encryption of the padded message recovers the message for every chunking and draw-off schedule exactly when len mod block_size <> block_size-1, and otherwise finish reports UnpaddingNotMatch; streaming encryption followed by streaming decryption is the identity on all lengths outside that residue class.", "quantifier": "all messages, chunkings, draw-off schedules, IVs", "why_tests_cant": "unbounded histories", "anchors": ["src/cipher_mode/cbc.rs:CBCDecrypt"]}
{"id": "C16", "title": "CFB one-shot round-trip", "statement": "For every segment size s accepted by CFB::new with DefaultPadding over a block of at least 4 bytes (exactly the divisors of the block size) and for every message, CFB::decrypt(CFB::encrypt(m)) = m; ciphertexts whose length is not a multiple of s are rejected; with EmptyPadding a trailing partial segment is silently dropped from the ciphertext.", "quantifier": "all messages, segment sizes, IVs, block ciphers", "why_tests_cant": "unbounded messages", "anchors": ["src/cipher_mode/cfb.rs:CFB"]}
{"id": "C17", "title": "CFB streaming", "statement": "CFB streaming encryption equals the one-shot ciphertext for every chunking and draw-off schedule. CFB streaming decryption recovers the message for every chunking provided the pond is only drawn off after finish; if the pond is drawn after each write, finish fails or leaves padding in the output.", "quantifier": "all messages, chunkings, draw-off schedules", "why_tests_cant": "unbounded histories", "anchors": ["src/cipher_mode/cfb.rs:CFBEncrypt,CFBDecrypt"]}
{"id": "C18", "title": "OFB is a length-preserving involution with streaming equivalence", "statement": "OFB::encrypt xors the message with the keystream E(IV), E(E(IV)), ... , preserves length, is its own inverse, does not depend on earlier calls, and the encrypt and decrypt streams produce the same bytes for every chunking and draw-off schedule and return to their initial state on finish.", "quantifier": "all messages, chunkings, draw schedules, IVs", "why_tests_cant": "unbounded histories", "anchors": ["src/cipher_mode/ofb.rs"]}
{"id": "C19", "title": "CTR keystream and statefulness", "statement": "CTR::encrypt xors the message with E(counter), E(counter+1), ...; decryption by an object whose counter is at the same position inverts it; two consecutive calls continue the counter at the next whole block (so encrypt-then-decrypt on the same object is not the identity), and the streams equal the one-shot result for every chunking and draw-off schedule.", "quantifier": "all messages, chunkings, draw schedules, initial counters", "why_tests_cant": "unbounded histories", "anchors": ["src/cipher_mode/ctr.rs", "src/cipher_mode/counter.rs"]}
{"id": "C20", "title": "CTR never reuses a counter block within a message", "statement": "With a counter of exactly the block width, the counter blocks consumed within any run of at most 2^(8*block) blocks are pairwise distinct, wrap modulo 2^(8*block), and a reset restarts the same sequence. With a counter wider than the block only the leading bytes are used, so consecutive blocks repeat keystream.", "quantifier": "all initial values, all run lengths", "why_tests_cant": "2^128 counter values", "anchors": ["src/cipher_mode/counter.rs:DefaultCounter", "src/cipher_mode/ctr.rs:CTR::new,encrypt_inner"]}
{"id": "C21", "title": "Stream reset and reuse", "statement": "reset on any stream, in any state reachable by writes, draws and failed or successful finishes, makes it behave as a freshly created stream; after a successful finish (and the output drawn off) ECB, CFB, OFB and CBC-decrypt streams, and CBC-encrypt streams with the default padding, also behave as fresh ones; CTR streams continue the counter; a CBC-encrypt stream without padding keeps the last ciphertext block as chaining value.", "quantifier": "all histories", "why_tests_cant": "unbounded histories", "anchors": ["src/cipher_mode/cipher_mode_macros.rs:impl_fn_reset", "src/cipher_mode/ctr.rs:CTREncrypt::reset"]}
{"id": "C22", "title": "IV and counter validation", "statement": "Constructors and set_iv accept exactly IVs of the block length, set_iv failures leave the old IV in place, CTR accepts exactly counters of at least the block width, DefaultCounter::new accepts exactly initial values not longer than the declared width, DefaultInitialVec yields block_size bytes or RandError, and CFB::new accepts exactly the documented segment sizes.", "quantifier": "all lengths, all parameters", "why_tests_cant": "unbounded parameters", "anchors": ["src/cipher_mode/cbc.rs:CBC::new,set_iv", "src/cipher_mode/cfb.rs:CFB::new", "src/cipher_mode/ofb.rs", "src/cipher_mode/initial_vec.rs", "src/cipher_mode/counter.rs"]}
{"id": "C23", "title": "Hash digests are chunking independent", "statement": "For MD5, SHA-1, SHA-224/256, SHA-384/512 and SM3: starting from new() or reset(), any sequence of write calls followed by checksum yields the digest the standard's one-shot definition assigns to the concatenation of the written data (for messages shorter than the length-field limit).", "quantifier": "all messages, all splits into writes", "why_tests_cant": "exponentially many chunkings; boundary lengths 55/56/63/64 etc. in every combination", "anchors": ["src/md5/md5.rs", "src/sha/sha1.rs", "src/sha/sha256.rs", "src/sha/sha512.rs", "src/sm3/sm3.rs"]}
{"id": "C24", "title": "Compression functions are the standards' ones", "statement": "The block compression of MD5, SHA-1, SHA-256, SHA-512 and SM3 equals the independent transcription of RFC 1321 / FIPS 180-4 / GB/T 32905 for every chaining value and block.", "quantifier": "all chaining values, all blocks", "why_tests_cant": "2^512 blocks", "anchors": ["src/md5/md5_generic.rs", "src/sha/sha1_generic.rs", "src/sha/sha256_generic.rs", "src/sha/sha512_generic.rs", "src/sm3/sm3.rs"]}
{"id": "C25", "title": "checksum is repeatable and reset restores the initial state", "statement": "Calling checksum any number of times without intervening writes returns the same digest, digest length is the declared bits_len/8, and reset after any history makes the object behave as new.", "quantifier": "all histories of write/checksum/reset", "why_tests_cant": "unbounded histories", "anchors": ["src/cipher.rs:Digest", "src/md5/md5.rs", "src/sha/sha1.rs", "src/sha/sha256.rs", "src/sha/sha512.rs", "src/sm3/sm3.rs"]}
{"id": "C26", "title": "Writing after checksum", "statement": "After checksum, a further write starts either a new message or a continuation. In this code for MD5, SHA-1, SHA-2 and SM3 it does neither: the digest after m1, checksum, m2, checksum is an exactly described value that is neither H(m2) nor H(m1||m2), and an empty write already changes the digest, contradicting the Digest documentation.", "quantifier": "all pairs of messages", "why_tests_cant": "needs histories tests do not contain", "anchors": ["src/md5/md5.rs:write,checksum", "src/sha/sha1.rs", "src/sha/sha256.rs", "src/sha/sha512.rs", "src/sm3/sm3.rs"]}
{"id": "C27", "title": "SHA-512/t", "statement": "SHA512T::new(t) is expected to compute FIPS 180-4 SHA-512/t. In this code the generic constructor accepts every t <= 512 and starts with a message-length counter of 128 bytes, so every digest, from new() and from reset() alike, is the standard's chaining with a length field 1024 bits too large, and for t not divisible by 8 the last partial byte is masked wrongly. The fixed types SHA512T224 and SHA512T256 do compute the standard's values.", "quantifier": "all t, all messages", "why_tests_cant": "tests only use the fixed-t types", "anchors": ["src/sha/sha512.rs:SHA512T"]}
{"id": "C28", "title": "HMAC computes FIPS 198-1", "statement": "For every key length, every digest with the Digest contract and every chunking of the message, HMAC equals H((K0 xor opad)||H((K0 xor ipad)||m)); repeated checksum is stable, a write after checksum starts a new message under the same key, reset and set_key behave as a fresh object.", "quantifier": "all keys, messages, chunkings, histories", "why_tests_cant": "unbounded key/message lengths and histories", "anchors": ["src/hmac/hmac.rs:HMAC"]}
{"id": "C29", "title": "CMAC computes SP 800-38B", "statement": "For every supported block size and well-behaved cipher, every message and chunking, CMAC equals the SP 800-38B value with subkeys derived by doubling in GF(2^b); repeated checksum is stable and a write after checksum starts a new message.", "quantifier": "all messages, chunkings, histories", "why_tests_cant": "exponentially many chunkings", "anchors": ["src/cmac/cmac.rs:CMAC"]}
{"id": "C30", "title": "SHA-3 and SHAKE compute FIPS 202 for every chunking", "statement": "For every sequence of writes, SHA3-224/256/384/512 and SHAKE128/256 return the FIPS 202 value of the concatenated message (independent bit-string sponge specification with multi-rate padding).", "quantifier": "all messages, chunkings", "why_tests_cant": "unbounded messages, rate boundary cases", "anchors": ["src/keccak/keccak.rs", "src/sha3/sha3.rs", "src/sha3/shake.rs"]}
{"id": "C31", "title": "Keccak-p step mappings", "statement": "theta, rho, pi, chi, iota and the round constants computed by Keccak equal the FIPS 202 definitions on every state and every supported width; the permutation is a bijection.", "quantifier": "all states, all seven widths", "why_tests_cant": "2^1600 states", "anchors": ["src/keccak/keccak.rs:Keccak"]}
{"id": "C32", "title": "XOF prefix consistency", "statement": "For SHAKE, the digest of n bytes is a prefix of the digest of any longer length for the same message; changing the output length discards absorbed data.", "quantifier": "all messages and output lengths", "why_tests_cant": "unbounded output lengths", "anchors": ["src/sha3/shake.rs", "src/keccak/keccak.rs:KeccakSponge::sponge_buf"]}
{"id": "C33", "title": "Sponge parameter validation", "statement": "KeccakSponge::new accepts exactly rates r with 0 < r < b. In this code the check uses || and accepts every rate: r = 0 makes the first sponge call panic, and r >= b ignores message bits, giving explicit collisions.", "quantifier": "all rates and widths", "why_tests_cant": "all parameters", "anchors": ["src/keccak/keccak.rs:KeccakSponge::new,sponge_buf"]}
{"id": "C34", "title": "SHAKE raw mode switch", "statement": "Switching a SHAKE object to RawSHAKE changes the domain suffix of the next digest. In this code the switch after a checksum returns the stale non-raw digest until new data is written.", "quantifier": "all histories", "why_tests_cant": "needs a specific history", "anchors": ["src/sha3/shake.rs"]}
{"id": "C35", "title": "ZUC keystream", "statement": "For every key and IV the ZUC generator keeps all LFSR cells in [1, 2^31-1], its LFSR update equals the specified linear recurrence modulo 2^31-1 in both modes, and its output words are those of the ZUC specification; re-keying an object equals creating a fresh one; keys or IVs of length other than 16 are rejected.", "quantifier": "all keys, IVs, output lengths", "why_tests_cant": "2^256 inputs, unbounded keystream", "anchors": ["src/zuc/zuc_core.rs:ZUC"]}
{"id": "C36", "title": "ZUC stream cipher", "statement": "ZUCCipher (128-EEA3) encryption of a message in any chunking xors the same keystream as one call, is length preserving and self-inverse, reset equals fresh. The returned length equals the message length; in this code it is 0 when the message is fully covered by left-over keystream bytes.", "quantifier": "all messages and chunkings", "why_tests_cant": "unbounded histories", "anchors": ["src/zuc/zuc_cipher.rs:ZUCCipher"]}
{"id": "C37", "title": "ZUC MAC", "statement": "ZUCMac (128-EIA3) of a message written in one call equals the specification's MAC. In this code splitting the message into several writes changes the MAC, checksum is not repeatable, and a never-written MAC is 0; each is exhibited.", "quantifier": "all messages, all chunkings", "why_tests_cant": "unbounded histories", "anchors": ["src/zuc/zuc_mac.rs:ZUCMac"]}
{"id": "C38", "title": "RSA primitive round-trip", "statement": "For every key whose modulus is a product of distinct primes with e*d = 1 mod (p-1) for each prime p, and every 0 <= m < n, decrypt(encrypt(m)) = m, with or without blinding and with or without CRT values.", "quantifier": "all keys, all messages below n, all blinding randomness", "why_tests_cant": "unbounded key sizes", "anchors": ["src/rsa/rsa.rs:PublicKey::encrypt,PrivateKey::decrypt"]}
{"id": "C39", "title": "CRT decryption equals plain decryption", "statement": "With the precomputed values of PrecomputedValues::new, CRT decryption (two or more distinct primes) returns c^d mod n for every ciphertext c < n; blinding never changes the result whatever randomness is drawn.", "quantifier": "all keys, ciphertexts, random values", "why_tests_cant": "unbounded key sizes", "anchors": ["src/rsa/rsa.rs:PrecomputedValues,PrivateKey::decrypt"]}
{"id": "C40", "title": "RSA key validation", "statement": "A private key accepted by is_valid decrypts every encryption under its public key. In this code primality and distinctness are not checked; the acceptance condition is characterised exactly and accepted-but-broken keys are exhibited.", "quantifier": "all candidate keys", "why_tests_cant": "unbounded", "anchors": ["src/rsa/rsa.rs:PrivateKey::is_valid,PublicKey::is_valid"]}
{"id": "C41", "title": "RSAES-PKCS1-v1_5 round-trip", "statement": "For every non-empty message of at most k-11 bytes, decrypt(encrypt(m)) = m for all nonzero padding bytes drawn; longer messages are rejected. The empty message is accepted by encrypt with an empty ciphertext that decrypt rejects.", "quantifier": "all messages, all random padding", "why_tests_cant": "unbounded", "anchors": ["src/rsa/pkcs1.rs:PKCS1"]}
{"id": "C42", "title": "RSASSA-PKCS1-v1_5 sign/verify", "statement": "verify accepts sign's output for every message and supported hash. verify accepts exactly those signature strings whose integer value s satisfies s^e mod n = EM; it does not reject s >= n or over-long strings, so distinct signature strings verify.", "quantifier": "all messages, keys", "why_tests_cant": "unbounded", "anchors": ["src/rsa/pkcs1.rs:sign,verify"]}
{"id": "C43", "title": "RSAES-OAEP round-trip and rejection", "statement": "For every message of at most k-2h-2 bytes, label and seed, decrypt(encrypt(m)) = m with the same label; a different label hash is rejected. A data block without the 0x01 separator must be rejected; in this code an all-zero tail is accepted as the empty message.", "quantifier": "all messages, labels, seeds, hash functions", "why_tests_cant": "unbounded", "anchors": ["src/rsa/oaep.rs:OAEP"]}
{"id": "C44", "title": "RSASSA-PSS encode/verify", "statement": "emsa_pss_verify accepts emsa_pss_encode's output for every message and salt. In this code the mask shift amounts are computed wrongly: with overflow checks every such verification panics, and without them it is correct exactly for em_len in the stated residue classes; the exact condition is proved and failures exhibited.", "quantifier": "all messages, salts, modulus sizes", "why_tests_cant": "unbounded modulus sizes", "anchors": ["src/rsa/pss.rs:PSS::emsa_pss_encode,emsa_pss_verify"]}
{"id": "C45", "title": "DSA sign/verify", "statement": "With valid domain parameters and key, every signature produced by sign verifies when the digest is no longer than q. In this code sign truncates longer digests and verify does not, so signatures then fail; verify rejects r or s outside (0,q).", "quantifier": "all messages, keys, nonces", "why_tests_cant": "unbounded", "anchors": ["src/dsa/dsa.rs:DSA::sign_inner,verify_inner"]}
{"id": "C46", "title": "DSA parameter and key generation", "statement": "Parameters returned by the generator satisfy q | p-1, g^q = 1 mod p, g <> 1, with the requested bit lengths; generated keys satisfy 0 < x < q and y = g^x mod p.", "quantifier": "all random choices", "why_tests_cant": "all rng outputs", "anchors": ["src/dsa/dsa.rs:generate_parameters_inner,generate_key_inner"]}
{"id": "C47", "title": "ECDSA sign/verify", "statement": "Over any curve group of prime order n, every signature produced by sign with any nonce verifies under the matching public key, r and s lie in [1,n-1], and the nonce is in [1,n-1]; verify rejects out-of-range r, s.", "quantifier": "all messages, keys, nonces, curves", "why_tests_cant": "unbounded", "anchors": ["src/ecdsa/ecdsa.rs:ECDSA"]}
{"id": "C48", "title": "Signature serialisation", "statement": "SignatureContent built from (r,s) returns (r,s) for all positive integers, also after overwriting an older content.", "quantifier": "all integers", "why_tests_cant": "unbounded", "anchors": ["src/dsa/signature.rs:SignatureContent"]}
{"id": "C49", "title": "Generic curve arithmetic", "statement": "CurveParams::add, double compute the affine chord-and-tangent law (including infinity as (0,0) and inverse points) for every pair of points on the curve, results are on the curve; scalar multiplication equals repeated addition under associativity.", "quantifier": "all points, all scalars", "why_tests_cant": "unbounded field sizes", "anchors": ["src/elliptic/elliptic.rs:CurveParams"]}
{"id": "C50", "title": "Curve constants", "statement": "For P-224, P-256, P-384, P-521 the base point satisfies the curve equation, has the stated order annihilating it, and the reported field size equals the bit length of p. In this code P-521 reports 512 bits.", "quantifier": "the four built-in curves", "why_tests_cant": "n*G = O needs hundreds of field operations that no unit test performs for all curves", "anchors": ["src/elliptic/elliptic.rs:p224,p256,p384,p521"]}
{"id": "C51", "title": "EC key generation range", "statement": "generate_key returns d in [1,n-1] with Q = d*G. In this code rng output equal to the 0x42 mask yields d = 0 and the point at infinity.", "quantifier": "all rng outputs", "why_tests_cant": "one output in 2^|n|", "anchors": ["src/elliptic/elliptic.rs:generate_key"]}
{"id": "C52", "title": "P-224 field arithmetic", "statement": "The limb routines of CurveP224 (add, sub, mul, square, reduce, reduce_large, invert, conversions) compute the field operations modulo p for all inputs within their documented bounds, without 32/64-bit overflow, and re-establish the bounds.", "quantifier": "all limb vectors within bounds", "why_tests_cant": "2^224 and more inputs, carry corner cases", "anchors": ["src/elliptic/p224.rs"]}
{"id": "C53", "title": "P-224 contraction to canonical form", "statement": "p224_contract returns the unique representative below p. In this code it is wrong for the value p-1 (and others), so API calls return wrong coordinates for particular points.", "quantifier": "all limb vectors within bounds", "why_tests_cant": "one input in 2^224", "anchors": ["src/elliptic/p224.rs:p224_contract"]}
{"id": "C54", "title": "P-256 field arithmetic", "statement": "The limb routines of CurveP256 (sum, diff, scalar3/4/8, square, mul with Montgomery reduction, invert, conversions) compute the field operations modulo p for all inputs within their documented bounds. With overflow checks enabled the reduction panics on inputs that occur (for instance a zero factor).", "quantifier": "all limb vectors within bounds", "why_tests_cant": "2^257 and more inputs", "anchors": ["src/elliptic/p256.rs"]}
{"id": "C55", "title": "DES complementation", "statement": "Encrypting the bitwise complement of a block under the bitwise complement of a key gives the bitwise complement of the encryption of the block under the key (the complementation property FIPS 46-3 implies), so no accidental asymmetry was introduced by the merged permutation tables.", "quantifier": "every 8-byte key and every 8-byte block", "why_tests_cant": "2^120 key/block pairs; a wrong table entry can satisfy a handful of vectors.", "anchors": ["src/des/des.rs: DES::crypt_block", "src/des/const_tables.rs"]}
{"id": "C56", "title": "Keccak permutation byte interface", "statement": "Keccak::permutation maps a byte string to the bytes of Keccak-p of its bits, with the same bit order on input and output, so that with zero rounds it is the identity and calls compose. In this code input bits are read from the last byte backwards, most significant bit first, while output is packed forwards, least significant bit first.", "quantifier": "all widths, inputs and call sequences", "why_tests_cant": "all inputs; the library's own tests only use the sponge path, which bypasses the byte input conversion", "anchors": ["src/keccak/keccak.rs:Keccak::permutation,cvt_from_slice,cvt_to_slice"]}
{"id": "C57", "title": "RSA key generation", "statement": "Whatever primes the prime generator returns, generate_key yields a key with a modulus of the requested bit length that is accepted by is_valid and decrypts every encryption under it; generate_multi_prime_key does so whenever its primes are distinct. In this code only neighbouring primes are compared, so a three-prime key p, q, p can be returned, with which every decryption panics.", "quantifier": "all prime generators, numbers of primes, key sizes, retries and messages", "why_tests_cant": "the bad case needs a coincidence of random primes and the good case ranges over all primes drawn", "anchors": ["src/rsa/rsa.rs:PrivateKey::generate_key,PrivateKey::generate_multi_prime_key,PrivateKey::is_valid"]}
{"id": "C58", "title": "P-224 interface agrees with the generic curve arithmetic", "statement": "add, double, scalar, scalar_base_point and is_on_curve of CurveP224 give the same results as the generic EllipticCurve implementation on the same curve, for all points of the curve and all scalars. In this code every result coordinate equal to p-1, or below 2^96-1 with 28 low bits all one, comes back increased by 2^28 modulo p; all other results agree, and is_on_curve always agrees.", "quantifier": "all points of the curve with coordinates below 2^224, all scalars", "why_tests_cant": "2^448 pairs of points; the failing results are about 2^68 in 2^224", "anchors": ["src/elliptic/p224.rs:CurveP224", "src/elliptic/elliptic.rs:EllipticCurve"]}
{"id": "C59", "title": "P-256 scalar multiplication", "statement": "CurveP256::scalar and CurveP256::scalar_base_point return the scalar multiple of the point, as the generic implementation does, for every point of the curve (infinity included) and every scalar of any length; they never panic, even for coordinates that are not on the curve; ECDSA signatures made through CurveP256 verify. In builds with overflow checks every call of either function panics.", "quantifier": "all points, all scalars, all coordinates for totality, both build modes", "why_tests_cant": "2^256 scalars times 2^256 points, with special cases of the addition formulas hit by very few of them; the test-suite checks a few scalars", "anchors": ["src/elliptic/p256.rs:CurveP256::scalar,CurveP256::scalar_base_point,p256_scalar_mult,p256_scalar_base_mult,P256_PRECOMPUTED"]}
{"id": "C60", "title": "The built-in curves have exactly n points", "statement": "On each built-in curve every point accepted by is_on_curve is a multiple of the base point and has order exactly n: n times it is infinity, no smaller multiple is, scalars count modulo n, and every public key on the curve has exactly one private key in [1, n-1]. So checking is_on_curve is a full public-key validation, and ECDSA verification is exact for every key that passes it.", "quantifier": "the four curves, all points on them, all scalars", "why_tests_cant": "a statement about every one of about 2^224 to 2^521 points", "anchors": ["src/elliptic/elliptic.rs:CurveParams::p224,CurveParams::p256,CurveParams::p384,CurveParams::p521,is_on_curve,scalar", "src/ecdsa/ecdsa.rs:ECDSA::verify"]}
{"id": "C61", "title": "ECDSA over the CurveP224 object", "statement": "ECDSA objects built on CurveP224 sign with a value the standard accepts under their public key, and the public keys they generate are points of the curve. In this code a signature is accepted exactly when the nonce point's x coordinate is not one of the values CurveP224 returns wrongly, and a generated key is on the curve unless one of its coordinates is such a value; nonces and random words exist for which each fails.", "quantifier": "all private keys, messages, random words, hash functions, histories of the object", "why_tests_cant": "only about 2^68 of the 2^224 coordinate values are returned wrongly, so no sampled run meets one", "anchors": ["src/ecdsa/ecdsa.rs:ECDSA::sign,ECDSA::verify,ECDSA::auto_generate_key", "src/elliptic/p224.rs:CurveP224::scalar_base_point"]}
{"id": "C62", "title": "Failing random source and update_iv", "statement": "update_iv of CBC, CFB and OFB either installs and returns a fresh IV of one block or fails and leaves the object usable. In this code a failure of the random source is reported, but the too short IV drawn so far has replaced the old one: OFB and CFB then refuse to work, and CBC refuses to encrypt but decrypts without error, leaving out bytes of the first block. After any calls the IV has the block length exactly when the last effective update_iv or set_iv succeeded.", "quantifier": "all block ciphers, all random sources failing at any point, all histories of update_iv and set_iv, all messages", "why_tests_cant": "tests do not inject faults, and the fault can come at every draw of every call", "anchors": ["src/cipher_mode/cbc.rs:CBC::update_iv", "src/cipher_mode/cfb.rs:CFB::update_iv", "src/cipher_mode/ofb.rs:OFB::update_iv", "src/cipher_mode/initial_vec.rs:DefaultInitialVec"]}
{"id": "C63", "title": "The SHA and SHA3 family types", "statement": "An object of the type SHA or SHA3 behaves, through every history of write, write_bit, checksum and reset, as the hash function named by its constructor: same digests, same digest length and same block size. SHA::sha512t returns an object exactly for lengths up to 512 bits and never panics.", "quantifier": "all constructors, all histories, all messages, all lengths", "why_tests_cant": "histories are unbounded; a dispatch error in one arm of one method shows only for that algorithm and that call", "anchors": ["src/sha/sha.rs:SHA", "src/sha3/sha3.rs:SHA3"]}
{"id": "C64", "title": "RSA scheme objects created with a generated key", "statement": "PKCS1::auto_generate_key, OAEP::auto_generate_key and PSS::auto_generate_key return an object whose modulus has exactly the requested number of bits and whose key passes is_valid, or InvalidParameter for sizes that are too small, or the error of the generator. The object encrypts and decrypts every message up to the length it reports and refuses longer ones (PKCS1, OAEP), or signs every message with the salt length it reports (PSS). A PKCS1 object signs exactly when the modulus has room for the hash identifier, the digest and eleven bytes.", "quantifier": "all sizes, all digests, all salt requests, all sequences of attempts of the key generator, all messages, random values and blinding values", "why_tests_cant": "sizes, generator outcomes and messages are unbounded; the refusal limits mix bits and bytes and are wrong only between two thresholds", "anchors": ["src/rsa/pkcs1.rs:PKCS1::auto_generate_key", "src/rsa/pkcs1.rs:PKCS1::encrypt_max_message_len", "src/rsa/oaep.rs:OAEP::auto_generate_key", "src/rsa/oaep.rs:OAEP::max_message_len", "src/rsa/pss.rs:PSS::auto_generate_key", "src/rsa/pss.rs:PSS::compute_salt_len"]}
{"id": "C65", "title": "RSA scheme objects have no hidden memory", "statement": "The result of a call of encrypt, decrypt, sign or verify on a PKCS1, OAEP or PSS object does not depend on the calls made before on that object, successful or failed: it is the result a new object would give. The only exception is the label of an OAEP object, which is the one last set. So a message encrypted by one object after any history is decrypted by another with the same key and label after any other history, and a signature is accepted likewise.", "quantifier": "all histories of calls with all arguments, all keys, all digests, all random values", "why_tests_cant": "the objects share one hash state between all calls and early returns leave it in different states; histories are unbounded", "anchors": ["src/rsa/pkcs1.rs:PKCS1Inner", "src/rsa/oaep.rs:OAEPInner", "src/rsa/oaep.rs:OAEP::set_label", "src/rsa/pss.rs:PSS"]}
{"id": "C66", "title": "P-224 and P-256 arithmetic may write its result over its inputs", "statement": "The field operations of CurveP224 and CurveP256 that are called through raw pointers with the output at the address of an input give the same value as with separate arrays, for every combination of equal addresses, and change no other array. The same holds for the point doublings and for the P-256 point addition when the three outputs are distinct; for the P-256 mixed addition when the y coordinate of the first point is not one of the outputs; for the P-224 addition when no input is an output. Every call the two scalar multiplications make is of such a form, so they compute the same point as the arithmetic on values. Used in place in another form the two additions are wrong.", "quantifier": "all memories, all addresses with any coincidences between them, all limbs, both build modes, all scalars", "why_tests_cant": "the limbs are read and written alternately, so whether an overwritten limb is read again depends on which of the pointers coincide; tests run only the coincidences of the present callers on few values", "anchors": ["src/elliptic/p256.rs:p256_sum_a", "src/elliptic/p256.rs:p256_diff_a", "src/elliptic/p256.rs:p256_mul_a", "src/elliptic/p256.rs:p256_square_a", "src/elliptic/p256.rs:p256_point_double_a", "src/elliptic/p256.rs:p256_point_add_mixed_a", "src/elliptic/p256.rs:p256_scalar_mult", "src/elliptic/p224.rs:p224_mul_a", "src/elliptic/p224.rs:p224_square_a", "src/elliptic/p224.rs:p224_add_a", "src/elliptic/p224.rs:p224_sub_a", "src/elliptic/p224.rs:p224_contract_a", "src/elliptic/p224.rs:p224_double_jacobian_a", "src/elliptic/p224.rs:p224_add_jacobian", "src/elliptic/p224.rs:p224_scalar_mult"]}
{"id": "C67", "title": "The scratch vectors inside cipher and mode objects never show; what clones of mode objects do", "statement": "Mode objects and TDES keep a scratch vector that every call may use through &self and may leave filled, also when it fails. Whatever it holds, any sequence of encrypt, decrypt, write, finish, draw-off and reset calls on an ECB, CBC, CFB, OFB or CTR object shows the same destination vectors, results and drawn bytes: two objects that differ only in old scratch content cannot be told apart. Going on with a clone of an ECB, CBC, CFB or OFB object, at any points of a history, changes nothing that is seen. A clone of a CTR object does not go on where the original is: it starts the key stream over, so its ciphertext xored with the original's first ciphertext is the xor of the two messages.", "quantifier": "all ciphers that leave exactly their result in the destination vector (all five of the library do), all paddings, IVs, counters, scratch contents, and all histories of calls with all data", "why_tests_cant": "what is left in the scratch vector depends on the whole history, including calls that failed half way; a test compares a few short histories on fresh objects", "anchors": ["src/cipher_mode/ecb.rs:ECB::get_buf", "src/cipher_mode/ecb.rs:ECB::clone", "src/cipher_mode/cbc.rs:CBC::get_buf", "src/cipher_mode/cbc.rs:CBCEncrypt::write", "src/cipher_mode/cfb.rs:CFB::encrypt_inner", "src/cipher_mode/ofb.rs:OFB::encrypt_inner", "src/cipher_mode/ctr.rs:CTR::encrypt_inner", "src/cipher_mode/ctr.rs:CTR::clone", "src/cipher_mode/counter.rs:DefaultCounter::clone", "src/des/tdes.rs:TDES::get_buf"]}
{"id": "C68", "title": "DSA objects: construction of the four named sizes and any number of calls with one random source", "statement": "An object made by new_with_l1024_n160, new_with_l2048_n224, new_with_l2048_n256 or new_with_l3072_n256 has FIPS 186-4 domain parameters of exactly the named sizes, a private key in [1, q-1] with its public key g^x mod p, and the hash object and source given to it; the only error is that of the prime generator, and every valid pair of primes and every key comes out for some source. On any DSA object, each call of any history of sign and verify calls returns what it returns on a new object, with draws that follow one another in the random source: verification draws nothing, no draw serves two signatures, and two signatures are made with nonces from different places of the source. Every signature of a history verifies in any history of any object with the same public key when the digest is no longer than q, and verification accepts exactly the standard's signatures. digest_func always returns a hash object with nothing written; rand_source returns the source that the next nonce comes from. A source that ends makes the constructors panic.", "quantifier": "all random sources, digests, key pairs, signature contents and messages, and all histories of sign and verify calls", "why_tests_cant": "the source and the hash object are changed by every call, so that a nonce used twice or a digest left over shows in some histories only; parameter generation depends on the whole random sequence", "anchors": ["src/dsa/dsa.rs:DSA::generate_parameters_inner", "src/dsa/dsa.rs:DSA::generate_key_inner", "src/dsa/dsa.rs:DSA::l1024_n160", "src/dsa/dsa.rs:DSA::l1024_n160_key", "src/dsa/dsa.rs:DSA::new_with_l1024_n160", "src/dsa/dsa.rs:DSA::new_with_l2048_n224", "src/dsa/dsa.rs:DSA::new_with_l2048_n256", "src/dsa/dsa.rs:DSA::new_with_l3072_n256", "src/dsa/dsa.rs:DSA::new_uncheck", "src/dsa/dsa.rs:DSA::digest_func", "src/dsa/dsa.rs:DSA::rand_source", "src/dsa/dsa.rs:DSA::key_pair", "src/dsa/dsa.rs:DSA::sign_inner", "src/dsa/dsa.rs:Signature for DSA"]}
{"id": "C69", "title": "ECDSA objects: any number of calls with one random source", "statement": "On an ECDSA object made with any curve object and any key pair, each call of any history of sign and verify calls returns what the same call returns on a new object whose source yields only the words that belong to this call: a signing call takes a fixed number of words, the next ones, and verification none. Two signatures of one object have nonces derived from words at different places of the source, and the strings hashed to derive them differ unless both the entropy bytes and the message digests agree. Every signature of a history verifies in any history of any object with the matching public key. After any history curve and public_key return what was given, digest_func returns a hash object with nothing written, and rand_source the source from which the next signature draws. When the source ends, signing returns no error but goes on without entropy, so that the same message gets the same signature; and auto_generate_key on a source that yields one word returns one of only 2^32 keys without an error.", "quantifier": "all hash functions, curve objects (with the group hypothesis where signatures are characterised), key pairs, random sources, signature contents and messages, and all histories of sign and verify calls", "why_tests_cant": "the source, the two hash objects and the digest buffer are changed by every call; entropy used twice or a digest left over shows in some histories only, and no finite set of histories excludes it", "anchors": ["src/ecdsa/ecdsa.rs:ECDSA::digest_func", "src/ecdsa/ecdsa.rs:ECDSA::rand_source", "src/ecdsa/ecdsa.rs:ECDSA::curve", "src/ecdsa/ecdsa.rs:ECDSA::public_key", "src/ecdsa/ecdsa.rs:ECDSA::sign_inner", "src/ecdsa/ecdsa.rs:ECDSA::verify_inner", "src/ecdsa/ecdsa.rs:ECDSA::auto_generate_key", "src/ecdsa/ecdsa.rs:Signature for ECDSA"]}
{"id": "C70", "title": "Which RSA key sizes are refused, and for which key generation never ends", "statement": "generate_multi_prime_key returns InvalidParameter exactly for fewer than two primes and, below 64 bits, for fewer bits than 12, 21, 28, 40, 48, 56 with 2, 3, 4, 5, 6, 7 primes and for every size with more primes; generate_key exactly below 12 bits; no rounding of the floating point test changes this, and at each of these sizes a key can be found. Otherwise the call ends with a key. In this code the size test is not made for 64 bits and more: with n primes such that bits + (n-2)/5 < 4n (17 primes for 64 bits) no choice of primes is ever accepted, and with a prime generator that always finds one the call never returns.", "quantifier": "all sizes, numbers of primes, roundings of the floating point test, prime generators and numbers of attempts", "why_tests_cant": "the refusals depend on floating point values near integers, and a loop that never ends cannot be told from a slow one by running it", "anchors": ["src/rsa/rsa.rs:PrivateKey::generate_multi_prime_key,PrivateKey::generate_key"]}
{"id": "C71", "title": "What altered, lost or cut ciphertext decrypts to", "statement": "Decrypting without padding: in ECB an altered ciphertext block spoils exactly its own plaintext block; in CBC it spoils its own block and flips exactly the altered bits in the next one, nothing else; each CFB segment depends only on its own ciphertext segment and the block of bytes before it; in OFB and CTR exactly the altered bits are altered. After any alteration, loss or insertion of whole blocks (CBC) or segments (CFB) the plaintext is right again after one block of good ciphertext. CBC ciphertext can be decrypted from any block on, with the block before it as IV.", "quantifier": "all block ciphers, IVs, segment sizes up to the block, ciphertexts, positions and alterations", "why_tests_cant": "the claims range over every ciphertext, every alteration and every position", "anchors": ["src/cipher_mode/ecb.rs:ECB", "src/cipher_mode/cbc.rs:CBC", "src/cipher_mode/cfb.rs:CFB", "src/cipher_mode/ofb.rs:OFB", "src/cipher_mode/ctr.rs:CTR"]}
{"id": "C72", "title": "Weak DES keys and degenerate TDES keys are accepted and behave as the standards warn", "statement": "Under each of the four weak keys (parity bits ignored) encryption is decryption and exactly 2^32 blocks are left unchanged; for each of the six semi-weak pairs encryption under one key undoes encryption under the other; TDES with two equal neighbouring keys is single DES under the remaining key, both ways; complementing all TDES keys and the block complements the result.", "quantifier": "all 8-byte blocks and all keys with the given 56 key bits", "why_tests_cant": "a test can try some blocks; that every block is restored and how many are unchanged needs all of them", "anchors": ["src/des/des.rs:DES", "src/des/tdes.rs:TDES"]}
{"id": "C73", "title": "What the holder of a signature, or of a nonce, can derive", "statement": "With every ECDSA signature (r, s) the library accepts it also accepts (r, n - s), a different signature, so signatures are not unique. Every signature the library makes hides the private key by the nonce alone: whoever knows the nonce of one signature obtains the private key, exactly, and whoever sees two DSA signatures of messages with different hash values made with one nonce obtains it too; equal nonces give equal r.", "quantifier": "all curves of prime order, keys, messages, digests, random streams and signatures", "why_tests_cant": "the claims range over every key, message and random stream; no test shows that nothing but the nonce protects the key", "anchors": ["src/ecdsa/ecdsa.rs:ECDSA", "src/dsa/dsa.rs:DSA"]}
{"id": "C74", "title": "What equal digests imply, and what a digest gives away", "statement": "Two different messages to which a hash object gives one digest, however they were written, lead to two different inputs of the block function with one result among those met while hashing them (or, for the shortened digests, to two last values that differ only in the part cut off). For MD5, SHA-1, SHA-256, SHA-512 and SM3 the digest of a message continued by its padding and any further bytes is a function of the digest, the length and these bytes: a digest of secret and message is no authenticator. MD5 gives equal digests for infinitely many known pairs of messages.", "quantifier": "all pairs of messages below 2^61 bytes, all ways of writing them, all continuations", "why_tests_cant": "no test can range over all pairs of messages; the claim that the block function is the only place a collision can come from is about the padding and chaining of every message", "anchors": ["src/md5/md5.rs:MD5", "src/sha/sha1.rs:SHA1", "src/sha/sha256.rs:SHA256", "src/sha/sha512.rs:SHA512", "src/sm3/sm3.rs:SM3"]}
{"id": "C75", "title": "Which keys and messages can share an authentication code", "statement": "HMAC objects under a key and under the key with zero bytes appended up to the block length, or under a key longer than a block and under its digest, answer alike in every history; no other short keys are prepared alike. If HMAC gives one tag for two pairs of key and message, the prepared keys and the messages are equal or two of the hash inputs met in computing the tags collide. CMAC tags of two messages of one length that differ inside one block always differ; a message that ends inside a block and the same message with the padding written out have different tags unless the cipher maps the zero block to itself.", "quantifier": "all keys, messages, histories, digests and block ciphers of the sizes CMAC supports", "why_tests_cant": "that no two messages of a class share a tag, and that key forms agree in every history, is about all messages and histories", "anchors": ["src/hmac/hmac.rs:HMAC", "src/cmac/cmac.rs:CMAC"]}
{"id": "C76", "title": "What decryption does with arbitrary bytes, and which calls can panic", "statement": "Given any bytes as ciphertext, one-shot ECB, CBC and CFB decryption with the mode's own padding or with no padding answers InvalidParameter if the length is not a multiple of the block (segment) and otherwise exactly what unpadding the inverse image gives, and never panics. The ECB and CBC decrypt streams give the same plaintext, looking for the padding only in the last block, and refuse an empty message. After any history of writes, drains, finishes and resets of any of the streams the next write succeeds and the next finish returns without panic, except that finish of a CFB decrypt stream panics exactly when the number of bytes written since the last reset is not a multiple of the segment.", "quantifier": "every block cipher, padding of the two, IV, segment length, ciphertext of any length cut in any pieces, and every history of stream calls", "why_tests_cant": "tests decrypt what was just encrypted; the answer on a hostile ciphertext and the absence of a panic concern all byte strings and all call histories", "anchors": ["src/cipher_mode/ecb.rs:ECB", "src/cipher_mode/cbc.rs:CBC", "src/cipher_mode/cfb.rs:CFB", "src/cipher_mode/ofb.rs:OFB", "src/cipher_mode/ctr.rs:CTR", "src/cipher_mode/padding.rs:DefaultPadding"]}
{"id": "C77", "title": "Which public-key calls panic on hostile input", "statement": "RSA PKCS1 v1.5 and OAEP decryption with a sound key never panics, whatever the ciphertext; PKCS1 v1.5 verification never panics under any public key and any supported digest; PSS verification never panics in a build without overflow checks, and in a build with them panics exactly when the message representative recovered from the signature ends in the trailer byte with its spare leading bits zero (or when there are no spare bits); DSA and ECDSA verification panics exactly when the bytes of the signature object were cut below the recorded length of r, whatever the public key.", "quantifier": "all keys (sound for decryption, arbitrary for verification), ciphertexts, signatures, messages, digests and blinding draws", "why_tests_cant": "the absence of a panic is a claim about every adversarial input", "anchors": ["src/rsa/pkcs1.rs:PKCS1", "src/rsa/oaep.rs:OAEP", "src/rsa/pss.rs:PSS", "src/dsa/dsa.rs:DSA", "src/ecdsa/ecdsa.rs:ECDSA", "src/dsa/signature.rs:SignatureContent"]}
{"id": "C78", "title": "What reusing a key or an IV reveals, exactly", "statement": "Under one key: two ECB ciphertext blocks are equal exactly when their plaintext blocks are; two CBC ciphertext blocks (any IVs) are equal exactly when the xor of their plaintext blocks is the xor of the ciphertext blocks before them, and under one IV two CBC ciphertexts share exactly as many leading blocks as their messages; two CFB segments after equal feedback reveal the xor of their plaintexts, so that one IV reveals the common prefix and the xor of the first differing segment; two OFB, CTR or 128-EEA3 ciphertexts at the same key-stream position reveal the xor of their messages over the common length; one-shot CBC with the default padding reveals under any two IVs whether the ends of two messages after their last whole block are equal; 128-EIA3 tags of equally long messages under one IV are affine, so that three tags give a fourth.", "quantifier": "all block ciphers meeting the trait's contract, block sizes, segment sizes, keys, IVs, initial counters, messages, previous calls and ZUC parameters", "why_tests_cant": "an exact statement of what leaks is an equivalence over all pairs of messages and blocks", "anchors": ["src/cipher_mode/ecb.rs:ECB", "src/cipher_mode/cbc.rs:CBC", "src/cipher_mode/cfb.rs:CFB", "src/cipher_mode/ofb.rs:OFB", "src/cipher_mode/ctr.rs:CTR", "src/zuc/zuc_cipher.rs:ZUCCipher", "src/zuc/zuc_mac.rs:ZUCMac"]}
{"id": "C79", "title": "What equal SHA-3, SHAKE and sponge outputs imply", "statement": "If two different messages have the same SHA-3 digest, or SHAKE or RawSHAKE output of any length, or output of any sponge object over Keccak-p, then either two different sequences of absorbed blocks lead to states that agree in all hidden (capacity) bits, or the two final states differ but give the same output bits. The same holds between SHA3-256, SHAKE256 and RawSHAKE256, and between SHAKE and RawSHAKE, even for equal messages (domain separation). Conversely, states that agree in the hidden bits after whole blocks give messages that collide with every continuation; a sponge object whose rate is the whole width, which the library accepts, therefore has a collision for every two strings of whole blocks.", "quantifier": "all messages in all divisions into writes, digest sizes, strengths, output lengths; all widths, rounds and rates of sponge objects", "why_tests_cant": "a collision reduction speaks of every pair of messages; no test can exhibit or exclude collisions", "anchors": ["src/keccak/keccak.rs:KeccakSponge", "src/sha3/sha3.rs:SHA3", "src/sha3/shake.rs:SHAKE"]}
{"id": "C80", "title": "Multiples of points as shared secrets: agreement, and points that are not on the curve", "statement": "On every curve y^2 = x^3 - 3x + b over a prime field that is not singular, multiplying a point by a and the result by b gives the same point as multiplying by b first and then by a, so two parties who exchange public points get the same secret; CurveP256 (without overflow checks) agrees for all keys, CurveP224 whenever neither public point has a coordinate it returns wrongly, and otherwise may not. On the four built-in curves the secret made from a valid point and a private key between 1 and n-1 is never infinity, and two private keys give the same secret exactly when they are equal modulo n. scalar does not check its point: for a point off the curve it returns the multiple on the other curve through that point, a point of small order m there makes the result depend on the private key modulo m only, and (x, 0), for instance (5, 0) on every built-in curve and on CurveP224, makes it show whether the key is even.", "quantifier": "all non-singular curves and points on them, all private keys (without bound), all built-in curves with all valid peer points, and all points off the curve whose own curve is non-singular", "why_tests_cant": "Agreement must hold for every pair of keys of up to 521 bits and every point, and the leak for every key; a test compares a few pairs, and the failing public points of CurveP224 are met by chance about once in 2^155 keys.", "anchors": ["src/elliptic/elliptic.rs: CurveParams::scalar, scalar_base_point, is_on_curve", "src/elliptic/p256.rs: CurveP256::scalar, scalar_base_point", "src/elliptic/p224.rs: CurveP224::scalar, is_on_curve"]}
{"id": "C81", "title": "What an accepted ECDSA signature says, and what it does not", "statement": "With the public key of a private key d, verify accepts (r, s) for a message exactly when (r, s) is the signature made with d and some nonce k between 1 and n-1; on the built-in curves every valid public key has such a d. Two messages whose hash values give the same number modulo n, that is, whose leftmost bits agree, are accepted with the same signatures. A signature does not determine its key: for every message, every s between 1 and n-1 and every r that is the x-coordinate of a point of the curve modulo n, some valid public key accepts (r, s) for that message. And the hash is what prevents forgery: from any public key and numbers u and v anyone computes r, s and z so that (r, s) is accepted for every message whose number is z.", "quantifier": "all hash functions that satisfy the Digest contract, all messages below their length limit, all signatures, all valid keys, all curves of odd prime order (first and third sentence) and the four built-in curves", "why_tests_cant": "The equivalence ranges over all nonces and all signatures; tests can only show that made signatures are accepted and a few altered ones are not, not that nothing else is accepted.", "anchors": ["src/ecdsa/ecdsa.rs: ECDSA::verify, ECDSA::sign, verify_inner, sign_inner", "src/elliptic/elliptic.rs: CurveParams::add, scalar, scalar_base_point"]}
{"id": "C82", "title": "Relations between RSA ciphertexts and signatures that anyone can use", "statement": "Raw RSA keeps products: the encryption of a product modulo n is the product of the encryptions, and the same holds for decryption, with or without blinding. So whoever may have one other number decrypted or signed obtains the answer for a chosen one. Encryption permutes the numbers below n, with 0, 1 and n-1 always unmoved; a number whose e-th power is below n is not hidden at all; and a number encrypted under one modulus with two coprime exponents is computed from the two ciphertexts. A PKCS#1 v1.5 signature is accepted for a message exactly when it is, modulo n, the number the signer's own sign returns.", "quantifier": "all keys whose exponents are inverse to each other on the numbers below n, all numbers below n, all blinding values that can be used, all multipliers with an inverse, all pairs of exponents; for signatures all hash functions that satisfy the Digest contract and all messages below their limit", "why_tests_cant": "The claims are identities over all keys, numbers and blinding values; a test can only exhibit single numbers, and cannot show that exactly one signature number is accepted for a message.", "anchors": ["src/rsa/rsa.rs: PublicKey::encrypt, PrivateKey::decrypt", "src/rsa/pkcs1.rs: PKCS1Inner::sign, PKCS1Inner::verify"]}
{"id": "C83", "title": "What an accepted DSA signature says, and what it does not", "statement": "With the public key y = g^x mod p, verify accepts (r, s) for a message exactly when (r, s) is what x and some nonce k below q give for the message's hash value; the nonce 0, which sign never uses, can occur only for r = 1. Two messages whose hash values agree modulo q are accepted with the same signatures. For every message, every s and every r that comes from a power of g, some key accepts (r, s); and from any public key and numbers u and v anyone computes r, s and z accepted for every message of hash value z. The public key is not examined: under y = 1 anyone signs every message, and under a multiple of p nothing is accepted.", "quantifier": "all hash functions that satisfy the Digest contract, all messages below their length limit, all signatures, all parameters with q a prime of whole bytes and g^q = 1 mod p, all keys", "why_tests_cant": "The equivalence ranges over all nonces, signatures and parameters; tests show made signatures accepted and a few altered ones refused, not that nothing else is accepted.", "anchors": ["src/dsa/dsa.rs: DSA::verify, verify_inner, sign_inner, PublicKey"]}
{"id": "C84", "title": "What repeats in key streams and long outputs, and from where", "statement": "Different keys or IVs never put two ZUC generators into the same state, after any number of words; the 32 initialisation rounds lose nothing. Under one key, if two OFB key streams (or one at two places) share a block they agree from there on, and the IV of one of them is the IV or a block of the other. Every ZUC key stream, every OFB key stream and every SHAKE or RawSHAKE output repeats, if made long enough, with a period that starts at its first word, block or bit; in OFB the IV itself is the last block before the repetition.", "quantifier": "all keys, IVs, numbers of words, block ciphers meeting the trait's contract, messages and output lengths; both SHAKE strengths, raw or not", "why_tests_cant": "the claims are about all pairs of 2^256 keys and IVs and about positions up to 2^1600 that no run reaches", "anchors": ["src/zuc/zuc_core.rs:ZUC", "src/cipher_mode/ofb.rs:OFB", "src/sha3/shake.rs:SHAKE"]}
{"id": "C85", "title": "What answering \"decrypted\" or \"failed\" gives away", "statement": "Whoever can submit ciphertexts and learns only whether decryption with the default padding reported an error can decrypt CBC and CFB completely. For CBC a one-shot decrypter whose IV the attacker chooses suffices, and so does a stream decrypter with a fixed IV; the attack returns exactly what decryption without padding returns, for every ciphertext of whole blocks, and so the message (its whole blocks if it was encrypted with the default padding). For CFB it returns the key stream of any IV. Each block costs at most 256 (n+1) questions. In ECB an answer only tells whether a byte 0x80 occurs.", "quantifier": "all block ciphers meeting the trait's contract with blocks (segments) shorter than 256 bytes, all keys, IVs and ciphertexts", "why_tests_cant": "the attack must succeed against every key, every cipher and every plaintext", "anchors": ["src/cipher_mode/padding.rs:DefaultPadding", "src/cipher_mode/cbc.rs:CBC", "src/cipher_mode/cfb.rs:CFB", "src/cipher_mode/ecb.rs:ECB"]}
{"id": "C86", "title": "What an RSA key object with wrong or damaged parts releases", "statement": "Signing verifies its own result: whatever the private part of a key object contains, a PKCS#1 signature that is returned has the length of the modulus and is accepted by the verifier of the public part, and a PSS signature that is returned is a root of the encoded message; a wrong result becomes an error. Decryption does not: if the CRT values of one of two primes are damaged, a wrong result of the unchecked operation, blinded or not, gives a factor of the modulus to whoever sees it, as the greatest common divisor of r^e - c and n.", "quantifier": "all key objects (any private exponent, primes and CRT values), digests meeting their contract, messages, blinding draws and, for the damage, all pairs of primes, exponents, ciphertexts and damaged values", "why_tests_cant": "test keys are whole; the claim is about every way a key object can be wrong", "anchors": ["src/rsa/rsa.rs:PrivateKey", "src/rsa/pkcs1.rs:PKCS1", "src/rsa/pss.rs:PSS"]}
{"id": "C87", "title": "How CMAC tags relate to each other and to encryption under the same key", "statement": "If two messages have the same CMAC tag and both end in a whole block (or both do not), then every common continuation of the two padded messages has a common tag too, and conversely. Whoever can have messages encrypted under the CMAC key can compute every tag: with CBC under any one known IV and either padding, two encryptions give the tag of any message; with ECB, OFB, CFB or CBC under chosen IVs the standard's formula can be evaluated from encryptions of one block.", "quantifier": "all block ciphers meeting the trait's contract whose block length CMAC supports, all keys, IVs, messages and continuations of any length", "why_tests_cant": "the relations hold for every key and every message, and the forger must succeed against all of them", "anchors": ["src/cmac/cmac.rs:CMAC", "src/cipher_mode/cbc.rs:CBC", "src/cipher_mode/ecb.rs:ECB", "src/cipher_mode/ofb.rs:OFB", "src/cipher_mode/cfb.rs:CFB"]}
{"id": "C88", "title": "What related nonces give away", "statement": "If the nonces of two DSA signatures, or of two ECDSA signatures over one curve, satisfy a known equation k2 = a k1 + b modulo the group order, then the private key is the only solution of one linear equation whose coefficients are computed from the signatures, the messages, a and b, whenever the coefficient of the unknown is not zero; if it is zero the constant is zero too and the equation says nothing. If the signatures were made with two different keys, each key is determined by the other.", "quantifier": "all DSA parameters with a prime q of whole bytes and all curves that form a group of prime order, all keys, digests meeting their contract, messages, random numbers and pairs (a, b)", "why_tests_cant": "it is a statement about every pair of signatures; tests use a few fixed nonces", "anchors": ["src/dsa/dsa.rs:DSA", "src/ecdsa/ecdsa.rs:ECDSA"]}
{"id": "C89", "title": "The texts of OAEP decryption errors give every message away", "statement": "OAEP decryption of a ciphertext whose number opens to a block with a non-zero first byte fails with 'Invalid message encoding format'; with a zero first byte and the wrong label hash it fails with 'Invalid label hash value'. For every valid private key whose modulus is at least twice 256^(k-1) (k its length in bytes), every label, message, seed, blinding draw and object state, someone who has the public key, the ciphertext and those texts for at most 16k+512 ciphertexts of their own making computes the message, unless one of the blocks they asked about happens to carry the right label hash. Without the texts the operation is the one of C43, which answers one kind of error.", "quantifier": "all keys with that room, labels, messages, seeds, ciphertexts, digest states and blinding draws per question", "why_tests_cant": "that the attack succeeds for every key and message is a statement about an adaptive program against the decryption operation", "anchors": ["src/rsa/oaep.rs: decrypt_inner, encrypt_inner", "src/crypto_err.rs: CryptoError"]}
{"id": "C90", "title": "What telling success from failure of PKCS1 v1.5 decryption gives away", "statement": "For every valid private key longer than eleven bytes, ciphertext c, blinding draws and multiplier s: decrypting c s^e mod n succeeds exactly if s m mod n, written in k bytes, is 00 02, at least eight non-zero bytes, 00 and anything, where m is the number c opens to; every other answer is the same error. So a success places s m mod n in [2B, 3B) with B = 256^(k-2). For every list of positive multipliers, the intervals that remain after intersecting with these conditions contain m, and if one number remains the message can be read from it without the key.", "quantifier": "all valid keys, ciphertexts, blinding draws per question and lists of multipliers, in any order and of any length", "why_tests_cant": "it is a statement about every sequence of questions and answers, not about one decryption", "anchors": ["src/rsa/pkcs1.rs: PKCS1Inner::decrypt"]}
{"id": "C91", "title": "One key for ZUC encryption and ZUC authentication", "statement": "For direction 0, equal count and bearer, and one key, 128-EEA3 encryption and the 128-EIA3 code use the same key stream. So one plaintext and its ciphertext give the tag of every message short enough for it, computed without the key; and the tags of two messages that differ in the first bit of byte i give bytes i to i+3 of the key stream, which decrypt those bytes of the ciphertext. With direction 1 the authentication code starts the generator as no encryption does.", "quantifier": "all keys, counts, bearers, plaintexts, messages and positions", "why_tests_cant": "it relates two objects for all keys and messages", "anchors": ["src/zuc/zuc_cipher.rs:ZUCCipher", "src/zuc/zuc_mac.rs:ZUCMac"]}
{"id": "C92", "title": "RSA keys and messages with parts in common", "statement": "One number encrypted with PublicKey::encrypt for e or more recipients whose public exponent is e and whose moduli have no common factor is computed from the ciphertexts alone; with e = 3 so is a number encrypted twice, once with a known amount added, whenever a certain number computed from the two ciphertexts is invertible. Two moduli with one prime in common give that prime, and with it every answer of PrivateKey::decrypt. The number of units modulo n gives both primes; the exponent d mod (p-1) kept in a key object gives p from any number it does not happen to restore modulo q as well; and with the private exponent every power e d - 1 of a number coprime to n is 1, each square root of 1 other than 1 and n-1 giving a prime.", "quantifier": "all moduli, exponents, numbers of recipients, messages, differences, keys and random sources", "why_tests_cant": "it relates encryptions under many keys, and holds for all of them", "anchors": ["src/rsa/rsa.rs:PublicKey::encrypt", "src/rsa/rsa.rs:PrivateKey::decrypt", "src/rsa/rsa.rs:PrecomputedValues"]}
{"id": "C93", "title": "Which IV or counter continues a message", "statement": "Without padding, encrypting a message in two parts, the second with an object of its own, gives the same ciphertext as encrypting it whole as follows: CBC and CFB continue with the last block-length bytes of IV and first ciphertext as IV (for every segment length), OFB with the last block of its key stream, that is of first message xor first ciphertext; a CTR object continues with a counter moved on by the number of blocks, modulo the counter's width. So two CTR objects under one key whose counters start d apart use the same key stream from block d of the first: the xor of the ciphertexts there is the xor of the messages.", "quantifier": "all block ciphers, keys, IVs, counters and widths, segment lengths, numbers of blocks and messages", "why_tests_cant": "it relates the results of different objects for all of them", "anchors": ["src/cipher_mode/cbc.rs:CBC", "src/cipher_mode/cfb.rs:CFB", "src/cipher_mode/ofb.rs:OFB", "src/cipher_mode/ctr.rs:CTR", "src/cipher_mode/counter.rs"]}
