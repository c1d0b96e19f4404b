# Formal model of rcrypto in Rocq (Coq 8.16.1)

## Layout

* `rocq/theories/*Model.v` model the code of /repo function by function; each definition cites the file and lines it models.
* `rocq/theories/*Spec.v` are specifications written from the standards (FIPS 197, FIPS 46-3, GB/T 32907, SP 800-38A/38B, RFC 1321, FIPS 180-4,
  GB/T 32905, FIPS 198-1, FIPS 202, ZUC/EEA3/EIA3, RFC 8017, FIPS 186-4, textbook curve arithmetic). They do not refer to the model.
* `rocq/theories/Prop*.v` state the properties and close each with `exact`; `Print Assumptions` is under each theorem and an `Example` beside each group
  shows that concrete, non-trivial cases meet the hypotheses.
* Everything else is proof. `seeded/LOG.jsonl` records the deliberate bugs tried on scratch copies.

## Conventions of the model

* Bytes and machine words are `Z`; every place where Rust wraps or can overflow writes the wrap (`mod 2^32`, `mod 2^64`) or the panic explicitly. Lengths and
  loop fuel are `nat`.
* `Result` is `res A := Ok a | Err e | Panic`; `Err` carries the `CryptoErrorKind` of `src/crypto_err.rs` (messages are dropped).
* `&mut` arguments are returned. Objects are state records, histories are lists of operations, and theorems about histories quantify over all lists.
* The trait object `Cipher` is a record with a block size, `enc` and `dec`; modes are modelled over an arbitrary such record and their theorems assume
  `GoodCipher` (length check and mutual inverses), which is proved for the AES, DES, TDES and SM4 models. `Digest` is a record as well; `DigestOk D I H limit`
  (D computes H on messages shorter than `limit`) is proved for the library's hashes, HMAC and SHA-3.
* Cargo.toml has no profile section, so debug builds check overflow and release builds wrap. Where it matters (PSS, P-256) a flag selects the build.
* Random sources are oracles: arbitrary lists of words, or arbitrary sequences of primes for `generate_prime`.
* Loops without a bound (ECDSA nonces, DSA parameter search) take fuel; the theorems say exactly when fuel runs out.

## Trusted base

* The Coq kernel (`coqc`, and `coqchk` in the gate), including its virtual machine and its primitive 63-bit integers.
* `Print Assumptions`: of the theorems in the Prop files all but those listed here are closed under the global context. The following use the machine integers of
  the standard library, that is `PrimInt63.{int,add,sub,mul,lsl,lsr,land,lor,eqb,ltb,leb}` and the standard library's axioms
  `Uint63.{add,sub,mul,lsl,lsr,land,lor,ltb,leb}_spec`, `Uint63.eqb_correct`, `Uint63.eqb_refl`, `Uint63.of_to_Z` about them, to check primality certificates, orders
  of base points, the P-256 table, the roots of the curve cubics and the primes of some examples:
  C50_sound_curves, C50_base_point, C50_order_annihilates, C50_prime_n, C50_prime_order, C50_no_smaller_order, C52_invert, C54_invert, C58_add,
  C58_double, C58_scalar, C58_scalar_base_point, C58_agreement, C58_agreement_refuted, C59_scalar, C59_scalar_multiple, C59_scalar_base,
  C59_scalar_base_multiple, C59_scalar_total, C59_ecdsa_signer, C59_ecdsa_sign_verify, C60_annihilated, C60_scalar_n, C60_scalar_mod, C60_exact_order,
  C60_cyclic, C60_private_key, C60_verify_iff, C61_sign_exact, C61_sign_verify_iff, C61_auto_generate_key, C61_accepted_refuted,
  C61_key_on_curve_refuted, C64_never_signs_refuted, C64_oaep_late_refuted, C69_short_source_refuted, C80_p256, C80_p224, C80_not_infinity,
  C80_secret_tells_keys_apart, C80_parity_builtin, C80_p224_off_curve, C80_p224_parity, C80_p224_agreement_refuted, C81_valid_key,
  C81_some_key_accepts, C81_number_first.
  C70_refused, C70_generate_key and C70_outcome_unique speak of real numbers and use the standard library's `ClassicalDedekindReals.sig_forall_dec`,
  `ClassicalDedekindReals.sig_not_dec`, `FunctionalExtensionality.functional_extensionality_dep` and `Classical_Prop.classic`. No other axiom is used.
* The transcription of the Rust text into Gallina, and the specifications.
* Semantics taken from documentation, not from code in /repo: the x86 instructions `aesenc`, `aesenclast`, `aesdec`, `aesdeclast`, `aesimc`, `aeskeygenassist` and the
  SSE shuffles used by `aes_amd64.rs` (Intel SDM; `AesNiModel.v`); the crate rmath 0.1.5, whose source is not available: `BigInt` and `Nat` are `Z`, with its
  operations the mathematical ones, `to_be_bytes` the shortest big-endian encoding, `generate_prime` an oracle that returns primes of the requested length.
* Little-endian target, 64-bit `usize`, no allocation failure.

## What is modelled and what is not

| Code in /repo/src | Model | Not modelled |
|---|---|---|
| cipher.rs, cipher_mode/* | ModesModel.v, CipherDst.v, IvModel.v (`update_iv` with failing random sources), ScratchModel.v (the scratch vectors `buf`, `clone`) | `Display` |
| aes/aes.rs, aes_generic.rs, const_tables.rs | AesModel.v, AesTables.v | |
| aes/aes_amd64.rs | AesNiModel.v | alignment and the 8 bytes read past a 24-byte key (see findings) |
| des/des.rs, tdes.rs | DesModel.v | big-endian targets |
| sm4/* | Sm4Model.v | |
| md5/md5.rs, md5_generic.rs, sha/sha*.rs, *_generic.rs, sm3/* | HashModel.v, WrapModel.v (the `SHA` family types) | md5_amd64.rs, sha1_amd64.rs, sha256_amd64.rs: their `mod` lines are commented out, they are not part of the crate (the last does not compile) |
| hmac/hmac.rs, cmac/cmac.rs | MacModel.v | |
| keccak/keccak.rs, sha3/* | KeccakModel.v, WrapModel.v (the `SHA3` family types) | |
| zuc/* | ZucModel.v | |
| rsa/rsa.rs, pkcs1.rs, oaep.rs, pss.rs, signature.rs | RsaModel.v, RsaSizeModel.v, RsaEncModel.v, RsaObjModel.v, RsaTextModel.v (error texts of OAEP decryption) | NaN arguments, `Display`/`Debug` |
| dsa/dsa.rs, signature.rs | DsaModel.v, DsaObjModel.v (constructors of the named sizes and objects, with the source as a state) | NaN arguments, `Display`/`Debug` |
| elliptic/elliptic.rs, key_pair.rs | EllModel.v | NaN arguments, `Display`/`Debug` |
| elliptic/p224.rs, p256.rs | P224Model.v, P256Model.v, InplaceModel.v (the raw-pointer variants on a memory) | NaN arguments; `scalar_base_mult`, `invert` and `to_affine` are not modelled in memory, only on values |
| ecdsa/ecdsa.rs, csp_rng.rs | EcdsaModel.v, EcdsaObjModel.v (histories, accessors) | NaN public keys |
| kdf/* | | the files are empty |
| crypto_err.rs | Base.v (`err`) | message texts other than those of OAEP decryption (RsaTextModel.v) |

Timing, side channels and memory layout are outside the model.

## Properties: model and proof

One line per property: what is modelled, how it is proved, where the theorems are. The statements are in `properties.jsonl`, the theorem names in `MANIFEST.json`.

* **C01** AES decryption inverts encryption (PropAesSm4.v) — Model key schedule and T-table rounds over 32-bit words; prove the equivalent-inverse-cipher identity from byte-level table facts (finite sweeps over 256 bytes) and GF(2)-linearity of MixColumns. *All keys of the three sizes and all blocks, both directions (AES-NI through C03).*
* **C02** AES computes FIPS 197 (PropAesSm4.v) — Independent FIPS-197 spec on byte lists; tables checked by finite sweep; refinement lemma per round. *Against FIPS 197 written over GF(2^8) (AesSpec.v); the tables are checked entry by entry.*
* **C03** AES-NI and portable back-ends agree (PropAesSm4.v) — Model aesenc/aesenclast/aesdec/aesimc/aeskeygenassist per Intel SDM and the AES-NI functions; prove equal to the portable model. *Equality of the two back-ends as functions on all keys and blocks; the instructions are modelled from Intel's definition.*
* **C04** DES and Triple-DES round-trip (PropDes.v) — Feistel inversion generic in the round function; IP/IIP mutual inverses by finite sweep over bit positions. *Single DES and three-key Triple-DES, all keys, all blocks, both directions.*
* **C05** DES computes FIPS 46-3 (PropDes.v) — Spec on bit lists with the FIPS tables; bit-index correspondence proved by finite sweeps. *Against the bit-level tables of FIPS 46-3 (DesSpec.v).*
* **C06** SM4 round-trip and GB/T 32907 (PropAesSm4.v) — Generalised Feistel inversion for arbitrary T; spec comparison. *Round-trip and equality with GB/T 32907 (Sm4Spec.v), all keys and blocks.*
* **C07** Block ciphers accept exactly one block and exactly the legal key sizes (PropDes.v) — Direct case analysis on lengths. *Exact acceptance conditions and error values for blocks and keys of every length.*
* **C08** Default padding round-trips and fills whole blocks (PropModes.v) — List induction, modular arithmetic. *All block sizes and messages.*
* **C09** Unpadding validates the padding (PropModes.v) — Exact characterisation by induction on the reversed list plus refutation witness. *Exact behaviour proved; the strict reading (malformed padding rejected) is refuted by a witness.*
* **C10** ECB one-shot round-trip (PropModes.v) — Loop = blockwise map; padding round-trip. *All ciphers satisfying the block interface, all messages; the library's ciphers are shown to satisfy it.*
* **C11** ECB streaming encryption equals one-shot (PropModes.v) — Invariant: pond+drawn = enc of whole blocks of the prefix, data = remainder; induction over events. *All ways of splitting the input between writes.*
* **C12** ECB streaming decryption (PropModes.v) — Invariant with one block held back; exact iff. *The stream decrypter is right exactly when |m| mod n <> n-1; in the other case it fails, as proved.*
* **C13** CBC one-shot round-trip and conformance (PropModes.v) — Blockwise description of the produced ciphertext; refutation witness; EmptyPadding positive. *Holds for decryption of standard CBC and for EmptyPadding; with DefaultPadding encrypt does not chain the padding blocks: exact output, necessary condition and refutation proved.*
* **C14** CBC streaming encryption (PropModes.v) — Invariant as C11 with chaining value. *Standard CBC except when |m| mod n = n-1, where the last padding block is chained from the IV; both cases proved.*
* **C15** CBC streaming decryption (PropModes.v) — Invariant as C12 with chaining value. *Decryption of every message succeeds except for lengths block size - 1 modulo the block size, where it fails; both directions are stated.*
* **C16** CFB one-shot round-trip (PropModes.v) — Segment induction. *All segment sizes and messages.*
* **C17** CFB streaming (PropModes.v) — Invariant, refutation witness for draw-off schedule. *Stream decryption unpads only what was not drawn yet; exact condition proved, and panic on truncated input.*
* **C18** OFB is a length-preserving involution with streaming equivalence (PropModes.v) — Keystream specification, xor involution. *All messages and all ways of splitting them.*
* **C19** CTR keystream and statefulness (PropModes.v) — Keystream specification over counter position. *Counter position carried between calls on one object; encrypt-then-decrypt on the same object refuted.*
* **C20** CTR never reuses a counter block within a message (PropModes.v) — Counter value as big-endian integer mod 2^(8k); refutation for wide counters. *Distinctness for counter width = block size; for wider counters key-stream reuse proved.*
* **C21** Stream reset and reuse (PropModes.v) — State equality after reset/finish. *CBC encrypt stream with EmptyPadding is not fresh after finish: refuted by witness.*
* **C22** IV and counter validation (PropModes.v) — Case analysis. *Exact acceptance conditions; a refused call changes nothing.*
* **C23** Hash digests are chunking independent (PropHash.v) — Generic Merkle-Damgard buffer invariant; per hash instance. *Nine hash functions, all messages below 2^64 bytes, all ways of splitting them, from new and after reset.*
* **C24** Compression functions are the standards' ones (PropHash.v) — Loop-by-loop refinement to the standard's recurrence. *One block of each compression function, all chaining values and blocks.*
* **C25** checksum is repeatable and reset restores the initial state (PropHash.v) — State-machine lemmas. *Over all histories of calls.*
* **C26** Writing after checksum (PropHash.v) — Exact description + refutation witness. *The English expectation (a write after checksum starts a new message or continues) is false of the code: C26_neither_refuted gives witnesses for all nine hashes. C26_histories and C26_continuation say exactly what is computed.*
* **C27** SHA-512/t (PropHash.v) — Exact description + refutation witness. *The code does not compute SHA-512/t: C27_value gives the exact value for every message, C27_not_standard_refuted and C27_partial_byte_refuted the counterexamples.*
* **C28** HMAC computes FIPS 198-1 (PropKeccak.v, PropMac.v) — Digest contract as a record of assumptions, instantiated with the concrete hashes. *For every hash object satisfying the digest interface, which the library's hashes are shown to satisfy; all keys and messages.*
* **C29** CMAC computes SP 800-38B (PropMac.v) — Buffer invariant; doubling spec over integers. *For every block cipher satisfying the block interface whose block size the code accepts; the library's ciphers are shown to satisfy it. All histories of calls.*
* **C30** SHA-3 and SHAKE compute FIPS 202 for every chunking (PropKeccak.v) — Refinement of the lane code to bit-string spec. *Bit-level specification of FIPS 202; histories mix byte and bit writes.*
* **C31** Keccak-p step mappings (PropKeccak.v) — Step maps compared lane-wise. *Step mappings, round constants and bijectivity for all widths; rounds beyond 12+2l use wrong constants (refuted).*
* **C32** XOF prefix consistency (PropKeccak.v) — Squeeze loop prefix induction. *All output lengths and messages.*
* **C33** Sponge parameter validation (PropKeccak.v) — Refutations. *Acceptance of every rate, the panic at rate 0 and collisions at r >= b are proved; the expected check is refuted.*
* **C34** SHAKE raw mode switch (PropKeccak.v) — Refutation history. *Stale digest after switching exhibited; the digest after further writes is proved to be the raw one.*
* **C35** ZUC keystream (PropZuc.v) — Cell-range invariant and congruence mod 2^31-1. *Against the specification of ZUC 1.6 with the 31-bit field; all keys and IVs, unbounded key stream.*
* **C36** ZUC stream cipher (PropZuc.v) — Keystream position invariant. *Keystream and chunking proved for all inputs; the returned length is characterised exactly and refuted as message length.*
* **C37** ZUC MAC (PropZuc.v) — Spec of EIA3, refutations. *One-write MAC equals 128-EIA3; chunked writes, repeated checksum and never-written object are refuted by witnesses.*
* **C38** RSA primitive round-trip (PropRsa.v) — Number theory (Fermat/CRT). *All keys made of distinct primes with matching exponents, with and without precomputed CRT values, all representatives, all usable blinding values.*
* **C39** CRT decryption equals plain decryption (PropRsa.v) — As C38, CRT recombination. *All c <= n; the code also accepts c = n, which RFC 8017 refuses (C39_modulus_accepted_refuted).*
* **C40** RSA key validation (PropRsa.v) — Exact acceptance + witnesses. *Acceptance characterised exactly; soundness proved for distinct primes; composite and repeated factors refute the plain English claim.*
* **C41** RSAES-PKCS1-v1_5 round-trip (PropRsa.v) — Byte-level encode/decode over abstract RSA primitive. *Round-trip, exact decoding condition, rejections; the empty message does not round-trip (C41_empty_refuted).*
* **C42** RSASSA-PKCS1-v1_5 sign/verify (PropRsa.v) — Byte-level, witness of malleability. *Exact acceptance condition; uniqueness refuted for every accepted signature; unsupported digest accepted by the constructor and panicking later.*
* **C43** RSAES-OAEP round-trip and rejection (PropRsa.v) — Byte-level with abstract hash; witness. *Round-trip, wrong label, exact set of accepted data blocks; the missing separator is accepted (C43_no_separator_refuted).*
* **C44** RSASSA-PSS encode/verify (PropRsa.v) — Byte-level with abstract hash; both overflow-check modes modelled. *Encoding equals EMSA-PSS; exact acceptance for every modulus size; correct for multiples of 512 bits without overflow checks; with overflow checks nothing verifies.*
* **C45** DSA sign/verify (PropDsa.v) — Modular arithmetic; witness. *Sign/verify consistent and standard when the digest is no longer than q; for longer digests the exact acceptance condition is proved and C45_long_digest_refuted exhibits a refused own signature.*
* **C46** DSA parameter and key generation (PropDsa.v) — Modular arithmetic with oracle rng. *Primality of generate_prime's result and soundness of positive probably_prime_test answers (rmath) are hypotheses; the lengths, q | p-1, order of g, end of the search and keys are proved.*
* **C47** ECDSA sign/verify (PropEcdsa.v) — Model of sign and verify with the nonce generator; verification refined to the group of EllSpec.v (proved, not assumed, to be a group). *Any curve whose base point has odd prime order n; sign's nonces are characterised exactly (AES-256-CTR keyed by SHA-512 of key, entropy and hash), and verify accepts exactly the signatures of the standard. The unbounded loop of sign is modelled with fuel; the exact condition for running out is stated.*
* **C48** Signature serialisation (PropDsa.v) — Big-endian bytes round-trip. *All histories of new/form_bigint/set; truncating the bytes through as_mut makes verify panic (C48_truncation_refuted).*
* **C49** Generic curve arithmetic (PropEc.v) — Coordinate formulas shown equal to the group law by field identities over Z mod p; the group law itself, with associativity, proved from the curve equation. *The chord-and-tangent group law, including associativity, is proved from the curve equation over any prime field; add, double and scalar of the generic curve code compute it.*
* **C50** Curve constants (PropCurves.v) — Pocklington certificates for primality and evaluation of multiples in Montgomery form, both checked by the kernel. *Moduli, primality of p and n, non-singularity, base point on the curve and exact prime order proved for all four curves. The field-size part is refuted for P-521 (reports 512, and the name says P-512).*
* **C51** EC key generation range (PropEc.v) — Range argument and witness. *The exact key returned is characterised. The claim that the key is never 0 is false (C51_key_zero_refuted): the draw that cancels 0x42 gives d = 0.*
* **C52** P-224 field arithmetic (PropP224.v) — Limb-value function; interval bounds propagated by a tactic and lia; congruences by ring. *P224Model.v models p224.rs with the wrapping 32/64-bit operations; every routine is shown to compute its operation modulo p and to re-establish the limb bounds for all limb vectors within the bounds.*
* **C53** P-224 contraction to canonical form (PropP224.v) — Exact characterisation of the contraction for all limb vectors below 2^30; refutation witness. *Exact characterisation of p224_contract for all limb vectors below 2^30 (C53_contract); the claim that it returns the canonical representative is refuted (C53_contract_refuted): p-1 gives 2^28-1, and residues below 2^96-1 whose low 28 bits are all one can be off by 2^28. is_zero is right for all classes.*
* **C54** P-256 field arithmetic (PropP256.v) — As C52, with the alternating 29/28-bit limbs and Montgomery factor 2^257; overflow checks as a flag. *P256Model.v models p256.rs with wrapping 32/64-bit operations and a flag for overflow checks. Every routine computes its operation modulo p (Montgomery form, R = 2^257) for all elements and re-establishes the bounds. Two comments in the source promise too much: scalar8 does not keep the documented bounds when the last limb has 30 bits, and the reduction is wrong for a last word of 2^62 (both refuted by a witness; neither is reachable). With overflow checks products panic whenever the low 29 bits of the product of the low limbs are 0 or 1, and otherwise agree.*
* **C55** DES complementation (PropDes.v) — Complement commutes with the bit-level steps of the specification; transferred through C05. *All keys and blocks.*
* **C56** Keccak permutation byte interface (PropKeccak.v) — Exact relation of the byte interface to the bit-string specification; refutation witness. *Exact behaviour of the byte interface; identity at zero rounds refuted.*
* **C57** RSA key generation (PropRsa.v) — Key generation over an arbitrary sequence of primes; number theory of C38. *Two-prime keys unconditionally; multi-prime keys when the primes are distinct; three-prime keys with a repeated prime are returned and unusable (refuted).*
* **C58** P-224 interface agrees with the generic curve arithmetic (PropP224.v) — Each interface function refined to the generic code followed by the contraction of C53. *Exact relation between CurveP224 and the generic code for all points and scalars; agreement holds iff no result coordinate is one of the bad ones, and fails for a concrete pair of points (C58_agreement_refuted).*
* **C59** P-256 scalar multiplication (PropP256Api.v) — Invariants over the 64 windows and the 32 comb positions: the accumulator stands for the multiple of the digits read so far, and no exceptional case of the addition formulas is reached; the table entries are checked by evaluation; totality by limb bounds only. *Window method and comb method, including the precomputed table, proved equal to the generic code for all points of the curve and all scalars in builds without overflow checks; no panic for any coordinates. With overflow checks every call panics (C59_checked_panics).*
* **C60** The built-in curves have exactly n points (PropOrder.v) — Pigeonhole on an injective code of the points below 2p + 1 gives index at most 2; no point of order 2 because the cubic has no root (certificate); hence one cyclic group. *The subgroup of the base point has n > (2p+1)/3 elements and the cubic has no root (a Bezout certificate for x^p - x, checked by the kernel), so no other points exist. Machine integers of the standard library are used in the certificate check.*
* **C61** ECDSA over the CurveP224 object (PropP224Ecdsa.v) — ECDSA model over an object whose base-point multiples come from the P-224 limb code; C58 gives the returned coordinates, C60 the group, and the signature equation turns acceptance into one congruence. *The claim as one would expect it is refuted (C61_accepted_refuted, C61_key_on_curve_refuted); what holds is C61_sign_exact and C61_sign_verify_iff.*
* **C62** Failing random source and update_iv (PropIv.v) — The random source is a list of words and errors. The effect of every update_iv is computed exactly, the later calls are evaluated with a short IV, and an induction over histories tracks the IV length. *That a failed call leaves the object unchanged is refuted (C62_failed_update_refuted); the exact behaviour is proved for all sources.*
* **C63** The SHA and SHA3 family types (PropWrap.v) — The enumeration types are modelled arm by arm; a simulation between the wrapper and the algorithm object carries C23, C27 and C30 over. *For sha512t the digests are those of the SHA512T object, described by C27.*
* **C64** RSA scheme objects created with a generated key (PropRsaObj.v) — The three constructors and the length queries are modelled on top of the key generator of C57, whose prime source is a parameter; the properties of C41-C44 are carried over to the objects. Witness: a 512-bit key from two certified primes. *Findings: PKCS1 and OAEP compare bits with bytes, so a PKCS1 object that can never sign is created (C64_never_signs_refuted) and most too small OAEP sizes are refused only after the key was generated (C64_oaep_late_refuted); PSS with Some(0) always fails for moduli of 8k+1 bits (C64_pss_longest_salt_refuted).*
* **C65** RSA scheme objects have no hidden memory (PropRsaObj.v) — Objects are records with the hash state as a field, calls are operations, a history is a list of operations. Each operation is shown to give one result for every hash state that satisfies the digest's invariant and to preserve that invariant; induction on the history. *Arguments are within the digest's message limit; the random words and blinding values of each call are part of the call.*
* **C66** P-224 and P-256 arithmetic may write its result over its inputs (PropInplace.v) — A memory is a list of the caller's arrays and a list of local arrays; routines take addresses and read and write single limbs in the order of the source. One lemma on loops whose body reads limb i of the inputs and writes limb i of the output, by induction for every coincidence of addresses; then the point operations step by step, the table and the two scalar multiplication loops by invariants on the memory. The wrong in-place uses are exhibited. *The memory operations are taken in program order: making &mut and & references to one array at the same time, as the _a functions do, is undefined behaviour in Rust, and what a compiler may make of that is not modelled. Squarings and products write the output only after the last read of an input, so their out is written as a whole. The two _refuted theorems record that the additions may not be used in place; the code does not do so.*
* **C67** The scratch vectors inside cipher and mode objects never show; what clones of mode objects do (PropScratch.v) — A second model of the modes in which every routine takes and returns the scratch vector and the cipher's hidden state, with the appends, clears and in-place changes of the source. Each loop is shown by induction to show what the loop of ModesModel.v shows, whatever the scratch; a simulation over histories of calls gives equal traces. Clones by a relation that forgets the scratch. The CTR clone from C19 and C20. *For CFB the cipher's output must have at least a segment, which holds for every block cipher. The hypothesis on the cipher is proved for AES (both implementations), SM4, DES and TDES. C67_ctr_clone_refuted records that a CTR clone restarts the counter.*
* **C68** DSA objects: construction of the four named sizes and any number of calls with one random source (PropDsaObj.v) — A second model of parameter generation, key generation, signing and verification in which the random source is a state that every call takes and returns (DsaObjModel.v). Construction by induction on the loops. A signing call is shown to equal the call of DsaModel.v on exactly the numbers it drew; an induction over histories joins these segments into one sequence of draws and removes the hash state, after which C45 applies. *The prime generator, the primality test and random are functions of the source, assumed to give primes of the wanted length, to accept primes only, and to give natural numbers. Loops that need not end are bounded by fuel; running out of it is a panic of the model. C68_ended_source_refuted records the panic when the source ends.*
* **C69** ECDSA objects: any number of calls with one random source (PropEcdsaObj.v) — Objects of EcdsaModel.v with the remaining words of the source as state; a history is a list of calls. Each call is shown to depend only on the curve, the key, the message, the content and its own words, whatever the two hash objects and the digest buffer hold; induction over the history. Nonces and acceptance then follow from C47 on the fresh object. *A panic of the model is only running out of fuel (C47_sign_exact). C69_ended_source_refuted and C69_short_source_refuted record that a source that ends is not noticed.*
* **C70** Which RSA key sizes are refused, and for which key generation never ends (PropRsaSize.v) — The floating point test over the real numbers: each f64 operation gives any value within a relative error of 2^-50 (RsaSizeModel.v). Bounds on ln 2 from exp x > 1 + x, interval bounds on the computed value for each number of bits per prime, then the table. For too many primes: the bit lengths requested are the floor and ceiling shares, by induction; primes of 2, 3 and 4 bits with distinct neighbours have too small a product, by induction over pairs, so every attempt is thrown away. *C70_refused, C70_generate_key and C70_outcome_unique use the standard library's axioms of the real numbers. That the platform's logarithm is within 2^-50 is assumed. C70_never_ends_refuted records the endless loop.*
* **C71** What altered, lost or cut ciphertext decrypts to (PropModesErr.v) — Block j of the decrypted string in closed form, by induction on the blocks, from the specification each mode was proved equal to (C10-C19); the alteration statements from the closed form and the cipher being a permutation; resynchronisation from the chaining value being the last n bytes of IV and ciphertext. *Decryption of the one-shot API without padding; streaming decryption gives the same bytes by C13-C17.*
* **C72** Weak DES keys and degenerate TDES keys are accepted and behave as the standards warn (PropDesWeak.v) — The 16 round keys of the standard's schedule are computed for the 4 + 12 keys and compared with their reverse; the rest is for all blocks: decryption is encryption with the schedule reversed (C05). Fixed points: the halves must be equal after round 8, which gives a bijection with the 4-byte strings. *Key lists as in SP 800-67 section 3.3.2. That the library refuses none of these keys is part of the statements (des_new and tdes_new cannot fail).*
* **C73** What the holder of a signature, or of a nonce, can derive (PropSigRel.v) — Negating s negates both scalars of the verification, so the computed point becomes its opposite, with the same x coordinate: an induction on multiples shows that the multiples of the opposite point are the opposites of the multiples. The key statements come from the signing equation of C45 and C47, solved for the key in the prime field of the order. *The ECDSA theorem is about two signature contents that parse to (r, s) and (r, n - s). The key recovery statements describe signatures made by the library, with any random stream.*
* **C74** What equal digests imply, and what a digest gives away (PropMd.v) — The Merkle-Damgard argument: with different lengths the last blocks differ because the length field is injective below 2^61 bytes; with equal lengths a backward induction over the blocks finds the place where inputs differ. Extension: the chaining value is recovered from the digest, and blocks of a concatenation at a block boundary are those of the parts. The MD5 pair is computed, the rest of the statement is for every suffix. *The colliding inputs are stated to occur in the traces of the two messages; that some collision exists would say nothing, since the block function cannot be injective.*
* **C75** Which keys and messages can share an authentication code (PropMacEq.v) — HMAC from C28: the prepared keys decide; equal outer inputs split into equal prepared keys and equal inner digests because the prepared keys have one length. CMAC from C29: the chaining function is injective in the chaining value and in each block because the cipher is a permutation; the two subkeys are equal only if the doubling has a fixed point other than zero, which the parity of each of the sixteen reduction constants excludes. *Stated for any digest meeting the Digest contract and any good cipher; the library's hashes and ciphers are instances (C28, C07).*
* **C76** What decryption does with arbitrary bytes, and which calls can panic (PropHostile.v) — Invariants of each stream under every operation (the length of the buffered bytes and of the chaining value) give the answers after all histories; the exact answers on arbitrary bytes come from the run lemmas of C08-C17 without the hypothesis that the input is a ciphertext, and from the inverse of CFB on all byte strings of whole segments. *all ciphertexts and all stream histories of the five modes; the one panic is characterised exactly.*
* **C77** Which public-key calls panic on hostile input (PropHostilePk.v) — Case analysis of the modelled functions with every panic explicit; for PSS the masks of the overflow-checked build are evaluated for all sizes. *panics inside rmath are outside the model; empty byte strings read as numbers are excluded where the code does not refuse them.*
* **C78** What reusing a key or an IV reveals, exactly (PropReuse.v) — From the per-block description of decryption (C71) and the round trips, cancelling xor and inverting the block permutation; induction on the number of blocks for the prefixes; bitwise linearity of the 128-EIA3 sum. *the modes are stated without padding except where the padding is the point.*
* **C79** What equal SHA-3, SHAKE and sponge outputs imply (PropSponge.v) — The padding and the division into blocks are injective; the permutation is injective (C31), so the last absorbed block can be undone; conversely the blocks that join two states are computed by xor. *the absorbing and squeezing functions of the statement are the standard's (FIPS 202 section 4), with the library's results connected to them by C30 and C33.*
* **C80** Multiples of points as shared secrets: agreement, and points that are not on the curve (PropAgree.v) — The group law of C49 gives agreement and, with C60, the facts about the built-in curves. The addition formulas do not mention b, so for a point off the curve C49 is applied to the curve through that point; C58 is extended to such points from its proof over an arbitrary b. (x, 0) is its own opposite, hence of order two. *Agreement for all keys on the generic code and CurveP256; for CurveP224 with the exact premise, and a refutation without it.*
* **C81** What an accepted ECDSA signature says, and what it does not (PropSigKey.v) — Verification is C47's equation; writing the public key as dG (C60) the point it computes is kG with k = (z + dr)/s, and s k = z + d r is the signing equation. For the choice of a key the equation is solved for d; d = 0 is avoided because R and its opposite cannot both give it. *All parts proved for the whole ranges named.*
* **C82** Relations between RSA ciphertexts and signatures that anyone can use (PropRsaRel.v) — Encryption is m^e mod n and decryption, with any usable blinding value, c^d mod n (C38); the rest is arithmetic of powers. For signatures verify compares s^e mod n with the encoded message, and the encoded message has one preimage below n. *All parts proved for the whole ranges named.*
* **C83** What an accepted DSA signature says, and what it does not (PropDsaRel.v) — C45 reduces verify to the equation of FIPS 186; powers of g have period q, so the number it computes is g^k with k = (z + x r)/s, and s k = z + x r is the signing equation. The other parts solve this equation for x, for s, or with x = 0; for y = 0 the power vanishes because r w is not 0 modulo q. *All parts proved for the whole ranges named; be_val (H msg) is the whole hash value, as verify uses it (C45).*
* **C84** What repeats in key streams and long outputs, and from where (PropPeriod.v) — A step of the ZUC state is undone part by part: the S-boxes by search over the bytes, L1 and L2 by exhibiting the inverse sum of rotations, the additions and xors because the cells they use are still there, and the lost cell because 257 is invertible modulo 2^31-1. Steps that can be undone on finitely many states run in cycles (pigeonhole), and the first repetition is at the start. *All parts proved for the whole ranges named.*
* **C85** What answering "decrypted" or "failed" gives away (PropOracle.v) — The attack is a small program that takes the oracle as a function argument. By C09 a decrypter accepts exactly when the hidden block plus the chosen one contains 0x80; fewer than 256 places leave a byte value that is refused everywhere, and from there each place is found separately. C76 says what the decrypters answer, C71 what the blocks are. *All parts proved for the whole ranges named. The tail of a default-padded message is not chained (C13), so the attack is stated there for the whole blocks.*
* **C86** What an RSA key object with wrong or damaged parts releases (PropRsaFault.v) — The checked operation compares the e-th power with its argument. Each half of the CRT result is determined by the values of its own prime, so an intact half is a root modulo that prime (Fermat), also through blinding; a wrong whole then differs only modulo the other prime. *All parts proved for the whole ranges named. Signatures by keys with CRT values are covered with blinding, where the result is reduced; without blinding an arbitrary damaged value could exceed the modulus.*
* **C87** How CMAC tags relate to each other and to encryption under the same key (PropMacRel.v) — Tag and chaining value after the padded message are the cipher's images of two blocks that differ by the subkey; the chain is injective in its start. The forger is a small program that takes the encrypter as a function argument: it encrypts the IV to learn E(0) and the subkeys, then adds IV and subkey to the first and last block, so that the last ciphertext block is the tag (C13, C29). *All parts proved for the whole ranges named.*
* **C88** What related nonces give away (PropNonce.v) — The two signature equations of C45 and C47 are combined with the relation of the nonces; the unknown has one solution modulo a prime. *All parts proved for the whole ranges named. Only exact linear relations are treated; partly known nonces (lattice methods) are outside.*
* **C89** The texts of OAEP decryption errors give every message away (PropOaepOracle.v) — RsaTextModel.v: OAEP decryption with the texts of its errors, and the proof that dropping them gives the operation of C43. The attack (Manger, CRYPTO 2001) is a Coq program over a yes/no function: doubling to find a multiple a m in [B/2, B), counting up to the first multiple past n, then one binary digit of the ceiling of 2^t n / (a m) per question. The invariants (f-1) M < i n <= f M are proved by induction on the questions; the text theorem turns the real answers into the yes/no function. *RSA of OAEP; n >= 2 B excludes moduli whose bit length is 1 modulo 8.*
* **C90** What telling success from failure of PKCS1 v1.5 decryption gives away (PropRsaInterval.v) — Decryption of the question is the decoding of s m mod n (C38, C41); the leading bytes 00 02 give the range. Step 3 of Bleichenbacher's attack is a Coq program on lists of intervals; that it keeps m is an induction on the list of questions with the quotient s m / n as the witness. *Soundness of every run and the exact meaning of an answer are proved; how many questions an attacker needs is a matter of probability and is not claimed. The example ends with one candidate after ten successes.*
* **C91** One key for ZUC encryption and ZUC authentication (PropZucBoth.v) — The two IVs are compared byte by byte; the tag formula is rewritten over the bytes of the key stream (bits of a byte string), and the difference of two tags by the linearity used for C78. *All parts proved for the whole ranges named; messages are written in one call (see C37 for what several writes do).*
* **C92** RSA keys and messages with parts in common (PropRsaShared.v) — Powers modulo n (C38), divisibility by products of coprime moduli by induction over the recipients, ring identities for the related messages, Fermat's theorem and greatest common divisors for the primes. *All parts proved for the whole ranges named. That a useful square root of 1 is met for about half of all bases is not part of the statement.*
* **C93** Which IV or counter continues a message (PropJoin.v) — Induction over the blocks of the first part over the standard's recursions, to which C13, C16, C18 and C19 tie the objects; for CTR the counter blocks of the two objects are equal by arithmetic modulo the width. *For CBC and CFB both parts have whole blocks (segments), for OFB and CTR the first part.*

## Findings

Where the code does not do what its documentation, its standard or a caller would expect, the exact behaviour is a theorem and a `_refuted` theorem gives a witness.

* Padding and modes: unpadding searches backwards for 0x80 over any bytes and cuts off as many bytes as it met zeros, plus one, instead of rejecting malformed padding (C09). ECB and CBC stream
  decryption fails for messages with length = block size - 1 modulo the block size (C12, C15). CBC `encrypt` does not chain the padding blocks (C13), the CBC stream restarts
  from the IV after each padding block (C14) and with EmptyPadding is not fresh after `finish` (C21). CFB stream decryption unpads only what was not drawn off, drops a trailing partial segment
  with EmptyPadding and panics on truncated input (C17). CTR objects keep their position between calls, so decrypting with the object that encrypted gives garbage (C19); a counter wider than
  the block reuses key stream (C20).
* IVs: when the random source fails during `update_iv` the error is returned but a short IV stays installed; CBC then decrypts without error and leaves out bytes (C62).
* AES-NI: the 192-bit key schedule reads 8 bytes past the key.
* Hashes: a write after `checksum` continues from the final chaining value (C26); SHA-512/t is not the function of FIPS 180-4 (C27).
* Keccak: the sponge accepts every rate (C33), the byte interface of the permutation reads and writes in different orders (C56), more than 12+2l rounds use wrong constants (C31),
  switching a SHAKE object to raw mode leaves a stale digest (C34).
* ZUC: `encrypt` returns 0 when left-over key stream covers the data (C36); the MAC depends on how the message is split, is not repeatable, and is 0 for an object never written to (C37).
* RSA: validation checks neither primality nor distinctness (C40); c = n is decrypted (C39); the empty PKCS1 message does not round-trip (C41); verification accepts s + n and other
  encodings (C42); OAEP accepts a block without separator (C43); PSS verifies nothing in debug builds and fails for most sizes that are not multiples of 512 bits in release builds (C44);
  a three-prime key p, q, p is returned and then panics (C57); `auto_generate_key` compares bits with bytes, so PKCS1 objects that can never sign are created and most
  too small OAEP sizes are refused only after the key was generated; PSS with `Some(0)` never works for moduli of 8k+1 bits (C64).
* DSA: `sign` truncates the digest and `verify` does not, so for digests longer than q own signatures are refused (C45); truncating signature bytes makes `verify` panic (C48).
* Curves: `generate_key` can return d = 0 (C51); P-521 reports a field size of 512 (C50); P-224 results that are p-1, or small with 28 low one bits, come back off by 2^28 (C53, C58), so some ECDSA signatures made
  with CurveP224 are never accepted and some generated public keys are not on the curve (C61);
  P-256 panics on every scalar multiplication in debug builds (C59).
* CTR: cloning a CTR object resets the counter (`DefaultCounter::clone` drops the current value), so a clone made in the middle of a conversation reuses the key stream from its start (C67).
* Raw pointers: the `_a` routines of P-224 and P-256 make a `&mut` and a `&` reference to the same array, which is undefined behaviour in Rust; taken in program order they are right (C66). `p256_point_add_mixed`
  and `p224_add_jacobian` would be wrong if called with an output at an input's address, as the existence of `p256_point_add_mixed_a` invites; no caller does (C66).
* DSA constructors: `generate_parameters_inner` indexes the bytes drawn without looking at their number, so that a random source that ends makes it panic instead of returning an error
  (C68_ended_source_refuted). `rand_source` hands out a clone of the source in its current state: whoever gets it knows the nonces of the following signatures (C68_accessors).
* ECDSA: a random source that ends is not noticed: `sign` goes on with less or no entropy, and `auto_generate_key` on a source of one word returns one of 2^32 private keys (C69_ended_source_refuted,
  C69_short_source_refuted).
* RSA key generation: the test that is to ensure termination is made only below 64 bits, so that asking for too many primes, as 17 for 64 bits, never returns (C70_never_ends_refuted).
* ECDSA accepts for every signature (r, s) also (r, n - s): signatures can be altered without the key and must not serve as identifiers (C73_ecdsa_second_signature).
* MD5, SHA-1, SHA-256, SHA-512 and SM3 objects are open to length extension, as the standards' functions are: only HMAC, not the digest of key and message, authenticates (C74_extension). MD5 collides for a known pair followed by any bytes (C74_md5_refuted).
* HMAC keys that differ only by zero bytes at the end (within one block) are the same key, and a key longer than a block can be replaced by its digest, as FIPS 198-1 has it (C75_hmac_keys).
* `CFB` decrypt streams: `finish` panics exactly when the number of bytes written since the last reset is not a multiple of the segment, so a truncated ciphertext crashes the caller, while one-shot decryption answers an error (C76).
* The ECB and CBC streams without padding refuse the empty message, which one-shot encryption and decryption accept (C76).
* In a build with overflow checks a PSS verifier can be crashed by a random signature: about one in 256 for a modulus of 8j+1 bits, one in 512 for a multiple of 8 (C77).
* The last block or blocks of one-shot CBC with the default padding are encrypted without chaining (C13), so the end of the ciphertext is the same for messages that end alike, under every IV (C78).
* A KeccakSponge with rate equal to the width is accepted and has no collision resistance at all (C79).
* `scalar` never checks that its point is on the curve (C80): a caller who multiplies a peer's point by a private key without calling `is_on_curve` first reveals the key modulo the order of the peer's point on another curve; (5, 0) reveals the lowest bit on every built-in curve.
* Key agreement with CurveP224 can fail for a valid common point (C80_p224_agreement_refuted): a public point with a wrongly returned coordinate is not on the curve and the two sides end with different points.
* An ECDSA signature does not bind its signer's key (C81_some_key_accepts): anyone can make a key pair under which another's signature is accepted, for the same or another message; protocols built on this library must sign the public key too.
* Raw RSA as exposed by the key types is multiplicative (C82_opened_by_another); only the padded interfaces PKCS1, OAEP and PSS should face other parties.
* DSA verify does not examine the public key (C83_key_one): with y = 1 anyone can sign; like ECDSA (C81), a signature does not bind its key.
* C85: a padding oracle. Because unpadding accepts any buffer with a 0x80 in it, and reports an error otherwise, the error alone lets anyone who can submit ciphertexts decrypt CBC and CFB messages. Users must authenticate before decrypting.
* C86: pkcs1 and OAEP decryption use the unchecked private operation, so a damaged CRT value yields a wrong number from which n can be factored if it is ever released (for example as the raw result); signatures are not affected.
* C87: a key must not be shared between CMAC and a mode object: two CBC encryptions under a known IV give the tag of any message.
* C88: the random source handed to DSA::sign must be unpredictable, not only free of repetitions: nonces from a linear congruential generator with known constants reveal the key after two signatures.
* OAEP decryption (oaep.rs:133, :142) gives a different error text for a non-zero first byte than for a wrong label hash, which RFC 8017 7.1.2 forbids; the texts alone decrypt every OAEP ciphertext with some hundreds of questions (C89_message).
* C90: PKCS1 v1.5 decryption reports failure of the padding check, so each success reveals an interval for the message; callers must not let a peer see whether it succeeded.
* C91: with one key for ZUCCipher and ZUCMac and direction 0, each gives away what the other protects; the standard expects two different keys, which nothing in the interface enforces.
* C92: PublicKey::from_nat and its relatives accept the exponent 3 and PublicKey::encrypt pads nothing, so numbers sent to three recipients, or twice with a known difference, are not hidden.
* C93: nothing in CTR keeps the counters of two messages under one key apart; random starting counters that come closer than a message's length reveal the xor of the overlapping parts.
* What was expected to be fragile and is right: the CRT and blinding of RSA, the P-256 field arithmetic and precomputed table, the incomplete addition formulas in the P-256 scalar
  multiplications, the special cases of the generic curve addition, DES and SM4 tables.
