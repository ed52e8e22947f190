{"id": "C01", "title": "Pure signatures always verify", "statement": "If key generation succeeds and returns (pk, sk), then for every message m, every context of at most 255 bytes, hedged or not, whenever try_sign_with_rng(m, ctx) succeeds the returned signature makes pk.verify(m, sig, ctx) return true; and signing does succeed unless the random generator fails.", "quantifier": "each of the twelve SLH-DSA parameter sets, every generated key pair, every message of any length, every context up to 255 bytes, both signing modes, every random generator behaviour, every behaviour of the underlying hash functions", "why_tests_cant": "Tests sign a handful of fixed messages under a handful of seeds; the index path through the hypertree (up to 2^68 leaves), the FORS indices and the WOTS+ digits take a different branch for every message digest.", "anchors": ["src/lib.rs: try_sign_with_rng, verify", "src/slh.rs: slh_sign_internal, slh_verify_internal, slh_keygen_internal", "src/hypertree.rs: ht_sign, ht_verify", "src/fors.rs: fors_sign, fors_pk_from_sig", "src/xmss.rs", "src/wots.rs"]}
{"id": "C02", "title": "Pre-hash signatures always verify", "statement": "If key generation returned (pk, sk), then for every message, context of at most 255 bytes and each of the four supported pre-hash functions, whenever try_hash_sign_with_rng succeeds, hash_verify with the same message, context and pre-hash function returns true; and it succeeds unless the random generator fails.", "quantifier": "each of the twelve SLH-DSA parameter sets, all keys, messages, contexts up to 255 bytes, all four pre-hash functions, both modes, all random generator behaviours", "why_tests_cant": "Only a single message per pre-hash function is tested; the claim ranges over all messages and all digests.", "anchors": ["src/lib.rs: try_hash_sign_with_rng, hash_verify", "src/hashers.rs: hash_message"]}
{"id": "C03", "title": "Raw (internal-interface) signatures verify with the raw verifier", "statement": "A signature made by _test_only_raw_sign on a byte string verifies with _test_only_raw_verify on the same byte string under the matching public key, for every generated key pair.", "quantifier": "each of the twelve SLH-DSA parameter sets, all keys, all byte strings, both modes, all random generator behaviours", "why_tests_cant": "The NIST vectors exercise a few hundred fixed inputs.", "anchors": ["src/lib.rs: _test_only_raw_sign, _test_only_raw_verify"]}
{"id": "C04", "title": "Verification never panics on hostile input", "statement": "verify, hash_verify and _test_only_raw_verify return a boolean, and do not panic, overflow an integer, index out of bounds or fail an assertion, for every public key byte string of the right size, every signature byte string of the right size, every message and every context of any length, with or without debug assertions and overflow checks.", "quantifier": "each of the twelve SLH-DSA parameter sets, all public keys (including adversarial ones), all signature bytes, all messages, all contexts of any length, debug and release builds, 16/32/64-bit usize", "why_tests_cant": "The panic sites (subtractions on tree indices, shifts by 64-h, slice bounds, checksum arithmetic) depend on attacker-chosen digests; testing samples a vanishing fraction.", "anchors": ["src/lib.rs: verify, hash_verify, try_from_bytes", "src/slh.rs: slh_verify_internal", "src/fors.rs: fors_pk_from_sig (ADRS tree index - 1)", "src/xmss.rs: xmss_pk_from_sig", "src/helpers.rs: base_2b, to_int, to_byte"]}
{"id": "C05", "title": "Key generation and signing never panic", "statement": "With a random generator that does not itself panic, try_keygen_with_rng, try_sign_with_rng, try_hash_sign_with_rng, _test_only_raw_sign, and both key-import functions return a value or an error and never panic, overflow, index out of bounds or fail an assertion.", "quantifier": "each of the twelve SLH-DSA parameter sets, all seeds, all private-key byte strings, all messages and contexts, all generator behaviours, debug and release builds", "why_tests_cant": "Arithmetic such as (i << a) + index, 2*i+1 at every tree node, csum accumulation and u32 conversions must stay in range for every digest.", "anchors": ["src/slh.rs: slh_keygen_with_rng, slh_sign_with_rng, slh_sign_internal", "src/wots.rs: wots_sign", "src/fors.rs: fors_sign, fors_node", "src/xmss.rs: xmss_node, xmss_sign", "src/lib.rs"]}
{"id": "C06", "title": "Key generation computes the FIPS 205 key pair", "statement": "The key pair returned for seeds (SK.seed, SK.prf, PK.seed) is exactly the one Algorithm 18/21 of FIPS 205 defines: the private key is SK.seed||SK.prf||PK.seed||PK.root and the public key PK.seed||PK.root, with PK.root the root of the top-layer XMSS tree.", "quantifier": "each of the twelve SLH-DSA parameter sets, all seeds", "why_tests_cant": "Known-answer tests cover a few seeds per parameter set; conformance is a statement about all seeds.", "anchors": ["src/slh.rs: slh_keygen_internal, slh_keygen_with_rng", "src/xmss.rs: xmss_node", "src/wots.rs: wots_pkgen"]}
{"id": "C07", "title": "Pure signing computes the FIPS 205 signature, byte for byte", "statement": "For every private key, message, context of at most 255 bytes and additional randomness, the bytes returned by try_sign_with_rng are exactly those of FIPS 205 Algorithm 22 (slh_sign), with opt_rand = PK.seed in deterministic mode.", "quantifier": "each of the twelve SLH-DSA parameter sets, all private keys (well-formed or not), messages, contexts, randomness", "why_tests_cant": "Known-answer tests cover fixed inputs; interoperability requires equality on all inputs.", "anchors": ["src/lib.rs: try_sign_with_rng", "src/slh.rs: slh_sign_internal", "src/helpers.rs: serialize"]}
{"id": "C08", "title": "Pre-hash signing computes the FIPS 205 signature, byte for byte", "statement": "For every private key, message, context of at most 255 bytes, pre-hash function and additional randomness, the bytes returned by try_hash_sign_with_rng are exactly those of FIPS 205 Algorithm 23 (hash_slh_sign), including the OID and digest length of each pre-hash function.", "quantifier": "each of the twelve SLH-DSA parameter sets, all private keys, messages, contexts, four pre-hash functions, randomness", "why_tests_cant": "No external test vectors exist in the repository for the hash variants (the source's own roadmap says so).", "anchors": ["src/lib.rs: try_hash_sign_with_rng", "src/hashers.rs: hash_message"]}
{"id": "C09", "title": "Pure verification decides exactly as FIPS 205", "statement": "verify(m, sig, ctx) returns exactly the boolean FIPS 205 Algorithm 24 (slh_verify) returns, for every public key, message, signature string of the fixed size and context of any length.", "quantifier": "each of the twelve SLH-DSA parameter sets, all public keys, messages, signature bytes, contexts", "why_tests_cant": "A verifier that accepts one extra signature or rejects one valid signature passes almost every test.", "anchors": ["src/lib.rs: verify", "src/slh.rs: slh_verify_internal", "src/helpers.rs: deserialize", "src/hypertree.rs: ht_verify"]}
{"id": "C10", "title": "Pre-hash verification decides exactly as FIPS 205", "statement": "hash_verify(m, sig, ctx, ph) returns exactly the boolean FIPS 205 Algorithm 25 (hash_slh_verify) returns.", "quantifier": "each of the twelve SLH-DSA parameter sets, all public keys, messages, signature bytes, contexts, four pre-hash functions", "why_tests_cant": "Same as pure verification, and the repository has no vectors for it.", "anchors": ["src/lib.rs: hash_verify", "src/hashers.rs: hash_message"]}
{"id": "C11", "title": "SHAKE hash instantiation matches FIPS 205 section 11.1", "statement": "In the six SHAKE parameter sets, every keyed hash the scheme uses (message hash, PRFs, F, H, T) is SHAKE256 over the exact concatenation FIPS 205 section 11.1 prescribes, whatever way the message is split into pieces.", "quantifier": "all seeds, addresses, messages given as up to five pieces of any length", "why_tests_cant": "Input framing must be right for every length; a field-order or truncation error that cancels between signer and verifier is invisible to round-trip tests.", "anchors": ["src/hashers.rs: mod shake"]}
{"id": "C12", "title": "SHA-2 category-1 hash instantiation matches FIPS 205 section 11.2.1", "statement": "In the SHA2-128 parameter sets, H_msg is MGF1-SHA-256 and PRF_msg is HMAC-SHA-256 as defined in RFC 8017/RFC 2104, and PRF, F, H, T are truncated SHA-256 over PK.seed, zero padding to 64 bytes, the 22-byte compressed address and the data.", "quantifier": "all seeds, addresses, messages given as up to five pieces of any length", "why_tests_cant": "The hand-written HMAC and MGF1 loops must agree with the RFCs for every key and length.", "anchors": ["src/hashers.rs: mod sha2_cat_1"]}
{"id": "C13", "title": "SHA-2 category-3/5 hash instantiation matches FIPS 205 section 11.2.2", "statement": "In the SHA2-192 and SHA2-256 parameter sets, H_msg is MGF1-SHA-512, PRF_msg is HMAC-SHA-512, PRF and F are truncated SHA-256 padded to 64 bytes, and H and T are truncated SHA-512 padded to 128 bytes, over the compressed address.", "quantifier": "all seeds, addresses, messages given as up to five pieces of any length", "why_tests_cant": "Same as category 1, with two different block sizes that must be paired with the right functions.", "anchors": ["src/hashers.rs: mod sha2_cat_3_5"]}
{"id": "C14", "title": "Parameter constants are those of FIPS 205 table 2", "statement": "For each parameter set, the exported sizes (seed, public key, private key, signature) and all internal constants agree with FIPS 205 Table 2 and with the formulas tying them: sig = (1 + k(1+a) + h + d*len)*n, len from Algorithm 1, digest length m, h = d*h'.", "quantifier": "each of the twelve SLH-DSA parameter sets", "why_tests_cant": "A wrong constant in a rarely used set compiles and may still round-trip.", "anchors": ["src/lib.rs: twelve modules, LGW, W, LEN2"]}
{"id": "C15", "title": "Public keys survive serialization in both directions", "statement": "Importing the exported bytes of a public key gives the same key, and exporting an imported byte string gives back the same bytes; import of a public key never fails.", "quantifier": "each of the twelve SLH-DSA parameter sets, all public keys, all byte strings of the fixed size", "why_tests_cant": "All byte values in all positions.", "anchors": ["src/lib.rs: SerDes for PublicKey"]}
{"id": "C16", "title": "Private keys survive serialization in both directions", "statement": "Exporting and re-importing a generated private key succeeds and gives the same key; if importing a byte string succeeds then exporting it gives the same bytes.", "quantifier": "each of the twelve SLH-DSA parameter sets, all generated private keys, all byte strings of the fixed size", "why_tests_cant": "All byte values in all positions, and validation must accept every genuine key.", "anchors": ["src/lib.rs: SerDes for PrivateKey"]}
{"id": "C17", "title": "Private-key import accepts exactly the consistent keys", "statement": "Importing a private-key byte string succeeds if and only if its last quarter equals the root FIPS 205 key generation computes from its first (SK.seed) and third (PK.seed) quarters; otherwise it returns the error \"Corrupted key\".", "quantifier": "each of the twelve SLH-DSA parameter sets, all byte strings of the private-key size", "why_tests_cant": "The validation must reject every inconsistent root and accept every consistent one; tests only import good keys.", "anchors": ["src/lib.rs: PrivateKey::try_from_bytes"]}
{"id": "C18", "title": "Imported private keys are usable", "statement": "Every private key accepted by import yields, for every message and context, signatures that verify under the public key returned by get_public_key.", "quantifier": "each of the twelve SLH-DSA parameter sets, all accepted private-key byte strings, messages, contexts, modes, generator behaviours", "why_tests_cant": "Quantifies over every byte string the importer accepts, not only generated keys.", "anchors": ["src/lib.rs: PrivateKey::try_from_bytes, get_public_key, try_sign_with_rng, verify"]}
{"id": "C19", "title": "get_public_key returns the matching public key", "statement": "For a generated pair (pk, sk), sk.get_public_key() equals pk; for an imported private key its exported bytes are the second half of the private-key bytes.", "quantifier": "each of the twelve SLH-DSA parameter sets, all keys", "why_tests_cant": "All keys.", "anchors": ["src/lib.rs: get_public_key"]}
{"id": "C20", "title": "Signature encoding is a bijection", "statement": "Decoding is the inverse of encoding in both directions: every byte string of the signature length decodes to exactly one structured signature, which re-encodes to the same bytes, so no two signature strings decode alike and every component lands at the offset FIPS 205 figure 17 gives.", "quantifier": "each of the twelve SLH-DSA parameter sets, all signature byte strings and all structured signatures", "why_tests_cant": "Every byte at every offset of up to 49,856 bytes.", "anchors": ["src/helpers.rs: serialize, deserialize"]}
{"id": "C21", "title": "Contexts longer than 255 bytes are refused, shorter ones never are", "statement": "Signing (pure or pre-hash) with a context of more than 255 bytes returns the context error without consulting the random generator, verification with such a context returns false, and no context of at most 255 bytes causes an error.", "quantifier": "each of the twelve SLH-DSA parameter sets, all contexts of any length, all keys, messages, signatures, generators", "why_tests_cant": "Boundary plus all longer lengths (a length byte that wraps would accept 256).", "anchors": ["src/lib.rs: try_sign_with_rng, try_hash_sign_with_rng, verify, hash_verify"]}
{"id": "C22", "title": "Message framing is injective for pure signatures", "statement": "Two pure-mode requests hand the same byte string to the message hash only if both their contexts and their messages are equal.", "quantifier": "all pairs of (context up to 255 bytes, message)", "why_tests_cant": "Pairs of inputs of unbounded length.", "anchors": ["src/lib.rs: mp construction in try_sign_with_rng and verify"]}
{"id": "C23", "title": "Pure and pre-hash modes never share a framed message", "statement": "No pure-mode request and pre-hash request (any contexts, messages and pre-hash function) hand the same byte string to the message hash, so a signature made in one mode is never about the same framed message as one made in the other.", "quantifier": "all pairs of pure and pre-hash requests", "why_tests_cant": "Pairs of inputs of unbounded length.", "anchors": ["src/lib.rs: mp construction"]}
{"id": "C24", "title": "Message framing is injective for pre-hash signatures", "statement": "Two pre-hash requests hand the same byte string to the message hash only if their contexts, their pre-hash functions and the pre-hash digests of their messages are equal.", "quantifier": "all pairs of (context up to 255 bytes, pre-hash function, message)", "why_tests_cant": "Pairs of inputs of unbounded length; digests of two sizes and OIDs must not be confusable.", "anchors": ["src/lib.rs: mp construction", "src/hashers.rs: hash_message"]}
{"id": "C25", "title": "Deterministic signing ignores the random generator", "statement": "With hedged = false, signing makes no call to the random generator, leaves its state unchanged and returns a signature that depends only on key, message and context (and pre-hash function), even with a generator that always fails.", "quantifier": "each of the twelve SLH-DSA parameter sets, all keys, messages, contexts, generators", "why_tests_cant": "All generator behaviours.", "anchors": ["src/slh.rs: slh_sign_with_rng", "src/lib.rs: _test_only_raw_sign"]}
{"id": "C26", "title": "Hedged signing draws exactly once and fails closed", "statement": "With hedged = true and an acceptable context, signing makes exactly one request of n bytes to the generator; if it fails an error is returned and no signature; if it succeeds the signature is the one FIPS 205 defines for those n bytes.", "quantifier": "each of the twelve SLH-DSA parameter sets, all keys, messages, contexts, generator states and failure points", "why_tests_cant": "All generator behaviours and failure points.", "anchors": ["src/slh.rs: slh_sign_with_rng", "src/lib.rs: _test_only_raw_sign"]}
{"id": "C27", "title": "Key generation draws three n-byte strings in order and fails closed", "statement": "try_keygen_with_rng requests exactly SK.seed, SK.prf and PK.seed, n bytes each, in that order; the first failing request ends the call with an error, without further requests and without a key.", "quantifier": "each of the twelve SLH-DSA parameter sets, all generator states and failure points", "why_tests_cant": "All failure points of all generators.", "anchors": ["src/slh.rs: slh_keygen_with_rng"]}
{"id": "C28", "title": "Seeded key generation equals key generation from those bytes", "statement": "keygen_with_seeds with n-byte seeds returns exactly the key pair that try_keygen_with_rng returns for a generator that outputs those three seeds, and never panics; with seeds of another size it panics.", "quantifier": "each of the twelve SLH-DSA parameter sets, all seeds of any size", "why_tests_cant": "All seeds, and every wrong size.", "anchors": ["src/traits.rs: keygen_with_seeds, DummyRng"]}
{"id": "C29", "title": "Any history of API calls is consistent", "statement": "In every finite sequence of key generations, signings, exports/imports and verifications that share one random generator, every signature issued verifies under the key pair that issued it, and the number of bytes drawn from the generator is exactly n for each hedged signature that was attempted with an acceptable context plus up to 3n per key generation.", "quantifier": "each of the twelve SLH-DSA parameter sets, all finite call sequences, all generators", "why_tests_cant": "Unbounded histories.", "anchors": ["src/lib.rs", "src/slh.rs", "src/traits.rs"]}
{"id": "C30", "title": "Key generation leaks nothing about the seeds through control flow or memory addresses", "statement": "The sequence of branches taken, loop counts, array indices and hash invocations (with their addresses and input lengths) of key generation is the same for all seeds of a parameter set, and does not depend on any output of a hash function.", "quantifier": "each of the twelve SLH-DSA parameter sets, all pairs of seeds", "why_tests_cant": "Timing tests are statistical and sample two keys; the claim compares all pairs.", "anchors": ["src/slh.rs: slh_keygen_internal", "src/xmss.rs: xmss_node", "src/wots.rs: wots_pkgen, chain"]}
{"id": "C31", "title": "Signing leaks only public information through control flow or memory addresses", "statement": "The branches, loop counts, array indices and hash invocations (addresses and lengths) of a successful signing run are a function of public data: the parameter set, the lengths of message and context, the hedged flag, and the values any verifier recomputes from public key, message and signature (the message digest and the value signed in each layer). Two runs that agree on these leak the same, whatever their keys, messages, randomness and hash functions; in particular two runs with the same public key, message and signature.", "quantifier": "each of the twelve SLH-DSA parameter sets, all pairs of private keys and randomness", "why_tests_cant": "Statistical timing tests cannot compare all pairs of secrets.", "anchors": ["src/slh.rs: slh_sign_internal", "src/fors.rs: fors_sign", "src/hypertree.rs: ht_sign", "src/wots.rs: wots_sign"]}
{"id": "C32", "title": "The signer never reuses a hash address for two different inputs", "statement": "Across key generation and any number of signatures of any messages under one key pair, any two invocations of the address-taking hash functions (PRF, F, H, T) that use the same address are invocations of the same function on the same input.", "quantifier": "each of the twelve SLH-DSA parameter sets, all pairs of hash invocations in all signing histories of one key", "why_tests_cant": "Security of the scheme rests on this for all of the up to 2^68 leaves; tests see a few signatures.", "anchors": ["src/fors.rs", "src/xmss.rs", "src/wots.rs", "src/hypertree.rs", "src/helpers.rs: impl Adrs"]}
{"id": "C33", "title": "Compressed addresses stay unambiguous", "statement": "The 22-byte address encoding used with SHA-2 distinguishes any two addresses that key generation, signing or verification can use, exactly as the 32-byte encoding does.", "quantifier": "all addresses reachable in key generation, signing and verification of the SHA-2 parameter sets", "why_tests_cant": "All pairs of reachable addresses.", "anchors": ["src/helpers.rs: to_22_bytes, to_32_bytes"]}
{"id": "C34", "title": "One-time signature checksums prevent digit domination", "statement": "For any two different n-byte values signed by a WOTS+ key, the base-16 digit strings (with checksum) the signer walks are incomparable: each has at least one digit strictly smaller than the other's, so one signature never yields another by only advancing chains.", "quantifier": "all pairs of distinct n-byte strings, n in {16, 24, 32}", "why_tests_cant": "All pairs of n-byte strings.", "anchors": ["src/wots.rs: wots_sign, wots_pk_from_sig", "src/helpers.rs: base_2b, to_byte"]}
{"id": "C35", "title": "An accepted signature is the genuine one or breaks a hash function", "statement": "If any verification function accepts a signature under the public key of a key pair, take the owner's signature of the same (framed) message with the same randomizer: it exists, verifies, and equals every signature the library issues for that message with that randomizer. Then the accepted signature is that signature bit for bit, or the verifier's and the owner's hash invocations contain a second preimage (same function, seed and address, different inputs of the same lengths, same value), or some block of the accepted signature lies one or more steps earlier on the same WOTS+ hash chain than the owner's block, at the position where the verifier started.", "quantifier": "each of the twelve SLH-DSA parameter sets, all key pairs, all messages, contexts and pre-hash functions, all signature byte strings", "why_tests_cant": "Universally quantified over all forgeries.", "anchors": ["src/slh.rs: slh_verify_internal", "src/hypertree.rs: ht_verify", "src/fors.rs: fors_pk_from_sig", "src/xmss.rs: xmss_pk_from_sig", "src/wots.rs: wots_pk_from_sig"]}
{"id": "C36", "title": "Base-2^b digit extraction is positional", "statement": "The digit extraction used for WOTS+ and FORS returns, for every byte string and digit width used, the big-endian base-2^b digits of its leading bits; no bits are lost to 32-bit wraparound however long the string is.", "quantifier": "all byte strings of sufficient length, all digit widths 1..15, all digit counts", "why_tests_cant": "Accumulator overflow only matters on long inputs with particular widths.", "anchors": ["src/helpers.rs: base_2b"]}
{"id": "C37", "title": "Tree and leaf indices come from the right digest bits and are in range", "statement": "For every message digest, the hypertree leaf used by signing and verification is below 2^h' and the tree index below 2^(h-h'), computed as FIPS 205 prescribes (including the set with a full 64-bit tree index), and no in-range index causes the internal conversion errors or a false rejection.", "quantifier": "each of the twelve SLH-DSA parameter sets, all digests", "why_tests_cant": "All digests; the masking with a shift of 64 - 64 = 0 occurs in one family only.", "anchors": ["src/slh.rs: slh_sign_internal, slh_verify_internal", "src/helpers.rs: to_int"]}
{"id": "C38", "title": "Signing fails only for a long context or a failing generator", "statement": "The only error results of the signing functions are the context-length error and the generator error; the internal error paths are unreachable.", "quantifier": "each of the twelve SLH-DSA parameter sets, all keys, messages, contexts, generators", "why_tests_cant": "Unreachability is universal.", "anchors": ["src/hypertree.rs: ht_sign (oversized idx leaf)", "src/fors.rs: fors_node", "src/lib.rs"]}
{"id": "C39", "title": "Outputs always have the documented sizes", "statement": "Every signature has exactly SIG_LEN bytes, every exported public key PK_LEN and every exported private key SK_LEN = 2*PK_LEN bytes, with no padding left unwritten by serialization.", "quantifier": "each of the twelve SLH-DSA parameter sets, all keys and messages", "why_tests_cant": "All inputs.", "anchors": ["src/helpers.rs: serialize", "src/lib.rs: into_bytes"]}
{"id": "C40", "title": "External interfaces are the raw interface on framed messages", "statement": "try_sign on (ctx, m) returns the same signature as the raw interface on the bytes 0||len(ctx)||ctx||m with the same randomness, and the pre-hash interface the same as raw on 1||len(ctx)||ctx||OID||digest; likewise for verification.", "quantifier": "each of the twelve SLH-DSA parameter sets, all keys, messages, contexts up to 255 bytes, pre-hash functions, randomness", "why_tests_cant": "The message is hashed piecewise on one path and as one piece on the other; equality for all splits.", "anchors": ["src/lib.rs: _test_only_raw_sign, _test_only_raw_verify", "src/hashers.rs"]}
{"id": "C41", "title": "Verification work is bounded", "statement": "Verification performs at most k(a+1) + 2 + d(15*len + h' + 1) keyed-hash invocations whatever the input, so no hostile signature makes it run longer.", "quantifier": "each of the twelve SLH-DSA parameter sets, all inputs", "why_tests_cant": "Bound over all hostile inputs.", "anchors": ["src/slh.rs: slh_verify_internal"]}
{"id": "C42", "title": "C interface: key generation contract", "statement": "The C key-generation function returns 1 and writes nothing if either output pointer is null, 4 and writes nothing if the system generator fails, and otherwise 0 with a matching key pair written to both outputs.", "quantifier": "all pointer combinations, all generator behaviours", "why_tests_cant": "All combinations and failure points.", "anchors": ["ffi/src/lib.rs: slh_dsa_sha2_128f_keygen"]}
{"id": "C43", "title": "C interface: sign and verify contract", "statement": "With valid buffers, the C sign function returns 0 and writes a signature which the C verify function accepts (returns 0) for the same message and matching public key; it returns 1 for null pointers, 3 for an inconsistent private key, 5 if the generator fails, leaving the output untouched; C verify returns 0 exactly when the pure verification with empty context accepts, else 6.", "quantifier": "all messages, keys, signatures, pointers, generator behaviours", "why_tests_cant": "All inputs and failure points.", "anchors": ["ffi/src/lib.rs: slh_dsa_sha2_128f_sign, slh_dsa_sha2_128f_verify"]}
{"id": "C44", "title": "C interface: null message pointers are reported, not dereferenced", "statement": "Both the C sign and the C verify function return the null-pointer error when the message pointer is null.", "quantifier": "all calls with a null message pointer", "why_tests_cant": "Undefined behaviour is not observable by a passing test.", "anchors": ["ffi/src/lib.rs: slh_dsa_sha2_128f_sign, slh_dsa_sha2_128f_verify"]}
{"id": "C45", "title": "Secret key material is erased on drop", "statement": "When a private key value is dropped, every byte of its four fields is overwritten with zero and no other memory is touched; after an explicit zeroize() the value exports as all-zero bytes whatever the key was. The same holds for public keys on drop.", "quantifier": "all private keys", "why_tests_cant": "Erasure after end of life is not observable in safe test code.", "anchors": ["src/types.rs: derive(Zeroize, ZeroizeOnDrop)", "src/lib.rs: PrivateKey, PublicKey"]}
{"id": "C46", "title": "Signatures bind to the public key through the message hash", "statement": "The message digest used by signing and by verification is computed over the randomizer, both halves of the public key and the whole framed message; two runs hand the same string to that hash only if randomizer, public key and framed message all agree.", "quantifier": "each of the twelve SLH-DSA parameter sets, all pairs of signing/verification runs", "why_tests_cant": "Pairs of inputs of unbounded length.", "anchors": ["src/slh.rs: slh_sign_internal, slh_verify_internal", "src/hashers.rs: h_msg"]}
{"id": "C47", "title": "One-time keys are used once", "statement": "In all signatures one private key ever issues, whatever the messages, two signatures that pass through the same one-time key (same layer, same tree, same leaf) carry identical bytes for that layer: a WOTS+ key never signs two different values.", "quantifier": "each of the twelve SLH-DSA parameter sets, all pairs of signatures of one private key, all layers", "why_tests_cant": "Two digests rarely meet in the same leaf, so tests practically never compare two uses of one WOTS+ key, yet one violation breaks the scheme.", "anchors": ["src/hypertree.rs: ht_sign", "src/slh.rs: slh_sign_internal", "src/xmss.rs: xmss_sign"]}
{"id": "C48", "title": "Private-key import does not protect SK.prf", "statement": "Whether a private-key byte string is accepted does not depend on its second quarter: any change confined to SK.prf is accepted (a documented limit of the validation), and every signature from such a key still verifies.", "quantifier": "each of the twelve SLH-DSA parameter sets, all private-key byte strings, all replacements of the second quarter", "why_tests_cant": "All values of the second quarter.", "anchors": ["src/lib.rs: PrivateKey::try_from_bytes"]}
{"id": "C49", "title": "Results do not depend on the build", "statement": "Key generation, signing and verification return the same values (and errors) on every build: with or without overflow checks, with or without debug assertions, for any pointer width of at least 16 bits, and for any size of the stack that holds 14 nested activations of the tree functions.", "quantifier": "each of the twelve SLH-DSA parameter sets, all pairs of builds, all keys, messages, contexts and generators", "why_tests_cant": "A test run exercises one build; arithmetic that wraps or truncates on another target is invisible to it.", "anchors": ["src/helpers.rs: to_int, to_byte, base_2b", "src/slh.rs: slh_sign_internal, slh_verify_internal", "src/lib.rs: all API functions"]}
{"id": "C50", "title": "Key generation and signing work is bounded", "statement": "Key generation and private-key import perform exactly 2^h'(16*len+2)-1 keyed-hash invocations whatever the seeds, and no signature takes more than 2 + k*3*2^a + k(a+1)+1 + d((2^h'-1)(16*len+2) + 31*len + h'+1) of them.", "quantifier": "each of the twelve SLH-DSA parameter sets, all seeds, keys, messages and generators", "why_tests_cant": "The count must hold for every seed, key and message.", "anchors": ["src/xmss.rs: xmss_node, xmss_sign", "src/slh.rs: slh_keygen_internal, slh_sign_internal", "src/lib.rs: PrivateKey::try_from_bytes"]}
{"id": "C51", "title": "Importing a private key leaks exactly whether it is valid and where its root is wrong; exporting leaks nothing", "statement": "Two private-key encodings of the right length that are both accepted take the same branches, array indices, slices and hash invocations (addresses and lengths), and so do two that are rejected because the stored root first differs from the right one at the same byte (an observer of the comparison sees where it stops); two imports whose roots go wrong at different bytes never do, so an observer learns that position and nothing else. Exports of any two private keys always take the same branches, indices and slices. The two imports may use different hash functions.", "quantifier": "each of the twelve SLH-DSA parameter sets, all pairs of encodings, all pairs of private keys", "why_tests_cant": "Timing tests sample pairs of keys; the claim compares all pairs.", "anchors": ["src/lib.rs: PrivateKey try_from_bytes, into_bytes", "src/slh.rs: slh_keygen_internal"]}
{"id": "C52", "title": "Seeded key generation leaves no copy of the secret seeds", "statement": "After key generation from caller-supplied seeds has returned and the private key has been dropped, the library's own copies of SK.seed and SK.prf have been overwritten.", "quantifier": "all parameter sets, all seeds, all placements of the key and the generator in memory", "why_tests_cant": "Memory after the end of life is not observable in safe test code.", "anchors": ["src/traits.rs: KeyGen::keygen_with_seeds, DummyRng"]}
{"id": "C53", "title": "Python wrapper: keys, sign and verify contract", "statement": "For messages shorter than 2^31 bytes the Python classes do exactly what FIPS 205 says for SLH-DSA-SHA2-128f with the empty context: keygen returns the FIPS 205 key pair or raises when the system generator fails; sign raises for an inconsistent key or a failing generator and otherwise returns a hedged FIPS 205 signature that verify accepts; verify raises only for a signature of the wrong length and otherwise returns the FIPS 205 verdict. No call ends the process.", "quantifier": "all messages shorter than 2^31 bytes, all keys and signatures, all generators", "why_tests_cant": "Infinitely many inputs; the error paths need a failing system generator.", "anchors": ["ffi/fips205.py: PublicKey, PrivateKey, _Slh_Dsa", "ffi/src/lib.rs"]}
{"id": "C54", "title": "Python wrapper: a signature covers the whole message", "statement": "A signature made or accepted by the Python classes for a message is not accepted for a longer message of which it is a prefix, whatever the length.", "quantifier": "all messages and extensions", "why_tests_cant": "Fails only for messages of 4 GiB and more, which no test builds.", "anchors": ["ffi/fips205.py: PublicKey.verify, PrivateKey.sign", "ffi/fips205.h: int message_length"]}
{"id": "C55", "title": "A forgery breaks a hash function", "statement": "Let the owner of a key have issued any list of signatures, in any mode. If any verification function accepts a (framed message, signature) pair under the public key, then the pair was issued, or the verifier's and owner's hash invocations contain a second preimage, or a signature block lies strictly earlier on a WOTS+ hash chain than the single value that issued signatures show for that chain, or the signature contains a FORS secret value that no issued signature reveals, or its message digest - for a pair of randomizer and message the owner never used - selects only FORS leaves that digests of issued signatures select in the same trees.", "quantifier": "all key pairs, all finite histories of issued signatures, all accepted signatures, all hash functions", "why_tests_cant": "Ranges over all histories and all forgeries; forgeries cannot be produced by a test.", "anchors": ["src/slh.rs: slh_sign_internal, slh_verify_internal", "src/fors.rs", "src/wots.rs", "src/lib.rs: verify, hash_verify, try_sign_with_rng, try_hash_sign_with_rng"]}
{"id": "C56", "title": "With the standard hash functions the crate is SLH-DSA", "statement": "When the external hash crates compute SHA-256, SHA-512 (FIPS 180-4) and SHAKE128, SHAKE256 (FIPS 202), key generation, pure and pre-hash signing, and pure and pre-hash verification compute exactly the functions FIPS 205 defines over those standards, for every input and every state of the random generator.", "quantifier": "all parameter sets, keys, messages, contexts, signatures, pre-hash functions, random generators and build targets", "why_tests_cant": "Test vectors cover a few dozen inputs of an infinite domain.", "anchors": ["src/lib.rs", "src/slh.rs", "src/hashers.rs"]}
{"id": "C57", "title": "Every selection of cargo features is consistent", "statement": "For every subset of the crate's features the code that is compiled only uses names that are compiled; exactly the selected parameter-set modules are offered; the functions that use the system's generator are offered exactly when default-rng is selected; and no internal function is left unused (which the crate denies) unless no parameter set at all is selected.", "quantifier": "all 2^13 selections of features", "why_tests_cant": "A test run builds one selection; there are 8192.", "anchors": ["Cargo.toml: [features]", "src/lib.rs: cfg attributes of the parameter-set modules, try_keygen", "src/hashers.rs: cfg attributes of shake, sha2_cat_1, sha2_cat_3_5", "src/helpers.rs: to_32_bytes, to_22_bytes", "src/traits.rs: try_keygen, try_sign, try_hash_sign"]}
{"id": "C58", "title": "No input makes the fuzz targets crash", "statement": "Whatever input the fuzzer supplies, both fuzz targets return normally as long as the system's generator does not itself panic; the verification verdicts fuzz_verify discards for untampered signatures are always accepting; and the tampered-message check is reached exactly when the input has 255 bytes or more (shorter inputs leave the message empty).", "quantifier": "all fuzzer inputs, all system generators that do not panic (failing ones included), all build targets and hash functions", "why_tests_cant": "A fuzzer samples inputs; the claim is about all of them. The targets discard the verdicts, so fuzzing cannot notice a wrong one.", "anchors": ["fuzz/fuzz_targets/fuzz_sign.rs", "fuzz/fuzz_targets/fuzz_verify.rs"]}
{"id": "C59", "title": "Concurrent calls with a shared key and generator behave like sequential ones", "statement": "When several threads call the library at once, sharing keys and the system's generator, then whatever the interleaving of their generator requests: every signature returned is the FIPS 205 signature for the randomness that very call received, and verifies; every key pair generated is the FIPS 205 key pair for the three seeds that call received; every verification decides as FIPS 205 and requests nothing. If no call generates keys they are linearizable: there is an order of the calls, respecting real time, such that executing them one after the other yields the same results and the same generator state. Key generation makes three requests, and two key generations can interleave so that no order of them explains the results.", "quantifier": "all numbers of threads, all calls, all interleavings, all generators (failing ones included), all hash functions and build targets", "why_tests_cant": "A test runs a few schedules of very many.", "anchors": ["src/lib.rs: try_sign_with_rng, try_hash_sign_with_rng, try_keygen_with_rng", "src/traits.rs: try_sign, try_hash_sign, try_keygen", "src/slh.rs: slh_keygen_with_rng, slh_sign_with_rng"]}
{"id": "C60", "title": "C programs: any sequence of library calls on the program's own memory", "statement": "A C program may mix its own stores with any number of calls of the three C functions, on structs anywhere in its memory (separate objects, lengths within the buffers, null pointers allowed where they are checked). Then every call returns one of its documented codes (as long as the system's generator does not panic); keygen changes only the bytes of its two output structs and sign only those of its signature struct, and only when they return 0, and verify changes nothing; a signature once written by a successful sign is accepted by verify at any later time, wherever copies of it, of the message and of the public key matching the private key are then in memory; and any copy of a generated private key signs whenever the generator delivers.", "quantifier": "all C programs as sequences of stores and calls, all memory contents and addresses, all system generators, all build targets and hash functions", "why_tests_cant": "Ranges over all call sequences, all layouts of the structs in memory and all generator failures; the one C test makes eight calls on three local variables.", "anchors": ["ffi/src/lib.rs: slh_dsa_sha2_128f_keygen, slh_dsa_sha2_128f_sign, slh_dsa_sha2_128f_verify", "ffi/fips205.h"]}
{"id": "C61", "title": "A signature is bound to one message, also under a public key its owner chose", "statement": "If one signature is accepted under one public key - any public key, made in any way - for two framed messages, then the two message digests select the same hypertree leaf and the same leaf of every FORS tree, or the two verification runs contain a collision of one of the tree or chain hash functions (same function and seed, inputs of the same shape that differ in address bytes or message bytes, same value), or a block of the signature returns to its own value after one or more steps along its hash chain. So a signer cannot later claim to have signed another message without one of these.", "quantifier": "all public keys (not only generated ones), all signatures, all pairs of messages in all three modes, all hash functions and build targets", "why_tests_cant": "Ranges over all public keys including maliciously made ones and over all pairs of messages; a test would have to find collisions.", "anchors": ["src/slh.rs: slh_verify_internal", "src/hypertree.rs: ht_verify", "src/xmss.rs: xmss_pk_from_sig", "src/wots.rs: wots_pk_from_sig", "src/fors.rs: fors_pk_from_sig", "src/lib.rs: verify, hash_verify"]}
{"id": "C62", "title": "Accepted signatures cannot be altered, and one-time keys vouch for one value", "statement": "Take any public key, made in any way, and two signatures accepted under it. If they are for the same framed message and have the same randomizer, they are equal byte for byte; if their paths use the same one-time key in some layer, then in that layer and all layers above they consist of the same bytes and sign the same values - unless the two verification runs contain a second preimage (same function, seed and address, different inputs of the same lengths, same value), or a block of the first signature lies one or more steps before the block of the second on the same hash chain. So nobody, not even the key's owner, can change an accepted signature beyond its randomizer without one of these.", "quantifier": "all public keys, all pairs of messages and signatures accepted in any of the three modes, all hash functions and build targets", "why_tests_cant": "Ranges over all alterations of all signatures under all public keys; tests flip a few bits.", "anchors": ["src/slh.rs: slh_verify_internal", "src/hypertree.rs: ht_verify", "src/xmss.rs: xmss_pk_from_sig", "src/wots.rs: wots_pk_from_sig", "src/fors.rs: fors_pk_from_sig", "src/lib.rs: verify, hash_verify"]}
{"id": "C63", "title": "Message digests select keys and leaves uniformly", "statement": "The message digest alone decides which few-time key (tree and key pair) signs and which leaf of each of its k FORS trees is opened; signing publishes exactly the secret values of those leaves and verification recomputes exactly those leaves. The choice is unbiased: every possible choice of a key and of one leaf per tree is selected by the same number of digests, namely 2^(8m - k*a - h) of the 2^(8m).", "quantifier": "all parameter sets, all digests, all choices of key and leaves, all messages, signatures and keys, all hash functions and build targets", "why_tests_cant": "A biased or overlapping reading of the digest bits produces signatures that still verify; no test vector shows a bias over 2^240 digests.", "anchors": ["src/slh.rs: slh_sign_internal, slh_verify_internal", "src/helpers.rs: base_2b, to_int", "src/fors.rs: fors_sign, fors_pk_from_sig"]}
{"id": "C64", "title": "A forgery needs a digest that the signing history endangers", "statement": "After any history of signatures issued with a key there is a set of digests, fixed by the history alone, such that every signature that verification accepts was issued, or exhibits a second preimage of a hash function, or shows a chain value or a secret value that no issued signature reveals (as in C55), or signs a new pair of message and randomizer whose digest lies in the set. The set has at most 2^(8m - k*a - h) times the sum over the issued signatures of (number of uses of the same few-time key)^(k-1) elements; in particular, if no few-time key was used more than g times in q signatures, it is at most a fraction q * g^(k-1) / 2^(k*a + h) of all digests.", "quantifier": "all keys, all histories of any length, all candidate messages and signatures, all parameter sets, hash functions and build targets", "why_tests_cant": "Ranges over all histories and all forgeries and counts over all digests.", "anchors": ["src/slh.rs: slh_sign_internal, slh_verify_internal", "src/helpers.rs: base_2b", "src/fors.rs: fors_sign, fors_pk_from_sig", "src/lib.rs: verify, hash_verify, try_sign, try_hash_sign"]}
{"id": "C65", "title": "The secret seeds are used only through the pseudorandom functions", "statement": "Public keys and signatures are a function of the answers of PRF (under the secret seed) and PRF_msg (under the secret PRF key): someone who does not know the two secrets, but is given the answers, computes the same public key and the same signatures, for the same message, context and randomness. Only addresses of the types WOTS_PRF and FORS_PRF are asked for. With arbitrary answers of n bytes in place of the pseudorandom functions the same computation still gives signatures that verification accepts.", "quantifier": "all private keys, messages, contexts, pre-hash functions, random generators, both modes; all oracles that replace the pseudorandom functions; all parameter sets, hash functions and build targets", "why_tests_cant": "It is a statement about all the ways a secret could reach an output, and about arbitrary replacements of the pseudorandom functions (the first step of any security proof).", "anchors": ["src/wots.rs: wots_pkgen, wots_sign", "src/fors.rs: fors_sk_gen", "src/slh.rs: slh_keygen_internal, slh_sign_internal", "src/lib.rs: try_keygen_with_rng, try_sign_with_rng, try_hash_sign_with_rng"]}
{"id": "C66", "title": "What the timing harness measures", "statement": "The timing harness never stops early: for any number of measurements it reports one per iteration, alternately of class left and right, and each measures two identical rounds of key generation and hedged signing (of the eight bytes 0 to 7 with a single zero byte as context), all of which succeed and yield a signature that verifies. The key it exercises always has the same 16 bytes as secret seed, signing seed and public seed: all 0xAA on the left, all 0x55 on the right. The two classes leak the same through control flow and memory addresses (branches, loops, indices, hash addresses) if the values any verifier recomputes from the two signatures agree; conversely equal leakage forces both signatures to use the same hypertree leaf, and for some hash functions the leakage does differ. So a timing difference reported by the harness does not by itself show that a secret leaks: its classes also differ in public values.", "quantifier": "all numbers of iterations, all 16-byte fill values, all hash functions and build targets", "why_tests_cant": "The harness is itself a statistical test; what a positive or negative result means is not settled by running it.", "anchors": ["dudect/src/main.rs: keygen_and_sign, TestRng", "src/lib.rs: try_keygen_with_rng, try_sign_with_rng"]}
{"id": "C67", "title": "What breaks in a forgery is SHA-2 or SHAKE itself", "statement": "The value of each tree and chain hash function the library uses is the first n bytes of SHA-256, SHA-512 or SHAKE256 of one string: the public seed (for SHA-2 filled up to one block), the address and the message. Hence every second preimage and every collision that C35, C55, C61, C62 and C64 speak of gives two different strings of the same length and with the same beginning, one hashed in each of the two runs, on which the same standard function agrees in its first n bytes.", "quantifier": "all parameter sets, all pairs of runs, all seeds, addresses and inputs, all hash functions (in particular the standard ones) and build targets", "why_tests_cant": "Ranges over all runs and all inputs; that distinct inputs always reach the hash function as distinct strings is an injectivity statement.", "anchors": ["src/hashers.rs: shake, sha2_cat_1, sha2_cat_3_5 (f, h, t_l)", "src/helpers.rs: to_32_bytes, to_22_bytes"]}
{"id": "C68", "title": "C threads without data races do not disturb each other", "statement": "When several threads of a C program call the library at the same time, on structs in shared memory and with requests to the system generator interleaved in any way, and no output struct of a call is accessed by another call running at the same time (keys, signatures and messages that are only read may be shared), then: each call returns the code and writes the bytes that it would return and write alone, on the memory it finds when it begins and with the random bytes it received; and the whole execution ends with the codes and the memory contents of performing the calls one after the other in an order that respects real time. This holds although a call may read its inputs at any moment while it runs, and write its outputs at any moment, in any order and repeatedly.", "quantifier": "all numbers of threads and calls, all interleavings of byte accesses and generator requests, all memories, all hash functions and build targets", "why_tests_cant": "Interleavings cannot be enumerated; the absence of interference must hold for every schedule.", "anchors": ["ffi/src/lib.rs: slh_dsa_sha2_128f_keygen, slh_dsa_sha2_128f_sign, slh_dsa_sha2_128f_verify", "ffi/fips205.h"]}
{"id": "C69", "title": "The root in a private key commits to its seeds and its parameter set", "statement": "If importing private-key bytes succeeds, damage outside the second quarter (SK.prf) and a mix-up of parameter sets do not go unnoticed: the same SK.seed and PK.seed have only one PK.root under a set; and two accepted private-key strings with the same PK.root, under sets of the same hash family and security level (the s and f variants), have the same SK.seed and the same PK.seed and belong to the same set, unless the two imports hashed two different strings of the same length on which the same one of SHA-256, SHA-512 and SHAKE256 agrees in its first n bytes. In particular a private key accepted under both the s and the f set exhibits such a collision.", "quantifier": "all pairs of private-key byte strings, all pairs of parameter sets of the same hash family and level, all hash functions and build targets", "why_tests_cant": "Ranges over all damaged keys and both imports; a test can only try some damaged keys.", "anchors": ["src/lib.rs: PrivateKey::try_from_bytes", "src/xmss.rs: xmss_node", "src/wots.rs: wots_pkgen", "src/slh.rs: slh_keygen_internal"]}
{"id": "C70", "title": "The cost of signing and verifying is known exactly", "statement": "The number of keyed hash computations of a verification is a function of values anyone recomputes from public key, message and signature: the digest, k FORS paths, and in every layer one path and the steps that the base-16 digits of the value signed there leave up to 15. The number of a successful signing is exact too, and apart from a constant of the parameter set it is the digit sum of the single value signed in the top layer: it depends on message, context, key and randomness through nothing else, and two signatures of one set differ by at most 15 computations per chain of one one-time key.", "quantifier": "all public keys, messages, contexts, pre-hash functions, signature byte strings of the right size, all private keys and successful signings, all random generators, parameter sets, hash functions and build targets", "why_tests_cant": "An exact count for every input; measuring some inputs gives neither the formula nor the maximum.", "anchors": ["src/slh.rs: slh_sign_internal, slh_verify_internal", "src/hypertree.rs: ht_sign, ht_verify", "src/xmss.rs: xmss_sign, xmss_pk_from_sig", "src/wots.rs: wots_sign, wots_pk_from_sig, chain", "src/fors.rs: fors_sign, fors_pk_from_sig"]}
{"id": "C71", "title": "Python programs keep their objects and get what they asked for", "statement": "A Python program that makes bytes objects, builds key objects from any objects, and calls keygen, sign, verify, bytes() and repr() any number of times, catching exceptions, observes the following at every point. No bytes object the program already holds ever changes, although the wrapper lets C code write into bytes objects. Every call comes back with a value or an exception (the process does not abort), provided messages are shorter than 2 GiB and are not the very object a key was made from. Every signature handed out so far verifies under the public half of its key, and every key pair handed out so far can sign. Constructors accept exactly objects of the right length, keygen, sign and verify are those of FIPS 205 on the contents of the objects, and a message or signature that is not a bytes object raises an exception without touching the generator.", "quantifier": "all finite histories of calls, all heaps, all argument objects, all generator behaviours, all conversions of text by the platform, all hash functions and build targets", "why_tests_cant": "Ranges over all call sequences and all aliasing of objects; immutability must hold at every point of every history.", "anchors": ["ffi/fips205.py: PublicKey, PrivateKey, _Slh_Dsa.keygen", "ffi/src/lib.rs: slh_dsa_sha2_128f_keygen, slh_dsa_sha2_128f_sign, slh_dsa_sha2_128f_verify"]}
{"id": "C72", "title": "Every call on a Python key object is defined and uses the key the program supplied", "statement": "Whatever object a Python program builds a key from and whatever bytes object it passes as message or signature, a call that does not raise is defined by the rules of the language underneath and uses the key bytes the program supplied. (False of the code. bytes(pk) returns the very object inside pk, so pk.verify(bytes(pk), sig) passes one buffer both as the message and as an exclusive reference, which Rust's aliasing rules leave undefined; likewise sk.sign(bytes(sk)). And a public key built from a text of 32 characters is accepted, cannot be turned into bytes, and verifies against the wide-character encoding of the text.)", "quantifier": "all heaps, all key objects, all texts of 32 characters, all signatures of the right length, all platforms", "why_tests_cant": "The claim ranges over all objects and all sharing between arguments; the tests use fresh bytes objects only.", "anchors": ["ffi/fips205.py: PublicKey.__init__, __bytes__, verify, PrivateKey.sign", "ffi/src/lib.rs: slh_dsa_sha2_128f_sign, slh_dsa_sha2_128f_verify"]}
{"id": "C73", "title": "The printed form of a Python private key does not reveal the key", "statement": "repr() of a private key object, which ends up in logs, tracebacks and debuggers, does not determine the secret key. (False of the code: the whole key, including SK.seed, is printed in hexadecimal and can be read back from the text.)", "quantifier": "all private keys", "why_tests_cant": "Non-disclosure is a statement about all keys: that no function of the text recovers the key.", "anchors": ["ffi/fips205.py: PrivateKey.__repr__"]}
{"id": "C74", "title": "The C interface leaks nothing secret through control flow and memory accesses", "statement": "Two calls of the C key-generation function, or of the C signing function with messages of the same length, that are given null pointers in the same places and return the same code, execute the same sequence of branches, loop bounds, array indices, slices, generator requests and hash calls (function, address and input lengths), whatever the keys, messages, random bytes and hash functions, provided that, when both sign successfully, the values that everyone recomputes who verifies the two signatures are the same, when key generation fails, both fail at the same request to the generator, and when both refuse an inconsistent private key, the root stored in it first differs from the right one at the same byte. So a signing call refused because the generator failed reveals only that fact, and one refused because the stored key is inconsistent reveals only that and where its root is wrong.", "quantifier": "all pairs of memories, pointers, keys, messages of equal length, generators and hash functions; all return codes; all build targets", "why_tests_cant": "Secret-independence relates every pair of executions; timing tests compare a few keys statistically.", "anchors": ["ffi/src/lib.rs: slh_dsa_sha2_128f_keygen, slh_dsa_sha2_128f_sign", "src/lib.rs: try_from_bytes, into_bytes, try_sign", "src/slh.rs"]}
{"id": "C75", "title": "The example programs shipped with the crate do what they show", "statement": "The example of the README succeeds for every parameter set whenever the system's generator answers its four requests, returns an error when one of them is refused, and never panics. The C test program, wherever its four local variables lie in memory, exits with code 0 whenever its four requests are answered, unless the signature it made is accepted for the altered message as well, which takes a break of a hash function; it exits with code 1 when a request is refused, and is never undefined and never aborts. Running the Python wrapper as a program prints True, the public key and the private key (sic) of the standard for the bytes drawn, or raises if a request is refused. The unit test passes for every set and every generator that answers, unless a signature is accepted for a key or context it was not made for. The ignored test signs with an empty context and verifies with a non-empty one, so it fails for every generator that answers, unless one signature is accepted for two framed messages.", "quantifier": "all parameter sets, all behaviours of the generators, all placements of the C program's variables, all memories and heaps, all hash functions and build targets", "why_tests_cant": "Running an example once shows one draw of the generator; the claim is about every draw, every refused request and every placement in memory.", "anchors": ["README.md", "src/lib.rs: simple_round_trips", "tests/messages.rs: test_browser_message", "ffi/tests/baseline.c: main", "ffi/fips205.py: __main__"]}
{"id": "C76", "title": "The known-answer tests decide as the standard does", "statement": "The tests that run the NIST vector files pass exactly if the file is labelled for SLH-DSA of FIPS 205 and the kind of test, and every case in a group named after one of the twelve parameter sets is right. A key-generation case is right if its seeds have n bytes and the keys are those of Algorithm 18. A signing case is right if the private key is one of Algorithm 18 and the signature is that of Algorithm 19 for the given n bytes of randomness, or for none in a deterministic group. A verification case is right if its verdict is that of Algorithm 20, where a public key of a wrong size counts as a refusal. Groups with any other name are skipped, right or wrong, and a missing file fails the test. A test with built-in vectors passes exactly if its seeds and randomness have n bytes and the recorded signature is that of Algorithm 19 for the key of Algorithm 18.", "quantifier": "all vector files with fewer than 2^32 cases, all built-in vectors, all parameter sets, hash functions and build targets", "why_tests_cant": "The tests are what the crate's claim of conformance rests on; running them shows nothing about what they would accept for other vectors.", "anchors": ["tests/nist_acvp_vectors/mod.rs: run_keygen_tests, run_signing_tests, run_verification_tests, TestRng", "tests/py_vectors.rs: vector_slh_dsa_*"]}
{"id": "C77", "title": "Python threads do not disturb each other", "statement": "When several threads of a Python program use the wrapper at the same time (ctypes lets C functions of different threads run in parallel), on shared messages, signatures and key objects and with requests to the system generator interleaved in any way, then: every action returns or raises what it would alone, on the objects it finds when it begins and with the random bytes it received; every bytes object keeps its contents from the moment the program holds it, although the wrapper passes bytes objects to C functions as output buffers; and the whole execution ends with the results and the objects of performing the actions one after the other in an order that respects real time. No locking is needed. This holds although a C function may read its inputs and write its outputs byte by byte at any moment while it runs.", "quantifier": "all numbers of threads, all interleavings of their byte writes and generator requests, all shared objects, messages, keys (also unusual ones such as text), generator answers and failures, hash functions and build targets", "why_tests_cant": "The interleavings are unbounded in number and chosen by the scheduler; a race shows up rarely if ever in a test.", "anchors": ["ffi/fips205.py: PublicKey.verify, PrivateKey.sign, _Slh_Dsa.keygen", "ffi/src/lib.rs: slh_dsa_sha2_128f_keygen, slh_dsa_sha2_128f_sign, slh_dsa_sha2_128f_verify"]}
{"id": "C78", "title": "A weak generator can only repeat itself", "statement": "Whatever the random generator does (repeats its output after a restored snapshot, is constant, or is chosen by an attacker), it influences a signature only through one string of n bytes, and only through the first n bytes of the signature, which are PRF_msg (SHAKE256 or HMAC under the secret key part SK.prf) of that string and the framed message. Two signatures of one key with the same first n bytes are of the same message with the same string, and then identical, or exhibit a collision of that keyed function; two signatures of the same message with the same first n bytes are identical. In key generation nothing the generator supplies is lost: the three strings of n bytes are the first three parts of the private key, and two key generations that return the same private key received the same strings.", "quantifier": "all generators and their states, all keys, messages, contexts, pre-hash functions, modes (pure, pre-hash, raw; hedged or not), pairs of signatures, hash functions and build targets", "why_tests_cant": "It speaks about every possible behaviour of the generator and all pairs of signatures; a test sees one generator.", "anchors": ["src/slh.rs: slh_keygen_with_rng, slh_sign_with_rng, slh_sign_internal", "src/lib.rs: try_keygen_with_rng, try_sign_with_rng, try_hash_sign_with_rng", "src/hashers.rs: prf_msg"]}
{"id": "C79", "title": "No two different hash calls hash the same string", "statement": "In everything the library does with any keys of any users (generation, import, signing, verification of arbitrary signatures), under all parameter sets with the same n: whenever SHA-256, SHA-512 or SHAKE256 is applied to the same string in two address-taking hash calls (PRF, F, H, T), these are the same call: same function, same public seed, same address, same inputs. So work spent on attacking one key does not carry over to another with a different public seed. Moreover the address of each call determines which of the functions is used and on how many inputs, which all have n bytes.", "quantifier": "all pairs of requests (also hostile ones), parameter sets with equal n, keys, messages, signatures, generators, hash functions and build targets", "why_tests_cant": "The number of pairs of calls is unbounded; a clash in one address word would show only for particular indices.", "anchors": ["src/hashers.rs: f, h, t_l, t_len, prf", "src/types.rs: Adrs", "src/helpers.rs", "src/wots.rs: chain, wots_pkgen, wots_pk_from_sig", "src/xmss.rs: xmss_node", "src/fors.rs: fors_node, fors_pk_from_sig"]}
{"id": "C80", "title": "A key can sign 2^64 messages", "statement": "For every parameter set and every number q up to 2^64 there is one set of sequences of q digests followed by another digest, the same for all keys, hash functions and messages, that contains at most a fraction 2^-b of all such sequences, with b = 133 (128s), 128 (128f), 193 (192s), 194 (192f), 255 (256s and 256f). Whenever q signatures were issued with a key and verification accepts a signature, then it was issued, or it exhibits a second preimage of a hash function, or a chain value or a secret value that no issued signature reveals (as in C55), or its pair of message and randomizer is new and the digests of the issued signatures followed by its digest lie in that set. So if digests are random, reuse of few-time keys within 2^64 signatures costs no more than the stated security level.", "quantifier": "all parameter sets, all q up to 2^64, all histories of q signatures, keys, messages, accepted signatures, hash functions and build targets", "why_tests_cant": "It counts over all sequences of up to 2^64 digests; no test can sign that often.", "anchors": ["src/slh.rs: slh_sign_internal, slh_verify_internal", "src/fors.rs: fors_sign, fors_pk_from_sig", "src/lib.rs: slh_dsa_* (N, H, D, HP, A, K)", "src/helpers.rs: base_2b"]}
{"id": "C81", "title": "The benchmarks measure successful work", "statement": "However often the benchmark runner iterates each of the 36 measured closures: every measured signing call returns the one deterministic FIPS 205 signature of the message under that set's key, every measured verification accepts (no measured verification is a quick rejection), and every measured key generation returns a key pair unless the system generator refused a request. The program stops early only in its setup, when the generator refuses a request there. Each of the three operations is measured once for each of the twelve parameter sets, under the labels of the published table.", "quantifier": "all numbers of iterations per label, all behaviours of the system generator that do not panic, all hash functions and build targets", "why_tests_cant": "The iteration counts are chosen at run time from timings; the results of the measured calls are dropped by the benchmark and never checked.", "anchors": ["benches/benchmark.rs: criterion_benchmark", "benches/README.md"]}
{"id": "C82", "title": "The cost of a long message is linear", "statement": "The bytes handed to the keyed hash functions during a verification are at most a constant of the parameter set plus once the length of the framed message, and during a signature at most a constant plus twice that length; the framed message is two bytes, the context and the message in pure mode, and at most 77 bytes and the context in pre-hash mode, however long the message is. A request with a refused context hands them nothing, and generating or importing a key, successful or not, at most a constant. (The pre-hash itself reads the message once, outside this count.)", "quantifier": "all parameter sets, keys, messages, contexts, signatures, generators, hash functions and build targets", "why_tests_cant": "A test measures messages of a few lengths; the bound is for every message, so that no input makes the cost grow faster than its length.", "anchors": ["src/slh.rs: slh_sign_internal, slh_verify_internal", "src/lib.rs: try_sign_with_rng, verify", "src/hashers.rs"]}
{"id": "C83", "title": "A pre-hash signature is about the digest only", "statement": "If two messages have the same digest under the chosen pre-hash function, then signing them in pre-hash mode is the same run (same outcome, same requests to the generator, same hash calls), and verifying any bytes for them gives the same answer by the same steps, for every parameter set, key and context. So a pre-hash signature is worth no more than the collision resistance of the pre-hash function, which the caller chooses freely: SHA-256 with a category 5 parameter set is not refused.", "quantifier": "all parameter sets, pre-hash functions, pairs of messages with equal digests, keys, contexts (also refused ones), byte strings offered as signatures, generators, hash functions and build targets", "why_tests_cant": "No test can use a collision of SHA-256; the statement is about all of them.", "anchors": ["src/lib.rs: try_hash_sign_with_rng, hash_verify", "src/hashers.rs: hash_message"]}
{"id": "C84", "title": "Signature, public seed and selection determine the key", "statement": "Verification accepts exactly when the root in the public key is the one value computed from the public seed, the signature and the selection (the FORS digest, tree index and leaf index taken from the message hash). The message and the root enter only through that selection. So if one signature is accepted under two public keys with the same public seed, for any two messages whose hashes select the same leaf of every FORS tree, the two keys are equal.", "quantifier": "all parameter sets, public keys made in any way, messages in all three modes, signatures, hash functions and build targets", "why_tests_cant": "Tests try a few keys; who may choose a second key for a given signature is a statement about all keys.", "anchors": ["src/slh.rs: slh_verify_internal", "src/hypertree.rs: ht_verify", "src/fors.rs: fors_pk_from_sig"]}
{"id": "C85", "title": "The recursion is shallow", "statement": "The only recursive computations are those of tree nodes, during key generation, key import and signing. A stack that holds 14 activations of them at a time is enough: on every such build no call overflows it, for any key, message, context and generator. A node of height z takes exactly z + 1 activations at a time, in hypertrees of height at most 9 and in FORS trees of which nodes of height at most 13 are computed.", "quantifier": "all parameter sets, keys, messages, contexts, generators, hash functions, build targets and stacks with room for at least 14 activations; all nodes of all trees", "why_tests_cant": "A stack overflow depends on the call depth of all inputs and on the build; a test on a workstation has megabytes of stack.", "anchors": ["src/xmss.rs: xmss_node", "src/fors.rs: fors_node"]}
{"id": "C86", "title": "The Rust, C and Python interfaces agree", "statement": "For SLH-DSA-SHA2-128f the three interfaces are interchangeable, even when they are built for different targets. With the same randomness, key generation makes the same key bytes in all three and hedged signing with the same private key bytes makes the same signature, leaving the generator in the same state; where the Rust call reports an error, the C call returns the code of that step with its outputs untouched and the Python call raises. The same public key bytes, message and signature get the same verdict. So keys and signatures made through one interface work in the others, with the empty context.", "quantifier": "all generators and generator states, key bytes, messages below 2^31 bytes that the C caller designates by pointer and length, signatures, hash functions and three independent build targets", "why_tests_cant": "Interoperability tests exchange a few keys and signatures between builds on one machine; agreement is claimed for all of them, including refused keys and failing generators.", "anchors": ["ffi/src/lib.rs: slh_dsa_sha2_128f_keygen, slh_dsa_sha2_128f_sign, slh_dsa_sha2_128f_verify", "ffi/fips205.py: keygen, sign, verify", "src/lib.rs: try_keygen_with_rng, try_sign_with_rng, verify"]}
{"id": "C87", "title": "Any other implementation of FIPS 205 can be used at the other end", "statement": "Let another program compute exactly what FIPS 205 prescribes, with the same hash functions. Every key pair it generates is accepted by this library's import functions, works as a key pair here and is exported unchanged. Every key pair this library holds exports to a private and a public key that the standard's key generation produces from some three seeds. A signature the other program makes with the exported private key, pure or pre-hash, deterministic or with n random bytes, verifies here under the public key. A signature this library makes, pure or pre-hash, is accepted by the other program's verification under the exported public key.", "quantifier": "all twelve parameter sets, all seeds, key pairs (generated, seeded or imported), messages, contexts, pre-hash functions, randomness, generators, hash functions and build targets", "why_tests_cant": "Interoperability tests exchange a few recorded keys and signatures with a few other libraries.", "anchors": ["src/lib.rs: try_from_bytes, into_bytes, try_sign_with_rng, try_hash_sign_with_rng, verify, hash_verify", "src/slh.rs: slh_keygen_with_rng, slh_sign_internal, slh_verify_internal"]}
{"id": "C88", "title": "Copies of a private key are independent, and dropped ones leave nothing", "statement": "A Rust program may create private-key values, clone them, move them, zeroize them and drop them in any order. At every point each value it owns still holds exactly its key: zeroizing or dropping one copy never affects another. Every byte that ever belonged to a value is zero, unless it belongs to a value that is still alive or to a place from which a value was moved away. No other memory is changed. (Moving does leave a copy behind: after the moved value has been dropped, the whole key is still at the old place. ZeroizeOnDrop does not cover moves.)", "quantifier": "all twelve parameter sets, all layouts of the fields, all memories, all histories of create, clone, move, zeroize and drop", "why_tests_cant": "Tests look at a few values in one order; the claim is about every order of operations and every place in memory.", "anchors": ["src/types.rs: SlhPrivateKey", "src/lib.rs: PrivateKey, try_keygen_with_rng, try_from_bytes"]}
{"id": "C89", "title": "The functions without a generator argument use the system generator and nothing else", "statement": "try_keygen, try_sign and try_hash_sign, which take no generator, behave as FIPS 205 prescribes with the bytes the operating system's generator supplies. Key generation returns the FIPS 205 key pair of the three strings drawn and fails when one draw fails. Signing returns exactly the FIPS 205 signature, pure or pre-hash, deterministic or hedged as the caller asked; it draws n bytes once when hedged and the context has at most 255 bytes, and otherwise leaves the generator alone. Every signature made with a key pair from try_keygen verifies. No call panics unless the generator does.", "quantifier": "all twelve parameter sets, all behaviours of the system generator, all keys, messages, contexts, pre-hash functions, hash functions and build targets", "why_tests_cant": "Tests see the system generator succeed with a few outputs; failures and all other outputs are out of their reach.", "anchors": ["src/lib.rs: try_keygen", "src/traits.rs: KeyGen::try_keygen, Signer::try_sign, Signer::try_hash_sign"]}
{"id": "C90", "title": "Python exceptions name the cause and nothing else", "statement": "Every exception that the Python wrapper itself raises has one of the following causes, and its text says which. (Exceptions of Python's own, for objects without a length or calls of a method that does not exist, are told apart from these.) A key object is asked for with data of the wrong length; the message or the signature is not a bytes object; the signature does not have 17088 bytes; key generation reports 4 exactly when the system generator refused one of three draws; signing reports 3 when the private key is not consistent and 5 when the generator refused. Signing with a consistent key and a working generator raises nothing, and neither does verifying with a key and a signature of the right lengths: a wrong signature is False, not an exception. There are eight texts in all, and none contains key bytes.", "quantifier": "all heaps of Python objects, all arguments, all behaviours of the system generator, all hash functions and build targets", "why_tests_cant": "Tests never see the generator fail, and that no other text occurs is a statement about all calls.", "anchors": ["ffi/fips205.py: PublicKey, PrivateKey, _Slh_Dsa.keygen", "ffi/src/lib.rs: slh_dsa_sha2_128f_keygen, slh_dsa_sha2_128f_sign, slh_dsa_sha2_128f_verify"]}
{"id": "C91", "title": "Key generation and import leave no copy of the secret seeds behind", "statement": "Once a generated or imported private key has been dropped, once an import has been refused, and once a key generation has failed, no copy of its two secret seeds that the library made is left in memory. (False of the code. The seeds are passed by value to the function that computes the root, in arrays that are never erased, and the key it builds is moved out; so after a refused import, after a dropped imported key and after a dropped generated key both seeds are still in memory; a key generation that fails at a later request leaves the seeds drawn before. What holds: the copies are confined to those arrays and to the places keys were moved from; every place where a key was dropped is zero and no other byte has changed.)", "quantifier": "all twelve parameter sets, all generators and key encodings, all placements of the variables in memory and all memory contents before the call", "why_tests_cant": "A test cannot read memory that no live value owns without undefined behaviour, and would see one placement only.", "anchors": ["src/slh.rs: slh_keygen_with_rng, slh_keygen_internal", "src/lib.rs: try_from_bytes (PrivateKey), try_keygen_with_rng", "src/types.rs: SlhPrivateKey"]}
{"id": "C92", "title": "Exporting a private key leaves no copy beside the returned bytes", "statement": "into_bytes consumes a private key; afterwards the returned array is the only copy of it in memory. (False of the code: the key is moved into the call, so the place where the caller had it keeps every byte and can no longer be erased through the API, and the local array the encoding is built in stays too. What holds: the caller gets the encoding, the value inside the call is erased, and no other byte of memory changes.)", "quantifier": "all twelve parameter sets, all keys, all build targets, all placements of the variables in memory and all memory contents before the call", "why_tests_cant": "A test cannot read memory that no live value owns without undefined behaviour, and would see one placement only.", "anchors": ["src/lib.rs: into_bytes (PrivateKey)", "src/types.rs: SlhPrivateKey", "ffi/src/lib.rs: slh_dsa_sha2_128f_keygen"]}
{"id": "C93", "title": "C interface: wiping the received private key removes it from memory", "statement": "A C program that calls the key-generation function and later overwrites the private-key struct it received with zeros has removed the private key from its memory. (False of the code: the call leaves the whole encoding in the local array of into_bytes and each secret seed in two arrays of key generation, none of which the program can reach. What holds: the struct received the key and is zero after the wipe, the value inside the export is erased, and outside the local variables of the calls no byte has changed.)", "quantifier": "all build targets, all states of the system generator with which the call succeeds, all placements of the variables in memory and all memory contents before the call", "why_tests_cant": "A test cannot read memory that no live value owns without undefined behaviour, and would see one placement only.", "anchors": ["ffi/src/lib.rs: slh_dsa_sha2_128f_keygen", "src/lib.rs: into_bytes (PrivateKey)", "src/slh.rs: slh_keygen_with_rng, slh_keygen_internal"]}
{"id": "C94", "title": "C interface: signing makes no lasting copy of the private key", "statement": "A C program that signs with the C sign function and later overwrites its private-key struct with zeros has removed the private key from its memory. (False of the code: every call with valid pointers, whatever it returns, leaves both secret seeds in arrays of the key generation that the import runs, and unless the key was refused the whole key stays in two places it was moved from. What holds: the struct is only read, the output struct receives the signature or is left alone, the local key values that go out of scope are erased, and no other byte changes.)", "quantifier": "all build targets, private keys (valid or not), messages, generators and their states, all placements of the variables in memory and all memory contents before the call", "why_tests_cant": "A test cannot read memory that no live value owns without undefined behaviour, and would see one placement only.", "anchors": ["ffi/src/lib.rs: slh_dsa_sha2_128f_sign", "src/lib.rs: try_from_bytes (PrivateKey)", "src/slh.rs: slh_keygen_internal"]}
