# Formal model of integritychain/fips205 in Rocq (Coq 8.16.1)

The code under study is the Rust crate in `/repo` (SLH-DSA, FIPS 205). This directory holds
a model of it, an independent specification, and proofs that the model meets the properties
in `properties.jsonl`.

## 1. Layers

| layer | directory | what it is |
|---|---|---|
| Base | `theories/Bytes.v`, `theories/Machine.v` | bytes, machine integers, the panic/error/trace monad |
| Model | `theories/Model/` | one Gallina definition per Rust function, citing file and lines |
| Spec | `theories/Spec/` | FIPS 205 transcribed from the standard, independent of the model |
| Proof | `theories/Proof/` | pure functional meaning of each Rust function, refinement, lemmas |
| Props | `theories/Props/` | one file per group of properties, holding only theorem statements, `exact` proofs, non-vacuity examples and `Print Assumptions` |

### Base
* A byte is `Coq.Init.Byte.byte`; arrays and slices are `list byte`; a Rust array type
  `[u8; n]` becomes a list together with a length hypothesis.
* `u8/u32/u64/usize` values are `N`. Every `+ - * << >>` in the Rust source is a checked
  monadic operation. A record `Target` fixes the build: `overflow_checks`, `debug_assertions`,
  the width of `usize` (at least 16 bits) and how many activations of a recursive function the stack
  holds (at least 14; going deeper is a panic). With overflow checks the operation panics,
  without them it wraps, exactly as rustc compiles it. Theorems quantify over `Target`, so they
  hold for debug and release builds.
* The monad is `M A = list event * outcome A` with `outcome = Val a | Err msg | Panic reason`.
  Slices, indexing, `copy_from_slice`, `unwrap`, `debug_assert!` panic where Rust panics.
* Events record what an observer of timing and memory addresses sees (branches, loop bounds,
  array indices, slice bounds) and every keyed-hash call with its address and inputs.

### Model
Params, Types, Helpers, Hashers, Wots, Xmss, Hypertree, Fors, Slh, Api (the `functionality!`
macro and `traits.rs`), Ffi (`ffi/src/lib.rs` on struct contents), FfiMem (the same on addresses in the caller's memory), FfiTrace (the events of the library code inside a C call), Py (`ffi/fips205.py` on contents), PyObj (the same on Python objects), PyErr (its exceptions and their texts), Examples (the README example, the unit test, the ignored test, `ffi/tests/baseline.c` and the command line test of `ffi/fips205.py`), Kat (the known-answer tests, `tests/nist_acvp_vectors/mod.rs` and `tests/py_vectors.rs`), Bench (`benches/benchmark.rs`), Values (clone, move, zeroize and drop of private-key values), Residue (what key generation, import and export, also from C, store in memory), Zeroize (the erasure derives, over a
byte-addressed memory). The four hash primitives of the external crates
`sha2`/`sha3` are a record `Prims` of arbitrary functions with only output-length laws. The
random generator is an arbitrary state machine that may fail at any call.

### Spec
FIPS 205 Algorithms 1-25, the address operations of its Table 1 on 32-byte strings, section 11
hash functions, MGF1 (RFC 8017), HMAC (RFC 2104), and Table 2. Unbounded integers, byte strings
and slicing as in the standard. `Fips205.v` and `Fips205Hash.v` import nothing from the model.

The `Vocab*.v` files hold the words the property statements use, and nothing else: `Vocab` (sizes,
typed values, how a program comes to hold a key pair, which requests exist), `VocabFfi` (what a C
caller designates), `VocabC` (C programs: legal operations, histories), `VocabCLeak` (calls an observer cannot tell apart in advance), `VocabHist` (histories of calls sharing one generator), `VocabLeak` (which
events an attacker sees, which inputs are public), `VocabForge` (second preimages and chain values
read off traces), `VocabBind` (collisions between two traces), `VocabPublic` (the values a verifier recomputes), `VocabMem` (regions of memory), `VocabOwn` (which operations on key values the ownership rules allow, histories of them),
`VocabFeat` (cargo features and dependency graph), `VocabConc` (interleavings of several threads), `VocabThreads` (threads of a C program on shared memory), `VocabCommit` (collisions between two private-key imports), `VocabWork` (numbers of hash computations),
`VocabPy` (Python programs: legal actions, histories), `VocabEx` (generators that answer or refuse, the C example's variables), `VocabSel` (which keys and leaves a digest selects, endangered digests), `VocabPrim` (the strings that reach SHA-2 and SHAKE), `VocabPrf` (FIPS 205 with oracles for the
pseudorandom functions), `VocabRand` (which random string a signature was issued with), `VocabCall` (which function an address is for), `VocabLimit` (security left after 2^64 signatures), `VocabBench` (labels of the benchmarks).

### Proof
`Runs`, `Facts`: rules for the monad (a program *runs* to a value with a list of hash calls).
`HelpersP` .. `SlhP`: every model function runs to its functional meaning (`Fun`), without panic,
in every `Target`. `SpecP`, `HashP`, `SpecFun`: the functional meaning equals the Spec. `Honest`,
`SerP`, `ApiP`, `Summary`: the API functions. `CallsP`, `PosP`: the set of hash calls. `Low*`:
relational proofs about leakage. `Forge`, `Bind`, `Pair`: comparing an accepted signature with the owner's, and two acceptances with each other. `Select`, `Moment`: counting digests, and tuples of them.
`Toy*`: concrete hash functions, keys, signatures and generators used in the examples.
`Top*`: one lemma `prop_X` per property theorem `X`.

## 2. What is modelled and proved, per property

Theorems are in `theories/Props/<file>.v`. Beside each stands an `Example X_applies` showing a
concrete case that meets its hypotheses.

| id | theorem(s), file | how it is modelled and proved |
|---|---|---|
| C01 | `pure_signatures_verify` (Correct) | sign-then-verify on the API model, for every way of obtaining a key pair. Merkle-tree and chain lemmas on the functional layer, lifted by refinement |
| C02 | `prehash_signatures_verify` (Correct) | same, pre-hash mode |
| C03 | `raw_signatures_verify` (Correct) | same, raw interface |
| C04 | `verify_never_panics` (Safety) | the outcome of every model function is `Val`/`Err`, never `Panic`, for every `Target`; follows from refinement (each function equals `Val` of its functional meaning) |
| C05 | `keygen_sign_import_never_panic` (Safety) | as C04; the generator may fail, and panics only if the caller's generator does |
| C06 | `keygen_is_fips` (Fips) | model output equals the Spec algorithm for all inputs |
| C07 | `sign_is_fips`, `raw_sign_is_fips` (Fips) | as C06 |
| C08 | `hash_sign_is_fips` (Fips) | as C06 |
| C09 | `verify_is_fips`, `raw_verify_is_fips` (Fips) | as C06, for all public keys and byte strings |
| C10 | `hash_verify_is_fips` (Fips) | as C09 |
| C11 | `shake_hash_functions` (Fips) | each model hash function equals the section 11 formula, for message pieces of any split |
| C12 | `sha2_cat1_hash_functions` (Fips) | as C11 (SHA-256, MGF1, HMAC) |
| C13 | `sha2_cat35_hash_functions` (Fips) | as C11 (SHA-512 for H, T_l, H_msg, PRF_msg) |
| C14 | `parameters_are_table2` (Fips) | computation on the twelve records, compared with a separately typed table and Algorithm 1 |
| C15 | `public_key_round_trip` (Keys) | direct from the import/export model |
| C16 | `private_key_round_trip` (Keys) | as C15 |
| C17 | `import_accepts_exactly_consistent_keys` (Keys) | import recomputes the root: accepted iff FIPS 205 key generation from its seeds gives its root |
| C18 | `imported_keys_usable` (Correct) | C17 and C01 |
| C19 | `get_public_key_matches` (Keys) | invariant over `key_pair` |
| C20 | `signature_encoding_bijection` (Encoding) | serialize/deserialize inverse in both directions, offsets against plain slicing |
| C21 | `context_length_rule` (Safety) | case split on context length |
| C22 | `pure_framing_injective` (Framing) | injectivity of the byte strings handed to the message hash, read from the trace |
| C23 | `pure_and_prehash_framing_disjoint` (Framing) | as C22 |
| C24 | `prehash_framing_injective` (Framing) | as C22 |
| C25 | `deterministic_signing_ignores_rng` (Random) | generator modelled as an arbitrary state machine; its state and answers do not occur in the result |
| C26 | `hedged_signing_draws_once` (Random) | draw events of the trace |
| C27 | `keygen_draws` (Random) | draw events of the trace |
| C28 | `keygen_with_seeds` (Random) | DummyRng model |
| C29 | `histories_are_consistent` (History) | induction over lists of API calls on one shared generator |
| C30 | `keygen_leaks_nothing` (Leakage) | equality of leakage traces of two runs (relational proof over the model, function by function, with two unrelated sets of hash functions) |
| C31 | `signing_leakage_is_public`, `signing_leaks_only_public` (Leakage) | as C30; the secret-dependent indices are those of the digest and of the value signed in each layer, which `Spec/VocabPublic.v` computes with the verification algorithms of FIPS 205 |
| C32 | `no_address_reuse` (Traces) | invariant: every hash event equals the canonical query for its address |
| C33 | `compressed_addresses_unambiguous` (Traces) | injectivity of the 22-byte encoding on all addresses that occur in traces |
| C34 | `checksum_incomparable` (OneTime) | digit-sum argument on the output of the model's digit computation |
| C35 | `forgery_extraction` (Forgery) | constructive comparison of verifier trace and owner queries, down from the public root |
| C36 | `digits_are_positional` (Encoding) | loop invariant of `base_2b` with 32-bit wraparound |
| C37 | `indices_from_digest` (Traces) | arithmetic of the three digest slices and `to_int` |
| C38 | `signing_errors_exhaustive` (Safety) | outcome classification |
| C39 | `output_sizes` (Safety) | lengths from refinement |
| C40 | `external_is_raw_on_framed_message` (Framing) | concatenation invariance of the hash functions |
| C41 | `verification_work_bounded` (Traces) | counting hash events |
| C42 | `ffi_keygen_contract` (CInterface) | FFI model: nullable pointers, output buffers, error codes |
| C43 | `ffi_sign_contract`, `ffi_verify_contract` (CInterface) | as C42 |
| C44 | `ffi_null_message_sign_partial`, `ffi_null_message_verify_refuted`, `ffi_negative_length_aborts` (CInterface) | false for verify: refuted with a witness; proved for sign |
| C45 | `private_key_erased_on_drop`, `public_key_erased_on_drop`, `zeroized_key_is_blank`, `zeroized_public_key_is_blank` (Erasure) | memory model: the stores issued by the derives |
| C46 | `digest_binds_key_and_message` (Framing) | as C22: the H_msg inputs determine R, PK and M' |
| C47 | `one_time_keys_sign_one_value` (Traces) | as C32, for the one-time keys |
| C48 | `import_ignores_sk_prf` (Keys) | two keys that differ only in SK.prf are imported alike |
| C49 | `results_do_not_depend_on_build` (Build) | two targets, equal results and equal hash calls |
| C50 | `keygen_and_signing_work` (Traces) | counting hash events: exact formulas |
| C51 | `import_export_leak_only_validity` (Leakage) | as C30; for the converse the two runs do the same up to the comparison, whose branches spell out the position (Proof/Low.v, apart) |
| C52 | `seed_copies_survive_refuted`, `seed_copies_only_in_generator_partial` (Erasure) | false: refuted in the memory model |
| C53 | `python_keygen`, `python_sign_verify` (Python) | Python model over the FFI model, with ctypes' 32-bit conversion of the length |
| C54 | `python_signature_covers_message_refuted`, `python_huge_message_aborts`, `python_signature_covers_message_partial` (Python) | false: refuted for extensions by multiples of 2^32 bytes; the partial theorem reduces a message of any length to the prefix that is passed on and applies C61 |
| C55 | `unforgeability_reduction` (Forgery) | C35 applied to a history, with a search for the leaves of the forged digest among the issued ones |
| C56 | `standard_slh_dsa` (Standard) | SHA-2 and SHAKE transcribed from FIPS 180-4 and FIPS 202 (Spec/Sha2.v, Spec/Sha3.v, checked against published vectors); C06-C10 at this instance |
| C57 | `features_consistent` (Features) | Model/Features.v: items, cfg conditions and references; case analysis over items, reachability for dead code |
| C58 | `fuzz_targets_never_crash` (Fuzz) | Model/Fuzz.v: both targets with the generator as argument; composition of C01, C02, C04, C05, C15 |
| C59 | `concurrent_calls_are_fips`, `concurrent_signing_is_linearizable`, `concurrent_keygen_is_not_linearizable` (Concurrency) | Spec/VocabConc.v: interleavings of the generator requests of several calls, each thread judged against the answers it got; signing makes at most one request, which is the linearization point; verification makes none; two key generations that alternate their requests are the counterexample for key generation |
| C60 | `c_program_histories`, `c_call_results`, `c_undefined_exactly` (CPrograms) | Model/FfiMem.v: the C functions on a byte-addressed memory, Spec/VocabC.v: legal operations and histories; invariant over the history (generated private structs import, issued signatures verify), frame lemmas for stores, then C42, C43; the undefined calls are characterised by cases on the reference checks |
| C61 | `signature_binds_message` (Binding) | two verification runs compared from the root downwards (Proof/Bind.v): equal roots force equal positions and equal inputs at every node, or a collision; equal chain ends with different digits force a cycle by C34 |
| C62 | `accepted_signatures_agree` (Binding) | as C61, for two signatures whose paths meet (Proof/Pair.v); the values signed are those of Spec/VocabPublic.v |
| C63 | `digest_selects_uniformly` (Selection) | counting: digests with given digits and indices are put together from their free bits (Proof/Select.v); opened leaves read off the verification trace |
| C64 | `forgery_needs_endangered_digest`, `few_time_reuse_bound` (Selection) | C55 with its last case replaced by membership in an explicit list; the covered digests are enumerated: first leaf from one issued signature, the others from those with the same key (Proof/Select.v, Proof/TopSelect.v) |
| C65 | `secrets_only_through_prf` (SecretUse) | FIPS 205 run with PRF and PRF_msg replaced by oracles and with blank secrets (Spec/VocabPrf.v); every algorithm of the standard is shown equal under oracles that agree, then C06-C08 transfer it to the code (Proof/TopPrf.v) |
| C66 | `dudect_harness`, `dudect_classes` (Timing) | Model/Dudect.v models the harness. The closure is computed exactly from the descriptions of key generation and signing (Summary.v). Sufficiency of equal public values is C30 and C31; the converse reads the tree and leaf off the first FORS secret-value call of the trace (C37). The classes are told apart for hash functions that repeat their first input byte. |
| C67 | `collisions_are_standard` (Primitives) | Spec/VocabPrim.v writes down the string and the standard function behind each hash call (FIPS 205, section 11); C11-C13 give the values, and the strings are injective in compressed address and message because both have fixed lengths (Proof/TopPrim.v). |
| C68 | `c_threads_serializable`, `c_threads_as_if_alone` (CThreads) | Spec/VocabThreads.v describes executions byte by byte. An operation depends only on the bytes it reads and the answers it gets (Proof/TopThreads.v, step_local); the memory of the serial execution, in the order of the begins, is followed along the log: at every byte that no running call writes it agrees with the shared memory. |
| C69 | `private_key_root_commits` (Commitment) | Spec/VocabCommit.v: collisions between two runs under two sets and two public seeds. Different sets or public seeds: the two root calls hash different strings (C33). Otherwise the two trees are compared from the root down to the first WOTS+ secret value (Proof/TopCommit.v); different SK.seed there is a collision of PRF. |
| C70 | `exact_costs` (Costs) | Spec/VocabWork.v writes the costs as sums over layers of digit sums (Algorithm 7). The lengths of the call lists of Proof/Fun.v are computed exactly; in every layer but the top one the steps of signing and of recomputing the root add up to 15 per chain (Proof/TopWork.v). |
| C71 | `python_program_histories`, `python_object_calls` (PyPrograms) | Model/PyObj.v: key objects refer to bytes objects on a heap, the C functions store into fresh ones; Spec/VocabPy.v: legal actions and histories. Invariant over the history: key objects have data of the right length, pairs import, issued signatures verify; every step only appends to the heap (Proof/TopPyObj.v). |
| C72 | `python_own_bytes_refuted`, `python_text_keys_refuted`, `python_calls_defined_partial` (PyPrograms) | false: refuted in the object model, for bytes(pk) as message and for keys made from text |
| C73 | `python_repr_hides_key_refuted`, `python_texts_hide_key_partial` (PyErrors, PyPrograms) | false: refuted with a function that parses the printed key; all other texts are fixed or public (python_texts_hide_key_partial) |
| C74 | `c_calls_leak_only_public` (CLeakage) | Model/FfiTrace.v gives the events of the library code inside a C call; the theorem puts together C30 (key generation), C31 (signing up to the public view) and C51 (import and export), and the traces of refused calls. |
| C75 | `readme_example_succeeds`, `unit_test_passes`, `ignored_test_fails`, `baseline_c_succeeds`, `python_main_prints` (Examples) | Model/Examples.v models the five programs; composed from C01, C03, C10, C60, C61 and C71. |
| C76 | `acvp_tests_decide`, `vector_tests_decide` (KnownAnswers) | Model/Kat.v models the two test files; the loops count failures by induction, and each case is composed from C06, C17, C07 (raw signing) and C09 (raw verification). |
| C77 | `python_threads_serializable`, `python_threads_as_if_alone` (PyThreads) | Spec/VocabPyThreads.v describes executions byte by byte, on the heap of Model/PyObj.v. An action writes only to objects it created, which no other thread can hold before it returns; so what it is given is settled when it begins (by induction on time), and it depends on nothing else (Proof/TopPyThreads.v, py_local). The objects of the serial execution, in the order of the begins, are followed along the log. |
| C78 | `generator_reaches_signatures` (Generator) | The signing calls are inverted to the closed form of the signature (Proof/Summary.v); the random string occurs in it only inside PRF_msg (Proof/TopRand.v). Spec/VocabRand.v writes PRF_msg out as SHAKE256 or HMAC. |
| C79 | `hash_calls_separated` (Separation) | Every event in the closed call lists of Proof/Fun.v has the shape given by its address type (Proof/TopCalls.v); equal strings have equal parts because seeds, encoded addresses and inputs have fixed lengths, and by C33. |
| C80 | `two_to_the_64_signatures` (Limit) | The bound of C64 is summed over all sequences of digests: the k-th power of the number of uses of a key is expanded in falling factorials (Stirling numbers), whose sums over all sequences are computed exactly by induction (Proof/Moment.v); the figures are then evaluated (Proof/TopLimit.v). |
| C81 | `benchmarks_measure_successes` (Benchmarks) | Model/Bench.v runs the setup and then each closure any number of times, keeping the results. A rule for sequencing calls that succeed or panic because the generator refused (Proof/TopBench.v), with C01, C07 and C25. |
| C82 | `work_linear_in_message` (Linear) | Spec/VocabBytes.v counts the argument bytes of every hash call. The shapes of the calls (Proof/TopCalls.v) bound each one; the number of calls is C41 and C50; the message appears in one call of a verification and two of a signature (Proof/TopBytes.v). |
| C83 | `prehash_signs_digest_only` (Digests) | The pre-hash step of the model depends on the message through its digest only; the two runs are equal (Proof/TopKeySub.v). |
| C84 | `signature_determines_root` (Digests) | Verification as a function of public seed, signature and selection compared with the root; equal selected leaves give equal FORS keys and so equal roots (Proof/TopKeySub.v). |
| C85 | `recursion_is_shallow` (Stack) | The build target of the model has a limit on nested activations of the two recursive functions (at least 14); exceeding it is a panic, so every theorem about results covers it. Proof/TopNest.v: induction on the limit for both directions. |
| C86 | `interfaces_agree` (Interop) | The Rust entry points, the model of ffi/src/lib.rs and the model of ffi/fips205.py on three independent build targets. Proof/TopInter.v: build independence (C49) moves the C model to the Rust build outcome by outcome, panics of the generator included; the Python model is the C model on the whole message. |
| C87 | `works_with_other_implementations` (Other) | the functions of Spec/Fips205.v stand for the other program; from C01, C02 and C06-C10, with a generator that hands out the given randomness |
| C88 | `key_values_independent`, `moved_keys_leave_copies` (Values) | Model/Values.v: clone, move, zeroize and drop as stores on the memory of Model/Zeroize.v; Spec/VocabOwn.v: which operations the ownership rules allow; invariant over histories (live values are apart and hold their keys, the rest of the used bytes are zero or abandoned by a move) |
| C89 | `system_generator_functions` (System) | from C01, C02, C05-C08, C21, C25 and C26, the system generator being an arbitrary Rng |
| C90 | `python_exceptions` (PyErrors) | Model/PyErr.v models the raise statements and their f-strings; case analysis on each call, with the C contracts (C42, C43) for the codes |
| C91 | `seeds_left_behind_refuted`, `failed_keygen_leaves_seeds_refuted`, `seeds_left_only_in_call_partial` (Residue) | false of the code; Model/Residue.v: the stores of key generation and import to the variables that hold key material, over the memory of Model/Zeroize.v; refuted by following the stores for arbitrary disjoint places, and the partial theorem bounds where the copies are |
| C92 | `exported_keys_left_behind_refuted`, `exported_keys_erased_partial` (Residue) | false of the code; Model/Residue.v: the stores of into_bytes (move into the call, local array, result, drop); refuted and bounded by following them for arbitrary disjoint places |
| C93 | `c_keygen_copies_refuted`, `c_keygen_writes_partial` (Residue) | false of the code; Model/Residue.v: the stores of the C key-generation function (key generation, then into_bytes into the struct), followed by the wipe of the caller; refuted and bounded by following them for arbitrary disjoint places |
| C94 | `c_sign_copies_refuted`, `c_sign_writes_partial` (Residue) | false of the code; Model/Residue.v: the stores of the C sign function (import into a local, signature to the output, drop), followed by the wipe of the caller; refuted and bounded from C91 for the import inside it |

## 3. Trusted base

* Coq 8.16.1's kernel (the gate also replays every module with `coqchk`), and the reading of the
  theorem statements together with the Model and Spec files they mention.
* `Print Assumptions` follows every property theorem in `theories/Props/`. Each prints *Closed under
  the global context*: no axiom is used, neither ours nor the standard library's. The gate's list of
  "library axioms" (`Coq.ssr.ssrunder.*`) are constants of a standard-library module that is loaded;
  no theorem depends on them.
* That the model is a faithful transcription of the Rust code. Each definition cites file and lines.
  As a test of this (not a proof) the model and the Spec were extracted to OCaml outside this
  directory, linked with real SHA-2/SHA-3 code, and run on the NIST ACVP vectors shipped in
  `/repo/tests/nist_acvp_vectors`: key generation, signing and the 45 signature verification vectors
  all agree.

### What is modelled
* `src/helpers.rs`, `src/wots.rs`, `src/xmss.rs`, `src/hypertree.rs`, `src/fors.rs`, `src/slh.rs`,
  `src/hashers.rs`, `src/types.rs`, the `functionality!` macro and the twelve parameter modules of
  `src/lib.rs`, `src/traits.rs` (including `DummyRng`), and `ffi/src/lib.rs`: every function.
* The `[features]` of `Cargo.toml` and the `#[cfg]` attributes of `src/` (C57).
* `fuzz/fuzz_targets/*.rs`: both targets (C58).
* `dudect/src/main.rs`: the timing harness up to the runner, which measures each closure once (C66).
* `benches/benchmark.rs`: the setup and the measured closures, run as often as the runner likes (C81).
* `ffi/fips205.h`: struct sizes and return codes; the C caller's memory as one allocated block of bytes, with
  out-of-range structs and references that share a byte as undefined behaviour (C60).
* `ffi/fips205.py`: construction of key objects, `keygen`, `sign`, `verify`, `bytes()`, `repr()`; arguments that are `bytes`,
  `str` (passed by ctypes as wide characters) or other objects (refused by ctypes; ctypes' own objects and objects
  with `_as_parameter_`, which it would accept, are left out); identity of `bytes` objects (C71). Attributes of key objects are not reassigned.
* Machine arithmetic with and without overflow checks, `usize` of any width of at least 16 bits,
  `debug_assert!` on and off, slice and index bounds, `copy_from_slice` lengths, `unwrap`/`expect`.
* Threads (C59): calls that run at once share only the generator, whose requests are atomic, and keys,
  which are read only; that safe Rust code without statics or cells can share nothing else is trusted.
* Threads of a C program (C68): memory is sequentially consistent, with single bytes as atomic units. Executions
  with conflicting accesses are excluded by hypothesis (they are data races in C and Rust). Calls that share a
  struct which both only read are included; Rust's aliasing rules for `&mut` would exclude them too (finding 13),
  so for these the theorem relies on the compiler not storing to a struct that the source only reads.
* Threads of a Python program (C77): the Python code of an action up to the C function is one event; writes of
  single bytes and requests to the generator are interleaved freely. A thread uses only objects that existed at the
  start or were returned by an action that has ended. Executions in which an action aborts the process or is
  undefined by C71/C72 are left out; what was said of `&mut` for C68 holds here too.
* The order and arguments of hash calls, generator requests, branches, loop bounds and indices.

### What is not modelled
* The crates `sha2`, `sha3`: arbitrary functions with the right output lengths. Theorems hold for every
  such choice, and in particular for the functions of FIPS 180-4 and FIPS 202 written out in
  `Spec/Sha2.v` and `Spec/Sha3.v` (C56); that the crates compute those is trusted. `rand_core`, the operating system's generator: an arbitrary state machine that may fail
  at each request.
* rustc and LLVM: instruction timing, caches, register allocation, elision or duplication of stores,
  the sizes of stack frames (the depth of the recursion is modelled, C85). The leakage theorems are about source-level branches, loop bounds and addresses. A comparison of two byte
  arrays (`==`, `!=` in key import and verification) shows the observer where it finds the first difference; a compiled comparison that works on
  larger pieces shows less.
* Single-field structs are identified with their field; arrays are lists with a length.
* `zeroize`: the derives are modelled by the stores they issue; that volatile writes survive
  compilation is trusted.
* Unsafe code in the FFI: `from_raw_parts` is modelled as the designated prefix of the buffer when the
  pointer is valid and as undefined behaviour otherwise.
* The vectors themselves (the JSON files and the constants in `tests/py_vectors.rs`), JSON parsing and
  hexadecimal decoding: the known-answer tests are modelled as functions of the decoded vectors. The comparison with recorded values at the end of `tests/messages.rs`. `wasm/src/lib.rs` does not compile
  against this version of the crate (it calls `try_sign_with_rng` and `verify` without the context
  argument), so there is no behaviour to model.

## 4. Testing the theorems against wrong programs

`seeded/LOG.jsonl` has one line per attempt: a definition of the model is edited in a scratch copy the
way a bug would change the program, everything is rebuilt, the proofs that fail are counted, and the
property theorems whose proofs depend on a failed one are listed. The judgement column says whether the
theorem for the broken claim is among them, or why the edit changes nothing observable.

## 5. Findings about the code

1. `slh_dsa_sha2_128f_verify` in `ffi/src/lib.rs` does not test the message pointer for null before
   `from_raw_parts`: undefined behaviour (C44, `ffi_null_message_verify_refuted`). `..._sign` does test.
2. A negative message length makes both C functions panic inside `extern "C"`, which aborts the process
   (`ffi_negative_length_aborts`).
3. `keygen_with_seeds` panics if the seeds do not have n bytes; the type does not prevent it, because its
   const parameter is free (C28).
4. `keygen_with_seeds` leaves copies of both secret seeds in the dropped `DummyRng` (C52).
5. Import of a private key detects any change to SK.seed, PK.seed or PK.root that changes the recomputed
   root, but no change to SK.prf (C48).
6. `PublicKey::try_from_bytes` never fails (C15).
7. The documentation says signing fails only if the generator fails; it also fails for a context of more
   than 255 bytes (C38).
8. The pre-hash function's strength is not related to the parameter set: SHA-256 may be used with a
   256-bit set. FIPS 205 allows this only with a note on strength; `hash_sign_is_fips` holds regardless.
9. `ffi/fips205.py` declares no argument types, so ctypes cuts the message length to 32 bits: for messages
   of 4 GiB and more only the first `len mod 2^32` bytes are signed or verified (C54), and for lengths
   with bit 31 set the process aborts (`python_huge_message_aborts`).
10. The wasm crate is out of date with the API.
11. With no parameter set selected (`--no-default-features`) every internal function is unused, which
   `#![deny(dead_code)]` turns into an error when the crate is built on its own. All other selections of
   features are consistent (C57).
12. `fuzz_verify` splits its input at `len % 255`, so for inputs shorter than 255 bytes the message is empty
   and the tampered-message test is never reached; and it discards all verdicts, so a wrong verdict would
   go unnoticed (C58 shows they are right).
13. `ffi/fips205.h` declares the inputs of sign and verify as pointers to const, but the Rust functions take
   them as `&mut`. By Rust's aliasing rules a C program must therefore not pass a message that lies inside
   the key or signature struct (such as signing or verifying the bytes of the public key in place), nor use
   one key struct in two threads at once, although the header suggests both are allowed. The model counts
   overlapping arguments as undefined, and C60 excludes them.
14. `ffi/fips205.h` defines the error codes as non-static `const` objects, so two C files that include it do not
   link.
15. The timing harness in `dudect/` compares two classes that differ in the public key and the signature, not
   only in secrets, so a timing difference it reports need not be a leak of a secret; and it exercises only
   keys whose three seeds are equal (C66).
16. The unit test `simple_round_trips` means to check that a pure signature is refused under another context, but
   passes the signature of one key to the public key of another, so it would succeed anyway.
17. Intermediate secrets (WOTS+ and FORS secret values, the seed arrays of `slh_keygen_with_rng`) are left on
   the stack; only the private key struct is erased on drop (C45). C91 follows the copies of the seeds: also the by-value
   parameters of `slh_keygen_internal`, and every place a key was moved from, including after a refused import. C92 does the same for `into_bytes`, which consumes the key by a move. C93 follows both through the C key-generation function: a C program that wipes the struct it received cannot reach the other copies. C94 does so for C signing, whose import leaves the seeds and the moved key behind.
18. `ffi/fips205.py`: `repr()` of a private key prints the whole key (C73); `PublicKey(text, ...)` accepts a text of 32
   characters, and verification then uses its wide-character encoding (C72); `pk.verify(bytes(pk), sig)`, as when checking a
   self-signed key, passes the same buffer as message and as `&mut` struct, which Rust's aliasing rules leave undefined
   (nothing is written through the reference, so current compilers give the expected verdict) (C72). Running the file as a program
   prints the private key it drew (C75).
19. The ignored test in `tests/messages.rs` signs with an empty context and verifies with `b"context"`, so enabling it
   would make it fail: it can pass only with a hash break (C75).
20. `tests/nist_acvp_vectors/mod.rs` skips groups whose parameter set it does not recognise, and passes on a file without
   cases (C76). The checkout holds the files for key generation and verification only; without the one for signing
   `run_signing_tests` fails at opening it.

21. The comparison of the stored and the recomputed root in key import (src/lib.rs:381) is an ordinary `!=`,
    which may stop at the first difference. C51 and C74 say that its position is the only thing an observer
    learns about a refused key; it concerns the root, which is part of the public key.
22. A private key that is moved (returned by value, pushed into a vector, swapped) leaves its bytes at the old place, and
    `ZeroizeOnDrop` erases only the place where the value is dropped (C88, `moved_keys_leave_copies`). This is true of
    every Rust type; the library itself returns keys by value.
