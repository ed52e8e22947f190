{
 "claims": [
  {
   "property": "C01",
   "status": "proved",
   "theorems": [
    "pure_signatures_verify"
   ],
   "note": ""
  },
  {
   "property": "C02",
   "status": "proved",
   "theorems": [
    "prehash_signatures_verify"
   ],
   "note": ""
  },
  {
   "property": "C03",
   "status": "proved",
   "theorems": [
    "raw_signatures_verify"
   ],
   "note": ""
  },
  {
   "property": "C04",
   "status": "proved",
   "theorems": [
    "verify_never_panics"
   ],
   "note": ""
  },
  {
   "property": "C05",
   "status": "proved",
   "theorems": [
    "keygen_sign_import_never_panic"
   ],
   "note": ""
  },
  {
   "property": "C06",
   "status": "proved",
   "theorems": [
    "keygen_is_fips"
   ],
   "note": ""
  },
  {
   "property": "C07",
   "status": "proved",
   "theorems": [
    "sign_is_fips",
    "raw_sign_is_fips"
   ],
   "note": ""
  },
  {
   "property": "C08",
   "status": "proved",
   "theorems": [
    "hash_sign_is_fips"
   ],
   "note": ""
  },
  {
   "property": "C09",
   "status": "proved",
   "theorems": [
    "verify_is_fips",
    "raw_verify_is_fips"
   ],
   "note": ""
  },
  {
   "property": "C10",
   "status": "proved",
   "theorems": [
    "hash_verify_is_fips"
   ],
   "note": ""
  },
  {
   "property": "C11",
   "status": "proved",
   "theorems": [
    "shake_hash_functions"
   ],
   "note": ""
  },
  {
   "property": "C12",
   "status": "proved",
   "theorems": [
    "sha2_cat1_hash_functions"
   ],
   "note": ""
  },
  {
   "property": "C13",
   "status": "proved",
   "theorems": [
    "sha2_cat35_hash_functions"
   ],
   "note": ""
  },
  {
   "property": "C14",
   "status": "proved",
   "theorems": [
    "parameters_are_table2"
   ],
   "note": ""
  },
  {
   "property": "C15",
   "status": "proved",
   "theorems": [
    "public_key_round_trip"
   ],
   "note": ""
  },
  {
   "property": "C16",
   "status": "proved",
   "theorems": [
    "private_key_round_trip"
   ],
   "note": ""
  },
  {
   "property": "C17",
   "status": "proved",
   "theorems": [
    "import_accepts_exactly_consistent_keys"
   ],
   "note": ""
  },
  {
   "property": "C18",
   "status": "proved",
   "theorems": [
    "imported_keys_usable"
   ],
   "note": ""
  },
  {
   "property": "C19",
   "status": "proved",
   "theorems": [
    "get_public_key_matches"
   ],
   "note": ""
  },
  {
   "property": "C20",
   "status": "proved",
   "theorems": [
    "signature_encoding_bijection"
   ],
   "note": ""
  },
  {
   "property": "C21",
   "status": "proved",
   "theorems": [
    "context_length_rule"
   ],
   "note": ""
  },
  {
   "property": "C22",
   "status": "proved",
   "theorems": [
    "pure_framing_injective"
   ],
   "note": ""
  },
  {
   "property": "C23",
   "status": "proved",
   "theorems": [
    "pure_and_prehash_framing_disjoint"
   ],
   "note": ""
  },
  {
   "property": "C24",
   "status": "proved",
   "theorems": [
    "prehash_framing_injective"
   ],
   "note": ""
  },
  {
   "property": "C25",
   "status": "proved",
   "theorems": [
    "deterministic_signing_ignores_rng"
   ],
   "note": ""
  },
  {
   "property": "C26",
   "status": "proved",
   "theorems": [
    "hedged_signing_draws_once"
   ],
   "note": ""
  },
  {
   "property": "C27",
   "status": "proved",
   "theorems": [
    "keygen_draws"
   ],
   "note": ""
  },
  {
   "property": "C28",
   "status": "proved",
   "theorems": [
    "keygen_with_seeds"
   ],
   "note": ""
  },
  {
   "property": "C29",
   "status": "proved",
   "theorems": [
    "histories_are_consistent"
   ],
   "note": ""
  },
  {
   "property": "C30",
   "status": "proved",
   "theorems": [
    "keygen_leaks_nothing"
   ],
   "note": ""
  },
  {
   "property": "C31",
   "status": "proved",
   "theorems": [
    "signing_leakage_is_public",
    "signing_leaks_only_public"
   ],
   "note": ""
  },
  {
   "property": "C32",
   "status": "proved",
   "theorems": [
    "no_address_reuse"
   ],
   "note": ""
  },
  {
   "property": "C33",
   "status": "proved",
   "theorems": [
    "compressed_addresses_unambiguous"
   ],
   "note": ""
  },
  {
   "property": "C34",
   "status": "proved",
   "theorems": [
    "checksum_incomparable"
   ],
   "note": ""
  },
  {
   "property": "C35",
   "status": "proved",
   "theorems": [
    "forgery_extraction"
   ],
   "note": ""
  },
  {
   "property": "C36",
   "status": "proved",
   "theorems": [
    "digits_are_positional"
   ],
   "note": ""
  },
  {
   "property": "C37",
   "status": "proved",
   "theorems": [
    "indices_from_digest"
   ],
   "note": ""
  },
  {
   "property": "C38",
   "status": "proved",
   "theorems": [
    "signing_errors_exhaustive"
   ],
   "note": ""
  },
  {
   "property": "C39",
   "status": "proved",
   "theorems": [
    "output_sizes"
   ],
   "note": ""
  },
  {
   "property": "C40",
   "status": "proved",
   "theorems": [
    "external_is_raw_on_framed_message"
   ],
   "note": ""
  },
  {
   "property": "C41",
   "status": "proved",
   "theorems": [
    "verification_work_bounded"
   ],
   "note": ""
  },
  {
   "property": "C42",
   "status": "proved",
   "theorems": [
    "ffi_keygen_contract"
   ],
   "note": ""
  },
  {
   "property": "C43",
   "status": "proved",
   "theorems": [
    "ffi_sign_contract",
    "ffi_verify_contract"
   ],
   "note": ""
  },
  {
   "property": "C44",
   "status": "partial",
   "theorems": [
    "ffi_null_message_sign_partial",
    "ffi_null_message_verify_refuted",
    "ffi_negative_length_aborts"
   ],
   "note": "The claim is false of the code for the verify function: refuted by ffi_null_message_verify_refuted. The sign half is proved."
  },
  {
   "property": "C45",
   "status": "proved",
   "theorems": [
    "private_key_erased_on_drop",
    "public_key_erased_on_drop",
    "zeroized_key_is_blank",
    "zeroized_public_key_is_blank"
   ],
   "note": "Proved of the stores the derives issue on a byte-addressed memory; that the compiler keeps these stores is outside any source-level model."
  },
  {
   "property": "C46",
   "status": "proved",
   "theorems": [
    "digest_binds_key_and_message"
   ],
   "note": ""
  },
  {
   "property": "C47",
   "status": "proved",
   "theorems": [
    "one_time_keys_sign_one_value"
   ],
   "note": ""
  },
  {
   "property": "C48",
   "status": "proved",
   "theorems": [
    "import_ignores_sk_prf"
   ],
   "note": ""
  },
  {
   "property": "C49",
   "status": "proved",
   "theorems": [
    "results_do_not_depend_on_build"
   ],
   "note": ""
  },
  {
   "property": "C50",
   "status": "proved",
   "theorems": [
    "keygen_and_signing_work"
   ],
   "note": ""
  },
  {
   "property": "C51",
   "status": "proved",
   "theorems": [
    "import_export_leak_only_validity"
   ],
   "note": ""
  },
  {
   "property": "C52",
   "status": "partial",
   "theorems": [
    "seed_copies_survive_refuted",
    "seed_copies_only_in_generator_partial"
   ],
   "note": "The claim is false of the code: refuted by seed_copies_survive_refuted (traits.rs DummyRng keeps both secret seeds and is not erased). seed_copies_only_in_generator_partial: nothing is left anywhere else."
  },
  {
   "property": "C53",
   "status": "proved",
   "theorems": [
    "python_keygen",
    "python_sign_verify"
   ],
   "note": ""
  },
  {
   "property": "C54",
   "status": "partial",
   "theorems": [
    "python_signature_covers_message_refuted",
    "python_huge_message_aborts",
    "python_signature_covers_message_partial"
   ],
   "note": "The claim is false of the code for messages of 4 GiB and more: refuted by python_signature_covers_message_refuted. What holds for messages of every length is python_signature_covers_message_partial: the first length mod 2^32 bytes are covered. Below 2 GiB python_sign_verify makes sign and verify those of FIPS 205 on the whole message."
  },
  {
   "property": "C55",
   "status": "proved",
   "theorems": [
    "unforgeability_reduction"
   ],
   "note": ""
  },
  {
   "property": "C56",
   "status": "proved",
   "theorems": [
    "standard_slh_dsa"
   ],
   "note": ""
  },
  {
   "property": "C57",
   "status": "proved",
   "theorems": [
    "features_consistent"
   ],
   "note": ""
  },
  {
   "property": "C58",
   "status": "proved",
   "theorems": [
    "fuzz_targets_never_crash"
   ],
   "note": ""
  },
  {
   "property": "C59",
   "status": "proved",
   "theorems": [
    "concurrent_calls_are_fips",
    "concurrent_signing_is_linearizable",
    "concurrent_keygen_is_not_linearizable"
   ],
   "note": ""
  },
  {
   "property": "C60",
   "status": "proved",
   "theorems": [
    "c_program_histories",
    "c_call_results",
    "c_undefined_exactly"
   ],
   "note": ""
  },
  {
   "property": "C61",
   "status": "proved",
   "theorems": [
    "signature_binds_message"
   ],
   "note": ""
  },
  {
   "property": "C62",
   "status": "proved",
   "theorems": [
    "accepted_signatures_agree"
   ],
   "note": ""
  },
  {
   "property": "C63",
   "status": "proved",
   "theorems": [
    "digest_selects_uniformly"
   ],
   "note": ""
  },
  {
   "property": "C64",
   "status": "proved",
   "theorems": [
    "forgery_needs_endangered_digest",
    "few_time_reuse_bound"
   ],
   "note": ""
  },
  {
   "property": "C65",
   "status": "proved",
   "theorems": [
    "secrets_only_through_prf"
   ],
   "note": ""
  },
  {
   "property": "C66",
   "status": "proved",
   "theorems": [
    "dudect_harness",
    "dudect_classes"
   ],
   "note": ""
  },
  {
   "property": "C67",
   "status": "proved",
   "theorems": [
    "collisions_are_standard"
   ],
   "note": ""
  },
  {
   "property": "C68",
   "status": "proved",
   "theorems": [
    "c_threads_serializable",
    "c_threads_as_if_alone"
   ],
   "note": ""
  },
  {
   "property": "C69",
   "status": "proved",
   "theorems": [
    "private_key_root_commits"
   ],
   "note": ""
  },
  {
   "property": "C70",
   "status": "proved",
   "theorems": [
    "exact_costs"
   ],
   "note": ""
  },
  {
   "property": "C71",
   "status": "proved",
   "theorems": [
    "python_program_histories",
    "python_object_calls"
   ],
   "note": ""
  },
  {
   "property": "C72",
   "status": "partial",
   "theorems": [
    "python_own_bytes_refuted",
    "python_text_keys_refuted",
    "python_calls_defined_partial"
   ],
   "note": "The claim is false of the code: refuted by python_own_bytes_refuted and python_text_keys_refuted. What remains true is python_calls_defined_partial (exactly the calls that pass one bytes object twice are undefined) and, for keys made from bytes objects, C71."
  },
  {
   "property": "C73",
   "status": "partial",
   "theorems": [
    "python_repr_hides_key_refuted",
    "python_texts_hide_key_partial"
   ],
   "note": "The claim is false of the code: refuted by python_repr_hides_key_refuted. python_texts_hide_key_partial: no other text the wrapper produces contains a private key."
  },
  {
   "property": "C74",
   "status": "proved",
   "theorems": [
    "c_calls_leak_only_public"
   ],
   "note": ""
  },
  {
   "property": "C75",
   "status": "proved",
   "theorems": [
    "readme_example_succeeds",
    "unit_test_passes",
    "ignored_test_fails",
    "baseline_c_succeeds",
    "python_main_prints"
   ],
   "note": ""
  },
  {
   "property": "C76",
   "status": "proved",
   "theorems": [
    "acvp_tests_decide",
    "vector_tests_decide"
   ],
   "note": ""
  },
  {
   "property": "C77",
   "status": "proved",
   "theorems": [
    "python_threads_serializable",
    "python_threads_as_if_alone"
   ],
   "note": ""
  },
  {
   "property": "C78",
   "status": "proved",
   "theorems": [
    "generator_reaches_signatures"
   ],
   "note": ""
  },
  {
   "property": "C79",
   "status": "proved",
   "theorems": [
    "hash_calls_separated"
   ],
   "note": ""
  },
  {
   "property": "C80",
   "status": "proved",
   "theorems": [
    "two_to_the_64_signatures"
   ],
   "note": ""
  },
  {
   "property": "C81",
   "status": "proved",
   "theorems": [
    "benchmarks_measure_successes"
   ],
   "note": ""
  },
  {
   "property": "C82",
   "status": "proved",
   "theorems": [
    "work_linear_in_message"
   ],
   "note": ""
  },
  {
   "property": "C83",
   "status": "proved",
   "theorems": [
    "prehash_signs_digest_only"
   ],
   "note": ""
  },
  {
   "property": "C84",
   "status": "proved",
   "theorems": [
    "signature_determines_root"
   ],
   "note": ""
  },
  {
   "property": "C85",
   "status": "proved",
   "theorems": [
    "recursion_is_shallow"
   ],
   "note": ""
  },
  {
   "property": "C86",
   "status": "proved",
   "theorems": [
    "interfaces_agree"
   ],
   "note": ""
  },
  {
   "property": "C87",
   "status": "proved",
   "theorems": [
    "works_with_other_implementations"
   ],
   "note": ""
  },
  {
   "property": "C88",
   "status": "proved",
   "theorems": [
    "key_values_independent",
    "moved_keys_leave_copies"
   ],
   "note": ""
  },
  {
   "property": "C89",
   "status": "proved",
   "theorems": [
    "system_generator_functions"
   ],
   "note": ""
  },
  {
   "property": "C90",
   "status": "proved",
   "theorems": [
    "python_exceptions"
   ],
   "note": ""
  },
  {
   "property": "C91",
   "status": "partial",
   "theorems": [
    "seeds_left_behind_refuted",
    "failed_keygen_leaves_seeds_refuted",
    "seeds_left_only_in_call_partial"
   ],
   "note": "The claim is false of the code: refuted by seeds_left_behind_refuted. seeds_left_only_in_call_partial proves what remains true: where the copies can be, that every dropped key is erased, and that nothing else changes."
  },
  {
   "property": "C92",
   "status": "partial",
   "theorems": [
    "exported_keys_left_behind_refuted",
    "exported_keys_erased_partial"
   ],
   "note": "The claim is false of the code: refuted by exported_keys_left_behind_refuted. exported_keys_erased_partial proves what remains true: the result, the erasure of the value inside the call, and that nothing else changes."
  },
  {
   "property": "C93",
   "status": "partial",
   "theorems": [
    "c_keygen_copies_refuted",
    "c_keygen_writes_partial"
   ],
   "note": "The claim is false of the code: refuted by c_keygen_copies_refuted. c_keygen_writes_partial proves what remains true: the struct receives the key and is zero after the wipe, the value inside into_bytes is erased, and nothing but the local variables of the calls is written."
  },
  {
   "property": "C94",
   "status": "partial",
   "theorems": [
    "c_sign_copies_refuted",
    "c_sign_writes_partial"
   ],
   "note": "The claim is false of the code: refuted by c_sign_copies_refuted. c_sign_writes_partial proves what remains true: the struct is only read, the output receives the signature or is left alone, the local key values are erased, and nothing but the variables inside the import is written."
  }
 ]
}