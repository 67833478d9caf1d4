{
 "claims": [
  {
   "property": "C01",
   "status": "proved",
   "theorems": [
    "C01_varint_roundtrip"
   ],
   "note": ""
  },
  {
   "property": "C02",
   "status": "proved",
   "theorems": [
    "C02_varint_canonical",
    "C02_varint_truncated",
    "C02_varint_never_panics"
   ],
   "note": ""
  },
  {
   "property": "C03",
   "status": "proved",
   "theorems": [
    "C03_serialize_size"
   ],
   "note": ""
  },
  {
   "property": "C04",
   "status": "proved",
   "theorems": [
    "C04_varbytes_roundtrip",
    "C04_varbytes_canonical",
    "C04_varbytes_truncated"
   ],
   "note": ""
  },
  {
   "property": "C05",
   "status": "proved",
   "theorems": [
    "C05_limit_refuted",
    "C05_panic_refuted",
    "C05_panic_exact"
   ],
   "note": "The documented behaviour is false of the code; the theorems prove its negation for every limit."
  },
  {
   "property": "C06",
   "status": "proved",
   "theorems": [
    "C06_point_roundtrip",
    "C06_bigint_roundtrip",
    "C06_negative_coordinate"
   ],
   "note": ""
  },
  {
   "property": "C07",
   "status": "proved",
   "theorems": [
    "C07_gspfs_roundtrip",
    "C07_equivalence_roundtrip",
    "C07_consistency_roundtrip",
    "C07_disjunctive_roundtrip",
    "C07_abc_roundtrip",
    "C07_range_roundtrip",
    "C07_gspfs_injective",
    "C07_equivalence_injective",
    "C07_consistency_injective",
    "C07_disjunctive_injective",
    "C07_abc_injective",
    "C07_range_injective"
   ],
   "note": ""
  },
  {
   "property": "C08",
   "status": "proved",
   "theorems": [
    "C08_decoders_crash_refuted",
    "C08_errors_never_reported",
    "C08_empty_input_decodes_to_crashing_proof",
    "C08_truncation_unreported_refuted",
    "C08_truncated_never_accepted",
    "C08_abc_truncation_reported"
   ],
   "note": "The expectation is false of the code; the theorems prove the crashes and the missing error reports."
  },
  {
   "property": "C09",
   "status": "proved",
   "theorems": [
    "C09_exclusive",
    "C09_at_most_1024",
    "C09_length_8",
    "C09_never_blocks",
    "C09_never_crashes",
    "C09_results",
    "C09_terminates",
    "C09_can_finish",
    "C09_package_functions"
   ],
   "note": "Any number of goroutines, any interleaving at the granularity of single bytes and channel operations; readers and writers are private to a goroutine."
  },
  {
   "property": "C10",
   "status": "proved",
   "theorems": [
    "C10_equal_up_to_sign",
    "C10_equal_refuted"
   ],
   "note": "Equal compares X only; the theorems characterise it exactly and refute the expectation."
  },
  {
   "property": "C11",
   "status": "proved",
   "theorems": [
    "C11_group_operations",
    "C11_add_laws"
   ],
   "note": ""
  },
  {
   "property": "C12",
   "status": "proved",
   "theorems": [
    "C12_mult",
    "C12_mult_reduces"
   ],
   "note": ""
  },
  {
   "property": "C13",
   "status": "proved",
   "theorems": [
    "C13_mult_refuted",
    "C13_mult_one_refuted"
   ],
   "note": "The expectation is false of the code."
  },
  {
   "property": "C14",
   "status": "proved",
   "theorems": [
    "C14_challenge_range",
    "C14_challenge_deterministic"
   ],
   "note": ""
  },
  {
   "property": "C15",
   "status": "proved",
   "theorems": [
    "C15_transcripts_refuted",
    "C15_coordinates_refuted",
    "C15_full_size_unambiguous"
   ],
   "note": "The expectation is false of the code; C15_full_size_unambiguous proves it for points whose coordinates all fill 32 bytes."
  },
  {
   "property": "C16",
   "status": "proved",
   "theorems": [
    "C16_keygen",
    "C16_verifyR"
   ],
   "note": ""
  },
  {
   "property": "C17",
   "status": "proved",
   "theorems": [
    "C17_pedersen",
    "C17_homomorphic",
    "C17_pedcommit"
   ],
   "note": ""
  },
  {
   "property": "C18",
   "status": "proved",
   "theorems": [
    "C18_hiding"
   ],
   "note": ""
  },
  {
   "property": "C19",
   "status": "proved",
   "theorems": [
    "C19_open",
    "C19_open_refuted",
    "C19_binding"
   ],
   "note": ""
  },
  {
   "property": "C20",
   "status": "proved",
   "theorems": [
    "C20_H_dlog_refuted",
    "C20_init_succeeds"
   ],
   "note": "The expectation is false of the code."
  },
  {
   "property": "C21",
   "status": "proved",
   "theorems": [
    "C21_hpoints"
   ],
   "note": ""
  },
  {
   "property": "C22",
   "status": "proved",
   "theorems": [
    "C22_gspfs_complete",
    "C22_gspfs_complete_G",
    "C22_minus_G_refuted",
    "C22_base_H_refuted"
   ],
   "note": ""
  },
  {
   "property": "C23",
   "status": "proved",
   "theorems": [
    "C23_gspfs_sound"
   ],
   "note": ""
  },
  {
   "property": "C24",
   "status": "proved",
   "theorems": [
    "C24_base_not_bound_refuted"
   ],
   "note": "The expectation is false of the code."
  },
  {
   "property": "C25",
   "status": "proved",
   "theorems": [
    "C25_gspfs_hvzk"
   ],
   "note": ""
  },
  {
   "property": "C26",
   "status": "proved",
   "theorems": [
    "C26_gspfs_rejects",
    "C26_equivalence_rejects",
    "C26_consistency_rejects",
    "C26_disjunctive_rejects",
    "C26_abc_rejects",
    "C26_inequality_rejects",
    "C26_abc_right_unchecked_refuted"
   ],
   "note": "The ABC prover on the right side does not look at the commitment at all."
  },
  {
   "property": "C27",
   "status": "proved",
   "theorems": [
    "C27_equivalence_complete"
   ],
   "note": ""
  },
  {
   "property": "C28",
   "status": "proved",
   "theorems": [
    "C28_equivalence_sound",
    "C28_sign_refuted"
   ],
   "note": "Soundness holds only up to sign; the sign-free expectation is refuted."
  },
  {
   "property": "C29",
   "status": "proved",
   "theorems": [
    "C29_consistency_complete"
   ],
   "note": ""
  },
  {
   "property": "C30",
   "status": "proved",
   "theorems": [
    "C30_consistency_sound",
    "C30_sign_refuted"
   ],
   "note": ""
  },
  {
   "property": "C31",
   "status": "proved",
   "theorems": [
    "C31_equivalence_hvzk",
    "C31_consistency_hvzk"
   ],
   "note": ""
  },
  {
   "property": "C32",
   "status": "proved",
   "theorems": [
    "C32_disjunctive_complete_left",
    "C32_disjunctive_complete_right"
   ],
   "note": ""
  },
  {
   "property": "C33",
   "status": "proved",
   "theorems": [
    "C33_disjunctive_sound"
   ],
   "note": ""
  },
  {
   "property": "C34",
   "status": "proved",
   "theorems": [
    "C34_side_visible_refuted",
    "C34_secret_leaks_refuted"
   ],
   "note": "The expectation is false of the code."
  },
  {
   "property": "C35",
   "status": "proved",
   "theorems": [
    "C35_abc_complete_left",
    "C35_abc_complete_right"
   ],
   "note": ""
  },
  {
   "property": "C36",
   "status": "proved",
   "theorems": [
    "C36_abc_disjunctive",
    "C36_abc_sound",
    "C36_product"
   ],
   "note": ""
  },
  {
   "property": "C37",
   "status": "proved",
   "theorems": [
    "C37_l_leaks_refuted",
    "C37_token_unchecked_refuted"
   ],
   "note": "The expectation is false of the code."
  },
  {
   "property": "C38",
   "status": "proved",
   "theorems": [
    "C38_inequality_complete"
   ],
   "note": ""
  },
  {
   "property": "C39",
   "status": "proved",
   "theorems": [
    "C39_equal_values_accepted_refuted"
   ],
   "note": "The expectation is false of the code."
  },
  {
   "property": "C40",
   "status": "proved",
   "theorems": [
    "C40_inequality_crash_refuted",
    "C40_zero_key_crash_refuted"
   ],
   "note": "The expectation is false of the code."
  },
  {
   "property": "C41",
   "status": "proved",
   "theorems": [
    "C41_range_error",
    "C41_boundary_refuted"
   ],
   "note": "Values outside 0..2^40 are rejected; the value 2^40 itself is refuted."
  },
  {
   "property": "C42",
   "status": "proved",
   "theorems": [
    "C42_range_complete",
    "C42_range_complete_scheduled"
   ],
   "note": ""
  },
  {
   "property": "C43",
   "status": "proved",
   "theorems": [
    "C43_large_digest_refuted"
   ],
   "note": "The expectation is false of the code."
  },
  {
   "property": "C44",
   "status": "proved",
   "theorems": [
    "C44_verify_schedule_independent",
    "C44_verify_no_deadlock",
    "C44_verify_terminates",
    "C44_verify_can_finish",
    "C44_verify_no_leak",
    "C44_leak_refuted",
    "C44_nil_race_refuted",
    "C44_prover_schedule_independent",
    "C44_prover_can_finish",
    "C44_phase_no_deadlock",
    "C44_phase_terminates"
   ],
   "note": "With a nil entry goroutines leak, and crash or error can depend on the schedule."
  },
  {
   "property": "C45",
   "status": "proved",
   "theorems": [
    "C45_accept_iff",
    "C45_extract_one",
    "C45_extract_zero",
    "C45_range_sound",
    "C45_fork_sound",
    "C45_fork_early",
    "C45_length_refuted",
    "C45_long_refuted"
   ],
   "note": "Soundness is stated by explicit extractors for the two possible forks of each ring; the number of rings is not checked."
  },
  {
   "property": "C46",
   "status": "proved",
   "theorems": [
    "C46_gspfs_answers",
    "C46_equivalence_answers",
    "C46_consistency_answers",
    "C46_disjunctive_answers",
    "C46_abc_answers",
    "C46_inequality_answers",
    "C46_range_answers",
    "C46_nil_abc_refuted",
    "C46_missing_challenge_refuted",
    "C46_oversized_refuted"
   ],
   "note": "The verifiers answer on every nil or complete proof with coordinates below 2^256 (on the curve or not) and, for range proofs, at most 64 entries (C45_long_refuted shows longer ones crash). The expectation for arbitrary proofs is refuted."
  },
  {
   "property": "C47",
   "status": "proved",
   "theorems": [
    "C47_gspfs_malleable_refuted",
    "C47_equivalence_malleable_refuted",
    "C47_consistency_malleable_refuted",
    "C47_disjunctive_malleable_refuted",
    "C47_abc_malleable_refuted"
   ],
   "note": "The expectation is false of the code."
  },
  {
   "property": "C48",
   "status": "proved",
   "theorems": [
    "C48_normalize",
    "C48_canonical_unique",
    "C48_add",
    "C48_addInt",
    "C48_mulInt",
    "C48_negate",
    "C48_mul",
    "C48_square",
    "C48_inverse",
    "C48_isZero",
    "C48_equals",
    "C48_isOdd"
   ],
   "note": "word-level model with explicit reduction modulo 2^32 and 2^64; magnitudes as documented in field.go"
  },
  {
   "property": "C49",
   "status": "proved",
   "theorems": [
    "C49_setBytes",
    "C49_bytes",
    "C49_setByteSlice"
   ],
   "note": ""
  },
  {
   "property": "C50",
   "status": "proved",
   "theorems": [
    "C50_add",
    "C50_double",
    "C50_is_on_curve",
    "C50_jacobian",
    "C50_oversized_refuted"
   ],
   "note": "Exactly the coordinates of more than 256 bits crash."
  },
  {
   "property": "C51",
   "status": "proved",
   "theorems": [
    "C51_scalar_mult",
    "C51_table_mult",
    "C51_curve_ok",
    "C51_testcurve_std"
   ],
   "note": "The two tables of precomputed multiples are parameters; the theorems about ScalarBaseMult and ScalarBaseMultH assume that the entries are the stated multiples."
  },
  {
   "property": "C52",
   "status": "proved",
   "theorems": [
    "C52_naf",
    "C52_splitK"
   ],
   "note": ""
  },
  {
   "property": "C53",
   "status": "proved",
   "theorems": [
    "C53_parameters",
    "C53_endomorphism"
   ],
   "note": ""
  },
  {
   "property": "C54",
   "status": "proved",
   "theorems": [
    "C54_format",
    "C54_roundtrip",
    "C54_sound",
    "C54_prefix5_refuted",
    "C54_total",
    "C54_injective",
    "C54_privkey",
    "C54_is_compressed",
    "C54_is_compressed_format",
    "C54_is_equal"
   ],
   "note": "The three encodings and the accepted set are characterised exactly. A 65-byte string with the undocumented first byte 5 (or any other lead byte that loses its low bit to 4) is accepted; C54_prefix5_refuted shows it."
  },
  {
   "property": "C55",
   "status": "proved",
   "theorems": [
    "C55_serialize_is_der",
    "C55_roundtrip",
    "C55_der_sound",
    "C55_der_complete",
    "C55_der_unique",
    "C55_ber_sound",
    "C55_ber_complete",
    "C55_crash_iff",
    "C55_never_crashes_refuted"
   ],
   "note": "The expectation that parsing never crashes is false of the code; C55_crash_iff gives the exact set of crashing inputs."
  },
  {
   "property": "C56",
   "status": "proved",
   "theorems": [
    "C56_verify_is_ecdsa",
    "C56_sign_total",
    "C56_sign_verifies",
    "C56_sign_boundary_refuted",
    "C56_compact_roundtrip",
    "C56_recover_sound",
    "C56_recover_verifies_refuted",
    "C56_recover_crash_refuted"
   ],
   "note": "Signing is correct for every nonce except one whose point has x = N, where the code keeps R = N; the theorem states that exception and C56_sign_boundary_refuted shows it. RecoverCompact does not verify what it returns and crashes on R = 0."
  },
  {
   "property": "C57",
   "status": "proved",
   "theorems": [
    "C57_shared_secret",
    "C57_secret_length_refuted",
    "C57_encrypt_is_ecies",
    "C57_roundtrip",
    "C57_decrypt_sound",
    "C57_padding_unchecked_refuted",
    "C57_decrypt_total",
    "C57_input_preserved",
    "C57_overwrites_caller_refuted"
   ],
   "note": "AES, SHA-256 and SHA-512 are parameters: any block cipher and any functions with 32- and 64-byte results. CBC, HMAC, PKCS#7 and the layout are modelled concretely."
  },
  {
   "property": "C58",
   "status": "proved",
   "theorems": [
    "C58_write_varint_faulty",
    "C58_write_varbytes_faulty"
   ],
   "note": ""
  },
  {
   "property": "C59",
   "status": "proved",
   "theorems": [
    "C59_generator_total",
    "C59_generated_tables_load",
    "C59_start",
    "C59_second_base",
    "C59_short_table_crashes",
    "C59_wrong_table_accepted_refuted",
    "C59_no_table"
   ],
   "note": "zlib and base64 are a parameter (decode). That the two texts embedded in the repository are what the generator writes is not proved here."
  },
  {
   "property": "C60",
   "status": "proved",
   "theorems": [
    "C60_constants_derived",
    "C60_vectors_in_kernel",
    "C60_sqrt_correct",
    "C60_sqrt_terminates",
    "C60_sqrt_diverges_refuted",
    "C60_sqrt_zero_refuted"
   ],
   "note": "The unbounded Newton loop is modelled with fuel; the set of inputs on which it never ends is characterised exactly."
  },
  {
   "property": "C61",
   "status": "proved",
   "theorems": [
    "C61_zero_bit_visible_refuted",
    "C61_proof_opens_refuted"
   ],
   "note": "The expectation is false of the code; the theorems show what an observer computes."
  },
  {
   "property": "C62",
   "status": "proved",
   "theorems": [
    "C62_private_key_leaks_refuted",
    "C62_zero_visible_refuted",
    "C62_order_visible_refuted"
   ],
   "note": "The expectation is false of the code; the theorems show what an observer computes."
  },
  {
   "property": "C63",
   "status": "proved",
   "theorems": [
    "C63_is_equal",
    "C63_malleable_refuted",
    "C63_serialize_verifies",
    "C63_digest_prefix"
   ],
   "note": ""
  },
  {
   "property": "C64",
   "status": "proved",
   "theorems": [
    "C64_gspfs",
    "C64_equivalence",
    "C64_consistency",
    "C64_disjunctive",
    "C64_abc",
    "C64_range"
   ],
   "note": ""
  },
  {
   "property": "C65",
   "status": "proved",
   "theorems": [
    "C65_gspfs_rewrite",
    "C65_equivalence_rewrite",
    "C65_consistency_rewrite",
    "C65_disjunctive_rewrite",
    "C65_abc_rewrite",
    "C65_range_rewrite",
    "C65_integer_encodings_refuted",
    "C65_many_encodings_refuted"
   ],
   "note": "Uniqueness of encodings is false of the code."
  },
  {
   "property": "C66",
   "status": "proved",
   "theorems": [
    "C66_range_forged_refuted",
    "C66_equivalence_forged_refuted",
    "C66_consistency_forged_refuted",
    "C66_abc_forged_refuted"
   ],
   "note": "The expectation is false of the code; the theorems exhibit accepted proofs of false statements."
  },
  {
   "property": "C67",
   "status": "proved",
   "theorems": [
    "C67_abc_meaning",
    "C67_token_refuted",
    "C67_unblinded_refuted"
   ],
   "note": "Both hypotheses of C67_abc_meaning are shown to be needed."
  },
  {
   "property": "C68",
   "status": "proved",
   "theorems": [
    "C68_range_y_ignored_refuted",
    "C68_negative_value_refuted",
    "C68_gspfs_offcurve_refuted"
   ],
   "note": "The expectation is false of the code; the theorems prove its negation."
  },
  {
   "property": "C69",
   "status": "proved",
   "theorems": [
    "C69_no_proof_without_randomness",
    "C69_failure_reported",
    "C69_range_crash_refuted"
   ],
   "note": "For the range prover the expectation is false: a failed draw crashes it."
  },
  {
   "property": "C70",
   "status": "proved",
   "theorems": [
    "C70_sign_is_rfc6979",
    "C70_sign_only_rfc6979",
    "C70_deterministic"
   ],
   "note": "SpecRfc6979.v restates RFC 2104 and RFC 6979; C70_case replays a published test vector."
  },
  {
   "property": "C71",
   "status": "proved",
   "theorems": [
    "C71_sums",
    "C71_audit_complete",
    "C71_audit_sound",
    "C71_keygen_refuted"
   ],
   "note": "The audit works and is sound for keys Mult(H, sk); for keys made by KeyGen the expectation is false."
  },
  {
   "property": "C72",
   "status": "proved",
   "theorems": [
    "C72_addJacobian",
    "C72_doubleJacobian",
    "C72_add",
    "C72_double",
    "C72_scalar_mult",
    "C72_table_mult",
    "C72_group"
   ],
   "note": "KoblitzMem.v models the methods statement by statement on a memory of fieldVal variables; each fieldVal method is one step."
  },
  {
   "property": "C73",
   "status": "proved",
   "theorems": [
    "C73_answers",
    "C73_finishes",
    "C73_no_race"
   ],
   "note": "Every access to a fieldVal variable is a scheduling point; *big.Int arguments and results are private to a call. The construction of the curve object, and sync.Once around it, is the subject of C80."
  },
  {
   "property": "C74",
   "status": "proved",
   "theorems": [
    "C74_calls",
    "C74_programs",
    "C74_memory",
    "C74_base_owned_refuted",
    "C74_zero_owned_refuted",
    "C74_neg_owned_refuted"
   ],
   "note": "ApiMem.v models the package statement by statement on pointers to integers. The curve's methods read their arguments, compute what Koblitz.v computes and allocate their results (C72 and C73 open them up); the goroutines of the range prover run one after the other here, and as separate goroutines in C75. The expectation that results belong to the caller alone is false in the three cases refuted."
  },
  {
   "property": "C75",
   "status": "proved",
   "theorems": [
    "C75_answers",
    "C75_results",
    "C75_finishes",
    "C75_no_race"
   ],
   "note": "Every access to an integer is a scheduling point; the curve's methods in between are covered at the level of their field variables by C73. The goroutines of the range prover and verifier are among the calls."
  },
  {
   "property": "C76",
   "status": "proved",
   "theorems": [
    "C76_in_place",
    "C76_inverse",
    "C76_read_only",
    "C76_byte_slice",
    "C76_arithmetic"
   ],
   "note": "FieldMem.v models every load and store of a word; the local variables of a method other than Inverse are values."
  },
  {
   "property": "C77",
   "status": "proved",
   "theorems": [
    "C77_answers",
    "C77_finishes",
    "C77_no_race"
   ],
   "note": "Every load and store of a word is a scheduling point; *big.Int arguments and results are private to a call."
  },
  {
   "property": "C78",
   "status": "proved",
   "theorems": [
    "C78_field_oblivious",
    "C78_arguments",
    "C78_on_curve",
    "C78_affine",
    "C78_scalar_mult_refuted",
    "C78_base_mult_refuted"
   ],
   "note": "Accesses to field variables and tables, in order. Time, instruction counts and the memory of *big.Int and byte slices are not modelled. The two _refuted theorems show that the constancy documented for field arithmetic fails for scalar multiplication."
  },
  {
   "property": "C79",
   "status": "proved",
   "theorems": [
    "C79_set_hex",
    "C79_set_hex_long_refuted",
    "C79_set_hex_invalid_refuted",
    "C79_string",
    "C79_from_hex",
    "C79_printed_number",
    "C79_vectors",
    "C79_base64",
    "C79_quote",
    "C79_regenerate"
   ],
   "note": "zlib is a parameter: any compression that can be undone and never yields an empty result. String literals are read for ASCII texts. hex.DecodeString returns the bytes before the error, as documented."
  },
  {
   "property": "C80",
   "status": "proved",
   "theorems": [
    "C80_complete",
    "C80_stable",
    "C80_exclusive",
    "C80_terminates",
    "C80_no_deadlock",
    "C80_failed_init_refuted"
   ],
   "note": "sync.Once as in the standard library (flag, lock, flag again, deferred store and unlock). One step is one assignment to a field or one operation on the flag or the lock; sequential consistency is assumed, which the Once guarantees for what happens before its return."
  },
  {
   "property": "C81",
   "status": "proved",
   "theorems": [
    "C81_same",
    "C81_read_bounded",
    "C81_complete_bounded",
    "C81_amplified_refuted",
    "C81_digits_refuted"
   ],
   "note": "Counts the arguments of make in the package and in wire; big.Int storage and the growth of library buffers are not counted. The panic of make above 2^48 bytes is in the model of the decoders (C05, C08)."
  },
  {
   "property": "C82",
   "status": "proved",
   "theorems": [
    "C82_gspfs",
    "C82_equivalence",
    "C82_consistency",
    "C82_disjunctive",
    "C82_abc",
    "C82_nonce_known",
    "C82_nonce_repeated"
   ],
   "note": "The range proof is not part of this claim. The curve of the parameters is only assumed to have the group order N, so the statement also holds for points off the curve."
  },
  {
   "property": "C83",
   "status": "proved",
   "theorems": [
    "C83_readers",
    "C83_portions",
    "C83_any_reader",
    "C83_silent_reader",
    "C83_clean_end_refuted",
    "C83_writers"
   ],
   "note": "The sentence about io.EOF is refuted by C83_clean_end_refuted, as in the property."
  },
  {
   "property": "C84",
   "status": "proved",
   "theorems": [
    "C84_rand_int",
    "C84_uniform",
    "C84_order",
    "C84_schedules",
    "C84_sequence",
    "C84_counts",
    "C84_commit",
    "C84_zero_knowledge",
    "C84_range_schedule",
    "C84_range_draws",
    "C84_keys",
    "C84_disjunctive",
    "C84_disjunctive_reveals_refuted",
    "C84_private_key",
    "C84_uint64"
   ],
   "note": "The source is a string of bytes, every string of a length equally likely; chances are compared by bijections (asMany), which C84_counts turns into equal counts. rand.Int and GenerateKey as in Go 1.12. Disjunctive proofs are simulated only after their responses are reduced; as published they show side and secret in a third of the cases or more."
  },
  {
   "property": "C85",
   "status": "proved",
   "theorems": [
    "C85_texts_only_added",
    "C85_gspfs",
    "C85_equivalence",
    "C85_consistency",
    "C85_disjunctive",
    "C85_abc",
    "C85_range",
    "C85_nil",
    "C85_provers",
    "C85_abc_prover",
    "C85_inequality_prover",
    "C85_source_error_lost_refuted",
    "C85_range_prover",
    "C85_range_text_reveals_refuted",
    "C85_decimal",
    "C85_pubkey",
    "C85_signature",
    "C85_proof_status"
   ],
   "note": "The two _refuted theorems are the exceptions the statement names. The text of the error of the random source is a parameter."
  },
  {
   "property": "C86",
   "status": "proved",
   "theorems": [
    "C86_gspfs",
    "C86_equivalence",
    "C86_consistency",
    "C86_disjunctive",
    "C86_abc",
    "C86_inequality",
    "C86_abc_length_reveals_refuted",
    "C86_inequality_length_reveals_refuted",
    "C86_range",
    "C86_range_length_reveals_refuted",
    "C86_signature",
    "C86_public_key",
    "C86_encrypt"
   ],
   "note": "The _refuted theorems show that the length is not independent of the secret. Every integer of 32 bytes is written as a string of 33 (a sign byte), more than the limit of 32 the decoders pass and ignore (C05)."
  },
  {
   "property": "C87",
   "status": "proved",
   "theorems": [
    "C87_equivalence",
    "C87_equivalence_chosen",
    "C87_gspfs",
    "C87_gspfs_finds",
    "C87_disjunctive",
    "C87_disjunctive_finds",
    "C87_consistency",
    "C87_consistency_finds",
    "C87_consistency_twice",
    "C87_consistency_twice_finds",
    "C87_abc",
    "C87_abc_finds"
   ],
   "note": "The hash function is a random function answered from a tape. The points of the forged proof are on the curve (C68 shows what happens otherwise) and the GSPFS base is given (C24). Falsity is up to sign (C28). The factors 33^k are the ways to cut the hashed string into coordinates (C15)."
  },
  {
   "property": "C88",
   "status": "proved",
   "theorems": [
    "C88_gspfs",
    "C88_equivalence",
    "C88_consistency"
   ],
   "note": "The hash function is a random function answered from a tape and reprogrammed by the simulator. The draws are uniform below N, see C84. Disjunctive, ABC, inequality and range proofs are left out: their responses are not reduced modulo N, so they do tell something (C34, C37, C61, C62, C86)."
  },
  {
   "property": "C89",
   "status": "proved",
   "theorems": [
    "C89_decrypt",
    "C89_no_padding_oracle",
    "C89_recover_compact",
    "C89_read_varint",
    "C89_sign"
   ],
   "note": "Timing is not modelled: the texts and results are equal, not the time taken. RecoverCompact is covered where it does not crash, see C56_recover_crash_refuted."
  }
 ]
}