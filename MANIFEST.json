{
 "claims": [
  {
   "property": "C01",
   "status": "proved",
   "theorems": [
    "C01_field2bits_sound_complete"
   ],
   "note": "Soundness for every satisfying assignment and honest completeness of field2bits_strict (254 bits), for every placement on the protoboard."
  },
  {
   "property": "C02",
   "status": "partial",
   "theorems": [
    "C02_field2bits_unique_refuted",
    "C02_field2bits_every_small_value_has_two_decodings",
    "C02_field2bits_decodings_partial"
   ],
   "note": "REFUTED by counterexample: the comparison result is never constrained to be 1, so the digits of value+p are accepted for every value below 2^254-p (C02_field2bits_every_small_value_has_two_decodings). What holds: there is no third decoding (C02_field2bits_decodings_partial)."
  },
  {
   "property": "C03",
   "status": "proved",
   "theorems": [
    "C03_lookup_1bit",
    "C03_lookup_2bit"
   ],
   "note": "Both directions, all tables; behaviour on non-boolean selectors included."
  },
  {
   "property": "C04",
   "status": "proved",
   "theorems": [
    "C04_lookup_3bit",
    "C04_lookup_signed_3bit"
   ],
   "note": "Both directions for all tables, honest witness included."
  },
  {
   "property": "C05",
   "status": "proved",
   "theorems": [
    "C05_isnonzero"
   ],
   "note": ""
  },
  {
   "property": "C06",
   "status": "proved",
   "theorems": [
    "C06_merkle_selector"
   ],
   "note": "Both directions for boolean is_right."
  },
  {
   "property": "C07",
   "status": "proved",
   "theorems": [
    "C07_merkle_path_compute",
    "C07_merkle_path_compute_mimc",
    "C07_merkle_path_compute_rejects",
    "C07_mimc_meets_hash_contract"
   ],
   "note": "For every HashT meeting the stated contract, and instantiated with the MiMC hash; rejected shapes abort, a short path is undefined behaviour."
  },
  {
   "property": "C08",
   "status": "proved",
   "theorems": [
    "C08_merkle_authenticator",
    "C08_merkle_authenticator_binding"
   ],
   "note": "Authenticator constraints are satisfiable iff the expected root is the computed one; two accepted leaves at one address are equal or the two paths exhibit a collision."
  },
  {
   "property": "C09",
   "status": "partial",
   "theorems": [
    "C09_one_of_n_membership_refuted",
    "C09_one_of_n_constraints_first_accepts_anything",
    "C09_one_of_n_witness_first_refuted",
    "C09_one_of_n_witness_first_partial"
   ],
   "note": "REFUTED in both orders of use. Constraints first: the first running sum is not linked to the first toggle, so anything is accepted. Witness first: the constraints contain the value of our_item as a constant and do not mention the variable. C09_one_of_n_witness_first_partial: with the witness first, the baked-in value is one of the items in every satisfying assignment and the honest witness of a member is accepted."
  },
  {
   "property": "C10",
   "status": "proved",
   "theorems": [
    "C10_subadd_range_checked",
    "C10_subadd_constructible",
    "C10_subadd_size_limit"
   ],
   "note": "All sizes 1..252 accepted by the constructor; other sizes abort."
  },
  {
   "property": "C11",
   "status": "partial",
   "theorems": [
    "C11_subadd_unchecked_inputs_refuted",
    "C11_subadd_unchecked_inputs_partial"
   ],
   "note": "REFUTED by counterexample A=0,B=0,N=-1 (Y=p-1). C11_subadd_unchecked_inputs_partial states what does hold without range checks: X is an n-bit number, X+Y=A+B in the field, Y is in (-2^n,2^n)."
  },
  {
   "property": "C12",
   "status": "proved",
   "theorems": [
    "C12_padding_honest",
    "C12_padding_rejects"
   ],
   "note": "All block sizes >= 64 bits (512 for SHA-256). size_t wrap-around for inputs near 2^64 bits is not modelled."
  },
  {
   "property": "C13",
   "status": "partial",
   "theorems": [
    "C13_padding_enforced_refuted",
    "C13_padding_zeros_are_free",
    "C13_padding_enforced_partial"
   ],
   "note": "REFUTED: the 'padding bits are zero' constraint is block[j]*0=0; the zero bits of every message's padding are unconstrained. The _partial theorem gives exactly what is enforced (first padding bit and length)."
  },
  {
   "property": "C14",
   "status": "proved",
   "theorems": [
    "C14_mimc_e5_gadget",
    "C14_mimc_e7_gadget",
    "C14_mimc_native",
    "C14_mimc_no_rounds_is_ub"
   ],
   "note": "Exponents 5 and 7, all round-constant lists; native functions included."
  },
  {
   "property": "C15",
   "status": "proved",
   "theorems": [
    "C15_mimc_e5_permutation",
    "C15_mimc_e7_permutation",
    "C15_mimc_gadget_permutation"
   ],
   "note": "Decryption exhibited; both exponents; lifted to the gadgets."
  },
  {
   "property": "C16",
   "status": "proved",
   "theorems": [
    "C16_mimc_hash_e5",
    "C16_mimc_hash_e7",
    "C16_mimc_hash_native",
    "C16_mimc_hash_no_message_is_ub"
   ],
   "note": "All message lengths; native hash included."
  },
  {
   "property": "C17",
   "status": "proved",
   "theorems": [
    "C17_poseidon_gadget",
    "C17_poseidon_permute",
    "C17_poseidon_bad_parameters",
    "C17_poseidon_short_inputs_is_ub"
   ],
   "note": "All widths, round counts with at least 4 full and 1 partial rounds, constants, matrices, input and output counts up to the width. Smaller round counts make the constructor fail (stated)."
  },
  {
   "property": "C18",
   "status": "proved",
   "theorems": [
    "C18_shamir_honest",
    "C18_shamir_two_coefficients_is_ub",
    "C18_shamir_short_rejected"
   ],
   "note": "At least three coefficients; two coefficients read past the end (undefined behaviour) and fewer are rejected, both stated."
  },
  {
   "property": "C19",
   "status": "partial",
   "theorems": [
    "C19_shamir_sound_refuted",
    "C19_shamir_any_result_accepted",
    "C19_shamir_sound_partial"
   ],
   "note": "REFUTED: the second power variable is not tied to the input, so any result is accepted when alpha_1 is non-zero. C19_shamir_sound_partial gives soundness when that variable equals the input or alpha_1 is zero."
  },
  {
   "property": "C20",
   "status": "proved",
   "theorems": [
    "C20_edwards_addition_complete"
   ],
   "note": "Completeness from a being a square and d a non-square in the scalar field (Euler criterion evaluated in the kernel)."
  },
  {
   "property": "C21",
   "status": "proved",
   "theorems": [
    "C21_edwards_commutative_group"
   ],
   "note": "Associativity proved by explicit polynomial certificates."
  },
  {
   "property": "C22",
   "status": "proved",
   "theorems": [
    "C22_point_adder",
    "C22_point_doubler"
   ],
   "note": "Both directions: the sum is the only and a possible result; witness generator runs without division by zero."
  },
  {
   "property": "C23",
   "status": "proved",
   "theorems": [
    "C23_is_on_curve"
   ],
   "note": "The witness satisfies the constraints iff the point is on the curve."
  },
  {
   "property": "C24",
   "status": "proved",
   "theorems": [
    "C24_point_validator_exact",
    "C24_point_validator"
   ],
   "note": "Both directions with the exact condition 8P <> O (C24_point_validator_exact, from the order of the curve, C67/C68)."
  },
  {
   "property": "C25",
   "status": "proved",
   "theorems": [
    "C25_scalar_mult",
    "C25_scalar_mult_short"
   ],
   "note": "Any scalar length >= 2; shorter scalars abort in the constructor."
  },
  {
   "property": "C26",
   "status": "proved",
   "theorems": [
    "C26_fixed_base_mul",
    "C26_two_bit_scalar_is_ub",
    "C26_odd_scalar_aborts"
   ],
   "note": "Any even scalar length >= 4; length 2 leaves no adder and reading the result is undefined behaviour."
  },
  {
   "property": "C27",
   "status": "proved",
   "theorems": [
    "C27_commitment"
   ],
   "note": "Any number >= 2 of points and any even scalar lengths >= 4."
  },
  {
   "property": "C28",
   "status": "proved",
   "theorems": [
    "C28_to_montgomery",
    "C28_from_montgomery",
    "C28_conversions_abort",
    "C28_montgomery_to_edwards_gadget"
   ],
   "note": "Conversions are mutually inverse on all curve points where they are defined, abort exactly on (0,1),(0,-1) resp. (0,0); MontgomeryToEdwards constraints are exactly that map."
  },
  {
   "property": "C29",
   "status": "partial",
   "theorems": [
    "C29_montgomery_adder_partial",
    "C29_equal_points_unconstrained",
    "C29_montgomery_adder_refuted"
   ],
   "note": "REFUTED for equal points: the lambda constraint becomes 0*lambda=0 and any lambda is accepted (C29_montgomery_adder_refuted, C29_equal_points_unconstrained). Proved for all pairs with different abscissae."
  },
  {
   "property": "C30",
   "status": "proved",
   "theorems": [
    "C30_windowed_pedersen",
    "C30_large_order_bases"
   ],
   "note": "For all window counts, bits, bases and assignments under the statement's non-exceptional condition (Spec_Mont.regular, non_exceptional); C30_large_order_bases derives the condition for all bit strings from bases of order at least 2^248."
  },
  {
   "property": "C31",
   "status": "proved",
   "theorems": [
    "C31_window_bookkeeping",
    "C31_single_window_is_ub",
    "C31_short_base_list_is_ub"
   ],
   "note": "No out-of-range read for any window count >= 2, every window has the table of its own position; one window is UB; C31_short_base_list_is_ub shows the code's assert does not protect when ceilf rounds down."
  },
  {
   "property": "C32",
   "status": "partial",
   "theorems": [
    "C32_basepoints_required_partial",
    "C32_basepoints_required_refuted"
   ],
   "note": "REFUTED for large bit counts (float rounding, 67109547 bits). Proved exact for all 0 <= n <= 2^24."
  },
  {
   "property": "C33",
   "status": "proved",
   "theorems": [
    "C33_pure_eddsa",
    "C33_eddsa"
   ],
   "note": "For every base-point function meeting good_bases (right count, on curve, order >= 2^248), all keys, signatures, messages and assignments: soundness, extension of every admissible opening, behaviour of the honest witness. A is assumed on the curve (the gadget does not check it)."
  },
  {
   "property": "C34",
   "status": "partial",
   "theorems": [
    "C34_challenge_not_determined_refuted"
   ],
   "note": "REFUTED: for every message and all base points of the prime-order subgroup there are A, R and two satisfying assignments with different challenges (the decomposition of R.x into 254 bits is not unique)."
  },
  {
   "property": "C35",
   "status": "proved",
   "theorems": [
    "C35_from_y_always",
    "C35_choice_of_root_irrelevant",
    "C35_from_hash",
    "C35_make_basepoint",
    "C35_make_basepoints",
    "C35_make_basepoint_rejects"
   ],
   "note": "For every square-root function of the library and every SHA-256 context; includes when the search fails (Abort) and that the result does not depend on the root chosen. The repository's test vectors are reproduced in the Example."
  },
  {
   "property": "C36",
   "status": "partial",
   "theorems": [
    "C36_basepoint_inputs_refuted",
    "C36_basepoint_inputs_partial"
   ],
   "note": "REFUTED: trailing spaces of the name are indistinguishable from padding. The _partial theorem: equal inputs iff equal sequence numbers and names equal up to trailing spaces."
  },
  {
   "property": "C37",
   "status": "proved",
   "theorems": [
    "C37_bytes_bits_bytes",
    "C37_bits_bytes_bits",
    "C37_trailing_bits_dropped",
    "C37_short_buffer_overrun"
   ],
   "note": "Both directions, plus what happens with trailing bits and short buffers."
  },
  {
   "property": "C38",
   "status": "partial",
   "theorems": [
    "C38_int_list_to_bits_refuted",
    "C38_int_list_to_bits_two_words_undefined",
    "C38_int_list_to_bits_partial",
    "C38_bit_list_to_ints"
   ],
   "note": "REFUTED: any list of two or more words, including the documented example, shifts out of range (UB). The _partial theorem covers single words; bit_list_to_ints is fully characterised."
  },
  {
   "property": "C39",
   "status": "proved",
   "theorems": [
    "C39_hex_to_bytes",
    "C39_round_trip",
    "C39_empty"
   ],
   "note": "Full case analysis, buffer contents included."
  },
  {
   "property": "C40",
   "status": "proved",
   "theorems": [
    "C40_bytes_to_FieldT"
   ],
   "note": "mpz_import and FieldT(bigint) are library functions modelled by their documented meaning."
  },
  {
   "property": "C41",
   "status": "proved",
   "theorems": [
    "C41_key_round_trip",
    "C41_affine_key_round_trip",
    "C41_proof_round_trip",
    "C41_affine_proof_round_trip"
   ],
   "note": "Finite points. Round trip through the emitted text and any JSON parser that reads the RFC 8259 fragment of Spec_Export.v (an instance is built); G2 points affine or with both components of Z non-zero (otherwise see C42)."
  },
  {
   "property": "C42",
   "status": "partial",
   "theorems": [
    "C42_g2_export_affine_partial",
    "C42_g2_export_exact",
    "C42_unnormalised_export_off_curve",
    "C42_g2_export_refuted"
   ],
   "note": "REFUTED for representations with exactly one zero component in Z (witness: the G2 generator with Z = 2): the coordinates are printed unnormalised. Proved where the exporter normalises or Z = 1, with an exact characterisation; unnormalised points are read back off the twist unless Z^6 = 1."
  },
  {
   "property": "C43",
   "status": "partial",
   "theorems": [
    "C43_stub_verify_partial",
    "C43_dll_partial",
    "C43_stub_main_partial",
    "C43_verify_main_partial",
    "C43_undefined_exactly",
    "C43_no_undefined_refuted"
   ],
   "note": "Success is reported exactly for valid proofs (all entry points). REFUTED for 'every other path has a non-success result': a key with an empty gammaABC list is undefined behaviour, and that is the only such case."
  },
  {
   "property": "C44",
   "status": "proved",
   "theorems": [
    "C44_groth16_completeness",
    "C44_generator_total"
   ],
   "note": "Over an abstract pairing with the group and bilinearity laws as explicit hypotheses (instantiated in the Example), with the QAP reduction and witness map of the library written out."
  },
  {
   "property": "C45",
   "status": "partial",
   "theorems": [
    "C45_prover_never_aborts_refuted",
    "C45_prover_abort_condition_partial"
   ],
   "note": "REFUTED: for x*y=z with x=y=z=0 the prover aborts for every key. The partial theorem gives the exact abort condition for every satisfied system: A or B has a zero top coefficient."
  },
  {
   "property": "C46",
   "status": "proved",
   "theorems": [
    "C46_strong_verifier_decides",
    "C46_affine_verifier_agrees"
   ],
   "note": ""
  },
  {
   "property": "C47",
   "status": "proved",
   "theorems": [
    "C47_circuit_witness_satisfies"
   ],
   "note": "All circuits of the named gates in single-assignment form; also gives the values of all wires."
  },
  {
   "property": "C48",
   "status": "partial",
   "theorems": [
    "C48_constraints_determine_refuted"
   ],
   "note": "REFUTED as stated: a split with 254 outputs admits two decompositions of a field element. True with at most 253 outputs: see C61."
  },
  {
   "property": "C49",
   "status": "partial",
   "theorems": [
    "C49_zerop_refuted",
    "C49_zerop_nonzero_never_satisfied",
    "C49_zerop_sound_partial"
   ],
   "note": "REFUTED: no circuit with a zerop gate on a non-zero value has a satisfied evaluated witness; the constraints themselves are sound (partial)."
  },
  {
   "property": "C50",
   "status": "partial",
   "theorems": [
    "C50_table8_sound_refuted",
    "C50_table8_complete_refuted",
    "C50_table8_output_is_free",
    "C50_table8_never_satisfied"
   ],
   "note": "REFUTED: the output wire is unconstrained, and the evaluated witness fails whenever the selected entry is non-zero."
  },
  {
   "property": "C51",
   "status": "partial",
   "theorems": [
    "C51_outputs_public_refuted",
    "C51_public_wires_partial"
   ],
   "note": "REFUTED: outputs are not public. The partial theorem characterises the public wires of every circuit file."
  },
  {
   "property": "C52",
   "status": "partial",
   "theorems": [
    "C52_same_numbering_refuted",
    "C52_same_numbering_partial"
   ],
   "note": "REFUTED for circuits with zerop. The partial theorem proves identical numbering and constraints for plain gates in dependency order."
  },
  {
   "property": "C53",
   "status": "proved",
   "theorems": [
    "C53_blake2b_streaming_is_rfc7693",
    "C53_blake2b_chunking_invariant",
    "C53_blake2b_illegal_parameters",
    "C53_digest_shape"
   ],
   "note": "All messages, keys, lengths and splits, from a context with arbitrary contents; refinement to RFC 7693 including the compression function, plus memory safety and rejection of illegal parameters."
  },
  {
   "property": "C54",
   "status": "proved",
   "theorems": [
    "C54_sha256_streaming_is_fips",
    "C54_sha256_oneshot_is_fips",
    "C54_sha256_chunking_invariant",
    "C54_sha224_streaming_is_fips",
    "C54_fips_padding_is_minimal"
   ],
   "note": "SHA256 and SHA224 of crypto/sha256.c with the md32_common.h buffering, for every message and split, against FIPS 180-4 (constants from prime roots, bit-level padding); includes memory safety. The 64-bit length counter wraps as in the standard's length field, so no length bound is needed."
  },
  {
   "property": "C55",
   "status": "partial",
   "theorems": [
    "C55_merkle_ivs_fixed_refuted"
   ],
   "note": "REFUTED by counterexample: merkle_tree_IVs only assigns values; for every choice of 29 values there is a satisfying assignment of the authenticator."
  },
  {
   "property": "C56",
   "status": "partial",
   "theorems": [
    "C56_merkle_unconstrained_address_refuted"
   ],
   "note": "REFUTED by counterexample: with a non-boolean address value any x with 2x<>L+R is accepted as a leaf of the tree with leaves L,R. C08 is the positive statement for boolean addresses."
  },
  {
   "property": "C57",
   "status": "partial",
   "theorems": [
    "C57_one_of_n_honest_constraints_first_refuted"
   ],
   "note": "REFUTED by counterexample: with constraints generated before the witness the honest witness fails when our item is the first item."
  },
  {
   "property": "C58",
   "status": "proved",
   "theorems": [
    "C58_generator_order"
   ],
   "note": "Pocklington certificate for L and a checked double-and-add chain for L*G = O."
  },
  {
   "property": "C59",
   "status": "proved",
   "theorems": [
    "C59_pure_eddsa_open_exact",
    "C59_eddsa_open_exact",
    "C59_pure_eddsa_open",
    "C59_eddsa_open"
   ],
   "note": "Result of eddsa_open for on-curve B, A, R and every base-point function meeting good_bases; the _exact forms state the low-order condition as 8R <> O."
  },
  {
   "property": "C60",
   "status": "partial",
   "theorems": [
    "C60_private_inputs_refuted",
    "C60_private_inputs_partial"
   ],
   "note": "REFUTED: a nizkinput declared before an input is public. True (partial) when input lines come first."
  },
  {
   "property": "C61",
   "status": "proved",
   "theorems": [
    "C61_constraints_determine_outputs"
   ],
   "note": "Soundness for all circuits and satisfying assignments; assertions and split ranges are conclusions, not hypotheses."
  },
  {
   "property": "C62",
   "status": "proved",
   "theorems": [
    "C62_violated_system_rejected"
   ],
   "note": ""
  },
  {
   "property": "C63",
   "status": "proved",
   "theorems": [
    "C63_weak_verifier_pads_with_zeros"
   ],
   "note": ""
  },
  {
   "property": "C64",
   "status": "proved",
   "theorems": [
    "C64_poseidon_constants",
    "C64_no_constants_wraps"
   ],
   "note": "All seeds and counts 1..2^32-1. For count 0 the unsigned trip count wraps and 2^32 constants are produced (C64_no_constants_wraps)."
  },
  {
   "property": "C65",
   "status": "proved",
   "theorems": [
    "C65_poseidon_matrix",
    "C65_poseidon_matrix_is_mds"
   ],
   "note": "Abort condition, Cauchy entries and the MDS branch number for every seed and width with distinct constants."
  },
  {
   "property": "C66",
   "status": "proved",
   "theorems": [
    "C66_poseidon128_parameters",
    "C66_mds_permutation_injective",
    "C66_poseidon128_gadget_injective"
   ],
   "note": "The twelve matrix constants are computed in the kernel and shown distinct; injectivity follows from MDS and x^5 being a permutation."
  },
  {
   "property": "C67",
   "status": "proved",
   "theorems": [
    "C67_curve_order",
    "C67_curve_exponent"
   ],
   "note": "Counting argument: at most 2p points, 8L exhibited, 16L > 2p."
  },
  {
   "property": "C68",
   "status": "proved",
   "theorems": [
    "C68_cofactor_clears",
    "C68_subgroup_test",
    "C68_low_order_test"
   ],
   "note": ""
  },
  {
   "property": "C69",
   "status": "proved",
   "theorems": [
    "C69_ram_base_points",
    "C69_message_base_points",
    "C69_other_names",
    "C69_pure_eddsa_open",
    "C69_eddsa_open"
   ],
   "note": "The ten base points are certified in the kernel (SHA-256 digests, square roots, doublings)."
  },
  {
   "property": "C70",
   "status": "partial",
   "theorems": [
    "C70_unique_scalar_refuted",
    "C70_every_signature_is_malleable",
    "C70_unique_scalar_partial"
   ],
   "note": "REFUTED: s and s+L are both accepted, for every message (and for every accepted signature with s+L < p). True modulo L (_partial)."
  },
  {
   "property": "C71",
   "status": "partial",
   "theorems": [
    "C71_neutral_key_refuted"
   ],
   "note": "REFUTED: under A = (0,1) the signature (4G, 4) is accepted for every message."
  },
  {
   "property": "C72",
   "status": "partial",
   "theorems": [
    "C72_input_aliases",
    "C72_canonical_inputs_refuted"
   ],
   "note": "REFUTED: every field element x has the notations x + k*p < 2^256, all accepted."
  },
  {
   "property": "C73",
   "status": "partial",
   "theorems": [
    "C73_infinity_read_back_off_curve",
    "C73_infinity_round_trip_refuted"
   ],
   "note": "REFUTED: infinity is exported as (0, 1) and read back as the finite point (0, 1), which is not on the curve."
  },
  {
   "property": "C74",
   "status": "proved",
   "theorems": [
    "C74_exported_verifies_alike"
   ],
   "note": ""
  },
  {
   "property": "C75",
   "status": "proved",
   "theorems": [
    "C75_libsnark_compression_ok",
    "C75_sha256_many_honest"
   ],
   "note": "For every compression gadget that meets the contract compressor_ok; C75_libsnark_compression_ok proves the contract of libsnark's gadget, modelled constraint by constraint from its published source."
  },
  {
   "property": "C76",
   "status": "partial",
   "theorems": [
    "C76_sha256_many_sound_refuted",
    "C76_sha256_many_filler_free",
    "C76_sha256_many_sound_partial"
   ],
   "note": "REFUTED: the filler bits between the first padding bit and the length are unconstrained, so every message has a satisfying assignment for every filler (C76_sha256_many_filler_free). C76_sha256_many_sound_partial gives the digest when the filler variables are zero; missing are constraints that force this."
  },
  {
   "property": "C77",
   "status": "proved",
   "theorems": [
    "C77_sha256_full_honest"
   ],
   "note": "For the overload without arguments. The input and output variables are distinct and allocated before the gadget."
  },
  {
   "property": "C78",
   "status": "partial",
   "theorems": [
    "C78_sha256_full_sound_refuted",
    "C78_sha256_full_padding_free",
    "C78_sha256_full_sound_partial"
   ],
   "note": "REFUTED: the 512 padding variables are assigned in the constructor but never constrained; any padding block is accepted (C78_sha256_full_padding_free). C78_sha256_full_sound_partial: sound when they hold the padding."
  },
  {
   "property": "C79",
   "status": "partial",
   "theorems": [
    "C79_full_witness_overloads_refuted",
    "C79_full_witness_expected_never_satisfies",
    "C79_full_witness_bytes_never_satisfies"
   ],
   "note": "REFUTED, and for every block and every expected digest: final_hasher.generate_r1cs_witness is not called, so its variables keep the value zero while its first constraint needs 2^31."
  },
  {
   "property": "C80",
   "status": "partial",
   "theorems": [
    "C80_sha256_many_any_length_refuted",
    "C80_sha256_many_aborts"
   ],
   "note": "REFUTED: bits2blocks_padded asserts that the length is a positive multiple of eight; C80_sha256_many_aborts describes all other lengths."
  },
  {
   "property": "C81",
   "status": "proved",
   "theorems": [
    "C81_circuit_text_read",
    "C81_inputs_text_read",
    "C81_files_read"
   ],
   "note": "The format is the inductive grammar of Spec_Lexer (numbers below 2^32 for wires, 2^256 for constants; single blanks around keywords as jsnark writes them)."
  },
  {
   "property": "C82",
   "status": "partial",
   "theorems": [
    "C82_circuit_memory_refuted",
    "C82_long_word_overflows",
    "C82_circuit_memory_safe_partial"
   ],
   "note": "REFUTED: the first word of a line goes to a buffer of 200 characters; every longer word not starting with # i n o t overflows it (C82_long_word_overflows). C82_circuit_memory_safe_partial: with no such word and no number of more than 64 hexadecimal digits the reader has no undefined behaviour; the line-sized buffers never overflow."
  },
  {
   "property": "C83",
   "status": "partial",
   "theorems": [
    "C83_wire_numbers_refuted",
    "C83_wire_number_wraps",
    "C83_wire_list_dropped",
    "C83_wire_numbers_partial"
   ],
   "note": "REFUTED: wire numbers are truncated to 32 bits, so input 4294967297 declares wire 1 (C83_wire_number_wraps gives the general rule); a wire list is cut at such a number. C83_wire_numbers_partial: below 2^32 lines denote the wires written."
  },
  {
   "property": "C84",
   "status": "partial",
   "theorems": [
    "C84_inputs_refuted",
    "C84_not_hexadecimal_is_zero",
    "C84_two_separators_overflow",
    "C84_inputs_line_partial",
    "C84_inputs_memory_safe_partial"
   ],
   "note": "REFUTED: a value with any non-hexadecimal character (for example 0x10) silently sets 0; two separators overflow a two-character buffer on every such line. C84_inputs_line_partial and C84_inputs_memory_safe_partial give the conditions under which the line is read correctly and without memory errors."
  },
  {
   "property": "C85",
   "status": "proved",
   "theorems": [
    "C85_eval_prints_outputs"
   ],
   "note": "Circuits as in C47 (no zerop, no table of eight entries), files as in C81; holds for eval and trace, whatever the stubs do."
  },
  {
   "property": "C86",
   "status": "partial",
   "theorems": [
    "C86_exit_status_refuted",
    "C86_exit_status_always_zero",
    "C86_genkeys_warns"
   ],
   "note": "REFUTED: eval exits with 0 after printing not satisfied; the status of eval, trace and prove is always 0 when they return (C86_exit_status_always_zero), and key generation prints the message for circuits that are in order (C86_genkeys_warns)."
  },
  {
   "property": "C87",
   "status": "proved",
   "theorems": [
    "C87_contract_point_add",
    "C87_contract_point_double"
   ],
   "note": "for all points on the curve, using the completeness of the addition law proved for C20"
  },
  {
   "property": "C88",
   "status": "proved",
   "theorems": [
    "C88_contract_scalar_mult"
   ],
   "note": ""
  },
  {
   "property": "C89",
   "status": "proved",
   "theorems": [
    "C89_contract_scalar_mult_naf"
   ],
   "note": ""
  },
  {
   "property": "C90",
   "status": "partial",
   "theorems": [
    "C90_naf5_refuted",
    "C90_naf5_returns_zero",
    "C90_naf5_wrong_multiple",
    "C90_naf5_partial"
   ],
   "note": "REFUTED: for every scalar up to 2^254 that is even or above 15 it returns (0, 0), which is not on the curve (C90_naf5_returns_zero), and for 5, 7, ..., 15 it returns (v+3)/2 times the point (C90_naf5_wrong_multiple); it is right for 0, 1, 3 (C90_naf5_partial)."
  },
  {
   "property": "C91",
   "status": "partial",
   "theorems": [
    "C91_eddsa_refuted",
    "C91_eddsa_accepts_iff",
    "C91_eddsa_valid_rejected",
    "C91_eddsa_honest_rejected",
    "C91_eddsa_reveals_key",
    "C91_generator_order"
   ],
   "note": "REFUTED: R is not used in the equation; the contract accepts exactly when s B = t A (C91_eddsa_accepts_iff), so a valid signature is accepted only if R is neutral, honest signatures are always rejected, and every accepted signature reveals the secret key."
  },
  {
   "property": "C92",
   "status": "proved",
   "theorems": [
    "C92_circuit_constants",
    "C92_generated_constants"
   ],
   "note": "constants_fill modelled over Keccak-256 (Spec_Keccak.v); equality of all literals computed in the kernel"
  },
  {
   "property": "C93",
   "status": "partial",
   "theorems": [
    "C93_permutation_e7",
    "C93_permutation_e5",
    "C93_generated_refuted",
    "C93_generated_wraps_e7",
    "C93_generated_wraps_e5",
    "C93_generated_e7_partial",
    "C93_generated_e5_partial"
   ],
   "note": "REFUTED for the generated contracts: they add with wrap-around at 2^256, and whenever x + k >= 2^256 (k <= 2^256-2p) they return another value. Proved for MiMC_permutation on all words, and for the generated contracts whenever the sums stay below 2^256 (all reduced inputs)."
  },
  {
   "property": "C94",
   "status": "partial",
   "theorems": [
    "C94_hash_mp",
    "C94_hash_md",
    "C94_hash_matches_native",
    "C94_hash_alias_refuted"
   ],
   "note": "Equality with the circuit's hash proved for elements below 3p. REFUTED last clause: x and x+p hash alike (inputs are not range-checked)."
  },
  {
   "property": "C95",
   "status": "proved",
   "theorems": [
    "C95_insert_accepts",
    "C95_insert_root",
    "C95_proof_verifies"
   ],
   "note": "Under the hypothesis that no interior hash next to a populated node is 0 (the contract takes 0 for an empty position); a preimage of zero would be needed to violate it. Storage invariant by induction over insertions and levels."
  },
  {
   "property": "C96",
   "status": "proved",
   "theorems": [
    "C96_contract_path",
    "C96_level_ivs"
   ],
   "note": "by induction over the levels, from C93/C94; the 29 level IVs are compared as numbers"
  },
  {
   "property": "C97",
   "status": "partial",
   "theorems": [
    "C97_only_inserted_refuted",
    "C97_filler_verifies",
    "C97_alias_verifies",
    "C97_sound_partial",
    "C97_sound_any_hash_partial"
   ],
   "note": "REFUTED: the filler value of the position after an odd number of leaves verifies, and so does leaf + p. Partial: up to the prime, a verified leaf is the one inserted at that address, or the path exhibits a collision with a node of the tree, or meets the filler value of an empty position."
  },
  {
   "property": "C98",
   "status": "proved",
   "theorems": [
    "C98_contract_proof_satisfies_circuit"
   ],
   "note": "composition of C92-C96 with the authenticator theorem C08; same no-zero-hash hypothesis as C95"
  },
  {
   "property": "C99",
   "status": "proved",
   "theorems": [
    "C99_contract_decides",
    "C99_contract_sound"
   ],
   "note": "precompiles 6, 7, 8 modelled per EIP-196/197 over an abstract pairing and point encoding; the laws are hypotheses, instantiated in the example (pairing in the exponent)"
  },
  {
   "property": "C100",
   "status": "partial",
   "theorems": [
    "C100_contract_agrees_partial",
    "C100_infinity_refuted"
   ],
   "note": "REFUTED: NegateY maps y = 0 to q, which the pairing precompile refuses, so a valid proof with C (or a key with alpha, or a statement with IC(x)) at infinity reverts on chain although natively accepted. Proved when none of the three is the point at infinity."
  },
  {
   "property": "C101",
   "status": "partial",
   "theorems": [
    "C101_encoding_refuted",
    "C101_shifted_y_same"
   ],
   "note": "REFUTED: C.y + q (and + 2q .. 4q) gives the same outcome for every call, because NegateY reduces it."
  },
  {
   "property": "C102",
   "status": "proved",
   "theorems": [
    "C102_reverts"
   ],
   "note": "contrast with C72: the native text importer accepts x + r"
  },
  {
   "property": "C103",
   "status": "proved",
   "theorems": [
    "C103_reverse_bits",
    "C103_reverse_involutive"
   ],
   "note": "the eight rounds are permutations i xor 2^j of bit positions"
  },
  {
   "property": "C104",
   "status": "proved",
   "theorems": [
    "C104_pack_words",
    "C104_pack_nothing",
    "C104_packed_bits",
    "C104_packed_range"
   ],
   "note": "lengths below 2^200 (memory of a call)"
  },
  {
   "property": "C105",
   "status": "partial",
   "theorems": [
    "C105_same_length_refuted",
    "C105_pack_injective_partial"
   ],
   "note": "REFUTED for every N >= 1: the last 3N bits of the stream are dropped silently. Proved: with 253 n >= 256 N output words packing is injective."
  },
  {
   "property": "C106",
   "status": "proved",
   "theorems": [
    "C106_tree",
    "C106_append"
   ],
   "note": "math.log is modelled as the exact floor logarithm"
  },
  {
   "property": "C107",
   "status": "partial",
   "theorems": [
    "C107_proof_verifies_partial",
    "C107_width2",
    "C107_duplicate_refuted"
   ],
   "note": "REFUTED for width 4: proof() removes the first item equal to the one proved, so with leaves A, B, A, C the proof of the third fails (C107_duplicate_refuted, for every hash that separates the lists). Proved for width 2, and for every width when no different item lies between an earlier equal one and the item itself; missing: other widths with such duplicates, where it is false"
  },
  {
   "property": "C108",
   "status": "partial",
   "theorems": [
    "C108_update",
    "C108_negative_refuted"
   ],
   "note": "REFUTED for negative indices (C108_negative_refuted): tree[-1] = x stores the leaf, but hashes the wrong nodes, and the tree's own proof of that leaf fails. Proved for all indices >= 0"
  },
  {
   "property": "C109",
   "status": "partial",
   "theorems": [
    "C109_binding_partial",
    "C109_uncovered_refuted",
    "C109_prefix_only"
   ],
   "note": "REFUTED when n_items is a multiple of the width but not a power (C109_uncovered_refuted: six items, width 2, the fifth leaf does not enter the root); proved for the first w^depth leaves, and that the root depends on these only"
  },
  {
   "property": "C110",
   "status": "partial",
   "theorems": [
    "C110_sound_partial",
    "C110_empty_refuted",
    "C110_inner_refuted"
   ],
   "note": "REFUTED for short proofs (C110_empty_refuted: no step at all proves the root to be a leaf; C110_inner_refuted: with a hasher that ignores the level, as the Poseidon one, the tail of every proof proves an inner node). Proved for proofs with one well-shaped step per level"
  },
  {
   "property": "C111",
   "status": "proved",
   "theorems": [
    "C111_mimc",
    "C111_default",
    "C111_hash",
    "C111_hash_contract",
    "C111_hash_md"
   ],
   "note": "keccak_256 is Spec_Keccak; for the empty message and a key that is not reduced mimc_hash returns the key, hence the condition on k"
  },
  {
   "property": "C112",
   "status": "proved",
   "theorems": [
    "C112_ivs",
    "C112_same_root"
   ],
   "note": "SHA-256 is FIPS 180-4 (Spec_Sha256); zero leaves are refused by the contract and accepted by Python; no_zero_node as in C95"
  },
  {
   "property": "C113",
   "status": "proved",
   "theorems": [
    "C113_python_group",
    "C113_python_valid"
   ],
   "note": "FQ arithmetic modulo p is the field F; the operation counters are not modelled"
  },
  {
   "property": "C114",
   "status": "proved",
   "theorems": [
    "C114_python_mult",
    "C114_python_mult_negative_diverges",
    "C114_python_scalar_fields",
    "C114_python_scalar_field_p_differs",
    "C114_python_other_modulus"
   ],
   "note": "C114_python_scalar_field_p_differs is the counterexample for modulus p: (p-1) and 1"
  },
  {
   "property": "C115",
   "status": "proved",
   "theorems": [
    "C115_python_wnaf",
    "C115_python_mult_naf",
    "C115_python_mult_wnaf",
    "C115_python_width_1_raises",
    "C115_python_negative_differs"
   ],
   "note": "widths below 1 are not modelled; C115_python_negative_differs shows that the result for negative scalars is not the multiple"
  },
  {
   "property": "C116",
   "status": "partial",
   "theorems": [
    "C116_mont_law_partial",
    "C116_mont_round_trip_partial",
    "C116_mont_mult_partial",
    "C116_mont_mult_general_partial",
    "C116_mont_double_refuted",
    "C116_mont_sub_refuted",
    "C116_mont_mult_refuted"
   ],
   "note": "REFUTED at the neutral element: double of infinity is not on the curve (C116_mont_double_refuted), P - infinity is wrong (C116_mont_sub_refuted), 4*(0,0) and mult_naf by 1 of the generator are wrong (C116_mont_mult_refuted), as_point of infinity is (0,-1) (C116_mont_round_trip_partial). Proved: add for all curve points, everything else for points other than the neutral one, mult for points of order L and whenever no double in use is neutral"
  },
  {
   "property": "C117",
   "status": "partial",
   "theorems": [
    "C117_conversions_partial",
    "C117_as_etec_partial",
    "C117_equality_partial",
    "C117_as_etec_refuted",
    "C117_equality_refuted"
   ],
   "note": "REFUTED: ProjPoint.as_etec takes T = X*Y without dividing by Z, right exactly if Z = 1 or a coordinate is 0 (C117_as_etec_partial); adding the result to the generator gives a wrong point (C117_as_etec_refuted). == compares coordinates, not points (C117_equality_partial, C117_equality_refuted). All other conversions proved"
  },
  {
   "property": "C118",
   "status": "proved",
   "theorems": [
    "C118_from_y",
    "C118_from_x",
    "C118_compress_round_trip",
    "C118_decompress",
    "C118_second_encoding"
   ],
   "note": "the square root is a parameter that returns a root or raises; C118_second_encoding: p can be added to the ordinate"
  },
  {
   "property": "C119",
   "status": "partial",
   "theorems": [
    "C119_from_hash",
    "C119_agrees_with_cpp",
    "C119_identity_refuted"
   ],
   "note": "REFUTED: from ordinate 1 the loop returns the identity (C119_identity_refuted), so the guarantee depends on the digest. Proved: the loop ends, never raises, the result is in the subgroup, and is that of the C++ function when this returns a point"
  },
  {
   "property": "C120",
   "status": "partial",
   "theorems": [
    "C120_python_verify_exact",
    "C120_python_sign_range",
    "C120_python_sign_verify_partial",
    "C120_python_sign_verify_refuted",
    "C120_python_malleable",
    "C120_python_neutral_key"
   ],
   "note": "REFUTED: S is reduced modulo the curve order E and then stored modulo p < E, so the signature is rejected exactly if (r + k*t) mod E >= p (C120_python_sign_verify_partial says exactly when, C120_python_sign_verify_refuted is a case). Also proved: the exact equation, the range of keys, that S + L is accepted as well as S (malleability), and that with the neutral element as key everyone can sign everything"
  },
  {
   "property": "C121",
   "status": "partial",
   "theorems": [
    "C121_python_pedersen_bits",
    "C121_python_pedersen_bytes",
    "C121_python_same_base_points",
    "C121_python_pedersen_injective_refuted"
   ],
   "note": "Sum, bytes and base points proved. REFUTED: a zero bit appended to an unfinished window does not change the hash, pedersen_hash_scalars of (1, 1) and of (9) are equal, and a scalar 0 is ignored anywhere (C121_python_pedersen_injective_refuted)"
  },
  {
   "property": "C122",
   "status": "proved",
   "theorems": [
    "C122_pure_verifiers_agree",
    "C122_hashed_verifiers_agree"
   ],
   "note": "the base points are those of C121 and C58; the square-root functions of both sides are arbitrary correct ones"
  },
  {
   "property": "C123",
   "status": "proved",
   "theorems": [
    "C123_python_poseidon",
    "C123_python_parameters",
    "C123_python_default"
   ],
   "note": "blake2b of pyblake2b is taken to be RFC 7693 (C53 proves it of the C++ code); the floating point security assertions are not modelled"
  },
  {
   "property": "C124",
   "status": "partial",
   "theorems": [
    "C124_shamirs_poly",
    "C124_lagrange_partial",
    "C124_lagrange_duplicates",
    "C124_lagrange_refuted",
    "C124_inverse_lagrange"
   ],
   "note": "REFUTED for repeated places: division by zero gives 0 and both shares are silently ignored (C124_lagrange_duplicates, C124_lagrange_refuted). Proved for distinct places (C124_lagrange_partial), the other two functions without restriction"
  },
  {
   "property": "C125",
   "status": "proved",
   "theorems": [
    "C125_sharing_secrecy"
   ],
   "note": "the secret is the value at 0"
  },
  {
   "property": "C126",
   "status": "proved",
   "theorems": [
    "C126_gcd2",
    "C126_gcd",
    "C126_lcm2",
    "C126_inverse_mod"
   ],
   "note": "lcm of a list and the functions built on jacobi, factorization or is_prime are not modelled"
  },
  {
   "property": "C127",
   "status": "partial",
   "theorems": [
    "C127_ring",
    "C127_field",
    "C127_equality",
    "C127_moduli",
    "C127_division_by_zero",
    "C127_equality_refuted",
    "C127_scalar_inverses",
    "C127_scalar_inverse_refuted"
   ],
   "note": "REFUTED: division by zero gives 0 (C127_division_by_zero), FQ(3,7) == 10 is False although FQ(3,7) - 10 == 0 (C127_equality_refuted), FR_ORDER is not prime and FR inverses are wrong for all elements that are not 1 modulo 8 (C127_scalar_inverses, C127_scalar_inverse_refuted), a zero compares equal to the zero of another modulus (C127_moduli). The rest is proved"
  },
  {
   "property": "C128",
   "status": "proved",
   "theorems": [
    "C128_to_bytes",
    "C128_to_bytes_injective",
    "C128_random"
   ],
   "note": "ceil(log2(m)) is taken to be exact; in floating point it is not for a modulus very close to a power of two"
  },
  {
   "property": "C129",
   "status": "proved",
   "theorems": [
    "C129_character",
    "C129_reciprocity",
    "C129_legendre",
    "C129_domain"
   ],
   "note": "that the symbol is -1 for all non-squares is proved for the field modulus, not for every prime"
  },
  {
   "property": "C130",
   "status": "proved",
   "theorems": [
    "C130_square_root",
    "C130_fq_sqrt",
    "C130_three_mod_four"
   ],
   "note": "the branch for primes that are 5 modulo 8 is modelled, but nothing is proved about it (the field's modulus is 1 modulo 8)"
  },
  {
   "property": "C131",
   "status": "partial",
   "theorems": [
    "C131_deploy",
    "C131_forward_jump",
    "C131_forward_program",
    "C131_redefine_rejected",
    "C131_backward_jump_fails",
    "C131_jump_refuted"
   ],
   "note": "REFUTED: LABEL emits its JUMPDEST only if a jump to it is already pending, so all jumps to an earlier label fail (C131_backward_jump_fails, C131_jump_refuted). Deployment is proved for all programs, jumps for all programs with any number of labels and jumps in which each label follows the jumps to it (C131_forward_program)"
  },
  {
   "property": "C132",
   "status": "proved",
   "theorems": [
    "C132_contract",
    "C132_python"
   ],
   "note": "the selector is a parameter (in the code: from Keccak-256 of the signature); gas is not modelled"
  },
  {
   "property": "C133",
   "status": "partial",
   "theorems": [
    "C133_contract",
    "C133_width_refuted"
   ],
   "note": "REFUTED for widths other than 6: the inputs are loaded from offsets computed with the number 5 instead of t-1 (C133_width_refuted). For width 6, which the default parameters have, the statement is proved for all inputs, constants, matrices and up to 4000 rounds (C133_contract), where the Python function uses the contract's modulus and exponent 5; gas is not modelled"
  }
 ]
}