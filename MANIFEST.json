{
 "claims": [
  {
   "property": "C01",
   "status": "proved",
   "theorems": [
    "C01_decompose_compose_round_trip"
   ],
   "note": ""
  },
  {
   "property": "C02",
   "status": "proved",
   "theorems": [
    "C02_decompose_is_radix_representation",
    "C02_other_chunk_sizes_rejected"
   ],
   "note": ""
  },
  {
   "property": "C03",
   "status": "proved",
   "theorems": [
    "C03_chunks_count_is_ceiling",
    "C03_chunks_count_zero_panics",
    "C03_chunks_count_agrees_with_decompose",
    "C03_bls_counts"
   ],
   "note": ""
  },
  {
   "property": "C04",
   "status": "proved",
   "theorems": [
    "C04_compose_in_range",
    "C04_compose_odd_rejected",
    "C04_compose_in_range_never_panics",
    "C04_compose_any_chunks",
    "C04_compose_carries_refuted"
   ],
   "note": "positive part proved; the carried-value reading is refuted (\u2026_refuted)"
  },
  {
   "property": "C05",
   "status": "proved",
   "theorems": [
    "C05_chunked_commitment_commits_to_message",
    "C05_chunked_commitment_bls"
   ],
   "note": ""
  },
  {
   "property": "C06",
   "status": "proved",
   "theorems": [
    "C06_commitment_key_is_radix_powers",
    "C06_key_constructions_agree",
    "C06_commitment_key_31_refuted",
    "C06_commitment_key_32_panics"
   ],
   "note": "positive for 1<=b<=30; b=31 wrong key and b>=32 panic proved as refutations"
  },
  {
   "property": "C07",
   "status": "proved",
   "theorems": [
    "C07_blinding_dropped",
    "C07_blinding_always_matters_refuted",
    "C07_blinding_matters_when_lengths_agree"
   ],
   "note": "refuted as stated for generic fields (witness), proved when the chunk count matches"
  },
  {
   "property": "C08",
   "status": "proved",
   "theorems": [
    "C08_keygen_fails_exactly_when_short",
    "C08_keygen_output_well_formed",
    "C08_partial_output_well_formed",
    "C08_chunk_size_zero_panics",
    "C08_commitment_key",
    "C08_validation_of_encryption_keys",
    "C08_validation_of_prepared_encryption_keys",
    "C08_validation_of_decryption_keys"
   ],
   "note": ""
  },
  {
   "property": "C09",
   "status": "proved",
   "theorems": [
    "C09_distributed_equals_centralized"
   ],
   "note": ""
  },
  {
   "property": "C10",
   "status": "proved",
   "theorems": [
    "C10_combineEKs_order_independent",
    "C10_combineP1share_order_independent",
    "C10_dkg_order_independent"
   ],
   "note": ""
  },
  {
   "property": "C11",
   "status": "proved",
   "theorems": [
    "C11_combineEKs_exact",
    "C11_combineEKs_value",
    "C11_combineP1share_exact",
    "C11_genP1share_exact"
   ],
   "note": ""
  },
  {
   "property": "C12",
   "status": "proved",
   "theorems": [
    "C12_message_round_trip",
    "C12_message_round_trip_any_field",
    "C12_bls_conditions"
   ],
   "note": ""
  },
  {
   "property": "C13",
   "status": "proved",
   "theorems": [
    "C13_chunk_round_trip"
   ],
   "note": ""
  },
  {
   "property": "C14",
   "status": "proved",
   "theorems": [
    "C14_decryption_sound_and_complete"
   ],
   "note": "for keys returned by keygen with no identity among V_2 and the used generators"
  },
  {
   "property": "C15",
   "status": "proved",
   "theorems": [
    "C15_pairing_powers_do_not_change_decryption",
    "C15_pairing_powers_do_not_change_chunk_decryption",
    "C15_pairing_powers_available"
   ],
   "note": ""
  },
  {
   "property": "C16",
   "status": "proved",
   "theorems": [
    "C16_truncated_table_exact",
    "C16_shortened_row_exact",
    "C16_lookup_exact",
    "C16_short_table_is_an_error_refuted"
   ],
   "note": "refuted: exact behaviour on truncated tables and rows, and a concrete panic"
  },
  {
   "property": "C17",
   "status": "proved",
   "theorems": [
    "C17_commitment_to_randomness_verifiable"
   ],
   "note": ""
  },
  {
   "property": "C18",
   "status": "proved",
   "theorems": [
    "C18_degenerate_key_accepted",
    "C18_zero_secret_key_decrypts_to_zero",
    "C18_unconditional_round_trip_refuted"
   ],
   "note": "refutation of the unconditional round trip; shows the non-degeneracy hypothesis is needed"
  },
  {
   "property": "C19",
   "status": "proved",
   "theorems": [
    "C19_honest_chunk_ciphertexts_verify",
    "C19_honest_message_ciphertexts_verify"
   ],
   "note": ""
  },
  {
   "property": "C20",
   "status": "proved",
   "theorems": [
    "C20_verification_exact",
    "C20_accepted_commitment_unique",
    "C20_changed_element_rejected"
   ],
   "note": ""
  },
  {
   "property": "C21",
   "status": "proved",
   "theorems": [
    "C21_batch_complete",
    "C21_batch_of_one"
   ],
   "note": ""
  },
  {
   "property": "C22",
   "status": "proved",
   "theorems": [
    "C22_batch_sound"
   ],
   "note": ""
  },
  {
   "property": "C23",
   "status": "proved",
   "theorems": [
    "C23_batch_failures_exact"
   ],
   "note": ""
  },
  {
   "property": "C24",
   "status": "proved",
   "theorems": [
    "C24_encryption_failures_exact",
    "C24_encryption_never_panics",
    "C24_never_panics_beyond_255_refuted"
   ],
   "note": "proved below 256 chunks; refuted beyond"
  },
  {
   "property": "C25",
   "status": "proved",
   "theorems": [
    "C25_add_is_encryption_of_sum",
    "C25_sum_is_encryption_of_sum",
    "C25_accepted_ciphertexts_add_up",
    "C25_add_panics_exactly"
   ],
   "note": ""
  },
  {
   "property": "C26",
   "status": "proved",
   "theorems": [
    "C26_sum_decrypts_directly",
    "C26_sum_decrypts_after_re_encryption"
   ],
   "note": ""
  },
  {
   "property": "C27",
   "status": "proved",
   "theorems": [
    "C27_doubling_works_for_4_and_8",
    "C27_doubling_16_panics_refuted",
    "C27_doubling_16_release_refuted"
   ],
   "note": "proved for 4 and 8 (up to 2^b+1 ciphertexts), refuted for 16 in both build profiles"
  },
  {
   "property": "C28",
   "status": "proved",
   "theorems": [
    "C28_re_encryption_delivers",
    "C28_shares_available"
   ],
   "note": ""
  },
  {
   "property": "C29",
   "status": "proved",
   "theorems": [
    "C29_every_party_needed"
   ],
   "note": ""
  },
  {
   "property": "C30",
   "status": "proved",
   "theorems": [
    "C30_share_order_irrelevant",
    "C30_combine_commutative_associative",
    "C30_combine_panics_exactly"
   ],
   "note": ""
  },
  {
   "property": "C31",
   "status": "proved",
   "theorems": [
    "C31_confidential_without_destination_key_refuted",
    "C31_candidate_messages_can_be_tested",
    "C31_two_messages_are_told_apart",
    "C31_everything_is_recovered_without_any_key",
    "C31_recovery_works_on_almost_every_srs"
   ],
   "note": "refuted: recovery of all chunks from one known chunk without any key; and recovery with no known chunk at all on almost every SRS (counted)"
  },
  {
   "property": "C32",
   "status": "proved",
   "theorems": [
    "C32_single_party_cannot_decrypt_refuted"
   ],
   "note": "refuted: rogue key attack"
  },
  {
   "property": "C33",
   "status": "proved",
   "theorems": [
    "C33_proof_verification_is_groth16",
    "C33_created_proof",
    "C33_accepted_proof_contains_groth16_proof",
    "C33_other_randomness_rejected"
   ],
   "note": ""
  },
  {
   "property": "C34",
   "status": "proved",
   "theorems": [
    "C34_distributed_key_proof_verification_is_groth16",
    "C34_distributed_key_created_proof",
    "C34_distributed_end_to_end"
   ],
   "note": ""
  },
  {
   "property": "C35",
   "status": "proved",
   "theorems": [
    "C35_verify_proof_sees_only_the_sum",
    "C35_rearranged_chunks_pass",
    "C35_redistributed_chunks_pass",
    "C35_combined_check_sees_the_weighted_sum",
    "C35_redistribution_detected_exactly",
    "C35_proof_alone_binds_ciphertext_refuted"
   ],
   "note": ""
  },
  {
   "property": "C36",
   "status": "proved",
   "theorems": [
    "C36_combined_check_is_conjunction",
    "C36_verify_proof_outcomes"
   ],
   "note": ""
  },
  {
   "property": "C37",
   "status": "proved",
   "theorems": [
    "C37_bitsize_circuit_exact",
    "C37_bitsize_circuit_private",
    "C37_prover_satisfies_iff_in_range",
    "C37_oversized_panics",
    "C37_missing_values_reported"
   ],
   "note": ""
  },
  {
   "property": "C38",
   "status": "proved",
   "theorems": [
    "C38_circuit_shape",
    "C38_prover_shape_matches_iff",
    "C38_bls_7920"
   ],
   "note": ""
  },
  {
   "property": "C39",
   "status": "proved",
   "theorems": [
    "C39_end_to_end",
    "C39_end_to_end_ark_groth16",
    "C39_setup_succeeds",
    "C39_setup_errors"
   ],
   "note": ""
  },
  {
   "property": "C40",
   "status": "proved",
   "theorems": [
    "C40_hash_to_group_first_success",
    "C40_hash_to_field_first_success",
    "C40_encryption_gens",
    "C40_chunked_commitment_gens",
    "C40_hash_inputs_distinct",
    "C40_hash_inputs_distinct_without_bound_refuted"
   ],
   "note": ""
  },
  {
   "property": "C41",
   "status": "proved",
   "theorems": [
    "C41_canonical_round_trip",
    "C41_secret_keys_canonical",
    "C41_unreduced_secret_key_rejected",
    "C41_serde_round_trip",
    "C41_serde_trailing_bytes_ignored",
    "C41_serde_truncation_rejected",
    "C41_serde_documents_not_unique",
    "C41_serde_field_order_irrelevant",
    "C41_serde_unknown_fields_skipped",
    "C41_serde_duplicate_or_missing_field_rejected"
   ],
   "note": ""
  },
  {
   "property": "C42",
   "status": "proved",
   "theorems": [
    "C42_aggregation_pipeline"
   ],
   "note": ""
  },
  {
   "property": "C43",
   "status": "proved",
   "theorems": [
    "C43_decryption_shape_errors",
    "C43_decryption_never_panics",
    "C43_chunk_size_32_panics"
   ],
   "note": ""
  },
  {
   "property": "C44",
   "status": "proved",
   "theorems": [
    "C44_fixed_base_multiplication",
    "C44_hint_does_not_matter"
   ],
   "note": ""
  },
  {
   "property": "C45",
   "status": "proved",
   "theorems": [
    "C45_parallel_map_deterministic",
    "C45_parallel_map_terminates",
    "C45_parallel_sum_deterministic",
    "C45_prepared_keys_schedule_independent",
    "C45_keygen_schedule_independent",
    "C45_encryption_schedule_independent",
    "C45_batch_verification_schedule_independent"
   ],
   "note": ""
  },
  {
   "property": "C46",
   "status": "proved",
   "theorems": [
    "C46_perfectly_hiding",
    "C46_binding_up_to_discrete_log",
    "C46_additive"
   ],
   "note": ""
  },
  {
   "property": "C47",
   "status": "proved",
   "theorems": [
    "C47_encryption_key_determines_decryption",
    "C47_many_decryption_keys"
   ],
   "note": ""
  },
  {
   "property": "C48",
   "status": "proved",
   "theorems": [
    "C48_ciphertext_determines_chunks_and_randomness"
   ],
   "note": ""
  },
  {
   "property": "C49",
   "status": "proved",
   "theorems": [
    "C49_rerandomization",
    "C49_non_malleability_refuted"
   ],
   "note": ""
  },
  {
   "property": "C50",
   "status": "proved",
   "theorems": [
    "C50_usable_iff_consistent",
    "C50_validate_detects_bad_keys_refuted"
   ],
   "note": ""
  },
  {
   "property": "C51",
   "status": "proved",
   "theorems": [
    "C51_one_wrong_P1_share",
    "C51_honest_shares_exist"
   ],
   "note": ""
  },
  {
   "property": "C52",
   "status": "proved",
   "theorems": [
    "C52_robust_re_encryption_refuted"
   ],
   "note": ""
  },
  {
   "property": "C53",
   "status": "proved",
   "theorems": [
    "C53_proof_rescaling",
    "C53_proof_shifting",
    "C53_proof_non_malleability_refuted"
   ],
   "note": ""
  },
  {
   "property": "C54",
   "status": "proved",
   "theorems": [
    "C54_ciphertext_and_proof_rerandomization",
    "C54_shifted_pair_accepted_iff"
   ],
   "note": ""
  },
  {
   "property": "C55",
   "status": "proved",
   "theorems": [
    "C55_tables_from_verifying_key",
    "C55_end_to_end_with_tables",
    "C55_functions_use_the_generators_of_the_key",
    "C55_all_ways_of_decrypting_agree"
   ],
   "note": ""
  },
  {
   "property": "C56",
   "status": "proved",
   "theorems": [
    "C56_unsupported_chunk_size_refused_by_encrypt",
    "C56_unsupported_chunk_size_never_decrypts",
    "C56_key_generation_refuses_unsupported_sizes_refuted"
   ],
   "note": ""
  },
  {
   "property": "C57",
   "status": "proved",
   "theorems": [
    "C57_keygen_randomness",
    "C57_partial_keygen_randomness",
    "C57_encryption_randomness",
    "C57_re_encryption_randomness",
    "C57_every_scalar_matters",
    "C57_generators_randomness",
    "C57_proof_randomness",
    "C57_setup_randomness",
    "C57_every_snark_scalar_matters"
   ],
   "note": ""
  },
  {
   "property": "C58",
   "status": "proved",
   "theorems": [
    "C58_reused_randomness_reveals_differences",
    "C58_fresh_randomness_changes_first_element"
   ],
   "note": ""
  },
  {
   "property": "C59",
   "status": "proved",
   "theorems": [
    "C59_accepted_ciphertexts_are_known_encryptions",
    "C59_honest_prover_is_a_strategy",
    "C59_every_known_setup_can_be_cheated"
   ],
   "note": ""
  },
  {
   "property": "C60",
   "status": "proved",
   "theorems": [
    "C60_accepted_ciphertexts_decrypt"
   ],
   "note": ""
  },
  {
   "property": "C61",
   "status": "proved",
   "theorems": [
    "C61_commitment_check_alone",
    "C61_every_known_setup_can_be_cheated"
   ],
   "note": ""
  },
  {
   "property": "C62",
   "status": "proved",
   "theorems": [
    "C62_perfect_zero_knowledge"
   ],
   "note": ""
  },
  {
   "property": "C63",
   "status": "proved",
   "theorems": [
    "C63_setup_secrets_prove_anything",
    "C63_range_check_void_for_setup_party"
   ],
   "note": ""
  },
  {
   "property": "C64",
   "status": "proved",
   "theorems": [
    "C64_ciphertext_and_proof_hide_the_message",
    "C64_guess_rarely_depends_on_the_message",
    "C64_known_coins_can_be_distinguished"
   ],
   "note": ""
  },
  {
   "property": "C65",
   "status": "proved",
   "theorems": [
    "C65_join_is_schedule_independent",
    "C65_join_of_seven_does_not_compile"
   ],
   "note": ""
  },
  {
   "property": "C66",
   "status": "proved",
   "theorems": [
    "C66_many_ciphertexts_hide_their_messages",
    "C66_guess_rarely_depends_on_the_messages",
    "C66_experiment_shows_accepted_ciphertexts"
   ],
   "note": ""
  },
  {
   "property": "C67",
   "status": "proved",
   "theorems": [
    "C67_all_but_one_party_learn_nothing",
    "C67_guess_rarely_depends_on_the_messages",
    "C67_experiment_shows_accepted_ciphertexts"
   ],
   "note": ""
  },
  {
   "property": "C68",
   "status": "proved",
   "theorems": [
    "C68_adaptive_provers_know_what_they_encrypt",
    "C68_adaptive_provers_ciphertexts_decrypt",
    "C68_adaptive_provers_commitment_check_alone",
    "C68_fixed_strategies_are_provers_without_tests"
   ],
   "note": ""
  },
  {
   "property": "C69",
   "status": "proved",
   "theorems": [
    "C69_all_but_one_party_know_what_they_encrypt",
    "C69_all_but_one_party_commitment_check_alone",
    "C69_every_known_execution_can_be_cheated"
   ],
   "note": ""
  },
  {
   "property": "C70",
   "status": "proved",
   "theorems": [
    "C70_shares_do_not_depend_on_the_chunks",
    "C70_shares_for_junk_open_another_ciphertext",
    "C70_checked_requests_open_another_ciphertext"
   ],
   "note": "refuted: attack theorems, for every key and message"
  },
  {
   "property": "C71",
   "status": "proved",
   "theorems": [
    "C71_commitment_secrets_allow_redistribution",
    "C71_redistributed_ciphertext_does_not_decrypt",
    "C71_rushing_party_publishes_accepted_garbage"
   ],
   "note": "refuted: attack theorem for every set of honest parties"
  },
  {
   "property": "C72",
   "status": "proved",
   "theorems": [
    "C72_only_the_requested_sums_are_revealed",
    "C72_guess_rarely_depends_on_more_than_the_sums",
    "C72_requests_deliver_the_sums"
   ],
   "note": ""
  },
  {
   "property": "C73",
   "status": "proved",
   "theorems": [
    "C73_accepted_ciphertexts_are_fresh_or_copies",
    "C73_copies_encrypt_the_copied_message",
    "C73_copies_are_accepted",
    "C73_copying_strategies",
    "C73_every_known_execution_can_be_cheated"
   ],
   "note": ""
  },
  {
   "property": "C74",
   "status": "proved",
   "theorems": [
    "C74_coalitions_make_fresh_ciphertexts_or_copies",
    "C74_copying_strategies",
    "C74_every_known_execution_can_be_cheated"
   ],
   "note": ""
  },
  {
   "property": "C75",
   "status": "proved",
   "theorems": [
    "C75_coset_backend_correct",
    "C75_debug_build_panics",
    "C75_wrong_values_rejected"
   ],
   "note": ""
  },
  {
   "property": "C76",
   "status": "proved",
   "theorems": [
    "C76_decryptors_know_what_they_encrypt",
    "C76_decryptors_commitment_check_alone",
    "C76_decryptors_ciphertexts_decrypt",
    "C76_srs_secrets_suffice_to_cheat",
    "C76_t_secrets_move_amounts",
    "C76_moved_amounts_are_not_digits",
    "C76_t_secrets_suffice_to_cheat"
   ],
   "note": ""
  },
  {
   "property": "C77",
   "status": "proved",
   "theorems": [
    "C77_result_rarely_depends_on_the_messages",
    "C77_decryption_service_does_not_reveal_protected_messages",
    "C77_decryption_service_does_not_help_to_forge",
    "C77_service_opens_what_it_may",
    "C77_service_opens_honest_ciphertexts",
    "C77_unprotected_messages_are_revealed",
    "C77_without_the_proof_protected_messages_are_revealed",
    "C77_setups_usually_work"
   ],
   "note": ""
  },
  {
   "property": "C78",
   "status": "proved",
   "theorems": [
    "C78_result_rarely_depends_on_which_messages",
    "C78_adaptively_chosen_messages_stay_secret",
    "C78_chosen_messages_do_not_help_to_forge",
    "C78_game_ends",
    "C78_covers_messages_fixed_in_advance"
   ],
   "note": ""
  },
  {
   "property": "C79",
   "status": "proved",
   "theorems": [
    "C79_share_exact",
    "C79_combined_ciphertext_exact",
    "C79_destination_decryption_exact",
    "C79_decryption_exact"
   ],
   "note": ""
  },
  {
   "property": "C80",
   "status": "proved",
   "theorems": [
    "C80_result_rarely_depends_on_which_messages",
    "C80_adaptively_chosen_messages_stay_secret",
    "C80_chosen_messages_do_not_help_to_forge",
    "C80_game_ends",
    "C80_parties_open_what_they_may",
    "C80_one_tampered_share_reveals_protected_messages",
    "C80_honest_ciphertexts",
    "C80_key_generations_usually_work"
   ],
   "note": ""
  },
  {
   "property": "C81",
   "status": "proved",
   "theorems": [
    "C81_wide_chunks_in_release_builds",
    "C81_chunk_size_32_finds_only_0_and_1",
    "C81_wide_chunks_panic_in_debug_builds",
    "C81_pairing_powers_of_all_chunk_sizes",
    "C81_commitment_keys_of_wide_chunks"
   ],
   "note": ""
  },
  {
   "property": "C82",
   "status": "proved",
   "theorems": [
    "C82_one_dishonest_share_reveals_the_weighted_sum",
    "C82_one_unknown_chunk_is_found",
    "C82_wrong_candidates_rarely_match"
   ],
   "note": ""
  },
  {
   "property": "C83",
   "status": "proved",
   "theorems": [
    "C83_domains_of_the_library",
    "C83_backend_correct",
    "C83_sizes",
    "C83_almost_every_setup_works",
    "C83_almost_every_key_generation_works",
    "C83_accepted_ciphertexts_decrypt",
    "C83_chosen_messages_stay_secret",
    "C83_no_forgery_after_chosen_messages",
    "C83_coalitions_learn_no_chosen_messages",
    "C83_coalitions_cannot_forge"
   ],
   "note": ""
  },
  {
   "property": "C84",
   "status": "proved",
   "theorems": [
    "C84_same_first_moves",
    "C84_result_rarely_depends_on_which_messages",
    "C84_late_decisions_reveal_no_messages",
    "C84_late_decisions_do_not_help_to_forge",
    "C84_game_ends",
    "C84_bls_late_decisions_reveal_no_messages",
    "C84_bls_late_decisions_do_not_help_to_forge"
   ],
   "note": ""
  },
  {
   "property": "C85",
   "status": "proved",
   "theorems": [
    "C85_shares_can_be_simulated",
    "C85_result_rarely_depends_on_which_messages",
    "C85_shares_reveal_no_messages",
    "C85_submissions_can_be_imitated",
    "C85_shares_do_not_help_to_forge",
    "C85_game_ends",
    "C85_opened_submissions_show_the_share",
    "C85_bls_shares_reveal_no_messages",
    "C85_bls_shares_do_not_help_to_forge"
   ],
   "note": ""
  },
  {
   "property": "C86",
   "status": "proved",
   "theorems": [
    "C86_result_rarely_depends_on_which_messages",
    "C86_late_insiders_learn_no_messages",
    "C86_late_insiders_cannot_forge",
    "C86_game_ends",
    "C86_bls_late_insiders_learn_no_messages",
    "C86_bls_late_insiders_cannot_forge"
   ],
   "note": ""
  },
  {
   "property": "C87",
   "status": "proved",
   "theorems": [
    "C87_accepted_ballots_add_up",
    "C87_ballots_of_late_coalitions_add_up",
    "C87_bls_ballots_add_up",
    "C87_a_copied_ballot_counts_twice"
   ],
   "note": ""
  },
  {
   "property": "C88",
   "status": "proved",
   "theorems": [
    "C88_elections_hide_the_votes",
    "C88_late_coalitions_learn_only_the_sum",
    "C88_bls_elections_hide_the_votes",
    "C88_elections_end",
    "C88_last_words_rarely_differ",
    "C88_watching_coalitions_learn_only_the_sum",
    "C88_copied_ballots_reveal_the_votes",
    "C88_copying_coalitions_are_almost_always_right"
   ],
   "note": ""
  },
  {
   "property": "C89",
   "status": "proved",
   "theorems": [
    "C89_ballots_do_not_depend_on_votes",
    "C89_ballots_of_late_coalitions_do_not_depend_on_votes",
    "C89_bls_ballots_do_not_depend_on_votes",
    "C89_polls_end",
    "C89_without_copies_the_votes_are_the_same",
    "C89_a_copied_ballot_follows_the_vote"
   ],
   "note": ""
  },
  {
   "property": "C90",
   "status": "proved",
   "theorems": [
    "C90_the_returned_randomness_is_a_receipt",
    "C90_receipts_are_true",
    "C90_rerandomization_voids_receipts",
    "C90_mixing_voids_receipts_of_ballots",
    "C90_receipt_freeness_refuted"
   ],
   "note": ""
  },
  {
   "property": "C91",
   "status": "proved",
   "theorems": [
    "C91_mixing_hides_which_ballot_became_which",
    "C91_same_contents_are_mixed_alike",
    "C91_different_contents_never_meet",
    "C91_mixing_keeps_the_messages",
    "C91_experiment_shows_the_mixed_ciphertexts",
    "C91_blinded_proofs_give_the_mixer_away"
   ],
   "note": ""
  }
 ]
}