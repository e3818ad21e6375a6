(* Generated by listing every theorem of MANIFEST.json.  Compiling this file prints, for each of them,
   what it rests on.  Nothing is defined here. *)
From Verif Require PropUtils PropKeys PropEnc PropVerify PropProto PropCircuit PropGroth16 PropGroth16Cases PropHash PropSerde PropParallel PropCommit PropMalleable PropRobust PropGroth16More PropRandom PropSound PropSoundCases PropZK PropMacros PropPrivacy PropPrivacyMany PropPrivacyDkg PropSoundAdapt PropSoundDkg PropReencLeak PropReencBind PropRogue PropPrivacyAgg PropNonmal PropNonmalDkg PropWrongValues PropSoundKnown PropCca PropRcca PropReencExact PropSnarkRandom PropVkFunctions PropValidate PropRccaDkg PropWide PropSpyShare PropBls PropRush PropInsider PropLate PropTally PropBallot PropBallotCopy PropIndep PropReceipt PropMix.

Print Assumptions PropUtils.C01_decompose_compose_round_trip.
Print Assumptions PropUtils.C02_decompose_is_radix_representation.
Print Assumptions PropUtils.C02_other_chunk_sizes_rejected.
Print Assumptions PropUtils.C03_chunks_count_is_ceiling.
Print Assumptions PropUtils.C03_chunks_count_zero_panics.
Print Assumptions PropUtils.C03_chunks_count_agrees_with_decompose.
Print Assumptions PropUtils.C03_bls_counts.
Print Assumptions PropUtils.C04_compose_in_range.
Print Assumptions PropUtils.C04_compose_odd_rejected.
Print Assumptions PropUtils.C04_compose_in_range_never_panics.
Print Assumptions PropUtils.C04_compose_any_chunks.
Print Assumptions PropUtils.C04_compose_carries_refuted.
Print Assumptions PropUtils.C05_chunked_commitment_commits_to_message.
Print Assumptions PropUtils.C05_chunked_commitment_bls.
Print Assumptions PropUtils.C06_commitment_key_is_radix_powers.
Print Assumptions PropUtils.C06_key_constructions_agree.
Print Assumptions PropUtils.C06_commitment_key_31_refuted.
Print Assumptions PropUtils.C06_commitment_key_32_panics.
Print Assumptions PropUtils.C07_blinding_dropped.
Print Assumptions PropUtils.C07_blinding_always_matters_refuted.
Print Assumptions PropUtils.C07_blinding_matters_when_lengths_agree.
Print Assumptions PropKeys.C08_keygen_fails_exactly_when_short.
Print Assumptions PropKeys.C08_keygen_output_well_formed.
Print Assumptions PropKeys.C08_partial_output_well_formed.
Print Assumptions PropKeys.C08_chunk_size_zero_panics.
Print Assumptions PropKeys.C08_commitment_key.
Print Assumptions PropValidate.C08_validation_of_encryption_keys.
Print Assumptions PropValidate.C08_validation_of_prepared_encryption_keys.
Print Assumptions PropValidate.C08_validation_of_decryption_keys.
Print Assumptions PropKeys.C09_distributed_equals_centralized.
Print Assumptions PropKeys.C10_combineEKs_order_independent.
Print Assumptions PropKeys.C10_combineP1share_order_independent.
Print Assumptions PropKeys.C10_dkg_order_independent.
Print Assumptions PropKeys.C11_combineEKs_exact.
Print Assumptions PropKeys.C11_combineEKs_value.
Print Assumptions PropKeys.C11_combineP1share_exact.
Print Assumptions PropKeys.C11_genP1share_exact.
Print Assumptions PropEnc.C12_message_round_trip.
Print Assumptions PropEnc.C12_message_round_trip_any_field.
Print Assumptions PropEnc.C12_bls_conditions.
Print Assumptions PropEnc.C13_chunk_round_trip.
Print Assumptions PropEnc.C14_decryption_sound_and_complete.
Print Assumptions PropEnc.C15_pairing_powers_do_not_change_decryption.
Print Assumptions PropEnc.C15_pairing_powers_do_not_change_chunk_decryption.
Print Assumptions PropEnc.C15_pairing_powers_available.
Print Assumptions PropEnc.C16_truncated_table_exact.
Print Assumptions PropEnc.C16_shortened_row_exact.
Print Assumptions PropEnc.C16_lookup_exact.
Print Assumptions PropEnc.C16_short_table_is_an_error_refuted.
Print Assumptions PropEnc.C17_commitment_to_randomness_verifiable.
Print Assumptions PropEnc.C18_degenerate_key_accepted.
Print Assumptions PropEnc.C18_zero_secret_key_decrypts_to_zero.
Print Assumptions PropEnc.C18_unconditional_round_trip_refuted.
Print Assumptions PropVerify.C19_honest_chunk_ciphertexts_verify.
Print Assumptions PropVerify.C19_honest_message_ciphertexts_verify.
Print Assumptions PropVerify.C20_verification_exact.
Print Assumptions PropVerify.C20_accepted_commitment_unique.
Print Assumptions PropVerify.C20_changed_element_rejected.
Print Assumptions PropVerify.C21_batch_complete.
Print Assumptions PropVerify.C21_batch_of_one.
Print Assumptions PropVerify.C22_batch_sound.
Print Assumptions PropVerify.C23_batch_failures_exact.
Print Assumptions PropEnc.C24_encryption_failures_exact.
Print Assumptions PropEnc.C24_encryption_never_panics.
Print Assumptions PropEnc.C24_never_panics_beyond_255_refuted.
Print Assumptions PropProto.C25_add_is_encryption_of_sum.
Print Assumptions PropProto.C25_sum_is_encryption_of_sum.
Print Assumptions PropProto.C25_accepted_ciphertexts_add_up.
Print Assumptions PropProto.C25_add_panics_exactly.
Print Assumptions PropProto.C26_sum_decrypts_directly.
Print Assumptions PropProto.C26_sum_decrypts_after_re_encryption.
Print Assumptions PropProto.C27_doubling_works_for_4_and_8.
Print Assumptions PropProto.C27_doubling_16_panics_refuted.
Print Assumptions PropProto.C27_doubling_16_release_refuted.
Print Assumptions PropProto.C28_re_encryption_delivers.
Print Assumptions PropProto.C28_shares_available.
Print Assumptions PropProto.C29_every_party_needed.
Print Assumptions PropProto.C30_share_order_irrelevant.
Print Assumptions PropProto.C30_combine_commutative_associative.
Print Assumptions PropProto.C30_combine_panics_exactly.
Print Assumptions PropProto.C31_confidential_without_destination_key_refuted.
Print Assumptions PropReencLeak.C31_candidate_messages_can_be_tested.
Print Assumptions PropReencLeak.C31_two_messages_are_told_apart.
Print Assumptions PropReencLeak.C31_everything_is_recovered_without_any_key.
Print Assumptions PropReencLeak.C31_recovery_works_on_almost_every_srs.
Print Assumptions PropKeys.C32_single_party_cannot_decrypt_refuted.
Print Assumptions PropGroth16.C33_proof_verification_is_groth16.
Print Assumptions PropGroth16.C33_created_proof.
Print Assumptions PropGroth16.C33_accepted_proof_contains_groth16_proof.
Print Assumptions PropGroth16.C33_other_randomness_rejected.
Print Assumptions PropGroth16.C34_distributed_key_proof_verification_is_groth16.
Print Assumptions PropGroth16.C34_distributed_key_created_proof.
Print Assumptions PropGroth16.C34_distributed_end_to_end.
Print Assumptions PropGroth16.C35_verify_proof_sees_only_the_sum.
Print Assumptions PropGroth16.C35_rearranged_chunks_pass.
Print Assumptions PropGroth16.C35_redistributed_chunks_pass.
Print Assumptions PropGroth16.C35_combined_check_sees_the_weighted_sum.
Print Assumptions PropGroth16.C35_redistribution_detected_exactly.
Print Assumptions PropGroth16Cases.C35_proof_alone_binds_ciphertext_refuted.
Print Assumptions PropGroth16.C36_combined_check_is_conjunction.
Print Assumptions PropGroth16.C36_verify_proof_outcomes.
Print Assumptions PropCircuit.C37_bitsize_circuit_exact.
Print Assumptions PropCircuit.C37_bitsize_circuit_private.
Print Assumptions PropCircuit.C37_prover_satisfies_iff_in_range.
Print Assumptions PropCircuit.C37_oversized_panics.
Print Assumptions PropCircuit.C37_missing_values_reported.
Print Assumptions PropCircuit.C38_circuit_shape.
Print Assumptions PropCircuit.C38_prover_shape_matches_iff.
Print Assumptions PropCircuit.C38_bls_7920.
Print Assumptions PropGroth16.C39_end_to_end.
Print Assumptions PropGroth16.C39_end_to_end_ark_groth16.
Print Assumptions PropGroth16.C39_setup_succeeds.
Print Assumptions PropWrongValues.C39_setup_errors.
Print Assumptions PropHash.C40_hash_to_group_first_success.
Print Assumptions PropHash.C40_hash_to_field_first_success.
Print Assumptions PropHash.C40_encryption_gens.
Print Assumptions PropHash.C40_chunked_commitment_gens.
Print Assumptions PropHash.C40_hash_inputs_distinct.
Print Assumptions PropHash.C40_hash_inputs_distinct_without_bound_refuted.
Print Assumptions PropSerde.C41_canonical_round_trip.
Print Assumptions PropSerde.C41_secret_keys_canonical.
Print Assumptions PropSerde.C41_unreduced_secret_key_rejected.
Print Assumptions PropSerde.C41_serde_round_trip.
Print Assumptions PropSerde.C41_serde_trailing_bytes_ignored.
Print Assumptions PropSerde.C41_serde_truncation_rejected.
Print Assumptions PropSerde.C41_serde_documents_not_unique.
Print Assumptions PropSerde.C41_serde_field_order_irrelevant.
Print Assumptions PropSerde.C41_serde_unknown_fields_skipped.
Print Assumptions PropSerde.C41_serde_duplicate_or_missing_field_rejected.
Print Assumptions PropProto.C42_aggregation_pipeline.
Print Assumptions PropEnc.C43_decryption_shape_errors.
Print Assumptions PropEnc.C43_decryption_never_panics.
Print Assumptions PropEnc.C43_chunk_size_32_panics.
Print Assumptions PropUtils.C44_fixed_base_multiplication.
Print Assumptions PropUtils.C44_hint_does_not_matter.
Print Assumptions PropParallel.C45_parallel_map_deterministic.
Print Assumptions PropParallel.C45_parallel_map_terminates.
Print Assumptions PropParallel.C45_parallel_sum_deterministic.
Print Assumptions PropParallel.C45_prepared_keys_schedule_independent.
Print Assumptions PropParallel.C45_keygen_schedule_independent.
Print Assumptions PropParallel.C45_encryption_schedule_independent.
Print Assumptions PropParallel.C45_batch_verification_schedule_independent.
Print Assumptions PropCommit.C46_perfectly_hiding.
Print Assumptions PropCommit.C46_binding_up_to_discrete_log.
Print Assumptions PropCommit.C46_additive.
Print Assumptions PropMalleable.C47_encryption_key_determines_decryption.
Print Assumptions PropMalleable.C47_many_decryption_keys.
Print Assumptions PropMalleable.C48_ciphertext_determines_chunks_and_randomness.
Print Assumptions PropMalleable.C49_rerandomization.
Print Assumptions PropMalleable.C49_non_malleability_refuted.
Print Assumptions PropRobust.C50_usable_iff_consistent.
Print Assumptions PropRobust.C50_validate_detects_bad_keys_refuted.
Print Assumptions PropRobust.C51_one_wrong_P1_share.
Print Assumptions PropRobust.C51_honest_shares_exist.
Print Assumptions PropRobust.C52_robust_re_encryption_refuted.
Print Assumptions PropGroth16More.C53_proof_rescaling.
Print Assumptions PropGroth16More.C53_proof_shifting.
Print Assumptions PropGroth16More.C53_proof_non_malleability_refuted.
Print Assumptions PropGroth16More.C54_ciphertext_and_proof_rerandomization.
Print Assumptions PropGroth16More.C54_shifted_pair_accepted_iff.
Print Assumptions PropGroth16More.C55_tables_from_verifying_key.
Print Assumptions PropGroth16More.C55_end_to_end_with_tables.
Print Assumptions PropVkFunctions.C55_functions_use_the_generators_of_the_key.
Print Assumptions PropVkFunctions.C55_all_ways_of_decrypting_agree.
Print Assumptions PropRandom.C56_unsupported_chunk_size_refused_by_encrypt.
Print Assumptions PropRandom.C56_unsupported_chunk_size_never_decrypts.
Print Assumptions PropRandom.C56_key_generation_refuses_unsupported_sizes_refuted.
Print Assumptions PropRandom.C57_keygen_randomness.
Print Assumptions PropRandom.C57_partial_keygen_randomness.
Print Assumptions PropRandom.C57_encryption_randomness.
Print Assumptions PropRandom.C57_re_encryption_randomness.
Print Assumptions PropRandom.C57_every_scalar_matters.
Print Assumptions PropRandom.C57_generators_randomness.
Print Assumptions PropSnarkRandom.C57_proof_randomness.
Print Assumptions PropSnarkRandom.C57_setup_randomness.
Print Assumptions PropSnarkRandom.C57_every_snark_scalar_matters.
Print Assumptions PropRandom.C58_reused_randomness_reveals_differences.
Print Assumptions PropRandom.C58_fresh_randomness_changes_first_element.
Print Assumptions PropSound.C59_accepted_ciphertexts_are_known_encryptions.
Print Assumptions PropSoundCases.C59_honest_prover_is_a_strategy.
Print Assumptions PropSoundCases.C59_every_known_setup_can_be_cheated.
Print Assumptions PropSound.C60_accepted_ciphertexts_decrypt.
Print Assumptions PropSound.C61_commitment_check_alone.
Print Assumptions PropSoundCases.C61_every_known_setup_can_be_cheated.
Print Assumptions PropZK.C62_perfect_zero_knowledge.
Print Assumptions PropZK.C63_setup_secrets_prove_anything.
Print Assumptions PropZK.C63_range_check_void_for_setup_party.
Print Assumptions PropPrivacy.C64_ciphertext_and_proof_hide_the_message.
Print Assumptions PropPrivacy.C64_guess_rarely_depends_on_the_message.
Print Assumptions PropPrivacy.C64_known_coins_can_be_distinguished.
Print Assumptions PropMacros.C65_join_is_schedule_independent.
Print Assumptions PropMacros.C65_join_of_seven_does_not_compile.
Print Assumptions PropPrivacyMany.C66_many_ciphertexts_hide_their_messages.
Print Assumptions PropPrivacyMany.C66_guess_rarely_depends_on_the_messages.
Print Assumptions PropPrivacyMany.C66_experiment_shows_accepted_ciphertexts.
Print Assumptions PropPrivacyDkg.C67_all_but_one_party_learn_nothing.
Print Assumptions PropPrivacyDkg.C67_guess_rarely_depends_on_the_messages.
Print Assumptions PropPrivacyDkg.C67_experiment_shows_accepted_ciphertexts.
Print Assumptions PropSoundAdapt.C68_adaptive_provers_know_what_they_encrypt.
Print Assumptions PropSoundAdapt.C68_adaptive_provers_ciphertexts_decrypt.
Print Assumptions PropSoundAdapt.C68_adaptive_provers_commitment_check_alone.
Print Assumptions PropSoundAdapt.C68_fixed_strategies_are_provers_without_tests.
Print Assumptions PropSoundDkg.C69_all_but_one_party_know_what_they_encrypt.
Print Assumptions PropSoundDkg.C69_all_but_one_party_commitment_check_alone.
Print Assumptions PropSoundDkg.C69_every_known_execution_can_be_cheated.
Print Assumptions PropReencBind.C70_shares_do_not_depend_on_the_chunks.
Print Assumptions PropReencBind.C70_shares_for_junk_open_another_ciphertext.
Print Assumptions PropReencBind.C70_checked_requests_open_another_ciphertext.
Print Assumptions PropRogue.C71_commitment_secrets_allow_redistribution.
Print Assumptions PropRogue.C71_redistributed_ciphertext_does_not_decrypt.
Print Assumptions PropRogue.C71_rushing_party_publishes_accepted_garbage.
Print Assumptions PropPrivacyAgg.C72_only_the_requested_sums_are_revealed.
Print Assumptions PropPrivacyAgg.C72_guess_rarely_depends_on_more_than_the_sums.
Print Assumptions PropPrivacyAgg.C72_requests_deliver_the_sums.
Print Assumptions PropNonmal.C73_accepted_ciphertexts_are_fresh_or_copies.
Print Assumptions PropNonmal.C73_copies_encrypt_the_copied_message.
Print Assumptions PropNonmal.C73_copies_are_accepted.
Print Assumptions PropNonmal.C73_copying_strategies.
Print Assumptions PropNonmal.C73_every_known_execution_can_be_cheated.
Print Assumptions PropNonmalDkg.C74_coalitions_make_fresh_ciphertexts_or_copies.
Print Assumptions PropNonmalDkg.C74_copying_strategies.
Print Assumptions PropNonmalDkg.C74_every_known_execution_can_be_cheated.
Print Assumptions PropWrongValues.C75_coset_backend_correct.
Print Assumptions PropWrongValues.C75_debug_build_panics.
Print Assumptions PropWrongValues.C75_wrong_values_rejected.
Print Assumptions PropSoundKnown.C76_decryptors_know_what_they_encrypt.
Print Assumptions PropSoundKnown.C76_decryptors_commitment_check_alone.
Print Assumptions PropSoundKnown.C76_decryptors_ciphertexts_decrypt.
Print Assumptions PropSoundKnown.C76_srs_secrets_suffice_to_cheat.
Print Assumptions PropSoundKnown.C76_t_secrets_move_amounts.
Print Assumptions PropSoundKnown.C76_moved_amounts_are_not_digits.
Print Assumptions PropSoundKnown.C76_t_secrets_suffice_to_cheat.
Print Assumptions PropCca.C77_result_rarely_depends_on_the_messages.
Print Assumptions PropCca.C77_decryption_service_does_not_reveal_protected_messages.
Print Assumptions PropCca.C77_decryption_service_does_not_help_to_forge.
Print Assumptions PropCca.C77_service_opens_what_it_may.
Print Assumptions PropCca.C77_service_opens_honest_ciphertexts.
Print Assumptions PropCca.C77_unprotected_messages_are_revealed.
Print Assumptions PropCca.C77_without_the_proof_protected_messages_are_revealed.
Print Assumptions PropCca.C77_setups_usually_work.
Print Assumptions PropRcca.C78_result_rarely_depends_on_which_messages.
Print Assumptions PropRcca.C78_adaptively_chosen_messages_stay_secret.
Print Assumptions PropRcca.C78_chosen_messages_do_not_help_to_forge.
Print Assumptions PropRcca.C78_game_ends.
Print Assumptions PropRcca.C78_covers_messages_fixed_in_advance.
Print Assumptions PropReencExact.C79_share_exact.
Print Assumptions PropReencExact.C79_combined_ciphertext_exact.
Print Assumptions PropReencExact.C79_destination_decryption_exact.
Print Assumptions PropReencExact.C79_decryption_exact.
Print Assumptions PropRccaDkg.C80_result_rarely_depends_on_which_messages.
Print Assumptions PropRccaDkg.C80_adaptively_chosen_messages_stay_secret.
Print Assumptions PropRccaDkg.C80_chosen_messages_do_not_help_to_forge.
Print Assumptions PropRccaDkg.C80_game_ends.
Print Assumptions PropRccaDkg.C80_parties_open_what_they_may.
Print Assumptions PropRccaDkg.C80_one_tampered_share_reveals_protected_messages.
Print Assumptions PropRccaDkg.C80_honest_ciphertexts.
Print Assumptions PropRccaDkg.C80_key_generations_usually_work.
Print Assumptions PropWide.C81_wide_chunks_in_release_builds.
Print Assumptions PropWide.C81_chunk_size_32_finds_only_0_and_1.
Print Assumptions PropWide.C81_wide_chunks_panic_in_debug_builds.
Print Assumptions PropWide.C81_pairing_powers_of_all_chunk_sizes.
Print Assumptions PropWide.C81_commitment_keys_of_wide_chunks.
Print Assumptions PropSpyShare.C82_one_dishonest_share_reveals_the_weighted_sum.
Print Assumptions PropSpyShare.C82_one_unknown_chunk_is_found.
Print Assumptions PropSpyShare.C82_wrong_candidates_rarely_match.
Print Assumptions PropBls.C83_domains_of_the_library.
Print Assumptions PropBls.C83_backend_correct.
Print Assumptions PropBls.C83_sizes.
Print Assumptions PropBls.C83_almost_every_setup_works.
Print Assumptions PropBls.C83_almost_every_key_generation_works.
Print Assumptions PropBls.C83_accepted_ciphertexts_decrypt.
Print Assumptions PropBls.C83_chosen_messages_stay_secret.
Print Assumptions PropBls.C83_no_forgery_after_chosen_messages.
Print Assumptions PropBls.C83_coalitions_learn_no_chosen_messages.
Print Assumptions PropBls.C83_coalitions_cannot_forge.
Print Assumptions PropRush.C84_same_first_moves.
Print Assumptions PropRush.C84_result_rarely_depends_on_which_messages.
Print Assumptions PropRush.C84_late_decisions_reveal_no_messages.
Print Assumptions PropRush.C84_late_decisions_do_not_help_to_forge.
Print Assumptions PropRush.C84_game_ends.
Print Assumptions PropRush.C84_bls_late_decisions_reveal_no_messages.
Print Assumptions PropRush.C84_bls_late_decisions_do_not_help_to_forge.
Print Assumptions PropInsider.C85_shares_can_be_simulated.
Print Assumptions PropInsider.C85_result_rarely_depends_on_which_messages.
Print Assumptions PropInsider.C85_shares_reveal_no_messages.
Print Assumptions PropInsider.C85_submissions_can_be_imitated.
Print Assumptions PropInsider.C85_shares_do_not_help_to_forge.
Print Assumptions PropInsider.C85_game_ends.
Print Assumptions PropInsider.C85_opened_submissions_show_the_share.
Print Assumptions PropInsider.C85_bls_shares_reveal_no_messages.
Print Assumptions PropInsider.C85_bls_shares_do_not_help_to_forge.
Print Assumptions PropLate.C86_result_rarely_depends_on_which_messages.
Print Assumptions PropLate.C86_late_insiders_learn_no_messages.
Print Assumptions PropLate.C86_late_insiders_cannot_forge.
Print Assumptions PropLate.C86_game_ends.
Print Assumptions PropLate.C86_bls_late_insiders_learn_no_messages.
Print Assumptions PropLate.C86_bls_late_insiders_cannot_forge.
Print Assumptions PropTally.C87_accepted_ballots_add_up.
Print Assumptions PropTally.C87_ballots_of_late_coalitions_add_up.
Print Assumptions PropTally.C87_bls_ballots_add_up.
Print Assumptions PropTally.C87_a_copied_ballot_counts_twice.
Print Assumptions PropBallot.C88_elections_hide_the_votes.
Print Assumptions PropBallot.C88_late_coalitions_learn_only_the_sum.
Print Assumptions PropBallot.C88_bls_elections_hide_the_votes.
Print Assumptions PropBallot.C88_elections_end.
Print Assumptions PropBallot.C88_last_words_rarely_differ.
Print Assumptions PropBallot.C88_watching_coalitions_learn_only_the_sum.
Print Assumptions PropBallotCopy.C88_copied_ballots_reveal_the_votes.
Print Assumptions PropBallotCopy.C88_copying_coalitions_are_almost_always_right.
Print Assumptions PropIndep.C89_ballots_do_not_depend_on_votes.
Print Assumptions PropIndep.C89_ballots_of_late_coalitions_do_not_depend_on_votes.
Print Assumptions PropIndep.C89_bls_ballots_do_not_depend_on_votes.
Print Assumptions PropIndep.C89_polls_end.
Print Assumptions PropIndep.C89_without_copies_the_votes_are_the_same.
Print Assumptions PropIndep.C89_a_copied_ballot_follows_the_vote.
Print Assumptions PropReceipt.C90_the_returned_randomness_is_a_receipt.
Print Assumptions PropReceipt.C90_receipts_are_true.
Print Assumptions PropReceipt.C90_rerandomization_voids_receipts.
Print Assumptions PropReceipt.C90_mixing_voids_receipts_of_ballots.
Print Assumptions PropReceipt.C90_receipt_freeness_refuted.
Print Assumptions PropMix.C91_mixing_hides_which_ballot_became_which.
Print Assumptions PropMix.C91_same_contents_are_mixed_alike.
Print Assumptions PropMix.C91_different_contents_never_meet.
Print Assumptions PropMix.C91_mixing_keeps_the_messages.
Print Assumptions PropMix.C91_experiment_shows_the_mixed_ciphertexts.
Print Assumptions PropMix.C91_blinded_proofs_give_the_mixer_away.
