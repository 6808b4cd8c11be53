{
 "claims": [
  {
   "property": "C01",
   "status": "proved",
   "theorems": [
    "C01_parameters_accepted_exactly"
   ],
   "note": "Parameter acceptance is exactly n > 1, m > 1, n^m < 2^32"
  },
  {
   "property": "C02",
   "status": "proved",
   "theorems": [
    "C02_parameters_exact",
    "C02_generators_depend_on_n_m_only"
   ],
   "note": "Derived parameter quantities are exact and the commitment generators depend only on (n, m)"
  },
  {
   "property": "C03",
   "status": "proved",
   "theorems": [
    "C03_parameter_hash_binds"
   ],
   "note": "The parameter hash binds n, m, G and U"
  },
  {
   "property": "C04",
   "status": "proved",
   "theorems": [
    "C04_encoding_defined",
    "C04_encoding_refused"
   ],
   "note": "Every ring index has one well-defined digit encoding, the same in constant and variable time"
  },
  {
   "property": "C05",
   "status": "proved",
   "theorems": [
    "C05_encoding_bijective"
   ],
   "note": "The digit encoding is a bijection between ring indices and digit vectors"
  },
  {
   "property": "C06",
   "status": "proved",
   "theorems": [
    "C06_iterator_enumerates"
   ],
   "note": "Prover and verifier enumerate all n^m encodings, once each, changing one digit at a time"
  },
  {
   "property": "C07",
   "status": "proved",
   "theorems": [
    "C07_witness_accepted_exactly"
   ],
   "note": "Witness acceptance is exactly r != 0 and l < N"
  },
  {
   "property": "C08",
   "status": "proved",
   "theorems": [
    "C08_random_witness",
    "C08_random_key_nonzero_refuted"
   ],
   "note": "A random witness has an index in range, consumes the generator in a fixed order, but its key is not guaranteed to be nonzero"
  },
  {
   "property": "C09",
   "status": "proved",
   "theorems": [
    "C09_tag_and_key"
   ],
   "note": "Linking tags and verification keys satisfy the signing relation"
  },
  {
   "property": "C10",
   "status": "proved",
   "theorems": [
    "C10_tags_identify_keys"
   ],
   "note": "Linking tags identify signing keys"
  },
  {
   "property": "C11",
   "status": "proved",
   "theorems": [
    "C11_padding"
   ],
   "note": "Padding keeps the keys and repeats the last one up to N"
  },
  {
   "property": "C12",
   "status": "proved",
   "theorems": [
    "C12_input_set_hash_binds"
   ],
   "note": "The input set hash binds the keys and the unpadded size"
  },
  {
   "property": "C13",
   "status": "proved",
   "theorems": [
    "C13_statement_accepted_exactly"
   ],
   "note": "Statement acceptance is exactly |keys| = N and no identity key"
  },
  {
   "property": "C14",
   "status": "proved",
   "theorems": [
    "C14_statement_hash_binds"
   ],
   "note": "The statement hash binds parameters hash, input set hash and linking tag"
  },
  {
   "property": "C15",
   "status": "proved",
   "theorems": [
    "C15_prove_exactly",
    "C15_proof_iff_relation"
   ],
   "note": "A proof is produced exactly for true relations, with exact errors"
  },
  {
   "property": "C16",
   "status": "proved",
   "theorems": [
    "C16_prover_total"
   ],
   "note": "The prover never panics and always terminates"
  },
  {
   "property": "C17",
   "status": "proved",
   "theorems": [
    "C17_timing_equivalence"
   ],
   "note": "Constant-time and variable-time provers are functionally identical"
  },
  {
   "property": "C18",
   "status": "proved",
   "theorems": [
    "C18_refusal_has_no_effect"
   ],
   "note": "A refused proof leaves transcript and generator untouched"
  },
  {
   "property": "C19",
   "status": "proved",
   "theorems": [
    "C19_proof_shape"
   ],
   "note": "Proofs have the shape their parameters prescribe"
  },
  {
   "property": "C20",
   "status": "proved",
   "theorems": [
    "C20_nonces_hedged"
   ],
   "note": "Prover nonces are hedged: they depend on the transcript, statement, index, key and external randomness"
  },
  {
   "property": "C21",
   "status": "proved",
   "theorems": [
    "C21_randomness_oblivious"
   ],
   "note": "The prover's use of randomness does not depend on secrets"
  },
  {
   "property": "C22",
   "status": "proved",
   "theorems": [
    "C22_completeness"
   ],
   "note": "Completeness: an honest proof verifies"
  },
  {
   "property": "C23",
   "status": "proved",
   "theorems": [
    "C23_honest_rejection_condition",
    "C23_perfect_completeness_refuted"
   ],
   "note": "Perfect completeness does not hold"
  },
  {
   "property": "C24",
   "status": "proved",
   "theorems": [
    "C24_accepted_valid_refuted",
    "C24_misshaped_reason",
    "C24_faults_are_misshapes",
    "C24_verify_exactly",
    "C24_defects_are_the_equations",
    "C24_accepted_valid_or_cancel"
   ],
   "note": "verify decides exactly the weighted Triptych verification equations"
  },
  {
   "property": "C25",
   "status": "proved",
   "theorems": [
    "C25_batch_completeness"
   ],
   "note": "Batch verification accepts every batch of valid proofs"
  },
  {
   "property": "C26",
   "status": "proved",
   "theorems": [
    "C26_batch_soundness",
    "C26_at_most_one_weight"
   ],
   "note": "A batch containing an invalid proof is accepted only by an exact weight cancellation"
  },
  {
   "property": "C27",
   "status": "proved",
   "theorems": [
    "C27_special_soundness",
    "C27_accepted_proofs"
   ],
   "note": "Special soundness: m+1 accepting challenges yield the signing key"
  },
  {
   "property": "C28",
   "status": "proved",
   "theorems": [
    "C28_linkability",
    "C28_linkability_of_proofs"
   ],
   "note": "Linkability: two proofs made with the same key carry the same tag"
  },
  {
   "property": "C29",
   "status": "proved",
   "theorems": [
    "C29_unique_responses"
   ],
   "note": "Responses are unique given the first message and challenge"
  },
  {
   "property": "C30",
   "status": "proved",
   "theorems": [
    "C30_never_panics"
   ],
   "note": "Verification never panics on any proof object (release arithmetic)"
  },
  {
   "property": "C31",
   "status": "proved",
   "theorems": [
    "C31_overflow_checked",
    "C31_overflow_panics",
    "C31_never_panics_refuted"
   ],
   "note": "With overflow checks on, verification panics for accepted parameters near the u32 limit"
  },
  {
   "property": "C32",
   "status": "proved",
   "theorems": [
    "C32_empty_and_mismatched"
   ],
   "note": "Empty and mismatched batches"
  },
  {
   "property": "C33",
   "status": "proved",
   "theorems": [
    "C33_malformed_reason",
    "C33_malformed_rejected"
   ],
   "note": "Malformed proofs are rejected with an error"
  },
  {
   "property": "C34",
   "status": "proved",
   "theorems": [
    "C34_mixed_reason",
    "C34_mixed_rejected"
   ],
   "note": "Batches mixing rings or parameters are rejected"
  },
  {
   "property": "C35",
   "status": "proved",
   "theorems": [
    "C35_challenge_query_binds",
    "C35_both_parties_make_it"
   ],
   "note": "Fiat-Shamir: the challenge binds transcript, statement and the whole first message"
  },
  {
   "property": "C36",
   "status": "proved",
   "theorems": [
    "C36_weight_query_binds",
    "C36_weights_come_from_it"
   ],
   "note": "Batch weights bind every response"
  },
  {
   "property": "C37",
   "status": "proved",
   "theorems": [
    "C37_transcripts_after_verification",
    "C37_deterministic"
   ],
   "note": "Effect of verification on transcripts"
  },
  {
   "property": "C38",
   "status": "proved",
   "theorems": [
    "C38_transcripts_in_sync_refuted"
   ],
   "note": "Prover and verifier do not leave the transcript in the same state"
  },
  {
   "property": "C39",
   "status": "proved",
   "theorems": [
    "C39_single_blame_agrees"
   ],
   "note": "Single-blame verification agrees with batch verification and leaves transcripts unchanged"
  },
  {
   "property": "C40",
   "status": "proved",
   "theorems": [
    "C40_blames_first_invalid",
    "C40_blame_in_range",
    "C40_single_blame_returns"
   ],
   "note": "Single blame points at the first invalid proof"
  },
  {
   "property": "C41",
   "status": "proved",
   "theorems": [
    "C41_logarithmic_search",
    "C41_number_of_calls"
   ],
   "note": "Single blame performs logarithmically many sub-verifications"
  },
  {
   "property": "C42",
   "status": "proved",
   "theorems": [
    "C42_mismatch_panics_refuted",
    "C42_mixed_rings_blamed_refuted"
   ],
   "note": "Single blame does not meet its documentation on mismatched lengths and mixed rings"
  },
  {
   "property": "C43",
   "status": "proved",
   "theorems": [
    "C43_full_blame_exact",
    "C43_full_blame_returns",
    "C43_listed_are_invalid",
    "C43_calls"
   ],
   "note": "Full blame lists exactly the individually invalid proofs"
  },
  {
   "property": "C44",
   "status": "proved",
   "theorems": [
    "C44_blames_someone_refuted"
   ],
   "note": "Full blame can fail with an empty list"
  },
  {
   "property": "C45",
   "status": "proved",
   "theorems": [
    "C45_roundtrip",
    "C45_roundtrip_of_proofs"
   ],
   "note": "Serialization round-trips"
  },
  {
   "property": "C46",
   "status": "proved",
   "theorems": [
    "C46_canonical"
   ],
   "note": "Serialization is canonical"
  },
  {
   "property": "C47",
   "status": "proved",
   "theorems": [
    "C47_accepted_encodings",
    "C47_no_truncation_or_extension"
   ],
   "note": "Encoded length and shape are determined by the header"
  },
  {
   "property": "C48",
   "status": "proved",
   "theorems": [
    "C48_decoding_total",
    "C48_decoding_exactly"
   ],
   "note": "from_bytes is total: it never panics and every failure is FailedDeserialization"
  },
  {
   "property": "C49",
   "status": "proved",
   "theorems": [
    "C49_encoding_panics_iff",
    "C49_encoding_total_refuted",
    "C49_encoding_total_on_proofs",
    "C49_encoding_loses_shape_refuted"
   ],
   "note": "to_bytes panics on some representable proof objects"
  },
  {
   "property": "C50",
   "status": "proved",
   "theorems": [
    "C50_borsh_roundtrip",
    "C50_borsh_canonical",
    "C50_borsh_total"
   ],
   "note": "Borsh encoding round-trips and composes"
  },
  {
   "property": "C51",
   "status": "proved",
   "theorems": [
    "C51_verification_survives_encoding",
    "C51_honest_over_the_wire"
   ],
   "note": "Verification survives the wire"
  },
  {
   "property": "C52",
   "status": "proved",
   "theorems": [
    "C52_questions_disjoint",
    "C52_generators_disjoint",
    "C52_hashes_are_answers"
   ],
   "note": "Single and parallel protocols are domain separated"
  },
  {
   "property": "C53",
   "status": "proved",
   "theorems": [
    "C53_simulation",
    "C53_proofs_are_simulations"
   ],
   "note": "Honest-verifier zero knowledge of the equations: simulated transcripts satisfy the same equations"
  },
  {
   "property": "C54",
   "status": "proved",
   "theorems": [
    "C54_hiding"
   ],
   "note": "Perfect hiding of the index in the matrix part of the proof"
  },
  {
   "property": "C55",
   "status": "proved",
   "theorems": [
    "C55_ring_bound"
   ],
   "note": "The ring is bound position by position"
  },
  {
   "property": "C56",
   "status": "proved",
   "theorems": [
    "C56_equal_hashes_equal_rings",
    "C56_checked_against_own_statement"
   ],
   "note": "Only the first statement's ring matters, and hashes guarantee it is everyone's ring"
  },
  {
   "property": "C57",
   "status": "proved",
   "theorems": [
    "C57_parameters_accepted_exactly",
    "C57_parameters_exact",
    "C57_generators_depend_on_n_m_only",
    "C57_parameter_hash_binds"
   ],
   "note": "Parallel: parameter acceptance and derived quantities"
  },
  {
   "property": "C58",
   "status": "proved",
   "theorems": [
    "C58_witness_accepted_exactly",
    "C58_random_witness",
    "C58_random_key_nonzero_refuted",
    "C58_tag_and_key",
    "C58_tags_identify_keys"
   ],
   "note": "Parallel: witness acceptance and keys"
  },
  {
   "property": "C59",
   "status": "proved",
   "theorems": [
    "C59_padding",
    "C59_input_set_hash_binds"
   ],
   "note": "Parallel: input sets and padding"
  },
  {
   "property": "C60",
   "status": "proved",
   "theorems": [
    "C60_statement_accepted_exactly",
    "C60_statement_hash_binds"
   ],
   "note": "Parallel: statement acceptance"
  },
  {
   "property": "C61",
   "status": "proved",
   "theorems": [
    "C61_prove_exactly",
    "C61_proof_iff_relation",
    "C61_prover_total",
    "C61_timing_equivalence",
    "C61_refusal_has_no_effect",
    "C61_proof_shape",
    "C61_nonces_hedged",
    "C61_randomness_oblivious"
   ],
   "note": "Parallel: prover exactness, no panics, timing equivalence, frame"
  },
  {
   "property": "C62",
   "status": "proved",
   "theorems": [
    "C62_completeness",
    "C62_honest_rejection_condition",
    "C62_perfect_completeness_refuted",
    "C62_batch_completeness"
   ],
   "note": "Parallel: completeness"
  },
  {
   "property": "C63",
   "status": "proved",
   "theorems": [
    "C63_accepted_valid_refuted",
    "C63_verify_exactly",
    "C63_defects_are_the_equations",
    "C63_accepted_valid_or_cancel",
    "C63_batch_soundness",
    "C63_at_most_one_weight"
   ],
   "note": "Parallel: verification decides the weighted equations and batch soundness"
  },
  {
   "property": "C64",
   "status": "proved",
   "theorems": [
    "C64_special_soundness",
    "C64_accepted_proofs",
    "C64_linkability",
    "C64_linkability_of_proofs",
    "C64_unique_responses",
    "C64_simulation",
    "C64_proofs_are_simulations",
    "C64_hiding"
   ],
   "note": "Parallel: special soundness"
  },
  {
   "property": "C65",
   "status": "proved",
   "theorems": [
    "C65_amounts_balance",
    "C65_proofs_balance"
   ],
   "note": "Parallel: amounts balance when auxiliary keys are commitments"
  },
  {
   "property": "C66",
   "status": "proved",
   "theorems": [
    "C66_never_panics",
    "C66_overflow_checked",
    "C66_overflow_panics",
    "C66_never_panics_refuted",
    "C66_empty_and_mismatched",
    "C66_malformed_rejected",
    "C66_mixed_rejected"
   ],
   "note": "Parallel: malformed proofs and batches"
  },
  {
   "property": "C67",
   "status": "proved",
   "theorems": [
    "C67_single_blame_agrees",
    "C67_blames_first_invalid",
    "C67_blame_in_range",
    "C67_single_blame_returns",
    "C67_logarithmic_search",
    "C67_mismatch_panics_refuted",
    "C67_mixed_rings_blamed_refuted",
    "C67_full_blame_exact",
    "C67_full_blame_returns",
    "C67_listed_are_invalid",
    "C67_blames_someone_refuted"
   ],
   "note": "Parallel: blame functions"
  },
  {
   "property": "C68",
   "status": "proved",
   "theorems": [
    "C68_challenge_query_binds",
    "C68_both_parties_make_it",
    "C68_weight_query_binds",
    "C68_weights_come_from_it",
    "C68_transcripts_after_verification",
    "C68_deterministic",
    "C68_transcripts_in_sync_refuted",
    "C68_ring_bound",
    "C68_equal_hashes_equal_rings",
    "C68_checked_against_own_statement",
    "C68_weights_through_tags",
    "C68_weights_determine_the_proof_refuted"
   ],
   "note": "Parallel: transcript binding"
  },
  {
   "property": "C69",
   "status": "proved",
   "theorems": [
    "C69_roundtrip",
    "C69_roundtrip_of_proofs",
    "C69_canonical",
    "C69_accepted_encodings",
    "C69_no_truncation_or_extension",
    "C69_decoding_total",
    "C69_decoding_exactly",
    "C69_encoding_panics_iff",
    "C69_encoding_total_refuted",
    "C69_encoding_total_on_proofs",
    "C69_encoding_loses_shape_refuted",
    "C69_borsh_roundtrip",
    "C69_borsh_canonical",
    "C69_borsh_total",
    "C69_verification_survives_encoding",
    "C69_honest_over_the_wire"
   ],
   "note": "Parallel: serialization"
  },
  {
   "property": "C70",
   "status": "proved",
   "theorems": [
    "C70_weights_through_tags",
    "C70_weights_determine_the_proof_refuted"
   ],
   "note": "Batch weights depend on a proof only through a 64-bit tag"
  },
  {
   "property": "C71",
   "status": "proved",
   "theorems": [
    "C71_batch_verdict",
    "C71_verdict_unique"
   ],
   "note": "Exact verdict of a batch verification"
  },
  {
   "property": "C72",
   "status": "proved",
   "theorems": [
    "C72_batch_verdict",
    "C72_verdict_unique",
    "C72_misshaped_reason",
    "C72_faults_are_misshapes",
    "C72_malformed_reason",
    "C72_mixed_reason",
    "C72_number_of_calls",
    "C72_full_blame_calls"
   ],
   "note": "Parallel: exact verdict and cost of the verifiers"
  },
  {
   "property": "C73",
   "status": "proved",
   "theorems": [
    "C73_lone_failure_rejected",
    "C73_lone_failure_blamed",
    "C73_tampered_masks_rejected",
    "C73_tampered_z"
   ],
   "note": "A failed equation that is alone in its batch is always found"
  },
  {
   "property": "C74",
   "status": "proved",
   "theorems": [
    "C74_lone_failure_rejected",
    "C74_lone_failure_blamed",
    "C74_tampered_masks_rejected",
    "C74_tampered_z"
   ],
   "note": "Parallel: a failed equation that is alone in its batch is always found"
  },
  {
   "property": "C75",
   "status": "proved",
   "theorems": [
    "C75_life_of_a_proof"
   ],
   "note": "The whole life of a proof"
  },
  {
   "property": "C76",
   "status": "proved",
   "theorems": [
    "C76_completeness_error"
   ],
   "note": "How often an honest proof is rejected"
  },
  {
   "property": "C77",
   "status": "proved",
   "theorems": [
    "C77_pruned_by_full_blame",
    "C77_pruned_by_single_blame"
   ],
   "note": "Removing what the blame functions name leaves a batch that verifies"
  },
  {
   "property": "C78",
   "status": "proved",
   "theorems": [
    "C78_padded_ring_is_another_ring"
   ],
   "note": "A padded ring is not the ring written out"
  },
  {
   "property": "C79",
   "status": "proved",
   "theorems": [
    "C79_identity_tag_unprovable",
    "C79_identity_G_unprovable",
    "C79_tags_differ_refuted"
   ],
   "note": "The identity as linking tag or generator"
  },
  {
   "property": "C80",
   "status": "proved",
   "theorems": [
    "C80_history_bound",
    "C80_prover_leaves_history",
    "C80_verifier_leaves_history",
    "C80_chain_in_step_refuted"
   ],
   "note": "Several proofs on one running transcript"
  },
  {
   "property": "C81",
   "status": "proved",
   "theorems": [
    "C81_life_of_a_proof"
   ],
   "note": "Parallel: the whole life of a proof"
  },
  {
   "property": "C82",
   "status": "proved",
   "theorems": [
    "C82_completeness_error"
   ],
   "note": "Parallel: how often an honest proof is rejected"
  },
  {
   "property": "C83",
   "status": "proved",
   "theorems": [
    "C83_pruned_by_full_blame",
    "C83_pruned_by_single_blame"
   ],
   "note": "Parallel: removing what the blame functions name leaves a batch that verifies"
  },
  {
   "property": "C84",
   "status": "proved",
   "theorems": [
    "C84_padded_ring_is_another_ring"
   ],
   "note": "Parallel: a padded ring is not the ring written out"
  },
  {
   "property": "C85",
   "status": "proved",
   "theorems": [
    "C85_identity_tag_unprovable",
    "C85_identity_G_unprovable",
    "C85_identity_G1_unprovable",
    "C85_tags_differ_refuted"
   ],
   "note": "Parallel: the identity as linking tag or generator"
  },
  {
   "property": "C86",
   "status": "proved",
   "theorems": [
    "C86_history_bound",
    "C86_prover_leaves_history",
    "C86_verifier_leaves_history",
    "C86_chain_in_step_refuted"
   ],
   "note": "Parallel: several proofs on one running transcript"
  },
  {
   "property": "C87",
   "status": "proved",
   "theorems": [
    "C87_encodings_disjoint",
    "C87_borsh_disjoint"
   ],
   "note": "No byte string is a proof in both protocols"
  },
  {
   "property": "C88",
   "status": "proved",
   "theorems": [
    "C88_parameters_agree",
    "C88_default_parameters_agree",
    "C88_keys_and_tags_agree",
    "C88_linked_across_protocols",
    "C88_proofs_linked_across_protocols"
   ],
   "note": "Keys, tags and generators agree across the protocols"
  },
  {
   "property": "C89",
   "status": "proved",
   "theorems": [
    "C89_prove_from_os",
    "C89_vartime_same",
    "C89_random_witness"
   ],
   "note": "Proving with the operating system's generator"
  },
  {
   "property": "C90",
   "status": "proved",
   "theorems": [
    "C90_prove_from_os",
    "C90_vartime_same",
    "C90_random_witness"
   ],
   "note": "Parallel: proving with the operating system's generator"
  },
  {
   "property": "C91",
   "status": "proved",
   "theorems": [
    "C91_roundtrip",
    "C91_accepted_exactly",
    "C91_total",
    "C91_encodable_refuted",
    "C91_formats_agree_refuted",
    "C91_reading_is_safe"
   ],
   "note": "Serde round trip, canonicity and safety"
  },
  {
   "property": "C92",
   "status": "proved",
   "theorems": [
    "C92_roundtrip",
    "C92_accepted_exactly",
    "C92_total",
    "C92_encodable_refuted",
    "C92_formats_agree_refuted",
    "C92_reading_is_safe"
   ],
   "note": "Parallel: serde round trip, canonicity and safety"
  },
  {
   "property": "C93",
   "status": "proved",
   "theorems": [
    "C93_plain_not_parallel",
    "C93_sequences_disjoint",
    "C93_parallel_not_plain_refuted"
   ],
   "note": "Serde and the two protocols"
  },
  {
   "property": "C94",
   "status": "proved",
   "theorems": [
    "C94_one_spend_per_key"
   ],
   "note": "A ledger that refuses repeated linking tags lets every key spend at most once"
  },
  {
   "property": "C95",
   "status": "proved",
   "theorems": [
    "C95_no_framing",
    "C95_unspent_key_can_spend"
   ],
   "note": "Nobody is framed: the tag of a key appears on a ledger only if its key was used"
  },
  {
   "property": "C96",
   "status": "proved",
   "theorems": [
    "C96_generators_fixed",
    "C96_sources_separate"
   ],
   "note": "The generators fixed by `new` come from separate outputs of the hash function"
  },
  {
   "property": "C97",
   "status": "proved",
   "theorems": [
    "C97_one_spend_per_key"
   ],
   "note": "Parallel: a ledger that refuses repeated linking tags lets every key spend at most once"
  },
  {
   "property": "C98",
   "status": "proved",
   "theorems": [
    "C98_no_framing",
    "C98_unspent_key_can_spend"
   ],
   "note": "Parallel: nobody is framed"
  },
  {
   "property": "C99",
   "status": "proved",
   "theorems": [
    "C99_no_inflation"
   ],
   "note": "Parallel: no inflation"
  },
  {
   "property": "C100",
   "status": "proved",
   "theorems": [
    "C100_parameters",
    "C100_input_sets",
    "C100_statements",
    "C100_proofs",
    "C100_decides_equality"
   ],
   "note": "What == means"
  },
  {
   "property": "C101",
   "status": "proved",
   "theorems": [
    "C101_parameters",
    "C101_input_sets",
    "C101_statements",
    "C101_proofs",
    "C101_decides_equality"
   ],
   "note": "Parallel: what == means"
  },
  {
   "property": "C102",
   "status": "proved",
   "theorems": [
    "C102_traces_of_the_prover",
    "C102_constant_time",
    "C102_variable_time_reveals_index"
   ],
   "note": "What the timing of the prover reveals"
  },
  {
   "property": "C103",
   "status": "proved",
   "theorems": [
    "C103_traces_of_the_prover",
    "C103_constant_time",
    "C103_variable_time_reveals_index"
   ],
   "note": "Parallel: what the timing of the prover reveals"
  },
  {
   "property": "C104",
   "status": "proved",
   "theorems": [
    "C104_made_without_key",
    "C104_keyless_proofs_satisfy_equations",
    "C104_random_pairs_hide_position"
   ],
   "note": "Zero knowledge, reduced to pairs of points"
  },
  {
   "property": "C105",
   "status": "proved",
   "theorems": [
    "C105_made_without_key",
    "C105_keyless_proofs_satisfy_equations",
    "C105_random_pairs_hide_position"
   ],
   "note": "Parallel: zero knowledge, reduced to pairs of points"
  },
  {
   "property": "C106",
   "status": "proved",
   "theorems": [
    "C106_valid_twice",
    "C106_no_replay",
    "C106_public_proofs_exist"
   ],
   "note": "Proofs cannot be moved"
  },
  {
   "property": "C107",
   "status": "proved",
   "theorems": [
    "C107_valid_twice",
    "C107_no_replay",
    "C107_public_proofs_exist"
   ],
   "note": "Parallel: proofs cannot be moved"
  },
  {
   "property": "C108",
   "status": "proved",
   "theorems": [
    "C108_what_is_read",
    "C108_random_witness_counts",
    "C108_bias",
    "C108_scalars"
   ],
   "note": "Random witnesses are uniform up to an exact bias"
  },
  {
   "property": "C109",
   "status": "proved",
   "theorems": [
    "C109_what_is_read",
    "C109_random_witness_counts",
    "C109_bias",
    "C109_scalars"
   ],
   "note": "Parallel: random witnesses are uniform up to an exact bias"
  },
  {
   "property": "C110",
   "status": "proved",
   "theorems": [
    "C110_same_decoder",
    "C110_decoding_is_linear"
   ],
   "note": "Decoding costs linear time, whatever the header claims"
  },
  {
   "property": "C111",
   "status": "proved",
   "theorems": [
    "C111_same_decoder",
    "C111_decoding_is_linear"
   ],
   "note": "Parallel: decoding costs linear time, whatever the header claims"
  },
  {
   "property": "C112",
   "status": "proved",
   "theorems": [
    "C112_soundness_error",
    "C112_false_statement",
    "C112_bound_is_reached"
   ],
   "note": "Soundness error: a forger answers at most m challenges"
  },
  {
   "property": "C113",
   "status": "proved",
   "theorems": [
    "C113_soundness_error",
    "C113_false_statement",
    "C113_bound_is_reached"
   ],
   "note": "Parallel: a forger answers at most m challenges"
  },
  {
   "property": "C114",
   "status": "proved",
   "theorems": [
    "C114_number_of_tables",
    "C114_few_tables_accept",
    "C114_accepted_by_its_table",
    "C114_bound_is_reached"
   ],
   "note": "Soundness error of batch verification"
  },
  {
   "property": "C115",
   "status": "proved",
   "theorems": [
    "C115_number_of_tables",
    "C115_few_tables_accept",
    "C115_accepted_by_its_table",
    "C115_bound_is_reached"
   ],
   "note": "Parallel: soundness error of batch verification"
  },
  {
   "property": "C116",
   "status": "proved",
   "theorems": [
    "C116_reused_nonces_reveal_the_signer",
    "C116_no_reuse_of_nonces"
   ],
   "note": "Reused nonces reveal the signer, and the prover does not reuse them"
  },
  {
   "property": "C117",
   "status": "proved",
   "theorems": [
    "C117_reused_nonces_reveal_the_signer",
    "C117_no_reuse_of_nonces"
   ],
   "note": "Parallel: reused nonces reveal the signer, and the prover does not reuse them"
  },
  {
   "property": "C118",
   "status": "proved",
   "theorems": [
    "C118_same_verifier",
    "C118_cost",
    "C118_empty",
    "C118_every_call",
    "C118_batch_saves",
    "C118_single_blame",
    "C118_full_blame"
   ],
   "note": "What verifying a batch costs"
  },
  {
   "property": "C119",
   "status": "proved",
   "theorems": [
    "C119_same_verifier",
    "C119_cost",
    "C119_empty",
    "C119_every_call",
    "C119_batch_saves",
    "C119_single_blame",
    "C119_full_blame"
   ],
   "note": "Parallel: what verifying a batch costs"
  },
  {
   "property": "C120",
   "status": "proved",
   "theorems": [
    "C120_forger",
    "C120_false_statements",
    "C120_real_run",
    "C120_bound_is_reached"
   ],
   "note": "Forgers who may ask for many challenges (random oracle model)"
  },
  {
   "property": "C121",
   "status": "proved",
   "theorems": [
    "C121_forger",
    "C121_false_statements",
    "C121_real_run",
    "C121_bound_is_reached"
   ],
   "note": "Parallel: forgers who may ask for many challenges (random oracle model)"
  },
  {
   "property": "C122",
   "status": "proved",
   "theorems": [
    "C122_same_prover",
    "C122_cost",
    "C122_cost_reveals_nothing"
   ],
   "note": "What proving costs"
  },
  {
   "property": "C123",
   "status": "proved",
   "theorems": [
    "C123_same_prover",
    "C123_cost",
    "C123_cost_reveals_nothing"
   ],
   "note": "Parallel: what proving costs"
  },
  {
   "property": "C124",
   "status": "proved",
   "theorems": [
    "C124_the_question_asked",
    "C124_fresh_question",
    "C124_fresh_without_key"
   ],
   "note": "Nobody can have asked for a proof's challenge in advance"
  },
  {
   "property": "C125",
   "status": "proved",
   "theorems": [
    "C125_the_question_asked",
    "C125_fresh_question",
    "C125_fresh_without_key"
   ],
   "note": "Parallel: nobody can have asked for a proof's challenge in advance"
  },
  {
   "property": "C126",
   "status": "proved",
   "theorems": [
    "C126_what_is_wrong",
    "C126_accepted_exactly",
    "C126_false_proofs_accepted",
    "C126_any_ring",
    "C126_many_tags",
    "C126_one_in_2_64"
   ],
   "note": "A 64-bit coincidence makes verify accept a false statement"
  },
  {
   "property": "C127",
   "status": "proved",
   "theorems": [
    "C127_what_is_wrong",
    "C127_accepted_exactly",
    "C127_false_proofs_accepted",
    "C127_any_rings",
    "C127_many_tags",
    "C127_one_in_2_64"
   ],
   "note": "Parallel: a 64-bit coincidence makes verify accept a false statement"
  },
  {
   "property": "C128",
   "status": "proved",
   "theorems": [
    "C128_number_of_answers",
    "C128_sound_in_64_bits",
    "C128_real_run",
    "C128_bound_is_reached"
   ],
   "note": "Verification is as sound as 64 bits allow"
  },
  {
   "property": "C129",
   "status": "proved",
   "theorems": [
    "C129_number_of_answers",
    "C129_sound_in_64_bits",
    "C129_real_run",
    "C129_bound_is_reached"
   ],
   "note": "Parallel: verification is as sound as 64 bits allow"
  },
  {
   "property": "C130",
   "status": "proved",
   "theorems": [
    "C130_wiped_witness",
    "C130_same_prover",
    "C130_index_is_left",
    "C130_key_is_not_left",
    "C130_masks_would_tell"
   ],
   "note": "What is wiped from memory, and what is left"
  },
  {
   "property": "C131",
   "status": "proved",
   "theorems": [
    "C131_wiped_witness",
    "C131_same_prover",
    "C131_index_is_left",
    "C131_keys_are_not_left",
    "C131_masks_would_tell"
   ],
   "note": "Parallel: what is wiped from memory, and what is left"
  },
  {
   "property": "C132",
   "status": "proved",
   "theorems": [
    "C132_same_prover",
    "C132_transcript_left",
    "C132_retry"
   ],
   "note": "What a crash in the middle of proving leaves behind"
  },
  {
   "property": "C133",
   "status": "proved",
   "theorems": [
    "C133_same_prover",
    "C133_transcript_left",
    "C133_retry"
   ],
   "note": "Parallel: what a crash in the middle of proving leaves behind"
  },
  {
   "property": "C134",
   "status": "proved",
   "theorems": [
    "C134_batch_errors",
    "C134_single_errors",
    "C134_single_blame_errors",
    "C134_no_index_refuted",
    "C134_no_index_valid_refuted",
    "C134_full_blame_errors",
    "C134_prover_errors",
    "C134_prover_os_errors",
    "C134_decoder_errors",
    "C134_constructor_errors",
    "C134_never_returned",
    "C134_messages_tell_apart",
    "C134_constructor_messages",
    "C134_batch_message_refuted",
    "C134_blame_message_refuted",
    "C134_batch_size_occurs"
   ],
   "note": "Which errors each call can return, and what they say"
  },
  {
   "property": "C135",
   "status": "proved",
   "theorems": [
    "C135_batch_errors",
    "C135_single_errors",
    "C135_single_blame_errors",
    "C135_no_index_refuted",
    "C135_no_index_valid_refuted",
    "C135_full_blame_errors",
    "C135_prover_errors",
    "C135_prover_os_errors",
    "C135_decoder_errors",
    "C135_constructor_errors",
    "C135_never_returned",
    "C135_messages_tell_apart",
    "C135_batch_message_refuted",
    "C135_blame_message_refuted",
    "C135_batch_size_occurs"
   ],
   "note": "Parallel: which errors each call can return, and what they say"
  },
  {
   "property": "C136",
   "status": "proved",
   "theorems": [
    "C136_collisions_are_rare",
    "C136_in_numbers",
    "C136_real_run",
    "C136_statements_described",
    "C136_every_collision",
    "C136_ring_bound",
    "C136_checked_against_own_statement"
   ],
   "note": "Finding two statements with the same hash takes about 2^128 hashes"
  },
  {
   "property": "C137",
   "status": "proved",
   "theorems": [
    "C137_collisions_are_rare",
    "C137_in_numbers",
    "C137_real_run",
    "C137_statements_described",
    "C137_every_collision",
    "C137_ring_bound",
    "C137_checked_against_own_statement"
   ],
   "note": "Parallel: finding two statements with the same hash takes about 2^128 hashes"
  },
  {
   "property": "C138",
   "status": "proved",
   "theorems": [
    "C138_second_preimages_are_rare",
    "C138_in_numbers",
    "C138_real_run",
    "C138_different_statements"
   ],
   "note": "Finding another statement with the hash of a given one takes about 2^254 hashes"
  },
  {
   "property": "C139",
   "status": "proved",
   "theorems": [
    "C139_second_preimages_are_rare",
    "C139_in_numbers",
    "C139_real_run",
    "C139_different_statements"
   ],
   "note": "Parallel: finding another statement with the hash of a given one takes about 2^254 hashes"
  }
 ]
}