{
 "claims": [
  {
   "property": "C01",
   "status": "proved",
   "theorems": [
    "c01_honest_proof_verifies"
   ],
   "note": "every hash function, arrays up to 2^64 elements"
  },
  {
   "property": "C02",
   "status": "proved",
   "theorems": [
    "c02_accepted_proof_is_true"
   ],
   "note": "collision or zero preimage is located among the strings hashed by builder and verifier"
  },
  {
   "property": "C03",
   "status": "proved",
   "theorems": [
    "c03_out_of_range_position_fails",
    "c03_prove_never_panics"
   ],
   "note": ""
  },
  {
   "property": "C04",
   "status": "proved",
   "theorems": [
    "c04_proof_depends_on_set_only"
   ],
   "note": ""
  },
  {
   "property": "C05",
   "status": "proved",
   "theorems": [
    "c05_root_commits_same_length",
    "c05_root_commits",
    "c05_separation_is_needed"
   ],
   "note": ""
  },
  {
   "property": "C06",
   "status": "proved",
   "theorems": [
    "c06_verify_gives_a_verdict"
   ],
   "note": ""
  },
  {
   "property": "C07",
   "status": "proved",
   "theorems": [
    "c07_behaves_as_a_set"
   ],
   "note": "in-memory storage; histories whose node counter stays below 2^64"
  },
  {
   "property": "C08",
   "status": "proved",
   "theorems": [
    "c08_root_depends_on_set_only"
   ],
   "note": ""
  },
  {
   "property": "C09",
   "status": "proved",
   "theorems": [
    "c09_root_commits_to_set"
   ],
   "note": "keys of up to 256 bytes"
  },
  {
   "property": "C10",
   "status": "proved",
   "theorems": [
    "c10_storage_is_live_nodes"
   ],
   "note": ""
  },
  {
   "property": "C11",
   "status": "proved",
   "theorems": [
    "c11_no_internal_failure"
   ],
   "note": ""
  },
  {
   "property": "C12",
   "status": "partial",
   "theorems": [
    "c12_other_length_rejected_partial",
    "c12_add_other_length_refuted",
    "c12_add_prefix_panics_refuted",
    "c12_add_other_length_partial",
    "c12_truncated_refuted",
    "c145_results"
   ],
   "note": "holds for delete as long as keys are shorter than 2^32 bytes (lengths are compared modulo 2^32); false for add, which has no length check: it panics if the key begins with a member or a member with the key, and accepts it otherwise"
  },
  {
   "property": "C13",
   "status": "proved",
   "theorems": [
    "c13_stored_node_round_trip"
   ],
   "note": ""
  },
  {
   "property": "C14",
   "status": "proved",
   "theorems": [
    "c14_bits_follow_history",
    "c14_large_index_panics",
    "c14_is_zero_means_empty"
   ],
   "note": ""
  },
  {
   "property": "C15",
   "status": "proved",
   "theorems": [
    "c15_mnemonic_round_trip"
   ],
   "note": "every checksum hash of 32 bytes"
  },
  {
   "property": "C16",
   "status": "proved",
   "theorems": [
    "c16_only_produced_mnemonics",
    "c16_every_text_has_words"
   ],
   "note": ""
  },
  {
   "property": "C17",
   "status": "proved",
   "theorems": [
    "c17_exactly_m_of_n",
    "c17_blank_first_slot_rejected",
    "c17_verify_never_panics"
   ],
   "note": ""
  },
  {
   "property": "C18",
   "status": "proved",
   "theorems": [
    "c18_enough_signers_verify"
   ],
   "note": "assembling needs at least two parts, as the code demands"
  },
  {
   "property": "C19",
   "status": "proved",
   "theorems": [
    "c19_merge_is_union",
    "c19_add_is_union"
   ],
   "note": ""
  },
  {
   "property": "C20",
   "status": "proved",
   "theorems": [
    "c20_address_binds_preimage"
   ],
   "note": "32-byte keys"
  },
  {
   "property": "C21",
   "status": "partial",
   "theorems": [
    "c21_distinct_signers_partial",
    "c21_distinct_signers_refuted"
   ],
   "note": "false of the code when the key list repeats a key; proved for lists without repetition"
  },
  {
   "property": "C22",
   "status": "proved",
   "theorems": [
    "c22_batch_is_all",
    "c22_order_does_not_matter"
   ],
   "note": ""
  },
  {
   "property": "C23",
   "status": "proved",
   "theorems": [
    "c23_available_identifiers_sign",
    "c23_any_scheme"
   ],
   "note": "batch numbers below 2^64-1; locking not modelled"
  },
  {
   "property": "C24",
   "status": "proved",
   "theorems": [
    "c24_deleted_identifiers_cannot_sign",
    "c24_held_secrets_are_for_later"
   ],
   "note": "batch numbers below 2^64-1; example c24_last_batch shows the limit is needed. Erasure of freed memory is not modelled"
  },
  {
   "property": "C25",
   "status": "proved",
   "theorems": [
    "c25_snapshot_same_power"
   ],
   "note": ""
  },
  {
   "property": "C26",
   "status": "proved",
   "theorems": [
    "c26_accepts_exactly_the_chain",
    "c26_batch_ids_distinct",
    "c26_offset_ids_distinct",
    "c26_batch_and_offset_ids_differ"
   ],
   "note": ""
  },
  {
   "property": "C27",
   "status": "proved",
   "theorems": [
    "c27_honest_proof_accepted",
    "c27_proof_length"
   ],
   "note": "for every group that meets curve_ok; that the real curve does is C139"
  },
  {
   "property": "C28",
   "status": "proved",
   "theorems": [
    "c28_output_unique"
   ],
   "note": "up to the stated challenge coincidence, which is a random-oracle event"
  },
  {
   "property": "C29",
   "status": "partial",
   "theorems": [
    "c29_canonical_refuted",
    "c29_scalars_canonical_partial",
    "c29_canonical_partial",
    "c29_decode_encode",
    "c142_byte_forms"
   ],
   "note": "false of the code: point decompression accepts unreduced coordinates, so one proof has two byte forms; proved for the scalars, and in full when decompression is canonical; for the real curve, exactly which 80-byte strings are the byte form of what they decode to (c142_byte_forms)"
  },
  {
   "property": "C30",
   "status": "proved",
   "theorems": [
    "c30_domains_disjoint",
    "c30_multisig_addresses_apart"
   ],
   "note": ""
  },
  {
   "property": "C31",
   "status": "proved",
   "theorems": [
    "c31_two_bytes",
    "c31_tag_determined",
    "c31_no_comma"
   ],
   "note": ""
  },
  {
   "property": "C32",
   "status": "proved",
   "theorems": [
    "c32_round_trip"
   ],
   "note": ""
  },
  {
   "property": "C33",
   "status": "proved",
   "theorems": [
    "c33_only_the_text_form"
   ],
   "note": ""
  },
  {
   "property": "C34",
   "status": "partial",
   "theorems": [
    "c34_never_panics_refuted",
    "c34_panics_exactly",
    "c34_never_panics_partial"
   ],
   "note": "false of the code: a payload of another length with a matching checksum reaches unreachable!; the panicking texts are characterised exactly"
  },
  {
   "property": "C35",
   "status": "proved",
   "theorems": [
    "c35_round_trip",
    "c35_only_the_text_form",
    "c35_never_panics"
   ],
   "note": ""
  },
  {
   "property": "C36",
   "status": "proved",
   "theorems": [
    "c36_sub_capped",
    "c36_round_up",
    "c36_ots_id",
    "c36_ots_id_monotone",
    "c36_reward_units"
   ],
   "note": "example c36_round_up_limit shows that the range of the rounding is needed"
  },
  {
   "property": "C37",
   "status": "proved",
   "theorems": [
    "c37_credited_exactly",
    "c37_not_participating",
    "c37_twice",
    "c37_panics",
    "c37_wraps",
    "c37_money"
   ],
   "note": ""
  },
  {
   "property": "C38",
   "status": "proved",
   "theorems": [
    "c38_min_balance",
    "c38_monotone"
   ],
   "note": ""
  },
  {
   "property": "C39",
   "status": "partial",
   "theorems": [
    "c39_normalized_partial",
    "c39_offline",
    "c39_panics",
    "c39_never_fails_refuted"
   ],
   "note": "false of the code: it panics once balance times reward unit reaches 2^64 (about 18.4 million Algos); proved below that"
  },
  {
   "property": "C40",
   "status": "proved",
   "theorems": [
    "c40_status"
   ],
   "note": ""
  },
  {
   "property": "C41",
   "status": "proved",
   "theorems": [
    "c41_alive",
    "c41_never_panics"
   ],
   "note": ""
  },
  {
   "property": "C42",
   "status": "proved",
   "theorems": [
    "c42_accepts",
    "c42_panics",
    "c42_panics_at_the_end",
    "c42_limits"
   ],
   "note": "the overflow hypothesis on the protocol limits holds of every built-in protocol (c42_limits); well-formedness is stated with the fee rule the code has (fee above the minimum, see C43)"
  },
  {
   "property": "C43",
   "status": "partial",
   "theorems": [
    "c43_minimum_fee_refuted",
    "c43_minimum_fee_rejected",
    "c43_larger_fee_partial",
    "c43_smaller_fee_partial"
   ],
   "note": "false of the code: a fee of exactly the minimum is rejected; proved for every other fee"
  },
  {
   "property": "C44",
   "status": "proved",
   "theorems": [
    "c44_sign"
   ],
   "note": "for a correct signature scheme; a public key of all zero bytes is excluded"
  },
  {
   "property": "C45",
   "status": "partial",
   "theorems": [
    "c45_credit_refuted",
    "c45_certificate_refuted",
    "c45_counts_certificates",
    "c45_saturates",
    "c45_credit_partial"
   ],
   "note": "false of the code: it charges compact certificates and nothing else; proved what it computes, and the claim for groups with as many certificates as other transactions"
  },
  {
   "property": "C46",
   "status": "proved",
   "theorems": [
    "c46_relevant",
    "c46_match"
   ],
   "note": ""
  },
  {
   "property": "C47",
   "status": "proved",
   "theorems": [
    "c47_encodes",
    "c47_round_trip",
    "c47_round_trip_back"
   ],
   "note": "for any consensus table; a header with an unknown protocol panics"
  },
  {
   "property": "C48",
   "status": "proved",
   "theorems": [
    "c48_grouping",
    "c48_unique",
    "c48_blocks",
    "c48_wrapped"
   ],
   "note": ""
  },
  {
   "property": "C49",
   "status": "proved",
   "theorems": [
    "c49_conserved",
    "c49_no_units",
    "c49_overflow",
    "c49_many_rounds",
    "c49_rate_kept",
    "c49_panics"
   ],
   "note": ""
  },
  {
   "property": "C50",
   "status": "partial",
   "theorems": [
    "c50_funded_refuted",
    "c50_new_rate",
    "c50_funded_partial",
    "c50_overdraft_partial"
   ],
   "note": "false of the code: the rate is computed from the pool plus, not minus, minimum balance and residue; proved the exact rate, the claim where there is nothing to hold back, and a bound on the overdraft"
  },
  {
   "property": "C51",
   "status": "proved",
   "theorems": [
    "c51_voted_in",
    "c51_pending",
    "c51_one_at_a_time",
    "c51_refused_votes"
   ],
   "note": "while round arithmetic stays within 64 bits"
  },
  {
   "property": "C52",
   "status": "partial",
   "theorems": [
    "c52_can_propose_refuted",
    "c52_never_upgrades_refuted",
    "c52_can_propose_partial",
    "c52_can_approve_partial"
   ],
   "note": "false of the code: a proposal is refused unless the current protocol is its own successor, so a chain never upgrades; proved in states that name the current protocol as next"
  },
  {
   "property": "C53",
   "status": "partial",
   "theorems": [
    "c53_new_fails_refuted",
    "c53_own_check_refuted",
    "c53_passes_partial",
    "c53_passes_same_partial"
   ],
   "note": "false of the code: making a block panics on most protocols, and changes the previous header so that the check against it can fail; proved against the previous header as it was, and against the changed one while its upgrade state is unchanged"
  },
  {
   "property": "C54",
   "status": "proved",
   "theorems": [
    "c54_time",
    "c54_rejects"
   ],
   "note": "while timestamp arithmetic stays within 64 bits"
  },
  {
   "property": "C55",
   "status": "proved",
   "theorems": [
    "c55_pre_check",
    "c55_effect"
   ],
   "note": "exact characterization, while 64-bit arithmetic does not overflow"
  },
  {
   "property": "C56",
   "status": "partial",
   "theorems": [
    "c56_upgrade_state_refuted",
    "c56_rest_partial"
   ],
   "note": "false of the code: the upgrade state is skipped when encoding; proved that everything else is committed to"
  },
  {
   "property": "C57",
   "status": "partial",
   "theorems": [
    "c57_transactions_refuted",
    "c57_up_to_flags_partial",
    "c57_merkle_partial",
    "c57_required_partial"
   ],
   "note": "false for protocols V11 to V15, where the two genesis flags can be exchanged; proved up to the flags in general, and in full for Merkle commitments and where the genesis hash is required; an all-zero hash of a hashed string is the other way out"
  },
  {
   "property": "C58",
   "status": "proved",
   "theorems": [
    "c58_quantile",
    "c58_threshold",
    "c58_ratio",
    "c58_monotone",
    "c58_defined"
   ],
   "note": "The binomial distribution function of the statrs crate is an arbitrary function; monotonicity is a hypothesis only of c58_threshold. Floats are IEEE binary64 from Coq's SpecFloat; theorems about rounding use the axioms of Coq's real numbers."
  },
  {
   "property": "C59",
   "status": "partial",
   "theorems": [
    "c59_accepts_partial",
    "c59_weight",
    "c59_refused",
    "c59_panics_partial",
    "c59_own_credential",
    "c59_panics_refuted"
   ],
   "note": "Exact acceptance and panic conditions. The claim that only inconsistent totals panic is false: a selection key that is not a curve point panics (c59_panics_refuted); the code hides no other panic (c59_panics_partial)."
  },
  {
   "property": "C60",
   "status": "partial",
   "theorems": [
    "c60_weight_one_refuted",
    "c60_counters_refuted",
    "c60_lowest_partial",
    "c60_stable",
    "c60_digest",
    "c60_compare"
   ],
   "note": "False as stated: the loop stops before counter w, so weight-one credentials all rank 0. Proved: least over counters 1 to w-1 for w >= 2."
  },
  {
   "property": "C61",
   "status": "partial",
   "theorems": [
    "c61_output_refuted",
    "c61_output_partial",
    "c61_members"
   ],
   "note": "False with domain separation: the raw output is skipped by the encoding, so all credentials of a member share one hash. True without it, up to hash collisions."
  },
  {
   "property": "C62",
   "status": "proved",
   "theorems": [
    "c62_table_computed",
    "c62_closed",
    "c62_leads_to_current",
    "c62_every_path_ends_in_current",
    "c62_no_cycle",
    "c62_parameters"
   ],
   "note": "the future protocol has no upgrades and is not reached"
  },
  {
   "property": "C63",
   "status": "partial",
   "theorems": [
    "c63_never_fails_refuted",
    "c63_order_refuted",
    "c63_merge_partial",
    "c63_every_order_partial",
    "c63_fails"
   ],
   "note": "false of the code: the outcome and even success depend on the iteration order of the configured map; proved exactly when it holds in every order, and exactly when an order fails"
  },
  {
   "property": "C64",
   "status": "partial",
   "theorems": [
    "c64_part_name_shape",
    "c64_part_names_differ",
    "c64_root_and_part_differ",
    "c64_matching_part_names",
    "c64_matching_root_names",
    "c64_part_recognised_partial",
    "c64_part_recognised_refuted",
    "c64_root_recognised_refuted",
    "c64_root_account_partial"
   ],
   "note": "false of the code: root key file names are never recognised, and an account name ending like a participation key file is not recovered; the rest is proved"
  },
  {
   "property": "C65",
   "status": "proved",
   "theorems": [
    "c65_address_index",
    "c65_app_index",
    "c65_index_of_address",
    "c65_index_of_app"
   ],
   "note": ""
  },
  {
   "property": "C66",
   "status": "proved",
   "theorems": [
    "c66_add",
    "c66_sub",
    "c66_add_then_sub",
    "c66_range",
    "c66_cost",
    "c66_of_values"
   ],
   "note": ""
  },
  {
   "property": "C67",
   "status": "proved",
   "theorems": [
    "c67_bytes",
    "c67_uint",
    "c67_delete",
    "c67_valid"
   ],
   "note": "values built by the two constructors"
  },
  {
   "property": "C68",
   "status": "partial",
   "theorems": [
    "c68_covers_partial",
    "c68_aged_partial",
    "c68_any_scheme_partial",
    "c68_generated",
    "c68_overlaps",
    "c68_last_round_refuted"
   ],
   "note": "False only for the interval ending at 2^64-1 with dilution 1, where signing overflows; proved for every other interval and dilution, also after deletions."
  },
  {
   "property": "C69",
   "status": "proved",
   "theorems": [
    "c69_add",
    "c69_never_lost_adding",
    "c69_never_lost_aging",
    "c69_distinct",
    "c69_keys",
    "c69_live",
    "c69_live_reversed",
    "c69_registered"
   ],
   "note": "A reversed query range panics (c69_live_reversed)."
  },
  {
   "property": "C70",
   "status": "partial",
   "theorems": [
    "c70_fresh_refuted",
    "c70_mixture_refuted",
    "c70_crash_partial",
    "c70_persisted_partial",
    "c70_new_parent_atomic",
    "c70_deletion_atomic"
   ],
   "note": "False: the six values are written one by one. An incomplete first write makes reading panic and an incomplete overwrite yields a mixture; what is read after each crash point is given exactly."
  },
  {
   "property": "C71",
   "status": "proved",
   "theorems": [
    "c71_funded",
    "c71_deterministic",
    "c71_panics"
   ],
   "note": ""
  },
  {
   "property": "C72",
   "status": "partial",
   "theorems": [
    "c26_batch_ids_distinct",
    "c26_offset_ids_distinct",
    "c26_batch_and_offset_ids_differ",
    "c72_transactions",
    "c72_identifiers",
    "c72_in_block_refuted",
    "c72_in_block_partial"
   ],
   "note": "false of in-block transactions: the two genesis flags can be exchanged without changing the encoding; proved that nothing else can"
  },
  {
   "property": "C73",
   "status": "partial",
   "theorems": [
    "c73_deterministic_refuted",
    "c73_deterministic_partial",
    "c73_only_order_partial"
   ],
   "note": "false of the code: state deltas are written in hash map order; proved while no map has two entries"
  },
  {
   "property": "C74",
   "status": "partial",
   "theorems": [
    "c74_kept_partial",
    "c74_any_scheme_partial",
    "c74_defined_partial",
    "c74_no_state_refuted",
    "c74_no_signature_refuted",
    "c74_made_refuted"
   ],
   "note": "False as to panics: a header without compact certificate state, or an account without a signature record, panics. Otherwise proved, while round arithmetic stays within 64 bits."
  },
  {
   "property": "C75",
   "status": "partial",
   "theorems": [
    "c75_shared_refuted",
    "c75_single_partial"
   ],
   "note": "False with two participations, which share one set of store keys; proved for a single one."
  },
  {
   "property": "C76",
   "status": "partial",
   "theorems": [
    "c76_generate_refuted",
    "c76_restored_partial"
   ],
   "note": "False: generation hands 32 bytes to a constructor that wants 64 and always panics; a stored key pair is read back."
  },
  {
   "property": "C77",
   "status": "proved",
   "theorems": [
    "c77_carries",
    "c77_accepted"
   ],
   "note": "for participations with nonzero keys, last round and dilution"
  },
  {
   "property": "C78",
   "status": "proved",
   "theorems": [
    "c78_generate",
    "c78_recover",
    "c78_one_name"
   ],
   "note": "With one name for both files the key file is overwritten by the address (c78_one_name)."
  },
  {
   "property": "C79",
   "status": "proved",
   "theorems": [
    "c79_import"
   ],
   "note": ""
  },
  {
   "property": "C80",
   "status": "partial",
   "theorems": [
    "c80_sign_refuted",
    "c80_sign_partial"
   ],
   "note": "False for every input: the output is written through a handle opened for reading, and a 32-byte seed is handed to a constructor that wants 64 bytes. The partial theorem says what happens instead."
  },
  {
   "property": "C81",
   "status": "partial",
   "theorems": [
    "c81_only_key_files_refuted",
    "c81_only_key_files_partial"
   ],
   "note": "False: any file of at least 32 bytes is exported; the exact condition is proved."
  },
  {
   "property": "C82",
   "status": "proved",
   "theorems": [
    "c82_default_dilution"
   ],
   "note": "The square root is IEEE binary64; the theorem uses the axioms of Coq's real numbers."
  },
  {
   "property": "C83",
   "status": "partial",
   "theorems": [
    "c83_key_files_refuted",
    "c83_key_files_partial"
   ],
   "note": "False: the key file name is ignored and the last participation generated wins; with one name what was generated is shown."
  },
  {
   "property": "C84",
   "status": "proved",
   "theorems": [
    "c84_reparent",
    "c84_refused"
   ],
   "note": ""
  },
  {
   "property": "C85",
   "status": "partial",
   "theorems": [
    "c85_reversed_refuted",
    "c85_reversed_partial"
   ],
   "note": "False with the default dilution where overflow is checked, which panics; nothing is stored in any case."
  },
  {
   "property": "C86",
   "status": "partial",
   "theorems": [
    "c86_saved_settings_refuted",
    "c86_saves_nothing",
    "c86_settings_file_partial"
   ],
   "note": "False: saving writes nothing. A file with the JSON text of the settings is read back."
  },
  {
   "property": "C87",
   "status": "partial",
   "theorems": [
    "c87_missing_settings_refuted",
    "c87_missing_setting_rejected",
    "c87_settings_partial",
    "c87_field_values",
    "c87_only_typed",
    "c87_durations"
   ],
   "note": "False: a file that leaves out any setting is refused; the exact condition under which a file is accepted is proved."
  },
  {
   "property": "C88",
   "status": "proved",
   "theorems": [
    "c88_relays",
    "c88_others_unchanged"
   ],
   "note": ""
  },
  {
   "property": "C89",
   "status": "proved",
   "theorems": [
    "c89_default",
    "c89_pattern",
    "c89_list"
   ],
   "note": ""
  },
  {
   "property": "C90",
   "status": "proved",
   "theorems": [
    "c90_dnssec",
    "c90_catchup"
   ],
   "note": ""
  },
  {
   "property": "C91",
   "status": "partial",
   "theorems": [
    "c91_phonebook_refuted",
    "c91_always_lost",
    "c91_loads_nothing",
    "c91_phonebook_partial"
   ],
   "note": "False for every phonebook: loading fails on any saved file and never returns an entry; the saved text holds the entries."
  },
  {
   "property": "C92",
   "status": "proved",
   "theorems": [
    "c92_saved_protocols",
    "c92_loaded_protocols",
    "c92_no_file"
   ],
   "note": "For protocols whose numbers fit their types. Merging itself is C63."
  },
  {
   "property": "C93",
   "status": "partial",
   "theorems": [
    "c93_empty_refuted",
    "c93_empty_missing",
    "c93_empty_partial"
   ],
   "note": "False: the file is made again, and without a file saving fails; the new file configures nothing."
  },
  {
   "property": "C94",
   "status": "proved",
   "theorems": [
    "c94_only_honest_proof"
   ],
   "note": "Up to collisions and zero preimages among the strings hashed."
  },
  {
   "property": "C95",
   "status": "proved",
   "theorems": [
    "c95_accepted_is_contained",
    "c95_contained_is_accepted"
   ],
   "note": "Up to collisions and zero preimages among the strings hashed."
  },
  {
   "property": "C96",
   "status": "proved",
   "theorems": [
    "c96_elements",
    "c96_tree",
    "c96_leaf"
   ],
   "note": ""
  },
  {
   "property": "C97",
   "status": "proved",
   "theorems": [
    "c97_commits",
    "c97_not_a_group"
   ],
   "note": ""
  },
  {
   "property": "C98",
   "status": "proved",
   "theorems": [
    "c98_genesis_id"
   ],
   "note": ""
  },
  {
   "property": "C99",
   "status": "proved",
   "theorems": [
    "c99_commits"
   ],
   "note": ""
  },
  {
   "property": "C100",
   "status": "partial",
   "theorems": [
    "c100_order_refuted",
    "c100_order_partial"
   ],
   "note": "False: maps are written in iteration order; true while no account in the genesis has a map of two entries."
  },
  {
   "property": "C101",
   "status": "partial",
   "theorems": [
    "c101_commits_refuted",
    "c101_one_hash"
   ],
   "note": "False for all records: the data hashed is empty. The partial theorem says what happens instead."
  },
  {
   "property": "C102",
   "status": "partial",
   "theorems": [
    "c102_well_formed_is_unreadable",
    "c102_read_back_refuted",
    "c102_read_back_partial"
   ],
   "note": "False of every well-formed transaction: addresses are written as bytes and read as sequences of numbers. Exactly the transactions naming no account are read back; nothing wrong is ever read."
  },
  {
   "property": "C103",
   "status": "partial",
   "theorems": [
    "c103_signed_is_unreadable",
    "c103_what_is_signed_is_unreadable",
    "c103_read_back_refuted",
    "c103_read_back_partial"
   ],
   "note": "False of every signed transaction with at most two of the three kinds of signature: fields left out of an array are not marked. Nothing of the claim is left for them."
  },
  {
   "property": "C104",
   "status": "proved",
   "theorems": [
    "c104_assemble"
   ],
   "note": ""
  },
  {
   "property": "C105",
   "status": "proved",
   "theorems": [
    "c105_one_key_one_message",
    "c105_output_names_the_point"
   ],
   "note": "Up to the coincidences of hashes named in the statement."
  },
  {
   "property": "C106",
   "status": "proved",
   "theorems": [
    "c106_short_form"
   ],
   "note": ""
  },
  {
   "property": "C107",
   "status": "partial",
   "theorems": [
    "c107_estimate_refuted",
    "c107_underestimates"
   ],
   "note": "False: the estimate is always 200. Every transaction with a note of more than 200 bytes is underestimated."
  },
  {
   "property": "C108",
   "status": "proved",
   "theorems": [
    "c108_receiver_is_found",
    "c108_amount_has_receiver"
   ],
   "note": ""
  },
  {
   "property": "C109",
   "status": "proved",
   "theorems": [
    "c109_names_differ"
   ],
   "note": ""
  },
  {
   "property": "C110",
   "status": "partial",
   "theorems": [
    "c110_equal_ties_refuted",
    "c110_equal_ties_partial"
   ],
   "note": "False: equality ignores the weight, ranking does not. True for equal weights."
  },
  {
   "property": "C111",
   "status": "proved",
   "theorems": [
    "c111_only_online"
   ],
   "note": ""
  },
  {
   "property": "C112",
   "status": "proved",
   "theorems": [
    "c112_dilution",
    "c112_every_round"
   ],
   "note": ""
  },
  {
   "property": "C113",
   "status": "proved",
   "theorems": [
    "c113_app_addresses_differ",
    "c113_app_addresses_apart",
    "c113_not_a_multisig"
   ],
   "note": ""
  },
  {
   "property": "C114",
   "status": "partial",
   "theorems": [
    "c114_memory_reads",
    "c114_database_reads",
    "c114_size_partial",
    "c114_live_ids_exist",
    "c114_database_size_refuted"
   ],
   "note": "The reads are as claimed for both storages. The size claim is false for the database, which always reports zero (storage.rs:37-39)."
  },
  {
   "property": "C115",
   "status": "proved",
   "theorems": [
    "c115_hash_agrees"
   ],
   "note": ""
  },
  {
   "property": "C116",
   "status": "partial",
   "theorems": [
    "c116_text_refuted",
    "c116_bytes_partial",
    "c116_numbers_partial"
   ],
   "note": "False: the byte string 0x10 and the number 10 are both shown as 10 (teal.rs:226-233). Proved within each type."
  },
  {
   "property": "C117",
   "status": "partial",
   "theorems": [
    "c117_length",
    "c117_empty_refuted",
    "c117_empty_partial",
    "c117_empty_no_arguments_partial"
   ],
   "note": "The length is right. The emptiness claim is false for a signature with arguments and no program (logicsig.rs:29-31); it holds without arguments, and length zero implies empty."
  },
  {
   "property": "C118",
   "status": "partial",
   "theorems": [
    "c118_read_back_refuted",
    "c118_read_back_partial"
   ],
   "note": "False: the upgrade state is skipped (block.rs:97) and comes back as the default; with a reader that does not give bytes as a sequence nothing is read back, since addresses are written as bytes. Everything else is read back."
  },
  {
   "property": "C119",
   "status": "partial",
   "theorems": [
    "c119_load_partial",
    "c119_load_panics",
    "c119_missing_refuted"
   ],
   "note": "Loading gives the genesis if the reader gives bytes as a sequence or there are no accounts, and panics otherwise (addresses are written as bytes). The error is never given: missing and undecodable files panic (genesis.rs:125-126)."
  },
  {
   "property": "C120",
   "status": "proved",
   "theorems": [
    "c120_headers",
    "c120_blocks"
   ],
   "note": "For headers whose numbers and strings fit their types."
  },
  {
   "property": "C121",
   "status": "proved",
   "theorems": [
    "c121_rounds",
    "c121_time",
    "c121_genesis_id",
    "c121_genesis_hash"
   ],
   "note": ""
  },
  {
   "property": "C122",
   "status": "proved",
   "theorems": [
    "c122_voted_in"
   ],
   "note": ""
  },
  {
   "property": "C123",
   "status": "partial",
   "theorems": [
    "c123_persist_partial",
    "c123_success_means_stored",
    "c123_new_parent_partial",
    "c123_deletion_partial",
    "c123_generation_refuted"
   ],
   "note": "False for generation, which panics when a write fails (account.rs:267). Proved for the other three."
  },
  {
   "property": "C124",
   "status": "proved",
   "theorems": [
    "c124_reading",
    "c124_unambiguous",
    "c124_written",
    "c124_shortest",
    "c124_again"
   ],
   "note": "Floating point and extension values are in no type of the library; they are read as the bytes that stand for them."
  },
  {
   "property": "C125",
   "status": "proved",
   "theorems": [
    "c125_participation",
    "c125_again",
    "c125_root"
   ],
   "note": ""
  },
  {
   "property": "C126",
   "status": "proved",
   "theorems": [
    "c126_transaction",
    "c126_signed_transaction",
    "c126_block_header",
    "c126_genesis"
   ],
   "note": ""
  },
  {
   "property": "C127",
   "status": "partial",
   "theorems": [
    "c127_canonical_refuted",
    "c127_order_partial",
    "c127_unknown_partial",
    "c127_twice_partial",
    "c127_keys_partial"
   ],
   "note": "False: entries can come in any order and entries with unknown names are passed over. Proved is exactly that, and that repeated header fields or types and keys that are neither names nor numbers are refused."
  },
  {
   "property": "C128",
   "status": "partial",
   "theorems": [
    "c128_loaded",
    "c128_written",
    "c128_nothing_left_out_refuted",
    "c128_nothing_left_out_partial"
   ],
   "note": "False: a line that is not UTF-8 is left out without notice, and the words after it move up. Proved is exactly which words are loaded (c128_loaded), and the full statement for files whose lines are all texts."
  },
  {
   "property": "C129",
   "status": "partial",
   "theorems": [
    "c129_any_words",
    "c129_comes_back_refuted",
    "c129_comes_back_partial"
   ],
   "note": "False for a file with repeated words, which is accepted. Proved for files with different words; mnemonics of 25 words and no panics for all accepted files."
  },
  {
   "property": "C130",
   "status": "proved",
   "theorems": [
    "c130_text",
    "c130_characters"
   ],
   "note": ""
  },
  {
   "property": "C131",
   "status": "proved",
   "theorems": [
    "c131_same_length",
    "c131_bytes_needed",
    "c131_bytes_needed_in_block"
   ],
   "note": ""
  },
  {
   "property": "C132",
   "status": "partial",
   "theorems": [
    "c132_overridden",
    "c132_no_home",
    "c132_first",
    "c132_alike_refuted",
    "c132_alike_partial"
   ],
   "note": "False: when the folder is there already, the first question fails and the next ones succeed. Everything else is proved."
  },
  {
   "property": "C133",
   "status": "partial",
   "theorems": [
    "c133_restored",
    "c133_returned",
    "c133_atomic_refuted",
    "c133_began_partial",
    "c133_alone_partial"
   ],
   "note": "The first half is proved; the second is false, since the lock is released between reading and writing. Proved for calls that do not overlap with another that writes."
  },
  {
   "property": "C134",
   "status": "proved",
   "theorems": [
    "c134_settings",
    "c134_spelling",
    "c134_one_meaning"
   ],
   "note": ""
  },
  {
   "property": "C135",
   "status": "proved",
   "theorems": [
    "c135_typed"
   ],
   "note": ""
  },
  {
   "property": "C136",
   "status": "proved",
   "theorems": [
    "c136_protocols",
    "c136_phonebook"
   ],
   "note": "That no phonebook with entries is accepted is the defect of C91."
  },
  {
   "property": "C137",
   "status": "proved",
   "theorems": [
    "c137_header",
    "c137_genesis",
    "c137_keys",
    "c137_header_only",
    "c137_genesis_only",
    "c137_keys_only"
   ],
   "note": "Integers as keys, which stand for the place of a field, are left out of the model; see StructModel.v."
  },
  {
   "property": "C138",
   "status": "proved",
   "theorems": [
    "c138_hash",
    "c138_long",
    "c138_text",
    "c138_address",
    "c138_padding",
    "c138_blocks_determine_message"
   ],
   "note": "SHA-512 and SHA-512/256 are modelled from FIPS 180-4."
  },
  {
   "property": "C139",
   "status": "proved",
   "theorems": [
    "c139_group",
    "c139_multiples",
    "c139_base_order",
    "c139_compressed",
    "c139_strings",
    "c139_honest_proof_accepted",
    "c139_proof_length",
    "c139_output_unique"
   ],
   "note": "No premise about the curve: primality of both orders, the group law and square roots are proved. curve25519-dalek's limb arithmetic is modelled by arithmetic modulo 2^255-19."
  },
  {
   "property": "C140",
   "status": "proved",
   "theorems": [
    "c140_signatures_accepted",
    "c140_not_malleable",
    "c140_strict",
    "c140_keys",
    "c140_null_refused"
   ],
   "note": "Ed25519 as RFC 8032 and ed25519-dalek's verify and verify_strict define it. Unforgeability is a cryptographic assumption and not claimed."
  },
  {
   "property": "C141",
   "status": "proved",
   "theorems": [
    "c141_one_time_signatures",
    "c141_deleted",
    "c141_multisig",
    "c141_transactions"
   ],
   "note": "The multisignature theorem keeps C18's premises that keys are different and the first is not the default key."
  },
  {
   "property": "C142",
   "status": "proved",
   "theorems": [
    "c142_one_key_one_message",
    "c142_output_names_the_point",
    "c142_byte_forms",
    "c142_own_credential"
   ],
   "note": "C29, C59 and C105 without premises about the curve."
  },
  {
   "property": "C143",
   "status": "proved",
   "theorems": [
    "c143_defined",
    "c143_no_failure",
    "c143_on_montgomery",
    "c143_prime_order",
    "c143_same_coordinate"
   ],
   "note": "Elligator 2 as curve25519-dalek computes it."
  },
  {
   "property": "C144",
   "status": "proved",
   "theorems": [
    "c144_lifetime",
    "c144_well_formed"
   ],
   "note": "Joins C68, C75, C77, C140, C142 and C189 for the real primitives. Faults of the storage are C70."
  },
  {
   "property": "C145",
   "status": "proved",
   "theorems": [
    "c145_results",
    "c145_goes_on",
    "c145_members",
    "c145_root_depends_on_set_only",
    "c145_root_commits_to_set",
    "c145_storage_is_live_nodes"
   ],
   "note": "The exact behaviour in every state; C12 is the part of the expected behaviour that fails."
  },
  {
   "property": "C146",
   "status": "proved",
   "theorems": [
    "c146_conserved",
    "c146_touch_succeeds",
    "c146_more_often",
    "c146_one_unit"
   ],
   "note": "Joins C37 and C49. Payments between accounts are not part of the code."
  },
  {
   "property": "C147",
   "status": "proved",
   "theorems": [
    "c147_quantile",
    "c147_close",
    "c147_order",
    "c147_more_stake",
    "c147_computable"
   ],
   "note": "The distribution of the statrs crate is not part of the repository: the theorems hold for every program that rounds the binomial distribution correctly, and c147_computable gives one. The probability of a draw is the float quotient of the two floats."
  },
  {
   "property": "C148",
   "status": "proved",
   "theorems": [
    "c148_distribution",
    "c148_average",
    "c148_committee"
   ],
   "note": "The distribution of the statrs crate is not part of the repository: the theorems hold for every program that rounds the binomial distribution correctly (c147_computable gives one). That hashes are uniform is an assumption about the hash function, not made here: the averages are over all hashes."
  },
  {
   "property": "C149",
   "status": "proved",
   "theorems": [
    "c149_sound"
   ],
   "note": "Joins C95, C120 and C121. Only for blocks whose protocol commits to transactions by a Merkle tree; that honest proofs are accepted is C95."
  },
  {
   "property": "C150",
   "status": "proved",
   "theorems": [
    "c150_report",
    "c150_report_tells",
    "c150_keys",
    "c150_keys_tell",
    "c150_amounts",
    "c150_identifiers_read",
    "c150_identifiers_tell"
   ],
   "note": "Base 64 is modelled from the documentation of the crate data-encoding and tested on the vectors of RFC 4648."
  },
  {
   "property": "C151",
   "status": "proved",
   "theorems": [
    "c151_close",
    "c151_distribution",
    "c151_average",
    "c151_committee"
   ],
   "note": "Replaces the premise of C147 and C148, that the library rounds correctly, by an error bound. Standard library axioms of the reals are used."
  },
  {
   "property": "C152",
   "status": "proved",
   "theorems": [
    "c152_exact",
    "c152_one",
    "c152_many",
    "c152_all"
   ],
   "note": "Together with C94, which says that no other proof is accepted, the sizes are those of all accepted proofs."
  },
  {
   "property": "C153",
   "status": "proved",
   "theorems": [
    "c153_size",
    "c153_shared",
    "c153_bound"
   ],
   "note": "Follows from the invariant of C145; c153_shared says what the list of shared beginnings is."
  },
  {
   "property": "C154",
   "status": "proved",
   "theorems": [
    "c154_together",
    "c154_split"
   ],
   "note": "Hashes of different accounts are taken as independent: all combinations count alike."
  },
  {
   "property": "C155",
   "status": "proved",
   "theorems": [
    "c155_few",
    "c155_many",
    "c155_safe",
    "c155_live"
   ],
   "note": "Hashes of different accounts are taken as independent: all combinations count alike. The thresholds are only in the protocol table; no code of the repository counts votes."
  },
  {
   "property": "C156",
   "status": "proved",
   "theorems": [
    "c156_commutes",
    "c156_repeats",
    "c156_groups",
    "c156_assembles",
    "c156_any_order"
   ],
   "note": "With different signatures in one slot merging fails and assembling keeps the last one, see the example c156_conflict."
  },
  {
   "property": "C157",
   "status": "proved",
   "theorems": [
    "c157_earlier",
    "c157_latest",
    "c157_held"
   ],
   "note": "The first part holds of any key state and with different numbers of keys per batch."
  },
  {
   "property": "C158",
   "status": "proved",
   "theorems": [
    "c158_recovers",
    "c158_whole_units",
    "c158_compares",
    "c158_order",
    "c158_touched"
   ],
   "note": "For calls that succeed with overflow checks; the others are those of C37 and C39."
  },
  {
   "property": "C159",
   "status": "proved",
   "theorems": [
    "c159_split"
   ],
   "note": "For calls that succeed with overflow checks; the others are those of C37."
  },
  {
   "property": "C160",
   "status": "partial",
   "theorems": [
    "c160_same_height_partial",
    "c160_same_positions_partial",
    "c160_one_position_partial",
    "c160_any_root_refuted"
   ],
   "note": "Neither the root nor the proof fixes the number of levels, so that for every hash function there are roots for which any two given elements are accepted at position 1, with proofs of different lengths. For proofs with the same number of levels it is proved, in particular for proofs of one length for the same positions. For roots made from arrays see C02."
  },
  {
   "property": "C161",
   "status": "proved",
   "theorems": [
    "c161_sets",
    "c161_contents",
    "c161_pre_check",
    "c161_digest",
    "c161_parent"
   ],
   "note": ""
  },
  {
   "property": "C162",
   "status": "proved",
   "theorems": [
    "c162_window",
    "c162_network",
    "c162_identifier",
    "c162_required",
    "c162_encode",
    "c162_decode",
    "c162_built_in"
   ],
   "note": ""
  },
  {
   "property": "C163",
   "status": "proved",
   "theorems": [
    "c163_one_character",
    "c163_end_of_address",
    "c163_begin_of_address",
    "c163_last_word",
    "c163_other_words"
   ],
   "note": ""
  },
  {
   "property": "C164",
   "status": "partial",
   "theorems": [
    "c164_made_refuted",
    "c164_made",
    "c164_made_partial",
    "c164_seen"
   ],
   "note": "False of every block made by the node after a header that counted anything: the counter and the rewards state are left at their defaults (block.rs:252-263), and the check of headers does not look at them (block.rs:356-427). Proved exactly when it holds of blocks made by the node, and which fields the check looks at."
  },
  {
   "property": "C165",
   "status": "proved",
   "theorems": [
    "c165_documented_size",
    "c165_longer_keys"
   ],
   "note": "The constant is documented but used nowhere in the code. It is wrong for longer keys: the example shows a key of 2998 bytes whose leaf takes 3001 bytes. The bound on the length of histories is that of C07 (identifiers fit 64 bits)."
  },
  {
   "property": "C166",
   "status": "proved",
   "theorems": [
    "c166_documented",
    "c166_limit_needed",
    "c166_older",
    "c166_any"
   ],
   "note": "The code itself does not enforce the documented limit on minimum balances; c166_limit_needed shows that without it the constant would be too small under the current protocol, c166_any that 940000 bytes would do."
  },
  {
   "property": "C167",
   "status": "proved",
   "theorems": [
    "c167_transaction",
    "c167_group"
   ],
   "note": "The code never compares sizes with the limit; the theorems say that the other limits are enough. By its form alone a transaction can have any size, as the example shows: the name of the network is compared with that of the block but not limited. Not covered: groups signed by multisignatures or programs, whose sizes nothing in the code limits."
  },
  {
   "property": "C168",
   "status": "proved",
   "theorems": [
    "c168_paid",
    "c168_balance"
   ],
   "note": "Books kept as documented means: created assets are also held, states keep to their schemas, total schema and pages are the sums."
  },
  {
   "property": "C169",
   "status": "proved",
   "theorems": [
    "c169_form",
    "c169_alive"
   ],
   "note": "Both exceptions are given exactly; validity up to the very last round number is left out as in C42."
  },
  {
   "property": "C170",
   "status": "proved",
   "theorems": [
    "c170_account"
   ],
   "note": "The upgrade to version 9 multiplies minimum balances by ten, as the table says."
  },
  {
   "property": "C171",
   "status": "partial",
   "theorems": [
    "c171_flat_partial",
    "c171_merkle_partial",
    "c171_refuted",
    "c171_panics_refuted",
    "c171_built_in_partial"
   ],
   "note": "False from V26 on, where blocks commit to their transactions by a Merkle tree but the genesis block by one hash (genesis.rs:101, block.rs:278-288): with the node's hash function no genesis block matches. Before V11 the check panics. Proved for V11 to V25 and for every protocol that commits by one hash."
  },
  {
   "property": "C172",
   "status": "partial",
   "theorems": [
    "c172_current_partial",
    "c172_one",
    "c172_refuted"
   ],
   "note": "Proved for the current protocol. After a genesis of any other built-in protocol, Future included, the node cannot make a single block: its vote proposes another protocol, which is an error as long as no upgrade is pending (see C53). Times are at least 25 below 2^64."
  },
  {
   "property": "C173",
   "status": "proved",
   "theorems": [
    "c173_order",
    "c173_history",
    "c173_leader",
    "c173_agree"
   ],
   "note": "Credentials with domain separation carry the part to be hashed, as verification makes them."
  },
  {
   "property": "C174",
   "status": "partial",
   "theorems": [
    "c174_heavier_partial",
    "c174_refuted",
    "c174_one_refuted"
   ],
   "note": "False for weight one: the loop over counters leaves the last one out (credential.rs:173), so credentials of weight one rank as zero and come before all others. Proved from weight two on."
  },
  {
   "property": "C175",
   "status": "partial",
   "theorems": [
    "c175_share_partial",
    "c175_intended",
    "c175_refuted"
   ],
   "note": "False: one hash fewer than the weight is drawn for each credential (credential.rs:173), so the shares are those of weight minus one, and credentials of weight one always are among the leaders. Proved for these draws with an error of at most n(n-1)/2 divided by the number of hash values, n being the number of draws; c175_intended says that drawing the last hash too would give the share of the weight. Hashes of different counters and members are taken as independent: all combinations count alike."
  },
  {
   "property": "C176",
   "status": "proved",
   "theorems": [
    "c176_call",
    "c176_rehash"
   ],
   "note": "Counts the nodes whose stored form differs. The time to look through the children of a node (at most 256) is not counted."
  },
  {
   "property": "C177",
   "status": "partial",
   "theorems": [
    "c177_reopen_partial",
    "c177_deletes_refuted",
    "c177_adds_refuted",
    "c177_unhashed_refuted",
    "c177_intended"
   ],
   "note": "False: Trie::new starts the node counter and the element length at 0, so that a reopened trie refuses all deletions (c177_deletes_refuted) and additions overwrite stored nodes (c177_adds_refuted); and the stored form does not say that a hash is out of date, so that the root hash is wrong if it was not computed before (c177_unhashed_refuted). Proved: if the root hash was computed last, root hash and members are as before. c177_intended: if only the cache were lost, no answer of any later calls would change."
  },
  {
   "property": "C178",
   "status": "partial",
   "theorems": [
    "c178_stays_deleted_partial",
    "c178_failed_write_refuted"
   ],
   "note": "False when the write of the shortened keys fails: the caller only logs it, and the next restart reads the old keys (c178_failed_write_refuted, for all keys). Proved for all events: rounds below a deletion that gave no error can never be signed for again, untouched rounds always can, and no event panics or makes the storage unreadable."
  },
  {
   "property": "C179",
   "status": "partial",
   "theorems": [
    "c179_reported",
    "c179_harmless_partial",
    "c179_add_refuted",
    "c179_delete_refuted",
    "c179_first_refuted"
   ],
   "note": "False: nodes are overwritten in place before the call is complete and there is no rollback, so that after a failed addition or deletion a lookup of a member can panic (c179_add_refuted, c179_delete_refuted); the first addition panics instead of giving the error (c179_first_refuted). Proved for all tries and places: every failure gives the error (or that panic), and calls that meet none behave as in C07; and failures of root hashes and of calls that change nothing do no damage, in histories with any number of them."
  },
  {
   "property": "C180",
   "status": "proved",
   "theorems": [
    "c180_announced"
   ],
   "note": "For tables in which no protocol has a default delay of zero rounds; the program's own table is one (c180_built_in)."
  },
  {
   "property": "C181",
   "status": "partial",
   "theorems": [
    "c181_supported_partial",
    "c181_supported_refuted"
   ],
   "note": "False: the flag is always true. c181_supported_refuted has a chain that votes in a version that the table lacks: it is announced as supported, and the check of the next block panics. Proved: if the chain gets to the announced round, the flag was right."
  },
  {
   "property": "C182",
   "status": "proved",
   "theorems": [
    "c182_references"
   ],
   "note": ""
  },
  {
   "property": "C183",
   "status": "proved",
   "theorems": [
    "c183_groups",
    "c183_signed",
    "c183_can_fill"
   ],
   "note": ""
  },
  {
   "property": "C184",
   "status": "partial",
   "theorems": [
    "c184_read_back_partial",
    "c184_read_back_refuted",
    "c184_hash_only",
    "c184_one_signature_refuted"
   ],
   "note": "The code violates it: flags left out are not marked, so one that is marked as naming the genesis by its hash only always comes back marked as naming it by its identifier; and one signed transaction with at most two kinds of signature, even an inner one, makes all unreadable (C103). Proved: otherwise everything is read back."
  },
  {
   "property": "C185",
   "status": "proved",
   "theorems": [
    "c185_payset"
   ],
   "note": ""
  },
  {
   "property": "C186",
   "status": "proved",
   "theorems": [
    "c186_in_block",
    "c186_with_results",
    "c186_results",
    "c186_changes",
    "c186_in_block_only",
    "c186_with_results_only",
    "c186_results_only",
    "c186_changes_only"
   ],
   "note": ""
  },
  {
   "property": "C187",
   "status": "partial",
   "theorems": [
    "c187_come_out_partial",
    "c187_come_out_refuted",
    "c187_protocols"
   ],
   "note": "The code violates it in the protocols V11 to V15: a transaction that names the genesis by its hash only comes out as another one that names it by its identifier only. Proved for the other protocols, and where the identifier is named as well, for all transactions that can be read at all (C103)."
  },
  {
   "property": "C188",
   "status": "proved",
   "theorems": [
    "c188_signed",
    "c188_meant",
    "c188_subsig",
    "c188_multisig",
    "c188_lsig",
    "c188_signed_only",
    "c188_subsig_only",
    "c188_multisig_only",
    "c188_lsig_only"
   ],
   "note": "That what the code writes of a signed transaction with fewer than three signatures is not read back is C103; by name it is."
  },
  {
   "property": "C189",
   "status": "partial",
   "theorems": [
    "c189_dead_refuted",
    "c189_stored_refuted",
    "c189_protocols",
    "c189_well_formed",
    "c189_alive_partial",
    "c189_stored_partial"
   ],
   "note": "False on V16 and all later protocols, which require transactions to name the genesis: what is returned does not name it and there is no parameter for it. Proved that it is well formed exactly under the stated choices, and the rest once the caller puts the genesis hash into it, or where none is required."
  },
  {
   "property": "C190",
   "status": "proved",
   "theorems": [
    "c190_multisig",
    "c190_keys",
    "c190_application",
    "c190_signed"
   ],
   "note": "For protocols whose limits fit 64 bits, which all built-in ones do (C42), and transactions not valid in the very last round number."
  },
  {
   "property": "C191",
   "status": "partial",
   "theorems": [
    "c191_deleted_refuted",
    "c191_never_refuted",
    "c191_deleted_partial"
   ],
   "note": "False for keys of 2^32 bytes and more: the trie remembers the length of its keys in 32 bits (trie.rs:85), so that deleting the key is refused for its length. Proved for shorter keys."
  }
 ]
}
