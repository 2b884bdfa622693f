{
 "claims": [
  {
   "property": "C01",
   "status": "proved",
   "theorems": [
    "C01_tree_is_a_map",
    "C01_absent_index_never_shown",
    "C01_absent_shown_as_included_refuted"
   ],
   "note": "The deep-prefix corner case named in the property is exhibited by C01_absent_shown_as_included_refuted."
  },
  {
   "property": "C02",
   "status": "proved",
   "theorems": [
    "C02_no_panic",
    "C02_mixed_lengths_refuted"
   ],
   "note": ""
  },
  {
   "property": "C03",
   "status": "proved",
   "theorems": [
    "C03_order_independent"
   ],
   "note": ""
  },
  {
   "property": "C04",
   "status": "proved",
   "theorems": [
    "C04_proofs_verify"
   ],
   "note": "Absence case under the spread condition of C01 (no two stored indices share 248 bits); C01_absent_shown_as_included_refuted shows it is needed."
  },
  {
   "property": "C05",
   "status": "proved",
   "theorems": [
    "C05_path_shape"
   ],
   "note": ""
  },
  {
   "property": "C06",
   "status": "proved",
   "theorems": [
    "C06_cache_never_stale",
    "C06_rehash_unobservable"
   ],
   "note": ""
  },
  {
   "property": "C07",
   "status": "proved",
   "theorems": [
    "C07_pointers_refine_values",
    "C07_isolation",
    "C07_clone_faithful"
   ],
   "note": "Values: C07_clone_faithful; heap: refinement of the pointer-level model, and isolation."
  },
  {
   "property": "C08",
   "status": "proved",
   "theorems": [
    "C08_clone_same_bindings",
    "C08_clone_of_dirty_tree_hash",
    "C08_clone_of_dirty_tree_refuted"
   ],
   "note": "C08_clone_of_dirty_tree_refuted is the negative half of the statement."
  },
  {
   "property": "C09",
   "status": "proved",
   "theorems": [
    "C09_root_hash_commits"
   ],
   "note": "Stored indices must differ in the first 208 bits: deeper empty branches have hash inputs as long as interior nodes."
  },
  {
   "property": "C10",
   "status": "proved",
   "theorems": [
    "C10_reshuffle_preserves_bindings",
    "C10_reshuffle_total"
   ],
   "note": "Indices of distinct keys are assumed distinct (248 bits under the new key, to exclude the deep-prefix corner of C01)."
  },
  {
   "property": "C11",
   "status": "proved",
   "theorems": [
    "C11_inclusion_binds",
    "C11_is_empty_flag_refuted",
    "C11_salt_length_refuted"
   ],
   "note": "The _refuted theorems are the negative half of the statement."
  },
  {
   "property": "C12",
   "status": "proved",
   "theorems": [
    "C12_not_both",
    "C12_nonce_length_refuted"
   ],
   "note": "The _refuted theorem is the negative half."
  },
  {
   "property": "C13",
   "status": "proved",
   "theorems": [
    "C13_inclusion_truthful",
    "C13_absence_truthful",
    "C13_salt_length_refuted"
   ],
   "note": "The _refuted theorem is the negative half. Stored indices differ in 208 bits for inclusion."
  },
  {
   "property": "C14",
   "status": "proved",
   "theorems": [
    "C14_no_panic_on_well_shaped",
    "C14_get_is_well_shaped",
    "C14_malformed_paths_panic_refuted"
   ],
   "note": "The _refuted theorem is the negative half."
  },
  {
   "property": "C15",
   "status": "proved",
   "theorems": [
    "C15_tb_str_domain_refuted",
    "C15_str_serialization_unambiguous",
    "C15_policies_unambiguous",
    "C15_dirstr_unambiguous",
    "C15_unchecked_sizes_refuted",
    "C15_epoch0_previous_epoch_refuted"
   ],
   "note": "The _refuted theorems show that the size hypotheses are needed and unchecked by the code, that PreviousEpoch of epoch 0 is unsigned, and that STRs and temporary bindings share one signature domain."
  },
  {
   "property": "C16",
   "status": "proved",
   "theorems": [
    "C16_history_is_a_chain",
    "C16_history_runs"
   ],
   "note": ""
  },
  {
   "property": "C17",
   "status": "proved",
   "theorems": [
    "C17_fork_consistency",
    "C17_nonvacuous"
   ],
   "note": ""
  },
  {
   "property": "C18",
   "status": "proved",
   "theorems": [
    "C18_snapshots_immutable"
   ],
   "note": ""
  },
  {
   "property": "C19",
   "status": "proved",
   "theorems": [
    "C19_sets_invisible_until_update",
    "C19_visible_after_update"
   ],
   "note": ""
  },
  {
   "property": "C20",
   "status": "proved",
   "theorems": [
    "C20_cache_window",
    "C20_evicted_stays_evicted"
   ],
   "note": ""
  },
  {
   "property": "C21",
   "status": "proved",
   "theorems": [
    "C21_cached_lookups_verify"
   ],
   "note": "VRF indices of the keys involved differ in their first 248 bits and none of them is hashed to the neutral element, where an honest VRF proof is rejected (vrf_good; C64 says exactly when)."
  },
  {
   "property": "C22",
   "status": "proved",
   "theorems": [
    "C22_one_registration_per_name"
   ],
   "note": "VRF indices of the names involved must differ in their first 248 bits and none of them is hashed to the neutral element, where an honest VRF proof is rejected (vrf_good; C64 says exactly when); fewer than 2^64-1 updates. "
  },
  {
   "property": "C23",
   "status": "proved",
   "theorems": [
    "C23_promises_fulfilled"
   ],
   "note": "VRF indices of the names involved must differ in their first 248 bits and none of them is hashed to the neutral element, where an honest VRF proof is rejected (vrf_good; C64 says exactly when); fewer than 2^64-1 updates. "
  },
  {
   "property": "C24",
   "status": "proved",
   "theorems": [
    "C24_register",
    "C24_key_lookup",
    "C24_lookup_in_epoch"
   ],
   "note": "VRF indices of the names involved must differ in their first 248 bits and none of them is hashed to the neutral element, where an honest VRF proof is rejected (vrf_good; C64 says exactly when); fewer than 2^64-1 updates. "
  },
  {
   "property": "C25",
   "status": "proved",
   "theorems": [
    "C25_no_crash"
   ],
   "note": "Register, KeyLookup, KeyLookupInEpoch and Monitor: the four request kinds the server dispatches. GetSTRHistory is not dispatched and can crash: C27."
  },
  {
   "property": "C26",
   "status": "proved",
   "theorems": [
    "C26_lookup_in_epoch",
    "C26_monitor"
   ],
   "note": "VRF indices of the names involved must differ in their first 248 bits and none of them is hashed to the neutral element, where an honest VRF proof is rejected (vrf_good; C64 says exactly when); fewer than 2^64-1 updates. Requests for dropped epochs get ErrDirectory; the window of held epochs is exact."
  },
  {
   "property": "C27",
   "status": "proved",
   "theorems": [
    "C27_str_history",
    "C27_never_crashes_refuted"
   ],
   "note": ""
  },
  {
   "property": "C28",
   "status": "proved",
   "theorems": [
    "C28_policy_of_each_epoch",
    "C28_effective_after_two_updates",
    "C28_next_update_refuted"
   ],
   "note": ""
  },
  {
   "property": "C29",
   "status": "proved",
   "theorems": [
    "C29_configuration_constant",
    "C29_temporary_bindings_always"
   ],
   "note": ""
  },
  {
   "property": "C30",
   "status": "proved",
   "theorems": [
    "C30_honest_runs"
   ],
   "note": "VRF indices of the names involved must differ in their first 248 bits and none of them is hashed to the neutral element, where an honest VRF proof is rejected (vrf_good; C64 says exactly when); fewer than 2^64-1 updates. Names and keys not empty."
  },
  {
   "property": "C31",
   "status": "proved",
   "theorems": [
    "C31_accepts_iff",
    "C31_accepted_state"
   ],
   "note": ""
  },
  {
   "property": "C32",
   "status": "proved",
   "theorems": [
    "C32_step",
    "C32_one_chain"
   ],
   "note": ""
  },
  {
   "property": "C33",
   "status": "proved",
   "theorems": [
    "C33_conflict_exposes",
    "C33_presence_vs_absence_exposes"
   ],
   "note": ""
  },
  {
   "property": "C34",
   "status": "proved",
   "theorems": [
    "C34_given_key_enforced",
    "C34_other_key_reported",
    "C34_no_key_remembered",
    "C34_key_change_undetected_refuted"
   ],
   "note": "The _refuted theorem is the negative half."
  },
  {
   "property": "C35",
   "status": "proved",
   "theorems": [
    "C35_inclusion_must_match_promise",
    "C35_mismatch_reported",
    "C35_broken_promise_undetected_refuted"
   ],
   "note": "The _refuted theorem is the negative half."
  },
  {
   "property": "C36",
   "status": "proved",
   "theorems": [
    "C36_no_crash_on_well_shaped",
    "C36_malformed_answers_crash_refuted"
   ],
   "note": "The _refuted theorem is the negative half."
  },
  {
   "property": "C37",
   "status": "proved",
   "theorems": [
    "C37_audit_accepts_iff",
    "C37_extends_meaning",
    "C37_audit_state",
    "C37_honest_history_accepted"
   ],
   "note": ""
  },
  {
   "property": "C38",
   "status": "proved",
   "theorems": [
    "C38_log_serves_chain",
    "C38_append_only",
    "C38_audit_appends"
   ],
   "note": "good_init: saved snapshots verified; see C39. Fewer than 2^64 STRs received."
  },
  {
   "property": "C39",
   "status": "proved",
   "theorems": [
    "C39_fresh_log_verified",
    "C39_verified_refuted"
   ],
   "note": "The _refuted theorem is the negative half of the statement."
  },
  {
   "property": "C40",
   "status": "proved",
   "theorems": [
    "C40_accepts_iff",
    "C40_same_view",
    "C40_truthful_accepted",
    "C40_wrong_kind_crashes_refuted",
    "C40_null_str_crashes_refuted"
   ],
   "note": "The _refuted theorems exhibit the crashes on wrong message kinds."
  },
  {
   "property": "C41",
   "status": "proved",
   "theorems": [
    "C41_permission_table",
    "C41_no_permission_no_change",
    "C41_requests_served",
    "C41_other_types_refused"
   ],
   "note": "Requests at the level of JSON values."
  },
  {
   "property": "C42",
   "status": "proved",
   "theorems": [
    "C42_linearizable",
    "C42_answers_from_a_history",
    "C42_no_deadlock"
   ],
   "note": "Handlers as step-by-step programs over the shared directory; ServerFacts.v proves that they refine the directory functions of C22-C28."
  },
  {
   "property": "C43",
   "status": "proved",
   "theorems": [
    "C43_requests_round_trip",
    "C43_client_messages",
    "C43_names_collide_refuted",
    "C43_audit_requests_untyped_refuted",
    "C43_responses_round_trip",
    "C43_directory_answers_arrive",
    "C43_decoding_total",
    "C43_audit_response_crashes_refuted",
    "C43_null_proof_crashes_refuted"
   ],
   "note": "JSON values, not JSON text. The _refuted theorems are the negative half of the statement."
  },
  {
   "property": "C44",
   "status": "proved",
   "theorems": [
    "C44_spacing",
    "C44_exact_without_delay",
    "C44_interval_fixed",
    "C44_announced_deadline_refuted"
   ],
   "note": "The _refuted theorem is the negative half of the statement."
  },
  {
   "property": "C45",
   "status": "proved",
   "theorems": [
    "C45_forwards_exactly_own_names",
    "C45_no_name_of_two_accounts",
    "C45_registered_names_authenticated",
    "C45_replies_to_sender_only",
    "C45_several_names_refuted"
   ],
   "note": "The _refuted theorem is the negative half. Screen names are ASCII."
  },
  {
   "property": "C46",
   "status": "proved",
   "theorems": [
    "C46_bits_roundtrip",
    "C46_bytes_roundtrip",
    "C46_nth_bit",
    "C46_bits_meaning",
    "C46_bits_of_concat",
    "C46_le64_injective",
    "C46_le32_injective",
    "C46_little_endian"
   ],
   "note": ""
  },
  {
   "property": "C47",
   "status": "proved",
   "theorems": [
    "C47_prefix_range",
    "C47_increment_key"
   ],
   "note": ""
  },
  {
   "property": "C48",
   "status": "proved",
   "theorems": [
    "C48_commit_complete",
    "C48_commit_binding",
    "C48_salt_length_refuted",
    "C48_key_value_boundary_refuted"
   ],
   "note": ""
  },
  {
   "property": "C49",
   "status": "proved",
   "theorems": [
    "C49_generate",
    "C49_completeness",
    "C49_unconditional_refuted"
   ],
   "note": "The _refuted theorem is the negative half of the statement."
  },
  {
   "property": "C50",
   "status": "proved",
   "theorems": [
    "C50_mul_add",
    "C50_reduce",
    "C50_neg",
    "C50_neg_documented",
    "C50_canonical",
    "C50_no_overflow"
   ],
   "note": "scalar arithmetic: programs generated line by line from the Go text, run with wrap-around integers"
  },
  {
   "property": "C51",
   "status": "proved",
   "theorems": [
    "C51_mul",
    "C51_square",
    "C51_square2",
    "C51_add",
    "C51_sub",
    "C51_neg",
    "C51_cmove",
    "C51_from_bytes",
    "C51_to_bytes",
    "C51_to_bytes_canonical",
    "C51_round_trip",
    "C51_is_negative",
    "C51_is_nonzero",
    "C51_no_overflow",
    "C51_no_overflow_bytes"
   ],
   "note": "field arithmetic, including the absence of overflow and canonicity"
  },
  {
   "property": "C52",
   "status": "proved",
   "theorems": [
    "C52_invert",
    "C52_pow22523",
    "C52_q58",
    "C52_chi"
   ],
   "note": "all four exponentiation chains"
  },
  {
   "property": "C53",
   "status": "proved",
   "theorems": [
    "C53_strictly_less",
    "C53_less_or_equal_refuted"
   ],
   "note": ""
  },
  {
   "property": "C54",
   "status": "proved",
   "theorems": [
    "C54_existing_untouched",
    "C54_new_file",
    "C54_can_succeed",
    "C54_concurrent_creation_refuted",
    "C54_failing_stat_refuted"
   ],
   "note": ""
  },
  {
   "property": "C55",
   "status": "proved",
   "theorems": [
    "C55_server_never_crashes"
   ],
   "note": "Panics of the handlers; marshalling cannot fail in the model. A reloaded configuration file without policies section is outside the model."
  },
  {
   "property": "C56",
   "status": "proved",
   "theorems": [
    "C56_init_str_saved",
    "C56_existing_file_kept",
    "C56_stale_after_restart_refuted"
   ],
   "note": "The _refuted theorem is the negative half."
  },
  {
   "property": "C57",
   "status": "proved",
   "theorems": [
    "C57_good_news_iff",
    "C57_never_silent",
    "C57_key_never_shown_refuted",
    "C57_honest_server"
   ],
   "note": "The _refuted theorem is the negative half."
  },
  {
   "property": "C58",
   "status": "proved",
   "theorems": [
    "C58_addition_law",
    "C58_group",
    "C58_multiples",
    "C58_order",
    "C58_add",
    "C58_double",
    "C58_zero",
    "C58_cached",
    "C58_mixed",
    "C58_conversions",
    "C58_denotes_one"
   ],
   "note": ""
  },
  {
   "property": "C59",
   "status": "proved",
   "theorems": [
    "C59_to_bytes",
    "C59_encode",
    "C59_from_bytes",
    "C59_round_trip",
    "C59_base_group",
    "C59_from_bytes_canonical_refuted"
   ],
   "note": "The _refuted theorem is the negative half (FromBytes alone is not canonical)."
  },
  {
   "property": "C60",
   "status": "proved",
   "theorems": [
    "C60_scalar_mult",
    "C60_scalar_mult_base",
    "C60_double_scalar_mult",
    "C60_tables",
    "C60_double_scalar_mult_all_refuted"
   ],
   "note": "The _refuted theorem is the negative half."
  },
  {
   "property": "C61",
   "status": "proved",
   "theorems": [
    "C61_hash_to_edwards",
    "C61_hash_to_curve"
   ],
   "note": ""
  },
  {
   "property": "C62",
   "status": "proved",
   "theorems": [
    "C62_verify_iff",
    "C62_rejects"
   ],
   "note": ""
  },
  {
   "property": "C63",
   "status": "proved",
   "theorems": [
    "C63_honest_value",
    "C63_soundness",
    "C63_proof_malleable"
   ],
   "note": ""
  },
  {
   "property": "C64",
   "status": "proved",
   "theorems": [
    "C64_code_satisfies_laws"
   ],
   "note": ""
  },
  {
   "property": "C65",
   "status": "proved",
   "theorems": [
    "C65_text_round_trip",
    "C65_text_unique",
    "C65_requests_arrive",
    "C65_client_messages",
    "C65_long_requests_refused",
    "C65_cut_never_changes_meaning",
    "C65_answers",
    "C65_rest_ignored"
   ],
   "note": "JSON texts, the 8192-byte cut and the decoders; round trip for every value, truncation never changes the meaning of a request."
  },
  {
   "property": "C66",
   "status": "proved",
   "theorems": [
    "C66_usual_answers_read",
    "C66_usual_requests_fit",
    "C66_large_keys_refused",
    "C66_old_lookups_unreadable_refuted",
    "C66_long_monitoring_unreadable_refuted"
   ],
   "note": "Positive bounds for registrations and lookups; the claim that all answers can be read is refuted (24 epochs back, 17 monitored epochs)."
  },
  {
   "property": "C67",
   "status": "proved",
   "theorems": [
    "C67_returns_when_done",
    "C67_nothing_after",
    "C67_exclusive",
    "C67_few_more",
    "C67_one_address_no_crash",
    "C67_second_call_crashes",
    "C67_two_addresses_no_crash_refuted"
   ],
   "note": "The two-address crash is exhibited by C67_two_addresses_no_crash_refuted: it is part of the statement."
  },
  {
   "property": "C68",
   "status": "proved",
   "theorems": [
    "C68_shutdown_ends",
    "C68_one_address_returns",
    "C68_unconditional_refuted"
   ],
   "note": "Each handler takes finitely many steps (its connection has a 5 second deadline); the condition on the clock is needed: C68_unconditional_refuted."
  },
  {
   "property": "C69",
   "status": "proved",
   "theorems": [
    "C69_nothing_lost",
    "C69_nothing_else",
    "C69_tls_kept_refuted",
    "C69_keys_match",
    "C69_full_key",
    "C69_stale_public_key_refuted",
    "C69_complete_init",
    "C69_init_then_load",
    "C69_broken_key_stays"
   ],
   "note": "The TOML library is a parameter with a round-trip law (TomlOk, satisfied by ToyToml); the _refuted theorems are the negative parts of the statement."
  },
  {
   "property": "C70",
   "status": "proved",
   "theorems": [
    "C70_load_iff",
    "C70_spelling",
    "C70_load_panics_iff",
    "C70_reload_effect",
    "C70_reload_crash_iff",
    "C70_reload_survives_refuted",
    "C70_no_log_file_refuted"
   ],
   "note": "As C69; the _refuted theorems are the negative parts of the statement."
  },
  {
   "property": "C71",
   "status": "proved",
   "theorems": [
    "C71_init_deploys",
    "C71_start",
    "C71_init_run_client",
    "C71_after_crash_refuted",
    "C71_started_elsewhere_refuted",
    "C71_reload_reads_its_file"
   ],
   "note": "Sockets and certificates are an oracle; composes with C30 and C56. The _refuted theorems are the negative parts of the statement."
  },
  {
   "property": "C72",
   "status": "proved",
   "theorems": [
    "C72_default_references",
    "C72_same_server_iff",
    "C72_siblings_refuted",
    "C72_under_keyserver"
   ],
   "note": ""
  },
  {
   "property": "C73",
   "status": "proved",
   "theorems": [
    "C73_pid_written",
    "C73_only_pid",
    "C73_stale_digits_refuted",
    "C73_stale_iff"
   ],
   "note": ""
  },
  {
   "property": "C74",
   "status": "proved",
   "theorems": [
    "C74_public",
    "C74_encoded",
    "C74_sign_lost",
    "C74_private",
    "C74_key_pair"
   ],
   "note": "SHA-512 is a parameter (64 bytes out)."
  },
  {
   "property": "C75",
   "status": "proved",
   "theorems": [
    "C75_decode",
    "C75_representative",
    "C75_when",
    "C75_which_root",
    "C75_range",
    "C75_constants",
    "C75_uniform_refuted"
   ],
   "note": "C75_uniform_refuted is the negative part of the statement."
  },
  {
   "property": "C76",
   "status": "proved",
   "theorems": [
    "C76_collisions",
    "C76_opposite"
   ],
   "note": ""
  },
  {
   "property": "C77",
   "status": "proved",
   "theorems": [
    "C77_key",
    "C77_nonce",
    "C77_distinct",
    "C77_reuse",
    "C77_no_reuse"
   ],
   "note": "Over the curve group of Prop_Curve.v; SHAKE256 is a parameter, collisions are explicit."
  },
  {
   "property": "C78",
   "status": "proved",
   "theorems": [
    "C78_pointers_refine_values",
    "C78_history_runs",
    "C78_held_snapshots"
   ],
   "note": "Pointer-level PAD (PADHeap.v: nodes, tree objects, STR objects, slice with its array) refined to the value-level one."
  },
  {
   "property": "C79",
   "status": "proved",
   "theorems": [
    "C79_bot_init",
    "C79_init_then_load",
    "C79_starts_iff",
    "C79_handle_case_refuted",
    "C79_liveness_refuted",
    "C79_same_socket_iff",
    "C79_other_socket_refuted",
    "C79_default_meeting",
    "C79_registration",
    "C79_registration_succeeds",
    "C79_only_owners_register",
    "C79_lookups_show_owners_keys",
    "C79_escapes",
    "C79_socket_names",
    "C79_relative_name",
    "C79_socket_owner"
   ],
   "note": "TOML as a parameter with its round-trip law; net/url.Parse modelled for addresses with a scheme (host syntax is a parameter); symbolic links and permissions not modelled."
  },
  {
   "property": "C80",
   "status": "proved",
   "theorems": [
    "C80_destroys_only_own_mail",
    "C80_clean_start",
    "C80_returns",
    "C80_all_deleted_refuted",
    "C80_starts_refuted",
    "C80_orders",
    "C80_every_message_once",
    "C80_throughput",
    "C80_reply_stays_refuted"
   ],
   "note": "Twitter is an environment with arbitrary outcomes per call; time in seconds."
  },
  {
   "property": "C81",
   "status": "proved",
   "theorems": [
    "C81_blind",
    "C81_whole_view",
    "C81_no_opening",
    "C81_presence_refuted"
   ],
   "note": "Non-interference by simulation; that the digests and indices themselves hide their inputs is a hardness assumption outside the model."
  },
  {
   "property": "C82",
   "status": "proved",
   "theorems": [
    "C82_every_scheduler_answers",
    "C82_answered_under_load",
    "C82_epochs_advance"
   ],
   "note": "Every scheduler answers everything once arrivals stop (well-foundedness plus progress plus no crash); with arrivals for ever, every fair infinite run under a model of sync.RWMutex (pending writer blocks new readers, sleeping readers go first after Unlock) answers every operation; ticks take effect. Scheduler and mutex fairness are hypotheses; a concrete fair run is exhibited."
  },
  {
   "property": "C83",
   "status": "proved",
   "theorems": [
    "C83_no_equivocation",
    "C83_same_epoch_checks",
    "C83_unsized_log_refuted"
   ],
   "note": "The exact positive statement needs the recorded tree hashes to be 32 bytes long (or both checks at one epoch); the failure without it is proved as C83_unsized_log_refuted for every crypto instance. Shape conditions of C11/C12 on the accepted paths remain."
  },
  {
   "property": "C84",
   "status": "proved",
   "theorems": [
    "C84_words",
    "C84_characters",
    "C84_words_typed",
    "C84_traffic",
    "C84_good_news_iff",
    "C84_always_told",
    "C84_screen_truth",
    "C84_honest_server",
    "C84_timestamps",
    "C84_default_address",
    "C84_other_scheme",
    "C84_bad_address_reported_refuted",
    "C84_spaces",
    "C84_texts_differ",
    "C84_exit"
   ],
   "note": "strings.Fields (with Unicode white space) and the parts of net/url.Parse that matter are modelled from the Go library; what net/url takes as a host is a parameter; the terminal (line editing, raw mode) is not modelled."
  },
  {
   "property": "C85",
   "status": "proved",
   "theorems": [
    "C85_linearizable",
    "C85_durable",
    "C85_put_get",
    "C85_delete_get",
    "C85_batch_calls",
    "C85_foreign_batch",
    "C85_scan",
    "C85_scan_prefix",
    "C85_first_last",
    "C85_can_succeed"
   ],
   "note": "LevelDB (a library outside /repo) is modelled from its documentation: one writer at a time, journal record per batch, fsync when Sync is set, replay on opening; compaction, read errors, corruption and use after Close are not modelled."
  },
  {
   "property": "C86",
   "status": "proved",
   "theorems": [
    "C86_serving",
    "C86_install_to_screen",
    "C86_default_server",
    "C86_registration_refused",
    "C86_default_pair_refuted"
   ],
   "note": "Joins C69-C73, C57 and C84. Which of the server's addresses a dialled address reaches is a parameter; TOML library as parameter with its round trip (C69); names collide in the tree only as excluded by vrf_spread."
  },
  {
   "property": "C87",
   "status": "proved",
   "theorems": [
    "C87_root_hash",
    "C87_stored_exists",
    "C87_path",
    "C87_epochs"
   ],
   "note": "The specification (MptSpec.v) has no tree in it: hashes as a function of a set of entries and a position. The per-epoch form needs the private indices of the keys put to differ (vrf_spread 256)."
  },
  {
   "property": "C88",
   "status": "proved",
   "theorems": [
    "C88_accepted_value",
    "C88_one_value",
    "C88_good_names",
    "C88_proof_length",
    "C88_conflict_exposes",
    "C88_presence_vs_absence_exposes",
    "C88_no_equivocation",
    "C88_unconditional_refuted"
   ],
   "note": "C33, C83 and C64 composed; the VRF disjunct of the evidence is replaced by a statement about the hash function alone. The _refuted theorem is the negative half."
  },
  {
   "property": "C89",
   "status": "proved",
   "theorems": [
    "C89_prove",
    "C89_compute",
    "C89_generate",
    "C89_scalar_mult",
    "C89_scalar_mult_base",
    "C89_straight_line",
    "C89_vartime_refuted",
    "C89_names_refuted"
   ],
   "note": "Instrumented copies of the functions, proved to return the values of the VRF model; observations are branches, array accesses, calls and hash lengths. Operand-dependent instruction timing, the compiler and the allocator are not modelled. C89_vartime_refuted and C89_names_refuted show what does leak."
  },
  {
   "property": "C90",
   "status": "proved",
   "theorems": [
    "C90_verify_iff",
    "C90_completeness",
    "C90_key_and_signature",
    "C90_no_reuse",
    "C90_reuse_reveals",
    "C90_generated_not_small",
    "C90_binding",
    "C90_strict_unique",
    "C90_malleable",
    "C90_neutral_key",
    "C90_unconditional_binding_refuted",
    "C90_laws"
   ],
   "note": "The library golang.org/x/crypto/ed25519 behind crypto/sign is outside the repository; it is written down after RFC 8032 over the repository's own edwards25519 code. SHA-512 is a parameter."
  },
  {
   "property": "C91",
   "status": "proved",
   "theorems": [
    "C91_one_signature_for_all_refuted",
    "C91_neutral_key_refuted",
    "C91_no_equivocation"
   ],
   "note": "C91_no_equivocation for keys not of small order; C91_neutral_key_refuted shows the condition is needed (finding 34)."
  },
  {
   "property": "C92",
   "status": "proved",
   "theorems": [
    "C92_shake256_length",
    "C92_shake128_length",
    "C92_sha512_length",
    "C92_laws",
    "C92_golden_identity",
    "C92_proofs_accepted",
    "C92_bob_accepted",
    "C92_two_keys_for_bob_refuted"
   ],
   "note": "SHAKE and SHA-512 are outside the repository and written down after FIPS 202 and FIPS 180-4; the golden value of protocol/auditor/common_test.go is reproduced by the kernel."
  },
  {
   "property": "C93",
   "status": "proved",
   "theorems": [
    "C93_new",
    "C93_refines",
    "C93_never_writes",
    "C93_kept",
    "C93_other_writes",
    "C93_session",
    "C93_session_start",
    "C93_answer_stable",
    "C93_answer_stable_server",
    "C93_tree_set",
    "C93_tree_get",
    "C93_tree_clone",
    "C93_key_buffer_refuted",
    "C93_answer_write_refuted",
    "C93_signing_key_buffer_refuted",
    "C93_index_buffer_refuted"
   ],
   "note": "Nodes and trees are values in this model (their sharing is C78 and TreeHeap.v), names and [32]byte arrays are values in Go. The _refuted theorems are the buffers that must not be reused."
  },
  {
   "property": "C94",
   "status": "proved",
   "theorems": [
    "C94_path_depth",
    "C94_requests_fit",
    "C94_answers_fit",
    "C94_screen",
    "C94_install_to_screen",
    "C94_default_server",
    "C94_index",
    "C94_spread_or_collision",
    "C94_good_names",
    "C94_real_server",
    "C94_bob"
   ],
   "note": "Prop_Fit.v for every crypto instance with proofs of at most 96 bytes; Prop_FitReal.v for the code's own functions."
  },
  {
   "property": "C95",
   "status": "proved",
   "theorems": [
    "C95_one_connection",
    "C95_log_is_verdicts",
    "C95_every_failure_once",
    "C95_silent",
    "C95_log_tells_who_is_missing",
    "C95_garbage_untraced_refuted",
    "C95_refused_anonymous_refuted",
    "C95_no_forged_lines",
    "C95_environment",
    "C95_listening_log",
    "C95_announcement_refuted",
    "C95_verb_race"
   ],
   "note": "Three claims refuted; data race characterised exactly."
  },
  {
   "property": "C96",
   "status": "proved",
   "theorems": [
    "C96_keeps_running",
    "C96_every_request_answered",
    "C96_then_found",
    "C96_default_deployment",
    "C96_real_deployment"
   ],
   "note": "with the actual functions: C96_real_deployment; names that are not ASCII are outside the theorem (account names of the service are ASCII)"
  },
  {
   "property": "C97",
   "status": "proved",
   "theorems": [
    "C97_one_winner",
    "C97_refused_for_a_winner",
    "C97_found_ever_after",
    "C97_same_key_for_all",
    "C97_one_chain_of_roots"
   ],
   "note": "all runs of the concurrent server of C42 (any interleaving, any number of requests, fewer than 2^64-1 ticks), with the conditions of C24 on the names in use; the order of events is that of invocations and answers"
  },
  {
   "property": "C98",
   "status": "proved",
   "theorems": [
    "C98_never_accused",
    "C98_over_the_wire"
   ],
   "note": "all runs of the concurrent server of C42 (any interleaving, any number of requests, fewer than 2^64-1 ticks), with the conditions of C24 on the names in use; our client registers (with entropy at the server) and looks up non-empty names"
  },
  {
   "property": "C99",
   "status": "proved",
   "theorems": [
    "C99_one_past",
    "C99_known_since",
    "C99_monitoring_complete",
    "C99_past_lookup_complete"
   ],
   "note": "all runs of the concurrent server of C42 (any interleaving, any number of requests, fewer than 2^64-1 ticks), with the conditions of C24 on the names asked for; names are non-empty"
  }
 ]
}