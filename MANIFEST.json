{
 "claims": [
  {
   "property": "C01",
   "status": "proved",
   "theorems": [
    "C01_header_round_trip"
   ],
   "note": ""
  },
  {
   "property": "C02",
   "status": "proved",
   "theorems": [
    "C02_header_decoding_exact",
    "C02_header_decoding_total"
   ],
   "note": ""
  },
  {
   "property": "C03",
   "status": "proved",
   "theorems": [
    "C03_incomplete_header_rejected",
    "C03_incomplete_header_error"
   ],
   "note": ""
  },
  {
   "property": "C04",
   "status": "proved",
   "theorems": [
    "C04_header_preserved_iff",
    "C04_header_silently_changed_refuted"
   ],
   "note": "The form a user would expect is false of the code; the theorem(s) with suffix _refuted (or 'refuted' in the name) give the counterexample, the others prove the exact truth, which is the statement in properties.jsonl. Witness: 21-byte id, message type 261."
  },
  {
   "property": "C05",
   "status": "proved",
   "theorems": [
    "C05_wire_layout"
   ],
   "note": ""
  },
  {
   "property": "C06",
   "status": "proved",
   "theorems": [
    "C06_round_trip",
    "C06_round_trip_raw_tail",
    "C06_nothing_lost"
   ],
   "note": "Quantifies over the type universe of Universe.v (all library payloads, integers, bool, String, Option, Vec, and user structs and enums built from them, nested to any depth)."
  },
  {
   "property": "C07",
   "status": "proved",
   "theorems": [
    "C07_multi_payload_round_trip"
   ],
   "note": ""
  },
  {
   "property": "C08",
   "status": "proved",
   "theorems": [
    "C08_time_distribution",
    "C08_puncture",
    "C08_puncture_request",
    "C08_introduction_request",
    "C08_introduction_response"
   ],
   "note": "fits_memory: fewer than 2^64 bytes, which every Rust slice meets."
  },
  {
   "property": "C09",
   "status": "proved",
   "theorems": [
    "C09_truncated_rejected"
   ],
   "note": ""
  },
  {
   "property": "C10",
   "status": "proved",
   "theorems": [
    "C10_suffix_irrelevant",
    "C10_only_consumed_bytes_matter"
   ],
   "note": ""
  },
  {
   "property": "C11",
   "status": "proved",
   "theorems": [
    "C11_injective",
    "C11_injective_exact",
    "C11_raw_in_middle_refuted"
   ],
   "note": "The form a user would expect is false of the code; the theorem(s) with suffix _refuted (or 'refuted' in the name) give the counterexample, the others prove the exact truth, which is the statement in properties.jsonl. "
  },
  {
   "property": "C12",
   "status": "proved",
   "theorems": [
    "C12_response_loses_tunnel_flag",
    "C12_tunnel_round_trip_refuted"
   ],
   "note": "The form a user would expect is false of the code; the theorem(s) with suffix _refuted (or 'refuted' in the name) give the counterexample, the others prove the exact truth, which is the statement in properties.jsonl. "
  },
  {
   "property": "C13",
   "status": "proved",
   "theorems": [
    "C13_bits_bijection",
    "C13_bit_weights",
    "C13_bits_constructors"
   ],
   "note": ""
  },
  {
   "property": "C14",
   "status": "proved",
   "theorems": [
    "C14_connection_type"
   ],
   "note": ""
  },
  {
   "property": "C15",
   "status": "proved",
   "theorems": [
    "C15_reencoding_exact",
    "C15_reencoding_request",
    "C15_reencoding_response",
    "C15_reencoding_auth"
   ],
   "note": ""
  },
  {
   "property": "C16",
   "status": "proved",
   "theorems": [
    "C16_varlen_limits",
    "C16_boundary_round_trip"
   ],
   "note": ""
  },
  {
   "property": "C17",
   "status": "proved",
   "theorems": [
    "C17_varlen16_exact",
    "C17_varlen32_exact",
    "C17_varlen64_exact"
   ],
   "note": ""
  },
  {
   "property": "C18",
   "status": "proved",
   "theorems": [
    "C18_ipv6_refused",
    "C18_ipv4_accepted",
    "C18_ipv6_error"
   ],
   "note": ""
  },
  {
   "property": "C19",
   "status": "proved",
   "theorems": [
    "C19_add_all_or_nothing"
   ],
   "note": ""
  },
  {
   "property": "C20",
   "status": "proved",
   "theorems": [
    "C20_request_absorbs_rest",
    "C20_response_absorbs_rest"
   ],
   "note": ""
  },
  {
   "property": "C21",
   "status": "proved",
   "theorems": [
    "C21_nested_packets",
    "C21_enclose_iff"
   ],
   "note": ""
  },
  {
   "property": "C22",
   "status": "proved",
   "theorems": [
    "C22_no_panic",
    "C22_cursor_beyond_end_panics"
   ],
   "note": ""
  },
  {
   "property": "C23",
   "status": "proved",
   "theorems": [
    "C23_auth_exact",
    "C23_no_panic_refuted"
   ],
   "note": "The form a user would expect is false of the code; the theorem(s) with suffix _refuted (or 'refuted' in the name) give the counterexample, the others prove the exact truth, which is the statement in properties.jsonl. Witness: 2 bytes."
  },
  {
   "property": "C24",
   "status": "proved",
   "theorems": [
    "C24_failed_read_no_effect",
    "C24_failed_pop_no_effect",
    "C24_retry"
   ],
   "note": ""
  },
  {
   "property": "C25",
   "status": "proved",
   "theorems": [
    "C25_cursor_exact",
    "C25_raw_tail_reaches_end",
    "C25_auth_cursor",
    "C25_auth_cursor_refuted"
   ],
   "note": "The form a user would expect is false of the code; the theorem(s) with suffix _refuted (or 'refuted' in the name) give the counterexample, the others prove the exact truth, which is the statement in properties.jsonl. "
  },
  {
   "property": "C26",
   "status": "proved",
   "theorems": [
    "C26_read_histories"
   ],
   "note": ""
  },
  {
   "property": "C27",
   "status": "proved",
   "theorems": [
    "C27_no_amplification"
   ],
   "note": ""
  },
  {
   "property": "C28",
   "status": "proved",
   "theorems": [
    "C28_sign_appends"
   ],
   "note": "Under ed25519_laws (signature length 64), an explicit hypothesis with a concrete instance."
  },
  {
   "property": "C29",
   "status": "proved",
   "theorems": [
    "C29_sign_then_verify"
   ],
   "note": "Under ed25519_laws, which C100 proves of Ed25519 itself."
  },
  {
   "property": "C30",
   "status": "proved",
   "theorems": [
    "C30_accepts_iff",
    "C30_forgery_reduction",
    "C30_rfc8032"
   ],
   "note": "accepts_iff and what an unsigned accepted packet means; what signatures the real scheme accepts is C101, C102, C108. C30_rfc8032: the same in the terms of RFC 8032."
  },
  {
   "property": "C31",
   "status": "proved",
   "theorems": [
    "C31_signed_message_end_to_end"
   ],
   "note": "Under ed25519_laws, which C100 proves of Ed25519 itself (C100_signed_message_end_to_end is this theorem without them)."
  },
  {
   "property": "C32",
   "status": "proved",
   "theorems": [
    "C32_verify_uses_embedded_key"
   ],
   "note": ""
  },
  {
   "property": "C33",
   "status": "proved",
   "theorems": [
    "C33_failed_verification",
    "C33_when_false"
   ],
   "note": ""
  },
  {
   "property": "C34",
   "status": "proved",
   "theorems": [
    "C34_verify_with_panics_iff",
    "C34_verify_panics_iff",
    "C34_short_packet_refuted"
   ],
   "note": "The form a user would expect is false of the code; the theorem(s) with suffix _refuted (or 'refuted' in the name) give the counterexample, the others prove the exact truth, which is the statement in properties.jsonl. "
  },
  {
   "property": "C35",
   "status": "proved",
   "theorems": [
    "C35_reading_after_verify",
    "C35_read_after_verify_refuted"
   ],
   "note": "The form a user would expect is false of the code; the theorem(s) with suffix _refuted (or 'refuted' in the name) give the counterexample, the others prove the exact truth, which is the statement in properties.jsonl. "
  },
  {
   "property": "C36",
   "status": "proved",
   "theorems": [
    "C36_histories"
   ],
   "note": ""
  },
  {
   "property": "C37",
   "status": "proved",
   "theorems": [
    "C37_from_seed_checked",
    "C37_seed_total",
    "C37_detached_signatures",
    "C37_rfc8032"
   ],
   "note": "Under ed25519_laws. Also without any assumption on the scheme, for Ed25519 itself (Real)."
  },
  {
   "property": "C38",
   "status": "proved",
   "theorems": [
    "C38_as_fixed_size"
   ],
   "note": ""
  },
  {
   "property": "C39",
   "status": "proved",
   "theorems": [
    "C39_create_signature"
   ],
   "note": "Under ed25519_laws."
  },
  {
   "property": "C40",
   "status": "proved",
   "theorems": [
    "C40_verify_signature",
    "C40_no_crash_refuted",
    "C40_create_then_verify"
   ],
   "note": "The form a user would expect is false of the code; the theorem(s) with suffix _refuted (or 'refuted' in the name) give the counterexample, the others prove the exact truth, which is the statement in properties.jsonl. "
  },
  {
   "property": "C41",
   "status": "proved",
   "theorems": [
    "C41_last_writer_wins",
    "C41_others_unaffected"
   ],
   "note": ""
  },
  {
   "property": "C42",
   "status": "proved",
   "theorems": [
    "C42_unknown_community",
    "C42_routing",
    "C42_malformed_header",
    "C42_malformed_header_errors"
   ],
   "note": ""
  },
  {
   "property": "C43",
   "status": "proved",
   "theorems": [
    "C43_handler_arguments"
   ],
   "note": ""
  },
  {
   "property": "C44",
   "status": "proved",
   "theorems": [
    "C44_deprecated_types",
    "C44_every_header"
   ],
   "note": ""
  },
  {
   "property": "C45",
   "status": "proved",
   "theorems": [
    "C45_reserved_range_refuted",
    "C45_handler_sees_reserved"
   ],
   "note": "The form a user would expect is false of the code; the theorem(s) with suffix _refuted (or 'refuted' in the name) give the counterexample, the others prove the exact truth, which is the statement in properties.jsonl. "
  },
  {
   "property": "C46",
   "status": "proved",
   "theorems": [
    "C46_only_20_byte_ids"
   ],
   "note": ""
  },
  {
   "property": "C47",
   "status": "proved",
   "theorems": [
    "C47_id_is_sha1",
    "C47_peer_ids_routable"
   ],
   "note": ""
  },
  {
   "property": "C48",
   "status": "proved",
   "theorems": [
    "C48_exactly_once_in_order",
    "C48_all_calls_returned"
   ],
   "note": ""
  },
  {
   "property": "C49",
   "status": "proved",
   "theorems": [
    "C49_no_stale_bytes",
    "C49_fitting_datagrams_unchanged"
   ],
   "note": ""
  },
  {
   "property": "C50",
   "status": "proved",
   "theorems": [
    "C50_one_datagram_at_a_time",
    "C50_receive_waits_for_receivers"
   ],
   "note": ""
  },
  {
   "property": "C51",
   "status": "proved",
   "theorems": [
    "C51_io_error_is_clean",
    "C51_panic_is_final"
   ],
   "note": ""
  },
  {
   "property": "C52",
   "status": "proved",
   "theorems": [
    "C52_refuted_stranding",
    "C52_backlog_never_shrinks",
    "C52_spaced_arrivals_all_delivered"
   ],
   "note": "The form a user would expect is false of the code; the theorem(s) with suffix _refuted (or 'refuted' in the name) give the counterexample, the others prove the exact truth, which is the statement in properties.jsonl. "
  },
  {
   "property": "C53",
   "status": "proved",
   "theorems": [
    "C53_fifo"
   ],
   "note": ""
  },
  {
   "property": "C54",
   "status": "proved",
   "theorems": [
    "C54_pool_built_once",
    "C54_pool_failure_reported_once"
   ],
   "note": ""
  },
  {
   "property": "C55",
   "status": "proved",
   "theorems": [
    "C55_new_succeeds_iff",
    "C55_failed_new_leaks_nothing",
    "C55_new_opens_two_sockets",
    "C55_no_second_instance",
    "C55_no_second_default_instance"
   ],
   "note": ""
  },
  {
   "property": "C56",
   "status": "proved",
   "theorems": [
    "C56_refuted_registry_not_connected",
    "C56_started_listener"
   ],
   "note": "The form a user would expect is false of the code; the theorem(s) with suffix _refuted (or 'refuted' in the name) give the counterexample, the others prove the exact truth, which is the statement in properties.jsonl. "
  },
  {
   "property": "C57",
   "status": "proved",
   "theorems": [
    "C57_defaults_on_the_wire",
    "C57_documented_defaults"
   ],
   "note": ""
  },
  {
   "property": "C58",
   "status": "proved",
   "theorems": [
    "C58_signature_stack",
    "C58_with_the_real_signatures"
   ],
   "note": "Also without any assumption on the scheme, for Ed25519 itself (Real)."
  },
  {
   "property": "C59",
   "status": "proved",
   "theorems": [
    "C59_forwarding_never_panics"
   ],
   "note": ""
  },
  {
   "property": "C60",
   "status": "proved",
   "theorems": [
    "C60_receive_never_finds_empty"
   ],
   "note": "Relative to the modelled readiness (no spurious wake-ups by the operating system)."
  },
  {
   "property": "C61",
   "status": "proved",
   "theorems": [
    "C61_never_stuck"
   ],
   "note": ""
  },
  {
   "property": "C62",
   "status": "proved",
   "theorems": [
    "C62_no_livelock",
    "C62_always_back_to_poll"
   ],
   "note": ""
  },
  {
   "property": "C63",
   "status": "proved",
   "theorems": [
    "C63_send_is_exact",
    "C63_sent_bytes_arrive"
   ],
   "note": ""
  },
  {
   "property": "C64",
   "status": "proved",
   "theorems": [
    "C64_start_effect",
    "C64_drop_effect",
    "C64_listener_end_effect"
   ],
   "note": ""
  },
  {
   "property": "C65",
   "status": "proved",
   "theorems": [
    "C65_sockets_never_clash"
   ],
   "note": ""
  },
  {
   "property": "C66",
   "status": "proved",
   "theorems": [
    "C66_listeners_do_not_interfere",
    "C66_delivery_per_listener"
   ],
   "note": ""
  },
  {
   "property": "C67",
   "status": "proved",
   "theorems": [
    "C67_concurrency_bounded_by_pool",
    "C67_capacity_never_leaks"
   ],
   "note": ""
  },
  {
   "property": "C68",
   "status": "proved",
   "theorems": [
    "C68_pool_never_deadlocks",
    "C68_pool_never_livelocks"
   ],
   "note": ""
  },
  {
   "property": "C69",
   "status": "proved",
   "theorems": [
    "C69_call_possible_iff",
    "C69_slow_receivers_starve_other_listeners_refuted",
    "C69_slow_receivers_starve_on_rayon_refuted"
   ],
   "note": "The form a user would expect is false of the code; the theorem(s) with suffix _refuted (or 'refuted' in the name) give the counterexample, the others prove the exact truth, which is the statement in properties.jsonl. "
  },
  {
   "property": "C70",
   "status": "proved",
   "theorems": [
    "C70_community_gets_exactly_its_messages",
    "C70_prefix_at_every_moment"
   ],
   "note": "The receiver that forwards to the registry is the user's (EndToEndSpec.v): the crate has none (C56)."
  },
  {
   "property": "C71",
   "status": "proved",
   "theorems": [
    "C71_signed_message_reaches_the_handler",
    "C71_with_the_real_signatures"
   ],
   "note": "Under ed25519_laws. Composition of C31, C63, C70. Also without any assumption on the scheme, for Ed25519 itself (Real)."
  },
  {
   "property": "C72",
   "status": "proved",
   "theorems": [
    "C72_authenticated_messages_were_signed_for_this_community"
   ],
   "note": "Unforgeability for the key is an explicit hypothesis of the theorem."
  },
  {
   "property": "C73",
   "status": "proved",
   "theorems": [
    "C73_no_replay_protection_refuted",
    "C73_handled_as_often_as_received"
   ],
   "note": "The form a user would expect is false of the code; the theorem(s) with suffix _refuted (or 'refuted' in the name) give the counterexample, the others prove the exact truth, which is the statement in properties.jsonl. "
  },
  {
   "property": "C74",
   "status": "proved",
   "theorems": [
    "C74_string_exact"
   ],
   "note": "serde's and bincode's impls for String/bool/Option/Vec/enum are modelled from their documented behaviour; the crate is not in /repo."
  },
  {
   "property": "C75",
   "status": "proved",
   "theorems": [
    "C75_bool_exact",
    "C75_option_exact",
    "C75_enum_exact"
   ],
   "note": "serde's and bincode's impls for String/bool/Option/Vec/enum are modelled from their documented behaviour; the crate is not in /repo."
  },
  {
   "property": "C76",
   "status": "proved",
   "theorems": [
    "C76_vec_is_n_reads",
    "C76_announced_count",
    "C76_empty_elements_refuted"
   ],
   "note": "C76_empty_elements_refuted is the exception named in the statement."
  },
  {
   "property": "C77",
   "status": "proved",
   "theorems": [
    "C77_read_struct",
    "C77_add_struct"
   ],
   "note": ""
  },
  {
   "property": "C78",
   "status": "proved",
   "theorems": [
    "C78_signed_integers"
   ],
   "note": ""
  },
  {
   "property": "C79",
   "status": "proved",
   "theorems": [
    "C79_pool_built_once",
    "C79_pool_before_sockets",
    "C79_one_pool",
    "C79_pool_size",
    "C79_failure_reported_to_builder"
   ],
   "note": ""
  },
  {
   "property": "C80",
   "status": "proved",
   "theorems": [
    "C80_one_owner",
    "C80_no_leak",
    "C80_no_clash",
    "C80_live_values_have_sockets"
   ],
   "note": ""
  },
  {
   "property": "C81",
   "status": "proved",
   "theorems": [
    "C81_one_instance_per_address",
    "C81_address_in_use_is_true",
    "C81_race_has_one_winner"
   ],
   "note": ""
  },
  {
   "property": "C82",
   "status": "proved",
   "theorems": [
    "C82_no_deadlock",
    "C82_call_is_short",
    "C82_all_calls_return"
   ],
   "note": ""
  },
  {
   "property": "C83",
   "status": "proved",
   "theorems": [
    "C83_uninterrupted_call_is_sequential"
   ],
   "note": ""
  },
  {
   "property": "C84",
   "status": "proved",
   "theorems": [
    "C84_new_is_atomic_refuted"
   ],
   "note": "Refuted: the theorem proves the negation, a concrete schedule."
  },
  {
   "property": "C85",
   "status": "proved",
   "theorems": [
    "C85_each_listener_alone",
    "C85_poll_interval",
    "C85_closed_sockets_are_silent"
   ],
   "note": ""
  },
  {
   "property": "C86",
   "status": "proved",
   "theorems": [
    "C86_nothing_invented"
   ],
   "note": ""
  },
  {
   "property": "C87",
   "status": "proved",
   "theorems": [
    "C87_sources_genuine_without_forgers",
    "C87_only_senders_send",
    "C87_source_forging_refuted"
   ],
   "note": "The form a user would expect is false of the code; the theorem(s) with suffix _refuted (or 'refuted' in the name) give the counterexample, the others prove the exact truth, which is the statement in properties.jsonl. "
  },
  {
   "property": "C88",
   "status": "proved",
   "theorems": [
    "C88_replies_reach_nobody_refuted"
   ],
   "note": "The form a user would expect is false of the code; the theorem(s) with suffix _refuted (or 'refuted' in the name) give the counterexample, the others prove the exact truth, which is the statement in properties.jsonl. C88: symmetric_routes excludes address translation."
  },
  {
   "property": "C89",
   "status": "proved",
   "theorems": [
    "C89_sockets_never_clash",
    "C89_bind_iff_free"
   ],
   "note": ""
  },
  {
   "property": "C90",
   "status": "proved",
   "theorems": [
    "C90_any_number_can_arrive",
    "C90_packets_can_arrive"
   ],
   "note": ""
  },
  {
   "property": "C91",
   "status": "proved",
   "theorems": [
    "C91_handler_gets_what_was_delivered",
    "C91_handlers_only_run_on_sent_messages"
   ],
   "note": ""
  },
  {
   "property": "C92",
   "status": "proved",
   "theorems": [
    "C92_signed_message_crosses_the_network",
    "C92_with_the_real_signatures"
   ],
   "note": "Under ed25519_laws, an explicit hypothesis with a concrete instance. Also without any assumption on the scheme, for Ed25519 itself (Real)."
  },
  {
   "property": "C93",
   "status": "proved",
   "theorems": [
    "C93_network_wide_authenticity"
   ],
   "note": "'No forgery was sent' is an explicit hypothesis about the execution, met by a concrete one."
  },
  {
   "property": "C94",
   "status": "proved",
   "theorems": [
    "C94_messages_can_reach_their_handler"
   ],
   "note": ""
  },
  {
   "property": "C95",
   "status": "proved",
   "theorems": [
    "C95_char_exact"
   ],
   "note": ""
  },
  {
   "property": "C96",
   "status": "proved",
   "theorems": [
    "C96_wide_numbers",
    "C96_too_short"
   ],
   "note": ""
  },
  {
   "property": "C97",
   "status": "proved",
   "theorems": [
    "C97_derived_types",
    "C97_cursor",
    "C97_overrun",
    "C97_sequence",
    "C97_derived_types_fit"
   ],
   "note": ""
  },
  {
   "property": "C98",
   "status": "proved",
   "theorems": [
    "C98_read",
    "C98_distinct_keys",
    "C98_duplicate_keys_refuted",
    "C98_round_trip"
   ],
   "note": "The form a user would expect is false of the code; the theorem(s) with suffix _refuted (or 'refuted' in the name) give the counterexample, the others prove the exact truth, which is the statement in properties.jsonl. K and V range over the universe's types; other impls are covered by C97."
  },
  {
   "property": "C99",
   "status": "proved",
   "theorems": [
    "C99_no_datagram_waits_forever",
    "C99_prompt_without_timeout"
   ],
   "note": ""
  },
  {
   "property": "C100",
   "status": "proved",
   "theorems": [
    "C100_ed25519_meets_the_laws",
    "C100_signed_message_end_to_end"
   ],
   "note": ""
  },
  {
   "property": "C101",
   "status": "proved",
   "theorems": [
    "C101_verify_is_the_group_equation"
   ],
   "note": ""
  },
  {
   "property": "C102",
   "status": "proved",
   "theorems": [
    "C102_last_32_bytes_are_determined",
    "C102_signed_packet_not_malleable"
   ],
   "note": ""
  },
  {
   "property": "C103",
   "status": "proved",
   "theorems": [
    "C103_neutral_key_accepts_everything",
    "C103_there_are_four_such_keys",
    "C103_verified_without_a_secret"
   ],
   "note": "The form a user would expect (accepted means signed by somebody) is false of the code; the theorems give the counterexample."
  },
  {
   "property": "C104",
   "status": "proved",
   "theorems": [
    "C104_public_key_of_a_seed",
    "C104_signature_of_a_seed"
   ],
   "note": ""
  },
  {
   "property": "C105",
   "status": "proved",
   "theorems": [
    "C105_from_bytes_accepts_exactly"
   ],
   "note": ""
  },
  {
   "property": "C106",
   "status": "proved",
   "theorems": [
    "C106_new_gives_the_key_pair_of_the_random_seed"
   ],
   "note": ""
  },
  {
   "property": "C107",
   "status": "proved",
   "theorems": [
    "C107_one_document_per_key",
    "C107_old_documents_rejected"
   ],
   "note": ""
  },
  {
   "property": "C108",
   "status": "proved",
   "theorems": [
    "C108_a_valid_signature_for_every_nonce",
    "C108_signed_packets_are_unique_refuted"
   ],
   "note": "The form a user would expect is false of the code; the theorem with suffix _refuted gives the counterexample for every key and content, the other one proves the exact truth."
  },
  {
   "property": "C109",
   "status": "proved",
   "theorems": [
    "C109_no_delivery_waits_forever",
    "C109_sent_and_delivered_is_received"
   ],
   "note": ""
  },
  {
   "property": "C110",
   "status": "proved",
   "theorems": [
    "C110_signed_messages_are_handled",
    "C110_with_the_real_signatures"
   ],
   "note": ""
  },
  {
   "property": "C111",
   "status": "proved",
   "theorems": [
    "C111_no_listener_is_starved"
   ],
   "note": ""
  },
  {
   "property": "C112",
   "status": "proved",
   "theorems": [
    "C112_create_signature",
    "C112_verify_signature",
    "C112_python_to_rust",
    "C112_rust_to_python"
   ],
   "note": ""
  },
  {
   "property": "C113",
   "status": "proved",
   "theorems": [
    "C113_signed_messages_are_bound_to_no_recipient_refuted"
   ],
   "note": ""
  },
  {
   "property": "C114",
   "status": "proved",
   "theorems": [
    "C114_delivery_with_false_alarms",
    "C114_a_false_alarm_ends_the_listener_refuted",
    "C114_one_corrupt_datagram_ends_the_listener_refuted",
    "C114_only_false_alarms_end_it_so"
   ],
   "note": ""
  },
  {
   "property": "C115",
   "status": "proved",
   "theorems": [
    "C115_work_stealing_refines_pool",
    "C115_delivery_per_listener",
    "C115_concurrency_bounded_by_pool"
   ],
   "note": ""
  },
  {
   "property": "C116",
   "status": "proved",
   "theorems": [
    "C116_work_stealing_never_deadlocks",
    "C116_work_stealing_never_livelocks"
   ],
   "note": ""
  },
  {
   "property": "C117",
   "status": "proved",
   "theorems": [
    "C117_finished_listener_frozen_by_another_refuted"
   ],
   "note": "The form a user would expect is false of the code; the theorem gives the counterexample, for every size of the pool and every continuation."
  },
  {
   "property": "C118",
   "status": "proved",
   "theorems": [
    "C118_starved_if_listeners_are_started_for_ever_refuted",
    "C118_every_dispatch_ends",
    "C118_no_listener_is_starved"
   ],
   "note": "Fairness of the scheduler and of the pool, and that receivers come back, are hypotheses; the third theorem (in rayon's own order, for every pool of two threads or more) shows that the hypothesis on the number of instances is needed."
  },
  {
   "property": "C119",
   "status": "proved",
   "theorems": [
    "C119_never_deadlocks_in_order",
    "C119_order_is_a_restriction"
   ],
   "note": "RayonOrder.v treats a search through the deques as one step; see its header."
  },
  {
   "property": "C120",
   "status": "proved",
   "theorems": [
    "C120_single_thread_serves_in_order",
    "C120_single_thread_starves_nobody"
   ],
   "note": "The scheduling of the thread and that receivers come back are hypotheses of the second theorem."
  },
  {
   "property": "C121",
   "status": "proved",
   "theorems": [
    "C121_error_kinds",
    "C121_unexpected_end_iff_curable",
    "C121_cut_is_unexpected_end",
    "C121_header_errors",
    "C121_write_errors"
   ],
   "note": ""
  },
  {
   "property": "C122",
   "status": "proved",
   "theorems": [
    "C122_any_type",
    "C122_reads_back",
    "C122_bytes_anywhere",
    "C122_depends_only_on_the_bytes_refuted",
    "C122_elements"
   ],
   "note": "The form a user would expect is false of the code (theorem with refuted in the name). Structs with several fields are not covered."
  },
  {
   "property": "C123",
   "status": "proved",
   "theorems": [
    "C123_world_and_pools_at_once",
    "C123_the_same_listeners",
    "C123_threads_go_on_as_in_the_pool",
    "C123_delivery_and_start_as_in_the_world"
   ],
   "note": ""
  },
  {
   "property": "C124",
   "status": "proved",
   "theorems": [
    "C124_no_delivery_waits_forever",
    "C124_sent_and_delivered_is_received",
    "C124_signed_messages_are_handled"
   ],
   "note": "Fairness of scheduler and pool, that calls come back and that the network goes on delivering are hypotheses, met by a concrete infinite execution (ex_C124_hypotheses)."
  },
  {
   "property": "C125",
   "status": "proved",
   "theorems": [
    "C125_same_results",
    "C125_reading_is_linear",
    "C125_library_payloads",
    "C125_headers",
    "C125_loops",
    "C125_empty_elements_refuted"
   ],
   "note": "Steps and requested bytes as counted in Cost.v. The form a user would expect (all types) is false for vectors of possibly empty elements (C125_empty_elements_refuted)."
  },
  {
   "property": "C126",
   "status": "proved",
   "theorems": [
    "C126_header_as_a_payload",
    "C126_header_bytes",
    "C126_header_fits",
    "C126_packet",
    "C126_signature"
   ],
   "note": ""
  },
  {
   "property": "C127",
   "status": "proved",
   "theorems": [
    "C127_structs",
    "C127_enums",
    "C127_options_vectors_arrays",
    "C127_library_types",
    "C127_the_same_derive",
    "C127_cursor"
   ],
   "note": ""
  },
  {
   "property": "C128",
   "status": "proved",
   "theorems": [
    "C128_same_packets",
    "C128_adding_is_linear",
    "C128_library_payloads",
    "C128_new",
    "C128_memory",
    "C128_building_is_linear",
    "C128_empty_elements_refuted"
   ],
   "note": "Steps and requested bytes as counted in Cost.v and Writing.v; writes that fail are not counted. For vectors of empty elements the form a user would expect is false (C128_empty_elements_refuted)."
  },
  {
   "property": "C129",
   "status": "proved",
   "theorems": [
    "C129_routing",
    "C129_receive",
    "C129_one_call",
    "C129_add",
    "C129_asked_once",
    "C129_dropped_once",
    "C129_silent_after_drop",
    "C129_stateless"
   ],
   "note": ""
  },
  {
   "property": "C130",
   "status": "proved",
   "theorems": [
    "C130_same_executions",
    "C130_memory_is_bounded",
    "C130_no_leak",
    "C130_work_is_linear",
    "C130_work_exact",
    "C130_same_forwarding",
    "C130_forwarding"
   ],
   "note": ""
  },
  {
   "property": "C131",
   "status": "proved",
   "theorems": [
    "C131_no_livelock",
    "C131_no_deadlock",
    "C131_all_is_done",
    "C131_mutual_exclusion",
    "C131_nothing_left_behind",
    "C131_pool_is_quiet",
    "C131_lock_during_join_refuted"
   ],
   "note": "The unrestricted form (receivers may do what they like) is false: C131_lock_during_join_refuted. The others prove the exact condition's sufficiency."
  },
  {
   "property": "C132",
   "status": "proved",
   "theorems": [
    "C132_answers",
    "C132_one_at_a_time",
    "C132_dies_of_a_panic",
    "C132_one_panic_is_fatal",
    "C132_no_livelock",
    "C132_no_deadlock",
    "C132_verifying_blocks_nobody",
    "C132_signing_blocks_all"
   ],
   "note": "pyo3 0.7 does not catch panics; in the model a panic ends the process."
  },
  {
   "property": "C133",
   "status": "proved",
   "theorems": [
    "C133_what_equality_means",
    "C133_exact",
    "C133_headers_and_packets",
    "C133_symmetric_transitive",
    "C133_reflexive_iff",
    "C133_round_trip",
    "C133_introduction_response",
    "C133_equal_iff_same_bytes",
    "C133_floats_refuted"
   ],
   "note": ""
  },
  {
   "property": "C134",
   "status": "proved",
   "theorems": [
    "C134_panics_exactly",
    "C134_verified_then_panic_refuted",
    "C134_one_datagram_stops_the_listener_refuted",
    "C134_verify_first_panics_refuted",
    "C134_guarded_never_panics",
    "C134_guard_loses_nothing",
    "C134_guarded_listener_survives",
    "C134_guarded_still_works"
   ],
   "note": ""
  },
  {
   "property": "C135",
   "status": "proved",
   "theorems": [
    "C135_there_is_no_check",
    "C135_what_is_left_after_verification",
    "C135_at_most_one_continuation_verifies",
    "C135_at_most_one_value_verifies",
    "C135_at_most_one_global_time_verifies",
    "C135_adding_breaks_verification_refuted"
   ],
   "note": ""
  },
  {
   "property": "C136",
   "status": "proved",
   "theorems": [
    "C136_network_ignores_the_other_options",
    "C136_creation_ignores_the_other_options",
    "C136_queue_sizes_are_all_alike",
    "C136_queue_size_is_a_limit_refuted",
    "C136_queue_size_zero_receives_nothing",
    "C136_small_buffers_reach_no_handler"
   ],
   "note": ""
  },
  {
   "property": "C137",
   "status": "proved",
   "theorems": [
    "C137_two_views",
    "C137_sockets_agree",
    "C137_no_leaks",
    "C137_instances",
    "C137_listeners",
    "C137_listener_origin",
    "C137_calls_can_be_made",
    "C137_listeners_not_held_back"
   ],
   "note": ""
  },
  {
   "property": "C138",
   "status": "proved",
   "theorems": [
    "C138_two_views",
    "C138_sockets_agree",
    "C138_no_leaks",
    "C138_values",
    "C138_call_in_progress",
    "C138_listeners",
    "C138_steps_not_held_back",
    "C138_listeners_not_held_back",
    "C138_crash"
   ],
   "note": ""
  },
  {
   "property": "C139",
   "status": "proved",
   "theorems": [
    "C139_before_a_panic",
    "C139_no_value_ever",
    "C139_one_attempt",
    "C139_nobody_waits"
   ],
   "note": ""
  },
  {
   "property": "C140",
   "status": "proved",
   "theorems": [
    "C140_exact",
    "C140_write",
    "C140_payload",
    "C140_more_stack",
    "C140_closed_types",
    "C140_linear_stack",
    "C140_chain",
    "C140_endless",
    "C140_next_payload"
   ],
   "note": ""
  },
  {
   "property": "C141",
   "status": "proved",
   "theorems": [
    "C141_runs_on",
    "C141_out_of_reach",
    "C141_keeps_its_address",
    "C141_what_ends_it",
    "C141_end_is_final"
   ],
   "note": ""
  },
  {
   "property": "C142",
   "status": "proved",
   "theorems": [
    "C142_sockets",
    "C142_no_leaks",
    "C142_listeners",
    "C142_first_datagram_decides",
    "C142_thread_count",
    "C142_later_calls",
    "C142_one_datagram",
    "C142_calls_work",
    "C142_keep_the_sender",
    "C142_senders_send"
   ],
   "note": ""
  },
  {
   "property": "C143",
   "status": "proved",
   "theorems": [
    "C143_panics_iff",
    "C143_beyond_is_permanent",
    "C143_only_verifying_gets_there",
    "C143_histories",
    "C143_moving_the_cursor_repairs"
   ],
   "note": ""
  },
  {
   "property": "C144",
   "status": "proved",
   "theorems": [
    "C144_same_program"
   ],
   "note": ""
  }
 ]
}