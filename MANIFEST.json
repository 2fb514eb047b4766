{
 "claims": [
  {
   "property": "C01",
   "status": "proved",
   "theorems": [
    "C01_varint_roundtrip",
    "C01_varint_exact_size",
    "C01_varint_reader_bounded",
    "C01_varint_reader_errors"
   ],
   "note": ""
  },
  {
   "property": "C02",
   "status": "proved",
   "theorems": [
    "C02_frame_roundtrip",
    "C02_frame_encodable",
    "C02_prefix_incomplete",
    "C02_decoded_frame_exact"
   ],
   "note": ""
  },
  {
   "property": "C03",
   "status": "proved",
   "theorems": [
    "C03_probe_agrees_with_decoder",
    "C03_reject_is_final",
    "C03_oversize_rejected_early"
   ],
   "note": ""
  },
  {
   "property": "C04",
   "status": "proved",
   "theorems": [
    "C04_compound_roundtrip",
    "C04_compound_encodable"
   ],
   "note": ""
  },
  {
   "property": "C05",
   "status": "proved",
   "theorems": [
    "C05_compound_exact"
   ],
   "note": ""
  },
  {
   "property": "C06",
   "status": "proved",
   "theorems": [
    "C06_message_roundtrip",
    "C06_announced_length",
    "C06_encode_total",
    "C06_datagram_received",
    "C06_compound_received",
    "C06_decoded_in_range",
    "C06_unknown_fields_ignored",
    "C06_incomplete_is_rejected",
    "C06_versions_default_to_one"
   ],
   "note": "The buffa-generated protobuf code is modelled from the protobuf specification and messages.proto (trusted base). Generic in the id and address codecs, which must read back what they write (wf_codec; proved for the crate's Data implementations in PropsData when present)."
  },
  {
   "property": "C07",
   "status": "proved",
   "theorems": [
    "C07_addr_roundtrip",
    "C07_addr_bytes_unique",
    "C07_addr_injective",
    "C07_addr_accepts"
   ],
   "note": ""
  },
  {
   "property": "C08",
   "status": "proved",
   "theorems": [
    "C08_datagram_accepted_iff",
    "C08_datagram_label_matrix",
    "C08_frames_are_not_labels",
    "C08_compounds_are_not_labels"
   ],
   "note": ""
  },
  {
   "property": "C09",
   "status": "proved",
   "theorems": [
    "C09_chunking_independent",
    "C09_buffer_bounded"
   ],
   "note": ""
  },
  {
   "property": "C10",
   "status": "proved",
   "theorems": [
    "C10_dialer_label_first",
    "C10_acceptor_silent_until_validated",
    "C10_acceptor_label_once",
    "C10_acceptor_handshake",
    "C10_failed_exchange_reveals_nothing"
   ],
   "note": ""
  },
  {
   "property": "C11",
   "status": "proved",
   "theorems": [
    "C11_only_canonical",
    "C11_encrypted_only_canonical",
    "C11_terminates",
    "C11_output_bounded"
   ],
   "note": ""
  },
  {
   "property": "C12",
   "status": "proved",
   "theorems": [
    "C12_datagram_authenticated",
    "C12_unit_authenticated",
    "C12_gossip_authenticated"
   ],
   "note": ""
  },
  {
   "property": "C13",
   "status": "proved",
   "theorems": [
    "C13_unit_roundtrip",
    "C13_compression_never_grows",
    "C13_unit_never_grows",
    "C13_gossip_roundtrip"
   ],
   "note": ""
  },
  {
   "property": "C14",
   "status": "proved",
   "theorems": [
    "C14_units_from_any_fragmentation",
    "C14_fragmentation_irrelevant",
    "C14_overlong_rejected_early",
    "C14_buffer_bounded"
   ],
   "note": ""
  },
  {
   "property": "C15",
   "status": "proved",
   "theorems": [
    "C15_no_duplicates",
    "C15_construction",
    "C15_promote_keeps_keys",
    "C15_promote_refused",
    "C15_remove_takes_one",
    "C15_remove_refused",
    "C15_no_key_lost",
    "C15_no_key_invented",
    "C15_primary_stable",
    "C15_named_key_promoted_refuted"
   ],
   "note": "Finding: keys are named by bytes only, so a secondary sharing its 32 bytes with a primary of the other cipher can be neither promoted nor removed (C15_named_key_promoted_refuted)."
  },
  {
   "property": "C16",
   "status": "proved",
   "theorems": [
    "C16_admission_iff",
    "C16_from_list_admission_iff",
    "C16_fail_closed",
    "C16_allow_all_only_explicit",
    "C16_composition",
    "C16_removed_network_blocked_refuted"
   ],
   "note": "Finding: networks are compared with their host bits, so removing 10.0.0.0/8 does not remove an entry listed as 10.1.2.3/8 (C16_removed_network_blocked_refuted)."
  },
  {
   "property": "C17",
   "status": "proved",
   "theorems": [
    "C17_score_bounded",
    "C17_score_is_clamped_sum",
    "C17_scale_never_shortens",
    "C17_scale_exact",
    "C17_scale_in_range",
    "C17_scale_monotone_refuted"
   ],
   "note": "Finding: at the overflow edge a sicker node gets the unscaled timeout, so scaling is not monotone in the score there (C17_scale_monotone_refuted)."
  },
  {
   "property": "C18",
   "status": "proved",
   "theorems": [
    "C18_deadline_bounds",
    "C18_pending_only_shortens",
    "C18_each_accuser_once",
    "C18_accelerated_to_min",
    "C18_only_shortens_refuted",
    "C18_submillisecond_min_refuted"
   ],
   "note": "The floating-point formula is an oracle constrained by lg_ok, which is proved of the exact real formula (C19_meets_timer_assumptions). Findings: an accusation processed after the deadline passed moves it later (C18_only_shortens_refuted); a min with a sub-millisecond part is undercut (C18_submillisecond_min_refuted)."
  },
  {
   "property": "C19",
   "status": "proved",
   "theorems": [
    "C19_starts_at_max",
    "C19_ends_at_min",
    "C19_bounded",
    "C19_strictly_decreasing",
    "C19_meets_timer_assumptions"
   ],
   "note": "About the exact real formula; f64 rounding is not modelled. Uses the axioms of Coq's Reals library."
  },
  {
   "property": "C20",
   "status": "proved",
   "theorems": [
    "C20_one_per_node",
    "C20_newer_replaces",
    "C20_supersedes_same_node",
    "C20_superseded_never_sent"
   ],
   "note": ""
  },
  {
   "property": "C21",
   "status": "proved",
   "theorems": [
    "C21_batch_within_budget",
    "C21_unsent_stays_queued",
    "C21_at_most_limit",
    "C21_take_one_is_first_fitting"
   ],
   "note": ""
  },
  {
   "property": "C22",
   "status": "proved",
   "theorems": [
    "C22_fewest_transmits_first"
   ],
   "note": ""
  },
  {
   "property": "C23",
   "status": "proved",
   "theorems": [
    "C23_ranked_within_budget",
    "C23_rank_saturates"
   ],
   "note": ""
  },
  {
   "property": "C24",
   "status": "proved",
   "theorems": [
    "C24_earliest_exact",
    "C24_is_empty",
    "C24_no_stale_entries"
   ],
   "note": ""
  },
  {
   "property": "C25",
   "status": "proved",
   "theorems": [
    "C25_lookup_last_stored",
    "C25_iteration_is_content",
    "C25_remove_returns_stored",
    "C25_list_behaviour"
   ],
   "note": ""
  },
  {
   "property": "C26",
   "status": "proved",
   "theorems": [
    "C26_at_most_once",
    "C26_pending_is_last_registered",
    "C26_no_second_match",
    "C26_expiry_earliest_due",
    "C26_next_deadline_min"
   ],
   "note": ""
  },
  {
   "property": "C27",
   "status": "proved",
   "theorems": [
    "C27_incarnation_falls_only_on_takeover",
    "C27_monotone_per_instance",
    "C27_local_incarnation_monotone",
    "C27_local_incarnation_monotone_refuted"
   ],
   "note": "Finding: an accusation at u32::MAX makes the node's own incarnation wrap to 0 (C27_local_incarnation_monotone_refuted). Histories are bounded by 2^64 operations (generation counter)."
  },
  {
   "property": "C28",
   "status": "proved",
   "theorems": [
    "C28_no_false_resurrection",
    "C28_pruning_forgets"
   ],
   "note": "The pruning exception is real: C28_pruning_forgets shows a member dead at incarnation 9 readmitted at 3."
  },
  {
   "property": "C29",
   "status": "proved",
   "theorems": [
    "C29_departed_frozen",
    "C29_never_suspected"
   ],
   "note": ""
  },
  {
   "property": "C30",
   "status": "proved",
   "theorems": [
    "C30_refutes",
    "C30_refutation_convinces",
    "C30_refutes_any_accusation_refuted",
    "C30_foreign_address_is_conflict"
   ],
   "note": "Finding: at u32::MAX the refutation wraps to incarnation 0 and is stale for every peer (C30_refutes_any_accusation_refuted). Histories are bounded by 2^64 operations (broadcast ids)."
  },
  {
   "property": "C31",
   "status": "proved",
   "theorems": [
    "C31_local_alive_or_left"
   ],
   "note": ""
  },
  {
   "property": "C32",
   "status": "proved",
   "theorems": [
    "C32_stale_gossip_ignored"
   ],
   "note": ""
  },
  {
   "property": "C33",
   "status": "proved",
   "theorems": [
    "C33_suspect_idempotent",
    "C33_dead_idempotent",
    "C33_alive_idempotent"
   ],
   "note": ""
  },
  {
   "property": "C34",
   "status": "proved",
   "theorems": [
    "C34_events_mirror_table"
   ],
   "note": ""
  },
  {
   "property": "C35",
   "status": "proved",
   "theorems": [
    "C35_suspect_has_timer",
    "C35_no_stray_timer",
    "C35_wakes_up",
    "C35_wakes_for_suspects"
   ],
   "note": ""
  },
  {
   "property": "C36",
   "status": "proved",
   "theorems": [
    "C36_expired_suspicions_die",
    "C36_timer_buries"
   ],
   "note": ""
  },
  {
   "property": "C37",
   "status": "proved",
   "theorems": [
    "C37_foreign_ack_ignored",
    "C37_others_untouched",
    "C37_timely_ack_completes",
    "C37_late_ack_fails"
   ],
   "note": "A late ack from an admissible source is not ignored: it fails the probe at once (C37_late_ack_fails); the statement says so."
  },
  {
   "property": "C38",
   "status": "proved",
   "theorems": [
    "C38_fresh_number",
    "C38_always_found",
    "C38_one_owner",
    "C38_ping_number_is_new"
   ],
   "note": ""
  },
  {
   "property": "C39",
   "status": "proved",
   "theorems": [
    "C39_newly_suspect",
    "C39_probe_history"
   ],
   "note": "C39_newly_suspect gives the causes of a new suspicion for every driver call; C39_probe_history traces the probe back to the operation that started it and to the ping, indirect ping or dial that was queued for it."
  },
  {
   "property": "C40",
   "status": "proved",
   "theorems": [
    "C40_nacks_bounded",
    "C40_nack_effect"
   ],
   "note": ""
  },
  {
   "property": "C41",
   "status": "proved",
   "theorems": [
    "C41_answers_bounded",
    "C41_relay_ack",
    "C41_relay_timeout",
    "C41_relays_capped"
   ],
   "note": ""
  },
  {
   "property": "C42",
   "status": "proved",
   "theorems": [
    "C42_left_is_inert",
    "C42_leave_stops",
    "C42_no_dials_after_leave"
   ],
   "note": ""
  },
  {
   "property": "C43",
   "status": "proved",
   "theorems": [
    "C43_at_most_once",
    "C43_not_before_leave",
    "C43_not_before_farewells",
    "C43_farewells",
    "C43_completes",
    "C43_farewells_to_the_live"
   ],
   "note": ""
  },
  {
   "property": "C44",
   "status": "proved",
   "theorems": [
    "C44_datagrams_fit",
    "C44_oversize_is_never_sent",
    "C44_datagrams_fit_on_the_wire"
   ],
   "note": "For every encoder meeting `sizes` (user data adds at most 8 bytes, the farewell is no longer than the largest ping). Acks and nacks are not bounded by the MTU in the code when they carry a relayed payload; they are exempt here. C44_datagrams_fit_on_the_wire instantiates the size assumptions with the real encoder."
  },
  {
   "property": "C45",
   "status": "proved",
   "theorems": [
    "C45_farewell_carried_if_small_overhead",
    "C45_farewell_carried",
    "C45_farewell_capacity_refuted"
   ],
   "note": "C45_farewell_carried is the claim for the real message encoder, for every payload within the capacity that is at most 16380 bytes or two bytes below the capacity. C45_farewell_capacity_refuted: for longer payloads the advertised capacity is up to two bytes too large (the 11-byte overhead constant assumes two-byte length prefixes); the farewell is then silently dropped. C45_farewell_carried_if_small_overhead is the same for any encoder."
  },
  {
   "property": "C46",
   "status": "proved",
   "theorems": [
    "C46_cap_respected",
    "C46_known_members_unaffected",
    "C46_full_table_rejects"
   ],
   "note": ""
  },
  {
   "property": "C47",
   "status": "proved",
   "theorems": [
    "C47_prunes_only_long_departed",
    "C47_departed_are_forgotten"
   ],
   "note": ""
  },
  {
   "property": "C48",
   "status": "proved",
   "theorems": [
    "C48_round_robin",
    "C48_exactly_once_refuted",
    "C48_after_a_reshuffle"
   ],
   "note": "For an unchanged table. Finding: exactly once between two reshuffles is false (C48_exactly_once_refuted)."
  },
  {
   "property": "C49",
   "status": "proved",
   "theorems": [
    "C49_merge_is_gossip",
    "C49_merge_never_kills"
   ],
   "note": ""
  },
  {
   "property": "C50",
   "status": "proved",
   "theorems": [
    "C50_incarnation_authority",
    "C50_own_incarnation_grows",
    "C50_descriptions_come_from_their_owner",
    "C50_descriptions_agree",
    "C50_suspect_metadata_refuted",
    "C50_wrap_refuted"
   ],
   "note": "Findings: a suspicion raises the recorded incarnation without the metadata that goes with it, after which the announcement carrying that metadata is ignored as old (C50_suspect_metadata_refuted; healed only by the next refutation); the u32 wrap puts a node below what others know of it (C50_wrap_refuted). The network holds messages, not bytes (C06 and C65 relate the two); nodes are not restarted."
  },
  {
   "property": "C51",
   "status": "proved",
   "theorems": [
    "C51_failing_call",
    "C51_failed_is_final",
    "C51_failure_reported_once"
   ],
   "note": "All calls of the stream in any order; exactly-once reporting assumes the driver does not call discard_pending_events. A closed exchange can still turn failed (data after the end), so Closed can be followed by one Failed."
  },
  {
   "property": "C52",
   "status": "proved",
   "theorems": [
    "C52_buffer_bounded",
    "C52_intake_bounded"
   ],
   "note": "Buffer bound for every run; plus a bound of twice the maximum on everything a non-failed exchange ever took in."
  },
  {
   "property": "C53",
   "status": "proved",
   "theorems": [
    "C53_outbound_result",
    "C53_outbound_sends_its_request",
    "C53_inbound_answers_one_request",
    "C53_finished_stays_finished"
   ],
   "note": "The driver contract used: a response is loaded at most once and only after a push/pull request of this stream was polled (handle_stream_event returns the send command for that event only)."
  },
  {
   "property": "C54",
   "status": "proved",
   "theorems": [
    "C54_no_progress_past_deadline",
    "C54_not_before",
    "C54_wakeup_is_deadline"
   ],
   "note": "An event decoded before the deadline and not yet polled can still be polled after it as long as no call noticed the deadline."
  },
  {
   "property": "C55",
   "status": "proved",
   "theorems": [
    "C55_scaling",
    "C55_monotone",
    "C55_monotone_refuted"
   ],
   "note": "Finding: on overflow the scale falls back to the unscaled interval (C55_monotone_refuted). log2 is exact here, f64 in the code."
  },
  {
   "property": "C56",
   "status": "proved",
   "theorems": [
    "C56_streams_once",
    "C56_outcome",
    "C56_deadline",
    "C56_resolved_for_good"
   ],
   "note": ""
  },
  {
   "property": "C57",
   "status": "proved",
   "theorems": [
    "C57_ping_answer"
   ],
   "note": ""
  },
  {
   "property": "C58",
   "status": "proved",
   "theorems": [
    "C58_version_reflects_changes"
   ],
   "note": "The version is a wrapping u64: two observations less than 2^64 elementary changes apart. Last-change times are not part of the view (age_member changes them without a new version)."
  },
  {
   "property": "C59",
   "status": "proved",
   "theorems": [
    "C59_stream_delivery_implies_label",
    "C59_stream_matching_accepted",
    "C59_stream_other_label_rejected",
    "C59_stream_unlabelled_rejected",
    "C59_unlabelled_stream_isolation_refuted",
    "C59_unlabelled_stream_transparent"
   ],
   "note": "Finding: an unlabelled endpoint accepts labelled streams and surfaces the header bytes (C59_unlabelled_stream_isolation_refuted); the other three cases of the label matrix are proved."
  },
  {
   "property": "C60",
   "status": "proved",
   "theorems": [
    "C60_frame_within_mtu_delivered_refuted",
    "C60_unlabelled_within_mtu_delivered"
   ],
   "note": "Finding: the sender budgets the frame without its label header, the receiver counts both against the same MTU (C60_frame_within_mtu_delivered_refuted). Proved for unlabelled nodes, and for labelled nodes when header and frame together fit (C13_gossip_roundtrip)."
  },
  {
   "property": "C61",
   "status": "proved",
   "theorems": [
    "C61_finished_exactly_once"
   ],
   "note": ""
  },
  {
   "property": "C62",
   "status": "proved",
   "theorems": [
    "C62_left_only_self_announced"
   ],
   "note": ""
  },
  {
   "property": "C63",
   "status": "proved",
   "theorems": [
    "C63_endpoint_core_is_a_core"
   ],
   "note": ""
  },
  {
   "property": "C64",
   "status": "proved",
   "theorems": [
    "C64_same_in_any_pieces",
    "C64_trailing_bytes_refuted"
   ],
   "note": "Proved for one whole frame; for bytes following the frame the cutting matters: C64_trailing_bytes_refuted is a witness (finding)."
  },
  {
   "property": "C65",
   "status": "proved",
   "theorems": [
    "C65_push_pull_exchange",
    "C65_ping_exchange",
    "C65_user_message_exchange"
   ],
   "note": "Composes the message round trip (C06), the probe (C03) and both stream machines; ids and addresses through any wf_codec."
  },
  {
   "property": "C66",
   "status": "proved",
   "theorems": [
    "C66_admitted_members",
    "C66_refused_alive",
    "C66_refused_merge",
    "C66_delegates_stay"
   ],
   "note": ""
  },
  {
   "property": "C67",
   "status": "proved",
   "theorems": [
    "C67_metadata_takes_effect",
    "C67_metadata_refused",
    "C67_metadata_is_announced_refuted"
   ],
   "note": "Finding: C67_metadata_is_announced_refuted. The gossip MTU may be as low as 512 while meta_max_size defaults to 512: accepted metadata near the limit is never announced; it spreads only by push/pull."
  },
  {
   "property": "C68",
   "status": "proved",
   "theorems": [
    "C68_suspicion_starts"
   ],
   "note": "The shortest and longest timeouts are an oracle argument (c_sto); their computation is modelled and bounded in C17-C19."
  },
  {
   "property": "C69",
   "status": "proved",
   "theorems": [
    "C69_timer_catches_up",
    "C69_twice_is_enough",
    "C69_schedules_move_on",
    "C69_once_is_enough_refuted"
   ],
   "note": "Finding: C69_once_is_enough_refuted: suspicions are looked at before failed probes confirm them, so one call may leave a suspicion due."
  },
  {
   "property": "C70",
   "status": "proved",
   "theorems": [
    "C70_gossip_round"
   ],
   "note": ""
  },
  {
   "property": "C71",
   "status": "proved",
   "theorems": [
    "C71_pushpull_tick",
    "C71_answer_fresh_after_tick",
    "C71_answer_always_fresh_refuted"
   ],
   "note": "Finding: C71_answer_always_fresh_refuted: the answer to a push/pull request is the one cached at the last timer call, so a member that joined since is left out."
  },
  {
   "property": "C72",
   "status": "proved",
   "theorems": [
    "C72_user_data_goes_out",
    "C72_user_data_accepted"
   ],
   "note": "Sizes of identifiers and addresses are assumed encodable (sizes C), as in C44."
  },
  {
   "property": "C73",
   "status": "proved",
   "theorems": [
    "C73_probe_asks_a_member",
    "C73_patience"
   ],
   "note": ""
  },
  {
   "property": "C74",
   "status": "proved",
   "theorems": [
    "C74_asks_for_help"
   ],
   "note": ""
  },
  {
   "property": "C75",
   "status": "proved",
   "theorems": [
    "C75_silence_is_noticed",
    "C75_from_the_start"
   ],
   "note": "Departure reports are counted over events delivered to the application and still pending; events handed back by the driver (ERequeue) are discounted."
  },
  {
   "property": "C76",
   "status": "proved",
   "theorems": [
    "C76_suspicion_ends"
   ],
   "note": "The bound on confirmed deadlines (c_lg n k min max <= max in ms, min <= max) is a hypothesis on the configured formula; C18/C19 relate it to the code's."
  },
  {
   "property": "C77",
   "status": "proved",
   "theorems": [
    "C77_data_exactly_once",
    "C77_none_after_leave"
   ],
   "note": "Events put back by the application with requeue_event count as arriving again."
  },
  {
   "property": "C78",
   "status": "proved",
   "theorems": [
    "C78_relays_the_request",
    "C78_otherwise_nothing"
   ],
   "note": "Encoding failures are not modelled. What happens to the relay afterwards is C41."
  },
  {
   "property": "C79",
   "status": "proved",
   "theorems": [
    "C79_ping_is_sent",
    "C79_at_most_one_outcome",
    "C79_outcome_by_the_deadline",
    "C79_forgotten_on_leave",
    "C79_outcome_after_leave_refuted"
   ],
   "note": "C79_outcome_after_leave_refuted / C79_forgotten_on_leave: a ping pending when leave is called never gets an outcome (leave_with keeps the probe table but every path that ends a probe is gated on running). Numbers are reused only after the 32-bit counter wraps and never while in flight."
  },
  {
   "property": "C80",
   "status": "proved",
   "theorems": [
    "C80_schedules_start"
   ],
   "note": "Intervals of at most 2^64-1 nanoseconds (the code truncates longer ones)."
  },
  {
   "property": "C81",
   "status": "proved",
   "theorems": [
    "C81_own_acks_fit",
    "C81_payload_checked",
    "C81_relayed_acks_refuted",
    "C81_snapshot_checked"
   ],
   "note": "C81_relayed_acks_refuted: handle_ack relays a payload of any size, so the datagram can exceed the MTU. The snapshot part states the accept condition exactly; the member states that share the frame are not bounded by it."
  },
  {
   "property": "C82",
   "status": "proved",
   "theorems": [
    "C82_roundtrip",
    "C82_announced_length",
    "C82_scoped_refused",
    "C82_injective",
    "C82_accepts_only_values",
    "C82_trailing_rejected",
    "C82_messages_faithful"
   ],
   "note": ""
  },
  {
   "property": "C83",
   "status": "proved",
   "theorems": [
    "C83_any_order_foreign_fields_skipped",
    "C83_truncation_rejected",
    "C83_duplicate_rejected",
    "C83_boundary_enforced"
   ],
   "note": ""
  },
  {
   "property": "C84",
   "status": "proved",
   "theorems": [
    "C84_everybody_is_probed",
    "C84_crashed_is_noticed"
   ],
   "note": ""
  },
  {
   "property": "C85",
   "status": "proved",
   "theorems": [
    "C85_answers_wait_for_end"
   ],
   "note": ""
  },
  {
   "property": "C86",
   "status": "proved",
   "theorems": [
    "C86_drained_in_one_turn"
   ],
   "note": ""
  },
  {
   "property": "C87",
   "status": "proved",
   "theorems": [
    "C87_deadlines_enforced"
   ],
   "note": ""
  },
  {
   "property": "C88",
   "status": "proved",
   "theorems": [
    "C88_teardown_order",
    "C88_connect_once",
    "C88_nothing_after_teardown"
   ],
   "note": "Finding: two aborts for one connection are possible (C91_case exhibits it); the theorem lists every order that can occur."
  },
  {
   "property": "C89",
   "status": "proved",
   "theorems": [
    "C89_reported_once",
    "C89_success_was_answered",
    "C89_end_is_reported"
   ],
   "note": ""
  },
  {
   "property": "C90",
   "status": "proved",
   "theorems": [
    "C90_no_connect_after_leave",
    "C90_begun_fall_silent"
   ],
   "note": ""
  },
  {
   "property": "C91",
   "status": "proved",
   "theorems": [
    "C91_keys_cut_off",
    "C91_keys_drop_received"
   ],
   "note": ""
  },
  {
   "property": "C92",
   "status": "proved",
   "theorems": [
    "C92_inbound_bounded",
    "C92_ingress_bounded"
   ],
   "note": ""
  },
  {
   "property": "C93",
   "status": "proved",
   "theorems": [
    "C93_endpoint_inside",
    "C93_no_dial_surfaces"
   ],
   "note": ""
  },
  {
   "property": "C94",
   "status": "proved",
   "theorems": [
    "C94_lost_is_gone"
   ],
   "note": ""
  },
  {
   "property": "C95",
   "status": "proved",
   "theorems": [
    "C95_succeeded_means_sent_refuted",
    "C95_every_id_is_dialled_refuted",
    "C95_left_node_is_silent_refuted"
   ],
   "note": "Finding: three refutations with witnesses (C95_*_refuted); the first two hold for every continuation of the history."
  },
  {
   "property": "C96",
   "status": "proved",
   "theorems": [
    "C96_only_sealed_leaves",
    "C96_keys_in_force"
   ],
   "note": ""
  },
  {
   "property": "C97",
   "status": "proved",
   "theorems": [
    "C97_events_tell_data",
    "C97_takeover_is_a_join",
    "C97_version_change_is_told_refuted"
   ],
   "note": "Finding: event/mod.rs:739 says a version change is announced; it is not (C97_version_change_is_told_refuted). event/mod.rs:741-743 says a takeover emits NodeUpdated; it emits NodeJoined (C97_takeover_is_a_join)."
  },
  {
   "property": "C98",
   "status": "proved",
   "theorems": [
    "C98_user_message_arrives"
   ],
   "note": ""
  },
  {
   "property": "C99",
   "status": "proved",
   "theorems": [
    "C99_user_message_is_sent",
    "C99_push_pull_is_sent",
    "C99_reliable_ping_is_sent",
    "C99_user_message_is_heard"
   ],
   "note": ""
  },
  {
   "property": "C100",
   "status": "proved",
   "theorems": [
    "C100_push_pull_arrives",
    "C100_push_pull_is_taken_in"
   ],
   "note": ""
  },
  {
   "property": "C101",
   "status": "proved",
   "theorems": [
    "C101_merge_informs",
    "C101_exchange_informs",
    "C101_table_crosses"
   ],
   "note": ""
  },
  {
   "property": "C102",
   "status": "proved",
   "theorems": [
    "C102_suspicion_spreads",
    "C102_departure_spreads",
    "C102_unlisted_untouched"
   ],
   "note": ""
  },
  {
   "property": "C103",
   "status": "proved",
   "theorems": [
    "C103_merge_again"
   ],
   "note": ""
  }
 ]
}