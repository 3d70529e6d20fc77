{
 "claims": [
  {
   "property": "C01",
   "status": "proved",
   "theorems": [
    "C01_packet_round_trip",
    "C01_write_outcome",
    "C01_parsed_is_canonical"
   ],
   "note": ""
  },
  {
   "property": "C02",
   "status": "proved",
   "theorems": [
    "C02_fresh_decoder_never_panics",
    "C02_accepted_datagram_layout"
   ],
   "note": ""
  },
  {
   "property": "C03",
   "status": "proved",
   "theorems": [
    "C03_reassembly_any_order",
    "C03_reassembly_with_duplicates",
    "C03_datagrams_are_packets"
   ],
   "note": ""
  },
  {
   "property": "C04",
   "status": "proved",
   "theorems": [
    "C04_emitted_is_complete_and_own",
    "C04_one_answer_per_packet"
   ],
   "note": ""
  },
  {
   "property": "C05",
   "status": "partial",
   "theorems": [
    "C05_options_survive_refuted",
    "C05_options_survive_partial"
   ],
   "note": "Refuted: reassemble (codec.rs 133-143) starts the option map empty and visits only the segments after the first, so options of segment 0 are lost. Proved: options of all other segments survive, highest segment number winning."
  },
  {
   "property": "C06",
   "status": "partial",
   "theorems": [
    "C06_datagrams_never_panic_refuted",
    "C06_panics_exactly_when",
    "C06_datagrams_never_panic_partial"
   ],
   "note": "Refuted: after a truncated datagram the codec indexes buf[1] of the next datagram without a length check, so a datagram of 0 or 1 bytes panics the receiving actor. Proved: that is the only way to panic."
  },
  {
   "property": "C07",
   "status": "proved",
   "theorems": [
    "C07_read_returns_next_bytes",
    "C07_reads_partition_the_buffer",
    "C07_read_total",
    "C07_subreader",
    "C07_subreader_fail"
   ],
   "note": ""
  },
  {
   "property": "C08",
   "status": "proved",
   "theorems": [
    "C08_unsigned64",
    "C08_unsigned32",
    "C08_signed64",
    "C08_signed32",
    "C08_too_wide64"
   ],
   "note": ""
  },
  {
   "property": "C09",
   "status": "proved",
   "theorems": [
    "C09_chunking_is_irrelevant",
    "C09_decoding_terminates"
   ],
   "note": ""
  },
  {
   "property": "C10",
   "status": "partial",
   "theorems": [
    "C10_nothing_reported_nothing_consumed",
    "C10_reports_when_complete",
    "C10_message_consumed_by_its_length",
    "C10_error_consumes_partial",
    "C10_zero_length_refuted"
   ],
   "note": "Refuted: a length field of 0 yields an error without consuming anything, for ever. Proved: everything else the decoder reports consumes octets (length field > 0), and an incomplete message is left alone."
  },
  {
   "property": "C11",
   "status": "partial",
   "theorems": [
    "C11_accepted_length",
    "C11_framed_is_accepted",
    "C11_written_length_partial",
    "C11_oversize_notification_refuted"
   ],
   "note": "Refuted: a NOTIFICATION (UPDATE, ROUTE-REFRESH) longer than 65535 octets is written with a truncated length field. Proved for every message that fits."
  },
  {
   "property": "C12",
   "status": "partial",
   "theorems": [
    "C12_capability_round_trip_partial",
    "C12_open_round_trip_partial",
    "C12_multiple_labels_refuted"
   ],
   "note": "Refuted: MultipleLabels is written without its length octet. Proved for every other capability and every OPEN built from them."
  },
  {
   "property": "C13",
   "status": "partial",
   "theorems": [
    "C13_prefix_round_trip",
    "C13_accepted_prefix",
    "C13_too_long_is_rejected",
    "C13_written_bits",
    "C13_unicast_nlri_round_trip",
    "C13_host_bits_refuted"
   ],
   "note": "Refuted: an IPv4 unicast prefix accepted with host bits set (240.0.0.1/3) is rewritten to octets the parser refuses. Proved for canonical prefixes, plus the bit-level meaning of what is accepted and written."
  },
  {
   "property": "C14",
   "status": "partial",
   "theorems": [
    "C14_attributes_round_trip_partial",
    "C14_flags_on_the_wire",
    "C14_mp_reach_unknown_refuted",
    "C14_short_flag_refuted"
   ],
   "note": "Refuted: MP_REACH_NLRI of an unread family is written with a length one too large; a value over 255 octets with the extended flag off gets a wrong length. Proved for all other lists of attributes; BGP-LS and PREFIX_SID values are opaque octets here and values in C146-C149; extended communities are octets here and values in C142."
  },
  {
   "property": "C15",
   "status": "partial",
   "theorems": [
    "C15_chunking_is_irrelevant",
    "C15_decoding_terminates",
    "C15_never_panics_partial",
    "C15_label_overflow_refuted"
   ],
   "note": "Refuted: a v4 route monitoring message may announce 8 or more labels in its own stateless-parsing TLV and then overflows u8 arithmetic (panic in builds with overflow checks). Proved: chunking is irrelevant and decoding terminates for every stream; no panic as long as no label limit above 7 is in force."
  },
  {
   "property": "C16",
   "status": "partial",
   "theorems": [
    "C16_add_path_follows_history_partial",
    "C16_route_monitoring_partial",
    "C16_alias_refuted",
    "C16_direction_refuted"
   ],
   "note": "Refuted: the settings are stored under the BGP ID of the received OPEN but looked up under the ID in the header, so a peer-up where they differ is lost; and an Adj-RIB-Out peer-up overwrites the Adj-RIB-In settings of the same peer. Proved for histories without these two."
  },
  {
   "property": "C17",
   "status": "proved",
   "theorems": [
    "C17_progress",
    "C17_need_more",
    "C17_ipfix_exact",
    "C17_ipfix_rejected"
   ],
   "note": "Progress, exact need-more condition, no panic or endless loop, exact consumption of IPFIX messages whatever follows."
  },
  {
   "property": "C18",
   "status": "proved",
   "theorems": [
    "C18_ipfix",
    "C18_netflow",
    "C18_no_template_rejected"
   ],
   "note": "Layout of the last template in force for IPFIX and NetFlow over any history from a new decoder; packet rejected without one. Values by layout: C81, C82."
  },
  {
   "property": "C19",
   "status": "proved",
   "theorems": [
    "C19_templates_round_trip"
   ],
   "note": "Any sequence of template and options template sets within 65535 bytes; cache is exactly the update by those templates."
  },
  {
   "property": "C20",
   "status": "partial",
   "theorems": [
    "C20_unsigned_partial",
    "C20_signed_partial",
    "C20_unsigned256_refuted"
   ],
   "note": "Unsigned 8-64 and signed 8/32/64 in every legal length; unsigned256 refuted (keeps the high-order bytes)."
  },
  {
   "property": "C21",
   "status": "partial",
   "theorems": [
    "C21_short_partial",
    "C21_long_written_refuted",
    "C21_long_read_refuted",
    "C21_own_round_trip_partial"
   ],
   "note": "Below 255 bytes as RFC 7011; from 255 bytes on refuted both ways (three length bytes instead of two). The code reads its own form up to 2^24."
  },
  {
   "property": "C22",
   "status": "proved",
   "theorems": [
    "C22_exactly_once",
    "C22_reaches_the_end"
   ],
   "note": ""
  },
  {
   "property": "C23",
   "status": "proved",
   "theorems": [
    "C23_window_emitted_once"
   ],
   "note": ""
  },
  {
   "property": "C24",
   "status": "partial",
   "theorems": [
    "C24_window_bounds_partial",
    "C24_long_windows_refuted",
    "C24_short_windows_refuted"
   ],
   "note": "Refuted: the window start is always truncated to the minute whatever the duration, so windows longer than a minute overlap and shorter ones do not contain their items. Proved for a duration of one minute."
  },
  {
   "property": "C25",
   "status": "proved",
   "theorems": [
    "C25_message_round_trip",
    "C25_hello_round_trip",
    "C25_session_round_trip"
   ],
   "note": "Generic in the XML reader and writer, which are assumed to round trip. Messages shorter than five bytes are not XML messages."
  },
  {
   "property": "C26",
   "status": "partial",
   "theorems": [
    "C26_any_reads_partial",
    "C26_hello_any_reads",
    "C26_late_end_mark_loses_messages_refuted",
    "C26_short_last_chunk_refuted"
   ],
   "note": "Refuted: if a read stops between the last chunk of a message and the end of its end mark, that message and all later ones are lost, and the stream ends with an error; a last chunk of at most four bytes stalls the message. Proved for all other ways of splitting, any number of chunks and messages, and unrestricted for the hello message."
  },
  {
   "property": "C27",
   "status": "partial",
   "theorems": [
    "C27_hold_timer_partial",
    "C27_expiry",
    "C27_updates_do_not_restart_refuted"
   ],
   "note": "The negotiated hold timer runs and expires exactly; refuted: received UPDATEs do not restart it (RFC 4271 asks for it), so a busy peer is closed."
  },
  {
   "property": "C28",
   "status": "partial",
   "theorems": [
    "C28_rfc_transitions",
    "C28_failed_writes",
    "C28_established_after_handshake",
    "C28_peer_state_partial",
    "C28_reported_state",
    "C28_peer_state_refuted"
   ],
   "note": "Every step of a connection is one of RFC 4271 and Established needs the handshake (proved). The peer's state equals that of its connection unless a connection is accepted in Idle (refuted there)."
  },
  {
   "property": "C29",
   "status": "partial",
   "theorems": [
    "C29_accepted_orders_partial",
    "C29_reported_partial",
    "C29_usual_order_refuted"
   ],
   "note": "Exactly which attribute orders are accepted is proved; refuted: the usual order ORIGIN, AS_PATH, NEXT_HOP closes the session."
  },
  {
   "property": "C30",
   "status": "partial",
   "theorems": [
    "C30_same_connection_partial",
    "C30_accepted_first_refuted"
   ],
   "note": "Proved when each speaker's main connection is its own; refuted when one speaker accepted first while its OPEN is delayed."
  },
  {
   "property": "C31",
   "status": "partial",
   "theorems": [
    "C31_most_severe",
    "C31_asked_for",
    "C31_order_partial",
    "C31_first_family_only_refuted",
    "C31_bgpls_resets_another_family_refuted"
   ],
   "note": "Most severe treatment proved, order independence up to which family is reset; refuted: two families, and BGP-LS errors name the wrong family."
  },
  {
   "property": "C32",
   "status": "proved",
   "theorems": [
    "C32_last_of_the_heaviest",
    "C32_one_operation",
    "C32_values_were_upserted"
   ],
   "note": "EnModel.v/EnProps.v. Field values are represented by numbers; histories of any length including deletes."
  },
  {
   "property": "C33",
   "status": "proved",
   "theorems": [
    "C33_delete_named",
    "C33_delete_all",
    "C33_nothing_else_changes",
    "C33_no_empty_containers"
   ],
   "note": "EnProps.v: exact effect of both delete forms, frame, no empty containers, peer entry present iff some value is held."
  },
  {
   "property": "C34",
   "status": "proved",
   "theorems": [
    "C34_best_values",
    "C34_best_is_unique",
    "C34_heaviest_then_own_domain",
    "C34_hash_order_is_irrelevant"
   ],
   "note": "EnProps.v: the answer is exactly the best value per field reference; hash-order independence up to the order of the returned list."
  },
  {
   "property": "C35",
   "status": "proved",
   "theorems": [
    "C35_aggregates",
    "C35_group_members",
    "C35_every_flow_counted_once",
    "C35_arrival_order",
    "C35_reported",
    "C35_sum_wraps_refuted",
    "C35_or_of_octets_depends_on_order_refuted"
   ],
   "note": "Sum is modulo the field's type (C35_sum_wraps_refuted; a debug build panics there); octet arrays of unequal length are order dependent (C35_or_of_octets_depends_on_order_refuted). Signed and floating point fields are not modelled."
  },
  {
   "property": "C36",
   "status": "partial",
   "theorems": [
    "C36_counters_scaled",
    "C36_one_method",
    "C36_unusable_unchanged",
    "C36_exact_partial",
    "C36_record_exact_partial",
    "C36_packets",
    "C36_zero_interval_erases_counters_refuted",
    "C36_large_counter_changed_refuted"
   ],
   "note": "RnProps.v: method selection, effect on every field and the no-information case are proved for all records, with binary64 arithmetic from Coq.Floats.SpecFloat. Exact integer products are proved for whole factors below 2^53; no error bound is proved for other factors. Two refutations: an interval of zero erases counters; factor 1 changes counters above 2^53."
  },
  {
   "property": "C37",
   "status": "proved",
   "theorems": [
    "C37_peers_are_separate",
    "C37_own_decoder",
    "C37_purged_is_fresh"
   ],
   "note": "For any decoder type; the same model covers the UDP-notif actor."
  },
  {
   "property": "C38",
   "status": "partial",
   "theorems": [
    "C38_reported_peers_were_idle_partial",
    "C38_purged_peers_keep_templates_refuted",
    "C38_undecodable_peers_stay_refuted"
   ],
   "note": "Refuted: handle_purge_unused_peers (flow_actor.rs 664-706, same in udp-notif-service/actor.rs) removes and reports peers of peers_usage only; the decoder state in clients stays, so purged peers stay listed with all templates, and peers whose datagrams never decode are never considered. Proved: a reported peer has been idle for longer than the given time."
  },
  {
   "property": "C39",
   "status": "proved",
   "theorems": [
    "C39_every_packet_once",
    "C39_nothing_after_unsubscribe",
    "C39_nothing_after_close",
    "C39_ids_never_reused",
    "C39_only_subscribers",
    "C39_never_panics",
    "C39_id_wrap_refuted"
   ],
   "note": "For fewer than 2^32-1 subscriptions per actor; beyond that the u32 id counter wraps (C39_id_wrap_refuted)."
  },
  {
   "property": "C40",
   "status": "proved",
   "theorems": [
    "C40_strips_exactly_the_tags",
    "C40_untagged_unchanged",
    "C40_never_out_of_bounds"
   ],
   "note": ""
  },
  {
   "property": "C41",
   "status": "proved",
   "theorems": [
    "C41_cleanup_exact"
   ],
   "note": ""
  },
  {
   "property": "C42",
   "status": "partial",
   "theorems": [
    "C42_decoding_never_panics_partial",
    "C42_label_overflow_refuted"
   ],
   "note": "Refuted: with a negotiated label count of 8 or more, u8 arithmetic overflows (panic in builds with overflow checks). Proved for every byte string and every state with label limits up to 7."
  },
  {
   "property": "C43",
   "status": "partial",
   "theorems": [
    "C43_malformed_as_path_is_local_partial",
    "C43_wrong_flags_refuted",
    "C43_wrong_length_refuted"
   ],
   "note": "Refuted: wrong flags or wrong fixed lengths make the decoder lose its place in the attribute list. Proved for AS_PATH/AS4_PATH values that are no list of segments."
  },
  {
   "property": "C44",
   "status": "partial",
   "theorems": [
    "C44_malformed_capability_is_local_partial",
    "C44_fixed_length_refuted"
   ],
   "note": "Refuted: a fixed-length capability with a wrong length makes the decoder lose its place. Proved for the variable-length capabilities."
  },
  {
   "property": "C45",
   "status": "proved",
   "theorems": [
    "C45_error_notification_is_readable"
   ],
   "note": ""
  },
  {
   "property": "C46",
   "status": "proved",
   "theorems": [
    "C46_as_width_follows_negotiation"
   ],
   "note": ""
  },
  {
   "property": "C47",
   "status": "partial",
   "theorems": [
    "C47_reported_errors_are_own_partial",
    "C47_errors_leak_refuted"
   ],
   "note": "Refuted: after a decode error the errors tolerated so far stay pending and are reported with a later message. Proved for histories without decode errors."
  },
  {
   "property": "C48",
   "status": "partial",
   "theorems": [
    "C48_nlri_round_trip_partial",
    "C48_labelled_path_id_refuted",
    "C48_long_label_refuted"
   ],
   "note": "Refuted: labelled-unicast path ids are not written; labels and prefix over 248 bits are misread. Proved for all other elements."
  },
  {
   "property": "C49",
   "status": "partial",
   "theorems": [
    "C49_session_delivers_partial",
    "C49_messages_are_written"
   ],
   "note": "Proved for every message satisfying msg_fits; the values it excludes are those refuted under C11, C12, C14 and C48."
  },
  {
   "property": "C50",
   "status": "partial",
   "theorems": [
    "C50_message_round_trip_partial",
    "C50_stream_round_trip_partial"
   ],
   "note": "Proved for every message satisfying bmp_fits; left out: raw mirrored BGP messages, the MultipleLabels capability (not written correctly, C12), TLVs above 65531 octets (C52) and zero values the format uses for absence."
  },
  {
   "property": "C51",
   "status": "proved",
   "theorems": [
    "C51_frame_is_one_step",
    "C51_one_outcome_per_frame",
    "C51_incomplete_frame_waits"
   ],
   "note": ""
  },
  {
   "property": "C52",
   "status": "partial",
   "theorems": [
    "C52_length_field_partial",
    "C52_long_tlv_refuted",
    "C52_wrapped_tlv_refuted"
   ],
   "note": "Refuted: a v4 TLV value of 65532 to 65535 octets underflows (panic), a longer one wraps the length field. Proved for all messages within bmp_fits."
  },
  {
   "property": "C53",
   "status": "partial",
   "theorems": [
    "C53_label_limit_follows_history_partial"
   ],
   "note": "Same restriction on BGP IDs as C16."
  },
  {
   "property": "C54",
   "status": "partial",
   "theorems": [
    "C54_errors_and_reports_change_nothing",
    "C54_peers_are_independent_partial"
   ],
   "note": "Errors and other messages: proved for all. Independence: peer-ups that speak for another BGP ID excluded (C16_alias_refuted)."
  },
  {
   "property": "C55",
   "status": "proved",
   "theorems": [
    "C55_as_width_is_the_headers"
   ],
   "note": ""
  },
  {
   "property": "C56",
   "status": "partial",
   "theorems": [
    "C56_second_update_refuted"
   ],
   "note": "Refuted: a v4 route monitoring frame with two update TLVs is decoded to the last update alone. The positive direction for written messages is C50."
  },
  {
   "property": "C57",
   "status": "proved",
   "theorems": [
    "C57_late_items_and_contents"
   ],
   "note": ""
  },
  {
   "property": "C58",
   "status": "proved",
   "theorems": [
    "C58_windows_out_when_over"
   ],
   "note": ""
  },
  {
   "property": "C59",
   "status": "partial",
   "theorems": [
    "C59_never_panics_partial",
    "C59_huge_lateness_refuted"
   ],
   "note": "Refuted for a lateness reaching before the first calendar day. Proved for times that leave room for lateness, duration and one minute."
  },
  {
   "property": "C60",
   "status": "partial",
   "theorems": [
    "C60_chunk_header_checked_partial",
    "C60_lax_header_refuted"
   ],
   "note": "Refuted: a plus sign and leading zeros are accepted. Proved that nothing else is."
  },
  {
   "property": "C61",
   "status": "proved",
   "theorems": [
    "C61_never_panics_or_spins",
    "C61_messages_consume_input"
   ],
   "note": ""
  },
  {
   "property": "C62",
   "status": "partial",
   "theorems": [
    "C62_every_packet_once_partial",
    "C62_second_section_refuted",
    "C62_panics_refuted"
   ],
   "note": "Refuted: link types of a second pcapng section are looked up in the first section's interfaces; simple packet blocks and undescribed interface numbers panic. Proved for single-section captures without simple packets and a dissector that does not panic."
  },
  {
   "property": "C63",
   "status": "proved",
   "theorems": [
    "C63_one_channel_per_address"
   ],
   "note": "For fewer than 2^32-1 subscriptions per actor."
  },
  {
   "property": "C64",
   "status": "partial",
   "theorems": [
    "C64_longer_list_wins_partial",
    "C64_fewer_fields_can_win_refuted"
   ],
   "note": "Proved when the longer field list extends the shorter at the end; refuted in general by C64_fewer_fields_can_win_refuted: the code breaks ties by lexicographic order of the scope key."
  },
  {
   "property": "C65",
   "status": "partial",
   "theorems": [
    "C65_order_of_scope_fields_matters_refuted"
   ],
   "note": "Refuted: C65_order_of_scope_fields_matters_refuted shows the same fields in another order are a different cache entry."
  },
  {
   "property": "C66",
   "status": "proved",
   "theorems": [
    "C66_records_only_grow"
   ],
   "note": "EnProps.v."
  },
  {
   "property": "C67",
   "status": "partial",
   "theorems": [
    "C67_scaled_again_refuted"
   ],
   "note": "Refuted: C67_scaled_again_refuted."
  },
  {
   "property": "C68",
   "status": "partial",
   "theorems": [
    "C68_zero_hold_time_partial",
    "C68_session_closed_refuted"
   ],
   "note": "Proved without a large hold time; refuted with one: the handshake timer keeps running."
  },
  {
   "property": "C69",
   "status": "proved",
   "theorems": [
    "C69_keepalives_are_sent"
   ],
   "note": "While writes succeed; the period is third/jit of the negotiated hold time, whose floating point arithmetic is abstract."
  },
  {
   "property": "C70",
   "status": "partial",
   "theorems": [
    "C70_withdrawals_refuted"
   ],
   "note": "Refuted: every withdraw-only UPDATE is rejected."
  },
  {
   "property": "C71",
   "status": "partial",
   "theorems": [
    "C71_missing_found_partial",
    "C71_order_matters_refuted"
   ],
   "note": "A missing ORIGIN or AS_PATH is found in every order; refuted in general."
  },
  {
   "property": "C72",
   "status": "partial",
   "theorems": [
    "C72_notification_partial",
    "C72_established_refuted"
   ],
   "note": "Proved in OpenSent and OpenConfirm; refuted in Established for every error."
  },
  {
   "property": "C73",
   "status": "partial",
   "theorems": [
    "C73_retry_partial",
    "C73_failed_attempt_refuted"
   ],
   "note": "Proved while no attempt fails; refuted after a failed attempt."
  },
  {
   "property": "C74",
   "status": "partial",
   "theorems": [
    "C74_single_command_partial",
    "C74_last_first_refuted"
   ],
   "note": "Proved for a single waiting command; refuted for two: they are taken last first."
  },
  {
   "property": "C75",
   "status": "proved",
   "theorems": [
    "C75_stopped_is_idle",
    "C75_stop_stops"
   ],
   "note": ""
  },
  {
   "property": "C76",
   "status": "partial",
   "theorems": [
    "C76_goes_on_partial",
    "C76_second_connection_refuted"
   ],
   "note": "Proved with a single connection; refuted with a second one."
  },
  {
   "property": "C77",
   "status": "partial",
   "theorems": [
    "C77_established_partial",
    "C77_not_established_refuted"
   ],
   "note": "Proved for a single Established connection; refuted before Established."
  },
  {
   "property": "C78",
   "status": "partial",
   "theorems": [
    "C78_open_lost_refuted",
    "C78_loser_dropped_partial"
   ],
   "note": "Proved when the losing connection's OPEN resolves the collision; refuted when the main one's does: that OPEN is lost."
  },
  {
   "property": "C79",
   "status": "proved",
   "theorems": [
    "C79_configured_as"
   ],
   "note": ""
  },
  {
   "property": "C80",
   "status": "proved",
   "theorems": [
    "C80_stream"
   ],
   "note": "Any cut of any sequence of complete IPFIX messages, any starting templates."
  },
  {
   "property": "C81",
   "status": "partial",
   "theorems": [
    "C81_packet_round_trip_partial",
    "C81_writer_forgets_refuted"
   ],
   "note": "All sets and value types with fitting values when the encoder knows the template lengths; refuted for templates the encoder only wrote itself."
  },
  {
   "property": "C82",
   "status": "partial",
   "theorems": [
    "C82_netflow_round_trip_partial",
    "C82_two_packets_refuted",
    "C82_empty_set_refuted",
    "C82_alignment_refuted"
   ],
   "note": "Non-empty sets, alone in the buffer or one record per template set; refuted otherwise, and alignment refuted."
  },
  {
   "property": "C83",
   "status": "partial",
   "theorems": [
    "C83_own_round_trip_partial",
    "C83_false_refuted",
    "C83_true_partial"
   ],
   "note": "True conforms; false refuted both ways."
  },
  {
   "property": "C84",
   "status": "partial",
   "theorems": [
    "C84_time_round_trip_partial",
    "C84_epoch_refuted",
    "C84_fraction_refuted"
   ],
   "note": "Seconds, milliseconds and whole seconds round trip; epoch and fractions of the NTP types refuted."
  },
  {
   "property": "C85",
   "status": "partial",
   "theorems": [
    "C85_withdrawal_refuted"
   ],
   "note": "Refuted: a withdrawal is kept as a template without fields."
  },
  {
   "property": "C86",
   "status": "partial",
   "theorems": [
    "C86_domains_refuted"
   ],
   "note": "Refuted: templates are keyed by id only."
  },
  {
   "property": "C87",
   "status": "partial",
   "theorems": [
    "C87_opaque_round_trip_partial",
    "C87_variable_length_refuted"
   ],
   "note": "Every fixed length; variable length refuted for vendors without a registry."
  },
  {
   "property": "C88",
   "status": "partial",
   "theorems": [
    "C88_unregistered_refuted",
    "C88_any_unregistered_refuted"
   ],
   "note": "Refuted: the whole packet is rejected."
  },
  {
   "property": "C89",
   "status": "partial",
   "theorems": [
    "C89_rejected_leaves_trace_refuted"
   ],
   "note": "Refuted: templates read before the error stay."
  },
  {
   "property": "C90",
   "status": "partial",
   "theorems": [
    "C90_announced_length_partial",
    "C90_unknown_refuted"
   ],
   "note": "All fields whose value fits; refuted for unknown fields without template."
  },
  {
   "property": "C91",
   "status": "partial",
   "theorems": [
    "C91_ipfix_count_refuted"
   ],
   "note": "Refuted: counted once per data set for IPFIX."
  },
  {
   "property": "C92",
   "status": "partial",
   "theorems": [
    "C92_template_padding_refuted"
   ],
   "note": "Refuted for template sets; options template and data sets accept it (example)."
  },
  {
   "property": "C93",
   "status": "partial",
   "theorems": [
    "C93_length_field_partial",
    "C93_oversize_refuted"
   ],
   "note": "Length field is the length modulo 65536; longer messages refuted."
  },
  {
   "property": "C94",
   "status": "partial",
   "theorems": [
    "C94_fixed_size_partial",
    "C94_too_long_refuted"
   ],
   "note": "Values that fit; longer ones refuted."
  },
  {
   "property": "C95",
   "status": "proved",
   "theorems": [
    "C95_only_legal_templates",
    "C95_illegal_refused"
   ],
   "note": "Any history from a new decoder, IPFIX and NetFlow v9; registries are parameters."
  },
  {
   "property": "C96",
   "status": "partial",
   "theorems": [
    "C96_same_octets_partial",
    "C96_tcp_flags_refuted",
    "C96_boolean_refuted",
    "C96_string_refuted"
   ],
   "note": "All fixed lengths of unsigned, signed, float, address, octet, second and millisecond types; refuted for TCP flags (high octet lost), booleans and strings. Signed16 has no element."
  },
  {
   "property": "C97",
   "status": "partial",
   "theorems": [
    "C97_tail_ignored_refuted"
   ],
   "note": "Refuted: IPFIX data sets may end in any octets; NetFlow rejects them."
  },
  {
   "property": "C98",
   "status": "partial",
   "theorems": [
    "C98_no_panic_partial",
    "C98_mismatch_refuted"
   ],
   "note": "Records that follow the known template, or without one; refuted: an unsigned256 in a longer slot panics."
  },
  {
   "property": "C99",
   "status": "proved",
   "theorems": [
    "C99_exactly_the_difference",
    "C99_same_lines_send_nothing"
   ],
   "note": "Any history; needs distinct configured paths and watched directories (C101, C105) and that empty text is not JSON. IPv6 and JSON parsers are parameters."
  },
  {
   "property": "C100",
   "status": "partial",
   "theorems": [
    "C100_cache_follows_files_partial",
    "C100_two_lines_for_one_slot_refuted"
   ],
   "note": "When no two lines ever speak of one element of one scope; refuted otherwise: the value depends on hash order and removing either line leaves nothing."
  },
  {
   "property": "C101",
   "status": "partial",
   "theorems": [
    "C101_late_directories_ignored_refuted"
   ],
   "note": "Refuted: files of a directory without any existing configured file at start are never read; the positive part is C99, C100 under all_watched."
  },
  {
   "property": "C102",
   "status": "partial",
   "theorems": [
    "C102_line_read_iff_described",
    "C102_word_order_irrelevant",
    "C102_two_scopes_refused",
    "C102_stray_words_widen_scope_refuted"
   ],
   "note": "Read iff described, word order, two scopes refused; refuted: a word without an equals sign is silently dropped."
  },
  {
   "property": "C103",
   "status": "proved",
   "theorems": [
    "C103_route_distinguisher_read_iff",
    "C103_route_distinguisher_unique",
    "C103_same_value_same_parts"
   ],
   "note": "All texts."
  },
  {
   "property": "C104",
   "status": "partial",
   "theorems": [
    "C104_records_get_what_files_say_partial"
   ],
   "note": "Under the hypotheses of C100."
  },
  {
   "property": "C105",
   "status": "partial",
   "theorems": [
    "C105_same_file_twice_refuted"
   ],
   "note": "Refuted: what the first reading provided stays when the file is gone."
  },
  {
   "property": "C106",
   "status": "proved",
   "theorems": [
    "C106_read",
    "C106_not_read"
   ],
   "note": "All records, weights and hash orders."
  },
  {
   "property": "C107",
   "status": "proved",
   "theorems": [
    "C107_reaches_records"
   ],
   "note": "For conditions and information without repeated elements (C110); distinct traversal orders of one record may leave two copies of a condition, which the hypothesis on what was stored allows."
  },
  {
   "property": "C108",
   "status": "proved",
   "theorems": [
    "C108_isolation"
   ],
   "note": "All packets."
  },
  {
   "property": "C109",
   "status": "partial",
   "theorems": [
    "C109_interface_scope_refuted"
   ],
   "note": "Refuted: the scope is translated to ingress and egress both being the interface, so records with the interface on one side only get nothing."
  },
  {
   "property": "C110",
   "status": "partial",
   "theorems": [
    "C110_repeated_elements_refuted"
   ],
   "note": "Refuted: occurrences are renumbered in hash table order."
  },
  {
   "property": "C111",
   "status": "proved",
   "theorems": [
    "C111_flows",
    "C111_labels",
    "C111_records_get_the_name"
   ],
   "note": "Needs never_shared (C112). JSON is not parsed in the model."
  },
  {
   "property": "C112",
   "status": "partial",
   "theorems": [
    "C112_taken_over_refuted"
   ],
   "note": "Refuted for removal and for two nodes exchanging addresses, in both caches."
  },
  {
   "property": "C113",
   "status": "proved",
   "theorems": [
    "C113_one_operation",
    "C113_values_were_upserted"
   ],
   "note": "Any history."
  },
  {
   "property": "C114",
   "status": "proved",
   "theorems": [
    "C114_message_labels"
   ],
   "note": "Any history."
  },
  {
   "property": "C115",
   "status": "partial",
   "theorems": [
    "C115_lookups",
    "C115_contents_partial",
    "C115_other_library_refuted"
   ],
   "note": "Lookups proved for histories in which no subscription is given a second library while it holds one; contents need one library per content id and complete libraries. Refuted: a different library with a cached content id is accepted and the caller gets the first one."
  },
  {
   "property": "C116",
   "status": "partial",
   "theorems": [
    "C116_reload_partial",
    "C116_no_revision_refuted",
    "C116_imports_refuted",
    "C116_moved_refuted"
   ],
   "note": "Proved for settled histories of complete libraries, any listing order. Refuted: a module without a revision, two revisions of an import-only module or a submodule of one make the whole directory unloadable; a subscription that moved to a second library comes back with either."
  },
  {
   "property": "C117",
   "status": "partial",
   "theorems": [
    "C117_by_id_partial",
    "C117_replaced_refuted",
    "C117_stale_refuted"
   ],
   "note": "Proved when ids are distinct and content ids are those the router announced. Refuted without either."
  },
  {
   "property": "C118",
   "status": "partial",
   "theorems": [
    "C118_shared_partial",
    "C118_put_refuted",
    "C118_remove_refuted",
    "C118_remove_last_refuted",
    "C118_empty_schema_refuted"
   ],
   "note": "Proved for adding a subscription to a cached library and removing one that is not the last. Refuted for new libraries (first four crash points, universally), removals and late crash points (empty schema)."
  },
  {
   "property": "C119",
   "status": "partial",
   "theorems": [
    "C119_below_root_partial",
    "C119_anywhere_refuted"
   ],
   "note": "Proved for plain names. Refuted: every absolute directory is reached by some content id."
  },
  {
   "property": "C120",
   "status": "proved",
   "theorems": [
    "C120_once"
   ],
   "note": "All event sequences."
  },
  {
   "property": "C121",
   "status": "proved",
   "theorems": [
    "C121_not_forgotten",
    "C121_all_answered"
   ],
   "note": "Without panics (C124) and disconnections. A one-shot fetch that panics takes the actor down, which is not modelled."
  },
  {
   "property": "C122",
   "status": "proved",
   "theorems": [
    "C122_one_fetch"
   ],
   "note": "Streaming lookups, panics allowed; the placeholder subscription EMPTY is excluded."
  },
  {
   "property": "C123",
   "status": "partial",
   "theorems": [
    "C123_by_info_partial",
    "C123_by_id_refuted"
   ],
   "note": "By subscription: proved. Refuted by id: a miss is never answered."
  },
  {
   "property": "C124",
   "status": "partial",
   "theorems": [
    "C124_retry_partial",
    "C124_panic_refuted"
   ],
   "note": "Errors: proved. Refuted for panics: the waiting list stays and blocks later lookups."
  },
  {
   "property": "C125",
   "status": "proved",
   "theorems": [
    "C125_answers"
   ],
   "note": "All event sequences with distinct request numbers; the placeholder subscription is excluded."
  },
  {
   "property": "C126",
   "status": "partial",
   "theorems": [
    "C126_enough_turns",
    "C126_returns_partial",
    "C126_cut_import_refuted",
    "C126_cut_include_refuted",
    "C126_backslash_refuted"
   ],
   "note": "Proved for texts in which neither keyword occurs; well-formed modules return by C128. Refuted: texts cut inside an import or include block, and complete modules with a single-quoted string ending in a backslash in an import. Missing: an exact characterisation of the texts on which the scan returns."
  },
  {
   "property": "C127",
   "status": "partial",
   "theorems": [
    "C127_ascii_partial",
    "C127_last_character_refuted",
    "C127_letter_refuted"
   ],
   "note": "Proved for ASCII texts. Refuted for texts ending in a character outside ASCII and for accented letters outside strings and comments. Missing: which other texts are safe."
  },
  {
   "property": "C128",
   "status": "partial",
   "theorems": [
    "C128_extracts_partial",
    "C128_meta_name_refuted",
    "C128_import_node_refuted"
   ],
   "note": "Proved for every layout, under the conditions of the specification: names before the first meta statement are none of the six words the scanner reacts to, no string inside an import ends in a backslash. Refuted without them: a module named after a meta statement loses its dependencies, a node named import makes the module fail."
  },
  {
   "property": "C129",
   "status": "proved",
   "theorems": [
    "C129_ends",
    "C129_each_once",
    "C129_revisions_refuted"
   ],
   "note": "For every library whose maps are keyed by name (a type invariant). Also shown: of two listed revisions of an import-only module at most one is fetched."
  },
  {
   "property": "C130",
   "status": "partial",
   "theorems": [
    "C130_closure_partial",
    "C130_checker_irrelevant"
   ],
   "note": "Exact closure for libraries in which a name stands for one thing (one revision, not both module and submodule). Missing: libraries with several revisions of a name, where which one is fetched depends on the order of the queue."
  },
  {
   "property": "C131",
   "status": "partial",
   "theorems": [
    "C131_succeeds_partial",
    "C131_unneeded_submodule_refuted",
    "C131_nested_include_refuted"
   ],
   "note": "Proved: succeeds if in addition every submodule listed with a needed module is needed. Refuted: otherwise the program panics; a submodule included by another submodule only is refused. Hypothesis on import-only modules: they include nothing the library lists."
  },
  {
   "property": "C132",
   "status": "partial",
   "theorems": [
    "C132_builds",
    "C132_features",
    "C132_refused_extension_refuted",
    "C132_two_revisions_refuted",
    "C132_later_revisions_refuted"
   ],
   "note": "Building never panics after import and extensions, and the features are the extension's. Refuted: a refused extension has already replaced the features; a library with two revisions of an import-only module cannot be turned into a builder. Refuted as well: of the revisions of an import-only module only the first is looked at when extending."
  },
  {
   "property": "C133",
   "status": "partial",
   "theorems": [
    "C133_identifies_refuted",
    "C133_order_refuted"
   ],
   "note": "Refuted in both parts: the id is a hash of features and texts joined without separators, without names, revisions, deviations; and it depends on the order of modules."
  },
  {
   "property": "C134",
   "status": "partial",
   "theorems": [
    "C134_exact",
    "C134_ends_partial",
    "C134_include_cycle_refuted",
    "C134_missing_text_refuted"
   ],
   "note": "Exactness proved for every produced graph. Ending proved when includes are not circular; refuted otherwise (unbounded recursion), and a listed submodule without a text panics instead of an error."
  },
  {
   "property": "C135",
   "status": "partial",
   "theorems": [
    "C135_references",
    "C135_complete",
    "C135_no_panic_partial",
    "C135_self_reference_refuted",
    "C135_listed_submodule_refuted"
   ],
   "note": "Proved for every registry behaviour given that the order is topological (petgraph's toposort is a parameter with that specification). Absence of panics needs a text for every listed name (refuted otherwise, even for a submodule nothing includes); the root's last schema refers to itself when nothing depends on it."
  },
  {
   "property": "C136",
   "status": "partial",
   "theorems": [
    "C136_versions_partial",
    "C136_looked_up_partial",
    "C136_check_kept_refuted",
    "C136_version_refuted"
   ],
   "note": "Exact versions when every answer of the registry has one; refuted otherwise: after a refusal a version-less answer yields references to version 0. A refused schema is forced in by switching off the compatibility check of its subject, which is never switched on again. A version left out of the answer to a registration is looked up by content (C136_looked_up_partial)."
  },
  {
   "property": "C137",
   "status": "partial",
   "theorems": [
    "C137_own_answers",
    "C137_in_step",
    "C137_desync_refuted"
   ],
   "note": "Right answers proved for every history when replies name ids; success proved for a device that answers in turn. Recovery after an unexpected message is refuted: every later call fails."
  },
  {
   "property": "C138",
   "status": "partial",
   "theorems": [
    "C138_ids_distinct",
    "C138_ids_wrap_refuted",
    "C138_wrong_answer_refuted",
    "C138_close_refuted",
    "C138_errors_refuted"
   ],
   "note": "Ids distinct proved up to 2^31 calls (they wrap after 2^32, proved). Refuted: replies without an id are taken for any request, close accepts any ok, errors beside data are ignored."
  },
  {
   "property": "C139",
   "status": "partial",
   "theorems": [
    "C139_library_cached_refuted"
   ],
   "note": "Refuted: the session never stores either, so the device is asked for the library exactly as often as the user asks."
  },
  {
   "property": "C140",
   "status": "partial",
   "theorems": [
    "C140_resolved",
    "C140_unresolved_refuted"
   ],
   "note": "Resolution proved when the device has the filter; refuted that an unknown name fails (returned still by name)."
  },
  {
   "property": "C141",
   "status": "proved",
   "theorems": [
    "C141_connect"
   ],
   "note": "Full equivalence for the opening of a session."
  },
  {
   "property": "C142",
   "status": "partial",
   "theorems": [
    "C142_round_trip_partial",
    "C142_ipv6_round_trip",
    "C142_lists_partial",
    "C142_source_as_refuted"
   ],
   "note": "Refuted for the two source AS communities: they are always written as, and read back as, route targets. Proved for every other kind, for lists, and without exception for IPv6 communities."
  },
  {
   "property": "C143",
   "status": "partial",
   "theorems": [
    "C143_total",
    "C143_echo_partial",
    "C143_source_as_refuted"
   ],
   "note": "Totality proved for all octets. Refuted: a received source AS community (sub-type 9) is written with sub-type 2; everything else with reserved bits clear is passed on unchanged."
  },
  {
   "property": "C144",
   "status": "partial",
   "theorems": [
    "C144_transitive_partial",
    "C144_transitive_refuted",
    "C144_authority_refuted"
   ],
   "note": "Refuted for transitive opaque communities (reported non-transitive) and non-transitive four-octet AS ones (reported transitive), always; and the IANA answer is not a matter of the authority bit. Transitivity proved for all other kinds."
  },
  {
   "property": "C145",
   "status": "partial",
   "theorems": [
    "C145_text_partial",
    "C145_text_refuted"
   ],
   "note": "Proved for communities, large communities and within each AS kind of extended communities. Refuted across kinds: route targets of two- and four-octet ASes have the same text, and so have transitive and non-transitive VXLAN ids. Texts of the other kinds of extended communities are not modelled."
  },
  {
   "property": "C146",
   "status": "partial",
   "theorems": [
    "C146_round_trip_partial",
    "C146_protection_refuted",
    "C146_forwarding_refuted",
    "C146_tags_refuted"
   ],
   "note": "Refuted for link protection types (one octet written under a length of two; flags read from the wrong octet), non-empty route tags (the reader runs past them and refuses the attribute) and forwarding addresses (an uncounted length octet shifts the address). Proved for the other kinds, layout and registered codes included."
  },
  {
   "property": "C147",
   "status": "partial",
   "theorems": [
    "C147_total",
    "C147_attribute_confined",
    "C147_value_confined_partial",
    "C147_value_confined_refuted",
    "C147_unknown_codes"
   ],
   "note": "Proved for the attribute and for every value but the two route tag types, which read past their own end. Codes below 256 refuse the attribute."
  },
  {
   "property": "C148",
   "status": "partial",
   "theorems": [
    "C148_echo_partial",
    "C148_long_name_refuted",
    "C148_unread_octets_refuted"
   ],
   "note": "Proved except for link protection types, forwarding addresses and node names above 255 octets; the latter are read but cannot be written (refuted). Octets after a fixed-size value are dropped in silence."
  },
  {
   "property": "C149",
   "status": "proved",
   "theorems": [
    "C149_round_trip",
    "C149_echo",
    "C149_unread_octets_refuted"
   ],
   "note": "Without exception for values; the octets need not be the same again (reserved octets and trailing octets are dropped in silence, shown separately)."
  },
  {
   "property": "C150",
   "status": "partial",
   "theorems": [
    "C150_total",
    "C150_attribute_confined",
    "C150_value_confined",
    "C150_reserved_refuted"
   ],
   "note": "Totality and confinement proved without exception; refuted: types 0, 2 and 255 make the whole attribute unreadable instead of being passed on."
  },
  {
   "property": "C151",
   "status": "proved",
   "theorems": [
    "C151_round_trip",
    "C151_vpn_round_trip"
   ],
   "note": "Plain and VPN, with and without path identifiers."
  },
  {
   "property": "C152",
   "status": "partial",
   "theorems": [
    "C152_total",
    "C152_confined",
    "C152_echo_partial",
    "C152_vpn_echo_partial",
    "C152_host_bits_refuted",
    "C152_unknown_type_refuted",
    "C152_unread_octets_refuted"
   ],
   "note": "Totality and confinement proved for types 1 to 6; refuted: any other type is an error although it carries its length, host bits of prefixes are cleared, and trailing octets are dropped."
  },
  {
   "property": "C153",
   "status": "partial",
   "theorems": [
    "C153_length_field_partial",
    "C153_oversize_refuted"
   ],
   "note": "Proved below 65532 octets (65533 for PREFIX_SID); refuted above: the writer panics or the length wraps."
  },
  {
   "property": "C154",
   "status": "proved",
   "theorems": [
    "C154_as_decoded",
    "C154_once_in_order",
    "C154_all"
   ],
   "note": "Messages cut short by an abort or a crash are the stated exception."
  },
  {
   "property": "C155",
   "status": "partial",
   "theorems": [
    "C155_channel",
    "C155_same_peer_same_channel",
    "C155_no_channels_refuted"
   ],
   "note": "Sharding proved; refuted that a subscription cannot make the collector fail: one without channels ends every connection on its next message."
  },
  {
   "property": "C156",
   "status": "partial",
   "theorems": [
    "C156_numbered",
    "C156_unsubscribe",
    "C156_current",
    "C156_catches_up",
    "C156_after_unsubscribe_refuted"
   ],
   "note": "Numbering, answers, currency and catching up proved; refuted: messages still go to a subscriber after its unsubscription was confirmed, until the connection takes the update."
  },
  {
   "property": "C157",
   "status": "partial",
   "theorems": [
    "C157_peers",
    "C157_reported_partial",
    "C157_disconnected",
    "C157_cancelled",
    "C157_over",
    "C157_after_disconnect_refuted",
    "C157_late_notice_refuted",
    "C157_crashed_refuted",
    "C157_lost_notice_refuted"
   ],
   "note": "Proved for histories in which no closing notice is taken after the peer reconnected; refuted: a late notice hides the new connection, a lost notice and a crash leave dead peers reported, and messages are offered after a disconnect until the abort takes effect."
  },
  {
   "property": "C158",
   "status": "partial",
   "theorems": [
    "C158_stopped",
    "C158_asked_to_end_partial",
    "C158_ends",
    "C158_after_stop_refuted"
   ],
   "note": "Proved except for deliveries after the confirmation, which are refuted; asking to end needs closing notices in time."
  },
  {
   "property": "C159",
   "status": "partial",
   "theorems": [
    "C159_count",
    "C159_shutdown_partial",
    "C159_missed_shutdown_refuted",
    "C159_closed_when_empty_partial",
    "C159_closed_early_refuted",
    "C159_closed_early_leaving_refuted"
   ],
   "note": "Count proved; shutdown proved unless the signal falls between check and wait (refuted there); closing when empty proved unless a connection arrives or is leaving around graceful_shutdown (refuted there)."
  },
  {
   "property": "C160",
   "status": "proved",
   "theorems": [
    "C160_requests",
    "C160_complete"
   ],
   "note": ""
  },
  {
   "property": "C161",
   "status": "partial",
   "theorems": [
    "C161_json_fates",
    "C161_json_counted",
    "C161_avro_fates",
    "C161_yang_uncounted_refuted"
   ],
   "note": "Proved for JSON and AVRO, and for YANG up to messages whose schema cannot be obtained: those are dropped without being counted (refuted)."
  },
  {
   "property": "C162",
   "status": "proved",
   "theorems": [
    "C162_json_patience",
    "C162_json_gives_up",
    "C162_json_refused",
    "C162_avro_patience",
    "C162_avro_gives_up",
    "C162_yang_patience",
    "C162_yang_gives_up"
   ],
   "note": ""
  },
  {
   "property": "C163",
   "status": "partial",
   "theorems": [
    "C163_json_over",
    "C163_json_flush",
    "C163_json_unflushed_refuted",
    "C163_avro_over",
    "C163_avro_flush",
    "C163_http_over",
    "C163_yang_over",
    "C163_yang_flush"
   ],
   "note": "Nothing after the end proved for all four; flushing proved for shutdown and refuted when the input closes."
  },
  {
   "property": "C164",
   "status": "partial",
   "theorems": [
    "C164_batches",
    "C164_lost_on_stop_refuted",
    "C164_status_ignored_refuted",
    "C164_failure_ends_refuted"
   ],
   "note": "Order, once-only and batch size proved; refuted: the buffer is lost when the publisher stops, a refused batch counts as sent, and one failed request ends the publisher."
  },
  {
   "property": "C165",
   "status": "partial",
   "theorems": [
    "C165_settings_partial",
    "C165_keepalive_refuted"
   ],
   "note": "Proved when no keep-alive is configured; the keep-alive is set as request timeout (refuted)."
  },
  {
   "property": "C166",
   "status": "proved",
   "theorems": [
    "C166_schema",
    "C166_registered_once",
    "C166_from_then_on",
    "C166_asks"
   ],
   "note": "For schema cache answers that name the content id asked for, which C125 shows."
  },
  {
   "property": "C167",
   "status": "proved",
   "theorems": [
    "C167_label_means_validated",
    "C167_own_subscription"
   ],
   "note": ""
  },
  {
   "property": "C168",
   "status": "partial",
   "theorems": [
    "C168_validated_once_known",
    "C168_empty_content_id_refuted"
   ],
   "note": "Proved for subscriptions whose content id is not the text EMPTY; a router announcing that id switches validation off (refuted)."
  },
  {
   "property": "C169",
   "status": "partial",
   "theorems": [
    "C169_accounting",
    "C169_nothing_lost_when_orderly",
    "C169_all_accounted_refuted",
    "C169_received_counts_twice_refuted"
   ],
   "note": "Proved up to packets held for a subscription when an announcement changes its description: they are lost uncounted (refuted; none when the router announces first and never changes). received counts held packets again at each release (refuted; exact identity proved)."
  },
  {
   "property": "C170",
   "status": "partial",
   "theorems": [
    "C170_held_bounded",
    "C170_limits_refuted"
   ],
   "note": "Proved with one more than each limit; the limits themselves are exceeded by one (refuted)."
  },
  {
   "property": "C171",
   "status": "partial",
   "theorems": [
    "C171_first_packet_waits_partial",
    "C171_waits_in_order_refuted"
   ],
   "note": "Proved for the first packet of a subscription; later packets are sent on unvalidated and overtake it (refuted)."
  },
  {
   "property": "C172",
   "status": "partial",
   "theorems": [
    "C172_answer_releases_partial",
    "C172_unversioned_never_ends_refuted"
   ],
   "note": "Proved when the announcements carry a module version and the answer's description; an announcement without module version is looked up and held again at every answer (refuted)."
  },
  {
   "property": "C173",
   "status": "partial",
   "theorems": [
    "C173_newest_description_partial",
    "C173_late_answer_refuted"
   ],
   "note": "Proved while later announcements and answers agree with it; a late answer about an earlier description wins (refuted)."
  },
  {
   "property": "C174",
   "status": "proved",
   "theorems": [
    "C174_peers_independent"
   ],
   "note": ""
  },
  {
   "property": "C175",
   "status": "partial",
   "theorems": [
    "C175_answers_starve_refuted",
    "C175_quiet_drains_partial"
   ],
   "note": "Proved once arrivals stop; while packets keep arriving no answer is processed (refuted)."
  },
  {
   "property": "C176",
   "status": "partial",
   "theorems": [
    "C176_tracked_iff_seen",
    "C176_one_record_each",
    "C176_ended_is_forgotten_refuted"
   ],
   "note": "One record per subscription ever named is proved; terminated subscriptions are never forgotten (refuted)."
  },
  {
   "property": "C177",
   "status": "partial",
   "theorems": [
    "C177_no_deadlock_refuted",
    "C177_small_burst_completes_partial"
   ],
   "note": "Proved for bursts up to the two channel capacities plus one; from two more every execution ends with both actors blocked in a send (refuted)."
  },
  {
   "property": "C178",
   "status": "proved",
   "theorems": [
    "C178_only_selected",
    "C178_others_no_effect",
    "C178_is_wanted"
   ],
   "note": ""
  },
  {
   "property": "C179",
   "status": "partial",
   "theorems": [
    "C179_flows_independent",
    "C179_bgp_flows_independent",
    "C179_errors_without_flow_refuted"
   ],
   "note": "Proved when no packet makes a decoder panic (always so for BGP); error lines do not carry the flow (refuted)."
  },
  {
   "property": "C180",
   "status": "partial",
   "theorems": [
    "C180_bgp_segmentation_partial",
    "C180_bgp_is_the_stream",
    "C180_bmp_segmentation_partial",
    "C180_after_an_error_refuted"
   ],
   "note": "Proved up to and including the first error (BMP: and while the decoder does not panic); after an error the rest of the segment is thrown away (refuted)."
  },
  {
   "property": "C181",
   "status": "partial",
   "theorems": [
    "C181_notif_datagrams_partial",
    "C181_ipfix_datagrams_partial",
    "C181_leftover_refuted",
    "C181_forged_refuted"
   ],
   "note": "Proved for datagrams that hold the message they announce (UDP-Notif) or are exactly one IPFIX message; a truncated datagram's octets are put in front of the next one, which loses or forges a message (refuted)."
  },
  {
   "property": "C182",
   "status": "partial",
   "theorems": [
    "C182_limit_is_a_prefix",
    "C182_numbers_optional",
    "C182_panic_past_the_limit_refuted"
   ],
   "note": "Lines proved for all captures; a capture whose reading panics past the limit still panics (refuted)."
  },
  {
   "property": "C183",
   "status": "partial",
   "theorems": [
    "C183_one_line_per_result_partial"
   ],
   "note": "Proved for captures of one section without simple packet blocks and a dissector that does not panic (C62 for the rest)."
  },
  {
   "property": "C184",
   "status": "partial",
   "theorems": [
    "C184_bgp_and_flow_finish_partial",
    "C184_bmp_packet_crashes_refuted",
    "C184_notif_packet_crashes_refuted",
    "C184_notif_prints_exactly"
   ],
   "note": "Proved for BGP and flow traffic; one BMP packet, a UDP-Notif message with an unknown option or a payload that does not parse, or a datagram cut short end the tool (refuted). What panics when printing UDP-Notif is characterised exactly."
  },
  {
   "property": "C185",
   "status": "proved",
   "theorems": [
    "C185_always_ends"
   ],
   "note": ""
  },
  {
   "property": "C186",
   "status": "partial",
   "theorems": [
    "C186_printed_in_full_partial",
    "C186_session_printed_partial",
    "C186_after_an_error_refuted"
   ],
   "note": "Proved up to the first error of a flow, and for whole sessions of messages the codec round-trips; the message after an error is replaced by a fixed text (refuted)."
  },
  {
   "property": "C187",
   "status": "partial",
   "theorems": [
    "C187_width_from_own_flow_partial",
    "C187_other_direction_ignored_refuted"
   ],
   "note": "Proved with respect to the OPENs of the packet's own direction; the other direction's OPEN is ignored, so a legitimate two-octet UPDATE is reported as broken (refuted)."
  },
  {
   "property": "C188",
   "status": "partial",
   "theorems": [
    "C188_one_answer_each",
    "C188_running_listeners_partial",
    "C188_all_listeners_partial",
    "C188_ended_listener_refuted",
    "C188_behind_shutdown_refuted"
   ],
   "note": "At most one answer per listener, all of the right kind, proved for every schedule; one answer from every listener that still runs, and from all if all run, proved while the supervisor runs. A listener that ended is left out silently, and a call queued behind a shutdown succeeds with no answer (refuted)."
  },
  {
   "property": "C189",
   "status": "partial",
   "theorems": [
    "C189_all_return",
    "C189_bounded_work",
    "C189_zero_buffer_refuted"
   ],
   "note": "Proved for every schedule; with a command buffer size of zero calls panic instead (refuted)."
  },
  {
   "property": "C190",
   "status": "proved",
   "theorems": [
    "C190_in_order",
    "C190_nothing_skipped"
   ],
   "note": ""
  },
  {
   "property": "C191",
   "status": "partial",
   "theorems": [
    "C191_removed",
    "C191_kept",
    "C191_report_length",
    "C191_report",
    "C191_unknown_id_refuted"
   ],
   "note": "Removal, retention and the report proved; an id that was never given out is reported as removed (refuted)."
  },
  {
   "property": "C192",
   "status": "partial",
   "theorems": [
    "C192_shutdown_stops_all",
    "C192_earlier_calls_first",
    "C192_dropped_stops_all",
    "C192_runs_until_told",
    "C192_listener_runs_until_told",
    "C192_refused_after_end",
    "C192_receive_error_refuted"
   ],
   "note": "Proved; but a shutdown that stopped every listener can return an error, because the supervisor may notice their end before it answers (refuted)."
  },
  {
   "property": "C193",
   "status": "partial",
   "theorems": [
    "C193_ids_unique",
    "C193_no_orphans_partial",
    "C193_bmp_orphan_refuted"
   ],
   "note": "Uniqueness proved for all three services, no orphans for flow and UDP-Notif; the BMP listener keeps the subscription of a caller that gave up, under an id nobody knows (refuted)."
  },
  {
   "property": "C194",
   "status": "partial",
   "theorems": [
    "C194_numbered",
    "C194_some_listener_partial",
    "C194_no_listener_refuted"
   ],
   "note": "Numbering proved for all three; non-emptiness for flow and BMP. The UDP-Notif service starts with no listener, and subscribing to it succeeds with no subscription (refuted)."
  },
  {
   "property": "C195",
   "status": "partial",
   "theorems": [
    "C195_accepted",
    "C195_selected",
    "C195_no_field_twice",
    "C195_error",
    "C195_implemented_partial",
    "C195_list_minimum_refuted",
    "C195_unknown_union_refuted",
    "C195_refused_though_implemented_refuted"
   ],
   "note": "Acceptance, selection and errors proved. That accepted operations can be carried out is proved for known elements that are not lists; minimum and maximum of lists and the union of bits of unknown elements are accepted but always fail, while minimum and maximum of booleans and hardware addresses are refused (refuted)."
  },
  {
   "property": "C196",
   "status": "partial",
   "theorems": [
    "C196_coded_partial",
    "C196_unassigned_wins_refuted",
    "C196_fin_wins_refuted"
   ],
   "note": "Proved for enumerated fields while all values are assigned, or none is. A value without assigned meaning counts as the largest, and for TCP flags any value with FIN counts as larger than any without (refuted)."
  },
  {
   "property": "C197",
   "status": "partial",
   "theorems": [
    "C197_at_the_end",
    "C197_while_waiting",
    "C197_no_panic_partial",
    "C197_end_comes"
   ],
   "note": "Proved for every interleaving; absence of panics for times away from the ends of the calendar."
  },
  {
   "property": "C198",
   "status": "partial",
   "theorems": [
    "C198_numbers",
    "C198_distinct",
    "C198_out_of_order_refuted",
    "C198_lost_refuted"
   ],
   "note": "Numbering proved. Records can arrive out of order, since each window has its own sending task, and a record not taken within a second is dropped (refuted)."
  },
  {
   "property": "C199",
   "status": "partial",
   "theorems": [
    "C199_never_ends_refuted",
    "C199_command_ends",
    "C199_shutdown_loses_refuted"
   ],
   "note": "Ending on command proved. After its input has closed the loop turns for ever without waiting, and a shutdown loses open windows and queued packets (refuted)."
  },
  {
   "property": "C200",
   "status": "partial",
   "theorems": [
    "C200_one_record_per_route",
    "C200_distinguisher_text",
    "C200_other_families_refuted",
    "C200_label_stack_refuted"
   ],
   "note": "Proved for updates whose routes are of the eight prefix families with at most one MP_REACH and MP_UNREACH; the routes of other families (EVPN, route target, BGP-LS) give a single record without a prefix, and of a label stack only the first label is shown (refuted)."
  },
  {
   "property": "C201",
   "status": "partial",
   "theorems": [
    "C201_attributes_shown",
    "C201_withdrawal_attributes_refuted",
    "C201_repeated_attribute_refuted",
    "C201_large_aigp_refuted"
   ],
   "note": "Proved for attributes that occur once. Withdrawals in an update that also announces show the attributes of the announced routes, of repeated attributes the last one counts, and an AIGP above the 64-bit signed range is clamped (refuted)."
  },
  {
   "property": "C202",
   "status": "partial",
   "theorems": [
    "C202_marker_reported",
    "C202_only_without_routes",
    "C202_unknown_family_refuted",
    "C202_not_a_marker_refuted"
   ],
   "note": "Proved for known families. Markers of unknown families are reported as withdrawals without a prefix, and updates with an empty MP_UNREACH beside other attributes are reported as markers (refuted)."
  },
  {
   "property": "C203",
   "status": "partial",
   "theorems": [
    "C203_as_path_shown",
    "C203_path_reconstructed",
    "C203_longer_as4_path_ignored",
    "C203_text_names_one_path",
    "C203_four_octet_path_refuted",
    "C203_aggregator_refuted"
   ],
   "note": "Proved for two-octet paths, with the reconstruction of RFC 6793 and unambiguous text. AS4_PATH is also merged into a four-octet path, and without regard to AGGREGATOR (refuted)."
  },
  {
   "property": "C204",
   "status": "proved",
   "theorems": [
    "C204_peer_and_rib"
   ],
   "note": "Proved for every header and message."
  },
  {
   "property": "C205",
   "status": "partial",
   "theorems": [
    "C205_one_record_per_counter",
    "C205_large_counter_clamped",
    "C205_unknown_counter_refuted"
   ],
   "note": "One record per counter in order proved; counters of unknown type are reported as zero (refuted) and values above the 64-bit signed range are clamped."
  },
  {
   "property": "C206",
   "status": "partial",
   "theorems": [
    "C206_initiation_information_partial",
    "C206_peer_up_information_partial",
    "C206_other_items",
    "C206_termination",
    "C206_peer_down",
    "C206_notification_refuted",
    "C206_repeated_string_refuted",
    "C206_termination_item_refuted"
   ],
   "note": "Last item of each kind proved to be shown; of repeated items all but the last are lost, experimental termination items are dropped, and the NOTIFICATION of a peer down is not shown (refuted)."
  },
  {
   "property": "C207",
   "status": "partial",
   "theorems": [
    "C207_converted_or_refused",
    "C207_no_timestamp_refuted",
    "C207_other_message_refuted",
    "C207_sequence_refuted",
    "C207_time_text",
    "C207_leap_second_refuted"
   ],
   "note": "The messages converted are characterised, the others are refused with an error. Messages of peers without a timestamp are refused, monitoring messages that carry no update give nothing, a leap second is shown as an earlier moment, and all records have the same sequence number (refuted)."
  },
  {
   "property": "C208",
   "status": "partial",
   "theorems": [
    "C208_sets_and_sequences_partial",
    "C208_confederation_refuted"
   ],
   "note": "Proved for sets and sequences; the confederation segment types of RFC 5065 are rejected as malformed (refuted)."
  },
  {
   "property": "C209",
   "status": "partial",
   "theorems": [
    "C209_keys",
    "C209_create",
    "C209_peer_of_key",
    "C209_two_sessions_refuted"
   ],
   "note": "Keys, creation and one peer per key proved; two sessions can run for one key, as a removed peer may still run when its key is used again (refuted)."
  },
  {
   "property": "C210",
   "status": "proved",
   "theorems": [
    "C210_in_order",
    "C210_refused",
    "C210_all_return",
    "C210_answer",
    "C210_answered"
   ],
   "note": "Proved for every history."
  },
  {
   "property": "C211",
   "status": "partial",
   "theorems": [
    "C211_removed",
    "C211_stopped_if_kept_partial",
    "C211_stop_lost_refuted"
   ],
   "note": "Stop is sent, the key freed and others untouched; the session is stopped if the returned controller is kept. If it is dropped the task can be aborted before the Stop is taken (refuted)."
  },
  {
   "property": "C212",
   "status": "proved",
   "theorems": [
    "C212_right_peer",
    "C212_once",
    "C212_delivered",
    "C212_dropped",
    "C212_one_peer"
   ],
   "note": "Proved for every history; that the handles registered for an address are those of its peer is a premise where it is needed."
  },
  {
   "property": "C213",
   "status": "partial",
   "theorems": [
    "C213_waits_for",
    "C213_nothing_waits_partial",
    "C213_comes_to_waiting",
    "C213_other_socket_refuted",
    "C213_no_socket_refuted"
   ],
   "note": "Proved for one socket. With two, a second connection at one socket waits until one comes at every other; without sockets the listener spins (refuted)."
  },
  {
   "property": "C214",
   "status": "partial",
   "theorems": [
    "C214_kept",
    "C214_joined",
    "C214_blocked_refuted",
    "C214_no_second_try_refuted"
   ],
   "note": "Confirmed peers are kept. While a dynamic peer says nothing no connection is accepted, and after a failed attempt the address is never served again (refuted)."
  },
  {
   "property": "C215",
   "status": "partial",
   "theorems": [
    "C215_faithful_filters_come_back_partial",
    "C215_two_prefixes_for_a_namespace_refuted",
    "C215_default_namespace_refuted",
    "C215_no_namespace_gains_one_refuted",
    "C215_blanks_around_a_name_refuted"
   ],
   "note": "Proved for filters with no outer blanks in names and paths, one prefix for each namespace, no default namespace and only prefixes that are used. Of two prefixes for one namespace one is lost, with a default namespace the filter cannot be read back, a subtree without namespaces gains one, outer blanks are lost (refuted)."
  },
  {
   "property": "C216",
   "status": "partial",
   "theorems": [
    "C216_reading_a_complete_document_ends_partial",
    "C216_a_document_cut_in_a_text_refuted",
    "C216_filters_cut_in_a_name_refuted"
   ],
   "note": "Proved for every document that ends with an end tag; a document cut inside a text is read for ever (refuted)."
  },
  {
   "property": "C217",
   "status": "partial",
   "theorems": [
    "C217_a_selection_filter_in_either_order",
    "C217_a_stream_filter_with_its_name_first_partial",
    "C217_a_stream_filter_with_its_name_last_refuted"
   ],
   "note": "Proved for selection filters, and for stream filters with the name first; a stream filter with its name last is always rejected, as the name is looked for in the YANG-Push namespace (refuted)."
  },
  {
   "property": "C218",
   "status": "partial",
   "theorems": [
    "C218_text_is_what_it_stands_for_partial",
    "C218_any_text_is_written_as_itself",
    "C218_names_are_read_without_outer_blanks",
    "C218_character_references_refuted"
   ],
   "note": "Proved for text, CDATA, comments and the five named references; character references are read as their own text (refuted)."
  },
  {
   "property": "C219",
   "status": "partial",
   "theorems": [
    "C219_an_xpath_is_read_with_the_namespaces_it_uses_partial",
    "C219_prefixes_outside_ascii_refuted"
   ],
   "note": "Proved for expressions with ASCII names; a prefix with other letters is not seen and its binding is lost (refuted)."
  },
  {
   "property": "C220",
   "status": "partial",
   "theorems": [
    "C220_unknown_elements_change_nothing_partial",
    "C220_an_element_is_skipped_with_all_it_holds",
    "C220_an_empty_filters_element_refuted",
    "C220_an_empty_subtree_filter_refuted",
    "C220_an_inner_element_of_the_same_name_refuted"
   ],
   "note": "Proved for unknown elements between filters. An empty filters or subtree element is rejected, and an inner element of the subtree tag's local name ends the subtree (refuted)."
  },
  {
   "property": "C221",
   "status": "proved",
   "theorems": [
    "C221_tasks_get_a_prefix",
    "C221_running_tasks_get_all",
    "C221_running_tasks_lack_the_rest"
   ],
   "note": "For every handler, every number of tasks and every interleaving; what the brokers deliver is chosen by the environment."
  },
  {
   "property": "C222",
   "status": "partial",
   "theorems": [
    "C222_no_failure_while_tasks_run",
    "C222_gives_up_after_21_offers",
    "C222_ended_task_delays_the_others_refuted",
    "C222_full_task_stops_the_others_refuted"
   ],
   "note": "Proved: nothing is given up or delayed by backoff while no task ends. Refuted: each operation offered to an ended task holds the consumer for 10.48575 s (21 offers, though none can succeed), and a task whose channel is full stops it until the task receives or ends."
  },
  {
   "property": "C223",
   "status": "partial",
   "theorems": [
    "C223_shutdown_before_the_next_message",
    "C223_bounded_steps_after_shutdown_partial",
    "C223_reconnecting_ignores_shutdown_refuted",
    "C223_shutdown_waits_any_time_refuted"
   ],
   "note": "Proved: between messages the shutdown goes first, and outside reconnection the consumer's steps after it are bounded. Refuted: while the brokers are down shutdown is not heard, for any time."
  },
  {
   "property": "C224",
   "status": "proved",
   "theorems": [
    "C224_ends_only_for_a_reason",
    "C224_never_stuck",
    "C224_bad_messages_are_passed_over",
    "C224_reconnection_resumes",
    "C224_counters",
    "C224_ended_is_final"
   ],
   "note": "The three reasons to end, progress, passing over, resuming and the counters, for every history."
  },
  {
   "property": "C225",
   "status": "proved",
   "theorems": [
    "C225_flows_and_updates_in_order",
    "C225_handed_on_in_order",
    "C225_nothing_is_lost",
    "C225_at_most_one_lost",
    "C225_updates_first",
    "C225_two_stages"
   ],
   "note": "For every working function and every interleaving; at most one flow is not handed on, when the last receiver goes."
  },
  {
   "property": "C226",
   "status": "partial",
   "theorems": [
    "C226_only_subscriber_gets_all",
    "C226_subscribers_share",
    "C226_all_subscribers_get_all_refuted"
   ],
   "note": "Proved: an only subscriber gets everything in order; several share, each flow going to one of them. The documented claim that all get the same data is refuted: when one has everything the others have nothing."
  },
  {
   "property": "C227",
   "status": "partial",
   "theorems": [
    "C227_input_is_drained",
    "C227_two_turns_after_shutdown_partial",
    "C227_shutdown_goes_first",
    "C227_shutdown_is_heard_partial",
    "C227_full_output_holds_the_stage_refuted",
    "C227_waits_for_input_or_output"
   ],
   "note": "Proved: the input is drained before ending with it, and after a shutdown at most two turns follow. Refuted: with a full output channel and a handle alive, shutdown is not heard and the loss of all subscribers is not noticed."
  },
  {
   "property": "C228",
   "status": "proved",
   "theorems": [
    "C228_counters",
    "C228_counters_add_up"
   ],
   "note": "For every history."
  },
  {
   "property": "C229",
   "status": "partial",
   "theorems": [
    "C229_written_is_read",
    "C229_reading_is_stable",
    "C229_white_space_refuted",
    "C229_no_schemes_refuted"
   ],
   "note": "Proved for every capability whose parts do not contain the characters that separate them, and for every text without white space. Refuted: with white space inside, a second reading may differ; a :url capability without schemes is written but not read."
  },
  {
   "property": "C230",
   "status": "partial",
   "theorems": [
    "C230_plain_names_are_accepted",
    "C230_other_names_are_kept",
    "C230_unknown_parameters_are_kept",
    "C230_ignored_refuted",
    "C230_one_error_refuses_the_hello",
    "C230_hello_has_all"
   ],
   "note": "Proved: names without parameters, names that are no URN or web address and names with an unknown parameter are kept. Refuted: a URN or web address whose parameters have no value is an error, and one error refuses the whole hello."
  },
  {
   "property": "C231",
   "status": "partial",
   "theorems": [
    "C231_standard_names",
    "C231_base_names",
    "C231_modules",
    "C231_url_refuted",
    "C231_library_refuted"
   ],
   "note": "Proved for the fixed names and for modules. Refuted: :url is not recognised after white space, and the id of a YANG library takes in the white space that follows."
  },
  {
   "property": "C232",
   "status": "partial",
   "theorems": [
    "C232_recognised_by_name",
    "C232_base_by_name",
    "C232_url_schemes",
    "C232_with_defaults_refuted"
   ],
   "note": "Proved for every text: recognised by the registered name only, and every list of schemes of :url. Refuted: :with-defaults with the basic-mode RFC 6243 demands is not recognised."
  },
  {
   "property": "C233",
   "status": "partial",
   "theorems": [
    "C233_written_is_read",
    "C233_nothing_is_confused",
    "C233_no_labels_refuted",
    "C233_null_payload_refuted"
   ],
   "note": "Proved for every message whose payload and subtree filter are not null and whose operator metadata, if there is any, has labels. Refuted: a message with operator metadata without labels is written but cannot be read; a null payload is lost."
  },
  {
   "property": "C234",
   "status": "partial",
   "theorems": [
    "C234_subscription_is_kept",
    "C234_filters_are_kept",
    "C234_both_filters_refuted",
    "C234_transport_refuted",
    "C234_replay_time_refuted",
    "C234_reaches_the_reader"
   ],
   "note": "Proved: everything but transport and encoding is kept, filters when only the stream or only the datastore has one. Refuted: of two filters only that of the stream is kept; transport and encoding are always udp-notif and json; the replay start time is dropped."
  },
  {
   "property": "C235",
   "status": "proved",
   "theorems": [
    "C235_label_is_read_back",
    "C235_numbers_are_text",
    "C235_json_numbers_are_refused",
    "C235_number_only_if_it_is_one"
   ],
   "note": "For every label and every JSON object."
  }
 ]
}