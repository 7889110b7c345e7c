{
 "claims": [
  {
   "property": "C01",
   "status": "proved",
   "theorems": [
    "C01_delivered_is_prefix",
    "C01_all_arrived_is_delivered",
    "C01_packet_within_lookahead_survives"
   ],
   "note": "Prefix, completeness and look-ahead for every packet order, loss, duplication and partial write."
  },
  {
   "property": "C02",
   "status": "partial",
   "theorems": [
    "C02_ack_truthful_partial",
    "C02_refuted_nack_overflow",
    "C02_refuted_close"
   ],
   "note": "Holds unless the NACK list is full (255) or the packet is the stream's own CLOSE; both exceptions are real and refuted by witnesses."
  },
  {
   "property": "C03",
   "status": "proved",
   "theorems": [
    "C03_sender_retains",
    "C03_bogus_ack_ignored",
    "C03_retransmits"
   ],
   "note": "Retention, payload/sequence stability, window bound and retransmission for every event history."
  },
  {
   "property": "C04",
   "status": "proved",
   "theorems": [
    "C04_end_to_end"
   ],
   "note": "Two model streams over a network that loses, delays, duplicates and reorders."
  },
  {
   "property": "C05",
   "status": "partial",
   "theorems": [
    "C05_accepted_stream_prefix_partial",
    "C05_accepted_stream_complete_partial",
    "C05_waiting_ack_truthful_partial",
    "C05_waiting_bounded",
    "C05_refuted_gap",
    "C05_refuted_close_before_accept",
    "C05_waiting_answers"
   ],
   "note": "Proved for gap-free arrival while waiting (delivery, completeness, truthful ACKs, bound); gaps and CLOSE before accept refuted by witnesses."
  },
  {
   "property": "C06",
   "status": "partial",
   "theorems": [
    "C06_close_complete_partial",
    "C06_refuted_early_close",
    "C06_refuted_slow_client"
   ],
   "note": "Full property refuted by two witnesses; proved when the last payload arrived and the client is not behind."
  },
  {
   "property": "C07",
   "status": "proved",
   "theorems": [
    "C07_unsigned_roundtrip",
    "C07_signed_roundtrip",
    "C07_peek_agrees",
    "C07_payload_is_suffix",
    "C07_refuted_signature_without_destination",
    "C07_refuted_256_nacks"
   ],
   "note": "Unsigned and signed packets, peek, payload suffix; 256 or more NACKs and a signature without destination are refuted (the router's own callers never produce them)."
  },
  {
   "property": "C08",
   "status": "partial",
   "theorems": [
    "C08_never_panics",
    "C08_accept_sockets_fifo",
    "C08_handed_out_once",
    "C08_accept_and_forward_exclude_each_other",
    "C08_never_poisoned_partial",
    "C08_refuted_race_poisons",
    "C08_refuted_failed_forward_blocks_session",
    "C08_usable_at_once"
   ],
   "note": "No panic, FIFO, at-most-once and mutual exclusion proved for every history; freedom from the poisoned state only when no FORWARD is registered while an ACCEPT status write is pending (refuted otherwise)."
  },
  {
   "property": "C09",
   "status": "partial",
   "theorems": [
    "C09_frames_in_order",
    "C09_requests_in_order",
    "C09_segmentation_irrelevant",
    "C09_reads_on",
    "C09_refuted_frame_too_large"
   ],
   "note": "proved for every byte stream and segmentation; a frame announcing more than 65535 bytes panics the reader (refuted theorem)"
  },
  {
   "property": "C10",
   "status": "partial",
   "theorems": [
    "C10_commands_in_order_partial",
    "C10_buffer_bounded",
    "C10_refuted_split_command",
    "C10_refuted_pipelined_commands",
    "C10_refuted_invented_command"
   ],
   "note": "First command under any segmentation and later commands one per read proved; the general claim is false of the code (stale buffer contents after the first newline): three refutations."
  },
  {
   "property": "C11",
   "status": "proved",
   "theorems": [
    "C11_written_is_prefix",
    "C11_queue_drains",
    "C11_write_all"
   ],
   "note": "SAM and I2CP write loops and write_all"
  },
  {
   "property": "C12",
   "status": "partial",
   "theorems": [
    "C12_request_only_after_hello",
    "C12_at_most_one_request",
    "C12_version",
    "C12_refuted_noversion"
   ],
   "note": "Ordering, at-most-one and version choice proved exactly; NOVERSION is never sent (refuted)."
  },
  {
   "property": "C13",
   "status": "proved",
   "theorems": [
    "C13_messages_are_1028_bytes",
    "C13_reassembly",
    "C13_exactly_once",
    "C13_any_order",
    "C13_refuted_large_message_never_delivered"
   ],
   "note": "Full statement within the format's limit of 64 fragments (63,745 bytes with local delivery): any set of messages, any order, interleaving, loss and duplication, down to the bytes of the tunnel data messages. The refutation is about larger messages, which the I2NP format and the builder accept but which are never delivered. Message ids of messages in flight in one tunnel are assumed distinct (they are random)."
  },
  {
   "property": "C14",
   "status": "partial",
   "theorems": [
    "C14_only_complete_messages",
    "C14_exactly_once",
    "C14_incomplete_dropped",
    "C14_refuted_lone_fragment"
   ],
   "note": "For sendable messages (short form; payload up to 1189 bytes or above 1200): only whole, unchanged messages are handed on; exactly once if all pieces arrive within 30 seconds and before expiry; pieces of incomplete messages are dropped within 330 seconds. Refuted for payloads of 1190-1200 bytes: sent as a lone first fragment, never delivered."
  },
  {
   "property": "C15",
   "status": "partial",
   "theorems": [
    "C15_acks_only_received_partial",
    "C15_first_range_truthful",
    "C15_refuted_long_runs"
   ],
   "note": "Sound and complete above a missing packet when no run of received/missing packets above a missing one exceeds 255; the first range is always truthful. Refuted in general: clamped run lengths shift the following ranges (C15_refuted_long_runs)."
  },
  {
   "property": "C16",
   "status": "proved",
   "theorems": [
    "C16_rejects_within_a_minute",
    "C16_rejects_only_recent",
    "C16_session_duplicates"
   ],
   "note": "Filter and session level, all schedules."
  },
  {
   "property": "C17",
   "status": "proved",
   "theorems": [
    "C17_seen_until_decayed_twice",
    "C17_seen_only_if_covered"
   ],
   "note": "For every hash function."
  },
  {
   "property": "C18",
   "status": "partial",
   "theorems": [
    "C18_messages_in_order",
    "C18_messages_in_order_reverse",
    "C18_segmentation_irrelevant",
    "C18_lengths_in_step",
    "C18_queue_drains",
    "C18_refuted_unknown_block",
    "C18_refuted_large_message",
    "C18_published_masks"
   ],
   "note": "Proved for every message list, write pattern and read segmentation, with AEAD assumed correct. Refuted: an authentic frame with an unknown block leaves the reader in the middle of the frame and ends the session; messages of 65508..65526 bytes get a truncated frame length."
  },
  {
   "property": "C19",
   "status": "proved",
   "theorems": [
    "C19_nonces_never_repeat",
    "C19_ciphers_in_step"
   ],
   "note": "Nonce counter of the shared cipher type, as used by NTCP2."
  },
  {
   "property": "C20",
   "status": "proved",
   "theorems": [
    "C20_buckets_bounded_and_placed",
    "C20_good_routers_stay",
    "C20_refused_only_if_full",
    "C20_eviction",
    "C20_score_changes_one_router"
   ],
   "note": "All insertions and score changes; score overflow of a 64 bit integer not modelled."
  },
  {
   "property": "C21",
   "status": "partial",
   "theorems": [
    "C21_closest_exact",
    "C21_closest_partial",
    "C21_closest_nothing_closer_left_out",
    "C21_single_closest",
    "C21_refuted_repeated_router"
   ],
   "note": "The search visits the local router's neighbour twice when target and local id differ in the last bit (refuted); everything else proved."
  },
  {
   "property": "C22",
   "status": "partial",
   "theorems": [
    "C22_lease_set_asks_once",
    "C22_router_info_asks_once_partial",
    "C22_every_caller_told_once",
    "C22_ends_in_time",
    "C22_time_can_pass",
    "C22_success_comes_from_a_record",
    "C22_result_unless_partial",
    "C22_unanswered_floodfill_blamed",
    "C22_refuted_router_info_asks_twice",
    "C22_refuted_no_result",
    "C22_refuted_blamed_early"
   ],
   "note": "Lease set lookups ask no floodfill twice, every caller is told exactly one outcome within 21.6 s when timers are punctual, success only from a matching record, the floodfill owing an answer loses exactly 5 points. False as stated for router infos (same floodfill can be asked twice), for callers whose channel is closed without a result in four cases, and a stale timer of an earlier lookup blames a floodfill early; each is shown by a _refuted witness."
  },
  {
   "property": "C23",
   "status": "partial",
   "theorems": [
    "C23_garlic_roundtrip",
    "C23_unknown_blocks_skipped",
    "C23_refuted_trailing_unknown_block",
    "C23_refuted_builder_panics",
    "C23_parser_total",
    "C23_delivery_flags"
   ],
   "note": "Round trip for every block sequence, padding returned, unknown blocks skipped unless last; a trailing unknown block loses the message and one builder input panics (both refuted)."
  },
  {
   "property": "C24",
   "status": "proved",
   "theorems": [
    "C24_short_roundtrip",
    "C24_standard_roundtrip",
    "C24_truncation_rejected",
    "C24_short_canonical",
    "C24_standard_canonical",
    "C24_lengths",
    "C24_refuted_long_payload",
    "C24_routing"
   ],
   "note": "Both forms, both directions, truncation, lengths, routing; payloads beyond the size field are refuted separately."
  },
  {
   "property": "C25",
   "status": "proved",
   "theorems": [
    "C25_lookup_roundtrip",
    "C25_search_reply_roundtrip",
    "C25_delivery_status_roundtrip",
    "C25_gateway_roundtrip",
    "C25_store_lease_set_roundtrip",
    "C25_store_router_info_roundtrip",
    "C25_extract_raw",
    "C25_refuted_zero_token"
   ],
   "note": "All five message kinds, raw extraction after parse; reply token 0 refuted by a witness (outside the format's meaning)."
  },
  {
   "property": "C26",
   "status": "proved",
   "theorems": [
    "C26_string_roundtrip",
    "C26_string_from_text",
    "C26_string_canonical",
    "C26_mapping_roundtrip",
    "C26_map_preserved",
    "C26_last_value_wins",
    "C26_loop_terminates_by_itself",
    "C26_refuted_long_string",
    "C26_refuted_declared_size"
   ],
   "note": "Round trip for every string of at most 255 bytes and every option map below 64 KiB; the code's gaps (unchecked longer strings, over-reading the declared size) are refuted by witnesses."
  },
  {
   "property": "C27",
   "status": "proved",
   "theorems": [
    "C27_new_destination_roundtrip",
    "C27_destination_stable",
    "C27_identity_roundtrip",
    "C27_identity_stable",
    "C27_generated_identity_parses"
   ],
   "note": "Both directions for destinations (all three key kinds) and router identities, for any crypto backend."
  },
  {
   "property": "C28",
   "status": "proved",
   "theorems": [
    "C28_lease_set_roundtrip",
    "C28_lease_set_authentic",
    "C28_lease_roundtrip",
    "C28_refuted_reserialize"
   ],
   "note": "Round trip, authenticity and size limits; re-serializing a parsed lease set is refuted by a witness (not done by the router itself)."
  },
  {
   "property": "C29",
   "status": "proved",
   "theorems": [
    "C29_router_info_roundtrip",
    "C29_router_info_authentic",
    "C29_serialize_panics_iff_no_address",
    "C29_socket_address",
    "C29_no_socket_address",
    "C29_capabilities",
    "C29_addresses_kept"
   ],
   "note": "Round trip and authenticity for any signature scheme satisfying sign/verify."
  },
  {
   "property": "C30",
   "status": "proved",
   "theorems": [
    "C30_base64_roundtrip",
    "C30_base32_roundtrip",
    "C30_encodings_injective",
    "C30_base32_canonical",
    "C30_router_id_roundtrip",
    "C30_base64_is_one_word"
   ],
   "note": "Both encodings for every byte string; base32 spelling unique. The data_encoding crate is modelled from its documentation."
  },
  {
   "property": "C31",
   "status": "partial",
   "theorems": [
    "C31_delivery_partial",
    "C31_anonymous_unchanged",
    "C31_refuted_forged_datagram",
    "C31_refuted_ports_swapped",
    "C31_header_line_partial"
   ],
   "note": "Delivery and payload proved; missing signature check and swapped ports refuted by witnesses."
  },
  {
   "property": "C32",
   "status": "proved",
   "theorems": [
    "C32_tag_set_order",
    "C32_any_order",
    "C32_initiator_window",
    "C32_responder_window",
    "C32_ratchet_window",
    "C32_tag_used_once"
   ],
   "note": "RatchetProofs3/4/5: window invariant; windows of initiator (4096), responder (4095: the tag of the first message is not replaced) and after a ratchet proved; needs distinct 64-bit tags, stated as hypothesis"
  },
  {
   "property": "C33",
   "status": "partial",
   "theorems": [
    "C33_lockstep_partial",
    "C33_exchange_completes",
    "C33_ids_bounded",
    "C33_refuted"
   ],
   "note": "proved when no NextKey block arrives after the next exchange was asked for; C33_refuted: a late repeated reverse key poisons the sending tag set for good; ids bounded under any delivery"
  },
  {
   "property": "C34",
   "status": "partial",
   "theorems": [
    "C34_session",
    "C34_bad_message",
    "C34_unknown_tag",
    "C34_pending_refuted"
   ],
   "note": "proved for established sessions and unknown tags; refuted for sessions being set up: one damaged reply poisons the pending session"
  },
  {
   "property": "C35",
   "status": "proved",
   "theorems": [
    "C35_limit",
    "C35_none_while_shutting_down",
    "C35_shutdown_completes",
    "C35_ids_not_shared",
    "C35_keeps_its_id",
    "C35_added_only_by_request",
    "C35_slot_freed",
    "C35_no_panic"
   ],
   "note": "Whole history of build requests, feedback, timers, shutdown and other users of the routing table. Other parts of the router are assumed to use the table as they do in the code (remove only ids they inserted)."
  },
  {
   "property": "C36",
   "status": "proved",
   "theorems": [
    "C36_delivered_to_the_right_one",
    "C36_accepted_has_an_owner",
    "C36_listener_at_most_once",
    "C36_refused_comes_back",
    "C36_not_refused_without_cause",
    "C36_ids_not_shared",
    "C36_outgoing_in_order",
    "C36_nothing_for_a_dead_manager"
   ],
   "note": "Whole routing table (tunnel/routing_table.rs) with its channels, for every history of calls from any task."
  },
  {
   "property": "C37",
   "status": "partial",
   "theorems": [
    "C37_one_hop_per_network",
    "C37_none_only_if_short",
    "C37_distinct_partial",
    "C37_refuted",
    "C37_insecure_count",
    "C37_insecure_distinct_refuted"
   ],
   "note": "No panic, exact count or none, low participation and pairwise different /16 networks matched to hops proved for all router sets and random choices; also none only if there are too few networks. Distinct routers proved when each router has addresses in one /16. Refuted in general: a router with NTCP2 and SSU2 addresses in two /16 networks can be chosen twice; insecure mode can repeat a router."
  },
  {
   "property": "C38",
   "status": "partial",
   "theorems": [
    "C38_no_underflow",
    "C38_never_too_small",
    "C38_exact_partial",
    "C38_shutdown_refuted",
    "C38_same_id_refuted"
   ],
   "note": "No counter underflows and counts are never below the registered tunnels, for all histories under 2^64 operations. Exact when ids are unused and pools are emptied before shutdown. Refuted otherwise: client pool shutdown and reused ids leak counts."
  },
  {
   "property": "C39",
   "status": "partial",
   "theorems": [
    "C39_one_connection",
    "C39_second_connection_rejected",
    "C39_redial_partial",
    "C39_attempts_end",
    "C39_redial_refuted"
   ],
   "note": "TransportManager dial/established/failure/closed/query events. Redial proved for runs without an outbound handshake succeeding to an already connected router; refuted otherwise (router stuck undialable forever)."
  },
  {
   "property": "C40",
   "status": "partial",
   "theorems": [
    "C40_no_panic",
    "C40_lookup",
    "C40_fast_or_standard",
    "C40_selectable_partial",
    "C40_selectable_refuted",
    "C40_declined_avoided",
    "C40_dial_failure_refuted",
    "C40_race_refuted",
    "C40_clock_refuted",
    "C40_counters",
    "C40_failing_iff"
   ],
   "note": "No panic, lookup exactness, fast/standard disjoint for all runs. Selectable: every router accepted by add/discover; refuted for routers loaded at startup. Refuted: avoidance after dial failures is inverted and never ends; add_router race panics; clock going back panics."
  },
  {
   "property": "C41",
   "status": "proved",
   "theorems": [
    "C41_envelope_roundtrip",
    "C41_build_total"
   ],
   "note": "For any gzip whose decompression ignores MTIME and OS."
  },
  {
   "property": "C42",
   "status": "partial",
   "theorems": [
    "C42_sam_datagram_total_partial",
    "C42_refuted_short_sam_datagram",
    "C42_identities",
    "C42_dsa",
    "C42_store",
    "C42_messages",
    "C42_sizes",
    "C42_ssu2_router_info_refuted",
    "C42_nested_calls"
   ],
   "note": "Every slice, length subtraction, array conversion, expect and unreachable arm in the parsers of destinations, router identities and infos, offline signatures, lease sets, stores (and taking the raw payload out again), session keys, payloads, tunnel garlic, I2NP short headers and NTCP2/SSU2 router info blocks is written out with a Panic outcome; never reached, except a SAM datagram header under 4 bytes and an SSU2 router info block of size 1 with overflow checks (both refuted with the exact condition). Garlic parsing nests one call per block, unbounded but by the length."
  },
  {
   "property": "C43",
   "status": "partial",
   "theorems": [
    "C43_short_record_roundtrip",
    "C43_variable_record_partial",
    "C43_refuted_variable_options"
   ],
   "note": "Short records fully; variable records refuted when options exceed 62 bytes."
  },
  {
   "property": "C44",
   "status": "partial",
   "theorems": [
    "C44_inbound_syn_authentic",
    "C44_own_syn_accepted",
    "C44_replayed_syn_rejected",
    "C44_answer_accepted",
    "C44_refuted_answer_from_another_destination"
   ],
   "note": "Authenticity, acceptance, replay rejection and answers proved; an answer signed by another destination is accepted, refuted by a witness."
  },
  {
   "property": "C45",
   "status": "proved",
   "theorems": [
    "C45_datagram_command"
   ],
   "note": "For every nickname, destination and payload."
  },
  {
   "property": "C46",
   "status": "proved",
   "theorems": [
    "C46_requests_decoded",
    "C46_create_session_authentic"
   ],
   "note": "all request kinds"
  },
  {
   "property": "C47",
   "status": "partial",
   "theorems": [
    "C47_replies_framed_partial",
    "C47_refuted_host_reply",
    "C47_refuted_lease_set_request"
   ],
   "note": "four reply kinds proved; host replies and lease set requests announce a body shorter than they carry (refuted theorems)"
  },
  {
   "property": "C48",
   "status": "proved",
   "theorems": [
    "C48_blocks_roundtrip",
    "C48_written_blocks"
   ],
   "note": "All block types."
  },
  {
   "property": "C49",
   "status": "partial",
   "theorems": [
    "C49_hello",
    "C49_accept",
    "C49_forward",
    "C49_forward_incomplete",
    "C49_connect",
    "C49_connect_incomplete",
    "C49_create_stream",
    "C49_create_datagram",
    "C49_create_rejected",
    "C49_lookup",
    "C49_generate",
    "C49_generated_keys_usable",
    "C49_refuted_escape",
    "C49_refuted_empty_value",
    "C49_keys"
   ],
   "note": "All commands, arguments in any order/spacing/quoting. Two refuted points: backslash escapes are kept in quoted values; an empty quoted value is read as two quote characters."
  },
  {
   "property": "C50",
   "status": "proved",
   "theorems": [
    "C50_outbound_layers_cancel",
    "C50_inbound_layers_cancel",
    "C50_end_to_end",
    "C50_router_delivery"
   ],
   "note": "AES is a parameter assumed invertible and length preserving; keys of the hops are given (the build handshake that agrees on them is not part of this property)."
  },
  {
   "property": "C51",
   "status": "partial",
   "theorems": [
    "C51_packets_carry_what_was_sent",
    "C51_acks_can_be_written",
    "C51_refuted_termination_never_sent",
    "C51_published_blocks",
    "C51_published_series"
   ],
   "note": "Refuted for the session-end notice: building it always panics. ACK ranges limited to 32765 (the length field wraps beyond)."
  },
  {
   "property": "C52",
   "status": "proved",
   "theorems": [
    "C52_first_contact",
    "C52_any_reply"
   ],
   "note": "manager level for the first reply, session level for any of the first sixteen replies; tag collisions excluded by counting the tags listened under"
  },
  {
   "property": "C53",
   "status": "partial",
   "theorems": [
    "C53_answer_ignores_new_session",
    "C53_refuted"
   ],
   "note": "refuted: the answer uses the old active session; the general reason is C53_answer_ignores_new_session"
  },
  {
   "property": "C54",
   "status": "partial",
   "theorems": [
    "C54_in_order_and_accounted_for",
    "C54_only_to_sessions",
    "C54_sent_when_connected",
    "C54_told_when_unreachable",
    "C54_at_once_partial",
    "C54_at_once_refuted",
    "C54_waits_for_a_dial_refuted"
   ],
   "note": "TunnelManager + TransportService. Conservation and order are total; immediate sending proved when no dial failure is reported during a session; refuted otherwise, and when the dial request cannot be queued."
  },
  {
   "property": "C55",
   "status": "partial",
   "theorems": [
    "C55_outbound",
    "C55_inbound",
    "C55_hop_count",
    "C55_needs_every_hop",
    "C55_no_panic_partial",
    "C55_blame_refuted"
   ],
   "note": "Both directions for any number of hops, keys and node states. C55_blame_refuted: the list of failed hops pairs the reversed routers with results in forward order, so the wrong router is blamed. C55_no_panic_partial: a garlic reply shorter than 12 bytes panics. That no other hop can read a record is the AEAD's business and not stated; 'clear' excludes the 2^-128 chance that a ciphertext starts with a hop's hash."
  },
  {
   "property": "C56",
   "status": "proved",
   "theorems": [
    "C56_saved_once",
    "C56_profiles_saved"
   ],
   "note": "Every run of adds, discoveries, reports, maintenance and backups."
  },
  {
   "property": "C57",
   "status": "proved",
   "theorems": [
    "C57_both_sides_agree",
    "C57_messages_follow",
    "C57_no_panic",
    "C57_other_network_refused",
    "C57_same_hash_same_bytes",
    "C57_published_options"
   ],
   "note": "Session keys, no panic, network check and transcript binding proved; the AEAD, X25519, SHA-256 and AES are laws of the primitives record."
  },
  {
   "property": "C58",
   "status": "partial",
   "theorems": [
    "C58_signed_info_partial",
    "C58_impersonation_refuted"
   ],
   "note": "Only the signature and the network id hold: the static key proved in the handshake is not compared with the one in the router info, so any peer can be accepted as any router (C58_impersonation_refuted)."
  },
  {
   "property": "C59",
   "status": "partial",
   "theorems": [
    "C59_no_local_ipv4_partial",
    "C59_allowed",
    "C59_ipv6_refuted"
   ],
   "note": "IPv4 over NTCP2 proved in both directions; IPv6 is not checked (C59_ipv6_refuted) and the SSU2 transport ignores the setting (ssu2/mod.rs:96-112, ssu2/socket.rs connect)."
  },
  {
   "property": "C60",
   "status": "partial",
   "theorems": [
    "C60_key_agreement",
    "C60_packets_follow",
    "C60_misread_is_dropped",
    "C60_reply_misread_refuted",
    "C60_published_keys",
    "C60_rest_of_header",
    "C60_published_options"
   ],
   "note": "Key agreement and delivery of later packets are proved for every undisturbed run in which no reply is mistaken (the condition is spelled out in Ssu2HsSpec.mistaken); refuted without that condition: a reply can read like another message with the dialing socket's own key and is dropped."
  },
  {
   "property": "C61",
   "status": "partial",
   "theorems": [
    "C61_no_panic_partial",
    "C61_datagram_panics_refuted"
   ],
   "note": "Proved for datagrams below 24 or of at least 64 bytes; refuted in general: a 40-byte datagram made from the published intro key makes the socket slice out of bounds in every state."
  },
  {
   "property": "C62",
   "status": "partial",
   "theorems": [
    "C62_any_token_refuted",
    "C62_any_network_refuted"
   ],
   "note": "Refuted: any token is accepted, from any address, and a token request of any network is answered."
  },
  {
   "property": "C63",
   "status": "partial",
   "theorems": [
    "C63_lost_reply_refuted"
   ],
   "note": "Refuted: after a lost Retry the repeated TokenRequest poisons the listening side's session for good."
  },
  {
   "property": "C64",
   "status": "partial",
   "theorems": [
    "C64_dial_ends",
    "C64_later_stages_end",
    "C64_half_open_refuted"
   ],
   "note": "Proved for the four retransmitted messages with arbitrary poll times; refuted for inbound sessions that wait for a SessionRequest, which have no timer and accumulate without limit."
  },
  {
   "property": "C65",
   "status": "partial",
   "theorems": [
    "C65_own_name_refuted",
    "C65_host_and_port"
   ],
   "note": "Refuted for every run: dialed sessions and failures are always reported under the local router id."
  },
  {
   "property": "C66",
   "status": "partial",
   "theorems": [
    "C66_signed_info_partial",
    "C66_impersonation_refuted"
   ],
   "note": "Proved: the router info was signed by the identity reported. Refuted: the static key proved in the handshake need not be the published one."
  },
  {
   "property": "C67",
   "status": "partial",
   "theorems": [
    "C67_answered",
    "C67_last_store_wins",
    "C67_foreign_lease_set_refuted",
    "C67_older_replaces_newer_refuted"
   ],
   "note": "Any history of the database model. That the entry belongs to the key (C67_foreign_lease_set_refuted) and is not replaced by an older one (C67_older_replaces_newer_refuted) is refuted; C67_last_store_wins says in general who wins. Stores under keys with an active query of this router are in the query model (C22)."
  },
  {
   "property": "C68",
   "status": "partial",
   "theorems": [
    "C68_at_most_one_cleanup_late_partial",
    "C68_expired_served_refuted",
    "C68_router_info_forever_refuted",
    "C68_valid_forgotten_refuted"
   ],
   "note": "Only the bound by the cleanup interval holds; the three ways in which the claim fails are theorems."
  },
  {
   "property": "C69",
   "status": "proved",
   "theorems": [
    "C69_no_token_no_messages",
    "C69_one_hop"
   ],
   "note": "For any sending history and any receiving router and state."
  },
  {
   "property": "C70",
   "status": "proved",
   "theorems": [
    "C70_refused_entries_do_nothing",
    "C70_acknowledged_and_flooded"
   ],
   "note": "Handing to the connection means: sent if connected, first message of a new dial, or appended to those kept for the dial under way."
  },
  {
   "property": "C71",
   "status": "partial",
   "theorems": [
    "C71_search_reply",
    "C71_direct_answer_lost_refuted",
    "C71_exploration_dials"
   ],
   "note": "Contents of the reply proved; that it reaches a router that asked directly fails if that router is not connected (C71_direct_answer_lost_refuted), although exploration replies dial it (C71_exploration_dials)."
  },
  {
   "property": "C72",
   "status": "proved",
   "theorems": [
    "C72_kept_for_the_dial",
    "C72_dropped_on_failure"
   ],
   "note": "Two-run comparison: the same events with the connection lost and with the connection kept."
  },
  {
   "property": "C73",
   "status": "proved",
   "theorems": [
    "C73_never_panics"
   ],
   "note": "Covers the events of the floodfill model; panics of the query part are C22 and C42."
  },
  {
   "property": "C74",
   "status": "proved",
   "theorems": [
    "C74_tunnels_known"
   ],
   "note": "Over every history of a handle; what it was told and what expired is read off the history."
  },
  {
   "property": "C75",
   "status": "partial",
   "theorems": [
    "C75_fresh_after_poll_partial",
    "C75_stale_path_refuted"
   ],
   "note": "Proved after a poll if no replacement came back empty-handed; otherwise refuted: the old path stays without a timer."
  },
  {
   "property": "C76",
   "status": "proved",
   "theorems": [
    "C76_three_lookups"
   ],
   "note": "Lookups counted on the history of calls and answers."
  },
  {
   "property": "C77",
   "status": "partial",
   "theorems": [
    "C77_path_available_partial",
    "C77_shared_id_refuted"
   ],
   "note": "Proved if the remote's tunnel ids differ from ours; refuted if one coincides."
  },
  {
   "property": "C78",
   "status": "partial",
   "theorems": [
    "C78_no_panic_partial",
    "C78_clock_tick_refuted"
   ],
   "note": "Proved for one clock reading per call; refuted when the clock advances by 2 ms inside the call."
  },
  {
   "property": "C79",
   "status": "partial",
   "theorems": [
    "C79_events_heard_partial",
    "C79_event_lost_refuted"
   ],
   "note": "Proved while fewer than 128 events are unread; refuted beyond."
  },
  {
   "property": "C80",
   "status": "partial",
   "theorems": [
    "C80_send",
    "C80_nothing_else_sends",
    "C80_expired_lease_refuted"
   ],
   "note": "send_spec holds over every history; the wish that no expired lease is used is refuted."
  },
  {
   "property": "C81",
   "status": "partial",
   "theorems": [
    "C81_put_off_sent_partial",
    "C81_overtaken_refuted",
    "C81_found_expired_refuted"
   ],
   "note": "Proved for lookups that end; messages stay put when the remote sends its lease set itself (refuted), and expired lease sets are reported as found (refuted)."
  },
  {
   "property": "C82",
   "status": "partial",
   "theorems": [
    "C82_one_lookup",
    "C82_query",
    "C82_never_looked_up_refuted"
   ],
   "note": "One lookup at a time proved; that a route gets its lease set looked up is refuted."
  },
  {
   "property": "C83",
   "status": "proved",
   "theorems": [
    "C83_no_panic",
    "C83_parsed_has_key"
   ],
   "note": "Total for lease sets with a key, which every parsed lease set has."
  },
  {
   "property": "C84",
   "status": "partial",
   "theorems": [
    "C84_arrived_partial",
    "C84_foreign_refuted",
    "C84_older_refuted"
   ],
   "note": "Only lease sets that arrived for the remote are used; that a lookup brings the remote's own and that newer ones win are refuted."
  },
  {
   "property": "C85",
   "status": "partial",
   "theorems": [
    "C85_routes_kept_partial",
    "C85_lookup_drops_route_refuted"
   ],
   "note": "Proved while no lookup brings a lease set; refuted for lookups."
  },
  {
   "property": "C86",
   "status": "proved",
   "theorems": [
    "C86_unpublished_stays_local"
   ],
   "note": "All events and timings of the lease set manager; the only output left is the list of leases for the client."
  },
  {
   "property": "C87",
   "status": "partial",
   "theorems": [
    "C87_store_is_current",
    "C87_verify_is_current",
    "C87_leases_are_live",
    "C87_newest_published_refuted"
   ],
   "note": "Stores, verification lookups and leases proved current; that the newest lease set is published is refuted (a lease set created during a publication)."
  },
  {
   "property": "C88",
   "status": "partial",
   "theorems": [
    "C88_republished",
    "C88_published_refuted"
   ],
   "note": "Republication proved with explicit deadlines for every schedule; eventual first publication refuted by tunnels built every 20 s (for every number of rounds)."
  },
  {
   "property": "C89",
   "status": "partial",
   "theorems": [
    "C89_verified_elsewhere",
    "C89_stored_elsewhere",
    "C89_closest_first",
    "C89_confirmed_by_own_lease_set_refuted",
    "C89_confirmation_noticed_refuted"
   ],
   "note": "Choice of floodfills proved; that only our own current lease set confirms the storage, and always does, is refuted."
  },
  {
   "property": "C90",
   "status": "proved",
   "theorems": [
    "C90_one_lookup_at_a_time"
   ],
   "note": "All histories of search replies and lookup outcomes."
  },
  {
   "property": "C91",
   "status": "partial",
   "theorems": [
    "C91_delivered_to_the_right_one_partial",
    "C91_listener_at_most_once",
    "C91_not_refused_without_cause_partial",
    "C91_refuted_stale_tag"
   ],
   "note": "orderly histories in full; a stale tag after an unexpected answer is refuted"
  },
  {
   "property": "C92",
   "status": "partial",
   "theorems": [
    "C92_nothing_left_behind_partial",
    "C92_refuted_association_kept"
   ],
   "note": "orderly histories in full; the association left by an unexpected answer is refuted"
  },
  {
   "property": "C93",
   "status": "partial",
   "theorems": [
    "C93_handled_partial",
    "C93_refuted_short_garlic"
   ],
   "note": "all messages but garlic messages under 12 bytes; those panic in every state"
  },
  {
   "property": "C94",
   "status": "partial",
   "theorems": [
    "C94_never_too_many_partial",
    "C94_refuted"
   ],
   "note": "Proved if no timer is a minute late and ids of live tunnels are distinct; refuted without the first."
  },
  {
   "property": "C95",
   "status": "partial",
   "theorems": [
    "C95_maintenance_is_done",
    "C95_all_replaced_partial"
   ],
   "note": "That the pool is maintained when due is proved outright; that everything is replaced, if hops are found and draws suffice, timers on time and ids distinct."
  },
  {
   "property": "C96",
   "status": "proved",
   "theorems": [
    "C96_lifetimes",
    "C96_expire_when_due",
    "C96_selected_from_live"
   ],
   "note": "Reported expiry times, earliest reports, reports when due and the tunnels on offer."
  },
  {
   "property": "C97",
   "status": "partial",
   "theorems": [
    "C97_entries_while_running",
    "C97_shut_down",
    "C97_refuted_shutdown_leaks"
   ],
   "note": "Proved while the pool runs; after a shutdown the entries of pending inbound builds stay (refuted)."
  },
  {
   "property": "C98",
   "status": "partial",
   "theorems": [
    "C98_listeners",
    "C98_refuted_listeners_pile_up"
   ],
   "note": "Listeners of builds and tests under way are there, others only of failed dials and timed out tests, which do pile up (refuted)."
  },
  {
   "property": "C99",
   "status": "proved",
   "theorems": [
    "C99_right_answer"
   ],
   "note": "For every request, state and random choice."
  },
  {
   "property": "C100",
   "status": "proved",
   "theorems": [
    "C100_what_is_tested",
    "C100_round_is_complete",
    "C100_results"
   ],
   "note": "Completeness of a round needs timers on time and distinct ids; the rest holds outright."
  },
  {
   "property": "C101",
   "status": "partial",
   "theorems": [
    "C101_the_end",
    "C101_refuted_one_tunnel_ends_all"
   ],
   "note": "The pool ends only by shutdown, lack of users or a tunnel's panic; the last is refuted as a property."
  },
  {
   "property": "C102",
   "status": "proved",
   "theorems": [
    "C102_handle_alone",
    "C102_known_tunnels",
    "C102_known_leases"
   ],
   "note": "A refinement: the destination seen through one handle is that handle alone."
  },
  {
   "property": "C103",
   "status": "partial",
   "theorems": [
    "C103_admission",
    "C103_to_itself",
    "C103_free_again",
    "C103_refuted_failed_session_keeps_id"
   ],
   "note": "Answers to SESSION CREATE are decided by ids and destinations in use; that a failed session frees them is refuted."
  },
  {
   "property": "C104",
   "status": "proved",
   "theorems": [
    "C104_per_session",
    "C104_only_what_was_asked"
   ],
   "note": "Routing and order of commands, per session, from the history alone."
  },
  {
   "property": "C105",
   "status": "partial",
   "theorems": [
    "C105_one_end",
    "C105_refuted_closed_without_reply"
   ],
   "note": "Conservation of sockets; that each is answered before it is closed is refuted."
  },
  {
   "property": "C106",
   "status": "proved",
   "theorems": [
    "C106_in_order",
    "C106_all_of_it"
   ],
   "note": "The UDP writer is a queue; nothing skipped unless the channel is full."
  },
  {
   "property": "C107",
   "status": "partial",
   "theorems": [
    "C107_per_destination",
    "C107_one_fate",
    "C107_refuted_other_stream_opens"
   ],
   "note": "Per destination, from the history alone; conservation of sockets; that a waiting CONNECT is answered is refuted."
  },
  {
   "property": "C108",
   "status": "proved",
   "theorems": [
    "C108_in_order",
    "C108_nothing_lost",
    "C108_with_its_destination"
   ],
   "note": "In order and nothing lost; the destination's promise is proved of the destination model."
  },
  {
   "property": "C109",
   "status": "partial",
   "theorems": [
    "C109_answered",
    "C109_host_names",
    "C109_refuted_lookup_forgotten"
   ],
   "note": "Every name kind; that each of two lookups of one destination is answered is refuted."
  },
  {
   "property": "C110",
   "status": "partial",
   "theorems": [
    "C110_in_this_order",
    "C110_pool_as_asked",
    "C110_lease_set_request",
    "C110_asked_in_time",
    "C110_begins_with_these",
    "C110_ready_refuted",
    "C110_early_lookup_refuted",
    "C110_destination_refuted"
   ],
   "note": "setup order, options, leases asked for and tunnels used are proved for all histories; refuted: a session can wait although all its tunnels are there, lookups before the session is active are not answered, and the destination of the lease set is not compared with the session's"
  },
  {
   "property": "C111",
   "status": "partial",
   "theorems": [
    "C111_in_order",
    "C111_with_its_destination",
    "C111_nothing_lost",
    "C111_the_rest_is_dropped",
    "C111_handed_over",
    "C111_lookup_not_own_refuted"
   ],
   "note": "order, conservation and numbering proved for all histories, with the promise about lease set answers proved of DestModel; refuted: a message can be dropped although the lookup of its destination succeeds, when the session's messages did not start it"
  },
  {
   "property": "C112",
   "status": "partial",
   "theorems": [
    "C112_each_once",
    "C112_held_at_the_end",
    "C112_by_hash",
    "C112_at_once",
    "C112_by_name",
    "C112_second_unanswered_refuted"
   ],
   "note": "conservation and right answers proved for all histories; refuted: a second lookup of one hash while the first is under way is never answered"
  },
  {
   "property": "C113",
   "status": "partial",
   "theorems": [
    "C113_ids",
    "C113_other_protocols",
    "C113_as_if_alone",
    "C113_down_why",
    "C113_one_client_refuted",
    "C113_no_inbound_refuted",
    "C113_ids_repeat_refuted"
   ],
   "note": "ids, isolation and the two ways in which the server goes down are proved for all histories; refuted: one client can end the server for all, and session ids are used again after 2^16 clients"
  },
  {
   "property": "C114",
   "status": "proved",
   "theorems": [
    "C114_first_listed_wins",
    "C114_any_book",
    "C114_never_overridden"
   ],
   "note": "Full statement proved over the file as written and parsed again."
  },
  {
   "property": "C115",
   "status": "partial",
   "theorems": [
    "C115_cut_partial",
    "C115_crash_refuted",
    "C115_restart_refuted"
   ],
   "note": "Refuted: the file is truncated and written in place, and every start begins with an empty map. Proved in part: a cut file gives a prefix of the address or none."
  },
  {
   "property": "C116",
   "status": "proved",
   "theorems": [
    "C116_asked_in_turn",
    "C116_ends"
   ],
   "note": "Full statement proved."
  },
  {
   "property": "C117",
   "status": "partial",
   "theorems": [
    "C117_only_i2p",
    "C117_no_other_way_out",
    "C117_target_refuted"
   ],
   "note": "Proved, except that the host of the request line is ignored (refuted)."
  },
  {
   "property": "C118",
   "status": "partial",
   "theorems": [
    "C118_any_case",
    "C118_what_is_told",
    "C118_referer_refuted"
   ],
   "note": "Proved, except that a Referer need only contain the host (refuted)."
  },
  {
   "property": "C119",
   "status": "partial",
   "theorems": [
    "C119_any_pieces",
    "C119_body_prefix_partial",
    "C119_body_refuted"
   ],
   "note": "Head independent of the pieces; body refuted: what comes after the read that ends the head is lost."
  },
  {
   "property": "C120",
   "status": "partial",
   "theorems": [
    "C120_failures_answered",
    "C120_no_panic",
    "C120_long_head_refuted",
    "C120_escape_refuted"
   ],
   "note": "Pages and no panic proved; heads over 8192 bytes get no answer and hosts are not escaped (refuted)."
  },
  {
   "property": "C121",
   "status": "proved",
   "theorems": [
    "C121_done_only",
    "C121_done_when",
    "C121_at_once",
    "C121_no_more",
    "C121_taken_on"
   ],
   "note": "Router, shutdown context, transit tunnel manager and its waiting task as one transition system; transports ending by themselves are an input."
  },
  {
   "property": "C122",
   "status": "proved",
   "theorems": [
    "C122_done_only",
    "C122_done_when",
    "C122_told",
    "C122_woken"
   ],
   "note": "Context, handles and the spawned tasks with their wakers, for any number of handles."
  },
  {
   "property": "C123",
   "status": "partial",
   "theorems": [
    "C123_in_order",
    "C123_all_told",
    "C123_room",
    "C123_figures",
    "C123_notices",
    "C123_notice_given",
    "C123_shut_down_refuted",
    "C123_lost_refuted"
   ],
   "note": "Order, completeness without loss, room, figures and notices proved; refuted: the notice that the router has shut down never comes since the router calls the manager's shutdown once only, and a status dropped at a full queue takes the destinations it names with it."
  },
  {
   "property": "C124",
   "status": "proved",
   "theorems": [
    "C124_dispatch",
    "C124_one_each",
    "C124_unregistered",
    "C124_report"
   ],
   "note": "Split by type proved against I2NP type numbers; fewer than two registered subsystems make the task panic exactly when a message is meant for a missing one."
  },
  {
   "property": "C125",
   "status": "partial",
   "theorems": [
    "C125_reads",
    "C125_only",
    "C125_routers",
    "C125_crash_refuted",
    "C125_signed_refuted",
    "C125_unchecked_refuted"
   ],
   "note": "Byte-level SU3 parser proved both ways against the layout; the zip library is a parameter. Refuted: the checked message is a prefix as long as the signature, failed checks are only logged, an entry the zip library cannot open panics."
  },
  {
   "property": "C126",
   "status": "partial",
   "theorems": [
    "C126_asked",
    "C126_first",
    "C126_gives_up",
    "C126_ends",
    "C126_crash",
    "C126_few_refuted",
    "C126_when"
   ],
   "note": "For every sequence of random numbers and every answer. Refuted: with fewer than five servers that all fail the loop never ends (and with none it panics)."
  },
  {
   "property": "C127",
   "status": "partial",
   "theorems": [
    "C127_inside",
    "C127_saved",
    "C127_missing_dir_refuted"
   ],
   "note": "C127_inside, C127_saved; refuted part: directories missing after an interrupted first start are never made."
  },
  {
   "property": "C128",
   "status": "partial",
   "theorems": [
    "C128_round",
    "C128_no_info",
    "C128_path_refuted"
   ],
   "note": "C128_round and C128_no_info for base paths without profile- or .toml; refuted for the others."
  },
  {
   "property": "C129",
   "status": "proved",
   "theorems": [
    "C129_kept",
    "C129_lengths"
   ],
   "note": "Over all lives; hypotheses: no directory where a key should be, fresh keys have their lengths."
  },
  {
   "property": "C130",
   "status": "partial",
   "theorems": [
    "C130_used",
    "C130_invalid",
    "C130_first_args_refuted",
    "C130_text_refuted",
    "C130_crash_refuted"
   ],
   "note": "C130_used and C130_invalid over all lives; refuted: first command line, unreadable file, interrupted first start."
  },
  {
   "property": "C131",
   "status": "partial",
   "theorems": [
    "C131_only_own_ports",
    "C131_upnp_protocols",
    "C131_upnp_all_needed",
    "C131_nat_pmp_udp_refuted",
    "C131_nat_pmp_renewed"
   ],
   "note": "UPnP: exactly the needed (protocol, port) pairs, all of them once its loop is reached; NAT-PMP: only own ports, renewed. Refuted for NAT-PMP: SSU2's port is asked for as TCP, a UDP mapping is never asked for (nat_pmp.rs:180-207)."
  },
  {
   "property": "C132",
   "status": "partial",
   "theorems": [
    "C132_shutdown_returns",
    "C132_nothing_left",
    "C132_shutdown_ends",
    "C132_refused_mapping_refuted",
    "C132_dropped"
   ],
   "note": "Return of shutdown and removal of every permanent mapping proved for every run that ends; refuted after a refused mapping: the task panics (the finished request is polled again) and the port mapped before stays for ever. That remove_port returns is assumed."
  },
  {
   "property": "C133",
   "status": "partial",
   "theorems": [
    "C133_only_changes",
    "C133_from_gateway",
    "C133_latest",
    "C133_nat_pmp_pace",
    "C133_upnp_pace_refuted"
   ],
   "note": "Only changes, only the gateway's addresses, latest answer told: proved for both. Pace: proved for NAT-PMP, refuted for UPnP (upnp.rs:298-320 does not set the timer again, so the loop asks without pause)."
  },
  {
   "property": "C134",
   "status": "partial",
   "theorems": [
    "C134_off",
    "C134_only_enabled",
    "C134_attempts",
    "C134_silence_falls_back",
    "C134_error_falls_back_refuted"
   ],
   "note": "Off, only enabled, value within fifteen seconds, fallback after silence: proved. Refuted for errors: the same finished future is polled again and panics, so there is no retry and no fallback."
  },
  {
   "property": "C135",
   "status": "partial",
   "theorems": [
    "C135_command_line_wins",
    "C135_file_otherwise",
    "C135_disabled",
    "C135_forwarding",
    "C135_forwarding_nat_pmp",
    "C135_rest_kept",
    "C135_idempotent",
    "C135_dropped_refuted"
   ],
   "note": "All nineteen settings; flags as clap hands them over. Refuted where the file lacks the section: HTTP proxy port alone, UPnP name, theme and refresh interval given on the command line are dropped silently."
  },
  {
   "property": "C136",
   "status": "proved",
   "theorems": [
    "C136_tunnels_distinct",
    "C136_as_written",
    "C136_first_start"
   ],
   "note": "Exact refusal, use as written, first start equal to the second (with the toml round trip of C130 as parameter)."
  },
  {
   "property": "C137",
   "status": "partial",
   "theorems": [
    "C137_kept",
    "C137_created",
    "C137_three_attempts",
    "C137_failed_write_refuted",
    "C137_cut_write_refuted"
   ],
   "note": "Proved for every life; refuted after a failed write (the next start has another destination) and an interrupted one (a part of the key, or nothing, is taken for the destination for ever)."
  },
  {
   "property": "C138",
   "status": "partial",
   "theorems": [
    "C138_never_lost",
    "C138_comes_back",
    "C138_apart",
    "C138_right_destination",
    "C138_accounted",
    "C138_one_at_a_time_refuted",
    "C138_no_session_refuted"
   ],
   "note": "Right destination, accounting, never lost, isolation proved. Refuted: a connection that arrives while another is carried is reset when that one ends; without a SAM session at the start no tunnel is ever served."
  },
  {
   "property": "C139",
   "status": "partial",
   "theorems": [
    "C139_unpublished_stays_hidden",
    "C139_right_addresses",
    "C139_some_address",
    "C139_any_port_refuted"
   ],
   "note": "Proved: unpublished transports stay hidden for every configuration; exact addresses when the sockets are bound to the configured ports. Refuted: with configured port 0 the router publishes port 0 after it learns its external address."
  },
  {
   "property": "C140",
   "status": "partial",
   "theorems": [
    "C140_capabilities",
    "C140_before_the_first",
    "C140_time",
    "C140_pace",
    "C140_apart",
    "C140_floodfill_refuted",
    "C140_stopping_untold_refuted"
   ],
   "note": "Proved: capabilities, time stamp, pace (first after 10 s, then every 15 min, never closer). Refuted: floodfill is not advertised if capabilities are configured (the default file has XR); told to stop, the router publishes nothing for up to 15 min, while the last transit tunnel ends after 10."
  },
  {
   "property": "C141",
   "status": "partial",
   "theorems": [
    "C141_one_session",
    "C141_first_session_partial",
    "C141_another_session_refuted",
    "C141_dialed_session_refuted",
    "C141_dialing_shuts_out_refuted",
    "C141_rejected_is_over",
    "C141_dialed_once"
   ],
   "note": "Proved: one active session per router in all histories; the first inbound session with an undialed router is accepted. Refuted, for all histories: there is never a second SSU2 session with a router; dialed SSU2 sessions are always rejected (they are reported under the own id); a router that was dialed over SSU2 never gets a session."
  },
  {
   "property": "C142",
   "status": "proved",
   "theorems": [
    "C142_closed_once",
    "C142_answers",
    "C142_a_minute"
   ],
   "note": "Proved over the life of a session: closed exactly once, exact answers, a minute, silence after that (dials that draw the same random id are excluded)."
  },
  {
   "property": "C143",
   "status": "partial",
   "theorems": [
    "C143_one_task",
    "C143_kept_for_ever_refuted",
    "C143_unbounded_refuted"
   ],
   "note": "Proved: one task per connection id. Refuted: nothing is ever removed from the socket's table; others can make it as large as they like without any session."
  },
  {
   "property": "C144",
   "status": "partial",
   "theorems": [
    "C144_in_order",
    "C144_results_in_order",
    "C144_served_when_polled_partial",
    "C144_not_woken_refuted",
    "C144_session_untold_refuted",
    "C144_told_in_order",
    "C144_sessions_told",
    "C144_handshakes_told_partial",
    "C144_next_served_partial"
   ],
   "note": "Order of service and of reports proved for every run; ended sessions are always told at the next turn of the executor, ended handshakes while no inbound handshake fails, connections when the last poll served none. That the task is always woken is refuted."
  },
  {
   "property": "C145",
   "status": "partial",
   "theorems": [
    "C145_goes_on_partial",
    "C145_accept_error_refuted",
    "C145_panic_refuted"
   ],
   "note": "Proved: failed handshakes, refused addresses and ended sessions never stop the transport. Refuted: one failure of accept, or a panic in one session, ends the transport and with it the router, from every state."
  }
 ]
}