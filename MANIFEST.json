{
 "claims": [
  {
   "property": "C01",
   "status": "proved",
   "theorems": [
    "C01_varint_round_trip",
    "C01_varint_no_room",
    "C01_varint_shortest",
    "C01_varint_decode_total",
    "C01_varint_long_form",
    "C01_varint_too_large_panics",
    "C01_short_form_corrupts_refuted"
   ],
   "note": "Round trip, shortest form and total decoding for every value below 2^62 and every byte string; the _refuted theorem and the panic theorem show what happens outside the documented range."
  },
  {
   "property": "C02",
   "status": "partial",
   "theorems": [
    "C02_int_round_trip",
    "C02_fixed_size_calls",
    "C02_calls_never_panic",
    "C02_failed_call_changes_nothing_partial",
    "C02_length_prefixed_read_moves_refuted"
   ],
   "note": "Round trips, exact success condition and memory safety for every sequence of calls; failing calls change nothing except the three length-prefixed reads, which is the _refuted finding."
  },
  {
   "property": "C03",
   "status": "proved",
   "theorems": [
    "C03_rangeset_exact",
    "C03_rangeset_capacity_irrelevant",
    "C03_rangeset_first_last"
   ],
   "note": "Range set equals the mathematical set, for inline and B-tree representations."
  },
  {
   "property": "C04",
   "status": "proved",
   "theorems": [
    "C04_rangeset_bounded",
    "C04_small_capacity_panics_refuted",
    "C04_eviction_keeps_new_smallest_refuted"
   ],
   "note": "Bounded size; the two _refuted theorems are findings about capacities 1..3 and about which range is evicted."
  },
  {
   "property": "C05",
   "status": "proved",
   "theorems": [
    "C05_reads_are_prefix",
    "C05_reads_come_from_frames",
    "C05_recv_never_panics"
   ],
   "note": "All histories of frames, reads, resets, shutdowns and limit updates on one receive stream."
  },
  {
   "property": "C06",
   "status": "proved",
   "theorems": [
    "C06_arrived_bytes_are_returned",
    "C06_readable_iff_read_progresses",
    "C06_readable_len_is_contiguous_run",
    "C06_fin_on_duplicate_frame_is_lost_refuted",
    "C06_reset_after_fin_is_not_reported_refuted"
   ],
   "note": "Arrived bytes are returned, readable iff a read progresses. The two _refuted theorems are findings: a FIN on a fully duplicate frame and a reset after the final size are never reported to the application."
  },
  {
   "property": "C07",
   "status": "proved",
   "theorems": [
    "C07_one_final_size",
    "C07_C08_frame_accepted_exactly_when_legal",
    "C07_reset_accepted_exactly_when_legal"
   ],
   "note": "Exact acceptance condition of STREAM and RESET_STREAM frames with respect to final size."
  },
  {
   "property": "C08",
   "status": "proved",
   "theorems": [
    "C07_C08_frame_accepted_exactly_when_legal",
    "C08_accepted_data_below_limit"
   ],
   "note": "Exact acceptance condition with respect to the stream limit."
  },
  {
   "property": "C09",
   "status": "proved",
   "theorems": [
    "C09_no_delivery_after_stop",
    "C09_credit_each_byte_once",
    "C09_empty_frames_charged_repeatedly_refuted"
   ],
   "note": "Credit and charge once per byte for histories without empty non-FIN frames; the _refuted theorem shows why these must be excluded."
  },
  {
   "property": "C10",
   "status": "proved",
   "theorems": [
    "C10_conn_frames",
    "C10_frames_carry_written_bytes",
    "C10_send_never_panics"
   ],
   "note": "All histories of writes, sends, losses, acknowledgements, limits, STOP_SENDING and shutdowns on one send stream."
  },
  {
   "property": "C11",
   "status": "proved",
   "theorems": [
    "C11_conn_limit",
    "C11_never_beyond_limit",
    "C11_write_accepts_what_fits"
   ],
   "note": "Nothing accepted or sent beyond the largest limit; exact amount accepted by each write."
  },
  {
   "property": "C12",
   "status": "partial",
   "theorems": [
    "C12_conn_fin",
    "C12_conn_reset",
    "C12_conn_after_end",
    "C12_fin_only_at_the_end",
    "C12_no_bytes_after_fin_or_reset",
    "C12_one_final_size_sent",
    "C12_reset_final_size",
    "C12_fin_is_sent_partial",
    "C12_fin_rides_on_last_byte",
    "C12_fin_never_sent_refuted",
    "C12_fin_after_loss_never_sent_refuted",
    "C12_fin_after_reset_refuted"
   ],
   "note": "Holds for every history in which the stream was not reset; the _refuted theorems are findings: a FIN frame at a truncated offset follows a local shutdown, and two histories in which a written FIN is never sent."
  },
  {
   "property": "C13",
   "status": "partial",
   "theorems": [
    "C13_lost_data_is_resent",
    "C13_no_room_stalls_stream_refuted",
    "C13_lost_fin_not_resent_refuted"
   ],
   "note": "Every lost unacknowledged byte is sent again unless a turn without room for the frame header removed the stream from the send queue; that stall and a lost FIN that is never re-sent are the _refuted findings."
  },
  {
   "property": "C14",
   "status": "proved",
   "theorems": [
    "C14_conn_over",
    "C14_collected_means_all_acked",
    "C14_collectable_iff_all_acked",
    "C14_complete_exactly_when",
    "C14_collected_before_fin_acked_refuted"
   ],
   "note": "Exact condition, for streams that were cut short and for those that were not; the FIN itself need not be acknowledged (_refuted finding)."
  },
  {
   "property": "C15",
   "status": "partial",
   "theorems": [
    "C15_receiver_never_rejects",
    "C15_reads_are_prefix_of_writes",
    "C15_fin_means_everything_read",
    "C15_everything_written_arrives",
    "C15_truncated_stream_ends_cleanly_refuted"
   ],
   "note": "Sender, receiver and an arbitrary network: no rejection, prefix, FIN only after everything, and eventual delivery. FIN-means-everything is proved for streams that were not reset; the _refuted theorem shows it fails after a local shutdown."
  },
  {
   "property": "C16",
   "status": "proved",
   "theorems": [
    "C16_stream_limits_never_shrink",
    "C16_connection_limits_never_shrink",
    "C16_connection_window_bounded"
   ],
   "note": "Stream and connection limits, including autotuning."
  },
  {
   "property": "C17",
   "status": "proved",
   "theorems": [
    "C17_blocked_stream_is_unblocked",
    "C17_blocked_connection_is_unblocked",
    "C17_one_byte_window_never_grows_refuted"
   ],
   "note": "For windows of at least two bytes; the _refuted theorem shows a one byte window never grows."
  },
  {
   "property": "C18",
   "status": "proved",
   "theorems": [
    "C18_datagrams_in_order",
    "C18_nothing_lost",
    "C18_bounded_and_counted",
    "C18_push_iff_room",
    "C18_purge_exact",
    "C18_newest_kept",
    "C18_packing",
    "C18_send_iff",
    "C18_peek_exact",
    "C18_recv_exact",
    "C18_empty_capacity_rejects_frame_refuted",
    "C18_short_read_loses_datagram_refuted"
   ],
   "note": "Both datagram queues over any history of calls; the _refuted theorems are findings about a receive queue of size 0 and about a short dgram_recv buffer."
  },
  {
   "property": "C19",
   "status": "proved",
   "theorems": [
    "C19_packet_number_round_trip",
    "C19_too_far_is_an_error"
   ],
   "note": "For numbers less than 2^31-1 above the largest acknowledged; further away encoding is shown to fail instead of sending a wrong number."
  },
  {
   "property": "C20",
   "status": "proved",
   "theorems": [
    "C20_window_exact",
    "C20_accepted_once",
    "C20_duplicate_iff",
    "C20_window_large_jump_refuted"
   ],
   "note": "Exact window semantics and at-most-once acceptance over any history of a packet number space with numbers below 2^62; the _refuted theorem shows the raw window is wrong for jumps of 2^32 or more, which the decoder never makes."
  },
  {
   "property": "C21",
   "status": "proved",
   "theorems": [
    "C21_never_panics",
    "C21_acks_only_received",
    "C21_next_ack_covers",
    "C21_ack_built_iff"
   ],
   "note": "ACK frames over any history of receptions, ACKs sent and ACKs acknowledged: soundness, bound, and exactly when a received number may be missing."
  },
  {
   "property": "C22",
   "status": "proved",
   "theorems": [
    "C22_ack_round_trip",
    "C22_ack_parsed_well_formed",
    "C22_encode_panics"
   ],
   "note": "Round trip for every legal range set, delay, ECN counts and following bytes; parsed ranges are always well formed. C22_encode_panics shows what happens outside the precondition."
  },
  {
   "property": "C23",
   "status": "proved",
   "theorems": [
    "C23_frame_round_trip",
    "C23_frame_encoding",
    "C23_header_encoding"
   ],
   "note": "Every frame type, at any place of any buffer, with any following bytes; also the headers written apart from their data."
  },
  {
   "property": "C24",
   "status": "proved",
   "theorems": [
    "C24_decode_total",
    "C24_decode_iff",
    "C24_payload_iff",
    "C24_not_permitted",
    "C24_permitted_accepted_refuted"
   ],
   "note": "Never panics; decoding is exactly the RFC grammar restricted to the packets of Table 3. The _refuted theorem is a finding: CONNECTION_CLOSE is rejected in 0-RTT packets."
  },
  {
   "property": "C25",
   "status": "proved",
   "theorems": [
    "C25_stream_end",
    "C25_crypto_end",
    "C25_crypto_decode_refuted"
   ],
   "note": "STREAM frames by the decoder; CRYPTO frames by the check that opens their processing (the decoder alone does not bound them, _refuted theorem)."
  },
  {
   "property": "C26",
   "status": "proved",
   "theorems": [
    "C26_header_round_trip",
    "C26_first_byte",
    "C26_decode_iff",
    "C26_decode_total",
    "C26_cid_limit",
    "C26_version_negotiation_round_trip",
    "C26_retry_round_trip",
    "C26_packet_round_trip",
    "C26_open_never_panics"
   ],
   "note": "All header types: round trip, exact grammar, totality, connection ID limit, Version Negotiation, Retry, and whole packets under stated assumptions on the AEAD and the header protection mask."
  },
  {
   "property": "C27",
   "status": "proved",
   "theorems": [
    "C27_header_protection_round_trip"
   ],
   "note": "For any mask function that returns five bytes; header protection is undone exactly and touches only the packet number and the low bits of the first byte."
  },
  {
   "property": "C28",
   "status": "proved",
   "theorems": [
    "C28_nonce_injective",
    "C28_nonce_defined",
    "C28_nonces_never_repeat"
   ],
   "note": "Injectivity of the nonce for all 64 bit packet numbers, and no nonce repeated over any history of fewer than 2^63 packets."
  },
  {
   "property": "C29",
   "status": "partial",
   "theorems": [
    "C29_round_trip",
    "C29_config_never_panics",
    "C29_zero_exponent_refuted",
    "C29_config_rejected_refuted",
    "C29_fits_refuted"
   ],
   "note": "Round trip for both roles for every legal parameter set; no configuration makes the encoder panic. The _refuted theorems are findings: zero ACK delay exponent or delay is silently replaced by the default, setters accept values every peer rejects, and the 128 byte buffer is too small for an ordinary server using Retry and reset tokens. Missing: the property for those configurations, of which it is false."
  },
  {
   "property": "C30",
   "status": "proved",
   "theorems": [
    "C30_decode_iff",
    "C30_decode_total",
    "C30_duplicates_rejected",
    "C30_bad_value_rejected",
    "C30_decoded_in_range",
    "C30_unknown_bounded",
    "C30_trailing_bytes_refuted"
   ],
   "note": "Decoding is exactly: distinct acceptable parameters; the result says what they say. The _refuted theorem is a finding: bytes after the integer of a value, a value in disable_active_migration and connection ids over 20 bytes are accepted."
  },
  {
   "property": "C40",
   "status": "proved",
   "theorems": [
    "C40_received_total_within_limit",
    "C40_excess_frame_rejected",
    "C40_received_count_exact",
    "C40_recv_never_panics",
    "C40_empty_frames_exhaust_connection_refuted"
   ],
   "note": "Connection receive limit over any set of streams, any history; _refuted theorem is the empty frame finding."
  },
  {
   "property": "C66",
   "status": "proved",
   "theorems": [
    "C66_numbers_increase",
    "C66_never_panics",
    "C66_skipped_never_sent",
    "C66_watched_until_validated",
    "C66_optimistic_ack_rejected",
    "C66_honest_ack_accepted",
    "C66_ack_beyond_rejected",
    "C66_unsent_ack_rejected_refuted"
   ],
   "note": "Any history of sends, ACKs and new paths; which packets an ACK newly acknowledges is left open, so the theorems hold whatever loss recovery did. The _refuted theorem is a finding about ACKs of packets that were not sent."
  },
  {
   "property": "C67",
   "status": "partial",
   "theorems": [
    "C67_cids_authenticated",
    "C67_unexpected_retry_cid_refuted"
   ],
   "note": "Exact condition under which the connection ids of the handshake are accepted. The _refuted theorem is a finding: a retry_source_connection_id is accepted although there was no Retry."
  },
  {
   "property": "C31",
   "status": "proved",
   "theorems": [
    "C31_numbers",
    "C31_again",
    "C31_active",
    "C31_limit",
    "C31_peer_limit",
    "C31_frame",
    "C31_frame_refuted",
    "C31_announced",
    "C31_announce_all",
    "C31_announce_all_refuted",
    "C31_retire_exact",
    "C31_retire_again_refuted",
    "C31_told",
    "C31_failed_call_refuted"
   ],
   "note": "All histories; the limit both as we count and as the peer counts when it gets a frame. The _refuted theorems are findings: retire_prior_to above the frame's own number after forced retirement, a failing forced call still retires, a repeated RETIRE_CONNECTION_ID can close the connection, and a lost NEW_CONNECTION_ID for a retired id blocks sending."
  },
  {
   "property": "C32",
   "status": "partial",
   "theorems": [
    "C32_active",
    "C32_accounted",
    "C32_only_offered",
    "C32_retired_not_used",
    "C32_retired_not_used_refuted",
    "C32_retire_prior_to",
    "C32_retire_prior_to_refuted",
    "C32_conflict_rejected",
    "C32_new"
   ],
   "note": "Limits, retire_prior_to, conflicts and accounting over all histories. Missing: never using a retired number again, and retire_prior_to, when a NEW_CONNECTION_ID frame arrives twice, of which they are false (_refuted theorems)."
  },
  {
   "property": "C33",
   "status": "proved",
   "theorems": [
    "C33_never_empty"
   ],
   "note": "Both directions, any history; nothing panics."
  },
  {
   "property": "C68",
   "status": "partial",
   "theorems": [
    "C68_paths_have_ids",
    "C68_retire_with_other",
    "C68_filled",
    "C68_retire_keeps_active",
    "C68_reuse_refuted",
    "C68_id_limit_refuted"
   ],
   "note": "All histories without reuse of an id after a peer migration and without a full queue of retirements; of those the property is false (_refuted theorems)."
  },
  {
   "property": "C34",
   "status": "proved",
   "theorems": [
    "C34_peer_opens",
    "C34_limit_grows",
    "C34_in_use",
    "C34_credit",
    "C34_credit_due"
   ],
   "note": "All histories of stream frames, calls, acknowledgements and losses, both kinds of stream; also how many streams the peer can have in use and what each new limit is."
  },
  {
   "property": "C35",
   "status": "proved",
   "theorems": [
    "C35_own_opens",
    "C35_left"
   ],
   "note": "All histories; also that the number of streams said to be left is exact."
  },
  {
   "property": "C36",
   "status": "proved",
   "theorems": [
    "C36_stays_over",
    "C36_frame_ignored",
    "C36_calls_fail"
   ],
   "note": "All histories; frames are ignored without any effect, calls fail, nothing more is sent for the stream."
  },
  {
   "property": "C38",
   "status": "proved",
   "theorems": [
    "C38_sum",
    "C38_nothing_waiting"
   ],
   "note": "All histories of stream frames, calls, acknowledgements and losses."
  },
  {
   "property": "C39",
   "status": "proved",
   "theorems": [
    "C39_send_limit",
    "C39_factor_refuted"
   ],
   "note": "All histories, with the configured capacity factor at most 1 (the default); the _refuted theorem is a finding: with a larger factor more is sent than the peer allows."
  },
  {
   "property": "C65",
   "status": "proved",
   "theorems": [
    "C65_sent",
    "C65_due",
    "C65_lost"
   ],
   "note": "All histories: sent only when configured and blocked, never lower than before, again only after a loss, and due at the next occasion."
  },
  {
   "property": "C72",
   "status": "proved",
   "theorems": [
    "C72_no_panic",
    "C72_factor_refuted"
   ],
   "note": "All histories, with the configured capacity factor at most 1; the _refuted theorem is a finding: with a larger factor a second write panics (debug) or wraps."
  },
  {
   "property": "C37",
   "status": "proved",
   "theorems": [
    "C37_best",
    "C37_served",
    "C37_round_robin",
    "C37_served_refuted"
   ],
   "note": "All histories in which no packet with 13 to 18 bytes left was offered to the streams; the _refuted theorem is a finding: such a packet can take a stream off the queue for good."
  },
  {
   "property": "C70",
   "status": "proved",
   "theorems": [
    "C70_readable",
    "C70_listed",
    "C70_order",
    "C70_writable",
    "C70_closed_stream_listed_refuted",
    "C70_reset_stream_listed_refuted"
   ],
   "note": "All histories. Listed by readable() implies readable for live streams never reset by the peer; the _refuted theorems are findings: a closed stream and a stream reset after its end stay listed."
  },
  {
   "property": "C71",
   "status": "proved",
   "theorems": [
    "C71_promise",
    "C71_capacity",
    "C71_next",
    "C71_next_none",
    "C71_finished_refuted",
    "C71_exact_room_refuted"
   ],
   "note": "All histories; the _refuted theorems are findings: true on a finished stream, and not reported again when the room is exactly the amount asked for."
  },
  {
   "property": "C47",
   "status": "proved",
   "theorems": [
    "C47_safe",
    "C47_finds_the_mtu",
    "C47_revalidation",
    "C47_revalidation_finds_larger_mtu_refuted"
   ],
   "note": "All histories of probes, acknowledgements and losses on a path with a fixed MTU; the _refuted theorem is a finding: revalidation never finds an MTU that grew."
  },
  {
   "property": "C48",
   "status": "proved",
   "theorems": [
    "C48_recent_minimum",
    "C48_exact_in_first_window",
    "C48_window_minimum_refuted"
   ],
   "note": "The reported value is a sample taken within the window, no newer sample is smaller, and it is the exact minimum within the first window; the _refuted theorem is a finding: it is not always the minimum of the window."
  },
  {
   "property": "C49",
   "status": "proved",
   "theorems": [
    "C49_min_rtt",
    "C49_max_rtt",
    "C49_smoothed_rtt",
    "C49_weights",
    "C49_granularity",
    "C49_smoothed_at_least_minimum_refuted"
   ],
   "note": "All sample sequences; smoothed value within 14 ns of the sample range because divisions round down; the _refuted theorem shows that slack is needed."
  },
  {
   "property": "C50",
   "status": "proved",
   "theorems": [
    "C50_no_panic",
    "C50_errors",
    "C50_bytes_in_flight"
   ],
   "note": "All histories of one path with Reno or CUBIC (legacy recovery): a ledger of packets explains every call, and the bytes in flight are those of the outstanding packets; no panic; the only error is the acknowledgement of a skipped packet number."
  },
  {
   "property": "C51",
   "status": "proved",
   "theorems": [
    "C51_frames_reported_once",
    "C51_lost_without_ack_refuted",
    "C51_lost_after_acked_refuted"
   ],
   "note": "All histories; lost reports are bounded by one plus the number of timeouts. The _refuted theorems are findings: packet 0 can be given up on a path change without any acknowledgement, and probe copies are reported lost after the frame was acknowledged."
  },
  {
   "property": "C52",
   "status": "partial",
   "theorems": [
    "C52_earliest_deadline_partial",
    "C52_armed_partial",
    "C52_probe_timeout",
    "C52_earliest_deadline_refuted",
    "C52_armed_refuted"
   ],
   "note": "The deadline theorem holds when the application space has a deadline and the Handshake space has one or the Initial space has none; the rest is refuted (None is less than Some): the missing part is false of the code. The timer runs while ack-eliciting packets are in flight, and the probe timeout is exact."
  },
  {
   "property": "C53",
   "status": "proved",
   "theorems": [
    "C53_window_bounds",
    "C53_reduction",
    "C53_two_datagrams_refuted",
    "C53_never_increased_by_loss_refuted"
   ],
   "note": "All histories; CUBIC growth uses an arbitrary oracle for the float formulas, bounded by one datagram per acknowledgement. The _refuted theorems are findings: the minimum uses the datagram size configured at the start."
  },
  {
   "property": "C54",
   "status": "proved",
   "theorems": [
    "C54_proportional",
    "C54_conservation",
    "C54_never_above_threshold"
   ],
   "note": "All sequences of acknowledgements and sends in one episode, for senders that respect the allowance."
  },
  {
   "property": "C73",
   "status": "proved",
   "theorems": [
    "C73_in_flight_duration"
   ],
   "note": "All event sequences."
  },
  {
   "property": "C74",
   "status": "proved",
   "theorems": [
    "C74_counters",
    "C74_lost_bytes_refuted"
   ],
   "note": "All histories; the _refuted theorem is a finding: the lost byte counter of the legacy recovery is never updated."
  },
  {
   "property": "C75",
   "status": "proved",
   "theorems": [
    "C75_probe",
    "C75_frames",
    "C75_count"
   ],
   "note": "All histories."
  },
  {
   "property": "C60",
   "status": "proved",
   "theorems": [
    "C60_decode",
    "C60_decode_total",
    "C60_encode",
    "C60_roundtrip",
    "C60_length",
    "C60_unique",
    "C60_canonical"
   ],
   "note": "All byte strings; decoding accepts exactly the codings of RFC 7541 (canonical code, padding of fewer than eight one bits, no EOS), with the length limit."
  },
  {
   "property": "C59",
   "status": "proved",
   "theorems": [
    "C59_encode",
    "C59_decode",
    "C59_decode_sound",
    "C59_roundtrip",
    "C59_total",
    "C59_truncated_refuted"
   ],
   "note": "All values and byte strings; the _refuted theorem is a finding: an integer above 64 bits in eleven bytes is decoded modulo 2^64."
  },
  {
   "property": "C61",
   "status": "proved",
   "theorems": [
    "C61_decode",
    "C61_decode_sound",
    "C61_encode",
    "C61_room",
    "C61_roundtrip",
    "C61_table",
    "C61_total",
    "C61_dynamic_refuted"
   ],
   "note": "All header lists and byte strings; field sections are described by RFC 9204's grammar without the dynamic table. The _refuted theorem is a finding: a section that needs the dynamic table is accepted."
  },
  {
   "property": "C62",
   "status": "proved",
   "theorems": [
    "C62_limit",
    "C62_exact",
    "C62_bad_huffman_refuted"
   ],
   "note": "All byte strings and limits, and the limit is exact; the _refuted theorem is a finding: invalid Huffman coding is reported as a section that is too large."
  },
  {
   "property": "C55",
   "status": "proved",
   "theorems": [
    "C55_decode",
    "C55_decode_sound",
    "C55_settings",
    "C55_settings_load",
    "C55_total",
    "C55_encode",
    "C55_roundtrip",
    "C55_trailing_refuted",
    "C55_truncated_refuted"
   ],
   "note": "All frames and payloads: what is written is one frame of the grammar and reads back; what is parsed was in the grammar. The _refuted theorems are findings: bytes after the integer of GOAWAY, CANCEL_PUSH and MAX_PUSH_ID are ignored, and a truncated payload is reported with the unregistered code 0x999."
  },
  {
   "property": "C56",
   "status": "proved",
   "theorems": [
    "C56_prefix",
    "C56_complete",
    "C56_same",
    "C56_data_event_refuted",
    "C56_finished_once_refuted",
    "C56_body_lost_refuted"
   ],
   "note": "All histories of arrivals, polls, reads, resets and requests on any number of streams: what the application got is a prefix of what the bytes say, all of it once they are read, and hence the same for every way of cutting them. Requires that no call failed and the stream was not reset; the _refuted theorems are findings: a Data event is lost after an empty DATA frame, the end can be reported twice, and bytes copied before a malformed frame are lost."
  },
  {
   "property": "C57",
   "status": "proved",
   "theorems": [
    "C57_order",
    "C57_sections",
    "C57_sequence",
    "C57_settings_once",
    "C57_settings_first",
    "C57_truncated_refuted",
    "C57_untyped_stream_refuted",
    "C57_response_order_refuted",
    "C57_one_section_refuted",
    "C57_server_bidi_refuted",
    "C57_http2_frames_refuted",
    "C57_push_promise_refuted",
    "C57_priority_id_refuted"
   ],
   "note": "All histories and streams opened by the peer; the _refuted theorems are findings about streams the endpoint opened itself, repeated header sections, truncated frames and streams, and reserved frame types."
  },
  {
   "property": "C58",
   "status": "proved",
   "theorems": [
    "C58_received",
    "C58_limit"
   ],
   "note": "All histories: the buffer is never larger than the limit of the frame being read nor than what was received, and the allocation is proportional to what was received."
  },
  {
   "property": "C63",
   "status": "proved",
   "theorems": [
    "C63_received",
    "C63_event",
    "C63_no_request",
    "C63_code_refuted",
    "C63_sent_frames",
    "C63_sent",
    "C63_refused",
    "C63_large_id_refuted"
   ],
   "note": "All histories of received and of sent GOAWAY frames, and no request after one was received. The _refuted theorems are findings: the code sent to the peer differs from the error returned, and an id of 2^62 or more panics."
  },
  {
   "property": "C76",
   "status": "proved",
   "theorems": [
    "C76_poll",
    "C76_body",
    "C76_early_body_refuted",
    "C76_draining_refuted"
   ],
   "note": "All histories on a connection that the transport has not closed; the _refuted theorems are findings: poll can loop forever once the peer has closed the connection, and reading a stream known only from a priority update loses its request."
  },
  {
   "property": "C77",
   "status": "proved",
   "theorems": [
    "C77_frames",
    "C77_order",
    "C77_end",
    "C77_closed",
    "C77_received",
    "C77_complete",
    "C77_no_panic",
    "C77_settings_cut_refuted",
    "C77_late_headers_refuted",
    "C77_blocked_silent_refuted",
    "C77_empty_request_refuted"
   ],
   "note": "All histories of calls and of transport events, with settings that fit; end to end against the model of the receiving endpoint, for header sections within its limit. The _refuted theorems are findings: a truncated SETTINGS frame is sent if the control stream has little room, header sections after the body, GREASE frames written by a call that fails, and requests without fields."
  },
  {
   "property": "C41",
   "status": "partial",
   "theorems": [
    "C41_packets_partial",
    "C41_new_path_partial",
    "C41_datagrams_partial",
    "C41_padding_refuted",
    "C41_replay_refuted"
   ],
   "note": "All histories of a server: packets are within the limit if the bytes of 0-RTT packets are counted twice, whole datagrams if in addition no Initial packet goes to the address. The whole claim (amplification_limited) is false of the code, see the _refuted theorems: the padding of datagrams with an Initial packet is not charged, and a 0-RTT packet held for its key is credited twice."
  },
  {
   "property": "C42",
   "status": "proved",
   "theorems": [
    "C42_closed",
    "C42_draining",
    "C42_drained",
    "C42_deaf",
    "C42_error",
    "C42_once",
    "C42_fatal",
    "C42_reported",
    "C42_no_panic",
    "C42_early_close_refuted"
   ],
   "note": "All histories of recv, send, timeouts, close, probing and migration. The _refuted theorem is a finding: a client closing with an application error in early data never reports it."
  },
  {
   "property": "C43",
   "status": "proved",
   "theorems": [
    "C43_early",
    "C43_acts",
    "C43_early_refuted",
    "C43_closed_refuted"
   ],
   "note": "All reachable connections that are not closed and are draining or have an active path; acting in time needs no such condition. The _refuted theorems are findings: without an active path, and once closed, on_timeout acts although no timer asks for it."
  },
  {
   "property": "C44",
   "status": "proved",
   "theorems": [
    "C44_value",
    "C44_only",
    "C44_expires",
    "C44_kept"
   ],
   "note": "All settings and histories; a packet processed keeps the connection for at least the agreed time whatever follows."
  },
  {
   "property": "C45",
   "status": "proved",
   "theorems": [
    "C45_validated",
    "C45_reported",
    "C45_failed",
    "C45_silent_failure_refuted"
   ],
   "note": "All histories since there was no path to the address. A failed path stays failed until a challenge is sent to it, with a clock that does not go back. The _refuted theorem is a finding: a second failure of a path is not reported."
  },
  {
   "property": "C46",
   "status": "proved",
   "theorems": [
    "C46_once",
    "C46_there",
    "C46_bounded",
    "C46_answered",
    "C46_lost_refuted"
   ],
   "note": "All histories; for the address the challenge came from, if no 0-RTT packet carries it. The _refuted theorem is a finding: a challenge whose answer does not fit is dropped."
  },
  {
   "property": "C78",
   "status": "proved",
   "theorems": [
    "C78_paths",
    "C78_two_active_refuted",
    "C78_none_active_refuted"
   ],
   "note": "All histories. The _refuted theorems are findings: there can be two active paths, and none after a migration to a path that failed."
  },
  {
   "property": "C79",
   "status": "proved",
   "theorems": [
    "C79_retire",
    "C79_stuck_refuted"
   ],
   "note": "All connections. The _refuted theorem is a finding: no path is made active, and the next packet received closes the connection."
  },
  {
   "property": "C64",
   "status": "proved",
   "theorems": [
    "C64_in_step",
    "C64_authentic",
    "C64_forged",
    "C64_twice",
    "C64_discarded",
    "C64_honest",
    "C64_no_error",
    "C64_unconfirmed_update_refuted",
    "C64_unconfirmed_client_refuted"
   ],
   "note": "All histories, with an ideal AEAD: against any peer for safety, and against an honest peer over a network that loses, repeats, delays and forges packets for liveness. The _refuted theorems are findings: an update is taken although nothing was sent since the last, and a client that has not confirmed the handshake does not follow an update and then drops everything."
  },
  {
   "property": "C69",
   "status": "partial",
   "theorems": [
    "C69_vn",
    "C69_vn_error",
    "C69_retry",
    "C69_once",
    "C69_version",
    "C69_server_version",
    "C69_vn_first",
    "C69_retry_partial",
    "C69_ids",
    "C69_late_retry_refuted",
    "C69_vn_after_retry_refuted",
    "C69_useless_retry_refuted"
   ],
   "note": "All sequences of packets, including forged ones. At most one Retry and one Version Negotiation packet are followed and only when valid; the latter only before any packet is processed. Missing for Retry (first by_retry), and false of the code: that it is followed only before any packet is processed. The _refuted theorems are findings."
  },
  {
   "property": "C80",
   "status": "proved",
   "theorems": [
    "C80_reset",
    "C80_reset_code",
    "C80_stop",
    "C80_stop_code",
    "C80_max_streams",
    "C80_max_data",
    "C80_max_stream_data",
    "C80_one_reset_code_refuted"
   ],
   "note": "All histories. The _refuted theorem is a finding: a stream can be reset with one error code and then with another."
  },
  {
   "property": "C81",
   "status": "proved",
   "theorems": [
    "C81_new_cid",
    "C81_retire",
    "C81_retire_forgotten_refuted"
   ],
   "note": "All histories; for retirements those in which no frame was refused and no lost frame found the queue of retirements full, since then the property is false (_refuted finding: send fails and the retirement is forgotten)."
  },
  {
   "property": "C82",
   "status": "proved",
   "theorems": [
    "C82_none_survives",
    "C82_refused",
    "C82_none_after",
    "C82_left_alone",
    "C82_no_leak",
    "C82_no_panic",
    "C82_signal_before_last_abort_refuted",
    "C82_tombstone_left_refuted"
   ],
   "note": "All interleavings, any number of shards; once the switch is pulled and the thread is done. The _refuted theorems are findings: the thread can signal completion before the last task is told to abort (its spawn has not returned), and a marker can stay in the registry for ever."
  },
  {
   "property": "C83",
   "status": "proved",
   "theorems": [
    "C83_datagram_step",
    "C83_datagram_readable",
    "C83_datagram_prefix_round_trip",
    "C83_consume_step",
    "C83_consume_readable",
    "C83_consume_reuse",
    "C83_expand_shows_old_bytes_refuted",
    "C83_expand_shrinks_refuted",
    "C83_expand_unreadable_refuted",
    "C83_truncate_overflow_refuted"
   ],
   "note": "All histories of both kinds of buffer, with sums that fit in usize and expand not below the consumed part, since otherwise the property is false. The _refuted theorems are findings: expand makes old bytes of an earlier user readable, can shorten the buffer, and can leave it unreadable; truncate overflows."
  },
  {
   "property": "C84",
   "status": "proved",
   "theorems": [
    "C84_bounded",
    "C84_one_owner",
    "C84_clean",
    "C84_no_panic",
    "C84_exact_when_quiet",
    "C84_kept",
    "C84_thrown_away_refuted",
    "C84_small_limit_refuted"
   ],
   "note": "All interleavings of atomic steps. The _refuted theorems are findings: a buffer can be thrown away although its shard is empty, and a pool with a limit below its number of shards stores nothing."
  },
  {
   "property": "C85",
   "status": "proved",
   "theorems": [
    "C85_best",
    "C85_no_panic",
    "C85_estimates",
    "C85_held",
    "C85_refreshed",
    "C85_exact_maximum_refuted",
    "C85_time_backwards_refuted"
   ],
   "note": "All sequences. The _refuted theorems are findings: the best is not the maximum of the window, and a sample with an earlier time panics."
  },
  {
   "property": "C86",
   "status": "proved",
   "theorems": [
    "C86_bytes_exact",
    "C86_time_exact",
    "C86_never_more",
    "C86_rate_exact",
    "C86_monotone",
    "C86_rate_instant",
    "C86_difference",
    "C86_rate_overflow_refuted",
    "C86_slow_rate_refuted",
    "C86_zero_rate_refuted"
   ],
   "note": "All finite rates and all representable times; measuring a rate for amounts whose bits times a billion fit in 64 bits, since otherwise it panics (_refuted finding). Other findings: a slow rate is rounded up to one bit per second, and at rate zero every transfer takes no time. Products with floating point numbers are not modelled."
  },
  {
   "property": "C87",
   "status": "proved",
   "theorems": [
    "C87_counts",
    "C87_sample",
    "C87_not_too_high",
    "C87_limited_never_lowers",
    "C87_no_panic",
    "C87_send_start",
    "C87_limit_lasts",
    "C87_late_acknowledgment_refuted",
    "C87_limited_mark_other_space_refuted"
   ],
   "note": "All histories in which time does not run backwards; samples for acknowledgments that cover a packet newer than all acknowledged before, since for others the property is false (_refuted finding: a late acknowledgment of old packets inflates the rate). Another finding: packet numbers of different spaces are compared."
  },
  {
   "property": "C88",
   "status": "proved",
   "theorems": [
    "C88_never_fails",
    "C88_never_in_the_past",
    "C88_no_faster",
    "C88_maximum_rate_kept",
    "C88_no_burst_after_loss",
    "C88_burst_within_window",
    "C88_slow_sends_single",
    "C88_bursts_of_two",
    "C88_same_time",
    "C88_any_maximum_kept_refuted",
    "C88_released_in_order_refuted"
   ],
   "note": "Refuted: a maximum of zero removes pacing instead of stopping it; a packet that finds nothing in flight may be released before an earlier one. The maximum pacing rate is read only by the BBR2 recovery: with the other controllers it has no effect."
  },
  {
   "property": "C89",
   "status": "proved",
   "theorems": [
    "C89_errors",
    "C89_bytes_in_flight",
    "C89_frames_reported_once",
    "C89_thresholds",
    "C89_counters",
    "C89_probe",
    "C89_earliest_deadline_partial",
    "C89_lost_bytes_refuted",
    "C89_lost_count_refuted",
    "C89_spurious_at_most_lost_refuted",
    "C89_lost_without_ack_refuted",
    "C89_lost_after_acked_refuted",
    "C89_earliest_deadline_refuted"
   ],
   "note": "Packets 0 given up without an acknowledgement and frames reported lost after being acknowledged occur as in C51. Refuted: the count of lost bytes is never updated; losses at a change of path are not counted; spurious losses can exceed losses; and a deadline in an earlier space can be hidden, so C89_earliest_deadline_partial covers only the cases in which it is not."
  },
  {
   "property": "C90",
   "status": "proved",
   "theorems": [
    "C90_totals",
    "C90_no_panic",
    "C90_sample",
    "C90_sample_avoidance",
    "C90_event",
    "C90_event_rest",
    "C90_extra",
    "C90_candidates",
    "C90_no_fix_refuted",
    "C90_lost_within_sent_refuted",
    "C90_start_before_epoch_refuted"
   ],
   "note": "The bytes sent in any history are bounded by what fits in 64 bits in nanobits per second (C86). Refuted: without the fix a sample can start after its packet was sent; bytes lost can exceed bytes sent, since packets without stream data are counted only when lost; the start saved when a new aggregation epoch begins is not from before it when one event acknowledges several packets."
  },
  {
   "property": "C91",
   "status": "proved",
   "theorems": [
    "C91_bandwidth_kept",
    "C91_bandwidth_app",
    "C91_bandwidth_seen",
    "C91_bandwidth_forgotten",
    "C91_bandwidth_stays_without_samples",
    "C91_rounds",
    "C91_losses",
    "C91_min_rtt",
    "C91_lower_bounds",
    "C91_bound_steady",
    "C91_full",
    "C91_reach",
    "C91_growth",
    "C91_no_panic"
   ],
   "note": "Products with floating-point parameters are function arguments. Only the default way of lowering the bounds is modelled. Without a counted sample the filter keeps the old maximum however often it moves on (C91_bandwidth_stays_without_samples)."
  },
  {
   "property": "C92",
   "status": "proved",
   "theorems": [
    "C92_event",
    "C92_within",
    "C92_limit",
    "C92_growth",
    "C92_others",
    "C92_can_send",
    "C92_pacing",
    "C92_startup_pacing",
    "C92_no_panic",
    "C92_always_can_send_refuted",
    "C92_initial_within_greatest_refuted",
    "C92_limit_at_once_refuted"
   ],
   "note": "What the modes and the network model decide is an argument of each event, so the theorems hold for any decision. Findings: the greatest window does not bound the initial one, a limit of the pacer binds only at the next event, and a limit of 0 stops the sender until it changes (three _refuted theorems)."
  },
  {
   "property": "C93",
   "status": "proved",
   "theorems": [
    "C93_no_panic",
    "C93_startup",
    "C93_order",
    "C93_event",
    "C93_filter",
    "C93_cycle",
    "C93_probe_rtt",
    "C93_bound",
    "C93_startup_exit",
    "C93_drain_exit",
    "C93_quiet",
    "C93_quiet_ends",
    "C93_quiet_begins",
    "C93_going_up",
    "C93_going_down",
    "C93_probe_rtt_ends_refuted"
   ],
   "note": "What the modes ask the network model, and what they compute in floating point, is an argument of each event. Gains, lower bounds and exit statistics are left out. Only C93_filter needs times that do not go back."
  }
 ]
}