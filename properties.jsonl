{"id": "C01", "title": "Varint encoding round-trips", "statement": "Writing any value below 2^62 with put_varint into a large enough buffer and reading it back with get_varint yields the same value, consumes exactly the bytes written, uses exactly varint_len bytes, and no shorter QUIC encoding of the value exists. Arbitrary bytes decode either to a value below 2^62 or to BufferTooShort, and the reader never moves past the end of the buffer.", "quantifier": "every u64 value below 2^62, every trailing byte string, every input byte string", "why_tests_cant": "2^62 values times arbitrary following bytes; tests sample a dozen literals.", "anchors": ["octets/src/lib.rs: Octets::get_varint, OctetsMut::put_varint, put_varint_with_len, varint_len, varint_parse_len"]}
{"id": "C02", "title": "Fixed-width integers round-trip and buffers are never overrun", "statement": "put_u8/u16/u24/u32/u64 followed by the matching get returns the value, and every read or write on a cursor either succeeds inside the buffer or returns BufferTooShort leaving the cursor unchanged.", "quantifier": "every integer of each width, every buffer and cursor position", "why_tests_cant": "All offsets times all buffer sizes times all values.", "anchors": ["octets/src/lib.rs: get_u!, put_u!, get_bytes, put_bytes, skip, rewind"]}
{"id": "C03", "title": "Range sets represent exactly the union of what was inserted", "statement": "After any sequence of inserts and remove_until calls that stays within capacity, the set contains exactly the numbers that were inserted and not removed; iteration yields disjoint, non-adjacent ranges in increasing order; len, first, last agree with that set.", "quantifier": "every sequence of insert/push_item/remove_until operations of any length and any range values", "why_tests_cant": "Overlap cases multiply with history and with the inline/tree representation switch.", "anchors": ["quiche/src/ranges.rs: RangeSet, InlineRangeSet::insert, BTreeRangeSet::insert, remove_until, iter, flatten, first, last"]}
{"id": "C04", "title": "Range set size never exceeds its capacity and never panics", "statement": "A range set created with capacity c never holds more than c ranges, and insertion never panics.", "quantifier": "every capacity, every operation sequence", "why_tests_cant": "The eviction path runs only for particular histories; the ack set of a connection faces an adversarial history.", "anchors": ["quiche/src/ranges.rs: RangeSet::new, InlineRangeSet::insert, BTreeRangeSet::insert"]}
{"id": "C05", "title": "Stream receive buffer delivers the sent bytes in order, once, with no gaps", "statement": "If every STREAM frame received for a stream carries bytes of one underlying byte string at their true offsets, then for any arrival order, duplication, overlap, splitting and any interleaving with reads of any size, the concatenation of everything the application reads is a prefix of that byte string.", "quantifier": "every byte string, every finite sequence of frames cut from it, every interleaving with reads", "why_tests_cant": "Unboundedly many overlap/reorder patterns interleaved with reads.", "anchors": ["quiche/src/stream/recv_buf.rs: RecvBuf::write, emit, emit_or_discard", "quiche/src/range_buf.rs: RangeBuf"]}
{"id": "C06", "title": "A stream is readable exactly when a read would make progress", "statement": "Once all bytes below some offset have arrived, reads return all of them; stream_readable is true exactly when the next read returns data, the final-size signal, or the reset error, and readable_len equals the contiguous prefix available.", "quantifier": "every history of frame arrivals and reads", "why_tests_cant": "The ready predicate depends on the whole arrival history.", "anchors": ["quiche/src/stream/recv_buf.rs: RecvBuf::ready, readable_len, emit_or_discard, is_fin"]}
{"id": "C07", "title": "The final size of a stream is immutable and enforced", "statement": "Once a FIN or RESET_STREAM fixed the final size, any later frame with data beyond it, or with a different final size, is rejected with FinalSize; a final size below data already received is rejected; an accepted history has a single final size.", "quantifier": "every sequence of STREAM and RESET_STREAM frames", "why_tests_cant": "Violations depend on pairs of frames at unbounded distance in history.", "anchors": ["quiche/src/stream/recv_buf.rs: RecvBuf::write, reset"]}
{"id": "C08", "title": "The receiver never accepts stream data beyond the advertised limit", "statement": "A frame whose end offset exceeds the stream limit currently advertised is rejected with FlowControl and does not change the stream; the highest accepted offset is always at most the largest advertised limit.", "quantifier": "every sequence of frames, reads, limit updates", "why_tests_cant": "Limits move with the history of reads and window updates.", "anchors": ["quiche/src/stream/recv_buf.rs: RecvBuf::write, max_off", "quiche/src/flowcontrol.rs"]}
{"id": "C09", "title": "Reset and shutdown stop delivery and account each byte once", "statement": "After the application shuts down reading or the peer resets the stream, no further stream data is delivered; the bytes credited back to connection flow control over the stream's life never exceed the bytes received on it, and equal them once it is finished.", "quantifier": "every interleaving of frames, reads, resets and shutdowns on a stream", "why_tests_cant": "Credit double counting arises only for particular orders of reset, shutdown, read and late frames.", "anchors": ["quiche/src/stream/recv_buf.rs: RecvBuf::reset, shutdown, emit_or_discard", "quiche/src/lib.rs: process_frame ResetStream/Stream arms, do_stream_recv, stream_shutdown"]}
{"id": "C10", "title": "Every byte sent on a stream is the byte the application wrote at that offset", "statement": "Every STREAM payload emitted for a stream, at any time and including retransmissions, equals the slice of the concatenated application writes at the frame's offset.", "quantifier": "every sequence of writes, emissions of any size, acks, losses", "why_tests_cant": "Buffer splitting, partial emission and retransmission compose in unboundedly many ways.", "anchors": ["quiche/src/stream/send_buf.rs: SendBuf::write, emit, ack, ack_and_drop, retransmit", "quiche/src/range_buf.rs: RangeBuf::split_off, consume"]}
{"id": "C11", "title": "The sender never exceeds the peer's stream limit", "statement": "The end offset of every emitted STREAM frame is at most the largest MAX_STREAM_DATA received, and the amount accepted by a write is at most the remaining limit.", "quantifier": "every sequence of writes, limit updates, emissions, losses", "why_tests_cant": "Depends on all previous limits and writes.", "anchors": ["quiche/src/stream/send_buf.rs: SendBuf::reserve_for_write, cap, update_max_data, emit"]}
{"id": "C12", "title": "FIN is sent only with the last byte and exactly at the final size", "statement": "An emitted frame carries FIN only if the application finished the stream and the frame ends at the total number of bytes written; after finishing, no more data can be written.", "quantifier": "every history of a send stream", "why_tests_cant": "The FIN flag interacts with partial emission and retransmission.", "anchors": ["quiche/src/stream/send_buf.rs: SendBuf::write, emit, is_fin"]}
{"id": "C13", "title": "A lost stream frame is eventually re-sent unless acknowledged", "statement": "After a range is declared lost, every byte of it that has not been acknowledged is available for emission again, and emitting until the stream reports nothing left sends each of them; acknowledged bytes that were not in flight again are not sent.", "quantifier": "every history and every lost range", "why_tests_cant": "Retransmission bookkeeping depends on acks arriving before or after loss.", "anchors": ["quiche/src/stream/send_buf.rs: SendBuf::retransmit, emit, ready, ack_and_drop"]}
{"id": "C14", "title": "A stream's send side is complete only when everything is acknowledged", "statement": "A stream's send side is found complete (and the stream can be forgotten) exactly when the application finished it and every byte it wrote has been acknowledged, or when it was cut short by a shutdown or a STOP_SENDING, after which nothing that was sent needs to be acknowledged any more.", "quantifier": "every history of writes, turns to send, losses, resets and acknowledgements in any order and grouping", "why_tests_cant": "Ack ranges arrive in any order with overlaps.", "anchors": ["quiche/src/stream/send_buf.rs: SendBuf::is_complete, ack, ack_off"]}
{"id": "C15", "title": "End-to-end stream integrity over an arbitrary network", "statement": "Composing a quiche sender stream, a network that loses, reorders and duplicates packets arbitrarily, and a quiche receiver stream: what the receiving application reads is always a prefix of what the sending application wrote, and the receiver sees FIN only after reading all of it.", "quantifier": "every interleaving of writes, sends, losses, duplications, deliveries, reads", "why_tests_cant": "The network schedule space is infinite.", "anchors": ["quiche/src/stream/send_buf.rs", "quiche/src/stream/recv_buf.rs"]}
{"id": "C16", "title": "Flow control limits advertised to the peer never shrink", "statement": "The sequence of limits advertised for a stream or connection is non-decreasing, the window never exceeds its configured maximum unless forced by a larger stream window, and consumed never exceeds the limit when the peer respects it.", "quantifier": "every sequence of consumption, update, autotune and retransmission events at any times", "why_tests_cant": "Autotuning depends on timing and history.", "anchors": ["quiche/src/flowcontrol.rs: FlowControl", "quiche/src/lib.rs: send_single MAX_DATA/MAX_STREAM_DATA"]}
{"id": "C17", "title": "A blocked peer is always unblocked", "statement": "Whenever the peer has used up the advertised limit and the application has consumed the data, a limit update is due and the new limit is strictly larger.", "quantifier": "every reachable flow controller state", "why_tests_cant": "Liveness: must hold in every reachable state.", "anchors": ["quiche/src/flowcontrol.rs: should_update_max_data, max_data_next"]}
{"id": "C18", "title": "Datagram queues are FIFO, bounded, and account bytes exactly", "statement": "Datagrams are popped in push order unmodified; a queue never exceeds its capacity; byte_size is the sum of queued payload lengths; purge removes exactly the matching ones and keeps order.", "quantifier": "every sequence of push, pop, peek, purge", "why_tests_cant": "Queue histories are unbounded.", "anchors": ["quiche/src/dgram.rs: DatagramQueue"]}
{"id": "C19", "title": "Truncated packet numbers decode to the number that was sent", "statement": "If the sender truncates packet number pn using the largest number acknowledged by the receiver, the receiver recovers exactly pn, whatever larger packet number below the window it has received since.", "quantifier": "every packet number below 2^62, every largest acknowledged, every receiver state consistent with it", "why_tests_cant": "Window arithmetic has 2^62 x 2^62 cases; wraparound cases are rare.", "anchors": ["quiche/src/packet.rs: pkt_num_len, encode_pkt_num, decode_pkt_num"]}
{"id": "C20", "title": "A packet number is accepted at most once", "statement": "A packet number recorded as received is reported as a duplicate forever after; a number not recorded and above the window's lower edge is never reported as a duplicate.", "quantifier": "every sequence of received packet numbers", "why_tests_cant": "The sliding window depends on the whole history.", "anchors": ["quiche/src/packet.rs: PktNumWindow::insert, contains, upper"]}
{"id": "C21", "title": "Acknowledgements cover only received packets", "statement": "Every packet number in an ACK frame generated for a space was received in that space, and the number of ranges stays within the configured maximum.", "quantifier": "every sequence of received packets and acknowledged ACKs", "why_tests_cant": "Receive histories with gaps are unbounded.", "anchors": ["quiche/src/packet.rs: PktNumSpace", "quiche/src/lib.rs: recv_single, send_single ACK creation", "quiche/src/ranges.rs"]}
{"id": "C22", "title": "An ACK frame survives encoding exactly", "statement": "Encoding an ACK frame for any non-empty range set and delay and parsing it back gives the same set, and parsing arbitrary bytes never panics and yields only well-formed ranges.", "quantifier": "every range set with values below 2^62, every byte string", "why_tests_cant": "Gap/length arithmetic underflows on rare shapes.", "anchors": ["quiche/src/frame.rs: Frame::to_bytes ACK, parse_ack_frame"]}
{"id": "C23", "title": "Every QUIC frame round-trips through its encoding", "statement": "For every frame quiche can send, decoding its encoding gives back the same frame and consumes exactly wire_len bytes.", "quantifier": "every frame of every type with fields in the wire range, any trailing bytes", "why_tests_cant": "20+ frame types with 62-bit fields and variable payloads.", "anchors": ["quiche/src/frame.rs: Frame::from_bytes, to_bytes, wire_len"]}
{"id": "C24", "title": "Frame decoding is total and enforces the packet-type table", "statement": "Decoding arbitrary bytes never panics; a frame type not permitted in the packet type by RFC 9000 Table 3 is rejected as InvalidPacket; a decoded frame never extends past the payload.", "quantifier": "every byte string and packet type", "why_tests_cant": "Attacker-controlled bytes.", "anchors": ["quiche/src/frame.rs: Frame::from_bytes"]}
{"id": "C25", "title": "Stream frames stay below 2^62", "statement": "Every accepted STREAM or CRYPTO frame ends below 2^62 so offset arithmetic downstream cannot overflow.", "quantifier": "every byte string", "why_tests_cant": "Boundary at 2^62 combined with length.", "anchors": ["quiche/src/frame.rs: parse_stream_frame, Crypto arm"]}
{"id": "C26", "title": "Packet headers round-trip", "statement": "Encoding a long or short header and parsing it returns the same version, connection IDs, token and type; parsing arbitrary bytes never panics and rejects connection IDs over 20 bytes for known versions.", "quantifier": "every header, every byte string and connection ID length", "why_tests_cant": "Arbitrary attacker bytes and all field combinations.", "anchors": ["quiche/src/packet.rs: Header::from_bytes, to_bytes"]}
{"id": "C27", "title": "Header protection is an involution and leaves the rest of the packet alone", "statement": "Applying header protection and removing it with the same mask restores the original first byte, packet number and length, for every mask, and touches only those bits.", "quantifier": "every header byte, packet number, length and mask", "why_tests_cant": "2^40 masks times headers.", "anchors": ["quiche/src/packet.rs: encrypt_hdr, decrypt_hdr"]}
{"id": "C28", "title": "AEAD nonces never repeat under one key", "statement": "Distinct packet numbers below 2^62 give distinct nonces for the same IV.", "quantifier": "every IV, every pair of packet numbers", "why_tests_cant": "Uniqueness over all pairs.", "anchors": ["quiche/src/crypto/mod.rs: make_nonce", "quiche/src/lib.rs: send_single next_pkt_num"]}
{"id": "C29", "title": "Transport parameters round-trip", "statement": "Decoding the encoding of any valid parameter set gives back the same set.", "quantifier": "every valid parameter set", "why_tests_cant": "Combinatorial presence of parameters and 62-bit values.", "anchors": ["quiche/src/transport_params.rs: TransportParams::encode, decode"]}
{"id": "C30", "title": "Transport parameter decoding rejects what the RFC forbids", "statement": "Duplicate parameters, server-only parameters sent by a client, and out-of-range values are rejected; decoding never panics on any bytes.", "quantifier": "every byte string", "why_tests_cant": "Attacker-controlled bytes; duplicates at any distance.", "anchors": ["quiche/src/transport_params.rs: TransportParams::decode"]}
{"id": "C31", "title": "Connection ID sequence numbers are issued once, in order, within the peer's limit", "statement": "Source connection IDs get consecutive sequence numbers, the number of active ones never exceeds the peer's active_connection_id_limit, and while there is room re-adding a known ID with the same token returns its old number; it never creates a second one. What the peer retires is reported to the application once.", "quantifier": "every sequence of new, retire, and limit operations", "why_tests_cant": "Sequences of issue/retire are unbounded.", "anchors": ["quiche/src/cid.rs: ConnectionIdentifiers::new_scid, retire_scid, set_source_conn_id_limit"]}
{"id": "C32", "title": "Peer connection IDs respect limits and retire-prior-to", "statement": "Accepted NEW_CONNECTION_ID frames keep the active destination ID count within the local limit, a retired sequence number is never used again, every number below retire_prior_to is queued for retirement, and reuse of a sequence number with another ID is rejected.", "quantifier": "every sequence of NEW_CONNECTION_ID and retire operations", "why_tests_cant": "Histories with reordering and replay.", "anchors": ["quiche/src/cid.rs: ConnectionIdentifiers::new_dcid, retire_dcid, BoundedNonEmptyConnectionIdVecDeque"]}
{"id": "C33", "title": "There is always at least one connection ID in each direction", "statement": "No sequence of operations leaves the connection without a source or destination connection ID.", "quantifier": "every operation sequence", "why_tests_cant": "Invariant over histories.", "anchors": ["quiche/src/cid.rs: BoundedNonEmptyConnectionIdVecDeque::remove"]}
{"id": "C34", "title": "Peer-opened streams respect the advertised stream limit", "statement": "A stream the peer opens beyond the limit advertised is rejected with StreamLimit and no state is created; a stream within it is accepted; the advertised limit never shrinks.", "quantifier": "every sequence of stream openings, closings and limit updates", "why_tests_cant": "Limits depend on the history of closed streams.", "anchors": ["quiche/src/stream/mod.rs: StreamMap::get_or_create, update_max_streams_bidi, max_streams_bidi_next"]}
{"id": "C35", "title": "Locally opened streams respect the peer's stream limit", "statement": "An attempt to open more local streams than the peer allows fails with StreamLimit without creating state.", "quantifier": "every sequence of local stream openings and MAX_STREAMS frames", "why_tests_cant": "Unbounded histories.", "anchors": ["quiche/src/stream/mod.rs: StreamMap::get_or_create, update_peer_max_streams_bidi, peer_streams_left_bidi"]}
{"id": "C36", "title": "A closed stream ID is never reopened", "statement": "Once a stream is collected, no frame or call re-creates it.", "quantifier": "every history", "why_tests_cant": "Late duplicates arrive at arbitrary distance.", "anchors": ["quiche/src/stream/mod.rs: StreamMap::collect, get_or_create, is_collected"]}
{"id": "C37", "title": "Stream scheduling is by urgency, then ID, with round-robin among incremental streams", "statement": "The flushable queue always yields the lowest urgency first; among non-incremental streams of one urgency the lowest ID; incremental streams of one urgency are served in round-robin so each waits at most for the others once.", "quantifier": "every set of streams, every sequence of insertions, removals, priority changes", "why_tests_cant": "Order properties over all queue contents.", "anchors": ["quiche/src/stream/mod.rs: StreamPriorityKey::cmp, insert_flushable, peek_flushable"]}
{"id": "C38", "title": "The buffered-bytes counter equals the sum over streams", "statement": "The connection's count of buffered unsent stream bytes always equals the sum of the per-stream counts.", "quantifier": "every sequence of send, emit, ack, loss, reset, stop, collect events", "why_tests_cant": "The code has only a debug assertion.", "anchors": ["quiche/src/stream/mod.rs: add_tx_buffered, sub_tx_buffered, debug_check_tx_buffered_consistency", "quiche/src/lib.rs"]}
{"id": "C39", "title": "Connection-level send flow control", "statement": "The total of stream bytes accepted for sending never exceeds the largest connection limit given by the peer.", "quantifier": "every sequence of writes on any streams, MAX_DATA frames, resets, congestion updates", "why_tests_cant": "Sum over unboundedly many streams and histories.", "anchors": ["quiche/src/lib.rs: stream_do_send, update_tx_cap, stream_shutdown, process_frame StopSending"]}
{"id": "C40", "title": "Connection-level receive flow control", "statement": "The sum over all streams of the highest received offset never exceeds the advertised connection limit; a frame that would exceed it is rejected with FlowControl.", "quantifier": "every sequence of frames on any streams", "why_tests_cant": "Sum over unboundedly many streams.", "anchors": ["quiche/src/lib.rs: process_frame Stream/ResetStream, max_rx_data", "quiche/src/flowcontrol.rs"]}
{"id": "C41", "title": "Server anti-amplification limit", "statement": "Before a client's address is validated the server sends at most max_amplification_factor times the bytes received from it.", "quantifier": "every sequence of received and sent datagrams of any sizes", "why_tests_cant": "Totals over unbounded histories.", "anchors": ["quiche/src/lib.rs: recv, send_on_path, send_single max_send_bytes", "quiche/src/path.rs"]}
{"id": "C42", "title": "Close and draining are terminal", "statement": "Once closed, a connection never leaves that state; once draining it sends nothing, processes no packets and closes when the draining timer fires; the first local error is never overwritten.", "quantifier": "every sequence of close, recv, send, timeout events at any times", "why_tests_cant": "Lifecycle histories and timer orders.", "anchors": ["quiche/src/lib.rs: close, recv_single, send_on_path, on_timeout, mark_closed, timeout_instant"]}
{"id": "C43", "title": "timeout_instant names the event on_timeout will act on", "statement": "If on_timeout is called before the instant returned by timeout_instant it changes nothing, and when it is called at that instant it acts.", "quantifier": "every timer configuration and time", "why_tests_cant": "All combinations of armed timers.", "anchors": ["quiche/src/lib.rs: timeout_instant, on_timeout"]}
{"id": "C44", "title": "Idle timeout is the smaller enabled value, at least three PTOs", "statement": "The idle timeout is None only if both endpoints disabled it, else the minimum of the enabled values, raised to 3 PTO, and the connection closes as timed out only after that long without restart.", "quantifier": "all parameter values and event times", "why_tests_cant": "Cross product of settings and schedules.", "anchors": ["quiche/src/lib.rs: idle_timeout, on_timeout"]}
{"id": "C45", "title": "Paths are usable only after validation", "statement": "A path is reported validated only after a response echoing one of the challenges sent on it was received; validation state never skips, and a failed path needs a new request.", "quantifier": "every sequence of challenge, response, timeout events", "why_tests_cant": "Event orders.", "anchors": ["quiche/src/path.rs: Path::on_challenge_sent, on_response_received, promote_to, on_loss_detection_timeout"]}
{"id": "C46", "title": "PATH_RESPONSE echoes received challenges in order, bounded", "statement": "Each queued challenge is answered at most once with exactly its data, and the queue is bounded.", "quantifier": "every sequence of challenges", "why_tests_cant": "Unbounded attacker-driven queue.", "anchors": ["quiche/src/path.rs: on_challenge_received, pop_received_challenge"]}
{"id": "C47", "title": "PMTU discovery converges to the real path MTU", "statement": "For any path MTU between 1200 and the maximum, probing by the search terminates with exactly that MTU; the reported MTU never exceeds the maximum configured or drops below 1200.", "quantifier": "every maximum, every true MTU, every sequence of probe outcomes", "why_tests_cant": "Binary search over all values.", "anchors": ["quiche/src/pmtud.rs: Pmtud"]}
{"id": "C48", "title": "The windowed min/max filter is correct", "statement": "The estimate returned equals the best sample among those the filter must keep: it is never worse than the newest sample, is a real sample, and never older than the window allows.", "quantifier": "every sample sequence with non-decreasing times", "why_tests_cant": "Sliding window over unbounded sequences.", "anchors": ["quiche/src/minmax.rs: Minmax"]}
{"id": "C49", "title": "RTT estimates are bounded by the samples", "statement": "min_rtt is the minimum of all samples since reset; smoothed RTT always lies between the smallest and largest adjusted sample; variance stays non-negative; PTO and loss delay are at least the granularity.", "quantifier": "every sample sequence", "why_tests_cant": "Averages over unbounded sequences.", "anchors": ["quiche/src/recovery/rtt.rs: RttStats"]}
{"id": "C50", "title": "Bytes in flight equal the unacknowledged, not-lost in-flight packets", "statement": "After any sequence of send, ack, loss, timeout, discard events, the in-flight byte count equals the total size of packets sent and still outstanding.", "quantifier": "every sequence of events", "why_tests_cant": "Accounting over histories; underflow would panic.", "anchors": ["quiche/src/recovery/congestion/recovery.rs", "quiche/src/recovery/bytes_in_flight.rs"]}
{"id": "C51", "title": "Each sent frame is reported acked or lost at most once", "statement": "A packet's frames are handed back as acked at most once and as lost at most once, and never as lost after being acked; a packet is declared lost only if a later packet was acked and the packet or time threshold is met.", "quantifier": "every ack history", "why_tests_cant": "All ack patterns.", "anchors": ["quiche/src/recovery/congestion/recovery.rs: detect_and_remove_acked_packets, detect_lost_packets"]}
{"id": "C52", "title": "The loss timer is armed for the earliest deadline", "statement": "Whenever some packet number space has a pending time-threshold loss deadline the loss detection timer is set to the earliest one.", "quantifier": "every combination of deadlines", "why_tests_cant": "All combinations of armed spaces.", "anchors": ["quiche/src/recovery/congestion/recovery.rs: loss_time_and_space, set_loss_detection_timer"]}
{"id": "C53", "title": "Congestion window never collapses below its minimum", "statement": "With Reno or CUBIC the congestion window never drops below the minimum window and a congestion event never increases it.", "quantifier": "every event sequence", "why_tests_cant": "Unbounded sequences of acks and losses.", "anchors": ["quiche/src/recovery/congestion/reno.rs", "quiche/src/recovery/congestion/cubic.rs"]}
{"id": "C54", "title": "Proportional rate reduction never over-sends", "statement": "During recovery the bytes allowed by PRR never exceed what was delivered scaled to the reduced window, or slow start when below it.", "quantifier": "every sequence of acks and sends in a recovery episode", "why_tests_cant": "Running totals.", "anchors": ["quiche/src/recovery/congestion/prr.rs"]}
{"id": "C55", "title": "HTTP/3 frames round-trip", "statement": "Every HTTP/3 frame decodes from its own encoding to itself; decoding never panics for a payload of the announced length.", "quantifier": "every frame with fields in range; every byte string", "why_tests_cant": "Field combinations.", "anchors": ["quiche/src/h3/frame.rs"]}
{"id": "C56", "title": "HTTP/3 parsing does not depend on how bytes are split", "statement": "Feeding a stream's bytes in any chunking yields the same sequence of frames, body bytes and errors as feeding them at once.", "quantifier": "every byte string and every way to cut it", "why_tests_cant": "Exponentially many cuts.", "anchors": ["quiche/src/h3/stream.rs: Stream", "quiche/src/h3/mod.rs: process_readable_stream"]}
{"id": "C57", "title": "HTTP/3 frame sequence rules", "statement": "On a peer-opened request stream HEADERS comes first, DATA is never accepted before HEADERS nor anything after trailers, and control frames are rejected; on the control stream SETTINGS comes first and only once.", "quantifier": "every sequence of frame types", "why_tests_cant": "All sequences.", "anchors": ["quiche/src/h3/stream.rs: set_frame_type, validate_request_frame_type"]}
{"id": "C58", "title": "HTTP/3 buffering is bounded", "statement": "The state buffer of an HTTP/3 stream never grows past the limit for the frame being read, whatever lengths the peer announces.", "quantifier": "every byte string", "why_tests_cant": "Attacker-controlled lengths.", "anchors": ["quiche/src/h3/stream.rs: set_frame_payload_len, state_transition, try_fill_buffer"]}
{"id": "C59", "title": "QPACK integers round-trip", "statement": "encode_int then decode_int with the same prefix returns the value and preserves the flag bits; decode_int on any bytes terminates without panic and returns the represented integer or an error.", "quantifier": "every u64, prefix, flag bits, byte string", "why_tests_cant": "All values and byte strings.", "anchors": ["quiche/src/h3/qpack/encoder.rs: encode_int", "quiche/src/h3/qpack/decoder.rs: decode_int"]}
{"id": "C60", "title": "Huffman coding round-trips", "statement": "Huffman-decoding a Huffman-encoded byte string returns the string (lowercased when requested) and the announced length is exact; padding errors and EOS are rejected.", "quantifier": "every byte string", "why_tests_cant": "256 symbols in every context of bit alignment.", "anchors": ["octets/src/lib.rs: put_huffman_encoded, get_huffman_decoded_with_max_length, huffman_encoding_len", "octets/src/huffman_table.rs"]}
{"id": "C61", "title": "QPACK header blocks round-trip", "statement": "Decoding the encoding of any header list yields the list with lowercased names; encoding into the buffer the HTTP/3 layer allocates always succeeds for a non-empty list.", "quantifier": "every header list", "why_tests_cant": "Static table hits, literals, Huffman on/off in any mix.", "anchors": ["quiche/src/h3/qpack/encoder.rs: Encoder::encode", "quiche/src/h3/qpack/decoder.rs: Decoder::decode", "quiche/src/h3/qpack/static_table.rs", "quiche/src/h3/mod.rs: encode_header_block"]}
{"id": "C62", "title": "QPACK decoding enforces the field section size", "statement": "A decoded header list never exceeds the configured maximum field section size counted as name+value+32 per field.", "quantifier": "every byte string and limit", "why_tests_cant": "Attacker-controlled bytes; decompression bombs.", "anchors": ["quiche/src/h3/qpack/decoder.rs: FieldListSizeTracker, Decoder::decode"]}
{"id": "C63", "title": "GOAWAY identifiers never increase", "statement": "The sequence of GOAWAY ids accepted from a peer, and of ids sent, is non-increasing; a client accepts only request stream ids; after receiving GOAWAY no new request is started.", "quantifier": "every sequence of GOAWAY frames and calls", "why_tests_cant": "Histories.", "anchors": ["quiche/src/h3/mod.rs: process_frame GoAway, send_goaway, send_request"]}
{"id": "C64", "title": "Key update follows the peer once per confirmed phase", "statement": "A key phase change is accepted only after the previous one was acknowledged; packets from before the update are opened with the old keys, at or after with the new.", "quantifier": "every sequence of received and sent packets", "why_tests_cant": "Reordering around the update.", "anchors": ["quiche/src/lib.rs: recv_single key update, send_single update_acked, on_timeout"]}
{"id": "C65", "title": "STREAMS_BLOCKED signals are sent once per limit and repeated only on loss", "statement": "For each limit at which the endpoint was blocked at most one frame is outstanding; a loss of the latest re-arms it.", "quantifier": "every sequence of block, send, loss events", "why_tests_cant": "Histories.", "anchors": ["quiche/src/lib.rs: StreamsBlockedState"]}
{"id": "C66", "title": "Packet numbers never repeat and skipped numbers catch optimistic ACKs", "statement": "Over the whole life of a connection the numbers of the packets it sends strictly increase, across epochs and paths, and at most one number in twenty is skipped. A skipped number is never sent; until the peer has acknowledged a later packet, an ACK that covers it closes the connection; a peer that acknowledges only what it was sent is never rejected.", "quantifier": "every history of packets sent, send attempts that produce nothing, ACK frames and new paths", "why_tests_cant": "Histories of unbounded length; the skipped number is random.", "anchors": ["quiche/src/packet.rs: PktNumManager", "quiche/src/lib.rs: send_single, process_frame (ACK), on_packet_sent", "quiche/src/recovery/congestion/recovery.rs: detect_and_remove_acked_packets"]}
{"id": "C67", "title": "The peer's transport parameters authenticate the connection ids of the handshake", "statement": "The handshake is accepted only if the peer's initial_source_connection_id is the id it is addressed by, and on a client only if original_destination_connection_id and, exactly when there was a Retry, retry_source_connection_id are the ids the client saw.", "quantifier": "every pair of endpoint state and parameter set", "why_tests_cant": "The ids are chosen by the peer or an attacker on the path.", "anchors": ["quiche/src/lib.rs: parse_peer_transport_params", "quiche/src/transport_params.rs"]}
{"id": "C68", "title": "Every path sends to a connection ID of the peer that is active and its own", "statement": "A path that has a destination connection ID has one that is active; no two paths have the same one; RETIRE_CONNECTION_ID is not sent under the ID it retires; paths without an ID get one as soon as one is free; retiring an ID by the application leaves the active path usable.", "quantifier": "every history of connection ID frames, losses, calls, new paths and migrations", "why_tests_cant": "Histories interleave the peer's frames with the application's calls.", "anchors": ["quiche/src/lib.rs: process_frame (NEW_CONNECTION_ID), retire_dcid, migrate, on_peer_migrated, create_path_on_client, recv_single", "quiche/src/cid.rs"]}
{"id": "C69", "title": "Version Negotiation and Retry packets are followed at most once and only when valid", "statement": "A client follows at most one Retry, only before any other packet was processed and only with a valid integrity tag; it acts on a Version Negotiation packet only before it has processed any other packet, only if the packet does not list the version in use, and then uses a version both sides know or fails.", "quantifier": "every sequence of datagrams, including forged ones", "why_tests_cant": "These packets are not protected: any attacker can send any sequence of them.", "anchors": ["quiche/src/lib.rs: recv_single (Version Negotiation, Retry)", "quiche/src/packet.rs: verify_retry_integrity"]}
{"id": "C70", "title": "The sets of readable and writable streams agree with the streams", "statement": "A stream is listed as readable exactly when reading it would return data, the end or an error; a stream that has room to write is listed as writable; a stream with data to send gets its turn.", "quantifier": "every history of stream frames, calls, acknowledgements and losses", "why_tests_cant": "A stream missing from a set is forgotten for ever; only histories show it.", "anchors": ["quiche/src/lib.rs: readable, writable, stream_readable_next, stream_writable_next", "quiche/src/stream/mod.rs: StreamMap insert_/remove_ readable, writable, flushable"]}
{"id": "C71", "title": "stream_writable tells exactly whether the requested amount can be written", "statement": "stream_writable(id, n) returns true only if the stream accepts at least n bytes now; after it returned false the stream is reported writable again once it has room for n bytes.", "quantifier": "every history and every n", "why_tests_cant": "Depends on the interplay of stream, connection and congestion limits.", "anchors": ["quiche/src/lib.rs: stream_writable", "quiche/src/stream/mod.rs: Stream::is_writable"]}
{"id": "C72", "title": "No sequence of stream frames, calls, acknowledgements and losses makes the connection panic", "statement": "Whatever frames the peer sends about streams, whatever stream functions the application calls and whatever is acknowledged or lost, no operation panics, overflows or underflows.", "quantifier": "every history over any number of streams", "why_tests_cant": "A peer chooses the frames; a panic takes down every connection of the process.", "anchors": ["quiche/src/lib.rs: process_frame, stream_recv, stream_send, stream_shutdown, stream_capacity, send_single", "quiche/src/stream/mod.rs"]}
{"id": "C73", "title": "The time with data in flight is measured exactly", "statement": "The reported duration during which bytes were in flight is the sum of the times between events at which the number of bytes in flight was positive.", "quantifier": "every sequence of additions and subtractions at non-decreasing times", "why_tests_cant": "Depends on the whole history; a wrong interval only shows in statistics.", "anchors": ["quiche/src/recovery/bytes_in_flight.rs"]}
{"id": "C74", "title": "Loss and byte statistics agree with the packets", "statement": "The lost packet counter is the number of packets declared lost (probes of the path MTU excepted), the sent byte counter is the size of all packets sent, and the lost byte counter is the size of the packets declared lost.", "quantifier": "every history of sends, acknowledgements, losses and timeouts", "why_tests_cant": "Counters over unbounded histories.", "anchors": ["quiche/src/recovery/congestion/recovery.rs: lost_count, bytes_lost, on_packet_sent"]}
{"id": "C75", "title": "A probe timeout sends probes and declares nothing lost", "statement": "When the timer expires without a loss deadline nothing is declared lost, one or two packets may be sent regardless of the congestion window, and consecutive timeouts back off exponentially until a packet is newly acknowledged.", "quantifier": "every history", "why_tests_cant": "Depends on the history of timeouts and acknowledgements.", "anchors": ["quiche/src/recovery/congestion/recovery.rs: on_loss_detection_timeout, cwnd_available, pto_time_and_space"]}
{"id": "C76", "title": "Polling and reading an HTTP/3 connection always return", "statement": "Whatever the peer sends on whatever streams, and whatever the application did before, poll and recv_body return an event, data, Done or an error: they neither panic nor loop.", "quantifier": "every history of arrivals, resets and calls on any number of streams", "why_tests_cant": "The peer chooses the bytes and how they are cut; an endless loop or a panic takes down the process.", "anchors": ["quiche/src/h3/mod.rs: poll, recv_body, process_readable_stream", "quiche/src/h3/stream.rs"]}
{"id": "C77", "title": "What is sent over HTTP/3 is whole frames in order, and arrives as sent", "statement": "The bytes written to a request stream are whole frames that carry exactly the header sections, body bytes and trailers of the calls that succeeded, in order, with at most frames to be ignored in between; the end is sent exactly when a call that asked for it took everything, and nothing follows it. The other endpoint gives its application exactly those header sections, bytes and trailers.", "quantifier": "every history of requests, responses, bodies, trailers, priority updates and GOAWAY on any number of streams, with any flow control and any stops by the peer", "why_tests_cant": "Depends on where flow control cuts each write; a frame header with a wrong length corrupts everything after it.", "anchors": ["quiche/src/h3/mod.rs: send_request, send_response, send_additional_headers, send_body, send_headers, send_grease_frames, send_goaway, send_priority_update_for_request"]}
{"id": "C78", "title": "Paths are distinct and bounded", "statement": "No two paths of a connection have the same pair of addresses, there is always at least one path, and there are never more than the configuration allows.", "quantifier": "every history of packets from any addresses, probes, migrations, retirements and timeouts", "why_tests_cant": "The peer chooses the addresses packets come from, and the order of events decides which path is evicted.", "anchors": ["quiche/src/path.rs: insert_path, make_room_for_new_path, set_active_path", "quiche/src/lib.rs: get_or_create_recv_path_id, create_path_on_client, migrate"]}
{"id": "C79", "title": "retire_dcid never leaves the connection without a usable path", "statement": "When retire_dcid succeeds there is still a path that is active or can be made active; when it refuses, nothing has changed.", "quantifier": "every connection and sequence number", "why_tests_cant": "Depends on which ids which paths use, and on the ids in reserve.", "anchors": ["quiche/src/lib.rs: retire_dcid"]}
{"id": "C80", "title": "What has to be said about streams and limits is not forgotten", "statement": "Once a stream is cut short (stream_shutdown for writing, or STOP_SENDING from the peer), reading is shut down, or a limit is raised (MAX_DATA, MAX_STREAM_DATA, MAX_STREAMS), the frame saying so is on its way or the next packet with room for it has it, however often packets are lost, until the matter is settled; the error codes are those given, the final size the number of bytes sent, and a limit sent again is never lower.", "quantifier": "every history of frames, calls, packets, acknowledgments and losses", "why_tests_cant": "A frame is lost for good only under a particular order of losses, shutdowns, resets and readings; a peer waiting for it then waits for ever.", "anchors": ["quiche/src/lib.rs: send_single, process lost frames, stream_shutdown", "quiche/src/stream/mod.rs: insert_reset, insert_stopped, insert_almost_full", "quiche/src/stream/send_buf.rs: stop, shutdown"]}
{"id": "C81", "title": "Frames about connection ids are not forgotten when packets are lost", "statement": "Every connection id given by new_scid is announced by a NEW_CONNECTION_ID frame that was not declared lost, or waits to be announced; every id of the peer that was replaced or retired has a RETIRE_CONNECTION_ID frame that was not declared lost, or the next packet on a path with another id has one.", "quantifier": "every history of new ids, retirements, packets sent, and losses in any order and number", "why_tests_cant": "A frame is lost for good only under a particular order of losses, retirements and a full queue.", "anchors": ["quiche/src/cid.rs: mark_advertise_new_scid_seq, mark_retire_dcid_seq, BoundedConnectionIdSeqSet", "quiche/src/lib.rs: lost frames and RETIRE_CONNECTION_ID in send_single"]}
{"id": "C82", "title": "No task survives the killswitch", "statement": "Once the killswitch was activated and its thread has finished, every task whose spawn call has returned has either ended or been told to abort, however spawning, ending and killing interleave; spawn returns nothing only after activation, and a spawn that starts after activation never runs its task. Before activation no task is disturbed, and a task that ended leaves nothing behind in the registry.", "quantifier": "every interleaving of the steps of any number of spawn calls, tasks and the killing thread, with any number of shards", "why_tests_cant": "The race window between checking the switch, spawning and registering a task is a few instructions wide; a test hits it by luck only.", "anchors": ["task-killswitch/src/lib.rs: TaskKillswitch, ActiveTasks, spawn_with_killswitch, activate"]}
{"id": "C83", "title": "Byte buffers with room at the front keep their bytes", "statement": "Every operation on a datagram buffer or pooled byte buffer (consume, truncate, prepend, append, widen the room, write) changes the readable bytes and the room exactly as documented, and panics exactly when documented; a prefix that was prepended can be consumed again and gives back what was there; after every history the buffer can be read.", "quantifier": "every buffer made by any constructor and any sequence of operations with any arguments", "why_tests_cant": "Cursor arithmetic over a vector with stale memory beyond its length goes wrong only for particular orders of operations and sizes.", "anchors": ["buffer-pool/src/buffer.rs: ConsumeBuffer", "datagram-socket/src/buffer.rs: DgramBuffer"]}
{"id": "C84", "title": "A buffer pool keeps to its limit and never hands out a buffer twice", "statement": "Whatever the threads do, the pool never stores more buffers than its limit; no buffer is with two users, or with a user and in the pool; a buffer from get reads as empty and keeps no more memory than the pool allows; no counter or gauge goes below zero, and all are exact whenever no call is under way, when a buffer given back is stored if there is space.", "quantifier": "every interleaving of the atomic steps of any number of threads getting, using, taking and dropping buffers, any number of shards, any limit and trim size", "why_tests_cant": "The counter is raised and lowered apart from the queue; errors show only when threads interleave between the two.", "anchors": ["buffer-pool/src/lib.rs: Pool, QueueShard, Pooled, Reuse"]}
{"id": "C85", "title": "The windowed maximum is a recent sample that nothing newer exceeds", "statement": "After every sample, the best estimate is a sample not older than the window, at least as large as the newest, and no sample taken after it is larger; it is not given up before it is older than the window; the second and third estimates are ordered in value and time and are renewed after a quarter and a half of the window; nothing panics while time does not run backwards.", "quantifier": "every sequence of samples with times that do not decrease, with resets and clearings in between, any window length", "why_tests_cant": "The three estimates are promoted and renewed by rules that depend on the whole past; a test checks a few patterns.", "anchors": ["quiche/src/recovery/gcongestion/bbr/windowed_filter.rs: WindowedFilter"]}
{"id": "C86", "title": "Rates, amounts and times convert exactly", "statement": "The number of bytes that fit in a period at a rate is the largest that can be sent in it, the time to transfer an amount is exact to the nanosecond, both up to saturation and whatever overflows on the way; a measured rate is the largest that sends no more than the amount in the time, but at least one bit per second; conversions are monotone and never give back more than was put in. An amount delivered in no time counts as delivered in a nanosecond; sums and differences of rates are exact, and there is no difference of a smaller and a larger rate.", "quantifier": "all rates, amounts and times that the types can represent", "why_tests_cant": "Overflowing paths are taken only for large rates and long periods.", "anchors": ["quiche/src/recovery/bandwidth.rs: Bandwidth"]}
{"id": "C87", "title": "Delivery rate samples are what was delivered over the time it took", "statement": "The amount delivered is the size of all packets acknowledged. When an acknowledgment covers a packet sent after all acknowledged before, the delivery rate becomes the bytes acknowledged since some covered packet was sent over the longer of the time since the last news before that and the time it took to send, except when that time is below the smallest round trip, or the packet was marked application limited and the rate is not higher; so it never claims more than was acknowledged since the packet was sent. Nothing underflows. With acknowledgments in order the time to send is counted from when the packet acknowledged last was sent. Packets count as application limited exactly until one numbered above the last sent before the mark is acknowledged.", "quantifier": "every history of packets sent, acknowledged in any order, lost, and marks that the application is limited", "why_tests_cant": "The sample mixes marks made at sending with counters at acknowledging, so errors need particular orders of flights, losses and acknowledgments.", "anchors": ["quiche/src/recovery/congestion/delivery_rate.rs: Rate", "quiche/src/recovery/congestion/mod.rs: on_packets_acked"]}
{"id": "C88", "title": "Packets are released no faster than the pacing rate", "statement": "With pacing enabled (BBR2), over any stretch of a connection's history in which it does not leave quiescence, all packets with data but at most the first ten are given release times (SendInfo::at) such that between any two of them no more is released than the pacing rate allows; a configured maximum pacing rate greater than zero is kept to whatever the controller asks for; after a loss there is no unpaced burst until the connection next leaves quiescence, and then it is at most ten packets and a window; slow connections send single packets; release times are never in the past, and without pacing are always now.", "quantifier": "every sequence of packets sent, losses and application pauses, with every size, time, window and rate the controller may give at each of them", "why_tests_cant": "the bound is over any two packets of any history; tests send a fixed sequence at one rate", "anchors": ["quiche/src/recovery/gcongestion/pacer.rs: Pacer", "quiche/src/recovery/mod.rs: ReleaseTime, ReleaseDecision", "quiche/src/recovery/gcongestion/recovery.rs: on_packet_sent, get_packet_send_time", "quiche/src/lib.rs: send_on_path"]}
{"id": "C89", "title": "Loss detection with BBR2 accounts for every packet", "statement": "With BBR2 configured, for every history of packets sent, acknowledgements, timeouts, path changes and discarded spaces: no call panics; the only error is OptimisticAckDetected, exactly when an ACK covers the skipped packet number; the bytes in flight are the sizes of the packets neither acknowledged, given up nor discarded; a packet is given up only if one sent later was acknowledged and it is past the packet or time threshold (or it is packet 0, past the time threshold, and nothing was acknowledged), and after an acknowledgement none that is past a threshold is kept while the deadline of the oldest is set; frames are reported acknowledged once, and reported lost if and only if their packet was given up or a timeout occurred; the thresholds stay within 3 to 20 packets (or none) and 9/8 to 2 round-trip times, move only after a spurious loss and never fall; counters are the sums of what calls report; a probe timeout gives nothing up and allows one or two packets.", "quantifier": "all histories of calls with fresh packet numbers and well-formed ACK ranges, all three spaces, both threshold modes, every scaling of durations and every classification of frames as datagrams", "why_tests_cant": "tests follow a few fixed sequences of packets and acknowledgements", "anchors": ["quiche/src/recovery/gcongestion/recovery.rs: GRecovery, RecoveryEpoch, LossThreshold", "quiche/src/recovery/bytes_in_flight.rs"]}
{"id": "C90", "title": "Bandwidth samples do not exceed the rates of sending and of acknowledgement", "statement": "With BBR2, for every history of packets sent, acknowledged, lost and forgotten, application pauses and congestion events: the sampler never panics while less than 2.3 GB is sent; its counters are the bytes sent, acknowledged while outstanding, reported lost and forgotten, and no packet counts twice; each newly acknowledged packet gives at most one bandwidth sample, the smaller of the rate at which bytes were acknowledged since it was sent and the rate at which bytes were sent between the packet last acknowledged before and itself; with avoidance of overestimates, the fix to its choice and acknowledgements in order, the start of the sample is never later than the sending of the packet; each event that starts a new aggregation epoch adds as a start the acknowledgement before the newest; a congestion event reports the largest of its samples with the application-limited mark of that one, the shortest round trip, the largest rates, the most delivered over the flight of one of its packets, the send state of the last packet lost or acknowledged, and the bytes acknowledged in the current aggregation epoch beyond what the bandwidth allows.", "quantifier": "all histories of calls with increasing packet numbers, every size, time and order of acknowledgement, both settings of avoidance and of its fix, every scaling by the aggregation threshold", "why_tests_cant": "a sample depends on the whole history before it; tests follow a few fixed patterns of sending and acknowledging", "anchors": ["quiche/src/recovery/gcongestion/bbr/bandwidth_sampler.rs: BandwidthSampler, ConnectionStateMap, RecentAckPoints, MaxAckHeightTracker::update"]}
{"id": "C91", "title": "The network model of BBR2 follows what acknowledgements report", "statement": "With BBR2, for every history of packets sent, congestion events and queries: a bandwidth sample not limited by the application bounds the maximum from below until the filter has moved on twice after it; one that is limited counts only if it exceeds the maximum; the maximum is zero or a sample reported before, and once the filter has moved on twice with a positive counted sample between, no sample from before the first move remains; a round ends exactly with the first acknowledgement or one of a packet sent after the round began; the losses a round is judged by are those reported since it began; the shortest round trip is the least seen since the last one let expire, and one expires only when its period is over and a sample is at hand; the short-term bounds are lowered only when a round with losses ends outside probing, and not below the best that round delivered; the network is taken to be full only after enough checks without growth, enough rounds over the queue target, or when told so, and for good; no call panics while less than 2.3 GB is sent, and no more is reported acknowledged than was sent.", "quantifier": "all histories of calls with increasing packet numbers, every size, time and order of acknowledgement and loss, every value of the parameters and every product with a fraction", "why_tests_cant": "the maximum, the rounds and the bounds each depend on the whole history of events", "anchors": ["quiche/src/recovery/gcongestion/bbr2/network_model.rs: BBRv2NetworkModel, RoundTripCounter, MinRttFilter, MaxBandwidthFilter"]}
{"id": "C92", "title": "The BBR2 congestion window stays within its limits and grows only by what is acknowledged", "statement": "Unless the pacer limits it, BBR2's congestion window is at all times between the initial and the greatest number of packets of the size packets have now, also across changes of that size. After each congestion event it is within its limits and the cap of the mode, and it has grown by no more than the bytes acknowledged; before the bandwidth is known to be full it does not fall except to a limit or cap, and afterwards it is at most the target plus the ack height. A limit set by the pacer holds from the next event on. Data may be sent exactly when less than the window is in flight. The pacing rate stays until there is a bandwidth estimate, is then the window over the shortest round trip (at most the configured initial rate), by default never falls until the bandwidth is known to be full, and then is the estimate times the gain. No sum or product overflows while windows are below 2.3 GB.", "quantifier": "every history of congestion events, changes of packet size and limits, with any decisions of the modes and any network model", "why_tests_cant": "the bounds must survive every order of growth, scaling and limiting; tests run a few simulated transfers", "anchors": ["quiche/src/recovery/gcongestion/bbr2.rs: BBRv2::new, update_pacing_rate, update_congestion_window, can_send, is_cwnd_limited, on_congestion_event, update_mss, limit_cwnd", "quiche/src/recovery/gcongestion/pacer.rs: on_congestion_event"]}
{"id": "C93", "title": "BBR2 goes through its modes and probing phases in order", "statement": "No history of events and sends makes BBR2's modes panic. BBR2 is in startup exactly until the bandwidth is known to be full; startup and drain come once, in this order, before all else. While probing, one event moves the cycle at most one phase on: from down to cruise or refill, from cruise to refill, from refill to up, from up to down; PROBE_RTT is entered only on leaving down. A cycle is not in down or cruise once its wait is over, refill takes at least a round, and up ends when too much of what was in flight is lost. If times do not go back, the bandwidth filter moves on exactly once per cycle. Samples count as probing only in up and in the first round of down. PROBE_RTT lasts for its time after the bytes in flight came down to its target. The upper bound on bytes in flight falls only when too much of it was lost. Startup ends exactly with a round without growth in which a plateau, a standing queue or too many losses are found; drain ends once no more than a bandwidth-delay product is in flight; sending after a quiet time ends PROBE_RTT unless its time is set and not over.", "quantifier": "every history of congestion events and sends, with any parameters and any answers of the network model", "why_tests_cant": "a wrong transition shows only in particular orders of rounds, losses and times over long connections", "anchors": ["quiche/src/recovery/gcongestion/bbr2/mode.rs", "quiche/src/recovery/gcongestion/bbr2/startup.rs", "quiche/src/recovery/gcongestion/bbr2/drain.rs", "quiche/src/recovery/gcongestion/bbr2/probe_bw.rs: ProbeBW", "quiche/src/recovery/gcongestion/bbr2/probe_rtt.rs: ProbeRTT", "quiche/src/recovery/gcongestion/bbr2.rs: on_congestion_event, on_packet_sent, on_exit_quiescence"]}
