# Formal model of cloudflare/quiche in Rocq (Coq 8.16.1)

Plan written before the proofs. Each area has a model file (definitions citing /repo file and lines), a proof file, and a properties file containing only theorem statements, one-line proofs and `Print Assumptions`.

Conventions: machine integers are `Z` with the range written as a hypothesis or invariant where it matters; a subtraction that can underflow, an out-of-range index, `unwrap` on `None` and `unreachable!` are explicit `Panic` results; bytes are `Z` in [0,256); `Result` stays data; `&mut self` becomes a returned state; time is `Z` nanoseconds.

| Property | Area | Plan |
|---|---|---|
| C01 Varint encoding round-trips | Octets | Cursor reads/writes as functions on byte lists (bytes are Z in [0,256)). Round trip by case split on the four length classes; minimality by arithmetic. |
| C02 Fixed-width integers round-trip and buffers are never overrun | Octets | get/put big-endian of width n by induction on n; cursor is (buffer, offset) and failing operations return the old cursor. |
| C03 Range sets represent exactly the union of what was inserted | Ranges | Insert of both representations modelled as the loop over ordered (start,end) lists; proved equal to set union by a membership predicate, invariant sorted/disjoint/non-adjacent by induction on the operation list. |
| C04 Range set size never exceeds its capacity and never panics | Ranges | Same model; capacity invariant by induction; panics are explicit results. Small inline capacities are expected to be refuted (index underflow). |
| C05 Stream receive buffer delivers the sent bytes in order, once, with no gaps | RecvBuf | BTreeMap<u64,RangeBuf> as a list sorted by key, write loop with explicit fuel/structural recursion over the popped list; refinement to a partial map offset->byte. |
| C06 A stream is readable exactly when a read would make progress | RecvBuf | ready/emit against the contiguous prefix of the abstract map. |
| C07 The final size of a stream is immutable and enforced | RecvBuf | Invariant over operation lists for fin_off. |
| C08 The receiver never accepts stream data beyond the advertised limit | RecvBuf, FlowControl | Invariant len <= max_data; error leaves state equal. |
| C09 Reset and shutdown stop delivery and account each byte once | RecvBuf | Ghost counter of credited bytes over operation lists. |
| C10 Every byte sent on a stream is the byte the application wrote at that offset | SendBuf | Buffers as list of (off, data, pos); invariant: every buffer is the slice of the ghost concatenation of writes. |
| C11 The sender never exceeds the peer's stream limit | SendBuf | Invariant off <= max_data and emitted end <= off. |
| C12 FIN is sent only with the last byte and exactly at the final size | SendBuf | Emission relation lemma on fin flag. |
| C13 A lost stream frame is eventually re-sent unless acknowledged | SendBuf | retransmit splits buffers and rewinds pos; set of pending offsets as a predicate; drain loop by induction. |
| C14 A stream's send side is complete only when everything is acknowledged | SendBuf | Acked set from Ranges; is_complete iff membership of all offsets, or cut short (invariant over histories). |
| C15 End-to-end stream integrity over an arbitrary network | EndToEnd | Product transition system of sender model, multiset of frames in flight (ever-sent set), receiver model; invariant by induction over traces. |
| C16 Flow control limits advertised to the peer never shrink | FlowControl | State machine with Z time; invariant over traces. |
| C17 A blocked peer is always unblocked | FlowControl | Arithmetic lemma in every reachable state. |
| C18 Datagram queues are FIFO, bounded, and account bytes exactly | Dgram | List model, refinement to FIFO list. |
| C19 Truncated packet numbers decode to the number that was sent | PktNum | Z arithmetic mod 2^(8n). |
| C20 A packet number is accepted at most once | PktNum | Window as (lower, 128-bit mask as list/number); refinement to a set. |
| C21 Acknowledgements cover only received packets | AckGen | Space-level recv set using the Ranges model with eviction. |
| C22 An ACK frame survives encoding exactly | Frame | ACK encoder/decoder with checked subtraction = Panic. |
| C23 Every QUIC frame round-trips through its encoding | Frame | All frame types over byte lists. |
| C24 Frame decoding is total and enforces the packet-type table | Frame | Decoder is total by construction with Panic as a result value; proved never Panic; permission table stated separately. |
| C25 Stream frames stay below 2^62 | Frame | Bound lemma on decoder results. |
| C26 Packet headers round-trip | Header | Header encoder/decoder over byte lists. |
| C27 Header protection is an involution and leaves the rest of the packet alone | HdrProt | xor on bytes via N.lxor lemmas; mask abstract (function argument). |
| C28 AEAD nonces never repeat under one key | Nonce | xor injectivity. |
| C29 Transport parameters round-trip | TParams | Encoder/decoder over byte lists. |
| C30 Transport parameter decoding rejects what the RFC forbids | TParams | Loop over parameters with fuel = length; never out of fuel. |
| C31 Connection ID sequence numbers are issued once, in order, within the peer's limit | Cid | State machine; invariant over operation lists. |
| C32 Peer connection IDs respect limits and retire-prior-to | Cid | Same for destination side. |
| C33 There is always at least one connection ID in each direction | Cid | Invariant of the non-empty deque. |
| C34 Peer-opened streams respect the advertised stream limit | StreamsModel | All operations on a connection's streams as one step function; invariant `Shape` (which streams exist, counters against them) over any history. |
| C35 Locally opened streams respect the peer's stream limit | StreamsModel | Same invariant, local side. |
| C36 A closed stream ID is never reopened | StreamsModel | Every step keeps collected streams collected; frames and calls on them are computed. |
| C37 Stream scheduling is by urgency, then ID, with round-robin among incremental streams | StreamsModel | Queues as ordered lists with the comparison of the code; the queue is sorted, holds every stream with data, and its keys are the last priorities set, over any history (StreamsQ*.v). Refuted for packets with 13 to 18 bytes left. |
| C38 The buffered-bytes counter equals the sum over streams | StreamsModel | Invariant `TxC` over any history. |
| C39 Connection-level send flow control | StreamsModel | Invariant `TxC`; tx_cap_factor is a rational number. |
| C40 Connection-level receive flow control | ConnFlow | Connection receive accounting composed of RecvBuf steps. |
| C41 Server anti-amplification limit | LifeModel | Invariant over histories: per address, credit plus bytes sent is bounded by the factor times the bytes received. The whole claim is refuted. |
| C42 Close and draining are terminal | LifeModel | Every operation is a list of small changes; closed, draining and the error are kept by each of them. |
| C43 timeout_instant names the event on_timeout will act on | LifeModel | Case analysis of the timers, with the invariant that failures were told. |
| C44 Idle timeout is the smaller enabled value, at least three PTOs | LifeModel | Idle value against a separate minimum; the timer is restarted by packets processed and only then, invariant over histories. |
| C45 Paths are usable only after validation | LifeModel | Ghost history of challenges sent and answers heard; the state of validation is bounded by it. |
| C46 PATH_RESPONSE echoes received challenges in order, bounded | LifeModel | Counting: answers sent plus answers waiting are at most the challenges received. |
| C47 PMTU discovery converges to the real path MTU | PmtudModel | State machine against a static-path oracle; measure failed - success. |
| C48 The windowed min/max filter is correct | RttModel | Three-sample filter; invariant on ordering of samples and times. |
| C49 RTT estimates are bounded by the samples | RttModel | Integer (nanosecond) arithmetic as Duration does. |
| C50 Bytes in flight equal the unacknowledged, not-lost in-flight packets | RecoveryModel | Ledger of all packets sent; every call is explained by a step of the ledger; invariant between ledger and state. |
| C51 Each sent frame is reported acked or lost at most once | RecoveryModel | Counting frames of the ledger against those reported; refuted in two cases. |
| C52 The loss timer is armed for the earliest deadline | RecoveryModel | Option ordering modelled; refuted in part; timer characterised exactly otherwise. |
| C53 Congestion window never collapses below its minimum | RecoveryModel | Reno exactly; the values of CUBIC's float formulas are arbitrary (an oracle), multiplication by 0.7 is exact rounding. |
| C54 Proportional rate reduction never over-sends | RecoveryModel | Arithmetic with saturating subtraction; induction over an episode. |
| C55 HTTP/3 frames round-trip | H3FrameModel | Codec over byte lists; the grammar of payloads (H3FrameSpec) against parser and serializer, both directions; panics excluded. |
| C56 HTTP/3 parsing does not depend on how bytes are split | H3ConnModel | A separate parser of the whole byte string (H3ConnSpec); invariant over all histories: got so far ++ what the rest says = what everything says. |
| C57 HTTP/3 frame sequence rules | H3ConnModel | Trace automaton written separately as specification. |
| C58 HTTP/3 buffering is bounded | H3ConnModel | Invariant on buffer length. |
| C59 QPACK integers round-trip | QpackModel | Integer codec; checked_shl semantics faithful, overflow expected refuted. |
| C60 Huffman coding round-trips | HuffmanModel | Tables generated verbatim; 4-bit decoding automaton relation checked by a finite sweep lifted to an induction. |
| C61 QPACK header blocks round-trip | QpackModel | Header block codec using static table generated verbatim. |
| C62 QPACK decoding enforces the field section size | QpackModel | Invariant of the size tracker. |
| C63 GOAWAY identifiers never increase | H3ConnModel, H3SendModel | GOAWAY state machine; invariant on the control stream for the ids sent. |
| C64 Key update follows the peer once per confirmed phase | KeyModel | State machine of key generations with ideal AEAD; invariants against any peer, and in a system with an honest peer and an arbitrary network. |
| C65 STREAMS_BLOCKED signals are sent once per limit and repeated only on loss | StreamsModel | Invariant `Blk` tying the two limits to the frames sent and lost. |
| C66 Packet numbers never repeat, skipped numbers catch optimistic ACKs | PnSend | PktNumManager and the send/ACK code as a state machine; which packets an ACK newly acknowledges is an input. |
| C67 The peer's parameters authenticate the connection ids | TParams | The check as a function; exact condition. |
| C68 Every path sends to an active connection id of its own | Cid | The connection id state machine with paths and their ids. |
| C69 Version Negotiation and Retry are followed at most once and only when valid | NegModel | State machine over all packet sequences; each step that starts the handshake over is characterised, and counted over histories. |
| C70 The sets of readable and writable streams agree with the streams | StreamsModel | Invariants tying the queues to the streams over any history, in both directions for readable (StreamsQ2–Q5, Q8). Refuted for closed and for reset streams. |
| C71 stream_writable tells whether the requested amount can be written | StreamsModel | What the next write accepts, from the send buffer's write lemma; refuted at exact room and on finished streams. |
| C72 No sequence of stream operations panics | StreamsModel | The invariants exclude every panic of the step function. |
| C73 The time with data in flight is measured exactly | RecoveryModel | Induction over events. |
| C74 Loss and byte statistics agree with the packets | RecoveryModel | Ledger; the lost byte counter is refuted. |
| C75 A probe timeout sends probes and declares nothing lost | RecoveryModel | Step lemma on reachable states. |
| C76 Polling and reading an HTTP/3 connection always return | H3ConnModel | The loops carry fuel; the invariant excludes running out and every other panic. |
| C77 What is sent over HTTP/3 is whole frames in order, and arrives as sent | H3SendModel | Invariant: the bytes written are the concatenation of frames carrying the log of successful calls; composed with C56 for the receiver. |
| C78 Paths are distinct and bounded | LifeModel | Invariant over histories. |
| C79 retire_dcid never leaves the connection without a usable path | LifeModel | Case analysis of retire_dcid. |
| C80 What has to be said about streams and limits is not forgotten | StreamsModel | Invariants over every history: for each reset, stop and raised limit, a pending mark is set or a frame not declared lost was sent (StreamsCtl*.v). |
| C81 Frames about connection ids are not forgotten when packets are lost | CidModel | Announcements waiting, sent and lost balance exactly; a retirement sent is queued again or was sent more often than lost. |
| C82 No task survives the killswitch | KillModel | An invariant per task over all interleavings, tying its phase to the registry entry and to how far the killing thread got. |
| C83 Byte buffers with room at the front keep their bytes | BufModel | Refinement of each operation to a pair of room and readable bytes. |
| C84 A buffer pool keeps to its limit and never hands out a buffer twice | PoolModel | An invariant over interleaved atomic steps: each counter is the queue plus the calls between their two steps; buffers carry numbers, each of which occurs once. |
| C85 The windowed maximum is a recent sample that nothing newer exceeds | FilterModel | Each estimate is a sample followed only by smaller ones: an invariant over all histories. |
| C86 Rates, amounts and times convert exactly | BwModel | Floor division, with the branches for overflow shown to agree with it. |
| C87 Delivery rate samples are what was delivered over the time it took | RateModel | Every packet in flight carries the counts of the moment it was sent, an invariant over all histories. |
| C88 Packets are released no faster than the pacing rate | PacerModel, PacerSpec, PacerProofs, PropPacer | Induction over the history: tokens bound the unpaced prefix, and from the first paced packet on the next release time is a running sum of transfer times. |
| C89 Loss detection with BBR2 accounts for every packet | GRecModel, GRecSpec, GRecProofs, GRecRun, GRecStat, PropGRec | simulation against the ledger of C50, invariants over call lists |
| C90 Bandwidth samples do not exceed the rates of sending and of acknowledgement | SampModel, SampSpec, SampProofs, SampOrder, SampBytes, SampRest, SampPoints, PropSamp | invariant over histories newest first; every sample computed from the history alone |
| C91 The network model of BBR2 follows what acknowledgements report | BbrNetModel, BbrNetSpec, BbrNetProofs, BbrNetRun, BbrNetRest, PropBbrNet | invariants over histories newest first, on top of the sampler invariant of C90 |
| C92 The BBR2 congestion window stays within its limits and grows only by what is acknowledged | BbrWinModel, PropBbrWin | invariant over histories (limits are exact multiples of the packet size), exact shape of one event |
| C93 BBR2 goes through its modes and probing phases in order | BbrModeModel, BbrModeProofs, PropBbrMode | invariants of the cycle over histories, one lemma per phase |

## Trusted base

- Coq 8.16.1's kernel, including its virtual machine (`vm_compute` is used for witnesses, refutations and finite tables).
- `Print Assumptions` follows every theorem of the Prop files: each prints "Closed under the global context". No axiom is used, neither the standard library's nor our own.
- Libraries: the Coq standard library only. Loading it brings in `Coq.ssr.ssrunder.Under_rel.*`, fields of a module type of the standard library; no theorem depends on them.
- That the definitions in the Model files say what the cited lines of /repo say. Nothing checks this mechanically; every definition cites the lines, and says where it simplifies.

## What is modelled

| Files | Code |
|---|---|
| OctetsModel | octets/src/lib.rs: Octets and OctetsMut reads, writes, varints, cursors |
| RangesModel | quiche/src/ranges.rs: both representations of RangeSet |
| RangeBufModel, RecvBufModel | quiche/src/range_buf.rs, stream/recv_buf.rs, the BTreeMap as a sorted list |
| SendBufModel | quiche/src/stream/send_buf.rs |
| FlowControlModel, ConnRecvModel | quiche/src/flowcontrol.rs, and the connection level accounting of received data in lib.rs |
| NetModel | the two ends of a stream over a network that drops, repeats and reorders |
| DgramModel | quiche/src/dgram.rs and its use in lib.rs |
| PktNumModel, PnSendModel | quiche/src/packet.rs: packet number coding, PktNumWindow, PktNumManager; ACK handling of skipped numbers |
| FrameModel | quiche/src/frame.rs: to_bytes, from_bytes, wire_len of every frame |
| PacketModel | quiche/src/packet.rs: headers, header protection, packet protection, Version Negotiation, Retry; nonces of crypto/mod.rs |
| TpModel | quiche/src/transport_params.rs, the setters of Config, the checks of parse_peer_transport_params |
| CidModel | quiche/src/cid.rs, and the parts of lib.rs and path.rs that announce, retire and assign ids |
| StreamsModel | quiche/src/stream/mod.rs (StreamMap, Stream, the priority queues) and all of lib.rs that drives it: stream API, stream frames received, stream part of packets sent, acknowledged and lost frames |
| RttModel | quiche/src/minmax.rs, quiche/src/recovery/rtt.rs; loss delay and pto() of recovery/congestion/recovery.rs |
| PmtudModel | quiche/src/pmtud.rs |
| RecoveryModel | quiche/src/recovery/congestion/{recovery,mod,reno,cubic,prr,hystart}.rs, bytes_in_flight.rs and the types of recovery/mod.rs: LegacyRecovery of one path, without pacing, delivery rate and qlog; float values of the cubic curve and of the time threshold come from an arbitrary oracle |
| HuffmanModel, HuffmanTables | octets/src/lib.rs: the Huffman functions, and octets/src/huffman_table.rs; the tables are generated from the source text |
| QpackModel, QpackTables | quiche/src/h3/qpack/{encoder,decoder,static_table}.rs and encode_header_block of h3/mod.rs; the tables are generated from the source text |
| H3FrameModel | quiche/src/h3/frame.rs: Frame::from_bytes and to_bytes of every frame; Error::to_wire of h3/mod.rs |
| H3ConnModel | quiche/src/h3/stream.rs: all of Stream; quiche/src/h3/mod.rs: poll, recv_body, process_readable_stream, process_frame, process_finished_stream, the events, the peer's settings, GOAWAY received, priority updates. The transport is a model of its own: per stream the bytes in order, FIN, reset and the readable set |
| H3SendModel | quiche/src/h3/mod.rs: send_request, send_response, send_additional_headers, send_body, send_headers, send_grease_frames, send_goaway, send_priority_update_for_request, send_settings. The transport is a model of its own: per stream the room, the bytes written, FIN, stopped, collected. The QPACK and GREASE streams and stream priorities are left out |
| LifeModel | quiche/src/path.rs and, of quiche/src/lib.rs, recv, recv_single, send_on_path, send_single, timeout_instant, on_timeout, close, probe_path, migrate, retire_dcid, path_event_next, as far as they concern the life of the connection, its paths and its timers. Packets come decrypted; TLS, recovery timers and the other frames to send are inputs of each operation with any value; PMTUD and the ids' own bookkeeping are left out |
| KeyModel | quiche/src/lib.rs: the choice of keys in recv_single, key updates, HANDSHAKE_DONE, the mark set by send_single and the timer in on_timeout; quiche/src/packet.rs: KeyUpdate. Keys are their generation; a packet opens with the keys it was sealed with and no others; deriving keys does not fail |
| NegModel | quiche/src/lib.rs: Version Negotiation, Retry, the server's choice of a version, and the ids and Initial keys they change, in recv_single; quiche/src/packet.rs: verify_retry_integrity, with the tag as a function argument. Restarting TLS does not fail, and there is an active path |
| KillModel | task-killswitch/src/lib.rs: spawning, registering, removing and killing tasks, as interleaved atomic steps under the shard locks. Tokio's scheduler is any interleaving. |
| BufModel | buffer-pool/src/buffer.rs and datagram-socket/src/buffer.rs, with the memory beyond the length of a vector. Metrics are not modelled. |
| PoolModel | buffer-pool/src/lib.rs: get, get_empty, from_owned, into_inner and drop, one step for each operation on an atomic or a queue; memory orderings weaker than sequential consistency are not modelled. |
| FilterModel | quiche/src/recovery/gcongestion/bbr/windowed_filter.rs: all of it, over integers. |
| BwModel | quiche/src/recovery/bandwidth.rs: conversions; not the products with floats. |
| RateModel | quiche/src/recovery/congestion/delivery_rate.rs: all of it; the quotient is exact instead of floating point. |
| PacerModel, PacerSpec, PacerProofs, PropPacer | the pacer: burst and lumpy tokens, release times and decisions, the cap; what the BBR2 controller answers is an input of each call |
| GRecModel, GRecSpec, GRecProofs, GRecRun, GRecStat, PropGRec | quiche/src/recovery/gcongestion/recovery.rs: RecoveryEpoch, LossThreshold and all of GRecovery but the calls to the pacer and the congestion controller, whose window and rate do not influence loss detection |
| SampModel, SampSpec, SampProofs, SampOrder, SampBytes, SampRest, SampPoints, PropSamp | the bandwidth sampler of BBR2: per-packet send state, ack points, samples, aggregation epochs; not the windowed filter of ack heights (FilterModel has the filter) |
| BbrNetModel, BbrNetSpec, BbrNetProofs, BbrNetRun, BbrNetRest, PropBbrNet | the network model of BBR2: rounds, bandwidth and round-trip filters, losses and bounds of a round, growth and queue checks; not the gains, the modes that drive them, the other ways of lowering bounds, nor the detector of round-trip jumps |
| BbrWinModel, PropBbrWin | the congestion window, its limits and the pacing rate of BBR2 as one state; what the modes and the network model decide is an argument of each event |
| BbrModeModel, BbrModeProofs, PropBbrMode | the modes of BBR2 and the phases of its probing cycle with their transitions; the answers of the network model are arguments of each event; not the gains, the lower bounds and the exit statistics |

Abstract: AEAD, hash and header protection primitives are function arguments; theorems name what they assume of them. Random numbers are inputs. Time is an input.

Not modelled: the TLS handshake (BoringSSL), sockets, qlog, the async driver in tokio-quiche, the pacing of the legacy recovery and the gains of the BBR2 controller.

## Findings

Each is a theorem with suffix `_refuted`: the property fails of the model on a concrete history.

- `C01_short_form_corrupts_refuted`: Writing a value with a length too small for it corrupts it instead of failing.
- `C02_length_prefixed_read_moves_refuted`: ... which consume the length before they fail: each of the three does.
- `C04_eviction_keeps_new_smallest_refuted`: The documentation of [insert] says the smallest range is dropped following the insertion. It is not: a new smallest range survives and the previous smallest one is dropped.
- `C04_small_capacity_panics_refuted`: C04 fails for capacities 1 to 3: inserting below a full set panics.
- `C06_fin_on_duplicate_frame_is_lost_refuted`: Finding: the end of the stream can be lost. The FIN arrives on a frame whose bytes were all read already (a legal retransmission); every byte and the final size are known, no read ever reported the end, and the stream is not readable.
- `C06_reset_after_fin_is_not_reported_refuted`: Finding: a RESET_STREAM that arrives after the final size is known throws away the unread data and is never reported: reads return Done for ever.
- `C09_empty_frames_charged_repeatedly_refuted`: Finding: an empty non-FIN frame beyond the received data is charged to the connection every time it arrives, although it carries nothing.
- `C12_fin_after_loss_never_sent_refuted`: Finding: also without collecting the stream. The first of two frames is lost; an empty write finishes the stream while that frame waits to be sent again. Sending it empties the queue: no frame ever carries the FIN.
- `C12_fin_after_reset_refuted`: Finding: shutting the write side down while data waits sends RESET_STREAM and then, from the stale queue entry, a FIN frame at the offset reached: the peer may take the truncated data for the whole stream.
- `C12_fin_never_sent_refuted`: Finding: the FIN may never be sent. The application wrote data that was sent and acknowledged, then finishes the stream with an empty write; the stream counts as complete at once, and reading the peer's FIN collects it before the FIN frame is built. No later event sends any frame.
- `C13_lost_fin_not_resent_refuted`: Finding: a lost FIN is not sent again when its frame also carried bytes that were acknowledged through another frame.
- `C13_no_room_stalls_stream_refuted`: Finding: a turn in which the frame header does not fit takes the stream out of the queue although it has data to send (the reserve of 12 bytes is less than the largest STREAM header), and nothing puts it back.
- `C14_collected_before_fin_acked_refuted`: Finding: completion does not wait for the acknowledgement of the FIN. The only frame with the FIN is lost after the stream was collected: the peer never learns the end of the stream, and nothing is sent any more.
- `C15_truncated_stream_ends_cleanly_refuted`: Finding, end to end: the sending application shuts the stream down with two of four bytes unsent; the RESET_STREAM frame is late, and the receiving application reads two bytes and a clean end of stream.
- `C17_one_byte_window_never_grows_refuted`: Finding: with a window of one byte the limit never grows: the whole byte is received and read, yet no update is due, so the peer stays blocked.
- `C18_empty_capacity_rejects_frame_refuted`: With a receive queue of size 0, which the configuration allows, processing a DATAGRAM frame fails although datagrams are enabled.
- `C18_short_read_loses_datagram_refuted`: Reading into a buffer that is too short loses the datagram.
- `C20_window_large_jump_refuted`: The bound on jumps in [C20_window_exact] is needed: the shift distance is cut to 32 bits. The decoder never makes such a jump, so the space is safe.
- `C24_permitted_accepted_refuted`: C24, the other direction, does not hold: Table 3 permits CONNECTION_CLOSE in 0-RTT packets and the code rejects the packet.
- `C25_crypto_decode_refuted`: C25: decoding by itself does not bound CRYPTO frames.
- `C29_config_rejected_refuted`: C29 fails for configurations the setters accept and the peer rejects.
- `C29_fits_refuted`: C29 fails in the 128 bytes the TLS code reserves (tls/mod.rs:465): an ordinary server that uses Retry, stateless reset tokens and 20-byte connection ids cannot be set up.
- `C29_zero_exponent_refuted`: C29 fails for an ACK delay exponent of zero, and for a maximum ACK delay of zero: they are left out, and the peer assumes the defaults 3 and 25.
- `C30_trailing_bytes_refuted`: C30 fails for junk after the integer in a value, for a disable_active_migration with a value, and for connection ids over 20 bytes: all of these are accepted.
- `C31_announce_all_refuted`: C31 fails otherwise: if the frame that announced an id is declared lost after the peer retired the id, sending NEW_CONNECTION_ID fails from then on, and with it every packet.
- `C31_failed_call_refuted`: C31 fails: a call that fails still retires an id of ours, so that a later frame asks the peer to retire it.
- `C31_frame_refuted`: C31 fails: after ids were forced out, frames with retire_prior_to above their own number are sent, which RFC 9000 19.15 makes the peer close the connection for (the last line: the same code at the peer).
- `C31_retire_again_refuted`: C31 fails for a frame that arrives twice: with one id left, the second RETIRE_CONNECTION_ID for an id already retired closes the connection.
- `C32_retire_prior_to_refuted`: C32 fails if one does: RFC 9000 19.15 lets the peer send an id again with a larger retire_prior_to, which is then ignored.
- `C32_retired_not_used_refuted`: C32 fails if one does: an id retired by the application, and whose retirement was sent, is active again after its NEW_CONNECTION_ID frame arrives again, and the next path uses it.
- `C37_served_refuted`: C37 fails without the condition on room: the code builds a STREAM frame in a packet with 13 bytes left, although the header of one may take 18. A stream whose header does not fit is taken off the queue of streams with data to send and not put back: no later packet carries its data, until the application writes more or something of it is lost (lib.rs:5240-5262).
- `C39_factor_refuted`: C39 fails with a send capacity factor above 1 (Config's set_send_capacity_factor): the factor scales what the peer's connection limit leaves, so with a limit of 10 and a factor of 2 the connection accepts 20 bytes and sends them in a STREAM frame.
- `C40_empty_frames_exhaust_connection_refuted`: Finding: two empty frames exhaust the connection limit although nothing was received; the peer's next legal byte closes the connection.
- `C41_padding_refuted`: The whole claim does not hold: the padding of a datagram with an Initial packet is never taken from the limit, so that four such datagrams pass three times the 1200 bytes received.
- `C41_replay_refuted`: Nor without padding: a 0-RTT packet that waits for its key is counted when it arrives and again when it is read.
- `C42_early_close_refuted`: A client that closes with an error of its application while in early data tells no one: its 0-RTT packets have room but no close frame in them, and since it no longer reads packets it will have no others.
- `C43_closed_refuted`: On a closed connection, which has no timeout any more, on_timeout still sets is_timed_out.
- `C43_early_refuted`: The active path may lose its id, to the peer or to retire_dcid. Then on_timeout does something at any time: it makes another path the active one.
- `C45_silent_failure_refuted`: A path that fails for the second time is not reported: its failure was already told once.
- `C46_lost_refuted`: A challenge that does not fit into the packet being sent is not answered at all: it has left the queue when that is found out.
- `C47_revalidation_finds_larger_mtu_refuted`: Revalidation does not find an MTU that has grown: the smallest failed probe size is kept, so the old value is reported again and never searched above.
- `C48_window_minimum_refuted`: The estimate need not be the minimum of the window, not even of its last fortieth: the filter keeps three samples and drops one (20, taken 22 of 1000 time units ago) that is smaller than all it still reports (30).
- `C49_smoothed_at_least_minimum_refuted`: The smoothed RTT can fall below every sample: both quotients of the update are rounded down, and samples of 7 ns take it to 0.
- `C51_lost_after_acked_refuted`: A frame should not be reported lost once it was reported acknowledged. This fails after a probe timeout, which queues copies of unacknowledged frames: they stay queued when the original packet is acknowledged.
- `C51_lost_without_ack_refuted`: A packet should be declared lost only if a packet sent after it was acknowledged. This fails for packet number 0: with nothing acknowledged the largest acknowledged packet is taken to be 0, so a change of path gives up packet 0 once the loss delay has passed.
- `C52_armed_refuted`: While bytes are in flight the timer should run. This fails if the only packets in flight are not ack-eliciting (a padded packet): the space then has no time to count from.
- `C52_earliest_deadline_refuted`: The timer should never be later than the earliest loss deadline. This fails: [None < Some _], so a space without a deadline hides the deadlines of earlier spaces. Here the Handshake space has a deadline and the application space has none: the timer is set to the probe timeout, later than the deadline.
- `C53_never_increased_by_loss_refuted`: Losing packets should never increase the window. This fails when the datagram size was reduced since the start: the minimum is computed with the old size.
- `C53_two_datagrams_refuted`: The window should never be below two datagrams of the current maximum size. This fails: the congestion controller keeps the size configured at the start, so when path MTU discovery finds a larger one the minimum window is too small.
- `C55_trailing_refuted`: RFC 9114 section 7.1 makes additional bytes after the fields of a frame a connection error of type H3_FRAME_ERROR. They are ignored: a GOAWAY frame of two bytes, of which the second is no part of the identifier.
- `C55_truncated_refuted`: RFC 9114 section 7.1: a frame that ends before the end of its fields is a connection error of type H3_FRAME_ERROR. The parser reports BufferTooShort, which is sent as 0x999, a code no document registers.
- `C56_body_lost_refuted`: Bytes of the body that were already copied are lost to the application when the frame after them is malformed: the call fails and does not say how many there are.
- `C56_data_event_refuted`: An application that reads the body when it is told that there is some, until there is no more, misses bytes of it: after an empty DATA frame followed by another, reading returns Done, and so does every poll from then on, although the second frame is there.
- `C56_finished_once_refuted`: The end of a stream is reported twice if the request and the end of the stream are there before the first poll and the application answers in between.
- `C57_http2_frames_refuted`: RFC 9114 section 7.2.8: the frame types 2, 6, 8 and 9 of HTTP/2 must be treated as an error of type H3_FRAME_UNEXPECTED. They are skipped.
- `C57_one_section_refuted`: RFC 9114 section 4.1: a request is one header section, then the body. A server accepts two header sections before the body.
- `C57_priority_id_refuted`: RFC 9218 section 7.1: a PRIORITY_UPDATE for a stream beyond the limit must be treated as an error of type H3_ID_ERROR. With a limit of one stream, the update for the second, stream 4, is accepted.
- `C57_push_promise_refuted`: RFC 9114 section 7.2.5: a client must treat a push promise with an id above what it allowed, and it never allows any, as an error of type H3_ID_ERROR. It is ignored.
- `C57_response_order_refuted`: A client accepts the body of a response before its header section.
- `C57_server_bidi_refuted`: RFC 9114 section 6.1: a client must treat a bidirectional stream opened by the server as an error of type H3_STREAM_CREATION_ERROR. It reads a message from it.
- `C57_truncated_refuted`: RFC 9114 section 7.1: a stream that ends inside a frame is an error of type H3_FRAME_ERROR. The end is reported as if the message were complete.
- `C57_untyped_stream_refuted`: RFC 9114 section 6.2: a unidirectional stream closed before its type was received must be tolerated. Poll fails with an error of the transport.
- `C59_truncated_refuted`: An integer that does not fit in 64 bits should be refused. The last continuation byte is shifted by 63 and its upper bits are lost (checked_shl checks only the shift), so 2^64 + 127 is decoded as 127.
- `C61_dynamic_refuted`: A section that needs the dynamic table (Required Insert Count other than zero) should be refused by a decoder that announces a table of capacity zero (RFC 9204, section 2.2.1). The count and the base are decoded and ignored.
- `C62_bad_huffman_refuted`: The error for a section that is too large should mean that it is. Huffman data that cannot be decoded is reported by the same error, whatever the limit, and never as invalid Huffman coding.
- `C63_code_refuted`: A client that gets a GOAWAY for a stream that is no request tells the application H3_ID_ERROR and the peer H3_FRAME_UNEXPECTED.
- `C63_large_id_refuted`: A server that announces a GOAWAY id of 2^62 panics (the id is a u64 and is a multiple of four); a client that sends a PRIORITY_UPDATE for such a stream does too.
- `C64_unconfirmed_client_refuted`: A client that has not got HANDSHAKE_DONE yet does not follow a server that updates its keys, as it may once a packet of the client has reached it: from then on it drops all the server sends, HANDSHAKE_DONE included.
- `C64_unconfirmed_update_refuted`: The update is not always confirmed by a packet sent: when the timer has dropped the old keys, or when a call to send had nothing to put into its packet, the next update is taken although nothing was sent with the keys before it.
- `C66_unsent_ack_rejected_refuted`: Finding: not every acknowledgement of a packet that was not sent is rejected. Before anything is sent in an epoch every ACK passes, and so do numbers used in other epochs.
- `C67_unexpected_retry_cid_refuted`: C67 fails for a retry_source_connection_id when there was no Retry: RFC 9000 section 7.3 makes it an error, the client accepts it.
- `C68_id_limit_refuted`: C68 fails after an application's retirement that did not fit in the queue of retirements: the id is gone, but its path still has it.
- `C68_reuse_refuted`: C68 fails when the peer migrates to a path without an id, and reuse is allowed, as it is by default: the id is shared, and when the peer retires it, the active path keeps it although it is gone, and nothing can be sent any more.
- `C69_late_retry_refuted`: A Retry is followed at any time, if its tag is right for the id in use, which anyone on the path sees: long after the handshake too, and the connection starts over.
- `C69_useless_retry_refuted`: A Retry packet without a token, or with the id the client already uses, is followed too; both must be discarded (RFC 9000, 17.2.5).
- `C69_vn_after_retry_refuted`: A Version Negotiation packet is followed after a Retry was, although the Retry is a packet the client has acted on.
- `C70_closed_stream_listed_refuted`: C70, the full claim that listed streams can be read, fails twice. First, a read of no bytes at the end of a stream that is complete closes the stream, then puts it back in the queue of readable streams: stream_readable_next returns a stream that no longer exists, and reading it fails with InvalidStreamState (lib.rs:5826-5858).
- `C70_reset_stream_listed_refuted`: Second, a RESET_STREAM after the end of the stream was received drops the data and leaves nothing to read, not even the error: the stream stays listed, reading it fails with Done, and since only a read would close it, it is never closed (recv_buf.rs:295-335, 121-125).
- `C71_exact_room_refuted`: C71: once stream_writable(id, n) returned false, the stream is not reported when it gets room for exactly n bytes: the comparison with the low watermark is strict (stream/mod.rs:834-838). Here the peer allows one byte more; a write of one byte would succeed, but the stream is not listed as writable.
- `C71_finished_refuted`: C71: the call returns true on a stream already finished, which takes nothing.
- `C72_factor_refuted`: C72 fails with a send capacity factor above 1: after more was accepted than the limit, the next call computes the limit minus the amount accepted, which underflows.
- `C74_lost_bytes_refuted`: The number of lost bytes should be the sum of the sizes of the packets declared lost. This fails: the counter is never updated and always 0.
- `C76_draining_refuted`: On a connection that the peer has closed, poll can loop forever: the limit on field sections allows a HEADERS frame of 2^24 bytes, the stream does not, and the error is swallowed because the connection cannot be closed any more. A turn of the loop leaves everything as it was and goes round again.
- `C76_early_body_refuted`: Reading the body of a stream that is known only from a PRIORITY_UPDATE makes the connection believe that the stream is finished: it reports its end, and the request that arrives on it later is never read.
- `C77_blocked_silent_refuted`: A call that fails with StreamBlocked can have written to the stream: the frames to be ignored are sent before the room for the header section is checked.
- `C77_empty_request_refuted`: A request without fields fails with an internal error.
- `C77_late_headers_refuted`: The documentation of send_additional_headers says that a server that has begun to send the body can send trailers only. It can send another header section, which a client takes for trailers.
- `C77_settings_cut_refuted`: If the peer lets the control stream take only a few bytes, a connection is created all the same, and of its SETTINGS frame a part is sent: the rest never is.
- `C78_none_active_refuted`: There can be none on a connection that is otherwise well: migrate makes a path active that has failed, and says that all is well.
- `C78_two_active_refuted`: There can be two active paths: the one that lost its id and was replaced is not told, and is active again when it gets another id.
- `C79_stuck_refuted`: But the path that is left is not made active: until on_timeout is called, which no timer asks for, the next packet received closes the connection.
- `C80_one_reset_code_refuted`: C80, as refuted: RFC 9000 (19.4, 13.3) has the content of a RESET_STREAM frame not change when it is sent again. When the application shuts the sending part down and the peer's STOP_SENDING arrives afterwards, a second RESET_STREAM frame is sent for the stream, with the other error code.
- `C81_retire_forgotten_refuted`: C81, as refuted for a full queue: the only RETIRE_CONNECTION_ID frame for id 0 is declared lost while as many retirements wait as the queue holds. The call that was to send a packet fails, and the frame is never sent again: the id is neither in use nor waiting.
- `C82_signal_before_last_abort_refuted`: Finding: [killed_signal()], documented to be triggered after all kill signals have been sent, can resolve while a task is running that was not told to stop: its spawn had started before the activation and is told of it only when it registers the task.
- `C82_tombstone_left_refuted`: Finding: the record of a task that is killed while running is never removed: its guard finds no entry and leaves a tombstone for ever.
- `C83_expand_shows_old_bytes_refuted`: A finding: expand makes readable what an earlier user of the pooled buffer left in it.
- `C83_expand_shrinks_refuted`: A finding: expand can cut the buffer short.
- `C83_expand_unreadable_refuted`: A finding: after bytes were consumed, expand to fewer than those leaves a buffer that cannot be read: reading it panics.
- `C83_truncate_overflow_refuted`: A finding: truncate is documented to do nothing when asked to keep more than there is, but with room at the front the sum overflows.
- `C84_small_limit_refuted`: A finding: a pool whose limit is below its number of shards never stores anything.
- `C84_thrown_away_refuted`: A finding: a buffer is thrown away although the shard stores nothing, because the counter still counts a buffer another thread has just fetched.
- `C85_exact_maximum_refuted`: A finding: the best is not the maximum of the window: a better sample, still in the window, was forgotten.
- `C85_time_backwards_refuted`: A finding: one sample with an earlier time panics the filter.
- `C86_rate_overflow_refuted`: A finding: an amount of 2.4 gigabytes measured over any time panics (with overflow checks off, gives a rate far too small).
- `C86_slow_rate_refuted`: A finding: a slow rate is reported as one bit per second although less was sent.
- `C86_zero_rate_refuted`: A finding: at rate zero the time to transfer anything is zero.
- `C87_late_acknowledgment_refuted`: A finding: an acknowledgment of an older packet alone recomputes the rate from the last sample with the time of then and the bytes of now: here 1000 bytes in each of two seconds give a rate of 2000 bytes per second, and more with every such acknowledgment.
- `C87_limited_mark_other_space_refuted`: A finding: packet numbers of all packet number spaces are compared: the mark that the application had nothing to send is removed by the acknowledgment of a packet of another space, sent before the mark.
- `C88_any_maximum_kept_refuted`: A maximum pacing rate of zero does not stop the sender, nor leave it at its own rate: it removes all pacing, for the time to transfer at rate zero is zero.
- `C88_released_in_order_refuted`: A packet that finds nothing in flight is released at once, and what the pacer held back before is forgotten: it may be told to go before a packet that was made earlier and then stopped counting as in flight.
- `C89_earliest_deadline_refuted`: The timer should never be later than the earliest loss deadline. This fails as in C52: a space without a deadline hides the deadlines of earlier spaces.
- `C89_lost_after_acked_refuted`: A frame should not be reported lost once it was reported acknowledged. This fails after a probe timeout, as in C51: the copies it queues stay queued when the original packet is acknowledged.
- `C89_lost_bytes_refuted`: The number of lost bytes should be the sum of the sizes of the packets given up. This fails: the counter is never updated and always 0.
- `C89_lost_count_refuted`: Every packet given up should be counted as lost. This fails for packets given up because the path changed: on_path_change, unlike the other implementation, does not add them to the count.
- `C89_lost_without_ack_refuted`: A packet should be given up only if a packet sent after it was acknowledged. This fails for packet number 0, as in C51: with nothing acknowledged the largest acknowledged packet is taken to be 0.
- `C89_spurious_at_most_lost_refuted`: There should be no more spurious losses than losses. This fails: a probe of the path MTU that is given up is not counted as lost, but if it is acknowledged after all the loss is counted as spurious, and raises the thresholds.
- `C90_lost_within_sent_refuted`: Finding: the bytes lost are not among the bytes sent: a packet in flight that carries no stream data is not counted when it is sent, and is counted when it is lost.
- `C90_no_fix_refuted`: Finding: with avoidance of overestimates but not the fix (the fix is a separate setting), a sample can start after its packet was sent and exceed the rate at which acknowledgments came over the packet's own flight: here three packets sent together are acknowledged at 1 s, 1.5 s and 1.5 s, 16 kbit/s in all, and the last sample is 31999 bit/s.
- `C90_start_before_epoch_refuted`: C90: the start an event adds is meant to be the last acknowledgment of the epoch before, and the two points kept are meant to be at distinct times. But when one event acknowledges several packets, the points are of that same event: the start added is at the time of the acknowledgment that starts the new epoch, not before.
- `C92_always_can_send_refuted`: C92: a limit can stop the sender: the pacer computes it from the greatest rate and the round trip alone, so it can be 0, below the lower limit; from the next event on nothing can be sent, even with nothing in flight, whatever is acknowledged, until the limit changes.
- `C92_initial_within_greatest_refuted`: C92: the greatest window does not bound the initial one.
- `C92_limit_at_once_refuted`: C92: a limit lower than the window does not bind before the next congestion event, which may be a round trip away.
- `C93_probe_rtt_ends_refuted`: C93: nothing bounds the length of PROBE_RTT: its time starts only once the bytes in flight are down to its target, a fraction of the bandwidth-delay product, while the window stays at the initial one or more (C92), which can be above that target; a sender with enough to send may stay in PROBE_RTT as long as it keeps more in flight.
