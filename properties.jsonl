{"id": "C01", "title": "UDP-Notif packet encode/decode round trip", "statement": "Writing any packet whose media type and option codes are canonical with UdpNotifPacket::write either reports a length error or yields bytes that UdpNotifPacket::parse / from_bytes decode back to an equal packet (same media type, ids, option map and payload), and the number of bytes written equals len().", "quantifier": "every packet value: media type, publisher id, message id, option map in any iteration order, payload of any length", "why_tests_cant": "options are stored in a hash map with arbitrary iteration order and both length fields are narrow, so the law must hold for every map order and every size at once", "anchors": ["crates/udp-notif-pkt/src/wire/serialize.rs: UdpNotifPacket::write", "crates/udp-notif-pkt/src/wire/deserialize.rs: UdpNotifPacket::parse, from_bytes", "crates/udp-notif-pkt/src/raw.rs: MediaType"]}
{"id": "C02", "title": "UDP-Notif datagram decoding is total on a fresh decoder", "statement": "A decoder that holds no partial-header state never panics on any datagram: it returns a packet, nothing, or an error, and when it returns a packet the header length and message length declared in the datagram equal its actual layout and the payload is exactly the bytes after the header.", "quantifier": "every byte string handed to a fresh UdpPacketCodec", "why_tests_cant": "the input space is all byte strings; slicing with attacker-controlled lengths must be in range for each of them", "anchors": ["crates/udp-notif-pkt/src/codec.rs: check_len, decode", "crates/udp-notif-pkt/src/wire/deserialize.rs: UdpNotifHeader::parse, from_bytes"]}
{"id": "C03", "title": "UDP-Notif segment reassembly is arrival-order independent", "statement": "When the segments 0..n-1 of one message (the last flagged) are delivered to a decoder in any order, each exactly once and interleaved with traffic for other messages, the decoder emits exactly one packet for the message, on arrival of the final missing segment, whose payload is the concatenation of segment payloads in segment-number order.", "quantifier": "every n >= 2, every permutation of the segments, every interleaving with segments of other (publisher id, message id) pairs", "why_tests_cant": "the number of orders is factorial in n and interleavings are unbounded", "anchors": ["crates/udp-notif-pkt/src/codec.rs: try_reassemble_segments, ReassemblyBuffer"]}
{"id": "C04", "title": "UDP-Notif never emits a message assembled from an incomplete or foreign segment set", "statement": "Every reassembled packet a decoder emits has the publisher and message id of the segment that completed it, and its payload is the concatenation in order of payloads of segments 0..n-1 that all arrived up to then for that same publisher and message id, a segment numbered n-1 and flagged last having arrived.", "quantifier": "every finite history of decoded packets", "why_tests_cant": "it is a statement about all histories, including duplicated, conflicting and out-of-range segments", "anchors": ["crates/udp-notif-pkt/src/codec.rs: add_segment, ready_to_reassemble, reassemble"]}
{"id": "C05", "title": "UDP-Notif options survive reassembly", "statement": "A message split into segments is delivered with every non-segmentation option that its segments carried.", "quantifier": "every segmented message and every placement of options on its segments", "why_tests_cant": "it needs all placements of options over segments, including on the first segment", "anchors": ["crates/udp-notif-pkt/src/codec.rs: reassemble lines 133-143"]}
{"id": "C06", "title": "A malformed or truncated UDP-Notif datagram cannot crash the receiver", "statement": "Whatever sequence of datagrams a peer sends, decoding each of them with that peer's long-lived decoder never panics.", "quantifier": "every finite sequence of datagrams from one peer", "why_tests_cant": "the failure needs a particular state left by one datagram followed by a particular second datagram", "anchors": ["crates/udp-notif-pkt/src/codec.rs: check_len", "crates/udp-notif-service/src/actor.rs: decode_pkt"]}
{"id": "C07", "title": "Byte reader cursor laws", "statement": "Every successful read returns the next bytes of the buffer interpreted big-endian, advances the position by exactly the bytes read and keeps the rest untouched; every failed read leaves the reader unchanged and reports offset, needed and available truthfully; sub-readers carry the absolute offset.", "quantifier": "every buffer, every position and every requested length (including lengths larger than the buffer)", "why_tests_cant": "it is a universally quantified law over buffers and widths that every other parser depends on", "anchors": ["crates/parse-utils/src/reader.rs: SliceReader"]}
{"id": "C08", "title": "Reduced-size integers are decoded to their mathematical value", "statement": "Reading an unsigned integer carried in k octets yields the base-256 value of those octets, and reading a signed one yields its two's-complement value sign-extended to the full width, for every k up to the type width; larger k is an error, not a truncation.", "quantifier": "all octet strings of length 0..8", "why_tests_cant": "exhaustive coverage is 2^64 values and the sign-extension trick relies on shift wrap-around at the boundary lengths", "anchors": ["crates/parse-utils/src/reader.rs: read_unsigned32_be, read_unsigned64_be, read_signed32_be, read_signed64_be"]}
{"id": "C09", "title": "BGP stream framing does not depend on how TCP splits the stream", "statement": "Feeding a byte stream to the BGP decoder in any chunking yields the same sequence of decoded messages, errors and leftover bytes as feeding it at once.", "quantifier": "every byte stream and every way to split it in reads", "why_tests_cant": "splits are exponential in stream length", "anchors": ["crates/bgp-pkt/src/codec.rs: BgpCodec::decode"]}
{"id": "C10", "title": "BGP decoder always makes progress", "statement": "Whenever the BGP decoder reports a message or an error it has consumed at least one byte, so a driver that loops on it terminates; when it reports nothing it has consumed nothing.", "quantifier": "every buffer content, including hostile length fields", "why_tests_cant": "length fields below the header size only matter for specific buffers", "anchors": ["crates/bgp-pkt/src/codec.rs: BgpCodec::decode"]}
{"id": "C11", "title": "BGP message length field is honoured in both directions", "statement": "A message accepted by the BGP parser occupies exactly the number of bytes of its length field, which lies in the range allowed for its type; a message written by the serializer carries a length field equal to the number of bytes written.", "quantifier": "every buffer, every message value", "why_tests_cant": "boundary lengths interact with extended-message negotiation and every message type", "anchors": ["crates/bgp-pkt/src/wire/deserializer/mod.rs: parse_bgp_message_length_and_type, BgpMessage::parse", "crates/bgp-pkt/src/wire/serializer/mod.rs: BgpMessage::write"]}
{"id": "C12", "title": "BGP OPEN and capability round trip", "statement": "Any OPEN message that fits in its length fields is decoded back to an equal message after being written, for every list of capabilities.", "quantifier": "every OPEN value and every capability list", "why_tests_cant": "nested variable-length TLVs of unbounded number", "anchors": ["crates/bgp-pkt/src/wire/serializer/open.rs", "crates/bgp-pkt/src/wire/deserializer/open.rs", "crates/bgp-pkt/src/wire/deserializer/capabilities.rs"]}
{"id": "C13", "title": "IP prefix NLRI round trip and canonicality", "statement": "Every IPv4/IPv6 prefix written to the wire occupies one length octet plus the minimal number of octets and is decoded back to the same prefix; prefix lengths beyond the family width are rejected.", "quantifier": "every prefix and every path id", "why_tests_cant": "2^32 * 33 IPv4 and 2^128 * 129 IPv6 prefixes", "anchors": ["crates/parse-utils/src/common.rs", "crates/bgp-pkt/src/wire/serializer/nlri/nlri.rs", "crates/bgp-pkt/src/wire/deserializer/nlri/nlri.rs"]}
{"id": "C14", "title": "BGP path attribute framing", "statement": "Writing a list of path attributes and parsing the attribute block back recovers the same attributes with the same flags and order, including the extended-length flag chosen for values longer than 255 bytes.", "quantifier": "every list of attributes whose values fit in 16-bit lengths", "why_tests_cant": "list length and value length unbounded; boundary at 255", "anchors": ["crates/bgp-pkt/src/wire/serializer/path_attribute/path_attribute.rs", "crates/bgp-pkt/src/wire/deserializer/path_attribute/path_attribute.rs"]}
{"id": "C15", "title": "BMP stream framing does not depend on how TCP splits the stream", "statement": "Feeding a BMP byte stream to the decoder in any chunking yields the same messages and errors as feeding it at once, and the decoder never panics.", "quantifier": "every byte stream and every chunking", "why_tests_cant": "splits are exponential in stream length; the decoder keeps an in-message flag across calls", "anchors": ["crates/bmp-pkt/src/codec.rs: BmpCodec::decode"]}
{"id": "C16", "title": "BMP per-peer add-path context follows the last peer-up", "statement": "A route-monitoring message for a peer is parsed with add-path decoding for an address family exactly when the latest peer-up for that peer negotiated it in that direction and no peer-down or termination happened since.", "quantifier": "every history of peer-up, peer-down, route-monitoring and termination messages over any number of peers", "why_tests_cant": "the state is a map over peers and depends on the whole history", "anchors": ["crates/bmp-pkt/src/codec.rs: BmpParsingContext::update"]}
{"id": "C17", "title": "Flow packet decoder consumes input on every outcome", "statement": "On every buffer the flow decoder either asks for more data without consuming, or consumes at least one byte and at most the buffer; a decoded IPFIX packet consumes exactly its declared length.", "quantifier": "every buffer and every template state", "why_tests_cant": "hostile length fields", "anchors": ["crates/flow-pkt/src/codec.rs: FlowInfoCodec::decode"]}
{"id": "C18", "title": "IPFIX data sets are decoded with the most recent template of the same id", "statement": "After any sequence of packets, a data set with set id t is decoded using exactly the fields of the last template or options template with id t received by that decoder, and if none was received the packet is rejected.", "quantifier": "every history of packets", "why_tests_cant": "templates can be redefined arbitrarily often, also within the packet that carries the data", "anchors": ["crates/flow-pkt/src/wire/deserializer/ipfix.rs: TemplateRecord, OptionsTemplateRecord, Set"]}
{"id": "C19", "title": "IPFIX template and set framing round trip", "statement": "Writing an IPFIX packet made of template sets and options template sets and parsing it back yields the same packet and leaves the decoder's template cache holding exactly those templates.", "quantifier": "every packet whose records fit their 16-bit lengths", "why_tests_cant": "unbounded numbers of sets, records and fields", "anchors": ["crates/flow-pkt/src/wire/serializer/ipfix.rs", "crates/flow-pkt/src/wire/deserializer/ipfix.rs"]}
{"id": "C20", "title": "Reduced-size field encoding round trip", "statement": "A field value written with a template length at least as large as the value needs is decoded back to the same value, and the field's declared length equals the bytes written.", "quantifier": "all integer-typed values and all legal template lengths", "why_tests_cant": "2^64 values times every legal length", "anchors": ["crates/ipfix-code-generator/src/generator.rs: field parsers and writers"]}
{"id": "C21", "title": "IPFIX variable-length field encoding follows RFC 7011", "statement": "A variable-length field of n bytes is written with a one byte length when n < 255 and with 255 followed by a two byte length otherwise, and read back accordingly.", "quantifier": "every value length", "why_tests_cant": "interoperability claim for every length, including those above 254", "anchors": ["crates/ipfix-code-generator/src/generator.rs: 1641-1643, 1781-1782"]}
{"id": "C22", "title": "Windowed aggregation neither loses nor duplicates data", "statement": "For every input sequence each item is either reported late exactly once or contributes to exactly one emitted window of its key, and after the input ends nothing is left unreported.", "quantifier": "every finite sequence of (time, key, value) items, any lateness and window duration", "why_tests_cant": "statement over all input histories and arrival orders", "anchors": ["crates/analytics/src/aggregation.rs: process_item, flush, TimeSeriesAggregator iterator"]}
{"id": "C23", "title": "A window is emitted at most once and never reopened", "statement": "With a positive window duration, for every key and window start at most one result is emitted over the whole run, no matter how late items arrive.", "quantifier": "every input sequence", "why_tests_cant": "needs every interleaving of late items and watermark advances", "anchors": ["crates/analytics/src/aggregation.rs: process_item"]}
{"id": "C24", "title": "Emitted windows contain the items aggregated in them", "statement": "Every item aggregated in an emitted window has its time inside the reported window bounds, and windows of one key do not overlap.", "quantifier": "every input sequence and every configured duration", "why_tests_cant": "depends on the relation between configured duration and truncation unit", "anchors": ["crates/analytics/src/aggregation.rs: get_window_start"]}
{"id": "C25", "title": "NETCONF framing round trip", "statement": "Any message encoded by the NETCONF codec in either framing and delivered whole is decoded back to the same message and the bytes following it are left in the buffer.", "quantifier": "every payload byte string and any following bytes", "why_tests_cant": "payload sizes unbounded, digits of chunk size unbounded", "anchors": ["crates/netconf-proto/src/codec.rs: encode, decode"]}
{"id": "C26", "title": "NETCONF decoding does not depend on how TCP splits the stream", "statement": "A chunk-framed NETCONF message is delivered no matter at which byte positions the stream is split into reads.", "quantifier": "every message, every split", "why_tests_cant": "the failing splits are single byte positions in a long stream", "anchors": ["crates/netconf-proto/src/codec.rs: decode 128-231"]}
{"id": "C27", "title": "BGP hold timer protects every established session", "statement": "In the OpenConfirm and Established states with a negotiated non-zero hold time, a hold timer no longer than the negotiated value is running, and it is restarted exactly by received keepalives and updates.", "quantifier": "every sequence of connection events", "why_tests_cant": "statement about all event histories", "anchors": ["crates/bgp-speaker/src/connection.rs: set_negotiated_timers, open_sent, open_confirm, established"]}
{"id": "C28", "title": "BGP FSM follows the allowed transitions", "statement": "The connection state machine only moves along the transitions of RFC 4271 and reaches Established only after an acceptable OPEN followed by a KEEPALIVE.", "quantifier": "every sequence of events and messages", "why_tests_cant": "all event histories", "anchors": ["crates/bgp-speaker/src/connection.rs", "crates/bgp-speaker/src/fsm.rs"]}
{"id": "C29", "title": "A standard route announcement is accepted", "statement": "In the Established state an UPDATE that announces IPv4 routes with the mandatory well-known attributes in any order is accepted and reported to the user.", "quantifier": "every permutation of attributes and any further attributes", "why_tests_cant": "order of attributes and presence of optional ones is combinatorial", "anchors": ["crates/bgp-speaker/src/connection.rs: handle_update_message 1238-1309"]}
{"id": "C30", "title": "Collision resolution keeps exactly one connection and both speakers agree", "statement": "When two connections exist between two speakers with distinct identifiers, each speaker keeps the connection initiated by the speaker with the higher BGP identifier, so both keep the same connection.", "quantifier": "every pair of identifiers and both roles", "why_tests_cant": "needs both sides' decisions for all identifiers", "anchors": ["crates/bgp-speaker/src/peer.rs: check_connection_collision"]}
{"id": "C31", "title": "Error handling picks the strongest applicable treatment", "statement": "The treatment applied to a malformed update is the most severe of the treatments of its individual errors and does not depend on the order in which errors were found.", "quantifier": "every list of errors", "why_tests_cant": "all error combinations", "anchors": ["crates/bgp-speaker/src/connection.rs: update_treatment", "crates/bgp-speaker/src/events.rs: UpdateTreatment"]}
{"id": "C32", "title": "Enrichment cache holds the highest-weight metadata", "statement": "After any sequence of upserts the cached value for a (peer, domain, scope, field) is the last upserted value among those whose weight was not below the weight stored at that time, i.e. the most recent value of maximal weight.", "quantifier": "every sequence of upserts and deletes", "why_tests_cant": "all histories over unboundedly many peers and scopes", "anchors": ["crates/collector/src/flow/enrichment/cache.rs: upsert, delete"]}
{"id": "C33", "title": "Enrichment deletes remove exactly what they name", "statement": "A delete with weight w removes exactly the named fields (or all fields) of the given peer, domain and scope whose weight is at most w; nothing else changes, and no empty containers remain.", "quantifier": "every cache state and every delete operation", "why_tests_cant": "frame condition over the whole cache", "anchors": ["crates/collector/src/flow/enrichment/cache.rs: delete"]}
{"id": "C34", "title": "Record enrichment chooses by weight then specificity", "statement": "For each field the record is enriched with the value of maximal weight among all scopes matching the record, ties going to the domain-specific scope, and the result does not depend on hash map order.", "quantifier": "every cache content and every record", "why_tests_cant": "hash iteration order is arbitrary", "anchors": ["crates/collector/src/flow/enrichment/cache.rs: get_enrichment_fields, merge_fields"]}
{"id": "C35", "title": "Flow aggregation is independent of arrival order", "statement": "The aggregated record for a group of flows carries for each field the sum / min / max / bitwise-or over the group, whatever the order in which they arrived, and the record count equals the number of flows.", "quantifier": "every multiset of flow records and every order", "why_tests_cant": "factorially many orders", "anchors": ["crates/collector/src/flow/aggregation/aggregator.rs: push, reduce", "crates/ipfix-code-generator/src/generator.rs: field operations"]}
{"id": "C36", "title": "Sampling renormalization uses the advertised sampling method", "statement": "Byte and packet counters are multiplied by the factor of the sampling method the record advertises (or that can be inferred), and a record without usable sampling information is forwarded unchanged.", "quantifier": "every record", "why_tests_cant": "combinatorial presence of ten optional fields with priorities", "anchors": ["crates/collector/src/flow/renormalization/logic.rs"]}
{"id": "C37", "title": "Flow collector keeps template state of peers separate", "statement": "Packets from one peer never affect how packets of another peer are decoded, and after purging a peer its packets are decoded as by a fresh decoder.", "quantifier": "every interleaving of packets from any number of peers and purge commands", "why_tests_cant": "non-interference over all interleavings", "anchors": ["crates/flow-service/src/flow_actor.rs: decode_pkt, handle_purge_peer"]}
{"id": "C38", "title": "Purging unused peers frees their template cache", "statement": "After a purge of unused peers, every peer reported as purged is no longer listed as a known peer and no template of it remains.", "quantifier": "every actor state", "why_tests_cant": "needs the relation between two maps in all reachable states", "anchors": ["crates/flow-service/src/flow_actor.rs: handle_purge_unused_peers"]}
{"id": "C39", "title": "Collector subscriptions receive every packet exactly once", "statement": "Every decoded packet is handed once to each current subscriber whose channel has room, subscriber ids are never reused, and an unsubscribed or closed subscriber receives nothing further.", "quantifier": "every interleaving of subscribe, unsubscribe, close and packet events", "why_tests_cant": "all histories", "anchors": ["crates/flow-service/src/flow_actor.rs: handle_subscribe, handle_unsubscribe, handle_decoded_pkt", "crates/udp-notif-service/src/actor.rs"]}
{"id": "C40", "title": "VLAN stripping removes only VLAN tags", "statement": "The packet reader strips up to four VLAN tags and returns the ethertype and payload that follow them; other frames are returned unchanged, and no frame makes it read out of bounds.", "quantifier": "every frame", "why_tests_cant": "all byte strings", "anchors": ["crates/pcap-reader/src/lib.rs: strip_vlan_tags"]}
{"id": "C41", "title": "Timed-out UDP-Notif messages are discarded exactly", "statement": "Cleaning up a decoder at time t with duration d drops exactly the incomplete messages whose first segment arrived more than d before t and keeps all others unchanged.", "quantifier": "every reachable decoder state, every time and duration", "why_tests_cant": "all histories and times", "anchors": ["crates/udp-notif-pkt/src/codec.rs: cleanup_timed_out_messages, is_timed_out"]}
{"id": "C42", "title": "BGP decoding never panics", "statement": "No sequence of bytes makes the BGP decoder panic, whatever the session negotiated.", "quantifier": "every byte string, every negotiated session state", "why_tests_cant": "hostile inputs are unbounded and arithmetic overflow needs deep label stacks", "anchors": ["crates/bgp-pkt/src/codec.rs: BgpCodec::decode", "crates/bgp-pkt/src/wire/deserializer/nlri/nlri.rs"]}
{"id": "C43", "title": "A tolerated path attribute error stays local", "statement": "When the decoder is told to tolerate malformed path attributes, a malformed attribute with a correct length field is reported and the attributes after it are decoded as if it were not there.", "quantifier": "every malformed attribute and every attribute list around it", "why_tests_cant": "which attribute is malformed in which way is unbounded", "anchors": ["crates/bgp-pkt/src/wire/deserializer/update.rs: handle_path_error, BgpUpdateMessage::parse"]}
{"id": "C44", "title": "A tolerated capability error stays local", "statement": "When the decoder is told to tolerate malformed capabilities, a malformed capability with a correct length field is reported and the capabilities after it are decoded as if it were not there.", "quantifier": "every malformed capability and every capability list around it", "why_tests_cant": "which capability is malformed in which way is unbounded", "anchors": ["crates/bgp-pkt/src/wire/deserializer/open.rs"]}
{"id": "C45", "title": "Every BGP parsing error becomes a NOTIFICATION the peer can read", "statement": "The NOTIFICATION derived from any parsing error carries a registered code and subcode, can be written, and is decoded by the peer to the same notification.", "quantifier": "every parsing error", "why_tests_cant": "the error types nest several enums deep", "anchors": ["crates/bgp-pkt/src/wire/deserializer/mod.rs: From<BgpMessageParsingError> for BgpNotificationMessage", "crates/bgp-pkt/src/wire/deserializer/update.rs", "crates/bgp-pkt/src/wire/deserializer/open.rs"]}
{"id": "C46", "title": "AS number width follows the negotiation", "statement": "In every history of messages sent and received on a session, AS paths are decoded with four-octet AS numbers exactly when the last OPEN sent and the last OPEN received both announced the capability.", "quantifier": "every interleaving of sent and received messages", "why_tests_cant": "histories are unbounded", "anchors": ["crates/bgp-pkt/src/codec.rs: BgpCodec::decode, encode"]}
{"id": "C47", "title": "The tolerated errors reported with a message are its own", "statement": "The list of tolerated parsing errors handed out with a decoded message contains errors of that message only.", "quantifier": "every history of decoded messages", "why_tests_cant": "needs a message that fails after a tolerated error, followed by another", "anchors": ["crates/bgp-pkt/src/codec.rs: BgpCodec::decode", "crates/bgp-pkt/src/wire/deserializer/mod.rs: BgpParsingContext::reset_parsing_errors"]}
{"id": "C48", "title": "Labelled, VPN, EVPN and route-target NLRI round trip", "statement": "Every labelled-unicast, VPN, EVPN and route-target element that fits its length fields is decoded back to the same element after being written, for every label stack and path id.", "quantifier": "every element of those families, every label stack within the negotiated limit", "why_tests_cant": "stacks, distinguishers and prefixes are unbounded combinations", "anchors": ["crates/bgp-pkt/src/wire/serializer/nlri/nlri.rs", "crates/bgp-pkt/src/wire/deserializer/nlri/nlri.rs"]}
{"id": "C49", "title": "A BGP session delivers what was sent", "statement": "Any sequence of BGP messages that two speakers may exchange, written back to back and split arbitrarily by the transport, is decoded to exactly that sequence, with no tolerated errors and nothing left over.", "quantifier": "every message sequence, every chunking, every negotiated state", "why_tests_cant": "composes unbounded lists of unbounded messages with unbounded splits", "anchors": ["crates/bgp-pkt/src/codec.rs", "crates/bgp-pkt/src/wire/serializer/mod.rs"]}
{"id": "C50", "title": "BMP messages and streams round trip", "statement": "Any BMP v3 or v4 message within the wire format's limits, written by the library, is decoded back by the BMP codec to an equal message, leaving exactly the bytes that follow it; and a whole stream of such messages written one after the other, where each route monitoring message is written with the capabilities its peer has announced so far, is decoded in order whatever the read sizes.", "quantifier": "every BMP message value, every capability history, every trailing bytes and every split of the stream into reads", "why_tests_cant": "Messages nest BGP messages whose decoding depends on the state built by earlier messages of the stream; tests cover single packets with a fresh state.", "anchors": ["crates/bmp-pkt/src/wire/serializer/v3.rs", "crates/bmp-pkt/src/wire/serializer/v4.rs", "crates/bmp-pkt/src/wire/deserializer/v3.rs", "crates/bmp-pkt/src/wire/deserializer/v4.rs", "crates/bmp-pkt/src/codec.rs BmpCodec"]}
{"id": "C51", "title": "One BMP frame is one outcome", "statement": "A complete BMP frame in the buffer yields exactly one outcome, a message or an error, and consumes exactly the octets its length field announces, so an undecodable frame never eats into the next one; an incomplete frame yields nothing and consumes nothing.", "quantifier": "every sequence of frames of supported version, every content of the frames, every split into reads", "why_tests_cant": "The resynchronisation after a bad frame must hold for any bad content and any chunking.", "anchors": ["crates/bmp-pkt/src/codec.rs BmpCodec::decode"]}
{"id": "C52", "title": "BMP length fields equal the octets written", "statement": "The length the library computes for a BMP message, the length field it writes and the number of octets it writes agree, for every message it can represent.", "quantifier": "every BMP message value", "why_tests_cant": "Nested TLVs and BGP messages of any size; arithmetic on lengths wraps silently or panics at the limits.", "anchors": ["crates/bmp-pkt/src/wire/serializer/mod.rs", "crates/bmp-pkt/src/wire/serializer/v4.rs"]}
{"id": "C53", "title": "The BMP peer's label limit follows the negotiation history", "statement": "The number of MPLS labels the codec accepts per prefix of a peer is what the last peer-up of that peer negotiated, and the default after a peer-down or before any peer-up.", "quantifier": "every BMP byte stream, every peer and every address type", "why_tests_cant": "Depends on the whole stream before.", "anchors": ["crates/bmp-pkt/src/codec.rs", "crates/bgp-pkt/src/wire/deserializer/mod.rs BgpParsingContext"]}
{"id": "C54", "title": "BMP peers are independent", "statement": "A message that is not a peer-up or peer-down, and any decoding error, leaves the negotiated settings of every peer unchanged; a peer-up or peer-down changes only the peer it is about.", "quantifier": "every decoder state, every buffer, every pair of peers", "why_tests_cant": "Cross-peer interference only shows up in combinations of peers.", "anchors": ["crates/bmp-pkt/src/codec.rs", "crates/bmp-pkt/src/wire/deserializer/mod.rs BmpParsingContext"]}
{"id": "C55", "title": "AS number width in route monitoring follows the peer header", "statement": "AS paths of a route monitoring message are decoded with two-octet AS numbers exactly when the peer header's A flag says so, whatever was negotiated or seen before.", "quantifier": "every decoder state and every buffer that yields a route monitoring message", "why_tests_cant": "State from earlier messages must not leak into the width for any history.", "anchors": ["crates/bmp-pkt/src/wire/deserializer/v3.rs RouteMonitoringMessage", "crates/bmp-pkt/src/wire/deserializer/v4.rs RouteMonitoringMessage"]}
{"id": "C56", "title": "An accepted BMP message holds everything in its frame", "statement": "When the codec accepts a frame, no BGP message in the frame is left out of the decoded value.", "quantifier": "every frame the codec accepts", "why_tests_cant": "Quantifies over all accepted frames, including TLV orders and repetitions no exporter in the test corpus produces.", "anchors": ["crates/bmp-pkt/src/wire/deserializer/v4.rs RouteMonitoringMessage"]}
{"id": "C57", "title": "Late items are exactly those behind the watermark", "statement": "An item is reported late exactly when an earlier item of the same key is ahead of it by more than the allowed lateness; every other item is in the window of its key and minute, in arrival order.", "quantifier": "every input sequence, every key, lateness and positive window duration, every aggregator", "why_tests_cant": "Lateness depends on the whole history per key; interleavings of keys and times are unbounded.", "anchors": ["crates/analytics/src/aggregation.rs WindowAggregator::process_item"]}
{"id": "C58", "title": "Windows are emitted as soon as they are over and not before", "statement": "Whenever the source has nothing more to deliver for now, the results handed out are exactly those of the windows that end no later than the minute holding the oldest time still acceptable for their key.", "quantifier": "every input sequence and every moment the source pauses", "why_tests_cant": "Quantifies over all histories and pause points.", "anchors": ["crates/analytics/src/aggregation.rs WindowAggregator::process_item", "crates/analytics/src/aggregation.rs WindowedAggregationStreamAdaptor::poll_next"]}
{"id": "C59", "title": "Windowing does not panic", "statement": "Aggregating items whose times are ordinary calendar times never panics.", "quantifier": "every input sequence, duration and lateness", "why_tests_cant": "Date arithmetic at the ends of the calendar and for large durations is not covered by examples.", "anchors": ["crates/analytics/src/aggregation.rs WindowAggregator::process_item", "crates/analytics/src/aggregation.rs WindowAggregator::flush"]}
{"id": "C60", "title": "NETCONF chunk headers that RFC 6242 forbids are refused", "statement": "A chunk header is accepted only if it is LF, #, a decimal number between 1 and 4294967295 without sign or leading zero, LF.", "quantifier": "every input", "why_tests_cant": "the header is free text; all byte strings count", "anchors": ["crates/netconf-proto/src/codec.rs: decode 163-199"]}
{"id": "C61", "title": "NETCONF decoding always makes progress", "statement": "Whatever bytes arrive, in whatever reads, the NETCONF decoder neither panics nor answers without end, and each message it delivers consumes input.", "quantifier": "every byte stream and every split into reads", "why_tests_cant": "unbounded streams", "anchors": ["crates/netconf-proto/src/codec.rs: decode"]}
{"id": "C62", "title": "Every packet of a capture is read once with its own link type", "statement": "Iterating over a capture yields, in file order, the datagram of every packet that carries one, dissected with the link type of the interface the packet was captured on, and does not stop early.", "quantifier": "every sequence of capture blocks", "why_tests_cant": "captures are arbitrary block sequences; only common ones are in the test files", "anchors": ["crates/pcap-reader/src/lib.rs: PcapIter::next"]}
{"id": "C63", "title": "Sharded subscriptions keep a peer on one channel", "statement": "With a sharded subscription every packet of one source address is handed to the same shard, for the whole life of the subscription.", "quantifier": "every history of packets, subscriptions and purges, any number of shards", "why_tests_cant": "must hold for all addresses, shard counts and interleavings", "anchors": ["crates/flow-service/src/flow_actor.rs: handle_decoded_pkt"]}
{"id": "C64", "title": "Equal weights prefer the more specific scope", "statement": "When two scopes of the same observation domain both match a record and hold a value of the same weight for a field, the record is enriched with the value of the scope that lists more match fields, as the enrichment cache documents.", "quantifier": "all cache histories, peers, domains, records and pairs of matching scopes", "why_tests_cant": "The winner depends on how the scopes sort, which tests only sample", "anchors": ["crates/collector/src/flow/enrichment/cache.rs: PeerMetadata::get_enrichment_fields, IndexedScopeFields"]}
{"id": "C65", "title": "A scope is a set of match fields", "statement": "Two operations naming the same match fields in a different order address the same scope, since they match the same records.", "quantifier": "all scopes and permutations of their fields", "why_tests_cant": "The tests write scopes in one order only", "anchors": ["crates/collector/src/flow/enrichment/cache.rs: IndexedScopeFields::new"]}
{"id": "C66", "title": "Enrichment only adds", "statement": "Enriching a packet leaves every data set and every data record in place and in order; each record keeps its own fields first, then the enrichment answer for exactly those fields, then the writer id; only template sets and options records are dropped.", "quantifier": "all packets, cache contents and peers", "why_tests_cant": "Packets with several sets and mixed records are too many to enumerate", "anchors": ["crates/collector/src/flow/enrichment/actor.rs: enrich_ipfix_packet"]}
{"id": "C67", "title": "Renormalization is applied once", "statement": "A record that is already marked as renormalized keeps its counters when it passes the renormalization stage again.", "quantifier": "all records and numbers of passes", "why_tests_cant": "Each stage is tested alone", "anchors": ["crates/collector/src/flow/renormalization/logic.rs: renormalize_fields"]}
{"id": "C68", "title": "A hold time of zero disables the timers", "statement": "When the negotiated hold time is zero the session is never closed for lack of messages from the peer.", "quantifier": "every configuration, every sequence of messages and timer expiries on a connection", "why_tests_cant": "the stale timer only fires minutes after the handshake of a peer that sends nothing", "anchors": ["crates/bgp-speaker/src/connection.rs: set_negotiated_timers, start_hold_timer, handle_open_sent_event"]}
{"id": "C69", "title": "Keepalives are sent in time", "statement": "Once the peer's OPEN is accepted and the negotiated hold time is not zero, a KEEPALIVE is sent whenever the keepalive interval has passed since the last UPDATE or KEEPALIVE was sent.", "quantifier": "every configuration, every sequence of messages, expiries and sends with working writes", "why_tests_cant": "tests run one interval, not every interleaving of sends, receipts and expiries", "anchors": ["crates/bgp-speaker/src/connection.rs: Connection::poll_next, start_send, handle_open_confirm_event, handle_established_event"]}
{"id": "C70", "title": "Withdrawals are accepted", "statement": "An UPDATE that only withdraws IPv4 routes, which needs no path attributes, is accepted in the Established state.", "quantifier": "every list of withdrawn routes", "why_tests_cant": "holds for all updates, tests use a few captured ones", "anchors": ["crates/bgp-speaker/src/connection.rs: handle_update_message"]}
{"id": "C71", "title": "The order of path attributes does not matter", "statement": "Whether an UPDATE is accepted does not depend on the order of its path attributes: missing mandatory attributes and repeated MP_REACH_NLRI or MP_UNREACH_NLRI are found wherever they are.", "quantifier": "every update and every permutation of its attributes", "why_tests_cant": "the number of orders grows factorially", "anchors": ["crates/bgp-speaker/src/connection.rs: handle_update_message"]}
{"id": "C72", "title": "A session closed for an error of the peer ends with a NOTIFICATION", "statement": "When a message of the peer cannot be decoded and the session is closed for it, the peer is sent the NOTIFICATION of that error.", "quantifier": "every decoding error in every state after OPEN was sent", "why_tests_cant": "errors times states is too many cases for examples", "anchors": ["crates/bgp-speaker/src/connection.rs: handle_open_sent_event, handle_open_confirm_event, handle_established_event", "crates/bgp-speaker/src/events.rs: From<BgpCodecDecoderError>"]}
{"id": "C73", "title": "A started peer keeps trying to connect", "statement": "A peer that was started and has no connection always has another attempt ahead of it.", "quantifier": "every history of commands, attempts, failures and messages", "why_tests_cant": "a liveness property over unbounded histories", "anchors": ["crates/bgp-speaker/src/peer.rs: start, handle_active_connection, run"]}
{"id": "C74", "title": "Commands take effect in order", "statement": "Start and stop commands given to a peer take effect in the order in which they were given.", "quantifier": "every sequence of commands and every interleaving with the peer's loop", "why_tests_cant": "commands only pile up under a particular schedule", "anchors": ["crates/bgp-speaker/src/peer.rs: add_admin_event, run", "crates/bgp-speaker/src/peer_controller.rs: handle_peer_event"]}
{"id": "C75", "title": "A stopped peer is idle", "statement": "A peer that was stopped, or never started, is in Idle, has no connection, and takes none.", "quantifier": "every history of commands, attempts, failures and messages", "why_tests_cant": "a safety property over unbounded histories", "anchors": ["crates/bgp-speaker/src/peer.rs: shutdown, accept_connection, run"]}
{"id": "C76", "title": "A second connection does not end the peer", "statement": "While writes succeed, whatever arrives on the connections of a peer, the peer goes on.", "quantifier": "every history of commands, attempts and messages on both connections", "why_tests_cant": "needs a particular interleaving of two connections", "anchors": ["crates/bgp-speaker/src/peer.rs: handle_connection_event, handle_connect_event, fsm_state_from_tracked"]}
{"id": "C77", "title": "Messages are only sent on an established session", "statement": "A message the user gives to a peer is written only to a connection in the Established state.", "quantifier": "every state of the peer and every message", "why_tests_cant": "the state at the time of the call depends on the schedule", "anchors": ["crates/bgp-speaker/src/peer.rs: send_bgp_message"]}
{"id": "C78", "title": "The connection kept after a collision goes on", "statement": "After a connection collision is resolved, the remaining connection proceeds with every message that was received on it.", "quantifier": "every interleaving of messages on the two connections", "why_tests_cant": "needs a particular interleaving of two connections", "anchors": ["crates/bgp-speaker/src/peer.rs: next_connection_event, handle_connect_event"]}
{"id": "C79", "title": "The OPEN speaks for the configured AS", "statement": "The OPEN of the default policy announces the configured AS number, as two octets or as four-octet capability, and echoes of the peer's capabilities do not change it.", "quantifier": "every AS number, capability list and received OPEN", "why_tests_cant": "the number of capability combinations is unbounded", "anchors": ["crates/bgp-speaker/src/peer.rs: EchoCapabilitiesPolicy::open_message, pre_handle_connection_event_hook", "crates/bgp-pkt/src/open.rs: my_asn4"]}
{"id": "C80", "title": "IPFIX stream decoding does not depend on how the stream is cut", "statement": "Feeding the decoder the bytes of a sequence of IPFIX messages in arbitrary pieces yields the same packets and errors in the same order as handing it each message whole, and leaves nothing in the buffer.", "quantifier": "every sequence of messages (valid or not), every way of cutting it", "why_tests_cant": "segment boundaries fall anywhere, also inside headers", "anchors": ["crates/flow-pkt/src/codec.rs: FlowInfoCodec::decode"]}
{"id": "C81", "title": "IPFIX packets with data sets round trip", "statement": "A packet of template, options template and data sets written by the encoder is decoded back to the same packet by a decoder that knows its templates or finds them earlier in the packet.", "quantifier": "every packet whose values have an encoding in their template length, every template state", "why_tests_cant": "unbounded numbers of sets, records and fields, every template length", "anchors": ["crates/flow-pkt/src/wire/serializer/ipfix.rs: DataRecord, Set, IpfixPacket", "crates/flow-pkt/src/codec.rs: FlowInfoCodec::encode"]}
{"id": "C82", "title": "NetFlow v9 packets round trip", "statement": "A NetFlow v9 packet written by the encoder is decoded back to the same packet, consuming exactly its bytes, whatever follows it in the buffer; with alignment requested every set is a multiple of four bytes.", "quantifier": "every packet whose values have an encoding in their template length, every following bytes", "why_tests_cant": "depends on counts over all sets and on what follows in the buffer", "anchors": ["crates/flow-pkt/src/wire/serializer/netflow.rs", "crates/flow-pkt/src/wire/deserializer/netflow.rs: NetFlowV9Packet, Set"]}
{"id": "C83", "title": "Boolean fields follow RFC 7011", "statement": "A boolean field is written as 1 for true and 2 for false, and these are read as true and false.", "quantifier": "both values, both directions", "why_tests_cant": "interoperability claim; tests round trip through the same code", "anchors": ["crates/ipfix-code-generator/src/generator.rs: boolean parsers and writers"]}
{"id": "C84", "title": "Timestamps keep their value", "statement": "A date and time written in a dateTime field is read back to the precision of the type, and the encoding is that of RFC 7011: seconds and milliseconds since 1970, NTP seconds since 1900 and binary fraction for microseconds and nanoseconds.", "quantifier": "every representable time, every encoding", "why_tests_cant": "2^64 encodings, floating point conversion", "anchors": ["crates/ipfix-code-generator/src/generator.rs: generate_date_time_seconds, generate_date_time_milli, generate_date_time_micro"]}
{"id": "C85", "title": "Template withdrawal removes the template", "statement": "After a template withdrawal for an id, data sets with that id are rejected until a new template is received.", "quantifier": "every history of packets", "why_tests_cant": "needs histories of define, withdraw and data", "anchors": ["crates/flow-pkt/src/wire/deserializer/ipfix.rs: TemplateRecord"]}
{"id": "C86", "title": "Templates of different observation domains do not interfere", "statement": "A data set is decoded with a template received for the same observation domain.", "quantifier": "every interleaving of packets of several observation domains", "why_tests_cant": "needs interleaved exporters with clashing ids", "anchors": ["crates/flow-pkt/src/ipfix.rs: TemplatesMap", "crates/flow-pkt/src/codec.rs: FlowInfoCodec"]}
{"id": "C87", "title": "Unregistered enterprise fields are carried through", "statement": "A field of an enterprise element that is not in a registry is decoded to its raw bytes and written back the same, in every template length, variable length included.", "quantifier": "every enterprise number, element id and value", "why_tests_cant": "every vendor's elements", "anchors": ["crates/ipfix-code-generator/src/generator.rs: Unknown variants"]}
{"id": "C88", "title": "Unregistered IANA elements do not lose the rest of the packet", "statement": "A template with an element unknown to the decoder does not prevent the other templates and data of the packet from being decoded.", "quantifier": "every element id missing from the registry", "why_tests_cant": "depends on the registry of another implementation", "anchors": ["crates/flow-pkt/src/wire/deserializer/mod.rs: FieldSpecifier"]}
{"id": "C89", "title": "A rejected packet changes nothing", "statement": "When the decoder reports an error for a packet, later packets are decoded as if it had not been received.", "quantifier": "every rejected packet and every history after it", "why_tests_cant": "the trace shows only in later packets", "anchors": ["crates/flow-pkt/src/codec.rs: parse_ipfix", "crates/flow-pkt/src/wire/deserializer/ipfix.rs"]}
{"id": "C90", "title": "Announced field length equals bytes written", "statement": "The length a field reports for a template length is the number of bytes its writer emits for it.", "quantifier": "every field, value and template length", "why_tests_cant": "set lengths are computed from it before writing", "anchors": ["crates/ipfix-code-generator/src/generator.rs: len and write of fields"]}
{"id": "C91", "title": "A template's processed count is the number of records decoded with it", "statement": "The processed count of a template is the number of data records decoded with it since it was received.", "quantifier": "every history of packets", "why_tests_cant": "needs sets with several records", "anchors": ["crates/flow-pkt/src/ipfix.rs: DecodingTemplate::processed_count", "crates/flow-pkt/src/wire/deserializer/ipfix.rs: Set"]}
{"id": "C92", "title": "Set padding is accepted", "statement": "Up to three zero bytes after the records of a set do not change what is decoded.", "quantifier": "every kind of set", "why_tests_cant": "RFC 7011 leaves padding to the exporter", "anchors": ["crates/flow-pkt/src/wire/deserializer/ipfix.rs: Set"]}
{"id": "C93", "title": "The length field of a written IPFIX message is its length", "statement": "A message is written with its own length in the header, or an error is returned.", "quantifier": "every packet, of any size", "why_tests_cant": "needs messages over 64 KiB", "anchors": ["crates/flow-pkt/src/wire/serializer/ipfix.rs: IpfixPacket"]}
{"id": "C94", "title": "Fixed-size values never exceed their template length", "statement": "A string or octet value is written in exactly the length its template declares, or an error is returned.", "quantifier": "every value and fixed template length", "why_tests_cant": "data sets are decoded by position, so one byte too many shifts all that follows", "anchors": ["crates/ipfix-code-generator/src/generator.rs: string and octetArray writers"]}
{"id": "C95", "title": "Only legal templates are accepted", "statement": "Whatever datagrams a flow decoder receives, every template it returns or keeps has an id of at least 256, and each of its fields is a registered element announced with a length its type allows, or an enterprise element.", "quantifier": "all byte strings, all sequences of datagrams to a new decoder, all element registries", "why_tests_cant": "The set of template encodings and histories is unbounded; a single illegal template left in the cache misreads all later data.", "anchors": ["crates/flow-pkt/src/lib.rs FieldSpecifier::new", "crates/flow-pkt/src/ie.rs length_range", "crates/flow-pkt/src/wire/deserializer/ipfix.rs", "crates/flow-pkt/src/wire/deserializer/netflow.rs"]}
{"id": "C96", "title": "A received field is written back unchanged", "statement": "A field value decoded from a fixed number of octets and encoded again with the same template length gives exactly the octets received.", "quantifier": "all types, all legal lengths, all octet strings", "why_tests_cant": "Every octet string of every length is a different case.", "anchors": ["crates/ipfix-code-generator/src/generator.rs", "crates/iana/src/tcp.rs TCPHeaderFlags"]}
{"id": "C97", "title": "Left-over octets of a data set are padding", "statement": "Octets of a data set after its last complete record are zero padding; anything else makes the packet malformed.", "quantifier": "all data sets", "why_tests_cant": "Lengths and contents of the remainder are unbounded.", "anchors": ["crates/flow-pkt/src/wire/deserializer/ipfix.rs Set::parse", "crates/flow-pkt/src/wire/deserializer/netflow.rs check_padding_value"]}
{"id": "C98", "title": "Encoding a flow packet never panics", "statement": "Encoding any IPFIX packet with a codec in any state it can reach returns bytes or an error and never panics.", "quantifier": "all packets, all codec histories", "why_tests_cant": "The packet need not match the templates the codec happens to hold; tests only write packets that do.", "anchors": ["crates/flow-pkt/src/codec.rs FlowInfoCodec::encode", "crates/ipfix-code-generator/src/generator.rs"]}
{"id": "C99", "title": "A change of an enrichment file sends exactly the difference", "statement": "Whenever a configured file changes, appears, disappears or becomes unreadable, the file input sends one delete for each payload that the configured files said before and no longer say, then one upsert for each payload they newly say, and nothing else. Rewriting a file with the same lines (reordered, repeated, re-indented or with other comments) sends nothing.", "quantifier": "every configuration, initial file contents, history of file events, file text and hash set order", "why_tests_cant": "Tests edit one small file once; the claim ranges over all texts, all earlier histories and all iteration orders of the hash sets.", "anchors": ["crates/collector/src/inputs/files/processor.rs: FileProcessor::process_file_changes, purge_file", "crates/collector/src/inputs/files/actor.rs: FilesActor::handle_file_change, handle_file_system_event, setup_file_watcher", "crates/collector/src/inputs/files/handlers.rs: handle_line"]}
{"id": "C100", "title": "The enrichment cache follows the files", "statement": "After any history of file changes the enrichment cache holds exactly the values that the configured files currently provide.", "quantifier": "every configuration, every history of creations, edits, removals and read failures of the files, every hash set order", "why_tests_cant": "A test checks a few edits; divergence needs particular pairs of lines and particular histories.", "anchors": ["crates/collector/src/inputs/files/actor.rs: FilesActor::run", "crates/collector/src/inputs/files/processor.rs: FileProcessor", "crates/collector/src/flow/enrichment/cache.rs: EnrichmentCache"]}
{"id": "C101", "title": "A configured file is loaded whenever it comes to exist", "statement": "A configured enrichment file that does not exist when the collector starts is read once it is created.", "quantifier": "every configuration and every history of file events, in every layout of directories", "why_tests_cant": "Tests create the file before or next to another existing file.", "anchors": ["crates/collector/src/inputs/files/actor.rs: setup_file_watcher, add_file_to_watch, handle_file_system_event"]}
{"id": "C102", "title": "A pmacct map line is read exactly when it describes an entry", "statement": "A line of a pmacct map is accepted exactly when all its assignments are to known keys with values of their type, id and ip are given, and at most one of in, out and mpls_vpn_id is; the entry is what the last assignments say. The order of the words does not matter when no key is set twice. A word that is no assignment is an error.", "quantifier": "every text", "why_tests_cant": "Unbounded texts; tests give a handful of lines.", "anchors": ["crates/collector/src/inputs/files/formats/pmacct_maps.rs: PmacctMapEntry::parse_line"]}
{"id": "C103", "title": "Route distinguishers in maps are read as the eight octets they spell", "statement": "The id of a route distinguisher map is accepted exactly when it is one of the three textual forms with numbers in range, and yields type, administrator and assigned number as eight octets; a text has one value, and texts with one value spell the same parts.", "quantifier": "every text", "why_tests_cant": "All texts and all 64 bit values.", "anchors": ["crates/collector/src/inputs/files/formats/pmacct_maps.rs: parse_field_from_string"]}
{"id": "C104", "title": "Records are enriched with what the files currently say", "statement": "After any history of file changes, a flow record is enriched with exactly one value for each element that some line of the files gives for a scope the record matches, namely a value said by such a line, no heavier value being said.", "quantifier": "every configuration, every history of file changes, every record", "why_tests_cant": "Crosses two actors and all histories.", "anchors": ["crates/collector/src/inputs/files/actor.rs: FilesActor::run", "crates/collector/src/flow/enrichment/cache.rs: EnrichmentCache::get_enrichment_fields"]}
{"id": "C105", "title": "Configuring a file twice reads it in both formats", "statement": "A path listed twice in the configuration with different formats is read in both, and what either reading provided is withdrawn when the file disappears.", "quantifier": "every configuration", "why_tests_cant": "Tests configure each path once.", "anchors": ["crates/collector/src/inputs/files/actor.rs: setup_file_watcher, handle_file_change"]}
{"id": "C106", "title": "Options records are read as what they tell", "statement": "Every IPFIX or NetFlow v9 options record that is not refused produces one enrichment operation for each thing it tells (sampling and unclassified records as they are without padding and exporting process, interface names and VRF names per direction), addressed to the exporter and observation domain of its packet, and no other operation; records whose two identifiers differ, names without a name, records without scope and NetFlow scopes that have no IPFIX equivalent produce nothing.", "quantifier": "every options record, exporter, domain, weight and hash order", "why_tests_cant": "Tests use a handful of records; the claim covers every combination of elements, repeated ones included.", "anchors": ["crates/collector/src/inputs/flow_options/normalize.rs: OptionsDataRecord::classify, into_normalized_records", "crates/collector/src/inputs/flow_options/handlers.rs: handle_option_record, upsert_from_rec", "crates/collector/src/inputs/flow_options/actor.rs: run"]}
{"id": "C107", "title": "Options reach the records they describe", "statement": "After an options record has been processed, every data record of the same exporter and domain that carries its condition is enriched with the information, whatever was stored before, unless something that applies to the record and is not lighter is stored for the same element; sending the options record again does not change this.", "quantifier": "every history of the cache, options record, data record and hash order", "why_tests_cant": "Tests enrich a record after one options record on an empty cache.", "anchors": ["crates/collector/src/inputs/flow_options/actor.rs: run", "crates/collector/src/flow/enrichment/cache.rs"]}
{"id": "C108", "title": "Options of other exporters and domains have no effect", "statement": "What a data record of an exporter and observation domain is enriched with depends only on the options packets of that exporter for that domain or for domain 0.", "quantifier": "every sequence of options packets", "why_tests_cant": "Tests do not interleave exporters and domains.", "anchors": ["crates/collector/src/inputs/flow_options/actor.rs: run", "crates/collector/src/flow/enrichment/cache.rs"]}
{"id": "C109", "title": "NetFlow v9 interface scope applies to records of the interface", "statement": "Options a NetFlow v9 exporter scopes to an interface apply to the records that have this interface as ingress or egress.", "quantifier": "every options record with an interface scope", "why_tests_cant": "Tests check the translated scope, not which records match it.", "anchors": ["crates/collector/src/inputs/flow_options/normalize.rs: TryFrom<netflow::DataRecord> for OptionsDataRecord"]}
{"id": "C110", "title": "Repeated elements keep their order", "statement": "When an element occurs more than once in an options record, enriched records get the occurrences in the order of the options record.", "quantifier": "every options record and hash order", "why_tests_cant": "The order of a hash table is fixed within a test run.", "anchors": ["crates/collector/src/inputs/flow_options/normalize.rs: normalize_sampling_type, normalize_unclassified_type", "crates/collector/src/inputs/flow_options/handlers.rs: upsert_from_rec"]}
{"id": "C111", "title": "Sonata inventory is what nodes are named from", "statement": "While no two nodes of the inventory have the same address at a time, the caches of flow enrichment and of YANG-Push enrichment hold, for every address, the host and platform names in the last message of the node that has it and nothing for addresses no node has, whatever other operations that do not concern these two names are interleaved.", "quantifier": "every sequence of inventory messages interleaved with other operations", "why_tests_cant": "Tests replay one insert, update or delete.", "anchors": ["crates/collector/src/inputs/kafka/handlers.rs: SonataHandler::handle_message", "crates/collector/src/inputs/kafka/formats/sonata.rs"]}
{"id": "C112", "title": "A node that takes over an address keeps its name", "statement": "A node that takes over the address of another node stays named when the other node is removed or moved afterwards.", "quantifier": "every sequence of inventory messages", "why_tests_cant": "Needs the messages of two nodes in a particular order.", "anchors": ["crates/collector/src/inputs/kafka/handlers.rs: SonataHandler::handle_message"]}
{"id": "C113", "title": "Labels obey weights", "statement": "An operation on the labels of a node replaces or deletes exactly the labels it names (the last of a name counts) whose weight is at most its own; no other label of this or another node changes, and every label stored was upserted for that node under that name.", "quantifier": "every history of label operations", "why_tests_cant": "Tests use short histories.", "anchors": ["crates/collector/src/yang_push/enrichment.rs: YangPushEnrichmentActor::apply_enrichment"]}
{"id": "C114", "title": "Messages carry exactly the labels of their node", "statement": "A YANG-Push message is given exactly the labels stored for its node, each name once, and none if no label is stored.", "quantifier": "every history of label operations and every node", "why_tests_cant": "Tests use short histories.", "anchors": ["crates/collector/src/yang_push/enrichment.rs: YangPushEnrichmentActor::process_decoded_udp_notif_packet"]}
{"id": "C115", "title": "Cached YANG libraries are found by subscription and by content id exactly while they are held", "statement": "After any sequence of put and remove calls on the YANG library cache, looking up a subscription gives the library that was put for it and not removed since, and looking up a content id succeeds exactly when some subscription holds it; reading through the returned reference gives the library and schemas that were put. Differences only in the collector, interface or port of the peer do not matter.", "quantifier": "all sequences of put / remove-by-content-id / remove-by-subscription, all libraries and schemas, all directory removal orders", "why_tests_cant": "the maps and the directory evolve with the whole history; tests run a handful of short sequences", "anchors": ["crates/yang-push/src/cache/storage.rs: YangLibraryCache::{put_yang_library,remove_by_content_id,remove_by_subscription_info,get_by_subscription_info,get_by_content_id}, YangLibraryReference::{yang_library,load_schemas}"]}
{"id": "C116", "title": "The cache survives a restart", "statement": "Loading the cache directory after any history of completed calls gives a cache that answers every lookup as the running one did, whatever order the file system lists directories in.", "quantifier": "all histories, all permutations of the directory listing, all libraries", "why_tests_cant": "depends on the listing order of the file system and on every library shape", "anchors": ["crates/yang-push/src/cache/storage.rs: YangLibraryCache::from_disk, YangLibraryReference::{load_from_disk,save_to_disk}", "crates/netconf-proto/src/yanglib.rs: YangLibrary::load_schemas, find_module, find_import_only_module"]}
{"id": "C117", "title": "A held subscription is found by peer address and subscription id", "statement": "Looking up a peer address and subscription id finds the subscription currently held with that id together with its library, and nothing when none is held.", "quantifier": "all histories of put and remove calls", "why_tests_cant": "the secondary index is updated by three different calls; only some interleavings go wrong", "anchors": ["crates/yang-push/src/cache/storage.rs: YangLibraryCache::get_by_subscription_id, remove_by_content_id, remove_by_subscription_info"]}
{"id": "C118", "title": "A crash during a cache update leaves a loadable cache", "statement": "If the process stops at any point during a cache call, the next start loads either the state before the call or the state after it.", "quantifier": "all histories, all calls, all crash points between two file system operations, all removal orders", "why_tests_cant": "tests cannot stop the process between two file system calls", "anchors": ["crates/yang-push/src/cache/storage.rs: save_to_disk, append_subscription_info, remove_subscription_info, remove_by_content_id, from_disk"]}
{"id": "C119", "title": "Cached libraries stay below the cache directory", "statement": "The directory in which a library is stored is a child of the cache root, whatever the content id.", "quantifier": "all root paths and content ids", "why_tests_cant": "content ids come from devices; path traversal inputs are open-ended", "anchors": ["crates/yang-push/src/cache/storage.rs: put_yang_library (Path::join with the content id), remove_by_subscription_info"]}
{"id": "C120", "title": "A cache request gets at most one answer", "statement": "The cache actor sends at most one response for every request, and none to requesters that did not ask, whatever the order of requests, fetch completions and disconnections.", "quantifier": "all event sequences", "why_tests_cant": "interleavings of concurrent requests and fetches", "anchors": ["crates/yang-push/src/cache/actor.rs: CacheActor::run, handle_cache_lookup_command, handle_worker_result, pending_requests"]}
{"id": "C121", "title": "No streaming lookup is forgotten", "statement": "A streaming lookup is answered at once, or it waits for a fetch that is in flight; when all fetches in flight have ended, with success or error, everybody has been answered.", "quantifier": "all event sequences without panics and disconnections, all outcomes of the fetches", "why_tests_cant": "interleavings of concurrent requests and fetches", "anchors": ["crates/yang-push/src/cache/actor.rs: pending_requests, handle_worker_result, handle_get_by_subscription_info, handle_get_by_subscription_id"]}
{"id": "C122", "title": "Concurrent lookups share one fetch", "statement": "At any time at most one fetch is in flight for a subscription, or for an id of a peer, however many lookups wait for it.", "quantifier": "all sequences of streaming lookups and fetch completions", "why_tests_cant": "interleavings of lookups and completions, including by-id and by-subscription fetches of the same subscription", "anchors": ["crates/yang-push/src/cache/actor.rs: pending_requests, start_fetch"]}
{"id": "C123", "title": "One-shot lookups are always answered", "statement": "A one-shot lookup that waits for the device is answered with the library found, or with none.", "quantifier": "all states, all outcomes of the fetch, all later events", "why_tests_cant": "the missing answer only shows as a caller waiting for ever", "anchors": ["crates/yang-push/src/cache/actor.rs: handle_one_shot lookups by subscription info and by subscription id"]}
{"id": "C124", "title": "A fetch that did not succeed can be repeated", "statement": "After a fetch ended without a library, a later lookup for the same subscription starts a new fetch.", "quantifier": "all histories, all ways the fetch can end, including a panic of its task", "why_tests_cant": "needs a panicking task at a given moment, then an arbitrary continuation", "anchors": ["crates/yang-push/src/cache/actor.rs: run (JoinSet result), handle_worker_result, pending_requests", "crates/yang-push/src/cache/fetcher.rs"]}
{"id": "C125", "title": "Cache answers concern what was asked", "statement": "A response names the subscription (or the peer and id) that was asked for, and a library in a response is in the cache under its content id.", "quantifier": "all event sequences with distinct requesters", "why_tests_cant": "responses are delivered through a table shared by all waiting requests", "anchors": ["crates/yang-push/src/cache/actor.rs: handle_worker_result, CacheResponse"]}
{"id": "C126", "title": "Scanning a schema for its dependencies returns", "statement": "Extracting the imports and includes of a YANG schema text returns (with dependencies or an error) for every text a device may send, including texts that are cut short.", "quantifier": "every text, every layout of modules, every point at which a text is cut", "why_tests_cant": "A test scans a few complete modules; a loop without an end-of-text test shows only on the cut or oddly quoted texts nobody wrote down.", "anchors": ["crates/yang-push/src/yangparser.rs: extract_yang_dependencies, YangDependenciesParser::parse, parse_import, parse_include, skip_statement"]}
{"id": "C127", "title": "Scanning a schema does not panic", "statement": "Extracting the dependencies of a YANG schema text never panics, whatever characters the text has and wherever they stand.", "quantifier": "every text over all Unicode characters, every reading of the character classes outside ASCII", "why_tests_cant": "Byte offsets are mixed with characters; a panic needs a multi-byte character at one particular place.", "anchors": ["crates/yang-push/src/yangparser.rs: skip_whitespace_and_comments, peek_identifier, match_keyword, read_identifier"]}
{"id": "C128", "title": "The scan finds exactly the dependencies of a module", "statement": "For every well-formed YANG module or submodule text, however it is laid out, commented and quoted, the extracted dependencies are exactly its import and include statements, in order, each with its name, prefix and revision date.", "quantifier": "every module text of the YANG concrete syntax (layout, comments, strings with escapes and concatenation, nested statements)", "why_tests_cant": "Modules differ in unboundedly many layouts and names; tests use a handful of conventional ones.", "anchors": ["crates/yang-push/src/yangparser.rs: extract_yang_dependencies, YangDependencies, YangImport, YangInclude, read_string_or_identifier, skip_statement, skip_one_token"]}
{"id": "C129", "title": "Loading a module with its dependencies ends and asks for each name once", "statement": "Loading modules with all their dependencies from a device ends, also when modules import each other, and sends at most one request per name, only for names and revisions the device's YANG library lists.", "quantifier": "every YANG library, every list of seed modules, every answer the device gives, every dependency relation between the texts", "why_tests_cant": "Cyclic and shared dependencies are unboundedly many shapes; a request sent twice or a loop shows only on some.", "anchors": ["crates/netconf-proto/src/client.rs: NetConfSshClient::load_from_modules", "crates/netconf-proto/src/yanglib.rs: YangLibrary::find_module, find_submodule, find_import_module"]}
{"id": "C130", "title": "Loading fetches exactly the dependency closure", "statement": "If loading succeeds, the schemas returned are exactly those of the seeds and of everything reachable from them by import, include, deviation and augmentation, each with the text the device gave for the listed revision; the returned library lists exactly the modules and import-only modules among them. The result does not depend on the compatibility checker.", "quantifier": "every library in which a name stands for one thing, every seed list, every device", "why_tests_cant": "Missing or surplus modules depend on the shape of the dependency graph; tests have two or three modules.", "anchors": ["crates/netconf-proto/src/client.rs: NetConfSshClient::load_from_modules", "crates/netconf-proto/src/yanglib.rs: ModuleSetBuilder"]}
{"id": "C131", "title": "Loading succeeds whenever the device can serve what is needed", "statement": "If every seed is listed and every needed text is served and readable, loading the seeds succeeds.", "quantifier": "every library whose modules include their own submodules, every seed list, every device that serves all needed texts", "why_tests_cant": "Whether a submodule is accepted depends on the order in which the queue reaches it.", "anchors": ["crates/netconf-proto/src/client.rs: NetConfSshClient::load_from_modules", "crates/netconf-proto/src/yanglib.rs: ModuleSetBuilder::add_submodule_for_module, build_yang_lib"]}
{"id": "C132", "title": "A YANG library can be extended and rebuilt", "statement": "A library with all its schemas can be turned into a builder; after any number of successful extensions the builder produces a library without panicking, in which extended modules have the features the extension selects; a refused extension changes nothing.", "quantifier": "every library, schema map, compatibility checker and list of extensions", "why_tests_cant": "The consistency of the builder is an invariant over all sequences of additions.", "anchors": ["crates/netconf-proto/src/yanglib.rs: YangLibrary::into_module_set_builder, ModuleSetBuilder::extend_from_yang_lib, build_yang_lib"]}
{"id": "C133", "title": "The content id identifies the library", "statement": "Two libraries built from modules get the same content id only if they list the same modules with the same revisions, features and schemas, and listing the same modules in another order does not change the id.", "quantifier": "every pair of builders, every hash function (injective for the second part)", "why_tests_cant": "Collisions come from pairs of libraries; a test compares a few ids with recorded values.", "anchors": ["crates/netconf-proto/src/yanglib.rs: ModuleSetBuilder::build_yang_lib"]}
{"id": "C134", "title": "Dependency graph of a YANG library is exact", "statement": "When a dependency graph is produced from a YANG library and the module texts, its nodes are listed names including every module and import-only module, without duplicates, and it has an edge from b to a exactly when a depends on b: when a's text (or the text of something it includes) imports or includes b, or when a is listed as augmenting or deviating b. Producing the graph ends and problems are reported as errors.", "quantifier": "All YANG libraries (including inconsistent ones), all module texts, all include and import relations, any depth.", "why_tests_cant": "Ranges over all libraries and all dependency relations, including circular ones; tests check a few fixed libraries.", "anchors": ["crates/netconf-proto/src/yanglib.rs: YangLibrary::to_graph", "crates/netconf-proto/src/yanglib.rs: add_deps_to_graph, construct_nodes"]}
{"id": "C135", "title": "Schema registration follows dependencies and is complete", "statement": "Registering the schema of a root module registers every module of the library exactly once, each after everything it depends on, with its own text and features and with references, sorted by name, to exactly its dependencies; every reference names the subject and version the registry returned earlier; the root is then registered again with references to what it depends on and to everything nothing depends on. Nothing panics.", "quantifier": "All libraries, texts, topological orders and all behaviours of the registry (any answer or error at any call, depending on the whole history).", "why_tests_cant": "Ranges over all libraries and all registry behaviours; tests use a mock registry and a few libraries.", "anchors": ["crates/netconf-proto/src/yanglib.rs: YangLibrary::register_schema"]}
{"id": "C136", "title": "References carry the version the registry gave; its compatibility check decides", "statement": "A reference never carries a version that the registry did not return, and a schema the registry refuses as incompatible is not registered.", "quantifier": "All libraries and all behaviours of the registry, including refusals and answers without a version.", "why_tests_cant": "Depends on refusals and version-less answers at any point of a run; tests use a registry that grants everything.", "anchors": ["crates/netconf-proto/src/yanglib.rs: register_with_retry"]}
{"id": "C137", "title": "A session's calls return the device's answer to what was asked", "statement": "Every call on a NETCONF session that returns a value (a schema, the YANG library, the filters, a subscription) returns what the device answered to that very request, whatever replies were lost, repeated, late or out of order; and with a device that answers every request the calls keep succeeding, also after a message nobody asked for.", "quantifier": "All sequences of calls, all sequences of incoming messages, all failures to send.", "why_tests_cant": "The pairing of requests and replies depends on the whole history of the connection.", "anchors": ["crates/netconf-proto/src/client.rs: rpc, rpc_reply, validate_message_id, get_schema, get_yang_library"]}
{"id": "C138", "title": "A NETCONF reply is paired with its request by the message id alone", "statement": "No two requests of a session have the same message id, a reply is only taken for a request whose id it names, closing needs the reply to the close, and a reply that carries errors is not a success.", "quantifier": "All sequences of calls of any length and all replies.", "why_tests_cant": "The ids repeat only after 2^32 requests, and unnamed replies only mislead after an earlier disturbance.", "anchors": ["crates/netconf-proto/src/client.rs: next_message_id, validate_message_id, close"]}
{"id": "C139", "title": "The session keeps the YANG library and the filters it has read", "statement": "A device is asked at most once per session for its YANG library and for its YANG-Push filters; later calls are served from the session.", "quantifier": "All sequences of calls and replies.", "why_tests_cant": "A claim about the number of requests over all histories.", "anchors": ["crates/netconf-proto/src/client.rs: get_yang_library, get_yang_push_filters"]}
{"id": "C140", "title": "A subscription's filter reference is resolved", "statement": "A subscription fetched by id whose selection names a filter comes back with the filter the device has under that name, or the call fails.", "quantifier": "All subscriptions, filters, replies and call sequences.", "why_tests_cant": "Ranges over all contents of the filter table and over interleaved requests.", "anchors": ["crates/netconf-proto/src/client.rs: get_yang_push_subscription_by_id, get_yang_push_filters"]}
{"id": "C141", "title": "When a NETCONF session opens", "statement": "A session opens exactly when the client offers base 1.1 and not base 1.0, the hello could be sent and the peer's first message is a hello with a session id; when the configuration is refused nothing is sent.", "quantifier": "All capability sets and all first messages.", "why_tests_cant": "Ranges over all sets of capabilities and all message sequences.", "anchors": ["crates/netconf-proto/src/client.rs: connect, exchange_hello"]}
{"id": "C142", "title": "Extended communities survive the wire", "statement": "Every BGP extended community and IPv6 extended community a program can build is written as eight (twenty) octets that begin with the registered type and sub-type, and is read back as the same value, alone or in a list of any length.", "quantifier": "every well-formed community of every kind; every list of them; whatever octets follow", "why_tests_cant": "about sixty named kinds with 48 to 144 bits of content each, in lists of any length", "anchors": ["crates/bgp-pkt/src/wire/serializer/community.rs", "crates/bgp-pkt/src/wire/deserializer/community.rs", "crates/bgp-pkt/src/community.rs: ExtendedCommunity, ExtendedCommunityIpv6"]}
{"id": "C143", "title": "Any octets are an extended community, and are passed on unchanged", "statement": "Any eight octets are read as some extended community (any twenty as an IPv6 one), consuming exactly those; fewer octets are an error, never a panic; and writing the result gives the same octets back, unless reserved bits were set.", "quantifier": "every octet string and whatever follows it", "why_tests_cant": "2^64 (2^160) inputs, of which tests look at a handful", "anchors": ["crates/bgp-pkt/src/wire/deserializer/community.rs", "crates/bgp-pkt/src/wire/serializer/community.rs"]}
{"id": "C144", "title": "Transitivity of a community is what its type octet says", "statement": "The properties an extended community reports (transitive across autonomous systems, defined by IANA) are those of the type octet it is read from and written with.", "quantifier": "every extended community", "why_tests_cant": "has to hold for all kinds and contents, and relates two independent pieces of code", "anchors": ["crates/bgp-pkt/src/community.rs: ExtendedCommunityProperties"]}
{"id": "C145", "title": "The text of a community identifies it", "statement": "Two different communities, large communities or extended communities never have the same text; a community splits into the AS number and the value it is made of.", "quantifier": "all pairs of values", "why_tests_cant": "ranges over all pairs of 32-bit (96-bit, 64-bit) values", "anchors": ["crates/bgp-pkt/src/community.rs: Display", "crates/bgp-pkt/src/iana.rs: WellKnownCommunity"]}
{"id": "C146", "title": "BGP-LS attributes survive writing and reading", "statement": "Every BGP-LS attribute whose values are in the range of their fields is written in the layout of RFC 7752 and RFC 9086, with the registered type codes, and reading those octets, whatever follows them, gives the same attribute.", "quantifier": "every list of values, both forms of the attribute length, every continuation", "why_tests_cant": "thirty kinds of value with unbounded lists in them, in any order and number", "anchors": ["crates/bgp-pkt/src/path_attribute/bgp_ls.rs: BgpLsAttribute", "crates/bgp-pkt/src/wire/serializer/path_attribute/bgp_ls.rs", "crates/bgp-pkt/src/wire/deserializer/path_attribute/bgp_ls.rs"]}
{"id": "C147", "title": "Reading a BGP-LS attribute is total and confined", "statement": "Any octets give an attribute or an error, never a panic or endless loop; the attribute's declared length is what is consumed, and the answer depends on those octets only; the same for each value inside it; values of unassigned types are kept as they are.", "quantifier": "every input, every continuation", "why_tests_cant": "hostile peers choose the input", "anchors": ["crates/bgp-pkt/src/wire/deserializer/path_attribute/bgp_ls.rs", "crates/bgp-pkt/src/wire/deserializer/mod.rs: read_tlv_header_t16_l16"]}
{"id": "C148", "title": "A BGP-LS attribute that was accepted can be sent on", "statement": "Whatever BGP-LS attribute is accepted can be written again, and reading that gives the same values.", "quantifier": "every input the reader accepts", "why_tests_cant": "quantifies over all accepted inputs, including non-canonical ones", "anchors": ["crates/bgp-pkt/src/wire/serializer/path_attribute/bgp_ls.rs", "crates/bgp-pkt/src/wire/deserializer/path_attribute/bgp_ls.rs"]}
{"id": "C149", "title": "PREFIX_SID attributes survive writing and reading", "statement": "Every PREFIX_SID attribute in range, with its SRv6 services nested three levels deep, is written in the layout of RFC 8669 and RFC 9252 and read back as it was; whatever is accepted can be written again and read with the same result.", "quantifier": "every list of TLVs, sub-TLVs and sub-sub-TLVs, every accepted input", "why_tests_cant": "unbounded nested lists whose lengths depend on each other", "anchors": ["crates/bgp-pkt/src/path_attribute/bgp_sid.rs", "crates/bgp-pkt/src/wire/serializer/path_attribute/bgp_sid.rs", "crates/bgp-pkt/src/wire/deserializer/path_attribute/bgp_sid.rs"]}
{"id": "C150", "title": "Reading a PREFIX_SID attribute is total and confined", "statement": "Any octets give an attribute or an error; the declared lengths, of the attribute and of each TLV in it, are what is consumed and all the answer depends on; TLVs of unrecognised types are passed on.", "quantifier": "every input, every continuation", "why_tests_cant": "hostile peers choose the input", "anchors": ["crates/bgp-pkt/src/wire/deserializer/path_attribute/bgp_sid.rs"]}
{"id": "C151", "title": "BGP-LS NLRI survive writing and reading", "statement": "Every node, link and prefix NLRI in range, plain or VPN, with a path identifier exactly when the session uses them, is written in the layout of RFC 7752 and read back as it was, whatever follows.", "quantifier": "every NLRI, route distinguisher and path identifier, every continuation", "why_tests_cant": "unbounded nested descriptor lists", "anchors": ["crates/bgp-pkt/src/nlri.rs: BgpLsNlri, BgpLsVpnNlri", "crates/bgp-pkt/src/wire/serializer/nlri/bgp_ls.rs", "crates/bgp-pkt/src/wire/deserializer/nlri/bgp_ls.rs"]}
{"id": "C152", "title": "Reading BGP-LS NLRI is total and confined", "statement": "Any octets give an NLRI or an error; the declared length is what is consumed and all the answer depends on, for unknown types too; whatever is accepted can be written again and read with the same result.", "quantifier": "every input, every continuation", "why_tests_cant": "hostile peers choose the input", "anchors": ["crates/bgp-pkt/src/wire/deserializer/nlri/bgp_ls.rs"]}
{"id": "C153", "title": "Length fields of BGP-LS and PREFIX_SID TLVs count what follows", "statement": "Every BGP-LS value and PREFIX_SID TLV is written with a length field equal to the number of octets after it.", "quantifier": "every value, of any size", "why_tests_cant": "sizes around and beyond 65536 octets are out of reach of examples", "anchors": ["crates/bgp-pkt/src/wire/serializer/mod.rs: write_tlv_header_t16_l16, write_tlv_header_t8_l16"]}
{"id": "C154", "title": "The BMP collector delivers each message once per subscriber and in order", "statement": "Everything the collector offers to a subscriber's channel is a message read from that connection; no subscriber is offered the same message twice; each sees a connection's messages in the order they were read; every message is offered to every subscriber the connection knew of when it read it, except possibly the last message of a connection that was aborted or crashed.", "quantifier": "every history of commands, connections, messages, subscriber reactions and scheduling", "why_tests_cant": "depends on all interleavings of actor and connection tasks", "anchors": ["crates/bmp-service/src/actor.rs: handle_connection, send_to_subscribers"]}
{"id": "C155", "title": "The BMP collector keeps one peer on one channel of a sharded subscriber", "statement": "All messages of one peer address go to the same one of the channels a subscriber gave, across reconnections; a subscription cannot make the collector fail.", "quantifier": "every history, every hash function, every number of channels", "why_tests_cant": "sharding must hold over all addresses and histories", "anchors": ["crates/bmp-service/src/actor.rs: send_to_subscribers, handle_subscribe"]}
{"id": "C156", "title": "Subscriptions of the BMP collector take effect", "statement": "Subscriptions get the numbers 0, 1, 2, ... and never share one; unsubscribing answers with the subscription exactly if it exists; a connection that has taken all updates sends its next message to exactly the current subscribers, and reaches that state in at most seventeen turns however many updates it missed; nothing is sent to a subscriber after its unsubscription was confirmed.", "quantifier": "every history", "why_tests_cant": "updates race with messages on every connection", "anchors": ["crates/bmp-service/src/actor.rs: handle_subscribe, handle_unsubscribe, handle_connection"]}
{"id": "C157", "title": "The BMP collector reports and controls exactly its open connections", "statement": "The reported peers are distinct and each has a connection; every connection being served is reported, is the only one of its peer, and ends when the peer is disconnected; after a disconnect the peer is not reported and its connection offers nothing more; a connection that is over is not reported.", "quantifier": "every history", "why_tests_cant": "notices of closed connections race with new connections", "anchors": ["crates/bmp-service/src/actor.rs: run, handle_disconnect_peer"]}
{"id": "C158", "title": "A stopped BMP collector does nothing more", "statement": "After the stop is confirmed no peer is reported, no connection is accepted, no command is answered, all connections were asked to end and those that were not end by themselves; no message is delivered after the confirmation.", "quantifier": "every history", "why_tests_cant": "the stop races with every connection", "anchors": ["crates/bmp-service/src/actor.rs: handle_command, run"]}
{"id": "C159", "title": "The BMP server's handle tells the truth", "statement": "The connection count is the number of unfinished connections; after shutdown() returned every connection ends by itself; a server that returns because its connections ended has none left.", "quantifier": "every interleaving of the server, its connections and the callers of the handle", "why_tests_cant": "depends on interleavings of atomic operations", "anchors": ["crates/bmp-service/src/handle.rs: NotifyOnce, BmpServerHandle, BmpServerHandleWatcher", "crates/bmp-service/src/server.rs: BmpServer::serve"]}
{"id": "C160", "title": "The BMP server hands a connection's messages to the service in order", "statement": "The service is called with what the connection yields, in order and without gaps; it is called again only if it let a message pass; a service that never objects gets everything up to and including the end or the error.", "quantifier": "every stream, every service", "why_tests_cant": "services and streams are arbitrary", "anchors": ["crates/bmp-service/src/server.rs: BmpServer::handle_connection"]}
{"id": "C161", "title": "Publishers deliver every message once and in order or account for it", "statement": "Each message a Kafka publisher (JSON, AVRO, YANG) takes from its input either ends up in librdkafka's queue exactly once, in arrival order, with the payload and key its converter produced, or is counted exactly once as a conversion or a send error. The AVRO publisher does so for each value of a message; a value that fails does not hold back the others and the returned result tells whether all, some or none were sent.", "quantifier": "every serialiser/converter, every sequence of messages, every sequence of answers of librdkafka and the schema registry", "why_tests_cant": "the loss, duplication or reordering depends on the interleaving of answers and messages over an unbounded run", "anchors": ["crates/collector/src/publishers/kafka_json.rs:KafkaJsonPublisherActor::send,run", "crates/collector/src/publishers/kafka_avro.rs:KafkaAvroPublisherActor::send,run", "crates/collector/src/publishers/kafka_yang.rs:KafkaYangPublisherActor::send,run"]}
{"id": "C162", "title": "A full Kafka queue is waited for", "statement": "When librdkafka's queue is full a publisher keeps the record and retries: the record is sent if any of the first twenty attempts succeeds, otherwise it is dropped and counted after about five seconds of doubling sleeps. Any other error drops the record at once.", "quantifier": "every state of the publisher, every message, every number of full-queue answers", "why_tests_cant": "needs every count of retries and the exact interval arithmetic", "anchors": ["crates/collector/src/publishers/kafka_json.rs:KafkaJsonPublisherActor::send,MAX_POLLING_INTERVAL", "crates/collector/src/publishers/kafka_avro.rs:KafkaAvroPublisherActor::send", "crates/collector/src/publishers/kafka_yang.rs:KafkaYangPublisherActor::send"]}
{"id": "C163", "title": "A publisher that ended does nothing more and flushed what it queued", "statement": "Once a publisher ended (shutdown, command channel closed, input closed) it takes no message and sends none; before it ends it flushes the records it handed to librdkafka.", "quantifier": "every run and every event after the end", "why_tests_cant": "the end may come at any point of any run", "anchors": ["crates/collector/src/publishers/kafka_json.rs:KafkaJsonPublisherActor::run", "crates/collector/src/publishers/kafka_avro.rs:KafkaAvroPublisherActor::run", "crates/collector/src/publishers/kafka_yang.rs:KafkaYangPublisherActor::run", "crates/collector/src/publishers/http.rs:HttpPublisherActor::run"]}
{"id": "C164", "title": "The HTTP publisher posts every message once", "statement": "What the converter made of the messages is posted in order, each item in exactly one accepted request, in batches above the configured size; the sent counter counts the items accepted; nothing is lost on shutdown, and a refused or failed request is retried or reported.", "quantifier": "every converter, batch size, sequence of messages and responses", "why_tests_cant": "the buffer's content depends on the whole history; losses show only at particular stop points", "anchors": ["crates/collector/src/publishers/http.rs:HttpPublisherActor::run,send"]}
{"id": "C165", "title": "The HTTP client is set up as configured", "statement": "Each option of an HTTP publisher endpoint (TCP keep-alive, pool idle timeout, pool size, request timeout, connect timeout) sets the client option of that name and no other.", "quantifier": "every combination of configured options", "why_tests_cant": "the combinations of optional settings are not enumerated by tests", "anchors": ["crates/collector/src/publishers/http.rs:HttpPublisherActorHandle::create_http_client,HttpPublisherEndpoint"]}
{"id": "C166", "title": "Messages carry the schema of their content id", "statement": "A message published with the YANG publisher carries the schema id registered for the YANG library its content id names: the id of the configured custom schema, or the one the registry gave when the library was fetched from the schema cache; a message without content id, or whose library the cache does not have, carries the default id. A library is registered once, custom ones are never asked for again, and once registered every later message with that content id carries that id.", "quantifier": "every run: messages, cache answers, registry answers and queue answers in any order", "why_tests_cant": "depends on the history of lookups and registrations", "anchors": ["crates/collector/src/publishers/kafka_yang.rs:KafkaYangPublisherActor::register_schema,send,from_config"]}
{"id": "C167", "title": "A content id on a validated message was earned", "statement": "A message the validation actor sends on with a content id was accepted by the schema that the cache delivered, under that id, for exactly the subscription attached to the message. Every message it sends on is a received packet and is attached to a subscription of the packet's own peer and id, known from an announcement or an answer, or to the empty placeholder.", "quantifier": "every sequence of packets and cache answers, every validator", "why_tests_cant": "the history decides which schema is in force", "anchors": ["crates/yang-push/src/validation/mod.rs:process_udp_notif_msg,validate_message,process_cache_response"]}
{"id": "C168", "title": "Nothing bypasses a known schema", "statement": "Once the cache has answered for a subscription with a loadable schema, and until its description changes or another answer comes, every packet of the subscription is sent on, labelled with that schema's id, exactly if the schema accepts it, and is otherwise dropped and counted as invalid.", "quantifier": "every history around the answer, every packet", "why_tests_cant": "quantifies over histories", "anchors": ["crates/yang-push/src/validation/mod.rs:process_udp_notif_msg,get_subscription_info", "crates/yang-push/src/cache/storage.rs:SubscriptionInfo::is_empty"]}
{"id": "C169", "title": "Every packet is accounted for by the validation actor", "statement": "Each received packet is sent on once, is being held, or was dropped and counted (decoding failure, invalid, cache full); sent and skipped counters agree with the messages sent on, and received counts each packet once.", "quantifier": "every sequence of packets and cache answers", "why_tests_cant": "multiset statement over all histories", "anchors": ["crates/yang-push/src/validation/mod.rs:process_udp_notif_msg,cache_packet,check_subscription_new,process_cache_response"]}
{"id": "C170", "title": "Packets held for the schema cache are bounded", "statement": "The number of packets held never exceeds the configured maximum per subscription and per peer.", "quantifier": "every sequence of packets and cache answers, all limits", "why_tests_cant": "bound over all reachable states", "anchors": ["crates/yang-push/src/validation/mod.rs:cache_packet"]}
{"id": "C171", "title": "Packets wait for their schema and keep their order", "statement": "While the lookup for a subscription is under way its packets are held; when the answer arrives they are validated and sent on in the order received.", "quantifier": "every sequence of packets and cache answers", "why_tests_cant": "interleaving of lookups and packets", "anchors": ["crates/yang-push/src/validation/mod.rs:extract_subscription_info,cache_packet,process_cache_response"]}
{"id": "C172", "title": "An answer from the cache ends the wait", "statement": "When the cache answers for a subscription, all packets held for it leave the actor: sent on or dropped with a count.", "quantifier": "every history and answer", "why_tests_cant": "quantifies over histories", "anchors": ["crates/yang-push/src/validation/mod.rs:process_cache_response,build_subscription_info"]}
{"id": "C173", "title": "The newest subscription description is in force", "statement": "After a subscription was announced (started or modified), its packets carry the announced description, not an earlier one.", "quantifier": "every history, including late answers", "why_tests_cant": "ordering of answers and announcements", "anchors": ["crates/yang-push/src/validation/mod.rs:check_subscription_new,process_cache_response"]}
{"id": "C174", "title": "Peers do not influence each other in validation", "statement": "What is sent on for a peer, and what is held for it, depends only on that peer's packets and on the cache answers about its subscriptions.", "quantifier": "every sequence of packets and answers of any peers", "why_tests_cant": "non-interference over all interleavings", "anchors": ["crates/yang-push/src/validation/mod.rs:peer_cache,process_udp_notif_msg,process_cache_response"]}
{"id": "C175", "title": "Cache answers are eventually processed", "statement": "The validation actor's loop processes a waiting cache answer even while packets keep arriving, and processes all that waits, in order, once arrivals stop.", "quantifier": "every arrival schedule", "why_tests_cant": "fairness over infinite schedules", "anchors": ["crates/yang-push/src/validation/mod.rs:run"]}
{"id": "C176", "title": "The validation actor tracks current subscriptions only", "statement": "The actor keeps one record per subscription seen, and forgets a subscription when it is terminated.", "quantifier": "every sequence of packets and cache answers", "why_tests_cant": "state growth over all histories", "anchors": ["crates/yang-push/src/validation/mod.rs:peer_cache,CachedSubscription"]}
{"id": "C177", "title": "Validation and schema cache do not deadlock", "statement": "However many new subscriptions appear at once, the validation actor and the schema cache actor keep exchanging lookups and answers until every lookup is answered.", "quantifier": "every channel capacity, burst size and schedule", "why_tests_cant": "needs all interleavings of two actors over bounded channels", "anchors": ["crates/yang-push/src/validation/mod.rs:extract_subscription_info,ValidationActorHandle::new,run", "crates/yang-push/src/cache/actor.rs:run,send_response"]}
{"id": "C178", "title": "Capture decoding selects by transport and port", "statement": "From a capture only packets of the protocol's transport whose destination port was asked for give results, every message names the flow of the packet it came with, and all other packets make no difference.", "quantifier": "every sequence of captured packets, every handler", "why_tests_cant": "all inputs and histories", "anchors": ["crates/pcap-decoder/src/handlers/bgp.rs:decode", "crates/pcap-decoder/src/handlers/bmp.rs:decode", "crates/pcap-decoder/src/handlers/flow.rs:decode", "crates/pcap-decoder/src/handlers/udp_notif.rs:decode"]}
{"id": "C179", "title": "Flows in a capture do not influence each other", "statement": "What is printed for a flow is what its packets alone would give, and each printed result tells its flow.", "quantifier": "every interleaving of the packets of any flows", "why_tests_cant": "non-interference over all interleavings", "anchors": ["crates/pcap-decoder/src/handlers/mod.rs:decode_buffer", "crates/pcap-decoder/src/handlers/bgp.rs:decode,serialize"]}
{"id": "C180", "title": "TCP segmentation does not matter to the capture decoder", "statement": "The messages and errors decoded from a TCP flow are those of its octet stream, however it was cut into segments.", "quantifier": "every stream and every segmentation", "why_tests_cant": "all cuts of all streams", "anchors": ["crates/pcap-decoder/src/handlers/mod.rs:decode_buffer", "crates/pcap-decoder/src/handlers/bgp.rs:decode", "crates/pcap-decoder/src/handlers/bmp.rs:decode"]}
{"id": "C181", "title": "Captured datagrams are decoded one by one", "statement": "Each UDP datagram is decoded in a buffer of its own and gives its own result, whatever came before it in the flow.", "quantifier": "every sequence of datagrams", "why_tests_cant": "quantifies over histories", "anchors": ["crates/pcap-decoder/src/handlers/mod.rs:decode_buffer", "crates/pcap-decoder/src/handlers/udp_notif.rs:decode", "crates/pcap-decoder/src/handlers/flow.rs:decode"]}
{"id": "C182", "title": "A frame limit cuts the output", "statement": "Decoding with a limit of n frames prints exactly the lines of the full output that belong to the first n frames, and ends without error; showing frame numbers changes nothing else.", "quantifier": "every capture, limit and handler", "why_tests_cant": "all captures", "anchors": ["crates/pcap-decoder/src/lib.rs:load_pcap_and_process"]}
{"id": "C183", "title": "One output line per decoded result", "statement": "The output has one line for each result, in order, with the position of its packet in the capture.", "quantifier": "every capture and handler", "why_tests_cant": "all captures", "anchors": ["crates/pcap-decoder/src/lib.rs:load_pcap_and_process"]}
{"id": "C184", "title": "No packet content ends the capture decoder", "statement": "Whatever the packets hold, decoding runs to the end of the capture.", "quantifier": "every capture, for each of the four protocols", "why_tests_cant": "all packet contents and histories", "anchors": ["crates/pcap-decoder/src/lib.rs:load_pcap_and_process", "crates/pcap-decoder/src/handlers/udp_notif.rs:serialize", "crates/pcap-decoder/src/handlers/mod.rs:decode_buffer"]}
{"id": "C185", "title": "The capture decoder terminates", "statement": "Decoding a finite capture ends, for each of the four protocols.", "quantifier": "every capture", "why_tests_cant": "termination over all inputs", "anchors": ["crates/pcap-decoder/src/lib.rs:load_pcap_and_process", "crates/pcap-decoder/src/handlers/mod.rs:decode_buffer"]}
{"id": "C186", "title": "Captured BGP messages are printed in full", "statement": "Every BGP message of a captured session is printed, with its flow and content, however it was packed into segments.", "quantifier": "every session, segmentation and capture", "why_tests_cant": "all sessions and cuts", "anchors": ["crates/pcap-decoder/src/handlers/bgp.rs:decode,serialize", "crates/bgp-pkt/src/codec.rs:BgpCodec::decode"]}
{"id": "C187", "title": "AS numbers of captured UPDATEs are read with the negotiated width", "statement": "AS paths of captured UPDATE messages are read with four octets per AS number exactly if both OPENs of the session announced it.", "quantifier": "every captured session", "why_tests_cant": "depends on the whole history of both directions", "anchors": ["crates/pcap-decoder/src/handlers/bgp.rs:decode", "crates/bgp-pkt/src/codec.rs:BgpCodec::decode"]}
{"id": "C188", "title": "A supervisor's answer covers every listener", "statement": "A call to the handle of the flow, UDP-Notif or BMP service (subscribe, or a question to all listeners) returns one answer of its kind from each listener, none twice.", "quantifier": "every schedule of callers, supervisor and listeners, every crash of a listener", "why_tests_cant": "interleavings of concurrent tasks and crash points", "anchors": ["crates/flow-service/src/flow_supervisor.rs:FlowCollectorsSupervisorActor::run", "crates/udp-notif-service/src/supervisor.rs:run", "crates/bmp-service/src/supervisor.rs:run"]}
{"id": "C189", "title": "Every call to a supervisor returns", "statement": "Once the tasks have nothing left to do every call has returned, with a result or an error, and the tasks cannot keep each other busy for ever.", "quantifier": "every schedule, any number of calls, listeners and crashes", "why_tests_cant": "absence of deadlock and livelock over all schedules", "anchors": ["crates/flow-service/src/flow_supervisor.rs:FlowCollectorsSupervisorActor::run", "crates/udp-notif-service/src/supervisor.rs:run", "crates/bmp-service/src/supervisor.rs:run"]}
{"id": "C190", "title": "Listeners handle calls in the order they were made", "statement": "Every listener handles the calls the supervisor accepted in the order of acceptance, without leaving one out, for as long as it runs.", "quantifier": "every schedule and every listener", "why_tests_cant": "all interleavings", "anchors": ["crates/flow-service/src/flow_supervisor.rs:FlowCollectorsSupervisorActor::run", "crates/udp-notif-service/src/supervisor.rs:run", "crates/bmp-service/src/supervisor.rs:run"]}
{"id": "C191", "title": "Unsubscribing removes what was named and nothing else", "statement": "After an unsubscribe call returned, the subscriptions it named are gone from the running listeners; subscriptions that no call named stay; the report has one entry per listener and tells which listeners were named.", "quantifier": "every schedule, every set of subscriptions, calls by other callers in between", "why_tests_cant": "all interleavings and histories", "anchors": ["crates/flow-service/src/flow_supervisor.rs:unsubscribe", "crates/udp-notif-service/src/supervisor.rs:unsubscribe", "crates/bmp-service/src/supervisor.rs:unsubscribe"]}
{"id": "C192", "title": "A shutdown that returns stopped everything", "statement": "When shutdown returns success the supervisor and all listeners have ended; a listener stopped this way first handled every call accepted before; dropping all handles ends all tasks; calls after the end are refused.", "quantifier": "every schedule and crash point", "why_tests_cant": "all interleavings and crash points", "anchors": ["crates/flow-service/src/flow_supervisor.rs:shutdown", "crates/udp-notif-service/src/supervisor.rs:shutdown", "crates/bmp-service/src/supervisor.rs:shutdown"]}
{"id": "C193", "title": "Subscription ids are unique and every subscription has a subscriber", "statement": "No listener gives the same subscriber id twice, and every subscription in a listener's table was reported to its caller.", "quantifier": "every schedule, callers giving up at any point", "why_tests_cant": "cancellation points and interleavings", "anchors": ["crates/flow-service/src/flow_supervisor.rs:subscribe", "crates/flow-service/src/flow_actor.rs:FlowCollectorActor", "crates/bmp-service/src/actor.rs:BmpActor"]}
{"id": "C194", "title": "A service that starts has listeners", "statement": "A supervisor handle is returned only if at least one listener started; the listeners that started have the ids 0, 1, 2 and so on.", "quantifier": "every list of bindings and every outcome of their start", "why_tests_cant": "all outcomes", "anchors": ["crates/flow-service/src/flow_supervisor.rs:new", "crates/udp-notif-service/src/supervisor.rs:new", "crates/bmp-service/src/supervisor.rs:new"]}
{"id": "C195", "title": "The aggregation does what its configuration says", "statement": "A flow aggregation configuration is accepted exactly if the window is not zero, the lateness is within the window and every operation is allowed for its information element; then exactly the configured fields are keys and aggregates, none twice, every accepted operation can be carried out, and an error names a configured operation that is not allowed.", "quantifier": "every configuration and every information element", "why_tests_cant": "all combinations of elements, indexes and operations", "anchors": ["crates/collector/src/flow/aggregation/config.rs:validate", "crates/collector/src/flow/aggregation/config.rs:validate_operation_compatibility", "crates/collector/src/flow/aggregation/config.rs:try_into", "crates/ipfix-code-generator/src/generator.rs:supports_comparison_ops", "crates/ipfix-code-generator/src/generator.rs:is_comparable"]}
{"id": "C196", "title": "Minimum and maximum are those of the transmitted values", "statement": "When the aggregation is told to keep the smallest or largest value of a field, the value kept is the smallest or largest of the values the exporters sent, also for enumerated fields and flags.", "quantifier": "every registry and every pair of values", "why_tests_cant": "all values of all registries", "anchors": ["crates/ipfix-code-generator/src/generator.rs:min_assign_field", "crates/ipfix-code-generator/src/generator.rs:max_assign_field", "crates/ipfix-code-generator/src/generator_sub_registries.rs", "crates/iana/src/tcp.rs:TCPHeaderFlags"]}
{"id": "C197", "title": "The aggregation service reports every flow once", "statement": "For every input and interleaving of packets, loop and senders, when the input has ended there is exactly one record per exporter, minute and key values, describing exactly the flows that were not late, and the late ones are dropped; while it waits this holds for the minutes that are over; it does not panic; after the input closed the end is reached.", "quantifier": "every configuration, history of packets and interleaving with the sending tasks", "why_tests_cant": "concurrent tasks over unbounded histories", "anchors": ["crates/collector/src/flow/aggregation/actor.rs:AggregationActor::run", "crates/collector/src/flow/aggregation/aggregator.rs"]}
{"id": "C198", "title": "Aggregated records are numbered and handed over in order", "statement": "The sequence numbers of the aggregated records are 0, 1, 2, ... without gap or duplicate up to the width of the counter; records arrive in the order of their numbers and none is lost.", "quantifier": "every interleaving of the sending tasks", "why_tests_cant": "interleavings of concurrent tasks", "anchors": ["crates/collector/src/flow/aggregation/actor.rs:AggregationActor::run"]}
{"id": "C199", "title": "The aggregation service ends with its input or on command, without losing flows", "statement": "When its input has closed and everything is reported the service ends; on a shutdown command it ends at the next turn; flows received before are still reported.", "quantifier": "every history and moment of closing or shutdown", "why_tests_cant": "all moments of shutdown", "anchors": ["crates/collector/src/flow/aggregation/actor.rs:AggregationActor::run", "crates/collector/src/flow/aggregation/actor.rs:AggregationActorHandle::shutdown"]}
{"id": "C200", "title": "One pmacct record per route of a BMP update", "statement": "An update monitored over BMP is turned into one record per route it withdraws or announces, and no other, in order: each with its direction, family, prefix, route distinguisher (of the route, else of the peer), next hop, path identifier and label.", "quantifier": "every monitored update of any address family and both BMP versions", "why_tests_cant": "all combinations of families, attributes and routes", "anchors": ["crates/collector/src/bmp/pmacct_schema.rs:try_from_bmp_request", "crates/collector/src/bmp/pmacct_schema.rs:convert_route_monitoring"]}
{"id": "C201", "title": "The records show the path attributes of the update", "statement": "Every record of an update carries the origin, MED, local preference, communities, cluster list and AIGP the update has, and nothing where it has none.", "quantifier": "every update and attribute", "why_tests_cant": "all attribute sets and orders", "anchors": ["crates/collector/src/bmp/pmacct_schema.rs:convert_route_monitoring", "crates/collector/src/bmp/pmacct_schema.rs:merge_as_path"]}
{"id": "C202", "title": "End-of-RIB markers are reported as such", "statement": "An update that is an End-of-RIB marker (RFC 4724) gives exactly one end-of-RIB record naming its family, and no other update gives such a record.", "quantifier": "every update", "why_tests_cant": "all updates and families", "anchors": ["crates/bgp-pkt/src/update.rs:BgpUpdateMessage::end_of_rib", "crates/collector/src/bmp/pmacct_schema.rs:convert_route_monitoring"]}
{"id": "C203", "title": "The AS path shown is the path of the route", "statement": "The AS path text of a record denotes the path of the route: that of AS_PATH, or, from a two-octet speaker, the one reconstructed with AS4_PATH by RFC 6793; different paths give different texts.", "quantifier": "every AS_PATH and AS4_PATH", "why_tests_cant": "unbounded paths", "anchors": ["crates/collector/src/bmp/pmacct_schema.rs:merge_as_path", "crates/collector/src/bmp/pmacct_schema.rs:convert_route_monitoring"]}
{"id": "C204", "title": "A record names the monitored peer and RIB", "statement": "Every record that concerns a peer carries the peer's address, AS number, BGP identifier, timestamp and the RIB selected by type and flags of the per-peer header, besides the time of arrival and the address of the exporting router.", "quantifier": "every per-peer header and message", "why_tests_cant": "all headers and messages", "anchors": ["crates/collector/src/bmp/pmacct_schema.rs:try_from_bmp_request", "crates/collector/src/bmp/pmacct_schema.rs:rib_type_and_flags"]}
{"id": "C205", "title": "One pmacct record per statistics counter", "statement": "A statistics report gives one record per counter, in order, with its type, value and, where the counter has one, its address family.", "quantifier": "every statistics report", "why_tests_cant": "all counter types and values", "anchors": ["crates/collector/src/bmp/pmacct_schema.rs:try_from_bmp_request"]}
{"id": "C206", "title": "Initiation, termination and peer-up information is shown", "statement": "The records of initiation, termination and peer-up messages show the information items of the message.", "quantifier": "every such message", "why_tests_cant": "all sequences of information items", "anchors": ["crates/collector/src/bmp/pmacct_schema.rs:try_from_bmp_request"]}
{"id": "C207", "title": "Every BMP message is converted or refused", "statement": "Conversion of a BMP message to pmacct records succeeds for every message type of the protocol and shows the timestamps exactly; the records of one writer are numbered.", "quantifier": "every BMP message", "why_tests_cant": "all messages and timestamps", "anchors": ["crates/collector/src/bmp/pmacct_schema.rs:try_from_bmp_request", "crates/collector/src/bmp/config.rs:get_avro_values"]}
{"id": "C208", "title": "AS paths of every segment type are decoded", "statement": "An AS path built of any of the four defined segment types (set, sequence, and the confederation types of RFC 5065) is decoded to its segments.", "quantifier": "every AS path", "why_tests_cant": "all paths, both AS number widths", "anchors": ["crates/bgp-pkt/src/path_attribute/path_attribute.rs:AsPath", "crates/bgp-pkt/src/path_attribute/path_attribute.rs:AsPathSegmentType", "crates/bgp-pkt/src/wire/deserializer/path_attribute/path_attribute.rs"]}
{"id": "C209", "title": "One BGP peer per key", "statement": "The supervisor has exactly the peers that were created and not removed since; creating a peer fails exactly if its key is taken; every key has a peer of its own, and at most one session runs for a key.", "quantifier": "every sequence of create, remove, drop and session events", "why_tests_cant": "all interleavings", "anchors": ["crates/bgp-speaker/src/supervisor.rs:PeersSupervisor::create_peer", "crates/bgp-speaker/src/supervisor.rs:PeersSupervisor::remove_peer", "crates/bgp-speaker/src/supervisor.rs:PeersSupervisor::dynamic_peer"]}
{"id": "C210", "title": "Commands to a BGP peer are taken in order", "statement": "A peer takes the commands sent through its handles in the order sent, each once; a command is refused exactly if the peer's task has ended; every query returns, and its answer is about the moment after exactly the commands sent before it.", "quantifier": "every history of commands, session events and task ends", "why_tests_cant": "all interleavings of callers and tasks", "anchors": ["crates/bgp-speaker/src/peer_controller.rs:PeerHandle", "crates/bgp-speaker/src/peer_controller.rs:PeerController::new"]}
{"id": "C211", "title": "A removed BGP peer is stopped", "statement": "Removing a peer tells its session to stop, frees the key for another peer and leaves all others untouched; the removed session is stopped before its task ends.", "quantifier": "every reachable state and continuation", "why_tests_cant": "the order of drop, abort and message handling", "anchors": ["crates/bgp-speaker/src/supervisor.rs:PeersSupervisor::remove_peer", "crates/bgp-speaker/src/peer_controller.rs:PeerController"]}
{"id": "C212", "title": "The BGP listener gives each connection to the right peer, once", "statement": "A connection is given to the peer of its source address and to no other; none is lost or given twice; one from a registered address is given to the registered peer unless that peer has ended.", "quantifier": "every arrival order at any number of sockets, every peer set", "why_tests_cant": "all interleavings of arrivals, reports and ends", "anchors": ["crates/bgp-speaker/src/listener.rs:BgpListener::accept_peer_connection", "crates/bgp-speaker/src/listener.rs:BgpListener::run"]}
{"id": "C213", "title": "The BGP listener accepts every waiting connection", "statement": "When the listener only waits, no connection waits at any of its sockets, and it comes to waiting after finitely many steps of its own.", "quantifier": "every number of sockets and history", "why_tests_cant": "liveness over all schedules", "anchors": ["crates/bgp-speaker/src/listener.rs:BgpListener::run"]}
{"id": "C214", "title": "Dynamic BGP peers", "statement": "A connection from an unknown address makes a peer that, once its session is confirmed, is the peer of that address from then on; a slow or failed attempt affects neither others nor later attempts.", "quantifier": "every history", "why_tests_cant": "all interleavings of attempts and arrivals", "anchors": ["crates/bgp-speaker/src/listener.rs:BgpListener::accept_peer_connection", "crates/bgp-speaker/src/supervisor.rs:PeersSupervisor::dynamic_peer"]}
{"id": "C215", "title": "Filters written as XML are read back", "statement": "Reusable stream and selection filters written with the XML writer and read with the XML parser come back equal: names, XPath expressions, subtrees, namespaces and order.", "quantifier": "every set of filters", "why_tests_cant": "any number of filters, any text and any namespace bindings", "anchors": ["crates/netconf-proto/src/yang_push/filters.rs:Filters::xml_serialize", "crates/netconf-proto/src/yang_push/filters.rs:Filters::xml_deserialize", "crates/netconf-proto/src/xml_utils.rs:XmlWriter"]}
{"id": "C216", "title": "Reading filters from XML ends", "statement": "Reading a filters document returns a value or an error, whatever the document holds and wherever it stops.", "quantifier": "every sequence of XML events", "why_tests_cant": "termination over all documents, whole or cut", "anchors": ["crates/netconf-proto/src/yang_push/filters.rs:Filters::xml_deserialize", "crates/netconf-proto/src/xml_utils.rs:XmlParser::tag_string", "crates/netconf-proto/src/xml_utils.rs:XmlParser::close"]}
{"id": "C217", "title": "The order of a filter's parts does not matter", "statement": "A filter whose name comes after what it selects by is read like one whose name comes first, with any white space and comments between.", "quantifier": "every filter document", "why_tests_cant": "any content, namespaces and white space", "anchors": ["crates/netconf-proto/src/yang_push/filters.rs:SelectionFilter::xml_deserialize", "crates/netconf-proto/src/yang_push/filters.rs:StreamFilter::xml_deserialize"]}
{"id": "C218", "title": "Character data in NETCONF XML", "statement": "The text of an element is read as what its character data, CDATA sections and references stand for, comments ignored, and any text that is written is read as itself.", "quantifier": "every sequence of text events, every string", "why_tests_cant": "unbounded text in any split", "anchors": ["crates/netconf-proto/src/xml_utils.rs:XmlParser::tag_string"]}
{"id": "C219", "title": "An XPath filter keeps the namespaces it uses", "statement": "An XPath expression is read together with exactly those namespace bindings in force whose prefix it uses, not counting axes and string literals.", "quantifier": "every expression and nesting of declarations", "why_tests_cant": "all expressions and scopes", "anchors": ["crates/netconf-proto/src/xml_utils.rs:XmlParser::read_xpath_with_namespaces", "crates/netconf-proto/src/xml_utils.rs:XmlParser::find_xpath_prefixes"]}
{"id": "C220", "title": "Unknown elements among filters are passed over", "statement": "Elements that are not filters, with everything in them, do not change what is read; an empty element is read like one without content.", "quantifier": "every document with unknown elements anywhere between filters", "why_tests_cant": "arbitrary nested elements", "anchors": ["crates/netconf-proto/src/yang_push/filters.rs:Filters::xml_deserialize", "crates/netconf-proto/src/xml_utils.rs:XmlParser::skip", "crates/netconf-proto/src/xml_utils.rs:XmlParser::copy_buffer_till_with_namespaces"]}
{"id": "C221", "title": "Enrichment operations from Kafka reach every task once and in order", "statement": "Every enrichment task is given the operations of the Kafka messages taken so far, each once, in the order of the messages and within them; a task that still runs lacks only those of the message at hand not yet offered to it.", "quantifier": "every handler, number of tasks, channel capacity and history of messages, errors, slow and ending tasks", "why_tests_cant": "all interleavings of the consumer with its tasks, of any length", "anchors": ["crates/collector/src/inputs/kafka/actor.rs:KafkaConsumerActor::run", "crates/collector/src/inputs/kafka/handlers.rs:KafkaMessageHandler"]}
{"id": "C222", "title": "A dead or slow enrichment task does not hold up the others", "statement": "An enrichment task that has ended or does not receive costs the other tasks nothing: they go on getting operations without delay, and no operation is given up while its task runs.", "quantifier": "every history, every time at which a task ends or stops receiving", "why_tests_cant": "all schedules and all times", "anchors": ["crates/collector/src/inputs/kafka/actor.rs:KafkaConsumerActor::run", "crates/collector/src/inputs/kafka/actor.rs:MAX_BACKOFF_TIME"]}
{"id": "C223", "title": "The Kafka consumer obeys shutdown", "statement": "After shutdown is called the consumer finishes at most the message at hand and ends, whatever the brokers do.", "quantifier": "every state in which shutdown can be called and everything that can follow", "why_tests_cant": "all histories, of any length", "anchors": ["crates/collector/src/inputs/kafka/actor.rs:KafkaConsumerActor::run", "crates/collector/src/inputs/kafka/actor.rs:KafkaConsumerActorHandle::shutdown"]}
{"id": "C224", "title": "Bad messages and errors do not end the Kafka consumer", "statement": "Messages without a payload, messages the handler rejects and broker errors do not end the consumer; it ends only by shutdown, when its handle is dropped or when the topic does not exist, resumes when brokers are back, and its counters tell what happened.", "quantifier": "every history", "why_tests_cant": "all histories of messages and errors", "anchors": ["crates/collector/src/inputs/kafka/actor.rs:KafkaConsumerActor::run", "crates/collector/src/inputs/kafka/actor.rs:KafkaConsumerStats"]}
{"id": "C225", "title": "Flows pass enrichment and renormalization once and in order", "statement": "Each flow given to a stage is worked on once, in order, with the updates sent before it, and handed on; stages in a row hand on in order what comes of the flows of the first.", "quantifier": "every history of flows, updates, subscribers and endings, every working function and capacity", "why_tests_cant": "all interleavings of the stage with its input, output and users", "anchors": ["crates/collector/src/flow/enrichment/actor.rs:run", "crates/collector/src/flow/renormalization/actor.rs:run"]}
{"id": "C226", "title": "Every subscriber of a stage receives every flow", "statement": "Each receiver that subscribe returns receives all flows the stage handles, independently of other subscribers.", "quantifier": "every number of subscribers and every history", "why_tests_cant": "all interleavings of several receivers", "anchors": ["crates/collector/src/flow/enrichment/actor.rs:FlowEnrichmentActorHandle::subscribe", "crates/collector/src/flow/renormalization/actor.rs:RenormalizationActorHandle::subscribe"]}
{"id": "C227", "title": "A stage ends when asked, or with its input after draining it", "statement": "A stage ends soon after shutdown is called, and when its input is closed after handing on everything it was given; it otherwise waits only for input or for room in its output.", "quantifier": "every state and everything that can follow", "why_tests_cant": "all histories, with subscribers that stop taking", "anchors": ["crates/collector/src/flow/enrichment/actor.rs:run", "crates/collector/src/flow/enrichment/actor.rs:FlowEnrichmentActorHandle::shutdown", "crates/collector/src/flow/renormalization/actor.rs:run"]}
{"id": "C228", "title": "The counters of a stage tell what happened", "statement": "Flows received are those handed on, those that failed, those that could not be sent and the one at hand; updates are counted.", "quantifier": "every history", "why_tests_cant": "all histories", "anchors": ["crates/collector/src/flow/enrichment/actor.rs:FlowEnrichmentStats", "crates/collector/src/flow/renormalization/actor.rs:RenormalizationStats"]}
{"id": "C229", "title": "NETCONF capabilities survive writing and reading", "statement": "The text of a capability is read back as that capability, and reading the text of what was read changes nothing.", "quantifier": "every capability and every text", "why_tests_cant": "unbounded strings, lists of features, deviations and schemes", "anchors": ["crates/netconf-proto/src/capabilities.rs:Capability::from_str", "crates/netconf-proto/src/capabilities.rs:Capability::to_string"]}
{"id": "C230", "title": "Capabilities that are not understood are ignored", "statement": "A capability the library does not know is kept as it is and never makes the exchange of capabilities fail (RFC 6241, 8.1).", "quantifier": "every text and every list of capabilities in a hello", "why_tests_cant": "unbounded strings and lists", "anchors": ["crates/netconf-proto/src/capabilities.rs:Capability::from_str", "crates/netconf-proto/src/protocol.rs:Hello::xml_deserialize"]}
{"id": "C231", "title": "White space around a capability does not matter", "statement": "A capability with white space before and after it is the same capability.", "quantifier": "every capability and all white space around it", "why_tests_cant": "unbounded strings", "anchors": ["crates/netconf-proto/src/capabilities.rs:Capability::from_str"]}
{"id": "C232", "title": "Standard capabilities are recognised, by their registered names only", "statement": "A text is taken for a standard capability exactly if it is its registered name, with the parameters its RFC gives it.", "quantifier": "every text", "why_tests_cant": "unbounded strings and lists of schemes", "anchors": ["crates/netconf-proto/src/capabilities.rs:Capability::from_str", "crates/netconf-proto/src/capabilities.rs:StandardCapability"]}
{"id": "C233", "title": "A telemetry message survives writing and reading", "statement": "A telemetry message written as JSON is read back as the same message, and different messages are written differently.", "quantifier": "every message, with any labels, payload, manifests and subscription", "why_tests_cant": "unbounded labels, texts and payloads", "anchors": ["crates/yang-push/src/model/telemetry.rs:TelemetryMessageWrapper", "crates/yang-push/src/model/telemetry.rs:NetworkOperatorMetadata", "crates/yang-push/src/model/telemetry.rs:YangPushSubscriptionMetadata"]}
{"id": "C234", "title": "Telemetry metadata tells what the subscription is", "statement": "The metadata made of a subscription has its id, stop time, purpose, trigger, modules, content id, filters, transport and encoding.", "quantifier": "every subscription", "why_tests_cant": "every combination of optional parts", "anchors": ["crates/yang-push/src/model/telemetry.rs:From<SubscriptionInfo> for YangPushSubscriptionMetadata", "crates/yang-push/src/model/telemetry.rs:From<Target> for FilterSpec"]}
{"id": "C235", "title": "Number labels are 64-bit numbers written as text", "statement": "A label with a number is written as decimal text (RFC 7951) and read back; nothing else is read as a number.", "quantifier": "every label and every JSON object", "why_tests_cant": "all numbers and texts", "anchors": ["crates/yang-push/src/model/telemetry.rs:LabelValue", "crates/yang-push/src/model/telemetry.rs:serialize_u64_as_string", "crates/yang-push/src/model/telemetry.rs:deserialize_u64_from_string"]}
