# Formal model of NetGauze in Rocq (Coq 8.16.1)

## Method

* The code in `/repo` is read as text and transcribed into small total Gallina functions.
  Every definition in a `*Model.v` file cites the Rust file and lines it models and names its simplifications.
* Only the Coq standard library is used.
* A byte is an `N`; `bytes_ok` says every element is below 256. A buffer is a `list N`.
  Machine integers are `N`/`Z`; a cast (`as u8`, `as u16`, ...) is an explicit `mod`.
* `Result`/`Option` are data. A panic (slice out of range, `unwrap` on `None`, `unreachable!`) is the constructor `Panic`
  of the outcome type, so "never panics" is a theorem and a reachable panic is a `_refuted` theorem.
* Loops over input are recursions on explicit fuel. Running out of fuel is a separate outcome (`Diverge`) and is proved
  unreachable with the fuel the model uses (the buffer length), so it cannot make a statement true by accident.
* A hash map is an association list with distinct keys. Iteration order is not specified by Rust, so
  every theorem that involves iterating a map quantifies over all orders.
* Per area there are four kinds of file: `XModel.v` (the code), `XSpec.v` (a small specification, independent of the model's
  helpers and tables), `X...Proofs.v` (lemmas), `XProps.v` (only theorems named `Cnn_...`, each followed by
  `Print Assumptions`, and `Example`s `Cnn_nonvacuous` showing that concrete cases meet the hypotheses).
* A property the code violates gets a `..._refuted` theorem with a witness (universally quantified over a family of
  witnesses where possible), and a `..._partial` theorem for what does hold. The full statement stays in `properties.jsonl`.
* Seeded bugs: `seeded/LOG.jsonl` records edits of model definitions made in a scratch copy, which theorems stopped proving,
  and which theorems were tightened because they still proved.

## Areas and plan per property

| Property | What is modelled | How it is proved |
|---|---|---|
| C01 | `UdpNotifPacket::write/parse`, options, media types | round trip by induction over the option list in any order |
| C02 | `check_len`, `decode`, `from_bytes` with slice panics explicit | case analysis; every slice shown in range |
| C03, C04, C05, C41 | `ReassemblyBuffer` and the message map as a state machine | invariant relating buffer to the history of segments, induction over histories |
| C06 | the same codec fed by a sequence of datagrams | refutation witness, plus the guard under which it holds |
| C07, C08 | `SliceReader` | laws by case analysis, big-endian arithmetic |
| C09, C10, C11 | `BgpCodec::decode`, header parsing | framing as a partial function of the prefix; chunking invariance by induction on chunks |
| C12, C44 | OPEN message, optional parameters, capabilities | round trip by induction over lists; refutations by witness |
| C13, C48 | prefixes, path ids, labels, route distinguishers, EVPN, route target NLRI | arithmetic on octets and bits; round trip by induction |
| C14, C43, C46 | attribute header, extended length, attribute list, AS_PATH width | round trip by induction; refutations by witness |
| C42, C45, C47, C49 | whole BGP messages, the codec with its negotiated context, mapping of errors to NOTIFICATIONs | safety predicate closed under the parser combinators; round trip of whole sessions |
| C15, C16, C50-C56 | `BmpCodec::decode`, BMP v3/v4 messages, TLVs, peer context map | chunking invariance as C09; refinement of the context to "last peer-up per peer"; round trips |
| C17-C21, C80-C98 | flow codec, template maps, template/data sets, field codecs generated by `ipfix-code-generator` | progress by case analysis; history invariants on the template cache; round trips per type lifted to records, sets, packets and streams; refutations by witness |
| C22-C24, C57-C59 | window aggregation state machine | conservation, at-most-once and lateness by invariants over the item list |
| C25, C26, C60, C61 | NETCONF chunk and EOM framing | round trip; progress; refutation for splits |
| C27-C31, C68-C79 | BGP speaker: peer and connection FSM, timers, collision detection, update validation | invariants over event lists; decision functions characterised; refutations by traces |
| C32-C34, C64-C66 | enrichment cache and record enrichment | refinement to a map keyed by (peer, domain, scope, field); best-value characterisation |
| C99-C105 | enrichment from files: line difference, pmacct maps, watcher | parser = declarative reading of text; labelled payloads kept in step with the cache, induction over events; refutations by witness |
| C35 | flow aggregation reduce | commutativity/associativity lifted to permutations |
| C36, C67 | renormalization | decision table; binary64 arithmetic from `Coq.Floats.SpecFloat`; exactness bounds |
| C37-C39, C63 | flow / UDP-Notif actor state | each peer equals a decoder of its own; history invariants for subscriptions and purges |
| C106-C114 | options records, Sonata messages, label cache | decision tables against a relational reading of options; invariants over message histories, proved once for an abstract store; refutations by witness |
| C115-C119 | YANG library cache: maps, directory as a list of file changes, loading | refinement of maps and files to the history of calls; crash points as prefixes of the change list |
| C120-C125 | cache actor: waiting lists, fetch workers, one-shot lookups | conservation of requests up to permutation; invariants over event lists |
| C126-C128 | scanner for imports and includes of YANG texts | concrete syntax trees with all layout choices; text of a tree scanned by induction; fuel shown irrelevant; hangs and panics as families of texts |
| C129-C131 | loading modules and dependencies from a device | breadth-first search with an invariant on queue, visited names and builder; equals an inductively defined closure; success exactly characterised |
| C132, C133 | builder of YANG libraries, content id | invariants over sequences of additions; refutations for families of libraries |
| C134 | Dependency graph (nodes, edges, recursion over includes) of a YANG library, dependency scanner as a parameter (its own model is C126-C128) | Edge set characterised by induction over the recursion; rank argument for termination; cycle and panic families refute the rest |
| C135 | Registration run against an arbitrary registry (a function of the history of calls), topological order as a parameter with its specification | Invariant over the run: what was supplied was registered; log and references characterised from the edge set |
| C136 | As C135, with the retry path | Answers traced to the log; history invariant for overridden refusals; counterexample with version-less answers |
| C137 | NETCONF client session as a machine over user calls and incoming messages | Suffix/prefix invariant of input and sent requests; induction over the calls; an off-by-one family refutes recovery |
| C138 | As C137, ids as decimal text of a wrapping counter | Freshness invariant with injectivity of decimal; counterexample families |
| C139 | As C137 | Counting invariant over the calls |
| C140 | As C137, filter and subscription parsers as parameters | From C137 at one position; counterexample family |
| C141 | The hello exchange | Case analysis over all inputs |
| C142 | All kinds of (IPv6) extended communities as an inductive type, reader and writer function by function; registered numbers in a separate specification | Round trip by the parser combinator lemmas, tables by case analysis |
| C143 | The same reader and writer on arbitrary octets | Every reader branch consumes exactly eight octets; re-encoding by big-endian inverse lemmas |
| C144 | transitive / iana_defined of each kind against bits of the written type octet | Case analysis over kinds |
| C145 | Display of communities, large communities, AS-specific extended communities | Injectivity of decimal text, splitting at the first colon |
| C146, C148 | BGP-LS attribute: all kinds of value, reader and writer function by function; the RFC layout as an independent encoder in LsSpec.v | Each value by the parser combinator lemmas, the list by induction; accepted values are shown in range by inversion |
| C147 | The same reader on arbitrary octets | `safe` combinators for totality, equality of runs for confinement |
| C149, C150 | PREFIX_SID: three nested levels of TLVs | As C146 and C147, level by level |
| C151, C152 | BGP-LS NLRI and its VPN form, with path identifiers | As C146 and C147 |
| C153 | The header writers with their 16-bit truncation and checked subtraction | Arithmetic |
| C154-C158 | BsModel: the BMP collector actor and its connection tasks as one state machine with a step per stretch between awaits, in any order | invariants over reachable states (log, maps, table); monotone evolution of tasks; counting for the catch-up bound |
| C159, C160 | BvModel: the tower-style BMP server, its handle and workers, one step per atomic operation; the request loop of a connection | invariants; traces for the refuted parts; induction over the stream |
| C161–C163 | Kafka publishers (Pb*): one task as a state machine with an event per message and per answer of librdkafka, registry and cache; fates of messages by an invariant with a ghost list; retry intervals by induction on the number of full-queue answers |
| C164–C165 | HTTP publisher (Pb*): conservation invariant of answered batches and buffer; client settings by case analysis |
| C166 | YANG publisher (Pb*): invariant linking the id cache with the custom schemas and the registrations made |
| C167–C168, C174, C176 | YANG-Push validation actor (Yv*): state machine over packets and cache answers; invariant tying table entries and outputs to the history; projection to one peer |
| C169–C173 | same: permutation invariant of packets; bounds by induction; fate of held packets at an answer; refutations on short histories for every limit |
| C175, C177 | the actor's loop with its two queues; validation and cache actors as two processes over bounded channels, with a decreasing measure |
| C178–C181 | capture decoding tool (Pd*): generic handler over any decoder; filter and projection lemmas by induction over the packets; streams related to the framing layer's feed |
| C182–C183, C185 | the tool's loop as reading followed by decoding; limit as a filter of rising frame numbers; decreasing buffer |
| C184, C186–C187 | the four handlers with the existing BGP, BMP, flow and UDP-Notif decoders; strict settings keep the decoding context; width of AS numbers as a function of the messages before |
| C188–C190 | supervisors (Sv*): callers, supervisor and listeners as one state machine with a bounded queue per task; invariants on where a call's reply senders are; every listener's handled calls are a prefix of the accepted ones; decreasing measure of the work left |
| C191–C193 | invariants following one subscription and one unsubscribe call through the queues; ids below the listener's counter |
| C192, C194 | shutdown acknowledged only after each listener ended; start as a function of the outcomes of binding |
| C195–C196 | aggregation configuration (Aa*): selection as a list of places with their operations, acceptance proved equivalent to a table of types; enumerated values with the derived order of their enums |
| C197–C199 | aggregation actor: state machine of loop and sending tasks around the window stream of C57 and the aggregator of C35; invariant that what was given away, is held and is still in windows adds up to the windowing specification applied to all flows |
| C200–C203, C208 | pmacct conversion (Pm*): the update processor as a fold over attributes and routes; proved equal to a specification that lists the routes of an update as facts; AS paths as hop sequences with the two-octet view of RFC 6793 |
| C204–C207 | conversion of headers, statistics, information items and timestamps, against the per-peer header decoder and separate tables of the RIBs |
| C209–C211 | peers and handles (Lp*): one state machine of callers, tasks and sessions; invariants over all histories, with the calls numbered so that order and single delivery can be stated |
| C212–C214 | the listener (Lp*): sockets with backlogs and the accept futures, one invariant with the connection in hand; a weight for its own steps; liveness failures as invariants of one state |
| C215–C216 | filters in XML (Fx*): writer and parser over event sequences; a document grammar the reader is shown to follow, the writer shown to produce it; every operation leaves a suffix of the document, so loops end |
| C217–C220 | the same model: either order, text, XPath lexemes against a grammar of their own, trees of unknown elements; counterexamples as closed terms |
| C221–C224 | the Kafka consumer (Kc*): labelled steps of the consumer, its tasks and its users; an invariant ties what each task accepted to the messages taken; backoff levels give the time lost, a weight bounds the steps after shutdown |
| C225–C228 | the stages of the flow pipeline (St*): a generic stage between an input and an output channel with an update channel; an invariant ties what is handed on to what was taken up, another the subscribers' shares to the output |
| C229–C232 | NETCONF capabilities (Ca*): from_str and Display over strings of code points; splitting and joining are inverse, trimming keeps what is not white; dates are any type with a reading and a writing that fit |
| C233–C235 | telemetry messages (Te*): the members serde writes and reads, one by one; a written object is a list of optional members with distinct names, and looking up a name in it gives the member |
| C40 | `strip_vlan_tags` | structural induction |
| C62 | pcap / pcapng packet iterator | induction over blocks; refutations by witness |

## What is modelled, and what is left out

| Area | Files in /repo | Left out or abstract |
|---|---|---|
| Byte reader | crates/parse-utils/src/reader.rs | nothing of the reader; `error.rs` beyond the two variants |
| UDP-Notif | crates/udp-notif-pkt/src/{raw,codec,notification}.rs, src/wire/{deserialize,serialize}.rs | payload interpretation (JSON/CBOR/XML) |
| BGP packets | crates/bgp-pkt/src/{codec,wire,nlri,path_attribute,...} | BGP-LS and PREFIX_SID values as opaque octets; debug-only fields of errors |
| BMP | crates/bmp-pkt/src/{codec,v3,v4,wire} | mirrored raw BGP messages are not re-encoded; error offsets |
| BGP speaker | crates/bgp-speaker/src/{fsm,connection,peer,...}.rs | times in ns; `Interval` as period and deadline; f32 jitter as functions `third`/`jit`; socket writes succeed or fail by an oracle; statistics and hooks |
| Flow | crates/flow-pkt/src/**, crates/ipfix-code-generator/src/generator.rs | element registries are parameters; chrono's millisecond range is a parameter; enumerations as numbers; error offsets |
| Flow aggregation, renormalization, enrichment | crates/collector/src/flow/** | records as lists of (field, number/octets); signed and float aggregation; statistics; release-build wrapping |
| File input | crates/collector/src/inputs/files/{processor,handlers,actor}.rs, formats/pmacct_maps.rs | `Ipv6Addr::from_str` and the JSON reader are parameters; the event stream is given; lost operations on a full channel; counters |
| Options, Sonata, labels | crates/collector/src/inputs/flow_options/{actor,handlers,normalize}.rs, inputs/kafka/{handlers.rs,formats/sonata.rs}, yang_push/enrichment.rs (label cache) | values keep their number when moved to an element of the same type; JSON messages are given parsed; Kafka offsets; lost operations on a full channel |
| Collector actors | crates/flow-service/src/flow_actor.rs, crates/udp-notif-service/src/actor.rs | decoder, hash and channels are parameters; `select!` order is arbitrary; sockets |
| YANG library cache | crates/yang-push/src/cache/{storage,actor}.rs, outcome of fetcher.rs, module lookup of crates/netconf-proto/src/yanglib.rs | XML and JSON serialisers read back what they wrote; subscription fields other than peer, id and content id are one number; the fetch itself is an outcome |
| YANG text scanner | crates/yang-push/src/yangparser.rs (dependencies) | character classes outside ASCII are parameters; `extract_yang_metadata` |
| Loading YANG modules | crates/netconf-proto/src/client.rs (load_from_modules), yanglib.rs (lookup, ModuleSetBuilder, content id) | names, revisions as numbers; the device, the compatibility checker, the set order, the hash and the dependency scanner are parameters; datastores and schemas of the library |
| YANG library graph and registration | crates/netconf-proto/src/yanglib.rs (register_schema, register_with_retry, to_graph) | Names compare as numbers; the registry client is an arbitrary function of the call history; petgraph's `toposort` is a parameter; the debug-level `get_version` calls are left out; stack depth is a fuel argument |
| NETCONF client session (Ns) | crates/netconf-proto/src/client.rs | Messages instead of octets (codec is Nc); the stream ends once after a codec error; filter and subscription parsers are parameters; YANG library values are numbers; load_from_modules is Yl |
| Communities (Ec*) | bgp-pkt/src/community.rs, wire/{de,}serializer/community.rs, parts of iana.rs | Text of IPv4, opaque, EVPN and IPv6 extended communities left out; error values reduced to their kind |
| BGP-LS, PREFIX_SID (Ls*) | bgp-pkt/src/path_attribute/{bgp_ls,bgp_sid}.rs, nlri.rs (BGP-LS part), wire/{de,}serializer/{path_attribute,nlri}/bgp_{ls,sid}.rs, TLV headers of wire/{de,}serializer/mod.rs | Error values reduced to their kind, floats to their bit patterns; capacity hints left out |
| BMP service | crates/bmp-service/src/actor.rs (commands, subscriptions, connection tasks, closing notices, stop), server.rs and handle.rs (signals, count, workers, request loop) | sockets, metrics, supervisor.rs, the content of messages (own model: Bmp*), interface binding |
| Publishers (`Pb*`) | send, run and the counters of the JSON, AVRO and YANG Kafka publishers; register_schema's choice of id; the HTTP publisher's buffer and client settings | converters, serde_json, Avro encoding, librdkafka, the registry (answers are arbitrary events; loading, extending and registering a library are one event here and modelled in Yl*/Yg*); log output; metric labels |
| YANG-Push validation | validation/mod.rs whole actor: subscription lookup, holding, validation, answers, loop order, channel to the cache (YvModel) | libyang's loader and validator (parameters), telemetry tags, ports and collector addresses, closed channels |
| Capture decoding tool | pcap-decoder lib.rs loop, protocol_handler.rs, the four handlers and decode_buffer (PdModel, PdHandlers), on top of the codec models | JSON text (a line is what is put in it), payload parsers (parameters), command line, output file errors |
| Supervisors | flow_supervisor.rs, udp-notif and bmp supervisor.rs: new, command loop, handle methods, and the listeners' command side (SvModel) | contents of answers to questions (peers, templates, addresses), logging, telemetry; a listener handles one command in one step |
| Aggregation service | aggregation/config.rs, actor.rs, capability tests of the code generator (AaModel) | conversion of records to IPFIX fields (explode, into_flowinfo_with_extra_fields), telemetry; registries with nested reason codes; a packet is exploded on arrival |
| pmacct records | bmp/pmacct_schema.rs conversion, bmp/config.rs get_avro_values, update.rs end_of_rib (PmModel) | Avro encoding of the records; texts of communities and information items of unknown type are parameters; writer id, tag and label context fields |
| BGP peers and listener | bgp-speaker supervisor.rs, peer_controller.rs handles and task loop, listener.rs (LpModel) | the session itself is an oracle (its state machine is modelled apart); configuration of new peers; bind errors; addresses and connections are numbers |
| Filters in XML | netconf-proto yang_push/filters.rs; xml_utils.rs XmlWriter, XmlParser next_event to close, copying and XPath prefixes (FxModel) | documents are event sequences: quick-xml's tokenizer, encodings, attributes other than xmlns and its own errors are not modelled; outer blanks of subtrees; the prefixes xml and xmlns |
| Kafka consumer | collector inputs/kafka/actor.rs run, new, shutdown (KcModel) | what the brokers yield is chosen by the environment: partitions, offsets, commits, rdkafka's own threads and the blocking metadata request are left out; the message handler is any function; only sleeping takes time |
| Flow stages | collector flow/enrichment/actor.rs and flow/renormalization/actor.rs run, new, shutdown, subscribe, update_enrichment (StModel) | what a stage does to a flow is any function; input and update channels are taken to be unbounded, as a full one only makes the sender wait; each message of the output channel goes to one receiver, as async_channel documents |
| NETCONF capabilities | netconf-proto capabilities.rs from_str, Display and the capabilities of a hello in protocol.rs (CaModel) | chrono's dates are a parameter with the law that a written date is read back and has no blank or ampersand (a premise of the theorems that need it); texts of errors left out; the set of capabilities of a hello is the list it is made from |
| Telemetry message | yang-push model/telemetry.rs: the types with what serde derives for them, labels, From<SubscriptionInfo> and From<Target> (TeModel) | times, addresses, plain numbers, YANG-Push identities and module lists are leaves with the law that a written leaf is read back and is not null (a premise of the theorems); serde's treatment of Option, flatten and untagged is modelled from its documentation |
| Windowing | crates/analytics/src/aggregation.rs | calendar reduced to minute truncation of a second count |
| NETCONF | crates/netconf-proto/src/codec.rs | the XML reader and writer are parameters |
| pcap | crates/pcap-reader/src/lib.rs | the block parser (pcap-parser) and dissector (pdu) are parameters |

Not modelled at all: tokio scheduling, sockets, Kafka, TLS/SSH transport, logging and metrics, serde/JSON/CBOR/YANG schema
parsing, XML parsing, memory allocation, wall-clock time (time stamps are inputs).

## Behaviour found to differ from the property

Each is proved of the model as a `_refuted` theorem; see the notes in `MANIFEST.json` for the ones that concern each property.
In short: UDP-Notif loses the options of segment 0 and panics on a datagram of at most one byte after a truncated one (C05, C06);
the BGP decoder never consumes a message of length 0, overflows with eight or more labels, loses its place after several tolerated
errors, and reports tolerated errors with later messages (C10, C42-C44, C47); lengths over 65535 are truncated (C11); several NLRI,
capabilities and attributes are not written the way they are read (C12-C14, C48); BMP settings are kept under the wrong key (C16)
and v4 frames lose TLVs (C56); flow encodings deviate from RFC 7011 for long variable-length fields, false, NTP times and
withdrawals, template caches ignore the observation domain, unknown elements reject whole packets, and the encoder forgets its
own templates (C20, C21, C81-C94, C96-C98); windows are aligned to the minute whatever their duration (C24); NETCONF loses messages
when a read ends inside an end mark (C26); the speaker rejects the usual attribute order and every withdrawal, does not restart the
hold timer on updates, reorders commands and loses OPENs in collisions (C27-C31, C68-C78); purging unused peers frees nothing (C38);
enrichment scopes depend on field order (C64, C65); renormalization can be applied twice (C67); pcapng sections share interfaces (C62);
file inputs can contradict themselves and leave values behind (C100, C101, C105); NetFlow v9 interface options only match records with
that interface on both sides, and repeated elements are renumbered (C109, C110); nodes that take over an address lose their name (C112);
the YANG library cache keeps the first library of a content id, cannot be loaded after some crashes or with some libraries, and its
actor never answers one-shot lookups by id that miss, nor anybody after a fetch panicked (C115-C119, C123, C124); the scanner for YANG dependencies loops on texts cut inside an import, panics
on some characters outside ASCII and drops all dependencies of a module named after a meta statement (C126-C128); loading modules
from a device panics or fails on submodules that are listed but not included by the module itself, fetches one revision only, and the
content id of a built library sees neither revisions nor feature boundaries (C129, C131-C133); schema registration recurses without end on
circular includes, panics on listed submodules without a text, lets the root refer to itself, overrides the registry's compatibility
check and can refer to version 0 (C134-C136). A NETCONF session never
recovers from one unexpected message, takes a reply without an id for the
answer to anything, and never keeps the library it fetched (C137-C140). BGP source AS communities are written as route targets, two kinds of extended communities report the wrong transitivity, and texts of extended communities are ambiguous (C142-C145). BGP-LS link protection types, route tags and forwarding addresses are not carried faithfully, unknown BGP-LS NLRI types are refused although they carry their length, and oversized TLVs panic or wrap (C146-C153). The BMP collector crashes connections on a subscription without channels, keeps sending after unsubscribing, disconnecting and stopping, loses sight of a reconnected peer after a late notice and reports dead ones after a lost one (C155-C158); the BMP server can miss a shutdown and can report itself closed with open connections (C159); the YANG publisher drops messages whose schema cannot be registered without counting them (C161); the Kafka publishers do not flush when their input closes (C163); the HTTP publisher loses its buffer when it stops, counts batches the server refused as sent, and ends at the first failed request (C164); it uses the TCP keep-alive setting as request timeout (C165). The YANG-Push validation actor holds only the first packet of a subscription and sends later ones unvalidated, loses held packets when an announcement follows, holds announcements without module version for ever, lets late answers override newer descriptions, never forgets subscriptions, starves cache answers while packets arrive and can deadlock with the schema cache (C168-C177). The capture decoding tool drops the rest of a segment after an error, glues truncated datagrams to the next one, panics on BMP and UDP-Notif packets, prints errors without flow, replaces a good BGP message after an error and ignores the other direction's OPEN (C179-C187). The supervisors answer with success although a listener is gone or a shutdown came first, report unknown ids as removed, can return an error from a complete shutdown, leave orphan subscriptions in the BMP listener, start a UDP-Notif service without listeners and panic on a zero buffer size (C188-C194). The aggregation accepts operations it cannot carry out, orders unassigned codes and TCP flags unlike their values, never ends after its input closed, and loses open windows at shutdown (C195-C199). The pmacct conversion gives one empty record for all routes of a non-prefix family, shows unknown counters as zero, reports some updates as End-of-RIB that are not, merges AS4_PATH into four-octet paths, refuses messages without timestamp, and the decoder rejects confederation segments (C200-C208). Two BGP sessions can run for one peer key, a removed peer whose controller is dropped may never be stopped, the BGP listener leaves a connection waiting at one socket until all others got one, a silent dynamic peer blocks all accepts, and a failed one is never tried again (C209-C214). A filters document cut inside a text is read for ever, stream filters with the name last are rejected, filters with two prefixes for a namespace or a default namespace do not come back, character references are not resolved (C215-C220). An ended enrichment task costs the Kafka consumer 10.5 s for each operation, a full one stops it, and while brokers are down it does not hear shutdown (C222, C223). Several subscribers of a flow stage share its output instead of each getting all of it, and a stage with a full output does not hear shutdown (C226, C227). A NETCONF capability whose parameters have no value refuses the whole hello (C230), white space changes :url and YANG library capabilities (C231), and :with-defaults is not recognised as RFC 6243 writes it (C232). A telemetry message with operator metadata but no labels cannot be read back (C233), and its metadata names udp-notif and json whatever the subscription uses (C234).

## Trusted base

* Coq's kernel (and `coqchk`, which re-checks the compiled files without the VM).
* No axioms: see the appendix. `vm_compute` is used in examples and for small closed computations only.
* The reading of the Rust source: the `*Model.v` files say for each definition what it transcribes and what it simplifies.
* The statements: the `*Spec.v` and `*Props.v` files.

## Appendix: assumptions per theorem

Every theorem below is followed in its `*Props.v` file by `Print Assumptions`, which prints
`Closed under the global context` for each of them: no axioms at all.

* C01 (proved): `C01_packet_round_trip`, `C01_write_outcome`, `C01_parsed_is_canonical`
* C02 (proved): `C02_fresh_decoder_never_panics`, `C02_accepted_datagram_layout`
* C03 (proved): `C03_reassembly_any_order`, `C03_reassembly_with_duplicates`, `C03_datagrams_are_packets`
* C04 (proved): `C04_emitted_is_complete_and_own`, `C04_one_answer_per_packet`
* C05 (partial): `C05_options_survive_refuted`, `C05_options_survive_partial`
* C06 (partial): `C06_datagrams_never_panic_refuted`, `C06_panics_exactly_when`, `C06_datagrams_never_panic_partial`
* C07 (proved): `C07_read_returns_next_bytes`, `C07_reads_partition_the_buffer`, `C07_read_total`, `C07_subreader`, `C07_subreader_fail`
* C08 (proved): `C08_unsigned64`, `C08_unsigned32`, `C08_signed64`, `C08_signed32`, `C08_too_wide64`
* C09 (proved): `C09_chunking_is_irrelevant`, `C09_decoding_terminates`
* C10 (partial): `C10_nothing_reported_nothing_consumed`, `C10_reports_when_complete`, `C10_message_consumed_by_its_length`, `C10_error_consumes_partial`, `C10_zero_length_refuted`
* C11 (partial): `C11_accepted_length`, `C11_framed_is_accepted`, `C11_written_length_partial`, `C11_oversize_notification_refuted`
* C12 (partial): `C12_capability_round_trip_partial`, `C12_open_round_trip_partial`, `C12_multiple_labels_refuted`
* C13 (partial): `C13_prefix_round_trip`, `C13_accepted_prefix`, `C13_too_long_is_rejected`, `C13_written_bits`, `C13_unicast_nlri_round_trip`, `C13_host_bits_refuted`
* C14 (partial): `C14_attributes_round_trip_partial`, `C14_flags_on_the_wire`, `C14_mp_reach_unknown_refuted`, `C14_short_flag_refuted`
* C15 (partial): `C15_chunking_is_irrelevant`, `C15_decoding_terminates`, `C15_never_panics_partial`, `C15_label_overflow_refuted`
* C16 (partial): `C16_add_path_follows_history_partial`, `C16_route_monitoring_partial`, `C16_alias_refuted`, `C16_direction_refuted`
* C17 (proved): `C17_progress`, `C17_need_more`, `C17_ipfix_exact`, `C17_ipfix_rejected`
* C18 (proved): `C18_ipfix`, `C18_netflow`, `C18_no_template_rejected`
* C19 (proved): `C19_templates_round_trip`
* C20 (partial): `C20_unsigned_partial`, `C20_signed_partial`, `C20_unsigned256_refuted`
* C21 (partial): `C21_short_partial`, `C21_long_written_refuted`, `C21_long_read_refuted`, `C21_own_round_trip_partial`
* C22 (proved): `C22_exactly_once`, `C22_reaches_the_end`
* C23 (proved): `C23_window_emitted_once`
* C24 (partial): `C24_window_bounds_partial`, `C24_long_windows_refuted`, `C24_short_windows_refuted`
* C25 (proved): `C25_message_round_trip`, `C25_hello_round_trip`, `C25_session_round_trip`
* C26 (partial): `C26_any_reads_partial`, `C26_hello_any_reads`, `C26_late_end_mark_loses_messages_refuted`, `C26_short_last_chunk_refuted`
* C27 (partial): `C27_hold_timer_partial`, `C27_expiry`, `C27_updates_do_not_restart_refuted`
* C28 (partial): `C28_rfc_transitions`, `C28_failed_writes`, `C28_established_after_handshake`, `C28_peer_state_partial`, `C28_reported_state`, `C28_peer_state_refuted`
* C29 (partial): `C29_accepted_orders_partial`, `C29_reported_partial`, `C29_usual_order_refuted`
* C30 (partial): `C30_same_connection_partial`, `C30_accepted_first_refuted`
* C31 (partial): `C31_most_severe`, `C31_asked_for`, `C31_order_partial`, `C31_first_family_only_refuted`, `C31_bgpls_resets_another_family_refuted`
* C32 (proved): `C32_last_of_the_heaviest`, `C32_one_operation`, `C32_values_were_upserted`
* C33 (proved): `C33_delete_named`, `C33_delete_all`, `C33_nothing_else_changes`, `C33_no_empty_containers`
* C34 (proved): `C34_best_values`, `C34_best_is_unique`, `C34_heaviest_then_own_domain`, `C34_hash_order_is_irrelevant`
* C35 (proved): `C35_aggregates`, `C35_group_members`, `C35_every_flow_counted_once`, `C35_arrival_order`, `C35_reported`, `C35_sum_wraps_refuted`, `C35_or_of_octets_depends_on_order_refuted`
* C36 (partial): `C36_counters_scaled`, `C36_one_method`, `C36_unusable_unchanged`, `C36_exact_partial`, `C36_record_exact_partial`, `C36_packets`, `C36_zero_interval_erases_counters_refuted`, `C36_large_counter_changed_refuted`
* C37 (proved): `C37_peers_are_separate`, `C37_own_decoder`, `C37_purged_is_fresh`
* C38 (partial): `C38_reported_peers_were_idle_partial`, `C38_purged_peers_keep_templates_refuted`, `C38_undecodable_peers_stay_refuted`
* C39 (proved): `C39_every_packet_once`, `C39_nothing_after_unsubscribe`, `C39_nothing_after_close`, `C39_ids_never_reused`, `C39_only_subscribers`, `C39_never_panics`, `C39_id_wrap_refuted`
* C40 (proved): `C40_strips_exactly_the_tags`, `C40_untagged_unchanged`, `C40_never_out_of_bounds`
* C41 (proved): `C41_cleanup_exact`
* C42 (partial): `C42_decoding_never_panics_partial`, `C42_label_overflow_refuted`
* C43 (partial): `C43_malformed_as_path_is_local_partial`, `C43_wrong_flags_refuted`, `C43_wrong_length_refuted`
* C44 (partial): `C44_malformed_capability_is_local_partial`, `C44_fixed_length_refuted`
* C45 (proved): `C45_error_notification_is_readable`
* C46 (proved): `C46_as_width_follows_negotiation`
* C47 (partial): `C47_reported_errors_are_own_partial`, `C47_errors_leak_refuted`
* C48 (partial): `C48_nlri_round_trip_partial`, `C48_labelled_path_id_refuted`, `C48_long_label_refuted`
* C49 (partial): `C49_session_delivers_partial`, `C49_messages_are_written`
* C50 (partial): `C50_message_round_trip_partial`, `C50_stream_round_trip_partial`
* C51 (proved): `C51_frame_is_one_step`, `C51_one_outcome_per_frame`, `C51_incomplete_frame_waits`
* C52 (partial): `C52_length_field_partial`, `C52_long_tlv_refuted`, `C52_wrapped_tlv_refuted`
* C53 (partial): `C53_label_limit_follows_history_partial`
* C54 (partial): `C54_errors_and_reports_change_nothing`, `C54_peers_are_independent_partial`
* C55 (proved): `C55_as_width_is_the_headers`
* C56 (partial): `C56_second_update_refuted`
* C57 (proved): `C57_late_items_and_contents`
* C58 (proved): `C58_windows_out_when_over`
* C59 (partial): `C59_never_panics_partial`, `C59_huge_lateness_refuted`
* C60 (partial): `C60_chunk_header_checked_partial`, `C60_lax_header_refuted`
* C61 (proved): `C61_never_panics_or_spins`, `C61_messages_consume_input`
* C62 (partial): `C62_every_packet_once_partial`, `C62_second_section_refuted`, `C62_panics_refuted`
* C63 (proved): `C63_one_channel_per_address`
* C64 (partial): `C64_longer_list_wins_partial`, `C64_fewer_fields_can_win_refuted`
* C65 (partial): `C65_order_of_scope_fields_matters_refuted`
* C66 (proved): `C66_records_only_grow`
* C67 (partial): `C67_scaled_again_refuted`
* C68 (partial): `C68_zero_hold_time_partial`, `C68_session_closed_refuted`
* C69 (proved): `C69_keepalives_are_sent`
* C70 (partial): `C70_withdrawals_refuted`
* C71 (partial): `C71_missing_found_partial`, `C71_order_matters_refuted`
* C72 (partial): `C72_notification_partial`, `C72_established_refuted`
* C73 (partial): `C73_retry_partial`, `C73_failed_attempt_refuted`
* C74 (partial): `C74_single_command_partial`, `C74_last_first_refuted`
* C75 (proved): `C75_stopped_is_idle`, `C75_stop_stops`
* C76 (partial): `C76_goes_on_partial`, `C76_second_connection_refuted`
* C77 (partial): `C77_established_partial`, `C77_not_established_refuted`
* C78 (partial): `C78_open_lost_refuted`, `C78_loser_dropped_partial`
* C79 (proved): `C79_configured_as`
* C80 (proved): `C80_stream`
* C81 (partial): `C81_packet_round_trip_partial`, `C81_writer_forgets_refuted`
* C82 (partial): `C82_netflow_round_trip_partial`, `C82_two_packets_refuted`, `C82_empty_set_refuted`, `C82_alignment_refuted`
* C83 (partial): `C83_own_round_trip_partial`, `C83_false_refuted`, `C83_true_partial`
* C84 (partial): `C84_time_round_trip_partial`, `C84_epoch_refuted`, `C84_fraction_refuted`
* C85 (partial): `C85_withdrawal_refuted`
* C86 (partial): `C86_domains_refuted`
* C87 (partial): `C87_opaque_round_trip_partial`, `C87_variable_length_refuted`
* C88 (partial): `C88_unregistered_refuted`, `C88_any_unregistered_refuted`
* C89 (partial): `C89_rejected_leaves_trace_refuted`
* C90 (partial): `C90_announced_length_partial`, `C90_unknown_refuted`
* C91 (partial): `C91_ipfix_count_refuted`
* C92 (partial): `C92_template_padding_refuted`
* C93 (partial): `C93_length_field_partial`, `C93_oversize_refuted`
* C94 (partial): `C94_fixed_size_partial`, `C94_too_long_refuted`
* C95 (proved): `C95_only_legal_templates`, `C95_illegal_refused`
* C96 (partial): `C96_same_octets_partial`, `C96_tcp_flags_refuted`, `C96_boolean_refuted`, `C96_string_refuted`
* C97 (partial): `C97_tail_ignored_refuted`
* C98 (partial): `C98_no_panic_partial`, `C98_mismatch_refuted`
* C99 (proved): `C99_exactly_the_difference`, `C99_same_lines_send_nothing`
* C100 (partial): `C100_cache_follows_files_partial`, `C100_two_lines_for_one_slot_refuted`
* C101 (partial): `C101_late_directories_ignored_refuted`
* C102 (partial): `C102_line_read_iff_described`, `C102_word_order_irrelevant`, `C102_two_scopes_refused`, `C102_stray_words_widen_scope_refuted`
* C103 (proved): `C103_route_distinguisher_read_iff`, `C103_route_distinguisher_unique`, `C103_same_value_same_parts`
* C104 (partial): `C104_records_get_what_files_say_partial`
* C105 (partial): `C105_same_file_twice_refuted`
* C106 (proved): `C106_read`, `C106_not_read`
* C107 (proved): `C107_reaches_records`
* C108 (proved): `C108_isolation`
* C109 (partial): `C109_interface_scope_refuted`
* C110 (partial): `C110_repeated_elements_refuted`
* C111 (proved): `C111_flows`, `C111_labels`, `C111_records_get_the_name`
* C112 (partial): `C112_taken_over_refuted`
* C113 (proved): `C113_one_operation`, `C113_values_were_upserted`
* C114 (proved): `C114_message_labels`
* C115 (partial): `C115_lookups`, `C115_contents_partial`, `C115_other_library_refuted`
* C116 (partial): `C116_reload_partial`, `C116_no_revision_refuted`, `C116_imports_refuted`, `C116_moved_refuted`
* C117 (partial): `C117_by_id_partial`, `C117_replaced_refuted`, `C117_stale_refuted`
* C118 (partial): `C118_shared_partial`, `C118_put_refuted`, `C118_remove_refuted`, `C118_remove_last_refuted`, `C118_empty_schema_refuted`
* C119 (partial): `C119_below_root_partial`, `C119_anywhere_refuted`
* C120 (proved): `C120_once`
* C121 (proved): `C121_not_forgotten`, `C121_all_answered`
* C122 (proved): `C122_one_fetch`
* C123 (partial): `C123_by_info_partial`, `C123_by_id_refuted`
* C124 (partial): `C124_retry_partial`, `C124_panic_refuted`
* C125 (proved): `C125_answers`
* C126 (partial): `C126_enough_turns`, `C126_returns_partial`, `C126_cut_import_refuted`, `C126_cut_include_refuted`, `C126_backslash_refuted`
* C127 (partial): `C127_ascii_partial`, `C127_last_character_refuted`, `C127_letter_refuted`
* C128 (partial): `C128_extracts_partial`, `C128_meta_name_refuted`, `C128_import_node_refuted`
* C129 (proved): `C129_ends`, `C129_each_once`, `C129_revisions_refuted`
* C130 (partial): `C130_closure_partial`, `C130_checker_irrelevant`
* C131 (partial): `C131_succeeds_partial`, `C131_unneeded_submodule_refuted`, `C131_nested_include_refuted`
* C132 (partial): `C132_builds`, `C132_features`, `C132_refused_extension_refuted`, `C132_two_revisions_refuted`, `C132_later_revisions_refuted`
* C133 (partial): `C133_identifies_refuted`, `C133_order_refuted`
* C134 (partial): `C134_exact`, `C134_ends_partial`, `C134_include_cycle_refuted`, `C134_missing_text_refuted`
* C135 (partial): `C135_references`, `C135_complete`, `C135_no_panic_partial`, `C135_self_reference_refuted`, `C135_listed_submodule_refuted`
* C136 (partial): `C136_versions_partial`, `C136_looked_up_partial`, `C136_check_kept_refuted`, `C136_version_refuted`
* C137 (partial): `C137_own_answers`, `C137_in_step`, `C137_desync_refuted`
* C138 (partial): `C138_ids_distinct`, `C138_ids_wrap_refuted`, `C138_wrong_answer_refuted`, `C138_close_refuted`, `C138_errors_refuted`
* C139 (partial): `C139_library_cached_refuted`
* C140 (partial): `C140_resolved`, `C140_unresolved_refuted`
* C141 (proved): `C141_connect`
* C142 (partial): `C142_round_trip_partial`, `C142_ipv6_round_trip`, `C142_lists_partial`, `C142_source_as_refuted`
* C143 (partial): `C143_total`, `C143_echo_partial`, `C143_source_as_refuted`
* C144 (partial): `C144_transitive_partial`, `C144_transitive_refuted`, `C144_authority_refuted`
* C145 (partial): `C145_text_partial`, `C145_text_refuted`
* C146 (partial): `C146_round_trip_partial`, `C146_protection_refuted`, `C146_forwarding_refuted`, `C146_tags_refuted`
* C147 (partial): `C147_total`, `C147_attribute_confined`, `C147_value_confined_partial`, `C147_value_confined_refuted`, `C147_unknown_codes`
* C148 (partial): `C148_echo_partial`, `C148_long_name_refuted`, `C148_unread_octets_refuted`
* C149 (proved): `C149_round_trip`, `C149_echo`, `C149_unread_octets_refuted`
* C150 (partial): `C150_total`, `C150_attribute_confined`, `C150_value_confined`, `C150_reserved_refuted`
* C151 (proved): `C151_round_trip`, `C151_vpn_round_trip`
* C152 (partial): `C152_total`, `C152_confined`, `C152_echo_partial`, `C152_vpn_echo_partial`, `C152_host_bits_refuted`, `C152_unknown_type_refuted`, `C152_unread_octets_refuted`
* C153 (partial): `C153_length_field_partial`, `C153_oversize_refuted`
* C154 (proved): `C154_as_decoded`, `C154_once_in_order`, `C154_all`
* C155 (partial): `C155_channel`, `C155_same_peer_same_channel`, `C155_no_channels_refuted`
* C156 (partial): `C156_numbered`, `C156_unsubscribe`, `C156_current`, `C156_catches_up`, `C156_after_unsubscribe_refuted`
* C157 (partial): `C157_peers`, `C157_reported_partial`, `C157_disconnected`, `C157_cancelled`, `C157_over`, `C157_after_disconnect_refuted`, `C157_late_notice_refuted`, `C157_crashed_refuted`, `C157_lost_notice_refuted`
* C158 (partial): `C158_stopped`, `C158_asked_to_end_partial`, `C158_ends`, `C158_after_stop_refuted`
* C159 (partial): `C159_count`, `C159_shutdown_partial`, `C159_missed_shutdown_refuted`, `C159_closed_when_empty_partial`, `C159_closed_early_refuted`, `C159_closed_early_leaving_refuted`
* C160 (proved): `C160_requests`, `C160_complete`
* C161 (partial): `C161_json_fates`, `C161_json_counted`, `C161_avro_fates`, `C161_yang_uncounted_refuted`
* C162 (proved): `C162_json_patience`, `C162_json_gives_up`, `C162_json_refused`, `C162_avro_patience`, `C162_avro_gives_up`, `C162_yang_patience`, `C162_yang_gives_up`
* C163 (partial): `C163_json_over`, `C163_json_flush`, `C163_json_unflushed_refuted`, `C163_avro_over`, `C163_avro_flush`, `C163_http_over`, `C163_yang_over`, `C163_yang_flush`
* C164 (partial): `C164_batches`, `C164_lost_on_stop_refuted`, `C164_status_ignored_refuted`, `C164_failure_ends_refuted`
* C165 (partial): `C165_settings_partial`, `C165_keepalive_refuted`
* C166 (proved): `C166_schema`, `C166_registered_once`, `C166_from_then_on`, `C166_asks`
* C167 (proved): `C167_label_means_validated`, `C167_own_subscription`
* C168 (partial): `C168_validated_once_known`, `C168_empty_content_id_refuted`
* C169 (partial): `C169_accounting`, `C169_nothing_lost_when_orderly`, `C169_all_accounted_refuted`, `C169_received_counts_twice_refuted`
* C170 (partial): `C170_held_bounded`, `C170_limits_refuted`
* C171 (partial): `C171_first_packet_waits_partial`, `C171_waits_in_order_refuted`
* C172 (partial): `C172_answer_releases_partial`, `C172_unversioned_never_ends_refuted`
* C173 (partial): `C173_newest_description_partial`, `C173_late_answer_refuted`
* C174 (proved): `C174_peers_independent`
* C175 (partial): `C175_answers_starve_refuted`, `C175_quiet_drains_partial`
* C176 (partial): `C176_tracked_iff_seen`, `C176_one_record_each`, `C176_ended_is_forgotten_refuted`
* C177 (partial): `C177_no_deadlock_refuted`, `C177_small_burst_completes_partial`
* C178 (proved): `C178_only_selected`, `C178_others_no_effect`, `C178_is_wanted`
* C179 (partial): `C179_flows_independent`, `C179_bgp_flows_independent`, `C179_errors_without_flow_refuted`
* C180 (partial): `C180_bgp_segmentation_partial`, `C180_bgp_is_the_stream`, `C180_bmp_segmentation_partial`, `C180_after_an_error_refuted`
* C181 (partial): `C181_notif_datagrams_partial`, `C181_ipfix_datagrams_partial`, `C181_leftover_refuted`, `C181_forged_refuted`
* C182 (partial): `C182_limit_is_a_prefix`, `C182_numbers_optional`, `C182_panic_past_the_limit_refuted`
* C183 (partial): `C183_one_line_per_result_partial`
* C184 (partial): `C184_bgp_and_flow_finish_partial`, `C184_bmp_packet_crashes_refuted`, `C184_notif_packet_crashes_refuted`, `C184_notif_prints_exactly`
* C185 (proved): `C185_always_ends`
* C186 (partial): `C186_printed_in_full_partial`, `C186_session_printed_partial`, `C186_after_an_error_refuted`
* C187 (partial): `C187_width_from_own_flow_partial`, `C187_other_direction_ignored_refuted`
* C188 (partial): `C188_one_answer_each`, `C188_running_listeners_partial`, `C188_all_listeners_partial`, `C188_ended_listener_refuted`, `C188_behind_shutdown_refuted`
* C189 (partial): `C189_all_return`, `C189_bounded_work`, `C189_zero_buffer_refuted`
* C190 (proved): `C190_in_order`, `C190_nothing_skipped`
* C191 (partial): `C191_removed`, `C191_kept`, `C191_report_length`, `C191_report`, `C191_unknown_id_refuted`
* C192 (partial): `C192_shutdown_stops_all`, `C192_earlier_calls_first`, `C192_dropped_stops_all`, `C192_runs_until_told`, `C192_listener_runs_until_told`, `C192_refused_after_end`, `C192_receive_error_refuted`
* C193 (partial): `C193_ids_unique`, `C193_no_orphans_partial`, `C193_bmp_orphan_refuted`
* C194 (partial): `C194_numbered`, `C194_some_listener_partial`, `C194_no_listener_refuted`
* C195 (partial): `C195_accepted`, `C195_selected`, `C195_no_field_twice`, `C195_error`, `C195_implemented_partial`, `C195_list_minimum_refuted`, `C195_unknown_union_refuted`, `C195_refused_though_implemented_refuted`
* C196 (partial): `C196_coded_partial`, `C196_unassigned_wins_refuted`, `C196_fin_wins_refuted`
* C197 (partial): `C197_at_the_end`, `C197_while_waiting`, `C197_no_panic_partial`, `C197_end_comes`
* C198 (partial): `C198_numbers`, `C198_distinct`, `C198_out_of_order_refuted`, `C198_lost_refuted`
* C199 (partial): `C199_never_ends_refuted`, `C199_command_ends`, `C199_shutdown_loses_refuted`
* C200 (partial): `C200_one_record_per_route`, `C200_distinguisher_text`, `C200_other_families_refuted`, `C200_label_stack_refuted`
* C201 (partial): `C201_attributes_shown`, `C201_withdrawal_attributes_refuted`, `C201_repeated_attribute_refuted`, `C201_large_aigp_refuted`
* C202 (partial): `C202_marker_reported`, `C202_only_without_routes`, `C202_unknown_family_refuted`, `C202_not_a_marker_refuted`
* C203 (partial): `C203_as_path_shown`, `C203_path_reconstructed`, `C203_longer_as4_path_ignored`, `C203_text_names_one_path`, `C203_four_octet_path_refuted`, `C203_aggregator_refuted`
* C204 (proved): `C204_peer_and_rib`
* C205 (partial): `C205_one_record_per_counter`, `C205_large_counter_clamped`, `C205_unknown_counter_refuted`
* C206 (partial): `C206_initiation_information_partial`, `C206_peer_up_information_partial`, `C206_other_items`, `C206_termination`, `C206_peer_down`, `C206_notification_refuted`, `C206_repeated_string_refuted`, `C206_termination_item_refuted`
* C207 (partial): `C207_converted_or_refused`, `C207_no_timestamp_refuted`, `C207_other_message_refuted`, `C207_sequence_refuted`, `C207_time_text`, `C207_leap_second_refuted`
* C208 (partial): `C208_sets_and_sequences_partial`, `C208_confederation_refuted`
* C209 (partial): `C209_keys`, `C209_create`, `C209_peer_of_key`, `C209_two_sessions_refuted`
* C210 (proved): `C210_in_order`, `C210_refused`, `C210_all_return`, `C210_answer`, `C210_answered`
* C211 (partial): `C211_removed`, `C211_stopped_if_kept_partial`, `C211_stop_lost_refuted`
* C212 (proved): `C212_right_peer`, `C212_once`, `C212_delivered`, `C212_dropped`, `C212_one_peer`
* C213 (partial): `C213_waits_for`, `C213_nothing_waits_partial`, `C213_comes_to_waiting`, `C213_other_socket_refuted`, `C213_no_socket_refuted`
* C214 (partial): `C214_kept`, `C214_joined`, `C214_blocked_refuted`, `C214_no_second_try_refuted`
* C215 (partial): `C215_faithful_filters_come_back_partial`, `C215_two_prefixes_for_a_namespace_refuted`, `C215_default_namespace_refuted`, `C215_no_namespace_gains_one_refuted`, `C215_blanks_around_a_name_refuted`
* C216 (partial): `C216_reading_a_complete_document_ends_partial`, `C216_a_document_cut_in_a_text_refuted`, `C216_filters_cut_in_a_name_refuted`
* C217 (partial): `C217_a_selection_filter_in_either_order`, `C217_a_stream_filter_with_its_name_first_partial`, `C217_a_stream_filter_with_its_name_last_refuted`
* C218 (partial): `C218_text_is_what_it_stands_for_partial`, `C218_any_text_is_written_as_itself`, `C218_names_are_read_without_outer_blanks`, `C218_character_references_refuted`
* C219 (partial): `C219_an_xpath_is_read_with_the_namespaces_it_uses_partial`, `C219_prefixes_outside_ascii_refuted`
* C220 (partial): `C220_unknown_elements_change_nothing_partial`, `C220_an_element_is_skipped_with_all_it_holds`, `C220_an_empty_filters_element_refuted`, `C220_an_empty_subtree_filter_refuted`, `C220_an_inner_element_of_the_same_name_refuted`
* C221 (proved): `C221_tasks_get_a_prefix`, `C221_running_tasks_get_all`, `C221_running_tasks_lack_the_rest`
* C222 (partial): `C222_no_failure_while_tasks_run`, `C222_gives_up_after_21_offers`, `C222_ended_task_delays_the_others_refuted`, `C222_full_task_stops_the_others_refuted`
* C223 (partial): `C223_shutdown_before_the_next_message`, `C223_bounded_steps_after_shutdown_partial`, `C223_reconnecting_ignores_shutdown_refuted`, `C223_shutdown_waits_any_time_refuted`
* C224 (proved): `C224_ends_only_for_a_reason`, `C224_never_stuck`, `C224_bad_messages_are_passed_over`, `C224_reconnection_resumes`, `C224_counters`, `C224_ended_is_final`
* C225 (proved): `C225_flows_and_updates_in_order`, `C225_handed_on_in_order`, `C225_nothing_is_lost`, `C225_at_most_one_lost`, `C225_updates_first`, `C225_two_stages`
* C226 (partial): `C226_only_subscriber_gets_all`, `C226_subscribers_share`, `C226_all_subscribers_get_all_refuted`
* C227 (partial): `C227_input_is_drained`, `C227_two_turns_after_shutdown_partial`, `C227_shutdown_goes_first`, `C227_shutdown_is_heard_partial`, `C227_full_output_holds_the_stage_refuted`, `C227_waits_for_input_or_output`
* C228 (proved): `C228_counters`, `C228_counters_add_up`
* C229 (partial): `C229_written_is_read`, `C229_reading_is_stable`, `C229_white_space_refuted`, `C229_no_schemes_refuted`
* C230 (partial): `C230_plain_names_are_accepted`, `C230_other_names_are_kept`, `C230_unknown_parameters_are_kept`, `C230_ignored_refuted`, `C230_one_error_refuses_the_hello`, `C230_hello_has_all`
* C231 (partial): `C231_standard_names`, `C231_base_names`, `C231_modules`, `C231_url_refuted`, `C231_library_refuted`
* C232 (partial): `C232_recognised_by_name`, `C232_base_by_name`, `C232_url_schemes`, `C232_with_defaults_refuted`
* C233 (partial): `C233_written_is_read`, `C233_nothing_is_confused`, `C233_no_labels_refuted`, `C233_null_payload_refuted`
* C234 (partial): `C234_subscription_is_kept`, `C234_filters_are_kept`, `C234_both_filters_refuted`, `C234_transport_refuted`, `C234_replay_time_refuted`, `C234_reaches_the_reader`
* C235 (proved): `C235_label_is_read_back`, `C235_numbers_are_text`, `C235_json_numbers_are_refused`, `C235_number_only_if_it_is_one`
