{"id": "C01", "title": "Stream bytes are delivered in order, once", "statement": "On an established SAM stream, if every data packet that arrives carries the payload the remote sender assigned to its sequence number, then the bytes handed to the local client are always a prefix of the bytes the remote wrote, with no gap, duplicate or reordering; and once every packet up to n has arrived at least once (and the reader was never more than the lookahead behind), all bytes up to n are available.", "quantifier": "every finite arrival sequence of packets: any loss, duplication, reordering, interleaved with any reads by the client", "why_tests_cant": "the number of arrival orders is unbounded; tests replay a handful of permutations", "anchors": ["emissary-core/src/sam/protocol/streaming/stream/active.rs: InboundContext::handle_packet, pop_message"]}
{"id": "C02", "title": "An ACK never covers a packet that was not received", "statement": "Whenever a stream sends a packet with ack_through = n and a NACK list, every sequence number in 1..=n that is not in the NACK list was actually received (so the remote may forget it).", "quantifier": "every arrival history and every moment an ACK can be emitted", "why_tests_cant": "needs an invariant over all histories, including those with more missing packets than fit in the one-byte NACK count", "anchors": ["emissary-core/src/sam/protocol/streaming/stream/active.rs: InboundContext, send_ack/packetize", "emissary-core/src/sam/protocol/streaming/packet.rs: PacketBuilder::with_nacks"]}
{"id": "C03", "title": "The stream sender forgets a packet only when it was acknowledged", "statement": "Every byte accepted from the client for an outbound stream is, at every moment, either still queued, in flight (retained for retransmission) or was covered by an ACK from the remote; a retransmitted packet carries the same sequence number and payload as the original; ACKs for never-sent sequence numbers change nothing; the number of unacknowledged packets never exceeds the window limit of 128.", "quantifier": "every interleaving of client writes, ACKs (arbitrary ack_through / NACK lists) and retransmission timers", "why_tests_cant": "ACK contents and timer interleavings are attacker/network controlled and unbounded", "anchors": ["emissary-core/src/sam/protocol/streaming/stream/active.rs: packetize, handle_acks, resend"]}
{"id": "C04", "title": "End to end, a stream never corrupts data over a lossy network", "statement": "Connecting the outbound half of one stream to the inbound half of another through a network that may drop, duplicate, delay and reorder packets, the bytes the reader obtains are always a prefix of the bytes the writer wrote.", "quantifier": "every schedule of writes, transmissions, retransmissions, losses, duplications, reorderings and reads", "why_tests_cant": "joint state space of two endpoints and a network is unbounded", "anchors": ["emissary-core/src/sam/protocol/streaming/stream/active.rs: packetize, resend, handle_packet"]}
{"id": "C05", "title": "A stream waiting for an accepting client loses no data", "statement": "Data packets received on an inbound stream before a client socket is attached are, once acknowledged, delivered to the client in order without gaps.", "quantifier": "every arrival sequence before the listener attaches", "why_tests_cant": "order and loss patterns are unbounded", "anchors": ["emissary-core/src/sam/protocol/streaming/stream/pending.rs: PendingStream::on_packet", "emissary-core/src/sam/protocol/streaming/mod.rs: on_listener_ready"]}
{"id": "C06", "title": "Closing a stream does not lose data already sent", "statement": "If the remote wrote n packets and then closed the stream, the local side finishes the stream only after all n payloads have been handed to the client.", "quantifier": "every arrival order of data packets and the CLOSE packet", "why_tests_cant": "the bad interleavings need specific reorderings that tests do not enumerate", "anchors": ["emissary-core/src/sam/protocol/streaming/stream/active.rs: InboundContext::can_close, on_packet, poll"]}
{"id": "C07", "title": "Streaming packets survive serialization", "statement": "A packet produced by the packet builder parses back to exactly the same stream ids, sequence number, ack_through, NACK list, resend delay, flags, optional fields and payload, and the cheap peek function reports the same ids/sequence number as the full parse; a signed packet parses to the signature and destination put in it.", "quantifier": "every field value, every NACK list, every combination of options, every payload", "why_tests_cant": "the option layout depends on data-dependent lengths; unbounded inputs", "anchors": ["emissary-core/src/sam/protocol/streaming/packet.rs: PacketBuilder::build, build_and_sign, Packet::parse, Packet::peek, Flags::new"]}
{"id": "C08", "title": "Listener registration state is consistent", "statement": "Registering, popping and polling stream listeners never reaches an unreachable/poisoned state or panics; a session never mixes persistent (FORWARD) and ephemeral (ACCEPT) listeners; the pop operation hands out each registered ACCEPT socket at most once and in registration order.", "quantifier": "every sequence of register / pop / readiness events", "why_tests_cant": "state machine with pending futures; interleavings are unbounded", "anchors": ["emissary-core/src/sam/protocol/streaming/listener.rs: StreamListener"]}
{"id": "C09", "title": "I2CP framing is independent of TCP segmentation", "statement": "The sequence of messages the I2CP server decodes from a connection depends only on the bytes the client sent, not on how TCP split them into reads, and equals the client's message sequence.", "quantifier": "every byte stream and every way of splitting it into reads", "why_tests_cant": "the number of splits is exponential and message sizes unbounded", "anchors": ["emissary-core/src/i2cp/socket.rs: I2cpSocket poll_next", "emissary-core/src/i2cp/message/mod.rs"]}
{"id": "C10", "title": "SAM command framing is independent of TCP segmentation", "statement": "The sequence of commands the SAM server parses from a connection equals the newline-separated commands the client sent, however TCP splits or coalesces them.", "quantifier": "every byte stream and every way of splitting it into reads", "why_tests_cant": "the number of splits is exponential", "anchors": ["emissary-core/src/sam/socket.rs: SamSocket poll_next"]}
{"id": "C11", "title": "Messages queued on a client socket are written completely and in order", "statement": "The bytes written to the TCP socket of a SAM or I2CP client are always a prefix of the concatenation of the queued messages, for any pattern of partial writes, and all of it when the queue drains.", "quantifier": "every queue of messages and every pattern of partial writes", "why_tests_cant": "partial write patterns are unbounded", "anchors": ["emissary-core/src/sam/socket.rs: SamSocket", "emissary-core/src/i2cp/socket.rs: I2cpSocket", "emissary-core/src/transport/ntcp2/session/active.rs: WriteState"]}
{"id": "C12", "title": "SAM handshake ordering is enforced", "statement": "A SAM connection yields a session/stream request only after a successful HELLO on the same connection, and yields at most one; HELLO replies NOVERSION exactly when the requested version range excludes 3.x supported versions.", "quantifier": "every sequence of client commands", "why_tests_cant": "command sequences are unbounded", "anchors": ["emissary-core/src/sam/pending/connection.rs: PendingSamConnection"]}
{"id": "C13", "title": "Tunnel messages are reassembled exactly", "statement": "A message fragmented into tunnel data messages by the gateway is reassembled by the endpoint to the identical message and delivery instructions, whatever the order in which fragments arrive and however fragments of other messages interleave; nothing is delivered before all fragments arrived.", "quantifier": "every message, message size up to the format's fragment limit, arrival permutation and interleaving", "why_tests_cant": "payload sizes and permutations are unbounded", "anchors": ["emissary-core/src/i2np/tunnel/data.rs: TunnelDataBuilder::build, TunnelData::parse", "emissary-core/src/tunnel/fragment.rs: FragmentHandler"]}
{"id": "C14", "title": "SSU2 messages are reassembled exactly", "statement": "An I2NP message split into SSU2 fragments is delivered once, complete and unmodified when all fragments have arrived, in any order, with duplicates and other messages interleaved; incomplete messages are eventually dropped and never delivered.", "quantifier": "every arrival order of fragments with duplicates and garbage-collection ticks", "why_tests_cant": "permutations are unbounded", "anchors": ["emissary-core/src/transport/ssu2/session/active/fragment.rs: FragmentHandler"]}
{"id": "C15", "title": "SSU2 ACK blocks are truthful", "statement": "The ACK block an SSU2 session sends (highest packet, ack count, ranges), read as the protocol specifies, acknowledges only packet numbers that were received.", "quantifier": "every history of received packet numbers", "why_tests_cant": "needs an invariant over all histories", "anchors": ["emissary-core/src/transport/ssu2/session/active/ack.rs: RemoteAckManager"]}
{"id": "C16", "title": "SSU2 suppresses duplicate messages", "statement": "A message id is reported as a duplicate exactly when it was already inserted within the retention window, for any insertion history and clock progress.", "quantifier": "every sequence of inserts and time steps", "why_tests_cant": "the two-generation decay makes behaviour history dependent", "anchors": ["emissary-core/src/transport/ssu2/session/active/duplicate.rs: DuplicateFilter"]}
{"id": "C17", "title": "Replay filters have no false negatives", "statement": "An item inserted into the bloom filter is reported as seen until it has been decayed twice.", "quantifier": "every insertion/decay history, every hash function", "why_tests_cant": "hash-dependent, unbounded histories", "anchors": ["emissary-core/src/bloom.rs: BloomFilter"]}
{"id": "C18", "title": "NTCP2 frame lengths stay synchronized", "statement": "If both ends derive the same SipHash keys, the length the receiver recovers for the n-th frame equals the length the sender put into it, for every n, and NTCP2 frames are recovered identically for any TCP segmentation.", "quantifier": "every sequence of frame lengths and every split into reads", "why_tests_cant": "chained IV state; unbounded sequences", "anchors": ["emissary-core/src/crypto/siphash.rs: SipHash", "emissary-core/src/transport/ntcp2/session/active.rs: ReadState"]}
{"id": "C19", "title": "AEAD nonces are never reused", "statement": "A cipher state never encrypts two messages under the same nonce: nonces are 0,1,2,... and after the last representable one every further use fails instead of wrapping.", "quantifier": "every number of encrypt/decrypt operations", "why_tests_cant": "2^64 operations cannot be executed", "anchors": ["emissary-core/src/crypto/chachapoly.rs: Nonce::next, ChaChaPoly"]}
{"id": "C20", "title": "Kademlia buckets keep their invariants", "statement": "Whatever routers are added, re-added or scored, each bucket holds at most 20 distinct routers, each in the bucket determined by the distance to the local key, and a well-behaved (non-negative score) router is never evicted to make room.", "quantifier": "every sequence of add/score operations", "why_tests_cant": "unbounded histories", "anchors": ["emissary-core/src/netdb/bucket.rs: KBucket", "emissary-core/src/netdb/routing_table.rs: RoutingTable"]}
{"id": "C21", "title": "Closest-router lookups return the closest known routers", "statement": "closest(key, n) returns min(n, known) distinct known routers, and no known router that was left out is strictly closer (by XOR) to the key's bucket order than one that was returned.", "quantifier": "every routing-table content, every target key and n", "why_tests_cant": "256-bit keys and arbitrary tables", "anchors": ["emissary-core/src/netdb/routing_table.rs: RoutingTable::closest, ClosestBucketsIter", "emissary-core/src/netdb/dht.rs"]}
{"id": "C22", "title": "Lookup queries terminate and never ask a floodfill twice", "statement": "A lease set / router info query asks each floodfill at most once, counts it as failing when it does not answer, and always ends in success, failure or timeout.", "quantifier": "every sequence of replies and timeouts", "why_tests_cant": "histories unbounded", "anchors": ["emissary-core/src/netdb/query.rs: Query", "emissary-core/src/netdb/mod.rs"]}
{"id": "C23", "title": "Garlic messages survive serialization", "statement": "A garlic message built from any sequence of cloves, date-time, ACK, ACK-request, next-key and padding blocks parses back to the same blocks with the same delivery instructions and bodies.", "quantifier": "every block sequence and contents within the format's 16-bit lengths", "why_tests_cant": "unbounded inputs", "anchors": ["emissary-core/src/i2np/garlic.rs: GarlicMessageBuilder, GarlicMessage::parse"]}
{"id": "C24", "title": "I2NP messages survive serialization", "statement": "A message built in short or standard form parses back to the same type, id, payload and expiration (at the form's time resolution); parsers never panic on any input and reject every truncation of a valid message.", "quantifier": "every message type, id, expiration and non-empty payload whose size fits the form's 16-bit length field (65526 bytes short, 65535 standard); every byte string for the parser", "why_tests_cant": "unbounded inputs", "anchors": ["emissary-core/src/i2np/mod.rs: MessageBuilder, Message::parse_short, Message::parse_standard"]}
{"id": "C25", "title": "NetDb messages survive serialization", "statement": "DatabaseStore, DatabaseLookup, DatabaseSearchReply, DeliveryStatus and TunnelGateway messages parse back to what was built.", "quantifier": "every field value and list content within the format's limits", "why_tests_cant": "unbounded inputs", "anchors": ["emissary-core/src/i2np/database/store.rs", "emissary-core/src/i2np/database/lookup.rs", "emissary-core/src/i2np/database/search_reply.rs", "emissary-core/src/i2np/delivery_status.rs", "emissary-core/src/i2np/tunnel/gateway.rs"]}
{"id": "C26", "title": "Strings and option maps survive serialization", "statement": "An I2P string parses back to itself, and an options mapping parses back to the same key/value pairs, leaving exactly the bytes that followed it.", "quantifier": "every key/value list", "why_tests_cant": "unbounded inputs", "anchors": ["emissary-core/src/primitives/string.rs: Str", "emissary-core/src/primitives/mapping.rs: Mapping"]}
{"id": "C27", "title": "Destinations and router identities survive serialization and ids are stable", "statement": "A destination or router identity parses back to the same keys and the same bytes; parsing then serializing reproduces the consumed bytes exactly, so the hash-derived id of a destination is the same on every router.", "quantifier": "every byte string accepted by the parser", "why_tests_cant": "unbounded inputs", "anchors": ["emissary-core/src/primitives/destination.rs: Destination", "emissary-core/src/primitives/router_identity.rs: RouterIdentity"]}
{"id": "C28", "title": "Lease sets survive serialization and keep their meaning", "statement": "A serialized lease set parses (under a valid signature) to the same leases and keys with expiry = published + the given lifetime; anything not signed by the destination key is rejected; a parsed lease set has 1..=16 leases and at least one encryption key.", "quantifier": "every lease set and every byte string offered to the parser", "why_tests_cant": "unbounded inputs", "anchors": ["emissary-core/src/primitives/lease_set.rs: LeaseSet2, LeaseSet2Header, Lease"]}
{"id": "C29", "title": "Router infos survive serialization and are authenticated", "statement": "A serialized router info parses to the same identity, addresses, options and publication date; any accepted router info was signed by the key it contains over all bytes before the signature.", "quantifier": "every router info and every byte string offered to the parser", "why_tests_cant": "unbounded inputs", "anchors": ["emissary-core/src/primitives/router_info.rs: RouterInfo", "emissary-core/src/primitives/router_address.rs: RouterAddress"]}
{"id": "C30", "title": "Base64/base32 names are unambiguous", "statement": "Encoding then decoding returns the original bytes, distinct byte strings have distinct encodings.", "quantifier": "every byte string", "why_tests_cant": "unbounded inputs", "anchors": ["emissary-core/src/crypto/mod.rs: base64_encode, base64_decode, base32_encode, base32_decode"]}
{"id": "C31", "title": "Repliable datagrams are authenticated and attributed correctly", "statement": "A datagram delivered to a client was signed by the destination reported as its sender, and the ports reported are those chosen by the sender.", "quantifier": "every datagram", "why_tests_cant": "adversarial inputs unbounded", "anchors": ["emissary-core/src/sam/protocol/datagram/mod.rs: DatagramManager"]}
{"id": "C32", "title": "Ratchet messages decrypt in any order within the window, once", "statement": "Existing-session messages can arrive in any order and still decrypt, as long as the message is among the next 4096 of its tag set (4095 in the first tag set of the end that answered the session); each tag decrypts at most one message; a tag set hands out at most 65535 tags, indices 0.. without repetition, then fails.", "quantifier": "every arrival order and any number of messages", "why_tests_cant": "unbounded histories", "anchors": ["emissary-core/src/destination/session/tag_set.rs: TagSet::next_entry", "emissary-core/src/destination/session/session.rs: Session::decrypt, Session::encrypt"]}
{"id": "C33", "title": "Sender and receiver ratchet in lockstep", "statement": "When the sending tag set and the receiving tag set exchange NextKey blocks, after each completed exchange both derive the same tag set id and keys from the same root, for any number of ratchets up to the maximum key id, and key ids never overflow.", "quantifier": "every number of ratchets and duplicated NextKey blocks", "why_tests_cant": "up to 65535 ratchets and arbitrary duplication", "anchors": ["emissary-core/src/destination/session/tag_set.rs: try_generate_next_key, handle_next_key, can_ratchet, reinitialize_tag_set"]}
{"id": "C34", "title": "A bad message does not disable a session being set up", "statement": "A message that fails to decrypt or carries an unknown tag is rejected without preventing later valid messages of the same remote destination from being handled.", "quantifier": "every sequence of valid and invalid messages", "why_tests_cant": "unbounded histories", "anchors": ["emissary-core/src/destination/session/session.rs: PendingSession::advance_inbound, advance_outbound", "emissary-core/src/destination/session/mod.rs: SessionManager::decrypt"]}
{"id": "C35", "title": "Transit tunnel limits are respected", "statement": "The router never participates in more transit tunnels than configured, accepts none when transit is disabled or it is shutting down, and never lets a second tunnel take over an id in use.", "quantifier": "every sequence of build requests, expirations and shutdown", "why_tests_cant": "unbounded histories", "anchors": ["emissary-core/src/tunnel/transit/mod.rs: can_accept_transit_tunnel, handle_short_tunnel_build", "emissary-core/src/tunnel/routing_table.rs: RoutingTable"]}
{"id": "C36", "title": "Messages are routed to exactly one recipient", "statement": "Every message given to the routing table is delivered to exactly the tunnel or listener registered for its id, to the transit manager if there is none, or returned to the caller in an error; a listener receives at most one message; allocated ids are never shared.", "quantifier": "every sequence of registrations, removals and messages", "why_tests_cant": "unbounded histories", "anchors": ["emissary-core/src/tunnel/routing_table.rs: route_message, insert_tunnel, insert_listener, send_message"]}
{"id": "C37", "title": "Tunnel hops are distinct and in distinct /16 networks", "statement": "In secure mode the hops selected for a tunnel are pairwise distinct routers from pairwise different /16 subnets, and each has low participation; exactly the requested number is returned or none.", "quantifier": "every set of known routers and addresses and every random choice", "why_tests_cant": "random choices and router sets unbounded", "anchors": ["emissary-core/src/tunnel/pool/selector.rs: ExploratorySelector::select_hops, group_by_subnet, can_participate"]}
{"id": "C38", "title": "Participation accounting matches the live tunnels", "statement": "The number of tunnels and per-router participation counts kept by the selector always equal those of the tunnels currently registered, so counters never underflow.", "quantifier": "every sequence of add/remove of exploratory and client tunnels", "why_tests_cant": "unbounded histories", "anchors": ["emissary-core/src/tunnel/pool/selector.rs: add_tunnel, remove_tunnel"]}
{"id": "C39", "title": "A router can always be redialed", "statement": "A request to connect to a router that is not connected leads to a dial, a router-info query or is covered by one already in progress that will complete: no sequence of events leaves a router permanently undialable; at most one connection per router is accepted.", "quantifier": "every interleaving of dial requests, connection events and query results", "why_tests_cant": "unbounded interleavings", "anchors": ["emissary-core/src/transport/mod.rs: TransportManager::on_dial_router, poll"]}
{"id": "C40", "title": "Profile storage buckets are consistent", "statement": "Every router in a selection bucket has a stored router info and profile (lookups never panic), fast and standard never share a router, and every reachable usable router is selectable from some bucket; a router is avoided for a limited time after a dial failure.", "quantifier": "every sequence of adds and profile updates, every clock reading", "why_tests_cant": "unbounded histories", "anchors": ["emissary-core/src/profile.rs: ProfileStorage, Profile::is_failing"]}
{"id": "C41", "title": "I2CP payload headers survive the gzip envelope", "statement": "Source port, destination port and protocol put on a payload are read back unchanged and the payload decompresses to the original bytes.", "quantifier": "every payload, port and protocol", "why_tests_cant": "unbounded inputs", "anchors": ["emissary-core/src/i2cp/payload.rs: I2cpPayloadBuilder, I2cpPayload::decompress"]}
{"id": "C42", "title": "No network input can panic the parsers", "statement": "Parsing any byte string received from a client or a peer (SAM datagram header, I2CP frame, I2NP, garlic, tunnel data, streaming packet, lease set) returns a value or an error; it never indexes out of bounds.", "quantifier": "every byte string", "why_tests_cant": "the input space is unbounded", "anchors": ["emissary-core/src/sam/parser.rs: Datagram::parse", "emissary-core/src/i2cp/socket.rs", "emissary-core/src/i2np", "emissary-core/src/sam/protocol/streaming/packet.rs"]}
{"id": "C43", "title": "Tunnel build records survive serialization", "statement": "A short tunnel build record is 154 bytes and reads back to the same tunnel ids, next router, role and message id; a well-formed variable (464-byte) build record is accepted whatever options it carries and yields the ids, keys and role in it.", "quantifier": "every record content, options map and padding", "why_tests_cant": "unbounded inputs; the option map length moves the rest of the record", "anchors": ["emissary-core/src/i2np/tunnel/build/short.rs: TunnelBuildRecordBuilder, TunnelBuildRecord::parse", "emissary-core/src/i2np/tunnel/build/variable.rs: TunnelBuildRecord::parse"]}
{"id": "C44", "title": "A stream is attributed to the destination that opened it", "statement": "A packet that opens an inbound stream carries a destination, a valid signature by that destination (or by a key that destination signed) over the packet, and names the local destination; the stream is attributed to that destination. A SYN recorded for one destination cannot be replayed to another. The SYN this router sends is accepted by its addressee and by nobody else, and an answer completes only a stream opened to the destination it comes from.", "quantifier": "every packet, every pair of destinations, every set of streams being opened", "why_tests_cant": "adversarial inputs unbounded", "anchors": ["emissary-core/src/sam/protocol/streaming/mod.rs: StreamManager::on_synchronize, create_stream", "emissary-core/src/sam/protocol/streaming/packet.rs: with_replay_protection, build_and_sign"]}
{"id": "C45", "title": "SAM datagram commands are split exactly", "statement": "A datagram sent by a client as '3.x <nickname> <destination>' newline payload reaches the router as exactly that nickname, destination and payload, whatever bytes the payload contains.", "quantifier": "every nickname without spaces, destination and payload", "why_tests_cant": "unbounded inputs", "anchors": ["emissary-core/src/sam/parser.rs: Datagram::parse"]}
{"id": "C46", "title": "I2CP requests are decoded as the client wrote them", "statement": "Every well-formed I2CP request (get/set date, bandwidth limits, create/destroy session, host lookup, create lease set, send message) is decoded to exactly the fields the client encoded, and a session is only created for a destination whose key signed the request.", "quantifier": "every request content", "why_tests_cant": "unbounded inputs", "anchors": ["emissary-core/src/i2cp/message/mod.rs: Message::parse"]}
{"id": "C47", "title": "I2CP replies are framed by their length header", "statement": "Every message the router writes to an I2CP client is a 4-byte body length, the message type and a body of exactly that length with the fields in protocol order, so the client stays in step.", "quantifier": "every reply content", "why_tests_cant": "unbounded inputs", "anchors": ["emissary-core/src/i2cp/message: BandwidthLimits, HostReply, RequestVariableLeaseSet, MessagePayload, SessionStatus, SetDate"]}
{"id": "C48", "title": "NTCP2 frames decode block by block", "statement": "Decoding the payload of an NTCP2 frame yields exactly the blocks the protocol encoding put there, in order, and the blocks the router writes itself (I2NP message, router info) are such encodings.", "quantifier": "all non-empty lists of blocks with in-range fields", "why_tests_cant": "the set of block lists and field values is unbounded", "anchors": ["emissary-core/src/transport/ntcp2/message.rs: MessageBlock::parse_multiple, new_router_info, new_i2np_message"]}
{"id": "C49", "title": "SAM commands are understood as the client wrote them", "statement": "Every well-formed SAM command line (HELLO, SESSION CREATE, STREAM CONNECT/ACCEPT/FORWARD, NAMING LOOKUP, DEST GENERATE), with its arguments in any order, any spacing, bare or quoted, is parsed to exactly the identifier, style, destination, keys, port and options it states; a command lacking a required argument is rejected; the private key of a DEST GENERATE reply names the generated destination in a later SESSION CREATE.", "quantifier": "every argument list, every destination and key", "why_tests_cant": "argument lists are unbounded", "anchors": ["emissary-core/src/sam/parser.rs: SamCommand::parse, TryFrom<ParsedCommand>", "emissary-core/src/sam/pending/connection.rs: GenerateDestination"]}
{"id": "C50", "title": "Layered tunnel encryption cancels", "statement": "What the creator of an outbound tunnel encrypts layer by layer for its hops arrives at the endpoint in the clear and unchanged after every hop has applied its layer; what the gateway of an inbound tunnel injects arrives at the tunnel's creator unchanged after the creator has removed all layers; a message sent through an outbound tunnel to the gateway of an inbound tunnel reaches the owner of that tunnel unchanged.", "quantifier": "every number of hops, keys, message, fragment order in either tunnel", "why_tests_cant": "tunnel lengths, messages and orders are unbounded", "anchors": ["emissary-core/src/tunnel/hop/outbound.rs: send_to_tunnel, send_to_router", "emissary-core/src/tunnel/hop/inbound.rs: handle_tunnel_data", "emissary-core/src/tunnel/transit/participant.rs: handle_tunnel_data", "emissary-core/src/tunnel/transit/outbound.rs: handle_tunnel_data", "emissary-core/src/tunnel/transit/inbound.rs: handle_tunnel_gateway", "emissary-core/src/tunnel/noise.rs: decrypt_record"]}
{"id": "C51", "title": "SSU2 packets carry what was sent", "statement": "Every I2NP message handed to an established SSU2 session is written as packets with consecutive, never reused packet numbers; the peer assigns each packet to the right connection and recovers from it exactly the piece of the message and the acknowledgement that were put in; ending a session tells the peer so.", "quantifier": "Every message, every acknowledgement state, every packet number, every key.", "why_tests_cant": "Header masking, fragment numbering and the block codec have to invert for all sizes; tests try a handful.", "anchors": ["emissary-core/src/transport/ssu2/message.rs: DataMessageBuilder::build, Block::parse", "emissary-core/src/transport/ssu2/session/active/mod.rs: send_message, handle_packet", "emissary-core/src/transport/ssu2/session/terminating.rs: TerminatingSsu2Session::new", "emissary-core/src/transport/ssu2/socket.rs: handle_datagram"]}
{"id": "C52", "title": "First contact between two destinations opens one shared session", "statement": "When a destination without a session sends to another one, the NewSession message is understood, any of the first sixteen replies is understood, so is the first message after that, and both ends then hold the same pair of tag sets; each payload arrives unchanged.", "quantifier": "every pair of key pairs, payload, random draw and reply used", "why_tests_cant": "all keys, payloads and numbers of replies", "anchors": ["emissary-core/src/destination/session/mod.rs: SessionManager::encrypt, decrypt", "emissary-core/src/destination/session/context.rs: create_outbound_session, create_inbound_session", "emissary-core/src/destination/session/inbound.rs: create_new_session_reply", "emissary-core/src/destination/session/outbound.rs: handle_new_session_reply"]}
{"id": "C53", "title": "A destination that lost its session can start a new one", "statement": "After a destination accepts a NewSession message from a remote, its next message to that remote can be decrypted by that remote, also when the remote had a session before and lost it.", "quantifier": "every state of the answering destination", "why_tests_cant": "depends on history", "anchors": ["emissary-core/src/destination/session/mod.rs: SessionManager::encrypt, decrypt"]}
{"id": "C54", "title": "Tunnel messages wait for a connection, and are sent or reported", "statement": "A message of the tunnel subsystem for a router that is not connected is kept until the router is connected and then sent, once and in order, or its sender is told that the router cannot be reached; a message for a connected router is sent at once; messages for one router never go to another.", "quantifier": "Every interleaving of messages, connections, disconnections and dial failures for any number of routers.", "why_tests_cant": "The fate of a message depends on the order in which connection events and sends interleave; tests try single orders.", "anchors": ["emissary-core/src/tunnel/mod.rs: TunnelManager::send_message, on_connection_established, on_connection_closed, on_connection_failure"]}
{"id": "C55", "title": "A tunnel is built exactly when every hop agreed to it, with shared keys", "statement": "When the build request for a tunnel travels over the routers it names, each router can read its own record and no other, forwards the request to the router named in its record and answers truthfully; the owner ends up with the tunnel exactly if every hop accepted, and then every hop's tunnel has the id, next hop and layer keys the owner has for it; a failed build names the routers that refused; an arbitrary message taken for the reply never yields a tunnel without an authenticated acceptance of every hop.", "quantifier": "Every direction, number of hops, choice of routers, keys, tunnel ids, fake records, arrival times, state of the hops, and every message received as the reply.", "why_tests_cant": "Layers of encryption are added and removed per record and per hop; correctness is an algebraic fact about all of them together; tests run two or three hops which all accept.", "anchors": ["emissary-core/src/tunnel/hop/pending.rs: PendingTunnel::create_tunnel, try_build_tunnel", "emissary-core/src/tunnel/noise.rs: NoiseContext::create_outbound_session, create_short_inbound_session, ShortInboundSession::encrypt_build_records", "emissary-core/src/tunnel/transit/mod.rs: handle_short_tunnel_build", "emissary-core/src/tunnel/garlic.rs: GarlicHandler::handle_message"]}
{"id": "C56", "title": "Discovered routers are saved exactly once", "statement": "Every router info handed to the profile storage as discovered is written by exactly one backup, unless a newer one of the same router arrives before that backup, and every backup holds the profile of every known router exactly once.", "quantifier": "every sequence of adds, discoveries, reports, maintenance rounds and backups", "why_tests_cant": "unbounded histories and interleavings of discovery with backups", "anchors": ["emissary-core/src/profile.rs: ProfileStorage::backup, discover_router"]}
{"id": "C57", "title": "An NTCP2 handshake leaves both routers with matching keys", "statement": "When a router dials another one with the key, IV and identity hash the other one publishes, on the same network, and the bytes arrive, both sides finish with a session in which each sends with what the other receives with, the listening side knows the dialing router's router info, and messages then flow in order both ways. No bytes from the network make either side panic, a router of another network is refused without an answer, and two ends that finish with the same handshake hash have received exactly what the other one sent.", "quantifier": "every pair of routers, random values, clocks, router infos, trailing bytes and every incoming byte stream", "why_tests_cant": "the outcome depends on every byte of both transcripts; tests run one handshake and a few corruptions", "anchors": ["emissary-core/src/transport/ntcp2/session/initiator.rs: Initiator::new, register_session_created, finalize", "emissary-core/src/transport/ntcp2/session/responder.rs: Responder::new, create_session, finalize", "emissary-core/src/transport/ntcp2/session/mod.rs: create_session_inner, accept_session_inner", "emissary-core/src/crypto/noise.rs: NoiseContext"]}
{"id": "C58", "title": "An inbound NTCP2 session belongs to the router it is attributed to", "statement": "A session accepted from the network is attributed to a router whose signed router info was received on the connection, on the same network, and whose published NTCP2 static key is the one the other end proved to hold in the handshake.", "quantifier": "every incoming byte stream and every key the other end may hold", "why_tests_cant": "an impersonation needs a peer that runs the protocol with somebody else's router info; tests use honest peers", "anchors": ["emissary-core/src/transport/ntcp2/session/responder.rs: Responder::finalize", "emissary-core/src/transport/ntcp2/session/mod.rs: accept_session_inner"]}
{"id": "C59", "title": "Local addresses are not connected to unless allowed", "statement": "With local addresses disabled the router neither connects to nor takes up connections from an address that is not globally routable, and refuses no address that is.", "quantifier": "every address and every router info", "why_tests_cant": "2^32 IPv4 addresses with block boundaries, and IPv6", "anchors": ["emissary-core/src/util/mod.rs: is_global", "emissary-core/src/transport/ntcp2/session/mod.rs: create_session_inner", "emissary-core/src/transport/ntcp2/listener.rs: Ntcp2Listener::poll_next"]}
{"id": "C60", "title": "An SSU2 handshake that is not disturbed leaves both routers with matching keys", "statement": "When a router dials another one with the keys and address the other one publishes and every datagram arrives once, both sides report a session, each sends to the connection id the other one listens on, each sends with what the other one receives with, and packets built afterwards reach the session they are meant for and open to what was sent.", "quantifier": "every pair of sockets in any state, keys, connection ids, random values, paddings and clocks", "why_tests_cant": "replies are first read with the wrong key, so success depends on the values of keys and packets; tests run a few handshakes", "anchors": ["emissary-core/src/transport/ssu2/socket.rs: Ssu2Socket::handle_packet, connect", "emissary-core/src/transport/ssu2/session/pending/outbound.rs", "emissary-core/src/transport/ssu2/session/pending/inbound.rs", "emissary-core/src/transport/ssu2/message.rs: HeaderReader"]}
{"id": "C61", "title": "No datagram stops the SSU2 socket", "statement": "Whatever datagrams arrive, from whom and in whatever order, together with dials and timers, the SSU2 socket goes on running.", "quantifier": "every finite sequence of datagrams, dials and timer events", "why_tests_cant": "the input space is every byte string in every state", "anchors": ["emissary-core/src/transport/ssu2/socket.rs: Ssu2Socket::handle_packet", "emissary-core/src/transport/ssu2/message.rs: HeaderReader::parse"]}
{"id": "C62", "title": "SSU2 sessions are only negotiated with peers of the same network that own their address", "statement": "A listening router answers only messages of its own network, and goes on with a session request only if it carries the token the router has sent to the address the request comes from.", "quantifier": "every message, token, network id and source address", "why_tests_cant": "tests use the token that was sent and one network id", "anchors": ["emissary-core/src/transport/ssu2/session/pending/inbound.rs: on_session_request", "emissary-core/src/transport/ssu2/socket.rs: handle_packet"]}
{"id": "C63", "title": "An SSU2 handshake survives the loss of one datagram", "statement": "If one datagram of the handshake is lost, its retransmission leads to a session all the same.", "quantifier": "every lost datagram and everything that arrives afterwards", "why_tests_cant": "needs every loss pattern and every later history", "anchors": ["emissary-core/src/transport/ssu2/session/pending/inbound.rs: on_packet", "emissary-core/src/transport/ssu2/session/pending/mod.rs: PacketRetransmitter"]}
{"id": "C64", "title": "Every pending SSU2 session ends", "statement": "A session that does not get an answer repeats its last message a fixed number of times and is then given up and, for a dial, reported: 15 s after a token request, session request or session confirmed, 12 s after a session created, not earlier, and later only by the delay of the timer. Sessions waiting for a peer do not accumulate.", "quantifier": "every sequence of timer events with any delays, and every number of peers", "why_tests_cant": "depends on the times at which the task is polled", "anchors": ["emissary-core/src/transport/ssu2/session/pending/mod.rs: PacketRetransmitter", "emissary-core/src/transport/ssu2/session/pending/inbound.rs: poll", "emissary-core/src/transport/ssu2/session/pending/outbound.rs: poll"]}
{"id": "C65", "title": "A dialed SSU2 session is reported under the router that was dialed", "statement": "The event that reports a dialed session, or that dialing failed, names the router the dial was for.", "quantifier": "every history of a socket", "why_tests_cant": "tests look at the accepting side or at one pair of routers", "anchors": ["emissary-core/src/transport/ssu2/socket.rs: Ssu2Socket::connect"]}
{"id": "C66", "title": "An inbound SSU2 session belongs to the router it is attributed to", "statement": "A session accepted from the network is attributed to a router whose signed router info was received in the handshake and whose published static key is the one the other end proved to hold.", "quantifier": "every history of a socket and every key the other end may hold", "why_tests_cant": "an impersonation needs a peer that runs the protocol with somebody else's router info; tests use honest peers", "anchors": ["emissary-core/src/transport/ssu2/session/pending/inbound.rs: on_session_confirmed"]}
{"id": "C67", "title": "A floodfill answers a lookup with what was last stored", "statement": "A floodfill router answers each lookup of a lease set or router info once, over the way the asker named, with a message good for about eight seconds: with the entry last accepted under that key, if no cleanup has removed it since, and with a search reply otherwise. The entry belongs to the destination or router that the key names and is not replaced by an older one.", "quantifier": "every history of stores, lookups, connections and cleanups, every key, and every way of answering", "why_tests_cant": "depends on the whole history of stores under a key, including forged and replayed ones", "anchors": ["emissary-core/src/netdb/mod.rs: on_lease_set_store, on_router_info_store, on_lease_set_lookup, on_router_info_lookup"]}
{"id": "C68", "title": "Expired entries are not handed out", "statement": "A floodfill hands out a lease set only while it is valid, forgets router infos that have become too old, and keeps an accepted entry as long as it is valid.", "quantifier": "every history and every placement of the cleanups in time", "why_tests_cant": "the outcome depends on the order of stores, cleanups and lookups in real time", "anchors": ["emissary-core/src/netdb/mod.rs: maintain_netdb, on_lease_set_lookup, on_router_info_lookup", "emissary-core/src/primitives/lease_set.rs: LeaseSet2::expires, is_expired"]}
{"id": "C69", "title": "Flooding stops after one hop", "statement": "A store message that a floodfill passes on to other floodfills makes those send nothing, keep nothing for sending and dial nobody, whatever state they are in.", "quantifier": "every history of the sending router and every state of the receiving router", "why_tests_cant": "tests flood to one receiver; a storm needs a cycle of routers", "anchors": ["emissary-core/src/netdb/mod.rs: on_database_store, send_message"]}
{"id": "C70", "title": "A stored entry is acknowledged and flooded, a refused one is not", "statement": "If a store message with a reply token is accepted, a delivery status with that token is handed to the connection to the router or tunnel gateway named, and the entry, without a token, to the connections of the (at most three) known floodfills closest to the key. If the entry is refused nothing is sent and nothing changes.", "quantifier": "every history, every store message, every set of known floodfills and connection states", "why_tests_cant": "the set of receivers depends on all routers heard of and on which of them are connected or being dialed", "anchors": ["emissary-core/src/netdb/mod.rs: on_router_info_store, on_lease_set_store", "emissary-core/src/netdb/dht.rs: closest"]}
{"id": "C71", "title": "A search reply names the closest floodfills the asker has not excluded", "statement": "A lookup that cannot be answered is answered with at most five floodfills that this router has heard of, none of which the asker excluded, such that no other known floodfill that is not excluded is closer to the key; the answer reaches the asker.", "quantifier": "every history, key, list of excluded routers and state of the connection to the asker", "why_tests_cant": "closeness is a relation between all known routers and the key", "anchors": ["emissary-core/src/netdb/mod.rs: on_lease_set_lookup, on_router_info_lookup, on_router_exploration", "emissary-core/src/netdb/dht.rs: closest_with_ignore"]}
{"id": "C72", "title": "Messages for a router being dialed are kept, in order, and sent once", "statement": "A router without a connection that the database wants to send something to is dialed once. What is to be sent to it while the dial is under way is kept and sent in order when the connection is there, except for messages that have expired; nothing is sent earlier, and other routers are treated as if it were connected. If the dial fails the messages are dropped.", "quantifier": "every interleaving of the events of other routers while the dial is under way", "why_tests_cant": "needs every order of events between a dial and its outcome", "anchors": ["emissary-core/src/netdb/mod.rs: send_message, on_connection_established, on_connection_failure"]}
{"id": "C73", "title": "No message or event makes the network database panic", "statement": "Store and lookup messages with any content, connections, disconnections, failed dials and cleanups in any order never panic the network database.", "quantifier": "every byte string and every state", "why_tests_cant": "needs every byte string in every state", "anchors": ["emissary-core/src/netdb/mod.rs: NetDb", "emissary-core/src/i2np/database/store.rs: extract_raw_router_info, extract_raw_lease_set"]}
{"id": "C74", "title": "A routing path leads through tunnels that exist", "statement": "Every path handed to a stream names an inbound tunnel the remote has announced and an outbound tunnel of ours that was built and has not been reported as expired since.", "quantifier": "every sequence of path requests, path replacements, polls, events and lookup answers", "why_tests_cant": "depends on the order in which tunnel events, polls and requests interleave over the life of a stream", "anchors": ["emissary-core/src/destination/routing_path.rs: RoutingPathHandle::routing_path", "emissary-core/src/destination/routing_path.rs: RoutingPathHandle::poll"]}
{"id": "C75", "title": "The remote's tunnel in a routing path has time left", "statement": "After a stream has polled its handle, the inbound tunnel of the path it gets was announced with more than 30 seconds left at that time.", "quantifier": "every history of a handle and every later request", "why_tests_cant": "the timer, failed replacements and events race; a test drives one order", "anchors": ["emissary-core/src/destination/routing_path.rs: RoutingPathHandle::recreate_routing_path", "emissary-core/src/destination/routing_path.rs: RoutingPathHandle::poll"]}
{"id": "C76", "title": "A routing path handle makes at most three lookups in a row", "statement": "A handle has at most one lease set lookup outstanding, asks for at most three without a success, and gives up exactly when the third fails.", "quantifier": "every history of a handle", "why_tests_cant": "needs every interleaving of requests, answers and polls", "anchors": ["emissary-core/src/destination/routing_path.rs: RoutingPathHandle::select_inbound_tunnel", "emissary-core/src/destination/routing_path.rs: RoutingPathHandle::poll"]}
{"id": "C77", "title": "With usable tunnels at both ends there is a routing path", "statement": "If the handle knows an outbound tunnel that is not expiring within 30 seconds and a lease of the remote with more than 30 seconds left, asking for a path, or for another one after packet loss, yields a path.", "quantifier": "every history, every random draw", "why_tests_cant": "tunnels move between five kinds along every possible history", "anchors": ["emissary-core/src/destination/routing_path.rs: RoutingPathHandle::make_routing_path", "emissary-core/src/destination/routing_path.rs: RoutingPathHandle::recreate_routing_path"]}
{"id": "C78", "title": "Asking for a routing path does not panic", "statement": "Neither asking for a path nor replacing it nor polling the handle panics.", "quantifier": "every history and every clock reading taken during the call", "why_tests_cant": "the failing window is a few milliseconds wide", "anchors": ["emissary-core/src/destination/routing_path.rs: RoutingPathHandle::make_routing_path"]}
{"id": "C79", "title": "A handle hears about tunnels that have expired", "statement": "Once an outbound tunnel has expired and the handle was polled, no path uses it.", "quantifier": "every history, any number of events before the poll", "why_tests_cant": "depends on how many events were not read yet", "anchors": ["emissary-core/src/destination/routing_path.rs: RoutingPathManager::register_outbound_tunnel_expired"]}
{"id": "C80", "title": "Where a destination sends a message", "statement": "A message for a remote goes to the gateway of a lease of the lease set in use, for a given route to the lease of that tunnel; if the lease set has expired the message is put off and a lookup is started unless one is running; nothing else sends messages.", "quantifier": "every history of a destination, every time, message, route and random draw", "why_tests_cant": "depends on all lease sets, lookups and messages before it", "anchors": ["emissary-core/src/destination/mod.rs: Destination::send_message", "emissary-core/src/destination/mod.rs: Destination::send_message_inner"]}
{"id": "C81", "title": "Messages that were put off are sent in order once the lookup succeeds", "statement": "When a lookup of a remote succeeds, all messages put off for it are sent, in order, each once, to leases of the new lease set; when it fails they stay.", "quantifier": "every history, any number of messages put off", "why_tests_cant": "needs every interleaving of sends, lookups and lease sets sent by the remote", "anchors": ["emissary-core/src/destination/mod.rs: Destination::poll_next", "emissary-core/src/destination/mod.rs: DestinationContext"]}
{"id": "C82", "title": "One lease set lookup of a remote at a time", "statement": "A destination starts a lookup of a remote only if none is running, and a request for a lease set is answered with what is known. A route that needs a lease set gets one looked up.", "quantifier": "every history", "why_tests_cant": "lookups are started by messages, clients and routing paths in any order", "anchors": ["emissary-core/src/destination/mod.rs: Destination::query_lease_set", "emissary-core/src/destination/routing_path.rs: RoutingPathManager::poll_next"]}
{"id": "C83", "title": "No event makes a destination panic", "statement": "No sequence of messages, lookups, lease sets, tunnel events and uses of routing paths panics the destination.", "quantifier": "every sequence of events with lease sets that were parsed", "why_tests_cant": "a panic needs a particular state and event", "anchors": ["emissary-core/src/destination/mod.rs: Destination::poll_next", "emissary-core/src/primitives/lease_set.rs: LeaseSet2::parse"]}
{"id": "C84", "title": "Only lease sets of the remote are used for it", "statement": "A message for a remote is sent to a lease of a lease set that arrived for that remote, and a newer lease set is not replaced by an older one.", "quantifier": "every history", "why_tests_cant": "depends on which lease sets arrived before, in which order and how", "anchors": ["emissary-core/src/destination/mod.rs: Destination::decrypt_message", "emissary-core/src/destination/mod.rs: Destination::poll_next"]}
{"id": "C85", "title": "Routes that were handed out stay usable", "statement": "A message through a route whose lease has not expired is sent although the remote has published newer lease sets in the meantime.", "quantifier": "every history between handing out the route and using it", "why_tests_cant": "needs every order of lease sets, lookups and pruning", "anchors": ["emissary-core/src/destination/mod.rs: Destination::send_message_inner", "emissary-core/src/destination/mod.rs: DestinationContext"]}
{"id": "C86", "title": "The lease set of an unpublished destination stays local", "statement": "A destination configured as unpublished never stores its lease set at a floodfill, never looks it up, never asks the network database for floodfills and never looks up a floodfill's router info, whatever tunnels are built, lease sets created or messages received; all that its lease set manager emits is the list of leases for the client.", "quantifier": "every sequence of events and every timing", "why_tests_cant": "A test exercises one trigger; the guarantee is about every state and every message that could start a publication.", "anchors": ["emissary-core/src/destination/lease_set.rs: LeaseSetManager::new, register_lease_set, register_inbound_tunnel, register_database_search_reply, poll"]}
{"id": "C87", "title": "What is published is current", "statement": "Every published lease set is the latest one the client has created, is sent to a floodfill the router was told of, and names for the acknowledgement an inbound tunnel of the destination that is built and not about to expire; the same holds of the lookups that verify it. The leases handed to the client for its next lease set are exactly those of such tunnels. And the latest lease set is eventually the one published.", "quantifier": "every sequence of tunnel, lease set, database and timer events", "why_tests_cant": "Staleness arises from the interleaving of tunnel expiry, client answers and publication timers, of which tests sample a handful.", "anchors": ["emissary-core/src/destination/lease_set.rs: create_database_store, create_database_lookup, register_inbound_tunnel, register_expiring_inbound_tunnel, register_lease_set"]}
{"id": "C88", "title": "An unconfirmed lease set is published again", "statement": "If a published lease set is not found at another floodfill, it is published again: once the manager has been polled 10 s or more after the store and then 16 s or more later, another store has been sent, whatever else happened, as long as the tunnels stay; and this repeats for ever. A lease set made for new tunnels is published eventually.", "quantifier": "every sequence of events and poll times after a store", "why_tests_cant": "Liveness over unbounded time and arbitrary interleavings of timers cannot be observed by a finite test.", "anchors": ["emissary-core/src/destination/lease_set.rs: PublishState, poll, register_inbound_tunnel"]}
{"id": "C89", "title": "Storage is verified and repeated at other floodfills", "statement": "A lookup verifying the storage never goes to the floodfill that was given the lease set nor to one already asked in the same round; a store after an unconfirmed one goes to a floodfill already tried only if all known floodfills have been tried, and otherwise to the closest one not tried. The storage counts as verified exactly when our own current lease set comes back.", "quantifier": "every history of stores, lookups and answers", "why_tests_cant": "Depends on bookkeeping carried across rounds; any single round looks right.", "anchors": ["emissary-core/src/destination/lease_set.rs: create_database_store, create_database_lookup, register_database_store, queried_floodfills, storage_floodfills", "emissary-core/src/destination/mod.rs: decrypt_message"]}
{"id": "C90", "title": "At most one router info lookup per floodfill at a time", "statement": "A floodfill named in a search reply for our lease set is looked up only if its router info is not at hand and no lookup of it is under way; no reply causes two lookups of the same router.", "quantifier": "every sequence of search replies and lookup outcomes", "why_tests_cant": "Replies can repeat routers and arrive in any order relative to the lookups they cause.", "anchors": ["emissary-core/src/destination/lease_set.rs: register_database_search_reply, pending_router_infos, poll"]}
{"id": "C91", "title": "A message received through a pool's inbound tunnel goes to whom it belongs, once", "statement": "Every message accepted from an inbound tunnel is delivered, in order and exactly once, to the one it belongs to: the build or tunnel test that waits for it by its id or by its reply tag if there is one, otherwise the owner of the pool for database and garlic messages, otherwise the pool; a waiting party gets at most one message; and a message is not refused while its receiver exists and has room.", "quantifier": "every history of listeners being added, tagged and removed, messages of every kind arriving, tunnel events being reported, and receivers reading or going away", "why_tests_cant": "tests route one message to one listener; what happens depends on which listeners and tags were left by every earlier message", "anchors": ["emissary-core/src/tunnel/pool/context.rs:TunnelPoolContextHandle,TunnelPoolHandle", "emissary-core/src/tunnel/pool/handle.rs"]}
{"id": "C92", "title": "An answered or abandoned wait leaves nothing behind in the pool", "statement": "After any history the pool holds one listener for each party that still waits, and one tag association in each direction for each that waits by a tag, and nothing for those that were answered or gave up.", "quantifier": "every history of listeners being added, tagged, answered by any kind of message, and removed", "why_tests_cant": "a leak is visible only over a long history and only for the answers nobody expected", "anchors": ["emissary-core/src/tunnel/pool/context.rs:TunnelPoolContextHandle"]}
{"id": "C93", "title": "No message received through a tunnel stops the tunnel", "statement": "Whatever message the far end of an inbound tunnel produces, routing it ends in delivery or refusal, never in a panic, so the tunnel and its pool stay alive.", "quantifier": "every parsed message of every type and length, in every state of the pool", "why_tests_cant": "tests use well-formed garlic messages; the failing inputs are those no honest peer sends", "anchors": ["emissary-core/src/tunnel/pool/context.rs:TunnelPoolContextHandle::route_message", "emissary-core/src/tunnel/hop/inbound.rs", "emissary-core/src/tunnel/pool/mod.rs"]}
{"id": "C94", "title": "A tunnel pool never has more tunnels than configured", "statement": "At every moment the number of live inbound (outbound) tunnels plus builds under way is at most the configured number plus the number of live tunnels that have been reported to be about to expire, provided expiry timers are not a minute late and ids of live tunnels are not reused.", "quantifier": "every configuration, every history of builds, expirations, tests, timers and requests", "why_tests_cant": "the count depends on the interleaving of builds, expirations and timers over an unbounded history", "anchors": ["emissary-core/src/tunnel/pool/mod.rs (TunnelPool::maintain_pool, poll)", "emissary-core/src/tunnel/pool/timer.rs"]}
{"id": "C95", "title": "A tunnel pool replaces what it lost", "statement": "When a poll ends and at least a second has passed since the last maintenance, or a build failed, the pool is maintained; if hops can be found and messages made, afterwards as many builds and tunnels not about to expire are there as configured.", "quantifier": "every history, every outcome of the hop selection", "why_tests_cant": "only unbounded histories reach every combination of live, expiring and failed tunnels", "anchors": ["emissary-core/src/tunnel/pool/mod.rs (maintain_pool, poll)"]}
{"id": "C96", "title": "Tunnels of a pool live for ten minutes", "statement": "A tunnel is reported to be about to expire no earlier than nine minutes after it was built and expired no earlier than ten minutes after; when the time has come the timer or the tunnel's end reports it; the pool's owner is only ever offered live tunnels.", "quantifier": "every history and clock", "why_tests_cant": "time ranges over all values and tunnels overlap without bound", "anchors": ["emissary-core/src/tunnel/pool/mod.rs (poll)", "emissary-core/src/tunnel/pool/timer.rs", "emissary-core/src/tunnel/pool/selector.rs"]}
{"id": "C97", "title": "A tunnel pool cleans up its routing table entries", "statement": "While the pool runs, the routing table has an entry for every inbound tunnel that is being built or live, and none for those that failed or expired; after it is shut down none are left.", "quantifier": "every history, every shutdown point", "why_tests_cant": "leaks show only over histories with failures and shutdown at arbitrary moments", "anchors": ["emissary-core/src/tunnel/pool/mod.rs (maintain_pool, poll, shutdown)", "emissary-core/src/tunnel/routing_table.rs"]}
{"id": "C98", "title": "Reply listeners of a pool do not pile up", "statement": "A listener for a build or test reply is registered while that build or test is under way and gone afterwards.", "quantifier": "every history of builds and tests", "why_tests_cant": "a leak is a property of unbounded histories", "anchors": ["emissary-core/src/tunnel/pool/listener.rs", "emissary-core/src/tunnel/pool/mod.rs"]}
{"id": "C99", "title": "A pool sends messages through live tunnels", "statement": "A request to send a message is answered at once: the message goes to the router or tunnel it names through a live outbound tunnel of the pool, and that tunnel's first hop; through the tunnel asked for if that is live; it is lost only if no live tunnel is there, or not the only one allowed.", "quantifier": "every request in every state of the pool and every random choice", "why_tests_cant": "quantifies over histories and random choices", "anchors": ["emissary-core/src/tunnel/pool/mod.rs (poll, TunnelMessage)", "emissary-core/src/tunnel/pool/context.rs"]}
{"id": "C100", "title": "Tunnel tests use working tunnels and have one result", "statement": "Only live tunnels that are not about to expire are tested, each at most once per round, rounds at least fifteen seconds apart; a round covers all tunnels of one direction; every result belongs to a test under way, comes once, and a failure no earlier than eight seconds after the test began.", "quantifier": "every history", "why_tests_cant": "test rounds interleave with builds and expirations without bound", "anchors": ["emissary-core/src/tunnel/pool/mod.rs (maintain_pool, poll)"]}
{"id": "C101", "title": "A tunnel pool ends only when asked to", "statement": "A pool keeps running until it is shut down or nobody is left who could use it; it then says so and does nothing more. A fault of one tunnel does not end the others.", "quantifier": "every history and every fault of a tunnel", "why_tests_cant": "requires faults at arbitrary moments", "anchors": ["emissary-core/src/tunnel/pool/mod.rs (poll)"]}
{"id": "C102", "title": "A routing handle is told what concerns it and nothing else", "statement": "The owner of a routing path handle sees exactly what it would see of a handle by itself that starts with the destination's current outbound tunnels and the unexpired leases of its remote, and is told of every later tunnel event, of every lease set of its own remote and of the answers to its own lookups, whatever other handles exist and do.", "quantifier": "every interleaving of tunnel events, lease sets, lookups and uses of any number of handles", "why_tests_cant": "handles interact through shared maps and a bounded channel, over unbounded histories", "anchors": ["emissary-core/src/destination/routing_path.rs (RoutingPathManager)", "emissary-core/src/destination/mod.rs (Destination::poll_next)"]}
{"id": "C103", "title": "SAM session ids and destinations are unique", "statement": "At any time, the sessions the SAM server has begun and not forgotten have pairwise different ids and pairwise different destinations, and that alone decides the answer to SESSION CREATE: DUPLICATE_ID when the id is taken, otherwise DUPLICATE_DEST when the destination is taken, otherwise a session is begun. A session with a running task keeps its id and destination to itself, and both can be used again once the server has seen it end. (Found not to hold for sessions whose tunnels could not be built: their id and destination stay taken for ever.)", "quantifier": "all sequences of client requests, ends of tunnel building, session ends and the server noticing them, in any order", "why_tests_cant": "needs every interleaving of requests with session lifetimes", "anchors": ["emissary-core/src/sam/mod.rs: SamServer::poll, SessionContext", "emissary-core/src/sam/pending/session.rs"]}
{"id": "C104", "title": "A SAM request reaches the session it names, in order", "statement": "What a STREAM CONNECT/ACCEPT/FORWARD or a datagram leads to depends only on the history of the session it names: it is queued for that session when it is active and fewer than 256 commands are waiting, and dropped otherwise. A session is handed its commands in the order in which they were queued, each once, and is never handed anything no client asked of it by name; host names go through the address book first.", "quantifier": "all interleavings of requests of any number of clients and sessions", "why_tests_cant": "independence of sessions ranges over all interleavings", "anchors": ["emissary-core/src/sam/mod.rs: SamServer::poll, SessionContext::send_command"]}
{"id": "C105", "title": "Every SAM client socket ends in exactly one way", "statement": "A socket that a client brings to the SAM server is at any time in exactly one place: still held (a control socket, in a command not yet taken, or waiting for the address book), or parted with exactly once: answered and closed, closed, or handed to a session. (Found: a request that names a session which is unknown, still being built or 256 commands behind is closed with no reply at all.)", "quantifier": "all histories of the server in which every socket comes in once", "why_tests_cant": "conservation over unbounded histories", "anchors": ["emissary-core/src/sam/mod.rs: SamServer::poll"]}
{"id": "C106", "title": "Datagrams to SAM clients are written in order and once", "statement": "Datagrams that sessions hand to the SAM server are tried on the UDP socket in the order handed over, each exactly once, addressed to the port they were handed over with; one that the socket is not ready for is kept and tried again; none is skipped unless the channel's 1024 places are full; a socket that is ready gets everything that waits in one poll.", "quantifier": "all interleavings of hand-overs and polls, and all answers of the socket", "why_tests_cant": "all schedules of socket readiness", "anchors": ["emissary-core/src/sam/mod.rs: SamServer::poll (datagram writer)"]}
{"id": "C107", "title": "A SAM session's answers to STREAM requests", "statement": "What a STREAM CONNECT, ACCEPT or FORWARD leads to depends only on the history of the remote destination it names: a stream is opened at once when the lease set is there, otherwise the socket waits and is handed over, or told CANT_REACH_PEER, when the lookup ends; connecting to oneself is refused; other session kinds close the socket. Every socket is at any time either waiting or was parted with exactly once. The session never panics. (Found: a CONNECT that waits is closed silently when another stream to the same destination opens or is rejected.)", "quantifier": "every session kind, every sequence of requests, lookups that end, stream events and the end of the session, every number of destinations and sockets", "why_tests_cant": "the interleavings of clients, lookups and stream events for several destinations are unbounded", "anchors": ["emissary-core/src/sam/session.rs:SamSession::{on_stream_connect,on_stream_accept,on_stream_forward,on_lease_set_found,on_lease_set_not_found,poll}"]}
{"id": "C108", "title": "Datagrams of a SAM session leave in the order they came", "statement": "Datagrams a client sends to one remote destination are sent (or dropped) in the order in which they were handed over, each once, whether they had to wait for the lease set or not; none is dropped unless the lookup fails or the session ends. This rests on the destination's answers being in order, which is proved of the destination: after it has said that a lease set is not there, it does not say it is before it has said how the lookup ended.", "quantifier": "every sequence of datagrams to any destinations, every schedule of lookups and every history of the destination", "why_tests_cant": "needs the joint behaviour of session and destination over unbounded histories", "anchors": ["emissary-core/src/sam/session.rs:SamSession::{on_send_datagram,on_lease_set_found,on_lease_set_not_found}", "emissary-core/src/destination/mod.rs:Destination::{query_lease_set,poll_next}"]}
{"id": "C109", "title": "NAMING LOOKUP is answered under the name asked for", "statement": "ME is answered with the session's destination; a .b32.i2p name with the destination found, or KEY_NOT_FOUND when the lookup fails, under the name asked; a host name is asked of the address book and each answer goes back under its own name in whatever order they come; anything else is INVALID_KEY; no name makes the session panic. (Found: of two lookups of one destination while the first is under way, only one is answered.)", "quantifier": "every byte string as a name, every sequence of lookups and answers, every interleaving", "why_tests_cant": "names are arbitrary byte strings and the interleavings of lookups unbounded", "anchors": ["emissary-core/src/sam/session.rs:SamSession::{on_naming_lookup,on_lease_set_found,on_lease_set_not_found,poll}"]}
{"id": "C110", "title": "An I2CP session is set up in order, with the tunnels the client asked for", "statement": "A client that connects over I2CP and creates a session is told that the session is created, is then asked for a lease set, and then its destination begins; in this order and each at most once. The pool of tunnels is asked for with what the client's options say, with defaults for what they leave out. The lease set is asked for as soon as a tunnel is built that makes their number the one asked for, with the leases of exactly the inbound tunnels there are then; the destination begins with those tunnels, the client's lease set and its first key.", "quantifier": "all histories of one connection: client messages, pool events and answers in any order, all options, any numbers of tunnels", "why_tests_cant": "The order in which tunnels come and go and client messages arrive is unbounded; a test fixes one.", "anchors": ["emissary-core/src/i2cp/pending.rs: PendingI2cpSession::on_message, poll", "emissary-core/src/i2cp/session.rs: I2cpSession::new", "emissary-core/src/tunnel/pool/mod.rs: TunnelPoolConfig::from"]}
{"id": "C111", "title": "An active I2CP session sends a client's messages in order and hands over what arrives", "statement": "The messages a client sends to one remote destination leave the session, or are dropped, in the order in which they were given, whatever happens for other destinations; what is neither waits. Nothing is dropped if every lookup of the destination's lease set was started by the session's messages and succeeds. What arrives for the client is handed to it in order, with message ids that count up from zero modulo 2^32. What waits when the session ends is dropped.", "quantifier": "all histories of an active session and all destinations; the session's own destination may do anything", "why_tests_cant": "Lookups and messages for many destinations interleave without bound.", "anchors": ["emissary-core/src/i2cp/session.rs: I2cpSession::on_message, poll, send_payload_message", "emissary-core/src/destination/mod.rs: query_lease_set"]}
{"id": "C112", "title": "An I2CP host lookup is answered once, with what was looked up", "statement": "In an active I2CP session each host lookup is answered, dropped or still held, never answered twice; every answer carries the session and request id of its lookup. A lookup by name is put to the address book and answered with its answer; a lookup by hash is answered at once if the lease set is there, else when the lookup it started ends, with the destination found or a failure.", "quantifier": "all histories of an active session, all names, hashes and request ids", "why_tests_cant": "Lookups of both kinds, messages and their outcomes interleave without bound.", "anchors": ["emissary-core/src/i2cp/session.rs: I2cpSession::on_message, poll"]}
{"id": "C113", "title": "Clients of an I2CP server do not disturb each other", "statement": "The n-th client an I2CP server lets in gets the session id n modulo 2^16; a client that does not say the protocol's byte changes nothing. As long as the server is up each client sees what it would see if it were alone, and the server goes down only because of a client that gives a lease set without a private key or that asks for no inbound tunnels.", "quantifier": "all histories of an I2CP server with any number of clients", "why_tests_cant": "Isolation is about all interleavings of all clients.", "anchors": ["emissary-core/src/i2cp/mod.rs: I2cpServer::poll, read_protocol_byte", "emissary-util/src/runtime/tokio.rs: TokioJoinSet::poll_next"]}
{"id": "C114", "title": "A host name gets the address of its first listing", "statement": "The address book resolves a host name to an address exactly if that is the address given by the first line, over all downloaded hosts files in the order main source then subscriptions, that lists the name (key and value without surrounding white space, value cut at '#!'). Names listed nowhere do not resolve, and later sources never change the address of a name that has one.", "quantifier": "All hosts files, any number of subscriptions, every pattern of failed and successful downloads, every iteration order of the map, every definition of white space that includes carriage return", "why_tests_cant": "Precedence, trimming, comments and line ends combine over arbitrary files and arbitrary map orders; the file is written by one component and parsed by another.", "anchors": ["emissary-cli/src/address_book.rs: AddressBookManager::parse_and_merge, AddressBookManager::run, AddressBookHandle::resolve"]}
{"id": "C115", "title": "A name keeps its address when the router crashes or restarts", "statement": "A name that resolves to an address keeps resolving to it when the router stops while the address book is being written, and when the router is started again.", "quantifier": "All books, all crash points within the write, all later downloads", "why_tests_cant": "The crash point is any position in the write; tests do not stop the process in the middle of a write.", "anchors": ["emissary-cli/src/address_book.rs: AddressBookManager::parse_and_merge, AddressBookManager::run, AddressBookHandle::resolve"]}
{"id": "C116", "title": "Hosts files are asked for in turn and a bounded number of times", "statement": "The main hosts file is asked for until it is downloaded and nothing is asked for before that; then every subscription is asked for in turn, until it answers and at most five times, whatever became of the others; after that nothing is asked for.", "quantifier": "All histories of download results, any number of subscriptions", "why_tests_cant": "Retry loops depend on the whole history of failures of every source.", "anchors": ["emissary-cli/src/address_book.rs: AddressBookManager::run, SUBSCRIPTION_NUM_RETRIES"]}
{"id": "C117", "title": "The HTTP proxy connects only to the .i2p host that is asked for", "statement": "The HTTP proxy opens a connection only for a complete request, only to a host ending in .i2p, and that host is the one the request asks for: that of the first Host header less a leading 'www.'. If the request line names a host, that is the one connected to. Nothing is sent out in any other way.", "quantifier": "All byte streams a browser can send, cut into reads in any way, under any HTTP and URL parser with the stated laws", "why_tests_cant": "Leaks to other hosts depend on every combination of request line and headers a browser can send.", "anchors": ["emissary-cli/src/proxy/http/mod.rs: HttpProxy::parse_request, HttpProxy::read_request, HttpProxy::on_request"]}
{"id": "C118", "title": "A destination is told nothing of the browser", "statement": "However the receiving server reads the rewritten request, it is a GET or POST for the path asked for without headers that tell of the browser (Accept*, X-Requested-With, Via, From, Forwarded, DNT, X-Forwarded*, Proxy-*), with a fixed User-Agent, with Connection only as close or upgrade, with a Referer only if it is a page of the host, and with every other header unchanged and in order.", "quantifier": "All requests, all header lists, all ways to cut the bytes into reads", "why_tests_cant": "Header rewriting must hold for every name in every case and at every position, and must not let one header turn into another on the wire.", "anchors": ["emissary-cli/src/proxy/http/mod.rs: HttpProxy::parse_request, ILLEGAL"]}
{"id": "C119", "title": "A request with a body reaches the destination whole", "statement": "How the bytes of a request are cut into reads makes no difference to where it goes, to its head and to its body: the destination gets the whole body the browser sends.", "quantifier": "All requests and bodies, all ways to cut them into reads", "why_tests_cant": "TCP may deliver the bytes in any pieces; tests send a request in one write.", "anchors": ["emissary-cli/src/proxy/http/mod.rs: HttpProxy::read_request, HttpProxy::on_request"]}
{"id": "C120", "title": "A request that fails is answered with a well-formed page", "statement": "Every request that is refused, or whose destination cannot be reached, is answered with an error page with the right Content-Length that shows the host as text, and nothing else happens; no request makes the proxy panic.", "quantifier": "All byte streams a browser can send, all outcomes of connecting", "why_tests_cant": "Failures arise at every stage of reading and parsing and for every size of the request.", "anchors": ["emissary-cli/src/proxy/http/mod.rs: HttpProxy::run, HttpProxy::read_request, HttpProxy::on_request", "emissary-cli/src/proxy/http/response.rs: ResponseBuilder::build"]}
{"id": "C121", "title": "A graceful shutdown waits for the transit tunnels, a second one does not", "statement": "While its transports run, the router's future becomes ready only if shutdown was called twice, or called once and every transit tunnel that was taken on has ended; it does become ready then, at once after a second call, and no transit tunnel is taken on once the tunnel manager has run after the call. Until shutdown is called a transit request is refused only if transit tunnels are off or at their maximum.", "quantifier": "All interleavings of shutdown calls, polls, transit requests and ending tunnels, all configured maxima", "why_tests_cant": "The order in which the router, the manager and the waiting task are polled against calls and expirations is up to the scheduler.", "anchors": ["emissary-core/src/router/mod.rs: Router::shutdown, Router::poll", "emissary-core/src/tunnel/transit/mod.rs: TransitTunnelManager::poll", "emissary-core/src/shutdown.rs: ShutdownContext, ShutdownHandle"]}
{"id": "C122", "title": "Every holder of a shutdown handle is asked and waited for", "statement": "The shutdown context is ready only if shutdown was called and each handle given out before the call was dropped or answered, and it is ready once they all were; a holder is told exactly once, the first time it polls after the call; no wake-up of whoever polls the context is lost.", "quantifier": "All interleavings of giving out, polling, answering and dropping any number of handles with polls of the context and runs of its tasks", "why_tests_cant": "A lost wake-up or a handle waited for in vain shows in rare interleavings only.", "anchors": ["emissary-core/src/shutdown.rs: ShutdownContext, ShutdownHandle"]}
{"id": "C123", "title": "A subscriber is told of every destination, in order, with the figures of the moment", "statement": "The status events a subscriber reads name only destinations that were started, in the order they were started and no more often; if no queue was full all are named by the next status; an event is dropped only with 64 unread events or 64 destinations pending; the figures of a status are those counted when it was made; the two shutdown notices come once each, in order, and the second comes when the router has shut down.", "quantifier": "All histories of counted events, started destinations, polls, shutdown calls and reads", "why_tests_cant": "Queues fill up only under particular interleavings of producers, manager and subscriber.", "anchors": ["emissary-core/src/events.rs: EventManager, EventHandle, EventSubscriber", "emissary-core/src/router/mod.rs: Router::shutdown"]}
{"id": "C124", "title": "Every message received goes to the one subsystem that deals with it", "statement": "The messages of a batch received from a router are split between the tunnel subsystem and the network database by type, each getting its messages in order, marked with the sender and as one event, and nothing else; connections made, lost and failed are told to every subsystem that listens.", "quantifier": "All batches of messages, all queues of the subsystems", "why_tests_cant": "Batches mix all message types in any order and queues may be full or closed.", "anchors": ["emissary-core/src/subsystem.rs: SubsystemManager::dispatch_messages, SubsystemManager::report_connection_established"]}
{"id": "C125", "title": "A reseed file is read as it is written, and its signature is checked", "statement": "Every SU3 file is read field by field as the format lays it out, whatever follows it, and nothing else is read as one; a reseed file yields exactly the plain files of its archive whose names stay below the directory they are put in, in order; the signature is checked over everything that precedes it, a file that fails the check is not used, and no file brings the router down.", "quantifier": "All byte strings, all archives, all signers and keys", "why_tests_cant": "Fields have lengths of up to 64 bits and archives hold any names; tests use one genuine file.", "anchors": ["emissary-util/src/su3.rs: Su3::parse_inner, Su3::parse_reseed"]}
{"id": "C126", "title": "Reseeding asks up to five servers and takes the first useful answer", "statement": "At most five servers of the list are asked, none twice; the routers are those of the first server with a useful answer; reseeding fails only after five useless ones and always comes to an end; it is done exactly if configured and too few routers are known, or if forced.", "quantifier": "All lists of servers, all random numbers, all answers", "why_tests_cant": "Which servers are drawn is random and all of them may fail in any way.", "anchors": ["emissary-util/src/reseeder.rs: Reseeder::reseed", "emissary-cli/src/main.rs: setup_router"]}
{"id": "C127", "title": "Routers are stored where they belong, and are found again", "statement": "Storing the routers of a reseed file changes nothing outside netDb, saving routers and profiles nothing outside netDb and peerProfiles, and nothing that happens changes anything outside the base path, wherever it stops. After a first start that was not interrupted, and whatever happened since, every router saved is in its file and is loaded by the next start. If the machine stops while the first start makes the directories, the missing ones are never made and routers whose name begins with such a letter are never stored again.", "quantifier": "all disks, base paths, names and contents of routers, all sequences of starts, reseeds and saves and all points at which each of them stops", "why_tests_cant": "every name and every point at which the machine can stop matter; tests store a few routers in a complete directory", "anchors": ["emissary-cli/src/storage.rs: RouterStorage", "emissary-cli/src/config.rs: Config::parse, create_netdb_dir, load_router_infos", "emissary-cli/src/main.rs: setup_router"]}
{"id": "C128", "title": "Profiles are found again under the name of their router", "statement": "The profile of every router saved is loaded by the next start under the router's name with the same numbers, times being rounded down to whole seconds, if the router's info was saved too or is on disk; otherwise it is not stored. Loading does not panic, provided no directory of the base path is named like a profile or a toml file; if one is, it can.", "quantifier": "all disks, base paths, lists of routers and profiles, and everything that happened since the first start", "why_tests_cant": "the name is found by searching the whole path, so every base path and every name matter", "anchors": ["emissary-cli/src/storage.rs: store_profile, save_to_disk", "emissary-cli/src/config.rs: load_router_profiles, Profile"]}
{"id": "C129", "title": "The router keeps its identity", "statement": "Once a start has returned, every later start returns the same static, signing, NTCP2 and SSU2 keys, each of its full length, whatever happened in between: interrupted starts, reseeds, saves, all of them stopping anywhere.", "quantifier": "all lives of an installation: any sequence of starts, reseeds, saves and writes of the own info, each stopping at any byte", "why_tests_cant": "the property is about all crash points and histories", "anchors": ["emissary-cli/src/config.rs: Config::parse, load_key, load_ntcp2_keys, load_ssu2_keys, create_static_key"]}
{"id": "C130", "title": "The configuration used is the one in router.toml", "statement": "A router.toml that is a configuration is never changed, and every start that returns uses it with the command line on top. One that is text but not a configuration is not changed, and no start returns, unless asked to overwrite it. But the first start ignores the command line, a file that is not text is replaced without being asked to, and a first start interrupted while it writes the file leaves an empty one, which is then taken for the configuration.", "quantifier": "all contents of router.toml, command lines and lives of an installation", "why_tests_cant": "every content of the file, every command line and every crash point matter", "anchors": ["emissary-cli/src/config.rs: Config::parse, Config::new_empty, Config::new, Config::merge, load_router_config"]}
{"id": "C131", "title": "The port mapper opens the ports the transports need", "statement": "The port mapper asks the gateway only for ports of enabled transports; with UPnP for NTCP2's port as TCP and SSU2's port as UDP and for all of them; with NAT-PMP the same, for an hour at a time, asked for again ten seconds before the hour is over.", "quantifier": "every configuration, every behaviour of the gateway (answers, errors, silence, how late), every history of timer and shutdown events", "why_tests_cant": "needs a gateway; which protocol is asked for is not visible in any result the router gets back", "anchors": ["emissary-cli/src/port_mapper/nat_pmp.rs: try_map_ntcp2, try_map_ssu2, run", "emissary-cli/src/port_mapper/upnp.rs: try_map_ntcp2, try_map_ssu2, run"]}
{"id": "C132", "title": "Shutting down leaves no permanent mapping behind", "statement": "Shutting the port mapper down always returns, whatever state it is in, and a port mapper that has ended has asked for the removal of every mapping it had asked for without an end.", "quantifier": "every configuration, every behaviour of the gateway, every history, every moment of the shutdown", "why_tests_cant": "depends on when the shutdown arrives and on how each gateway request failed", "anchors": ["emissary-cli/src/port_mapper/mod.rs: PortMapper::shutdown", "emissary-cli/src/port_mapper/upnp.rs: run", "emissary-cli/src/port_mapper/nat_pmp.rs: run"]}
{"id": "C133", "title": "The external address told to the router is the gateway's, and only changes are told", "statement": "Every address handed to the router was given by the gateway; the same address is never handed over twice in a row; after an answer the address handed over last is that answer; and the gateway is asked at most once every five minutes.", "quantifier": "every history of answers, timeouts and timer events", "why_tests_cant": "needs histories of hours and the timer's behaviour after it has fired", "anchors": ["emissary-cli/src/port_mapper/nat_pmp.rs: run", "emissary-cli/src/port_mapper/upnp.rs: run"]}
{"id": "C134", "title": "Port mapping uses only what is enabled, retries, and falls back from NAT-PMP to UPnP", "statement": "With both protocols off nothing is done; a protocol that is off is never used; an operation on the gateway is tried three times, five seconds each; and if NAT-PMP fails, UPnP is used when it is enabled.", "quantifier": "every configuration and every behaviour of the gateway", "why_tests_cant": "the failure modes of gateways are not available in tests", "anchors": ["emissary-cli/src/port_mapper/mod.rs: PortMapper::new", "emissary-cli/src/port_mapper/nat_pmp.rs: with_retries_and_timeout, try_switch_to_upnp", "emissary-cli/src/port_mapper/upnp.rs: with_retries_and_timeout"]}
{"id": "C135", "title": "The command line overrides the configuration file, setting by setting", "statement": "A setting given on the command line is used whatever the file says; a setting not given is as the file says; what a disable flag switches off is off; transports, SAM, I2CP, tunnels and address book are the file's; giving the same arguments again changes nothing.", "quantifier": "every file and every set of arguments, for every setting", "why_tests_cant": "the combinations of nineteen settings, their sections and disable flags are far too many to try", "anchors": ["emissary-cli/src/config.rs: Config::merge", "emissary-cli/src/cli.rs: Arguments"]}
{"id": "C136", "title": "Files with clashing tunnels are refused, others used as written", "statement": "A configuration is refused exactly if two client tunnels share a name or port or two server tunnels share a name, port or destination file; an accepted one is used as written; and the configuration of a first start is the one the next start reads from the file it wrote.", "quantifier": "every configuration file", "why_tests_cant": "an equivalence over all lists of tunnels", "anchors": ["emissary-cli/src/config.rs: Config::new, Config::new_empty, EmissaryConfig::default"]}
{"id": "C137", "title": "Server tunnels keep their destination", "statement": "A server tunnel whose destination is on disk runs with it at every start, whatever the router answers, however writes end and whatever other tunnels there are; a new destination is the first one the router gives in three attempts and is on disk when the write was done.", "quantifier": "every sequence of starts, configurations, router answers and write outcomes", "why_tests_cant": "needs restarts, failed and interrupted writes", "anchors": ["emissary-cli/src/tunnel/server.rs: ServerTunnelManager::new, load_or_create_destination"]}
{"id": "C138", "title": "Client tunnels carry connections to their own destination and are never lost", "statement": "A connection to a client tunnel's port is joined only to that tunnel's destination and port; every connection is refused, reset, closed or held exactly once; every tunnel keeps its task and can always get back to listening; tunnels do not affect each other; and connections that arrive while another is carried are served.", "quantifier": "every number of tunnels and every interleaving of connections, failures and timeouts", "why_tests_cant": "interleavings over time of independent tasks and of the listening socket's queue", "anchors": ["emissary-cli/src/tunnel/client.rs: ClientTunnelManager::run, tunnel_event_loop"]}
{"id": "C139", "title": "A router tells the addresses it should, and hides those it should hide", "statement": "Every router info published has an address of exactly the enabled transports. A transport that is not to be published never has a host or port in it, whatever external addresses are discovered. One that is has the configured host, or else the external address discovered last, and the port the socket listens on.", "quantifier": "all configurations, all sequences of discovered addresses, polls and shutdown", "why_tests_cant": "a published address cannot be taken back; which addresses are discovered when depends on the network", "anchors": ["emissary-core/src/transport/mod.rs: TransportManager::add_external_address, poll", "emissary-core/src/transport/ntcp2/mod.rs: Ntcp2Transport::initialize", "emissary-core/src/transport/ssu2/mod.rs: Ssu2Transport::initialize"]}
{"id": "C140", "title": "Router infos are published in time, not too often, and with true capabilities", "statement": "A router info is published ten seconds after the start and every fifteen minutes after that, and never two within fifteen minutes. It has the time of publishing. Its capabilities are the configured ones, but those of a router that rejects tunnels if transit tunnels are disabled or the router was told to stop. A floodfill router says that it is one, and a stopping one that it rejects tunnels.", "quantifier": "all configurations and all sequences of discovered addresses, polls and shutdown", "why_tests_cant": "depends on when the router is polled and told to stop; what others do depends on what is published hours after the start", "anchors": ["emissary-core/src/transport/mod.rs: TransportManager::poll, shutdown", "emissary-core/src/primitives/router_info.rs: RouterInfo::new"]}
{"id": "C141", "title": "A router has at most one SSU2 session, and can have another when it ended", "statement": "There are never two active SSU2 sessions with a router. When a handshake with a router succeeds and there is no session with it, one is started, whoever dialed and however many sessions there were before.", "quantifier": "all sequences of datagrams, dials, finished and failed handshakes, ended sessions and timers", "why_tests_cant": "shows only after sessions have ended, in histories longer than tests run; needs socket and transport manager together", "anchors": ["emissary-core/src/transport/ssu2/socket.rs: Ssu2Socket::poll_next, connect, accept, reject", "emissary-core/src/transport/mod.rs: TransportManager::poll, on_dial_router"]}
{"id": "C142", "title": "Ended SSU2 sessions tell the other side, for a minute, and fall silent", "statement": "The subsystems hear of the end of each session exactly once. The other router is told the reason unless it told first. For a minute every packet that can be read and is not a termination is answered with the same termination, and nothing else is; two ended sessions do not answer each other. After that nothing is sent for that connection.", "quantifier": "all histories and all sequences of packets to an ended session", "why_tests_cant": "packets arrive at any time in any order after the end", "anchors": ["emissary-core/src/transport/ssu2/session/terminating.rs: TerminatingSsu2Session::new, on_packet, poll", "emissary-core/src/transport/ssu2/session/active/mod.rs: Ssu2Session::run"]}
{"id": "C143", "title": "What is kept for SSU2 connections is given back when they are over", "statement": "Every packet goes to at most one session. The entry of a connection is removed when its session has ended, its handshake failed or it was rejected, so that what is kept is bounded by what is going on.", "quantifier": "all histories", "why_tests_cant": "memory use after many connections; an attacker chooses the history", "anchors": ["emissary-core/src/transport/ssu2/socket.rs: Ssu2Socket::handle_packet, poll_next"]}
{"id": "C144", "title": "Inbound connections are served, in order and without waiting for something else", "statement": "Every connection made to the NTCP2 port from an allowed address gets a handshake, once and in order; connections from local addresses only if that is allowed. The end of each handshake and session is reported once and in order. A connection that arrives, and a handshake that ends, wakes the router if it sleeps.", "quantifier": "all interleavings of arriving connections, ended handshakes and sessions, dials, other events and polls", "why_tests_cant": "depends on which of several things are ready when the task is polled; tests poll again for other reasons", "anchors": ["emissary-core/src/transport/ntcp2/mod.rs: Ntcp2Transport::poll_next", "emissary-core/src/transport/ntcp2/listener.rs: Ntcp2Listener::poll_next", "emissary-util/src/runtime/tokio.rs: TokioJoinSet"]}
{"id": "C145", "title": "One bad connection does not stop the router", "statement": "The NTCP2 transport goes on whatever happens to one connection: handshakes that fail, sessions that end, connections that cannot be accepted and tasks that panic.", "quantifier": "all interleavings as in C144", "why_tests_cant": "failures of accept and panics are rare and hard to provoke at every point", "anchors": ["emissary-core/src/transport/ntcp2/mod.rs: Ntcp2Transport::poll_next", "emissary-core/src/transport/mod.rs: TransportManager::poll", "emissary-util/src/runtime/tokio.rs: TokioTcpListener::poll_accept, TokioJoinSet::poll_next"]}
