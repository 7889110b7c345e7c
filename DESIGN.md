# Formal model of altonen/emissary in Rocq

`/repo` (emissary at a pinned commit) is read as text and modelled function by
function.  Nothing in `/repo` is built or run.

## Layout

* `rocq/theories/*Model.v` – executable Gallina definitions transcribing the Rust
  code.  Every definition cites the file and lines it models and says what was
  simplified.  No proofs in these files.
* `rocq/theories/*Spec.v` – small, separate specifications (what the English
  property talks about) that do not use the model's helpers.
* `rocq/theories/*Proofs.v` – lemmas.
* `rocq/theories/*Props.v` – the property theorems only, each closed by a lemma,
  each followed by `Print Assumptions` and accompanied by an `Example` showing
  that a concrete, non-trivial case meets its hypotheses.

## Conventions

* A Rust byte is an `N` below 256 (`byte_ok`), a byte string is `list N`; counters and
  ids are `N`, indices/lengths of lists are `nat`.  Fixed-width arithmetic is only
  wrapped (`mod 2^n`) where the code wraps; where the code would panic the model
  returns an explicit `Panic`/`None` value.
* nom parsers are `list N -> option (A * list N)`.
* `HashMap`/`BTreeMap`/`HashSet` are association lists or functions with the
  lookup/insert/remove laws of the Rust collection; when the Rust iteration order is
  unspecified the theorems quantify over it or the model is order-insensitive.
* Async: one call of `poll`/handler = one `step`; the executor, channels and timers
  are the environment and are quantified over.
* Cryptography (SHA-256, signatures, AEAD, X25519, HMAC, SipHash rounds, gzip) is
  abstracted by section variables.  Theorems state which functional law of the
  primitive they use (for example "decompress inverts compress") as an explicit
  hypothesis.

## Properties: model and proof

`proved` / `partial` follow `MANIFEST.json`.  When the code does not satisfy the English
property, the failing case is a theorem with `_refuted` (or `refuted_`) in its name: a concrete
reachable execution, or a statement about every execution from one.  The strongest positive
theorem next to it ends in `_partial` when it covers only part of the claim.

| id | model files | what is proved, and how | what is missing |
|----|----|----|----|
| C01 | StreamModel | delivered bytes are a prefix of the sent bytes for every arrival history; complete once all arrived; invariant over packets | – |
| C02 | StreamModel | what an ACK covers was received, unless more than 255 packets are missing or the ACK is that of a CLOSE | both exceptions refuted |
| C03 | StreamModel | a packet stays queued until acknowledged, and is resent; invariant over events | – |
| C04 | StreamModel | two endpoints and a network that loses, repeats and reorders: joint invariant | – |
| C05 | PendingModel | prefix/complete/truthful if packets of a waiting stream come in order; size bound | gaps and early CLOSE refuted |
| C06 | StreamModel | all data is delivered if CLOSE comes last | early CLOSE, slow client refuted |
| C07, C44 | PacketModel | codec laws; who a SYN can come from | SYN-ACK of another destination refuted |
| C08 | ListenerModel | event-list invariants | race and failed FORWARD refuted |
| C09, C11, C46, C47 | I2cpModel | framing independent of segmentation; write loops; every request decoded, every reply framed | oversized frame, two reply kinds refuted |
| C10, C12, C49 | SamModel | command grammar, handshake order; one line per read | segmentation, pipelining, NOVERSION, escapes refuted |
| C13, C50 | TunnelModel | fragment/reassemble in any order, exactly once; layered encryption cancels over any number of hops | messages over 64 fragments refuted |
| C14–C17, C51 | Ssu2Model | reassembly, ACK ranges, duplicate filter as a time window, Bloom filter, packets | lone fragments, long ACK runs, termination refuted |
| C18, C19, C48 | Ntcp2Model | both ends in step for every segmentation; nonces never repeat; blocks | unknown block, 65508–65526 byte messages refuted |
| C20, C21 | KadModel | bucket invariants; closest search exact up to the doubled bucket | repeated router refuted |
| C22 | NetdbModel | asks once, told once, ends in time, results only from records | repeated router-info request, missing results, early blame refuted |
| C23, C43 | GarlicModel, I2npModel | round trips, skipping, totality | trailing unknown block, builder panic, build options refuted |
| C24, C25 | I2npModel | round trip, canonical form, truncation rejected | – |
| C26–C29 | PrimModel | round trip, stability, authenticity relative to `verify` | – |
| C30, C31, C41, C45 | EncModel | round trips, injectivity | forged datagram, swapped ports refuted |
| C32–C34, C52, C53 | RatchetModel | tag windows; both ends in lockstep; a bad message changes nothing; first contact | stale reverse key, poisoned pending session, lost session refuted |
| C35 | NoiseModel, TransitModel | limits, ids, shutdown for every history of requests | – |
| C36 | RouteModel | delivery to exactly the owner | – |
| C37, C38 | SelectModel, ProfileModel | hops in different networks for all router sets and random draws; counts | two-homed routers, pool shutdown, reused ids refuted |
| C39, C54 | DialModel | one connection per router; waiting messages in order and accounted for | redial after a repeated outbound connection, full command channel refuted |
| C40, C56 | ProfileModel | no panic, exact lookup, disjoint buckets, saved once | startup loss, inverted dial avoidance, race, clock refuted |
| C42 | TotalModel.v (destination.rs, router_identity.rs, router_info.rs, offline_signature.rs, lease_set.rs, dsa.rs, store.rs, garlic.rs next key, payload.rs, tunnel/garlic.rs, streaming/mod.rs signature blanking, I2NP short header, router info blocks of NTCP2 and SSU2), EncModel.v (SAM datagram header) | the functions again with a third outcome, Panic, at every slice, length subtraction, array conversion, expect and unreachable; each agrees with the two-outcome parser model and never panics; exact condition for the SSU2 router info block; number of nested calls when reading garlic messages | parsers made of nom combinators only cannot panic by construction of the model; other modules' panics are explicit values in their own models (C08, C35, C40, C41, C55, C57, C61, C73, C78, C83, C93, C120) |
| C55 | NoiseModel, BuildModel, TransitModel | tunnel built iff every hop accepted, with shared keys, for any number of hops | wrong hop blamed on inbound builds refuted |
| C57, C58, C59 | HandshakeModel | both handshake sides as functions of the incoming stream: agreement, no panic, transcript binding (or a SHA-256 collision); address blocks | impersonation (C58) and IPv6 (C59) refuted |
| C60–C66 | Ssu2HsModel | the socket with its pending sessions as a step function over datagrams, dials and timers: an undisturbed run followed message by message for all keys and random values; invariants over all runs; retransmission timers by induction over poll times | reply misread with the own key (C60), 40-byte datagram panics (C61), token and network id ignored (C62), lost Retry (C63), half-open sessions stay (C64), own router id reported (C65), impersonation (C66) refuted |
| C67–C73 | FloodModel | the store, lookup, connection and cleanup events of the network database as a step function; what is remembered under a key is specified by a fold over the events (`recalls`) and the tables are proved to refine it; flooding by an invariant on everything kept or sent; kept messages by comparing two runs; panics by totality | foreign and older lease sets replace the right one (C67), expired, immortal and forgotten entries (C68), lost direct answers (C71) refuted |
| C74–C79 | RpathModel | a routing path handle as a step function over its owner's calls and the manager's events; what it was told is a fold over the history (`told`), and the paths handed out are tied to it by an invariant; lookups by a counter on the history (`looks`) | paths kept after a failed replacement (C75), shared tunnel ids (C77), a clock tick inside a call (C78) and lost events (C79) refuted |
| C80–C85 | DestModel | the destination and its routing path manager as a step function; for each remote the state is proved to be what a fold over operations and outputs (`history`) says, and sends, lookups and answers are specified on that fold | expired single leases (C80), overtaken messages (C81), lookups never started (C82), foreign and older lease sets (C84), routes dropped by a lookup (C85) refuted |
| C86–C90 | LsmModel | the lease set manager as a step function with its polling loop, proved to come to rest; an invariant ties its sets to folds over events and outputs; republication by a deadline invariant over every poll schedule | newest lease set unpublished (C87), publication put off for ever (C88), any lease set confirms, own one missed (C89) refuted |
| C91–C93 | PctxModel | the pool context as a step function; the list of those who wait is computed from the history alone, and an invariant ties the three maps to it; delivery is an equation per receiver | stale tag after an unexpected answer (C91, C92), short garlic message panics (C93) refuted |
| C94–C101 | PoolModel | the tunnel pool as a step function over polls, builds, timers, tests, requests and faults; live tunnels, builds and tests under way are folds over the history alone, and invariants (agree, books, ledger, tidy) tie the pool's maps, timers and counters to them | late timer leaves one tunnel too many (C94), pending inbound entries leaked by shutdown (C97), listeners pile up (C98), one tunnel's panic ends the pool (C101) refuted |
| C102 | DestModel | refinement: for every handle, the destination with all its handles behaves as that handle alone (RpathModel) fed with what the history says; the scene fed to it is a fold over operations and outputs | |
| C103–C106 | SamSrvModel | the SAM server as a step function over connections, session building, commands, address book answers and UDP writes; ids, destinations, queues and sockets are folds over the history, tied to the maps by invariants; sockets are conserved (a counting law) and datagrams are a queue | a session whose tunnels could not be built keeps its id for ever (C103), requests closed without an answer (C105) refuted |
| C107–C109 | SamSessModel | an active SAM session as a step function; for each remote destination what waits is a fold over the operations (`wait_run`), and outputs are an equation on it; sockets by a counting law; order of datagrams under a promise (`orderly`) that is proved of DestModel | a waiting CONNECT closed when another stream opens (C107), a lookup forgotten (C109) refuted |
| C110–C113 | I2cpSessModel | an I2CP connection (setup, active session) and the server as step functions; setup by an invariant that ties each stage to the history that leads to it; waiting messages and lookups are a fold per destination (`pend_run`); lookups by a permutation law; isolation by running each connection alone | waiting although complete, early lookups, foreign destination (C110), messages behind a foreign lookup (C111), second lookup (C112), one client ends the server (C113) refuted |
| C114–C116 | BookModel | the address book as texts: lines, merging, the file written and read again, the manager as a machine over download results; the file is parsed back by a round trip, requests by blocks per subscription | crash during the write and restart (C115) refuted |
| C117–C120 | HttpModel | one connection of a browser as a function of what is read from it; HTTP and URL parsers are parameters with laws (HttpSpec); the rewritten request is characterised by every way to read it (`is_request`, unique) | request line's host ignored (C117), Referer (C118), late bodies (C119), long heads and markup in pages (C120) refuted |
| C121–C124 | ShutModel | shutdown context, handles, spawned tasks and wakers as a transition system; event manager with its two bounded queues; router with transit tunnel manager; dispatch of a batch | invariants over traces; the specification reads the trace only (ShutSpec); ShutDown never sent and destinations lost at a full queue (C123) refuted |
| C125–C126 | ReseedModel | SU3 parser over bytes, archive as a parameter, retry loop over a list of random numbers | layout of the file and harmless names in ReseedSpec; signature, panics and few servers refuted |
| C127–C130 | BootModel | the disk as a map from paths to files and directories; starts, reseeds and saves as lists of actions that may stop anywhere; toml, gzip and merging as parameters | lives of an installation and its files in BootSpec; missing directories, base paths, first command line, unreadable and empty router.toml refuted |
| C131–C134 | PmapModel | starting, retries, the NAT-PMP and UPnP loops as `step : task -> time -> event -> actions * task`, runs over lists of timed events; the gateway's answers are parameters (value, error or silence, and after how many five-second windows) | properties of every action of every run by induction over events; invariants for what stays mapped and which address was told last; pace by induction; C131–C134 each with a part refuted (see Findings) |
| C135–C136 | ConfModel | the file's record, the configuration and the arguments field by field; `new`, `new_empty`, `merge` | a setting is a question with an answer in the file, the configuration and the arguments (ConfSpec); settings dropped without their section (C135) refuted |
| C137–C138 | CliTunModel | server tunnels: disk, answers of the router and how writes end, over sequences of starts; client tunnels: one task per tunnel as a step function with the listening socket's queue | induction over starts; accounting law by permutations; failed and cut writes (C137), second connection and missing session (C138) refuted |
| C139–C140 | PubModel | the router info made at the start and the transport manager's republishing as a step function over discovered addresses, shutdown and polls | invariant over histories; port 0 (C139), floodfill with configured capabilities and late `G` (C140) refuted |
| C141–C143 | SockModel | the SSU2 socket's table and tasks with the transport manager's decisions as one step function; handshakes succeed or fail at any time, ended sessions get packets and time | invariants and counting over all histories; second session, dialed sessions, dialed routers (C141) and the table (C143) refuted for all histories |
| C144–C145 | AcptModel | the NTCP2 transport as a polled task: queue of the listening socket, sets of handshakes and sessions, and a flag per source that says whether it wakes the task; a poll is atomic | conservation laws through the polling loop, progress of each poll, invariants that ended sessions always and ended handshakes nearly always wake the task; lost wakeups (C144), accept errors and panics (C145) refuted |

## Trusted base

* The Coq 8.16.1 kernel (and `coqchk`, which re-checks the compiled files).
* `Print Assumptions` stands under every property theorem in the `*Props.v` files.  For every
  one of them the answer is `Closed under the global context`: no axiom is used, neither of our
  own nor of the standard library.  (`coqchk` additionally lists `Coq.ssr.ssrunder.*` names;
  these come from loading the standard library's ssreflect files through `Lia`, not from a
  theorem here.)
* The hand transcription from Rust to Gallina, cited file and line by definition, including the
  meaning assumed for the standard library, `nom`, `bytes`, `hashbrown`.
* The abstractions below.  They are record fields or section variables, that is, universally
  quantified in the final theorems; every assumption on them is a hypothesis of the theorem that
  uses it, and a toy instance (`toy`, `noise_toy`, …) shows that it can be met.

| record | stands for | assumed where used |
|----|----|----|
| `PrimModel.ext` | SHA-256, Ed25519/ECDSA verify, key derivation, address parsing | `ext_ok`: output lengths, a signature of the own key verifies |
| `Ntcp2Model.ncrypt` | ChaCha20-Poly1305, SipHash | `aead_ok`: open inverts seal with equal key, nonce, data |
| `TunnelModel.aes` | AES-CBC/ECB of tunnel layers | `aes_ok`: decrypt inverts encrypt, lengths kept |
| `HandshakeModel.hops` | the two records above plus SipHash | `primitives_ok`: DH commutes, open inverts seal, AES-CBC inverse, lengths |
| `Ssu2HsModel` argument `ks` | ChaCha20 key stream used to mask headers | `stream_ok`: as many bytes as asked for |
| `RatchetModel.rcrypt` | DH, Elligator2, HKDF, AEAD | `rcrypt_ok`: DH commutes, encode/decode, open inverts seal |
| `NoiseModel.ops` | X25519, HMAC, AEAD, ChaCha20 stream | `crypto_laws`: DH commutes, open inverts seal, stream is an involution, lengths |
| `httparse`, `url_parse` | HTTP and URL parsers of the proxy | `httparse_laws`, `url_laws` (HttpSpec): decides on a prefix once and for all; names, values and paths are on one line |
| `gunzip`, `gzip` | DEFLATE | decompress inverts compress |
| random numbers, clocks, iteration order of hash maps, timers, channels, sockets | arguments or operations of the transition systems | quantified over |

No theorem says anything about secrecy or about the strength of a primitive.

## What is modelled, and what is not

Modelled (emissary-core/src): `primitives/*`, `i2np/*`, `crypto/{mod (base64/32), siphash,
chachapoly, noise users}`, `sam/{mod,session,parser,socket,pending/connection}`, `sam/protocol/streaming/*`,
`sam/protocol/datagram`, `i2cp/*`, `destination/{mod,routing_path,lease_set,session/*}`,
`tunnel/{noise,garlic,fragment,routing_table,hop/*,transit/*,pool/{mod,listener,timer,zero_hop,selector,context}}`, connection
handling of `tunnel/mod.rs`, `transport/mod.rs`, `transport/ntcp2/{message,options,listener,session/*}`,
`transport/ssu2/{message,session/active/*,session/pending/*}` and, of `transport/ssu2/socket.rs`,
datagram dispatch and dialing, `netdb/{bucket,routing_table,dht,types,query}`, the query part of
`netdb/mod.rs` and its floodfill part (stores, lookups, flooding, kept messages; FloodModel takes
stores for keys without an active query of the router itself), `shutdown.rs`, `events.rs`, message dispatch
of `subsystem.rs`, shutdown of `router/mod.rs`, `profile.rs`, `bloom.rs`, `util/mod.rs` (shuffle).

Modelled of emissary-cli/src: `address_book`, `proxy/http/*`, `storage`, `port_mapper/*`, `tunnel/{client,server}`, `config` (reading and writing the base path, the fields, `merge`; toml itself is a parameter); of emissary-util/src: `su3`, `reseeder`.

Further models added later are listed at the end of this file.

Not modelled: costs of router addresses,
metrics, logging, the rest of `emissary-cli` and `emissary-util`; memory use, real time,
scheduling fairness; panics in code that is not modelled.  Deadlocks between locks are not
expressible in these sequential models.

## Findings

Every item marked (thm) is a theorem with `refuted` in its name; the others were seen while
reading and follow from the cited code but have no theorem.

Streaming: NACK count over 255 acknowledges missing packets (thm C02); CLOSE acknowledges without
NACKs (thm C02); CLOSE before missing data loses it (thm C06); a waiting stream acknowledges gaps
and loses them (thm C05); a SYN-ACK from another destination is accepted (thm C44); 256 NACKs are
serialised with count 0 (thm C07).

SAM/I2CP: a repliable datagram's signature is not verified (thm C31); its ports come back swapped
(thm C31); split, pipelined and stale command bytes are lost or invented (thm C10); MIN/MAX
version never answered with NOVERSION (thm C12); escapes kept in quoted values (thm C49); ACCEPT
and FORWARD race (thm C08); failed FORWARD blocks the session (thm C08); SAM datagram under 4
bytes panics (thm C42); I2CP frame over 65535 bytes panics (thm C09); HostReply and
RequestVariableLeaseSet carry wrong lengths (thm C47).

Tunnels: fragment numbers wrap past 63 (thm C13); wrong hop blamed when an inbound build fails
(thm C55); a garlic build reply under 12 bytes panics; pool shutdown leaks routing-table
entries and participation counts (thm C38); a router with addresses in two /16 networks can be two
hops of one tunnel (thm C37); insecure mode can repeat a hop (thm C37); outbound tunnel ids are
drawn without a collision check (thm C38).

Transports: an NTCP2 frame with an unknown block kills the session (thm C18); NTCP2 messages of
65508–65526 bytes are sent with a truncated length (thm C18); SSU2 acknowledges packets it never
received in long runs (thm C15), sends 1190–1200 byte messages as a fragment without an end (thm
C14), and can never build a termination packet (thm C51); an outbound connection to a router that
is already connected makes it undialable for ever (thm C39); a late dial failure makes the tunnel
manager forget a live connection (thm C54); a full command channel leaves messages waiting for a
dial that never happens (thm C54);
an inbound NTCP2 session is attributed to whatever router info the peer sends: the static key
proved in the handshake is not compared with it (thm C58); local IPv6 addresses are dialled and
accepted although local addresses are disabled (thm C59).

SSU2 handshake: a Retry or SessionCreated that happens to read like another message type with the
dialing router's own key is dropped, so some pairs of routers cannot connect (thm C60); a datagram
of 40 bytes made from the published intro key panics the socket task (thm C61); the token of a
SessionRequest and the network id of any message are not compared with anything (thm C62); a
repeated TokenRequest, as sent when the Retry is lost, is taken for a SessionRequest and poisons
the session (thm C63); inbound sessions waiting for a SessionRequest have no timer and accumulate
(thm C64); dialed sessions and dial failures are reported under the router's own id (thm C65); the
static key is not compared with the presented router info (thm C66).  Seen only: any packet is
taken for the first acknowledgement of a dialed session; entries of closed sessions stay in the
socket's table (thm C143); the token is written big-endian and read little-endian; SSU2 ignores the
local-address setting;
`ssu2/socket.rs` `connect` panics on an intro or static key that is not 32 bytes of base64.

Network database: closest search yields bucket 0 twice (thm C21); a router-info query can ask the
same floodfill twice (thm C22); callers dropped without a result (thm C22); floodfills blamed
early by stale timers (thm C22).  A floodfill takes any destination's lease set under any key, so
anybody can replace the lease set a lookup returns (thm C67), also with an older one of the same
destination (thm C67); router infos are never removed and served for ever, expired lease sets are
served until the next cleanup, and a valid lease set with one expired lease is acknowledged and
forgotten (thm C68); a direct lookup from a router whose connection is gone is never answered (thm
C71).

Destinations: replacing a path that fails leaves the old one in use without a timer, beyond the
expiry of the remote's tunnel (thm C75); a lease of the remote that bears the id of one of our
outbound tunnels hides that tunnel from a stream (thm C77); a path request panics if the clock
passes the 30-second mark between two reads (thm C78); after 128 unread events a stream is not told
that its tunnel has expired (thm C79); an expired lease is used while another lease of the set is
valid (thm C80); messages waiting for a lookup stay put when the remote sends its lease set itself,
are overtaken, and are lost to a lookup that fails (thm C81); an expired lease set counts as found
(thm C81); a lease set requested by a stream shortly before it expires is never looked up, now or
later (thm C82); a lookup's lease set is not compared with the destination that was looked up, and
older lease sets replace newer ones (thm C84); a lookup drops the leases that streams are using (thm
C85).

Publishing lease sets: a lease set created while the one before it is being published stays
unpublished (thm C87); tunnels that come and go every 20 s put publication off for ever (thm C88); any
lease set sent under our key, old or forged, confirms the storage, while our own is ignored in the
second before the next lookup (thm C89).

Tunnel pools: an outbound build answered by any message but a reply leaves its tag behind, and a
garlic message with that tag is swallowed (thm C91, C92).  A garlic message of less than twelve
bytes, which anybody can send to a published lease, panics in the inbound tunnel's task (thm C93);
read only: the runtime's join set turns the panicked task into the end of its stream
(`emissary-util/src/runtime/tokio.rs:257-269`), on which the whole pool returns
(`tunnel/pool/mod.rs:979-981`), so one message ends all tunnels of a destination; from that step on it
is a theorem that the other tunnels are never reported expired and their routing table entries stay for
ever (thm C101).  If a timer is late, a tunnel can expire before it is noted as about to expire; the
note is then never removed and the pool keeps one tunnel too many (thm C94).  Shutting a pool down
leaves the routing table entries of inbound tunnels that are being built (thm C97).  Every build whose
first hop cannot be dialed and every test that times out leaves a reply listener behind (thm C98).

SAM sessions: a CONNECT that waits for a lease set is forgotten, its socket closed without an answer,
when another stream to the same destination is opened or rejected, because both are kept under the
destination's id (`sam/session.rs:1219,1223`, thm C107).  Two NAMING LOOKUPs for one destination that
is being looked up get one answer (thm C109).  Read only: a CONNECT to a host name without an address
book trips a debug assertion and is closed silently in release builds.

I2CP server: a `CreateLeaseSet2` without private keys is accepted by the parser with a warning
(`i2cp/message/mod.rs:609`) and makes `private_keys[0]` (`i2cp/session.rs:130`) panic in the server's
own task; `inbound.quantity=0` makes `RequestVariableLeaseSet::new` index an empty list
(`message/lease_set.rs:38`) in a task of the server's join set, whose panic ends the server
(`i2cp/mod.rs:215`).  Either way one client ends I2CP for all (thm C113).  Session ids wrap after 2^16
clients, and the 65535th gets the id that stands for no session (thm C113).  Tunnels are counted only
when one is built, so a session can wait for ever with all its tunnels there; host lookups before the
session is active are not answered; the lease set may be for another destination than the session's
(thm C110).  Unless `i2cp.dontPublishLeaseSet` is the string `false`, the lease set is not published
(`i2cp/session.rs:136-139`, thm C110), while SAM's default is to publish.  A message for a destination
whose lookup was started by a host lookup or by the destination itself is dropped although the lookup
succeeds (thm C111); so is a second lookup of one hash (thm C112).  `DestroySession` is answered but the
session goes on.

SAM server: when the tunnels of a session cannot be built, the client is told nothing more and the id
and the destination of the session stay taken until the router restarts (`sam/mod.rs:646-650`, thm
C103).  A STREAM request or datagram that names a session which is unknown, still being built or 256
commands behind is dropped and its socket closed with no answer (thm C105).  Read only: the replies
DUPLICATE_ID, DUPLICATE_DEST (the SAM specification spells them DUPLICATED_...) and
(`sam/session.rs:876`) CANT_REACH_PEER lack the line feed that ends a SAM line.

End-to-end sessions: a stale reverse key desynchronises a session (thm C33); one bad message
poisons a pending session (thm C34); a peer that lost its session is not answered on the new one
(thm C53).

Profiles: routers without a rate are dropped at startup if another has one (thm C40); dial-failure
avoidance is inverted and never ends (thm C40); a lookup between the steps of `add_router` panics
(thm C40); a clock that goes back panics (thm C40).  Seen only: `get_router_ids` and the
maintenance task take the routers and profiles locks in opposite order.

Codecs: mapping/string/record limits (thm C24–C26, C28, C43), trailing unknown garlic block
rejects the message (thm C23), reply token 0 misparsed (thm C25).

Address book: the file is truncated and then written in place, so a crash leaves names without
addresses or with truncated ones (thm C115); every start begins with an empty map, so names saved
earlier are lost with the first download that does not list them (thm C115).

HTTP proxy: the host in the request line is ignored for the Host header (thm C117); a Referer of
another site is passed on if the host's name is anywhere in it (thm C118); a body that arrives after
the read that ends the head is never sent on (thm C119); a head over 8192 bytes is dropped without an
answer, and the host is written into the error page unescaped (thm C120).  Seen only: a Host header
may hold spaces, which end up in a SAM command.

Shutdown and events: `Router::shutdown` calls the event manager's shutdown on its first call only, so
a subscriber is never told that the router has shut down (thm C123); a status that finds the
subscriber's queue full is dropped with the names of the destinations it carries, which are not told
again (thm C123).

Reseeding: the message whose signature is checked is cut off at the length of what follows it, not of
what precedes it, failed checks are only logged and the reseeder does not ask for any (thm C125); an
archive entry the zip library cannot open panics (thm C125); with fewer than five servers that all
fail, reseeding never ends (thm C126).  Seen only: in debug builds a version shorter than 16 bytes
panics.

**Starting (C127, C128, C130).** The letters of netDb and peerProfiles are only made together with
their parent: if the machine stops in between, routers whose directory is missing are never stored
(thm C127_missing_dir_refuted). The router a profile belongs to is searched for in the whole path: with
`.toml` in a directory of the base path, loading profiles panics (thm C128_path_refuted). The first start
ignores the command line (thm C130_first_args_refuted). A router.toml that is not UTF-8 is replaced by the
default one although `--overwrite-config` was not given (thm C130_text_refuted). Files are not written
atomically: a first start interrupted while it writes router.toml leaves an empty one, which is a valid
configuration with every service off (thm C130_crash_refuted).

**SSU2 router info block of size one** (C42_ssu2_router_info_refuted).  `parse_router_info`
(ssu2/message.rs:477-488) refuses a block of size zero and then subtracts two from the size:
with overflow checks (debug builds and the `testnet` profile of Cargo.toml) a block `0 1 x y`
panics; without them the parser asks for 65535 bytes and refuses.

**Garlic messages nest calls** (C42_nested_calls).  `parse_frame` calls itself for every block
it skips and `parse_inner` for every block it reads (garlic.rs:614-651), so an accepted message of
`3 n + 4` bytes makes `n + 1` calls active at once.  A message may be about 64 KB: some twenty
thousand calls deep.  Whether this exhausts the stack depends on frame sizes and on whether the
compiler turns the calls into loops, which the model does not say.

**Port mapper (C131–C134).** (1) `nat_pmp.rs:180-207` asks for SSU2's port with `Protocol::TCP`, and so does every renewal: with NAT-PMP, which is tried first, the UDP port is never forwarded (`C131_nat_pmp_udp_refuted`). (2) `with_retries_and_timeout` polls the same future in every round; after an error it is complete and polling it again panics, so an error is never retried, the task dies and UPnP is not tried although enabled (`C134_error_falls_back_refuted`); when UPnP has mapped one port for ever and the second is refused, the first stays mapped and shutting down removes nothing (`C132_refused_mapping_refuted`). (3) `upnp.rs:298-320` does not set the address timer again: five minutes after the start the loop begins to ask the gateway without pause (`C133_upnp_pace_refuted`). (4) `upnp.rs:284-296` does not return when the handle is dropped; the next round polls the finished channel and panics (`C132_dropped`; harmless, the mappings are already removed).

Command line program (C135–C138): `merge` drops settings of the command line whose section is missing from the file, without a message: `--http-proxy-port` alone (although its help says that the host has a default), `--upnp-name`, `--theme`, `--refresh-interval` (`C135_dropped_refuted`).  `load_or_create_destination` goes on when the key file cannot be written, so the next start has another destination (`C137_failed_write_refuted`), and writes in place, so that a start that was interrupted leaves a part of a key or an empty file that all later starts take for the destination (`C137_cut_write_refuted`).  A client tunnel accepts one connection and drops its listening socket when that connection ends: connections that were waiting are reset although nothing failed (`C138_one_at_a_time_refuted`); while the task waits fifteen seconds after an error the port is closed; if the SAM session cannot be made once at the start, no client tunnel is ever served (`C138_no_session_refuted`).

Router infos (C139–C140): with configured port 0 the socket gets some free port, but once the external address is known `add_external_address` publishes the configured port, 0 (`transport/mod.rs:654-708`, `C139_any_port_refuted`).  `floodfill` only matters for the published capabilities if none are configured, and the default configuration file has `XR`: `--floodfill` then makes a floodfill that does not say so (`C140_floodfill_refuted`).  `G` is published with the next regular router info, up to fifteen minutes after the shutdown began, but the router ends after ten at the latest (`C140_stopping_untold_refuted`).  A discovered address, too, waits for the next router info although the log says that it is published.

SSU2 sessions (C141–C143): `socket.rs:422-433` does not report the end of a session to the transport manager (the lines are commented out), so `routers` keeps the router and every later SSU2 handshake with it is rejected, for as long as the process lives (`C141_another_session_refuted`).  If SSU2 is the transport that dials, the id reported for a dialed session is the own one: the session is rejected, and since the dialed router stays in `pending_connections`, its own connections are rejected, too, and it is never dialed again (`C141_dialed_session_refuted`, `C141_dialing_shuts_out_refuted`).  `sessions` has no `remove` at all, and finished tasks of `terminating_session` are never collected (`C143_kept_for_ever_refuted`, `C143_unbounded_refuted`).

NTCP2 transport (C144–C145): `poll_next` (`ntcp2/mod.rs:291-303`) takes one connection from the listening socket and goes to sleep without polling it again, so nothing wakes the task for the next connection (`C144_not_woken_refuted`); so with the set of handshakes after an inbound handshake failed (`C144_session_untold_refuted`).  It goes on when something else of the router wakes the task.  `TokioTcpListener::poll_accept` turns any error of `accept`, such as a reached limit of open files or an aborted connection, into the end of the stream, and `TokioJoinSet::poll_next` does so with a panic of any task: both end the transport, the transport manager and the router (`C145_accept_error_refuted`, `C145_panic_refuted`).

## Testing the theorems

`seeded/LOG.jsonl` has one line per wrong program tried: the model edited in a scratch copy, the
edit, the claim it breaks, the theorems that failed, and any theorem that was tightened.

Besides edits written by hand, comparisons, constants, conditions and list operations of the older
models were changed one at a time by a script.  Edits that left every theorem standing led to
theorems that compare constants and key derivations with what is published rather than one side of
the model with the other: `C18_published_masks`, `C31_header_line_partial`, `C60_published_keys`,
`C60_rest_of_header`, `C49_keys`, `C40_counters`, `C40_failing_iff`, `C05_waiting_answers`,
`C08_usable_at_once`, `C36_nothing_for_a_dead_manager`, `C51_published_blocks`, `C60_published_options`, `C65_host_and_port`.  Edits that cannot be
observed, such as more fuel than needed, still pass.
