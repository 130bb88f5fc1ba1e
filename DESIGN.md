# Formal model of rsomeip in Rocq (Coq 8.16.1)

## 1. What is modelled and how

The three crates in /repo are modelled function by function as total, computable Gallina.
Model files hold definitions only; every definition cites the file and lines it models and says
where it simplifies. The rows follow the build order.

| layer | code | model | specification | properties |
|---|---|---|---|---|
| byte codec | rsomeip-bytes/src/{ser,de,lib}.rs | `BytesModel` | `WireSpec` | `PropertiesBytes` C01-C14 |
| every serializable type | all impls of `Serialize` / `Deserialize` | `UniverseModel` | `WireSpec` | `PropertiesBytes` |
| strings | ser.rs 257-448, de.rs 177-229 | `StringModel` | `StringSpec` | `PropertiesString` C15-C17 |
| ids, versions, types, codes | rsomeip-proto/src/primitives.rs | `PrimitivesModel`, `OrderModel` | `PrimitivesSpec` | `PropertiesPrimitives` C18-C22 |
| messages | rsomeip-proto/src/message.rs | `MessageModel` | `MessageSpec` | `PropertiesMessage` C23-C28 |
| segmentation | rsomeip-proto/src/tp.rs | `TpModel` | `TpSpec` | `PropertiesTp` C29-C33 |
| interface, endpoint | rsomeip-proto/src/{interface,endpoint}.rs | `EndpointModel`, `MapModel` | `EndpointSpec` | `PropertiesEndpoint` C34-C39, C51, C52 |
| example programs | rsomeip-proto/examples | `SampleModel` | `SampleSpec` | `PropertiesSample` C81 |
| runtime messages | rsomeip/src/someip.rs | `SomeipModel` | `SomeipSpec` | `PropertiesSomeip` C40, C53 |
| UDP | rsomeip/src/socket/udp.rs | `UdpModel` | `UdpSpec` | `PropertiesUdp` C41-C44, C54, C55 |
| TCP | rsomeip/src/socket/tcp.rs | `TcpModel` | `TcpSpec` | `PropertiesTcp` C45, C56 |
| endpoint v1 | rsomeip/src/endpoint/v1.rs and v1/{connection,listener,interface}.rs | `RuntimeModel` | `RuntimeSpec` | `PropertiesRuntime` C46-C50, C57-C62, C71-C74, C79 |
| printed forms | `Display` impls of both crates | `DisplayModel` | `DisplaySpec` | `PropertiesDisplay` C63 |
| texts of errors | `#[error]` attributes of rsomeip-bytes and rsomeip-proto | `ErrorDisplayModel` | `ErrorDisplaySpec` | `PropertiesErrorDisplay` C83 |
| support | rsomeip/src/support/{collections,sync}.rs, rsomeip-bytes/src/macros.rs | `SupportModel` | `SupportSpec` | `PropertiesSupport` C64-C66 |
| endpoint v1 over UDP | v1.rs with udp.rs, and a network between endpoints | `NodeModel` | `NodeSpec`, `NodeCutSpec` | `PropertiesNode` C67 - C70 |
| two endpoints over UDP at rest | the same | `NodeModel` | `ExchangeSpec` | `PropertiesExchange` C80, C82 |
| endpoint v1 over TCP | v1.rs with tcp.rs as connector | `TcpNodeModel` | `TcpNodeSpec` | `PropertiesTcpNode` C75-C78 |
| endpoints over TCP at rest | the same | `TcpNodeModel` | `TcpRestSpec` | `PropertiesTcpRest` C84 |
| any number of endpoints over TCP and the streams between them | the same, tcp.rs 99-119, 202-209 | `TcpNetModel` | `TcpNetSpec` | `PropertiesTcpNet` C85, C86 |
| any number of endpoints over UDP and the datagrams between them | v1.rs with udp.rs; the network is not code | `UdpNetModel` | `UdpNetSpec` | `PropertiesUdpNet` C89 |
| handles of a v1 endpoint | v1.rs 143-150, 200-204 | `RuntimeModel` (`EUpgrade`) | `HandleSpec` | `PropertiesHandle` C88 |
| the channel of commands of a v1 endpoint | v1.rs 111-141, 158-180, 233-246, 367-382, 531-559 | `QueueModel` on `RuntimeModel` | `QueueSpec`, `QueueFairSpec` | `PropertiesQueue` C90, C91 |
| the calls of a v1 endpoint over UDP | the same with udp.rs | `QueueUdpModel` on `QueueModel` and `NodeModel` | `QueueUdpSpec` | `PropertiesQueueUdp` C92 |
| the calls of a v1 endpoint over TCP | the same with tcp.rs | `QueueTcpModel` on `QueueModel` and `TcpNodeModel` | `QueueTcpSpec` | `PropertiesQueueTcp` C93 |
| any number of v1 endpoints over UDP with their calls | the same with udp.rs, for each address; the datagrams between them | `QueueNetModel` on `QueueUdpModel` and `UdpNetModel` | `QueueNetSpec` | `PropertiesQueueNet` C95 |
| any number of v1 endpoints over TCP with their calls | the same with tcp.rs, for each address; the streams between them | `QueueTcpNetModel` on `QueueModel` and `TcpNetModel` | `QueueTcpNetSpec` | `PropertiesQueueTcpNet` C96 |
| endpoints under load that does not end | as `QueueModel`; infinite runs | `QueueModel` | `LoadSpec` | `PropertiesLoad` C97 |
| endpoints over TCP under load that does not end | as `QueueTcpModel`; infinite runs | `QueueTcpModel` | `LoadTcpSpec` | `PropertiesLoadTcp` C98 |
| many endpoints over TCP under load that does not end | as `QueueTcpNetModel`; infinite runs | `QueueTcpNetModel` | `LoadNetSpec` | `PropertiesLoadNet` C99 |
| endpoints over UDP under load that does not end | as `QueueUdpModel`; infinite runs | `QueueUdpModel` | `LoadUdpSpec` | `PropertiesLoadUdp` C100 |
| listeners of a UDP socket | udp.rs 153-161, 283-304, 312-322 | `UdpModel` | `UdpListenSpec` | `PropertiesUdpListen` C94 |
| runs without end of all of these | the same | the four models | `FairSpec` | `PropertiesFair` C87 |

`*Proofs.v`, `*Inv.v` and `*Theorems.v` hold lemmas. `Properties*.v` holds one theorem per claim,
each closed by `exact` of a lemma, followed by `Print Assumptions` and by examples that run the
model on a concrete case meeting the theorem's hypotheses.

Representation.

* A byte is an `N` below 256; an integer is an `N` below 2^w; signed values are their two's
  complement; floats are their bit patterns (the code only ever moves `to_be_bytes`).
* A `Buf` is the list of its unread bytes. A `BufMut` is the list of bytes written and, if it is
  bounded, the room left. `Buf::take(n)` runs the inner decoder on the first `n` bytes and puts what
  it leaves in front of the bytes behind.
* Ok, Err and panic are distinct outcomes. A loop that may not end runs on fuel and running out is a
  distinct outcome; theorems show that the amount does not matter, or that no amount is enough.
* Everything serializable is a closed universe `ty` of type codes (basic types, strings in each
  encoding, tuples, arrays, vectors, length-prefixed fields); codec functions recurse on the code, so a theorem `forall t : ty`
  covers every type the trait impls can build.
* A Rust `str` is a list of Unicode scalar values; the conversions of std are modelled after their
  sources.
* `usize` width and host byte order are parameters where the code depends on them.
* Sockets and the endpoint are labelled transition systems. One step is what a task does between two
  awaits that can suspend it, one critical section, one channel operation or one API call. Any step
  may follow any other: a theorem over all event lists is a theorem over all schedules. The operating
  system is input: datagrams, readiness, short writes, errors and connections are events.
* Hash functions of `scc::HashMap` are parameters (`bk`, `cbk`: which bucket a key is in), because
  an entry guard locks the whole bucket; theorems hold for every choice.

Properties that a user would expect but that are false of the code are stated as what is true
instead: an exact condition, or a theorem that the expectation fails (names ending `_refuted`, or
stating what happens).

## 2. Each property

| id | modelled by | proved by |
|---|---|---|
| C01 C02 C04 | `encode`, `size_hint` over the universe against an independent function `wire` | induction on the type code |
| C03 | `serialize_len` over any inner codec | case analysis |
| C05 C06 | decoder after encoder, any bytes behind, self-delimiting and greedy types | induction on the type code |
| C07 C11 | the basic decoders on any buffer | arithmetic |
| C08 C09 C10 C12 C13 | decoder on any buffer | induction on the type code, on the array length and on fuel; witnesses for the excluded types |
| C14 | `deserialize_len` over any inner decoder | case analysis; witnesses |
| C15 C16 C17 | UTF-8 and UTF-16 codecs | induction on the string and on the buffer; `Admissible` written independently of the decoder |
| C18 - C22 | accessors as arithmetic on the value | bit lemmas; finite sweeps over all byte values lifted by range lemmas |
| C23 - C28 | header and message codecs against a byte layout | records over the codec |
| C29 - C33 | segmentation and reassembly | induction on the body, on segment lists and on delivery histories |
| C34 - C39 | `check`, `poll`, `process`, the tables | decision tables; histories of table operations |
| C51 C52 | answers through `process` | from C36, for every interface table |
| C40 C53 | the two message codecs | equality with the first |
| C41 - C44 C54 C55 | UDP transition system | invariants over all schedules; concrete schedules for the races |
| C45 C56 | TCP loops over a script of what the operating system does | induction on the script |
| C46 C47 C49 | v1 transition system: ghost log per interface | invariants over all schedules |
| C48 | interface map and owners | invariants over all schedules |
| C50 C57 C58 | command queues, sockets' answers | ghost history of accepted and sent messages |
| C59 C60 | tasks that hold a bucket while they wait | invariant that the wait goes on until a reader reads; a schedule that deadlocks, for every bucket function |
| C61 C62 | all tasks | a measure decreasing with every step nobody outside asked for; search for an enabled step |
| C63 | digits produced as in core::fmt, against what a numeral denotes | induction on the number of digits |
| C64 | the mutex, its poisoning and the map | invariant over all histories of calls |
| C65 | a oneshot channel | invariant over all orders of actions |
| C66 | the macros' expansions over the universe | from C02, C05, C06 |
| C67 | the product of the v1 and the UDP transition systems | projections to both, an invariant linking connections and channels |
| C68 | one such product per address, datagrams lost, delayed, reordered, duplicated | induction over network histories, C67 and the codec |
| C69 | the same product and network | the losslessness of the runtime (C49) and of the socket (C41, C42) joined; `unread` says observably what is left |
| C70 | the same product | C43 carried over to the endpoint; connections of proxies strictly increase in an endpoint that does not serve; a receiver nobody sends to any more reads at most its capacity and one report of a lag, then Closed; two schedules |
| C71 | who holds which handle | invariant: what owns a handle was given it when the connection was opened, and keeps it; a task ends unowned only when no owner is left |
| C72 | all tasks, nothing else | the measure of C61; as long as something runs, a task can end it |
| C73 | the endpoint task's five stages | what is being done is the last call; a dead owner was ended by its socket; symbolic execution of the calls from any state at rest |
| C74 | the six stages of `send_to` | the map of connections holds every shared address, unless a failed `send_to` removed a connection that had ended or lost its owners; symbolic execution |
| C75 | the runtime with a stream for each connection: what arrived and was not read, and how much of the buffer being sent was written; one event is one round of a loop of tcp.rs | invariants: arrived = read + available; written = what was sent + the written part; with C49 and C57 |
| C76 | the same, and two of them, joined by what one wrote and the other got | induction over the reads; computation on the header; a run of two endpoints for the refuted claim |
| C77 C78 | the same | induction over histories |
| C79 | the runtime model, with events that drop calls | induction over histories; the measure of C61 for the way out of the deadlock; a schedule over UDP |
| C80 | the UDP node and network models | composition of C47, C59, C67 and C68 with an invariant of the UDP socket: what came from a peer before its connection was accepted is in that connection |
| C81 | both example programs as transition systems over the endpoint model, the network as a condition on histories | decoding lemmas of C26, C36; induction over histories |
| C82 | the UDP node model; what happens by itself is a predicate on events | a lexicographic measure in five places (receiver task, connections not accepted, unread datagrams, work of the runtime, ends of queues nobody needs any more) that every step lowers; C62's progress lemma lifted to the node |
| C83 | the text of each error, over the printed numbers of C63 | a number ends where a character is no digit; induction over types for the range of the errors |
| C84 | the TCP node model; what happens by itself is a predicate on states and events | a measure in three places (unread bytes, work of the runtime, unwritten bytes) that every step which changes anything lowers; C62's progress lemma lifted to the node; C75 and C76 for two endpoints |
| C85 | the TCP node model for every address, and a list of streams between them: made, accepted, bytes under way in both directions | one invariant: the ends of the streams are all connections of all endpoints, each once; per stream, written = arrived + under way, who made and who accepted it, and that its end has arrived only if nothing is under way and the other end has stopped. Then C75 and C76 per endpoint |
| C86 | the same; what happens by itself is a predicate on states and events | a lexicographic measure in seven places (messages still to be handed to a stream, connections not accepted, unwritten bytes, bytes under way, streams not ended, unread bytes, work of the runtime), summed over the addresses the history names; C84's progress lemma per endpoint. That closing spreads is refuted by a history |
| C87 | infinite sequences of states of the runtime, node and network models, in which no work that stays possible is left undone for ever | one generic lemma: a well-founded measure that no step raises and every step of work lowers, and that where no work is possible there is rest or deadlock; instantiated with the measures of C61, C82, C84, C86. That rest lasts: every step at rest changes nothing (case analysis). That such runs exist: a finite run to rest, continued by standing still |
| C88 | `WeakEndpoint::upgrade` as an event of the runtime model | invariant: the model's flag for a held endpoint is what the history of drops and upgrades says; that the failure is final by induction over what follows; the naive claim is refuted by a run |
| C89 | the UDP node model for every address and the list of datagrams under way; equivalent to the network of C68, as proved | conservation of datagrams by induction; a lexicographic measure in seven places (messages still to be sent, datagrams under way, and the five of C82), summed over the places where something happened, which may grow when a datagram arrives; the generic lemma of C87; C80 at rest |
| C90 | calls, channel, taken command and answers as objects on top of the runtime model; a step is at most two events of the runtime | refinement by case analysis; FIFO by induction; one invariant: where the command of each call is and what has happened to it, that the runtime's abandoned commands are those in the channel whose callers are gone, that an unanswered `send_to` has at most one command, and that the endpoint task has returned only when nobody can call; ownership by induction |
| C91 | the same; runs without end as in C87 | C61's progress lemma below, and that the endpoint task can take or go on with a command whenever the runtime's is free; a measure with weights for calls, places, the taken command and the measure of C61, which no step but a call or a packet raises; the fair-run lemmas of C87 |
| C92 | every step is a step of the model of C90 and a step of the model of an endpoint over UDP, on the same runtime | refinement of both by induction; the measures of C91 and C82 together, in lexicographic order; the progress lemmas of C91 and C82; that the socket outlives the endpoint task by induction |
| C93 | the same over TCP | the same with the measure and the progress lemma of C84 |
| C94 | the listeners, the listener slot and the channels of `UdpModel` | an invariant ties listeners to the trace; per listener the list accepted ++ waiting changes by one step only at its end; each entry keeps the datagram that made it, older than everything sent to its channel |
| C95 | one endpoint of C92 for each address and the datagrams under way as in C89 | refinement of both by induction; a lexicographic measure summed over the places where something happened: what may still be sent, calls that wait included, the datagrams under way, then the measure of C92; the progress lemma of C92; C89 for what was delivered |
| C96 | the calls of each address on top of the network of C86, one step for both | refinement of C93 at each address and of C86 by induction; the lexicographic measure of C86 with, instead of what may still be sent and what is left to do, those of the calls; the progress lemmas of C93 and C86; C86 for what was delivered |
| C97 | infinite runs of the model of C90 in which anything may happen for ever; who goes on by itself is an actor, and each actor that can go on again and again does (said without classical logic) | if the endpoint task never can go on again, each reason leads to a lock held for ever, by the same holder, which leads to a full channel that its reader empties (a descent, contradiction) or to a full queue nobody reads; so commands finish for ever, and C90_bypass bounds how many finish before a given one; for sends, the place in `send_to` goes down by the same lemmas, and while it waits for the endpoint task the number of commands ahead of it goes down; for what arrived, a receiver that never can go on again waits for a lock or a queue, as above |
| C98 | infinite runs of the model of the endpoint over TCP with the calls and the endpoint task (C93), in which anything may happen for ever; the sender of a connection also goes on when its stream takes a byte, and `recv` is one more actor | what the calls and tasks do in such a run is a run of C97: a sender that never can go on again has nothing left to write, as the bytes left go down each time it goes on; for bytes that arrived, either the packets before them are read or the receiver never again comes to `recv`, and then it waits as in C97_routed |
| C99 | infinite runs of the model of C96 in which anything may happen for ever at every endpoint; the actors are those of C98 at each address, and bytes under way that can arrive again and again do | each endpoint of such a run is one of C98; ends that are joined stay joined, and by the invariant of C85 the bytes under way can arrive, so the bytes missing at the other end go down; then C98_written, the arrival and C98_read follow one another, and at a later time at which the receiver waits with nothing left to route the account of C75 says what the stub or proxy was given; by the account of C47 nothing of that is lost later, so the number of messages not yet received goes down as long as the program receives |
| C100 | infinite runs of the model of the endpoint over UDP with the calls and the endpoint task (C92), in which anything may happen for ever; the actors are those of C97 | seen without the socket it is a run of C97, whose theorems say that calls return, sends end and accepted messages are sent; by the invariant of the endpoint over UDP what was sent on a connection is what the system took for its peer; the position of a connection in its channel never goes back, a connection that waits can take what is there, and by C97 it waits again and again |

No property was left out as inexpressible.

## 3. Trusted base

* Coq 8.16.1's kernel, including `vm_compute`. No axioms: `Print Assumptions` of every theorem named
  in MANIFEST.json prints "Closed under the global context" (it stands below each theorem in
  `Properties*.v`). Loading `Lia` loads ssreflect's `Under_rel` module, whose fields `coqchk` lists
  as library assumptions (`Coq.ssr.ssrunder.Under_rel.*`); no theorem here uses them.
* No functors, module types, axioms, plugins or disabled checks.
* The reading of the Rust source into the model. It was read as text: nothing was built or run.
* The assumed behaviour of what the code calls:
  * `bytes`: `Buf`/`BufMut` methods, panics of `put_*` on a full buffer, `Take`.
  * std: UTF-8/UTF-16 conversion, `HashMap`, checked and wrapping arithmetic, zero-init defaults.
  * tokio: `mpsc` (FIFO, bounded, closed when the other side is gone, weak senders), `broadcast`
    (lossy ring, `Lagged`), `oneshot`, `select!` that drops the other branch, `LocalSet` interleaving
    only at awaits, `try_read`/`try_write`/`ready`.
  * `scc::HashMap`: an entry guard excludes others from its bucket until dropped.

### Not modelled

* The standard library's text about a malformed string (any text, in C83); `{:#}` forms of `Display`; `Debug`, `Clone`, `PartialEq` derives.
* rsomeip: `testing.rs`; `UdpSocket::bind`; the calls of the operating system that make TCP
  connections (tcp.rs 99-119, 202-209): in `TcpNetModel` any address can be connected to, two streams may
  have the same two addresses, and those not yet accepted wait without bound and in no order;
  the cancellation tokens of udp.rs, which nothing ever cancels; log output.
* `RuntimeModel` does not have the channel of endpoint commands: a call reaches the endpoint task when
  its event is taken, commands whose callers have dropped their futures are executed in any order, and
  a stub or proxy created for a caller that is gone exists until a drop event. `QueueModel` has the
  channel and refines `RuntimeModel` (C90_refines), so what is proved of all histories of the
  latter holds of the former. Which of several senders that wait for a place in the channel gets it is
  left open. The models over UDP and TCP are built on `RuntimeModel`; `QueueUdpModel` and `QueueTcpModel` put
  the channel on top of them, and C92_halves and C93_halves say that they refine both. `QueueNetModel` has one
  such endpoint over UDP for each address (C95_endpoints, C95_network), and `QueueTcpNetModel` the calls of each
  address on top of `TcpNetModel` (C96_endpoints, C96_network).
* Fairness of the scheduler. C87 speaks of runs in which no work that stays possible is left undone
  for ever; that the tokio scheduler, the sockets and the users of the library make such runs is
  assumed. Which of the possible steps is taken, and when, is left open everywhere.
* Time, memory exhaustion, allocation failure (a `Vec` longer than memory).

## 4. What the proofs found

Each is a theorem or part of one; none is fixed in the model.

| finding | where |
|---|---|
| `deserialize_len` neither rejects nor skips bytes its content leaves unread | C14 |
| a vector of arrays hangs for ever on some inputs | C13 |
| serializing into a bounded buffer panics instead of failing | C04 |
| bool and short arrays: accepted input that does not re-encode to itself | C09, C12 |
| strings are cut at U+0000; UTF-16LE is read wrongly on big-endian hosts | C15, C16 |
| `ClientId::with_prefix` ORs into an earlier prefix; `with_flags` with other bits changes the type | C20, C22 |
| a message whose length field is too long for the buffer is accepted truncated | C26 |
| TP offsets saturate, or wrap on 32 bits; splitting a middle segment again loses its more flag; a start with an offset is joined as if it had none | C30, C31, C32, C33 |
| a message with the wrong type for its method is answerable even when it is a response | C38 |
| most error answers cannot be sent through `process` | C52 |
| a second UDP connect to the same peer closes the first connection, and two races lose one | C43 |
| an accepted UDP connection may not hold its first datagram yet | C42 |
| a receive error silences a UDP socket without telling anyone | C55 |
| over TCP a payload can be delivered as a message that was never sent, to another service | C76 |
| TCP does not reassemble messages, reports the end of the stream as an endless run of empty packets and spins on zero-byte writes | C45, C56, C77 |
| a malformed message drops the valid ones before it in its packet | C49 |
| a message too long to encode is sent cut off; a datagram over 1400 bytes ends the connection | C50 |
| a served id stays refused while another stub keeps the listener alive | C48 |
| `send` may return Ok for a message that is lost when the connection ends, at most two of them | C57 |
| a reader that does not read stalls its connections and every id in its bucket; an endpoint can deadlock | C59, C60 |
| a second proxy for the same peer over UDP, or a stub that sends to it, cuts off the first proxy, even if the `send_to` is dropped before it sends anything | C70, C79 |
| one datagram that is not a request stops the example service; the example client takes a repeated answer for the next one | C81 |
| after its listening socket ended, an endpoint cannot serve anything until every stub is dropped | C73 |
| after a connection has ended, `proxy` to its address fails as long as its owner remains, and the next `send_to` to it fails once | C73, C74 |

## 5. Testing the theorems

`seeded/LOG.jsonl` lists edits of the model that a realistic bug would make. For each, the proofs
were rebuilt in a scratch copy with the failing lemmas admitted one by one, to see which property
theorems fail. Survivors led to tighter theorems, as logged.
