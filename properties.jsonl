{"id": "C01", "title": "serialize appends exactly the SOME/IP wire form", "statement": "For every supported type built from integers, floats, bool, Bytes, strings in each of the three encodings, arrays, Vec, tuples and length-prefixed fields, nested to any depth, serializing a value into a buffer with enough room appends exactly the big-endian SOME/IP wire form of the value after whatever the buffer already held, and returns the number of bytes appended.", "quantifier": "every type of the universe, every in-range value, every prior buffer content and room", "why_tests_cant": "The value space is unbounded (types nest to any depth, collections have any length, any buffer may be passed); tests sample a handful of literals.", "anchors": ["rsomeip-bytes/src/ser.rs: Serialize::serialize, serialize_len, serialize_basic_type!, serialize_tuple!, impls for bool/&[T]/Vec/[T;N]/Bytes"]}
{"id": "C02", "title": "size_hint is the exact serialized size", "statement": "size_hint() of a value equals both the number returned by a successful serialize and the number of bytes that call appended.", "quantifier": "every type of the universe, every value, every buffer", "why_tests_cant": "The value space is unbounded (types nest to any depth, collections have any length, any buffer may be passed); tests sample a handful of literals.", "anchors": ["rsomeip-bytes/src/ser.rs: Serialize::size_hint"]}
{"id": "C03", "title": "serialize_len writes the true payload length or refuses", "statement": "serialize_len(field, ..) writes a big-endian length of 1, 2 or 4 bytes equal to the number of payload bytes that follow, and returns field size + payload size. It fails with InvalidLength{required = payload size, maximum = 2^(8k)-1} exactly when the payload size exceeds that maximum, and in that case it has not touched the buffer.", "quantifier": "every value of every type, each of the three length fields, every buffer", "why_tests_cant": "Boundary at 2^8, 2^16 and 2^32 for every type; payloads near 4 GiB cannot be allocated in a unit test.", "anchors": ["rsomeip-bytes/src/ser.rs: Serialize::serialize_len", "rsomeip-bytes/src/lib.rs: LengthField"]}
{"id": "C04", "title": "serializing into a full buffer panics instead of failing", "statement": "A serialize call whose wire form is larger than the room left in the buffer panics; it never returns an error and never returns Ok with a truncated encoding. (The documentation promises an error; the code does not give one.) With room for the wire form it never panics.", "quantifier": "every type, value and room", "why_tests_cant": "The value space is unbounded (types nest to any depth, collections have any length, any buffer may be passed); tests sample a handful of literals.", "anchors": ["rsomeip-bytes/src/ser.rs: serialize_basic_type!, impl Serialize for Bytes"]}
{"id": "C05", "title": "serialize then deserialize is the identity and leaves the rest", "statement": "Deserializing the wire form of a value followed by any other bytes gives back the value and leaves exactly those other bytes in the buffer, for every type whose encoding is self-delimiting and every value in which no string contains U+0000.", "quantifier": "every self-delimiting type of the universe, every in-range value, every trailing byte string", "why_tests_cant": "The value space is unbounded (types nest to any depth, collections have any length, any buffer may be passed); tests sample a handful of literals.", "anchors": ["rsomeip-bytes/src/de.rs: Deserialize::deserialize", "rsomeip-bytes/src/ser.rs: Serialize::serialize"]}
{"id": "C06", "title": "greedy types round-trip at the end of their frame", "statement": "Vec<T>, Bytes, and tuples ending in them (with no U+0000 in their strings) round-trip when nothing follows them; wrapped in a length field they round-trip with anything following.", "quantifier": "every well-formed type of the universe, every value, every trailing byte string", "why_tests_cant": "The value space is unbounded (types nest to any depth, collections have any length, any buffer may be passed); tests sample a handful of literals.", "anchors": ["rsomeip-bytes/src/de.rs: impl Deserialize for Vec<T>, impl Deserialize for Bytes, deserialize_len"]}
{"id": "C07", "title": "basic types decode exactly or report InsufficientData without consuming", "statement": "Deserializing a basic type of size n from a buffer of at least n bytes succeeds with the big-endian value of the first n bytes and consumes exactly n; from fewer bytes it returns InsufficientData{expected: n, available: length} and the buffer is unchanged.", "quantifier": "every basic type, every buffer", "why_tests_cant": "All byte strings of all lengths.", "anchors": ["rsomeip-bytes/src/de.rs: deserialize_basic_type!, impl Deserialize for bool"]}
{"id": "C08", "title": "decoding never panics and only ever consumes from the front", "statement": "No deserialize call panics on any input, and whether it succeeds or fails the bytes it leaves are a suffix of the bytes it was given. What it returns is in range, and no string in it contains U+0000.", "quantifier": "every type of the universe and String, every buffer", "why_tests_cant": "Robustness against arbitrary network input is a claim over all byte strings and all types.", "anchors": ["rsomeip-bytes/src/de.rs: all impls of Deserialize"]}
{"id": "C09", "title": "accepted input re-encodes to the same bytes", "statement": "For types built from integers, floats, Bytes, Vec and tuples, if deserialize succeeds then serializing the result reproduces exactly the bytes that were consumed, so two different byte strings never decode to the same value. For bool, strings, fixed arrays and length-prefixed fields this is false and a counterexample exists.", "quantifier": "every strict type, every buffer", "why_tests_cant": "The value space is unbounded (types nest to any depth, collections have any length, any buffer may be passed); tests sample a handful of literals.", "anchors": ["rsomeip-bytes/src/de.rs: deserialize_basic_type!, deserialize_tuple!, Vec, Bytes"]}
{"id": "C10", "title": "fixed-size types decode exactly their own bytes", "statement": "A type built from basic types, arrays and tuples has a fixed size n: it decodes successfully from any buffer of at least n bytes, consumes exactly n, and the result depends on nothing behind them. If it contains no fixed array, fewer than n bytes are always reported as InsufficientData with available < expected.", "quantifier": "every fixed-size type of the universe, every buffer, every continuation", "why_tests_cant": "The value space is unbounded (types nest to any depth, collections have any length, any buffer may be passed); tests sample a handful of literals.", "anchors": ["rsomeip-bytes/src/de.rs: Deserialize::deserialize"]}
{"id": "C11", "title": "bool uses only the least significant bit", "statement": "A bool decodes from any byte, true exactly for odd bytes, and encodes to 0x00 or 0x01.", "quantifier": "all 256 bytes, any following bytes", "why_tests_cant": "Exhaustive over bytes and independent of the rest of the buffer.", "anchors": ["rsomeip-bytes/src/de.rs: impl Deserialize for bool", "rsomeip-bytes/src/ser.rs: impl Serialize for bool"]}
{"id": "C12", "title": "fixed arrays never fail to decode", "statement": "Decoding [T; N] always succeeds with exactly N elements whenever decoding T does not hang: an element that fails to decode becomes T::default(). In particular on a short buffer of basic elements the elements that fit are decoded and all later ones are the default.", "quantifier": "every element type, every N, every buffer", "why_tests_cant": "Any N and any truncation point.", "anchors": ["rsomeip-bytes/src/de.rs: impl Deserialize for [T; N]"]}
{"id": "C13", "title": "Vec decoding terminates when each element consumes input, and hangs otherwise", "statement": "Decoding Vec<T> terminates on every input when no successful element decode is empty. When an element decode succeeds without consuming anything on a non-empty buffer, e.g. Vec<[u16;1]> or Vec<[String;1]> on a one-byte buffer or Vec<[u8;0]> on any non-empty buffer, the loop never ends.", "quantifier": "every element type, every buffer, any number of loop iterations", "why_tests_cant": "Non-termination cannot be observed by a test; termination must be shown for all inputs.", "anchors": ["rsomeip-bytes/src/de.rs: impl Deserialize for Vec<T>, impl Deserialize for [T; N]"]}
{"id": "C14", "title": "deserialize_len is confined to its frame but does not enforce it", "statement": "deserialize_len never looks past the number of payload bytes given by the length field: changing later bytes changes nothing but what is left over. It does not reject a length larger than the available data (the payload is silently truncated) and it does not skip payload bytes the inner type left unread (they stay at the front of the buffer).", "quantifier": "every type, each length field, every buffer", "why_tests_cant": "The value space is unbounded (types nest to any depth, collections have any length, any buffer may be passed); tests sample a handful of literals.", "anchors": ["rsomeip-bytes/src/de.rs: Deserialize::deserialize_len"]}
{"id": "C15", "title": "UTF-8 strings round-trip up to the first NUL", "statement": "serialize_utf8 writes EF BB BF, the UTF-8 bytes, 00 (preceded by an exact length if requested); decoding gives back the same string and leaves the rest, for every string without U+0000. A string containing U+0000 decodes to its part before the first U+0000 and leaves the remainder in the buffer.", "quantifier": "every sequence of Unicode scalar values, each length option, every trailing bytes", "why_tests_cant": "All strings over 1.1 million code points and all lengths.", "anchors": ["rsomeip-bytes/src/ser.rs: SerializeString::serialize_utf8", "rsomeip-bytes/src/de.rs: impl Deserialize for String"]}
{"id": "C16", "title": "UTF-16 strings round-trip in both byte orders", "statement": "serialize_utf16_be/le write the byte order mark, the UTF-16 code units including surrogate pairs, and a 16-bit terminator; decoding gives back the same string for every string without U+0000. The little-endian decoding relies on the host being little-endian; on a big-endian host it does not recover the string.", "quantifier": "every sequence of Unicode scalar values, both byte orders, both host endiannesses, every trailing bytes", "why_tests_cant": "All strings; big-endian hosts are not available to the test-suite.", "anchors": ["rsomeip-bytes/src/ser.rs: SerializeString::serialize_utf16_be, serialize_utf16_le, Utf16String", "rsomeip-bytes/src/de.rs: impl Deserialize for String"]}
{"id": "C17", "title": "String decoding accepts exactly well-formed terminated strings", "statement": "String decoding succeeds exactly when the buffer starts with one of the three byte order marks, followed by well-formed UTF-8 (or UTF-16) without a NUL, followed by the terminator; the result is the decoded text. In particular overlong forms, surrogate code points in UTF-8, unpaired surrogates in UTF-16 and missing terminators are rejected. The error says why: InsufficientData for a buffer that ends before the mark or the terminator, the mark that was read, or that the text is not well-formed.", "quantifier": "every byte string", "why_tests_cant": "All byte strings of all lengths.", "anchors": ["rsomeip-bytes/src/de.rs: impl Deserialize for String"]}
{"id": "C18", "title": "MessageId and RequestId are the 32-bit concatenation of their halves", "statement": "MessageId::from_u32/as_u32 (and RequestId) are mutually inverse on all 2^32 values, id = service*2^16 + method, its wire form equals the wire form of the two halves in order, and ids are ordered as their 32-bit values.", "quantifier": "all service/method (client/session) pairs and all u32 values", "why_tests_cant": "2^32 values.", "anchors": ["rsomeip-proto/src/primitives.rs: MessageId, RequestId"]}
{"id": "C19", "title": "session ids count 1..0xffff and wrap past zero", "statement": "increment returns the old id and advances to the next; from any id the new id is never 0; the k-th id after ENABLED is 1 + (k mod 65535), so within any 65535 consecutive requests no id repeats.", "quantifier": "every start id and any number of increments", "why_tests_cant": "The period is 65535 and the claim ranges over every history length.", "anchors": ["rsomeip-proto/src/primitives.rs: SessionId::increment, is_enabled, ENABLED, DISABLED"]}
{"id": "C20", "title": "ClientId prefixes", "statement": "with_prefix keeps the low byte; the resulting prefix is the bitwise OR of the old and the new prefix, so prefix() returns the given prefix for every p exactly when the old prefix was 0 (or a subset of p).", "quantifier": "all 2^16 client ids and 2^8 prefixes", "why_tests_cant": "2^24 combinations.", "anchors": ["rsomeip-proto/src/primitives.rs: ClientId::prefix, with_prefix"]}
{"id": "C21", "title": "message types and return codes map to bytes without loss", "statement": "For every byte b, converting to MessageType/ReturnCode and back gives b; distinct bytes give distinct enum values; a non-canonical enum value (e.g. Unknown(0x00), Other(0x00), Reserved(0xff)) is the only way the reverse conversion can change the value.", "quantifier": "all 256 bytes and all enum values with any payload", "why_tests_cant": "Exhaustive over both directions, including enum values no test constructs.", "anchors": ["rsomeip-proto/src/primitives.rs: MessageType, ReturnCode", "rsomeip/src/someip.rs: MessageType, ReturnCode"]}
{"id": "C22", "title": "the TP flag is orthogonal to the message type", "statement": "Setting or clearing the TP flag never changes the message type reported by as_type, and as_type ignores the flag; from_type(t).as_type() = t exactly for canonical types without bit 0x20.", "quantifier": "all 256 message type bytes and both flag states", "why_tests_cant": "All bytes and all sequences of flag updates.", "anchors": ["rsomeip-proto/src/primitives.rs: MessageTypeField"]}
{"id": "C23", "title": "SOME/IP header layout", "statement": "A message serializes to service(2) method(2) length(4) client(2) session(2) protocol(1) interface(1) type(1) return code(1) payload, big endian, with length = 8 + payload length; it needs 16 + payload length bytes and fails with InvalidLength exactly when 8 + payload length > 2^32-1. to_bytes gives the same bytes, the same error for a payload that is too long, and no bytes for a body that cannot be encoded.", "quantifier": "every header and every payload of every type", "why_tests_cant": "All field values and payload sizes up to and beyond 4 GiB.", "anchors": ["rsomeip-proto/src/message.rs: impl Serialize for GenericMessage, Header", "rsomeip/src/someip.rs: impl Serialize for Message"]}
{"id": "C24", "title": "message round trip", "statement": "Serializing any message with canonical return code and deserializing the bytes gives the same message; every header field and the payload survive. With anything following, the rest is left untouched. from_bytes of what to_bytes gave is the same message.", "quantifier": "every header value, every payload type and value, every trailing bytes", "why_tests_cant": "The value space is unbounded (types nest to any depth, collections have any length, any buffer may be passed); tests sample a handful of literals.", "anchors": ["rsomeip-proto/src/message.rs: GenericMessage::to_bytes, from_bytes, Serialize, Deserialize", "rsomeip/src/someip.rs: Message"]}
{"id": "C25", "title": "a packet of concatenated messages decodes to those messages", "statement": "Decoding Vec<Message<Bytes>> from the concatenation of any number of encoded messages gives exactly those messages in order; if the last one is followed by a malformed tail shorter than a header, decoding fails as a whole.", "quantifier": "every list of messages, every short tail", "why_tests_cant": "Any number of messages of any size in a packet.", "anchors": ["rsomeip/src/endpoint/v1/connection.rs: ReceiverTask::recv", "rsomeip-bytes/src/de.rs: Vec", "rsomeip/src/someip.rs: impl Deserialize for Message"]}
{"id": "C26", "title": "a message whose length field lies is not rejected", "statement": "For every byte string of at least 16 bytes, Message<Bytes>::deserialize succeeds if the length field is at least 8, whatever the amount of data present: a length field beyond the end of the data yields a message with the shorter payload that is present. If the length is below 8, it fails with InsufficientData.", "quantifier": "every byte string", "why_tests_cant": "All byte strings.", "anchors": ["rsomeip-proto/src/message.rs: impl Deserialize for GenericMessage", "rsomeip-bytes/src/de.rs: deserialize_len"]}
{"id": "C27", "title": "message builders and accessors change exactly one thing", "statement": "Each with_* method changes the field it names to the given value, as reported by the matching accessor, and leaves every other accessor unchanged; with_id/with_request_id set both halves. Exception: with_message_type stores the type byte, dropping a TP flag. A new message has the header and body it is given, service 0 and method 0.", "quantifier": "every message and every new value", "why_tests_cant": "All messages and all values, for every method/accessor pair.", "anchors": ["rsomeip-proto/src/message.rs: GenericMessage, Header builders", "rsomeip/src/someip.rs: Message builders"]}
{"id": "C28", "title": "responses and errors answer the request they came from", "statement": "into_response and into_error keep service, method, client, session, protocol and interface versions and the payload, set the type to Response or Error, set the given return code, and clear the TP flag.", "quantifier": "every message and return code", "why_tests_cant": "All messages.", "anchors": ["rsomeip-proto/src/message.rs: into_response, into_error"]}
{"id": "C29", "title": "TP segmentation and reassembly are inverse", "statement": "Splitting any body with any sequence of limits of at least 16 until no further segment is produced, and joining the segments in order starting from the first, gives back the original body with no more segments expected; this also holds when each segment is sent through its wire form (bodies up to the 28-bit offset range).", "quantifier": "every body, every limit sequence", "why_tests_cant": "Any body length, any segment sizes, any number of segments.", "anchors": ["rsomeip-proto/src/tp.rs: TpHeader::split, join"]}
{"id": "C30", "title": "TP segments have the promised shape", "statement": "With a limit l >= 16 every produced segment carries a non-empty multiple of 16 bytes, not above l, has the more-segments flag, and starts at the offset where the previous one ended; the bytes removed are exactly the bytes the segment carries; the final remainder is at most l rounded down to 16, unflagged. With l < 16 nothing changes.", "quantifier": "every TP header, every limit", "why_tests_cant": "Any body and limit.", "anchors": ["rsomeip-proto/src/tp.rs: TpHeader::split"]}
{"id": "C31", "title": "join refuses segments that do not fit and stays unchanged", "statement": "join fails with UnexpectedSegment when no more segments are expected, with WrongOffset when the segment's offset is not the number of 16-byte units already collected; both return the refused segment and leave the collected body unchanged.", "quantifier": "every pair of segments", "why_tests_cant": "All pairs of segments.", "anchors": ["rsomeip-proto/src/tp.rs: TpHeader::join"]}
{"id": "C32", "title": "TP reassembly is safe under loss, duplication and reordering", "statement": "However the network loses, duplicates or reorders the segments of one message, a receiver that starts from the first segment and joins whatever arrives, ignoring refused segments, always holds a prefix of the original body; whenever it expects no more segments it holds exactly the original body.", "quantifier": "every body, segmentation, and delivery history of its segments", "why_tests_cant": "All delivery schedules of any length.", "anchors": ["rsomeip-proto/src/tp.rs: TpHeader::join, split"]}
{"id": "C33", "title": "TP header wire form", "statement": "The TP header is 4 bytes, 28 bits of offset in 16-byte units, three reserved zero bits and the more flag; it round-trips for every offset below 2^28. For offsets from 2^28 to 0xfffffff0 serialization silently writes the largest offset instead of failing; above that it fails and writes nothing.", "quantifier": "every offset, flag, body; every 4-byte header on decoding", "why_tests_cant": "2^32 and more offsets.", "anchors": ["rsomeip-proto/src/tp.rs: impl Serialize for TpHeader, impl Deserialize for TpHeader"]}
{"id": "C34", "title": "interface checks follow the SOME/IP role table", "statement": "A message passes an interface check exactly when the interface version matches, the method is registered and the pair (direction, role, method kind, message type) is one of the allowed combinations: requests and fire-and-forget go proxy to stub, responses and errors stub to proxy for methods, notifications stub to proxy for events. A new interface is a stub of version 0 without methods, a new endpoint has no interfaces, and with_interface adds the one it is given and leaves the others.", "quantifier": "every interface, direction and message", "why_tests_cant": "Product of all versions, method tables, kinds, directions and all 256 message types.", "anchors": ["rsomeip-proto/src/interface.rs: Interface::check"]}
{"id": "C35", "title": "poll accepts exactly valid messages", "statement": "Endpoint::poll returns a message exactly when the bytes decode to it, its protocol version is 1, its service is registered and the interface check passes for incoming; it returns the decoded message unchanged and leaves the bytes after it.", "quantifier": "every endpoint configuration, every byte string", "why_tests_cant": "All configurations and all byte strings.", "anchors": ["rsomeip-proto/src/endpoint.rs: Endpoint::poll"]}
{"id": "C36", "title": "process writes exactly valid messages and nothing otherwise", "statement": "Endpoint::process succeeds exactly when protocol version is 1, the service is registered, the outgoing check passes and the message fits the length field; it then appends the wire form. When a check fails the buffer is untouched and the message is handed back. The error is MessageDropped if the interface version is wrong or the method unknown and the message is not a request, and InvalidMessage otherwise.", "quantifier": "every endpoint configuration, message and buffer", "why_tests_cant": "All configurations and messages.", "anchors": ["rsomeip-proto/src/endpoint.rs: Endpoint::process"]}
{"id": "C37", "title": "what one side may send the other side accepts", "statement": "For a proxy and a stub with the same version and method table, a message that process accepts on one side is accepted by poll on the other side and arrives unchanged, and nothing else is.", "quantifier": "every pair of complementary interfaces and every message", "why_tests_cant": "All interfaces and messages.", "anchors": ["rsomeip-proto/src/endpoint.rs: Endpoint::poll, process", "rsomeip-proto/src/interface.rs: Interface::check, into_stub, into_proxy"]}
{"id": "C38", "title": "rejections are answerable only for requests", "statement": "Rejections of incoming messages for wrong protocol version, unknown service, wrong interface version or unknown method are answerable (InvalidMessage) exactly for messages of type Request and silent (MessageDropped) otherwise. For a wrong message type to a stub method the rejection is answerable whatever the type, including Error and Response messages.", "quantifier": "every endpoint and every decodable message", "why_tests_cant": "All configurations and messages.", "anchors": ["rsomeip-proto/src/endpoint.rs: Endpoint::poll, MessageError::invalid_or_dropped", "rsomeip-proto/src/interface.rs: Interface::check"]}
{"id": "C39", "title": "endpoint and interface tables behave as maps over any history", "statement": "After any sequence of inserts and removes, looking up an id gives the value of the latest insert of that id not followed by its removal, insert and remove return the previous value, and other ids are unaffected.", "quantifier": "every history of operations", "why_tests_cant": "Histories of any length.", "anchors": ["rsomeip-proto/src/endpoint.rs: Endpoint::insert, remove, get, with_interface", "rsomeip-proto/src/interface.rs: Interface::insert, remove, get, with_method, with_procedure, with_event"]}
{"id": "C40", "title": "both crates speak the same wire format", "statement": "For every message that exists in both APIs, rsomeip::someip::Message and rsomeip_proto::Message serialize to identical bytes, and each decodes what the other encodes to the corresponding fields.", "quantifier": "every header and payload", "why_tests_cant": "All field values, all message type and return code bytes.", "anchors": ["rsomeip/src/someip.rs: Message", "rsomeip-proto/src/message.rs: GenericMessage, Header"]}
{"id": "C41", "title": "UDP packets reach only the receiver connected to their source, in order", "statement": "Over any interleaving of incoming packets, connects, listens and receives, a receiver connected to an address is only ever handed packets that came from that address, in arrival order, each at most once over all receivers. A receiver connected while no packet of its peer was being handled is owed exactly the packets that arrived from the peer since then (less at most the one being handled), until somebody connects to the same peer again; so is a receiver a listener accepted, from the datagram that made the connection on.", "quantifier": "every history of socket operations and packets", "why_tests_cant": "All interleavings of any length.", "anchors": ["rsomeip/src/socket/udp.rs: ReceiverTask::process_packet, process_new_connection, UdpSocket::connect, UdpReceiver"]}
{"id": "C42", "title": "a UDP listener reports each new peer once with its first packet", "statement": "When a packet arrives from an unknown address and a listener has room, exactly one new connection is queued for that address, holding that packet, and other peers are unaffected; when the backlog is full or nobody listens the packet is dropped, and only dead registrations are cleared. A packet from a known address goes to its receiver only. Under every schedule the first packet owed to an accepted connection is the one that made it; but, against the documentation of the trait, it need not be there yet when accept returns.", "quantifier": "every socket state and packet", "why_tests_cant": "All states.", "anchors": ["rsomeip/src/socket/udp.rs: ReceiverTask::process_new_connection, UdpListener"]}
{"id": "C43", "title": "connecting twice to the same UDP peer closes the first connection", "statement": "After connect(a) is called again, the receiver returned by the first call gets no packet that arrives later and reports Closed once drained; an interleaving exists in which a freshly created connection loses its registration to a concurrent packet.", "quantifier": "every history; every interleaving of connect with packet processing", "why_tests_cant": "Race conditions depend on the schedule.", "anchors": ["rsomeip/src/socket/udp.rs: UdpSocket::connect, ReceiverTask::process_packet"]}
{"id": "C44", "title": "slow UDP receivers lose the oldest packets only, and are told how many", "statement": "A receiver buffers at most its capacity; when it lags, the packets lost are the oldest undelivered ones, the reported count is exact, and what is delivered is in order.", "quantifier": "every sequence of sends and receives", "why_tests_cant": "Any history.", "anchors": ["rsomeip/src/socket/udp.rs: UdpReceiver::recv", "rsomeip/src/socket.rs: RecvError"]}
{"id": "C45", "title": "TCP send writes everything in order or reports failure", "statement": "TcpSender::send returns Ok only if the whole buffer has been written in order exactly once; on error a strict prefix may have been written. As long as the operating system takes at least a byte per attempt it succeeds within as many attempts as there are bytes; a spurious wake-up makes it fail with part of the buffer sent, and writes of zero bytes keep it spinning. recv returns the bytes of the stream in order without loss, at most 1400 at a time; at end of stream it returns empty data forever and never reports Closed; after a spurious wake-up it reports Closed although data still comes.", "quantifier": "every buffer and every sequence of OS results", "why_tests_cant": "All partial-write patterns.", "anchors": ["rsomeip/src/socket/tcp.rs: TcpSender::send, TcpReceiver::recv"]}
{"id": "C46", "title": "messages are routed only to the interface they name", "statement": "A stub or proxy only ever receives messages whose service id and interface version are those it was created with, exactly as contained in a received packet, with the address of the connection they arrived on; a proxy only returns messages from its remote address.", "quantifier": "every history of endpoint operations, packets and task schedules", "why_tests_cant": "All interleavings.", "anchors": ["rsomeip/src/endpoint/v1.rs: Stub, Proxy, EndpointTask", "rsomeip/src/endpoint/v1/interface.rs: Interfaces::send", "rsomeip/src/endpoint/v1/connection.rs: ReceiverTask::recv"]}
{"id": "C47", "title": "per-connection order is preserved and nothing is duplicated", "statement": "Messages for an interface arriving on one connection are handed to its owner in arrival order, each at most once, and at most 16 are queued. While the owner, its listener (its connection, for a proxy) and the connection they arrive on last, none is lost: what was decoded for the interface is what was handed over, plus what still waits in the connection.", "quantifier": "every history and schedule", "why_tests_cant": "All interleavings.", "anchors": ["rsomeip/src/endpoint/v1/interface.rs: Interface, Interfaces::send", "rsomeip/src/endpoint/v1/connection.rs: ReceiverTask::recv"]}
{"id": "C48", "title": "interface ids are unique while in use", "statement": "While a stub or proxy created for an interface id is in use, serve and proxy with the same id fail with \"already exists\" and change nothing. After a stub (proxy) is dropped its id stays unusable as long as its listener (connection) runs and no message for it was dropped; a dropped message frees the id. An id never has two users.", "quantifier": "every history of operations", "why_tests_cant": "All histories.", "anchors": ["rsomeip/src/endpoint/v1.rs: EndpointTask::stub, proxy", "rsomeip/src/endpoint/v1/interface.rs: Interfaces::check", "rsomeip/src/endpoint/v1/listener.rs: CommandTask"]}
{"id": "C49", "title": "a malformed packet drops every message in it", "statement": "A received packet decodes exactly if it consists of whole messages, of which the last may have been cut after its header (it is then delivered with what is there). Otherwise none of its messages is delivered, including well-formed ones before the defect, and the connection is left exactly as it was.", "quantifier": "every packet", "why_tests_cant": "All byte strings.", "anchors": ["rsomeip/src/endpoint/v1/connection.rs: ReceiverTask::recv"]}
{"id": "C50", "title": "a failed send closes the connection", "statement": "If the socket refuses a message (for UDP: more than 1400 encoded bytes), the connection ends: it accepts, sends and receives nothing any more, every later send through its proxies fails with \"not connected\", and once drained their receivers are closed (unless another connection is handing them a message). A message that cannot be serialized is not dropped as documented: the first four bytes of its encoding are sent.", "quantifier": "every history of sends", "why_tests_cant": "All histories; the serialization failure needs a 4 GiB payload.", "anchors": ["rsomeip/src/endpoint/v1/connection.rs: SenderTask, ConnectionTask", "rsomeip/src/socket/udp.rs: UdpSender::send"]}
{"id": "C51", "title": "answers to accepted requests go through", "statement": "If a stub's endpoint accepts a request, then the response and the error built from it are accepted by the stub's process and by poll on every proxy endpoint with the complementary interface.", "quantifier": "every pair of complementary endpoints and every request", "why_tests_cant": "All configurations and messages.", "anchors": ["rsomeip-proto/src/endpoint.rs: Endpoint::poll, Endpoint::process", "rsomeip-proto/src/message.rs: into_response, into_error"]}
{"id": "C52", "title": "error answers to rejected messages cannot be sent through the endpoint, except for wrong message types", "statement": "If poll rejects a message for a wrong protocol version, unknown service, wrong interface version or unknown method, then process of the same endpoint rejects the error answer to it for the same reason, although poll documents that an answer should be sent. If poll rejects it for a wrong message type, process accepts the error answer exactly when the message addresses a method of a stub, which is exactly when the rejection was answerable.", "quantifier": "every endpoint and every rejected message", "why_tests_cant": "All configurations and messages.", "anchors": ["rsomeip-proto/src/endpoint.rs: Endpoint::poll, Endpoint::process", "rsomeip-proto/src/message.rs: into_error"]}
{"id": "C53", "title": "messages of the runtime crate round-trip and their combined ids are exact", "statement": "An rsomeip::someip::Message whose type and return code are the ones their byte stands for, with a byte payload and room for it, serializes to the SOME/IP layout, 16 bytes plus the payload as its size_hint says, and decoding those bytes, followed by anything, gives the same message back and leaves what follows; one with 2^32 - 8 bytes or more fails with InvalidLength and leaves its ids in the buffer. with_id and id, and with_request and request, are inverse and touch only their own two fields. After any sequence of builder calls every field has the last value given to it.", "quantifier": "every message, payload and trailing bytes; every 32-bit id", "why_tests_cant": "All field values and payloads.", "anchors": ["rsomeip/src/someip.rs: Message::with_id, id, with_request, request, impl Serialize for Message, impl Deserialize for Message"]}
{"id": "C54", "title": "the UDP receiver task never waits for anybody", "statement": "After any history, the task that receives packets for a UDP socket returns to waiting for the next packet within six of its own steps, whatever the connections and listeners of the socket do or fail to do, or it has ended because of a receive error.", "quantifier": "every history of socket operations and packets", "why_tests_cant": "Deadlock freedom over all schedules.", "anchors": ["rsomeip/src/socket/udp.rs: ReceiverTask::process, process_packet, process_new_connection"]}
{"id": "C55", "title": "a receive error silences a UDP socket for good", "statement": "Once receiving from the operating system has failed, no packet is ever handled again; a connection made after that never reports Closed: it waits as long as the socket exists and nobody connects to the same peer.", "quantifier": "every history with a receive error in it", "why_tests_cant": "All histories after the error.", "anchors": ["rsomeip/src/socket/udp.rs: ReceiverTask::process, UdpReceiver::recv"]}
{"id": "C56", "title": "TCP keeps bytes, not message boundaries", "statement": "Whatever buffers were sent over a TCP connection, every cut of their concatenation into pieces of 1 to 1400 bytes is a possible result of the receiver's recv calls; so a message may arrive in parts, and parts of two messages together.", "quantifier": "every list of pieces", "why_tests_cant": "All ways the network can cut a stream.", "anchors": ["rsomeip/src/socket/tcp.rs: TcpReceiver::recv"]}
{"id": "C57", "title": "accepted messages are sent in order and at most two are lost", "statement": "On each connection, what is handed to the socket is the encoding of the messages whose send returned Ok, in that order, each once. If the connection ends, at most two accepted messages were not handed over successfully. A connection ends only because its receiving socket closed, because its sending socket refused a message, or because nobody owns it any more; in the last case everything accepted was sent.", "quantifier": "every history and schedule", "why_tests_cant": "All schedules of senders, sockets and drops.", "anchors": ["rsomeip/src/endpoint/v1/connection.rs: Connection::send, SenderTask", "rsomeip/src/endpoint/v1.rs: Stub::send_to, Proxy::send"]}
{"id": "C58", "title": "messages are sent to the address they are meant for", "statement": "If send_to(message, address) returns Ok, the message was accepted by a connection opened to or accepted from that address; if a proxy's send returns Ok, by a connection of the proxy's remote address. Nothing else sends messages, and a connection has one address for ever.", "quantifier": "every history and schedule", "why_tests_cant": "All interleavings of connects, accepts, drops and sends that share the connection table.", "anchors": ["rsomeip/src/endpoint/v1.rs: Stub::send_to, Stub::connect, Proxy::send, EndpointTask::connect", "rsomeip/src/endpoint/v1/connection.rs: Connections"]}
{"id": "C59", "title": "one slow reader stalls its connections and every id that shares its lock", "statement": "If a connection's next message is for a stub or proxy with 16 unread messages, then until that stub or proxy reads or is dropped (or the connection ends) the connection receives and routes nothing at all, for anybody. Meanwhile other connections cannot route messages for that interface id or any id stored under the same lock, and serve and proxy for such ids do not return.", "quantifier": "every history leading there and every continuation", "why_tests_cant": "All schedules of any length.", "anchors": ["rsomeip/src/endpoint/v1/interface.rs: Interfaces::send, Interfaces::check", "rsomeip/src/endpoint/v1/connection.rs: ReceiverTask::recv", "rsomeip/src/endpoint/v1.rs: EndpointTask"]}
{"id": "C60", "title": "an endpoint can deadlock", "statement": "If a stub with 16 unread messages calls send_to for an address it is not connected to, while a connection holds another message for it and serve or proxy for the same id (or one under the same lock) is being executed, then, as long as neither the stub nor this send_to is dropped and the connection lasts, the send_to never returns, the stub never reads again, and the endpoint never answers this or any other call. Such a state can be reached whatever the layout of the locks.", "quantifier": "every such state and every continuation", "why_tests_cant": "A cycle of three parties that needs a particular schedule.", "anchors": ["rsomeip/src/endpoint/v1.rs: Stub::send_to, Stub::connect, EndpointTask", "rsomeip/src/endpoint/v1/interface.rs: Interfaces::send, Interfaces::check"]}
{"id": "C61", "title": "an endpoint does no more work than it is given, and comes to rest", "statement": "The number of steps all tasks of an endpoint take together, not counting reads from an empty queue, is at most one plus a constant for every call, message, and connection: there is no busy loop and no livelock. From every state, if readers read and sockets accept what they are given, the endpoint comes to rest after finitely many steps.", "quantifier": "every history and schedule", "why_tests_cant": "All schedules of any length.", "anchors": ["rsomeip/src/endpoint/v1.rs: EndpointTask", "rsomeip/src/endpoint/v1/connection.rs: ConnectionTask", "rsomeip/src/endpoint/v1/listener.rs: ListenerTask"]}
{"id": "C62", "title": "at rest everything has been delivered", "statement": "When no task can go on, every queue has been read and every socket has taken what it was given, then every call has returned, everything received for a stub or proxy since it was created has been handed to it (while it, its listener or connection, and the connection the messages arrived on last), and everything accepted for sending by a connection that lasts has been handed to its socket. The only exception is the deadlock of the send_to, serve and full queue property.", "quantifier": "every history that ends in a state where nothing can go on", "why_tests_cant": "All schedules.", "anchors": ["rsomeip/src/endpoint/v1.rs: Endpoint, Stub, Proxy", "rsomeip/src/endpoint/v1/interface.rs: Interfaces::send", "rsomeip/src/endpoint/v1/connection.rs: SenderTask, ReceiverTask"]}
{"id": "C63", "title": "printed forms identify what they print", "statement": "The Display form of an id is always four, of a version, message type field or return code byte always two lower-case hexadecimal digits of its value, most significant first. Message ids, request ids, headers, messages of both crates and interface ids print their fields in a fixed order with dots in between, so two messages print the same exactly when they agree on service, method, client, session, type byte and code byte, and two interface ids only when they are equal. Message types and return codes print differently whenever they differ. Both crates print the same message the same way, but for a leading 'M.' in one of them.", "quantifier": "every id, header, message, message type and return code", "why_tests_cant": "Logs are told apart by these strings; 2^80 messages, and a padding or digit error shows only for some values.", "anchors": ["rsomeip-proto/src/primitives.rs: impl Display for $name, MessageId, RequestId, MessageType, ReturnCode", "rsomeip-proto/src/message.rs: impl Display for GenericMessage, Header", "rsomeip/src/someip.rs: impl Display for Message", "rsomeip/src/endpoint.rs: impl Display for InterfaceId"]}
{"id": "C64", "title": "a shared map is one map for all its clones", "statement": "Whatever calls of insert, get and remove the clones of a SharedMap make from whatever threads, each returns what the calls that took the lock before it left under its key. A call panics exactly when some get, before it or itself, copied a value whose Clone panicked.", "quantifier": "every key and value type, every interleaving of calls of any number of clones", "why_tests_cant": "Histories and interleavings are unbounded.", "anchors": ["rsomeip/src/support/collections.rs: SharedMap::insert, get, remove"]}
{"id": "C65", "title": "a response channel delivers the one response", "statement": "ResponseReceiver::get returns exactly the result the sender sent, returns None exactly if the sender was dropped without sending, and waits exactly while neither has happened, in whatever order the two sides act. A response is kept exactly from when it is sent until it is taken or the receiver is dropped.", "quantifier": "every order of sending, dropping and polling, every result", "why_tests_cant": "All orders of actions of the two sides.", "anchors": ["rsomeip/src/support/sync.rs: response_channels, ResponseReceiver::get, ResponseSender::send, ok, err"]}
{"id": "C66", "title": "the serialization macros agree with each other", "statement": "size_hint! returns the number of bytes serialize_into! appends and returns, with and without a length field, and deserialize_from! applied to those bytes followed by anything gives the members back and leaves what followed.", "quantifier": "every list of member types and values, every buffer", "why_tests_cant": "The value space is unbounded (types nest to any depth, collections have any length, any buffer may be passed); tests sample a handful of literals.", "anchors": ["rsomeip-bytes/src/macros.rs: serialize_into!, size_hint!, deserialize_from!"]}
{"id": "C67", "title": "an endpoint over UDP hands over only what arrived and sends only what it accepted", "statement": "For an endpoint over a UDP socket: everything its stubs and proxies are given is a message contained in a datagram that arrived, together with the address it arrived from, and never more often than it arrived; what comes over one connection is in the order of arrival. Every datagram handed to the operating system is the encoding of a message whose send returned Ok, goes to the peer it was sent to, is at most 1400 bytes long, and goes out at most once for each accepted message.", "quantifier": "every history of API calls, datagrams, task schedules and answers of the operating system", "why_tests_cant": "All interleavings of the tasks of the endpoint, of its connections and of the socket, with arrivals at any time.", "anchors": ["rsomeip/src/endpoint/v1.rs::Endpoint", "rsomeip/src/endpoint/v1/connection.rs::ConnectionTask", "rsomeip/src/socket/udp.rs::UdpSocket"]}
{"id": "C68", "title": "between two endpoints, what is received is what was sent", "statement": "On a network that may lose, delay, reorder and duplicate datagrams, every message an endpoint is given as coming from another is a message that one accepted for sending to it (type and code given by number are read as their names). If the network does not duplicate, none is given more often than it was accepted; if it does not reorder either and the sender has made one connection to the receiver, each stub or proxy gets what comes over one connection in the order in which it was sent.", "quantifier": "every number of endpoints, every history of all of them, every behaviour of the network", "why_tests_cant": "All interleavings of several processes and all ways a network can treat their datagrams.", "anchors": ["rsomeip/src/endpoint/v1.rs::Stub::send_to", "rsomeip/src/endpoint/v1.rs::Proxy::send", "rsomeip/src/endpoint/v1.rs::Stub::recv_from", "rsomeip/src/endpoint/v1.rs::Proxy::recv", "rsomeip/src/socket/udp.rs::UdpSocket"]}
{"id": "C69", "title": "over UDP nothing is lost without a report", "statement": "As long as a stub or proxy, its connection to a peer and the endpoint go on, nobody connects to that peer again and no read of the connection's buffer reports an overflow, then what the stub or proxy was given over the connection, followed by what waits for it and what the connection has not read yet, is everything for its service in the datagrams that came from the peer since the connection was opened, in order. A connection that was accepted begins with the datagram that caused it. Of the messages accepted for a peer with one connection at most the last two have not been handed to the operating system, so if the network brings everything in order, everything accepted but the last two has arrived.", "quantifier": "every history of API calls, datagrams, task schedules and answers of the operating system in which the connection lasts", "why_tests_cant": "All interleavings of arrivals, reads and routing; a datagram lost between two queues is seen only in particular schedules.", "anchors": ["rsomeip/src/endpoint/v1.rs::Stub::recv_from", "rsomeip/src/endpoint/v1.rs::Proxy::recv", "rsomeip/src/endpoint/v1/connection.rs::ConnectionTask", "rsomeip/src/socket/udp.rs::ReceiverTask", "rsomeip/src/socket/udp.rs::UdpReceiver"]}
{"id": "C70", "title": "a second connection to a peer cuts off the first", "statement": "Over UDP, if an endpoint connects to a peer it already has a connection to, the first connection gets nothing that arrives after that (if it was accepted: unless the socket was just then handling a datagram of that peer), and once the receiver task has been idle no read of it waits any more: at most nine reads (33 if it was accepted) give something, and the next one ends it. Connections made for proxies are never reused: a proxy sends over one connection for ever, and in an endpoint that serves nothing different proxies use different connections; so creating a second proxy for a peer, or sending to it from a stub, cuts off the proxy that was there: it can end up reading Closed and failing to send although no call failed, nothing was dropped and the peer goes on sending.", "quantifier": "every history of an endpoint over UDP with two connects to one peer; the last clause: there is such a history, whatever the layout of the locks", "why_tests_cant": "All schedules of any length around the two connects; tests use one proxy per peer.", "anchors": ["rsomeip/src/endpoint/v1.rs::EndpointTask::connection_or_connect", "rsomeip/src/endpoint/v1.rs::EndpointTask::connect", "rsomeip/src/socket/udp.rs::UdpSocket::connect", "rsomeip/src/socket/udp.rs::UdpReceiver"]}
{"id": "C71", "title": "handles keep their listener and connections alive", "statement": "While a stub exists its listener stops only because the listening socket ended. The connection of an existing proxy, the last connection an existing stub opened to an address (unless the send_to that opened it was dropped just then), and the last connection a running listener accepted from an address, stop only because their socket ended or refused a message. Being idle never ends them.", "quantifier": "every history of API calls, packets, connections, task schedules and socket results, at every moment of it", "why_tests_cant": "A handle dropped too early is only noticed under a particular interleaving of tasks, and the claim is about every later moment.", "anchors": ["rsomeip/src/endpoint/v1.rs::Stub", "rsomeip/src/endpoint/v1.rs::Proxy", "rsomeip/src/endpoint/v1/connection.rs::Connection", "rsomeip/src/endpoint/v1/connection.rs::Connections::share_and_store", "rsomeip/src/endpoint/v1/listener.rs::Listener", "rsomeip/src/endpoint/v1/listener.rs::AcceptTask"]}
{"id": "C72", "title": "nothing is left running", "statement": "When all stubs and proxies have been dropped and no call is active, the tasks on their own, if the sockets take what is sent, bring every connection and every listener of the endpoint to its end, and each connection has then handed over everything that was accepted for it.", "quantifier": "every history of API calls, packets, task schedules and socket results that leads to such a moment", "why_tests_cant": "A leak is the absence of an event after every possible history.", "anchors": ["rsomeip/src/endpoint/v1/connection.rs::SenderTask", "rsomeip/src/endpoint/v1/listener.rs::CommandTask", "rsomeip/src/endpoint/v1.rs::Stub", "rsomeip/src/endpoint/v1.rs::Proxy"]}
{"id": "C73", "title": "what serve and proxy return", "statement": "A stub or proxy is always for the id (and address) of the last call. 'Already exists' is returned only if the listener or connection of an earlier stub or proxy with that id runs, or a message for the id is being handed over. Another error is returned only if connecting or listening failed, a listening socket has ended (serve), or the socket of a connection to that address has ended (proxy). When nothing is going on and the id is free both succeed, with two exceptions: serve fails while a stub exists whose listener has ended, and proxy fails while a connection to the address has ended but is still owned; otherwise proxy uses the shared connection to the address or a new one.", "quantifier": "every history of API calls, packets, task schedules and socket results", "why_tests_cant": "The result depends on everything that happened before, including what has been dropped and which tasks have noticed.", "anchors": ["rsomeip/src/endpoint/v1.rs::Endpoint::serve", "rsomeip/src/endpoint/v1.rs::Endpoint::proxy", "rsomeip/src/endpoint/v1.rs::EndpointTask", "rsomeip/src/endpoint/v1/interface.rs::Interfaces::check", "rsomeip/src/endpoint/v1/listener.rs::Listener::take", "rsomeip/src/endpoint/v1/connection.rs::Connection::take"]}
{"id": "C74", "title": "what send_to returns", "statement": "Stub::send_to fails only if connecting fails, the transport is not a datagram transport, the endpoint was dropped, or a connection to the address has ended or has lost its owners. When nothing is going on: if a connection to the address was opened by a stub or accepted, and all connections to the address run and are owned, it is used; if none of them is owned, a new connection is opened and used; if none of them runs, then send_to succeeds over a new connection at the latest when it is called a second time.", "quantifier": "every history of API calls, packets, task schedules and socket results, every address and message", "why_tests_cant": "The result depends on which connections earlier calls and peers left behind, in every order.", "anchors": ["rsomeip/src/endpoint/v1.rs::Stub::send_to", "rsomeip/src/endpoint/v1.rs::Stub::connect", "rsomeip/src/endpoint/v1/connection.rs::Connections::send_to", "rsomeip/src/endpoint/v1/connection.rs::Connections::check", "rsomeip/src/endpoint/v1/connection.rs::Connections::share_and_store"]}
{"id": "C75", "title": "an endpoint over TCP reads and writes its streams in order", "statement": "Over TCP the pieces a connection reads are at most 1400 bytes long and together the beginning of what its peer sent, nothing left out or changed. Everything stubs and proxies receive is a message in a piece read on the connection it is said to come from, in order; while the receiver, its listener and the connection go on, what it received, what waits for it and what is being routed is exactly the messages for its service in all pieces. What goes out on a connection is the encodings of the messages whose sending was answered Ok, whole and in order, then perhaps part of the next one; at most the last two are missing, and none when the endpoint has nothing left to do and the connection runs.", "quantifier": "every history of API calls, arriving bytes, sizes of reads and writes, task schedules and stream errors", "why_tests_cant": "Reads and writes of any size interleave with tasks, and the connection can end with a buffer half written.", "anchors": ["rsomeip/src/socket/tcp.rs::TcpReceiver::recv", "rsomeip/src/socket/tcp.rs::TcpSender::send", "rsomeip/src/endpoint/v1/connection.rs::ReceiverTask", "rsomeip/src/endpoint/v1/connection.rs::SenderTask", "rsomeip/src/endpoint/v1.rs::Endpoint"]}
{"id": "C76", "title": "message boundaries over TCP", "statement": "An endpoint over TCP treats every read as a packet. If each read happens to end where a message ends, the messages read are a prefix of the messages sent, stubs and proxies receive only what the other endpoint sent, in order, and when everything was written and read a stub has received everything sent for its service. But a read can end anywhere: a message cut in its payload is delivered truncated, a message cut in its header is dropped, and the rest is interpreted as a new message, so that bytes in a payload can be delivered as a message nobody sent, to another service. A message with more than 1384 bytes of payload is never delivered whole.", "quantifier": "every sequence of messages, every division of the stream into reads, every history of two endpoints", "why_tests_cant": "The size of a read is decided by the network; tests on one machine almost always see one message per read.", "anchors": ["rsomeip/src/socket/tcp.rs::TcpReceiver::recv", "rsomeip/src/endpoint/v1/connection.rs::ReceiverTask", "rsomeip/src/someip.rs::deserialize"]}
{"id": "C77", "title": "the end of a TCP stream is not noticed", "statement": "When the peer has closed its side and all bytes are read, every further read of the connection returns at once with an empty packet and leaves the endpoint as it was, so the receiver task reads for ever; unless the stream reports an error the connection runs as long as somebody owns it.", "quantifier": "every history, every number of reads after the end of the stream", "why_tests_cant": "The claim is about every later moment; a test sees that nothing happens for a while.", "anchors": ["rsomeip/src/socket/tcp.rs::TcpReceiver::recv", "rsomeip/src/endpoint/v1/connection.rs::ReceiverTask"]}
{"id": "C78", "title": "over TCP stubs only answer", "statement": "Over TCP every connection of an endpoint was made by a call of proxy or accepted from a peer; a stub never opens one. Stub::send_to succeeds only for an address such a connection is with, and the message goes to that connection.", "quantifier": "every history of API calls, connections, task schedules and stream results", "why_tests_cant": "Whether a connection is there depends on everything that happened before.", "anchors": ["rsomeip/src/endpoint/v1.rs::Stub::send_to", "rsomeip/src/endpoint/v1.rs::EndpointTask::connect", "rsomeip/src/socket/tcp.rs::TcpSocket"]}
{"id": "C79", "title": "calls that are dropped before they return", "statement": "The future of send_to can be dropped at any point: the stub is free again and nothing else changes, and the message is never sent, since a message is accepted by a connection only by the stub's last call of send_to, if that call was neither dropped nor had returned before. Dropping send_to calls always gets an endpoint out of the deadlock: from every state, going on and dropping calls only in deadlocks, it comes to rest. What a dropped call leaves behind: if it was waiting for a connection the endpoint may open it later all the same; the connection belongs to nobody, sends nothing and can end at once, but over UDP it cuts off a proxy connected to that peer. Calls of serve and proxy dropped before the endpoint took them are executed all the same, once each.", "quantifier": "every history of API calls, dropped calls, packets, task schedules and socket results", "why_tests_cant": "A future can be dropped at each of its awaits, in every state of all the tasks it communicates with.", "anchors": ["rsomeip/src/endpoint/v1.rs::Stub::send_to", "rsomeip/src/endpoint/v1.rs::Stub::connect", "rsomeip/src/endpoint/v1.rs::Endpoint::serve", "rsomeip/src/endpoint/v1.rs::Endpoint::proxy", "rsomeip/src/endpoint/v1.rs::EndpointTask", "rsomeip/src/endpoint/v1/connection.rs::Connections::send_to"]}
{"id": "C80", "title": "requests and answers over UDP", "statement": "Two endpoints talk over UDP, each with one connection to the other, and the network loses and reorders nothing. When both have come to rest, a stub that existed before the first contact has been given from the other endpoint exactly the messages for its service that were accepted for it, in order, provided no datagram was turned away while nobody listened and no lag was reported; and a proxy has been given exactly the messages for its service that the other side accepted for it. So if the serving program answers every message it is given, in order, the proxy has received the replies to everything sent, one for each, in order, and nothing else.", "quantifier": "every history of two endpoints, of API calls, task schedules, socket results and datagrams, every number of messages, every reply function that keeps the service", "why_tests_cant": "The whole path, stub to socket to network to socket to stub and back, has to work for every interleaving of ten tasks; a test sees one.", "anchors": ["rsomeip/src/endpoint/v1.rs::Endpoint", "rsomeip/src/endpoint/v1.rs::Stub::recv_from", "rsomeip/src/endpoint/v1.rs::Stub::send_to", "rsomeip/src/endpoint/v1.rs::Proxy::send", "rsomeip/src/endpoint/v1.rs::Proxy::recv", "rsomeip/src/endpoint/v1/connection.rs::ReceiverTask", "rsomeip/src/endpoint/v1/connection.rs::SenderTask", "rsomeip/src/socket/udp.rs::ReceiverTask"]}
{"id": "C81", "title": "the example programs", "statement": "The example client sends requests numbered with session ids 1 to 65535, again and again, each as its wire form, and waits for an answer in between. The example service answers every datagram whose first 64 bytes hold a request for its method with the same message as a response, to where it came from; any other datagram stops it. If the network makes nothing up and no socket call fails, neither program ever stops, whatever is lost, repeated and reordered, and the client hears only answers to requests it has sent; if nothing is reordered or repeated it hears them one by one, each before the next request. A repeated answer is taken for the answer to the next request.", "quantifier": "every history of both programs, of datagrams from anywhere, of network behaviour and socket results; every number of requests, also over 65535", "why_tests_cant": "The session id wraps after 65535 requests, which takes 18 hours; the other claims are about everything a network can do.", "anchors": ["rsomeip-proto/examples/request-sample.rs: send_requests", "rsomeip-proto/examples/response-sample.rs: send_responses", "rsomeip-proto/examples/common/mod.rs"]}
{"id": "C82", "title": "an endpoint over UDP comes to rest", "statement": "Left to itself, with no new calls and no new datagrams, an endpoint over UDP does not go on for ever: whatever order its tasks, calls and the socket's receiver task run in, only finitely many steps change anything. When no step changes anything any more, every call has returned, every datagram the socket took is read, every connection a peer opened and a listener awaits is accepted, what nobody holds any more is dropped down to the socket, every message for a stub or proxy is read by it and every accepted message is handed to the system, except in the deadlock of a connection that waits for room in the queue of a stub whose send waits for the endpoint. So from every state the endpoint gets there.", "quantifier": "every history of API calls, datagrams and socket results, every schedule after it", "why_tests_cant": "Termination under every schedule is a claim about infinitely many infinite runs.", "anchors": ["rsomeip/src/endpoint/v1.rs::EndpointTask", "rsomeip/src/endpoint/v1.rs::Stub::send_to", "rsomeip/src/endpoint/v1/connection.rs::ReceiverTask", "rsomeip/src/endpoint/v1/connection.rs::SenderTask", "rsomeip/src/endpoint/v1/listener.rs::ReceiverTask", "rsomeip/src/socket/udp.rs::ReceiverTask"]}
{"id": "C83", "title": "what the text of an error says", "statement": "The text of a serialization, deserialization, segment, interface or endpoint error names the kind of error and shows its numbers: lengths and offsets in decimal, the offending byte or byte order mark in upper-case hexadecimal. Two serialization or interface errors with the same text are equal, and so are two deserialization errors, whatever text the standard library adds about a malformed string. Two endpoint errors with the same text are of the same kind, have the same reason, and their messages agree in service, method, client, session, type and return code. Two segment errors with the same text are of the same kind and agree in the expected and the actual offset. Whatever bytes are read, as any type or as a message, the error is one of these.", "quantifier": "every error with any numbers, every byte sequence that leads to one", "why_tests_cant": "That no two different errors share a text is about all pairs of errors.", "anchors": ["rsomeip-bytes/src/ser.rs::SerializeError", "rsomeip-bytes/src/de.rs::DeserializeError", "rsomeip-proto/src/tp.rs::TpError", "rsomeip-proto/src/endpoint.rs::EndpointError", "rsomeip-proto/src/interface.rs::MessageError"]}
{"id": "C84", "title": "an endpoint over TCP comes to rest", "statement": "Left to itself, with no new calls, no new bytes and streams that do not fail, an endpoint over TCP does not go on for ever: in whatever order its tasks and calls run and however small the pieces its streams take and give, only finitely many steps change anything. When no step changes anything any more, every call has returned, every running connection has read all that arrived, every message for a stub or proxy is read by it and every accepted message is written, except in the deadlock of a connection that waits for room in the queue of a stub whose send waits for the endpoint. From every state the endpoint gets there. When two endpoints are at rest, all bytes were brought, every read stopped between messages and the service answers each request once, the client has been given the answers to all its requests, in order, and nothing else.", "quantifier": "every history of API calls, arriving bytes and stream results, every schedule after it; for the exchange, every pair of such histories and every reply function", "why_tests_cant": "Termination under every schedule and every fragmentation of the stream is a claim about infinitely many infinite runs.", "anchors": ["rsomeip/src/endpoint/v1.rs::EndpointTask", "rsomeip/src/endpoint/v1.rs::Stub::send_to", "rsomeip/src/endpoint/v1/connection.rs::ReceiverTask", "rsomeip/src/endpoint/v1/connection.rs::SenderTask", "rsomeip/src/endpoint/v1/listener.rs::ReceiverTask", "rsomeip/src/socket/tcp.rs::TcpSender::send", "rsomeip/src/socket/tcp.rs::TcpReceiver::recv"]}
{"id": "C85", "title": "endpoints on a TCP network", "statement": "Any number of endpoints connect to each other over TCP. Every connection of an endpoint is one end of exactly one stream, whose other end is a connection of the endpoint at the peer's address, or it was made and nobody has accepted it yet, and then nothing has come from it. What arrives at one end is a prefix of what was written at the other, and all of it when the end of the stream arrives, which happens only after the other side's connection has stopped. If every read stopped between messages, whatever a stub or proxy is given as coming from an address was accepted for sending by the endpoint at that address, on the other end of that very connection, and messages on one connection come in the order of sending, each at most once.", "quantifier": "every number of endpoints, every history of API calls, accepted connections, arriving bytes, stream results and task schedules", "why_tests_cant": "Which end belongs to which is decided by the interleaving of connecting and accepting in all endpoints; a test has two endpoints and one order.", "anchors": ["rsomeip/src/socket/tcp.rs::TcpSocket", "rsomeip/src/socket/tcp.rs::TcpListener::accept", "rsomeip/src/socket/tcp.rs::TcpSender::send", "rsomeip/src/socket/tcp.rs::TcpReceiver::recv", "rsomeip/src/endpoint/v1.rs::Endpoint", "rsomeip/src/endpoint/v1/listener.rs::ReceiverTask"]}
{"id": "C86", "title": "endpoints on a TCP network come to rest", "statement": "Left to themselves, with no new calls and streams that do not fail, endpoints on a TCP network do not go on for ever: in whatever order tasks run, connections are accepted and bytes and ends of streams arrive, only finitely many steps change anything. When nothing changes any more, nothing is under way, no connection waits where somebody listens, every end whose other end has stopped has been told, and every endpoint is at rest with everything read, except if an endpoint is in the deadlock of a connection that waits for room in the queue of a stub whose send waits for the endpoint. From every state the network gets there. At rest a stub has been given exactly the messages for its service accepted on the other end of a connection, and if the service answers each request once the proxy has been given the answers to all its requests, in order, provided both ends run and every read stopped between messages. But that one end has stopped does not stop the other: at rest a connection can still run whose other end is gone.", "quantifier": "every number of endpoints, every history of the network, every schedule after it, every reply function that keeps the service", "why_tests_cant": "Termination under every schedule of every number of endpoints is a claim about infinitely many infinite runs.", "anchors": ["rsomeip/src/endpoint/v1.rs::EndpointTask", "rsomeip/src/endpoint/v1.rs::Stub::send_to", "rsomeip/src/endpoint/v1/connection.rs::ReceiverTask", "rsomeip/src/endpoint/v1/connection.rs::SenderTask", "rsomeip/src/endpoint/v1/listener.rs::ReceiverTask", "rsomeip/src/socket/tcp.rs::TcpSender::send", "rsomeip/src/socket/tcp.rs::TcpReceiver::recv", "rsomeip/src/socket/tcp.rs::TcpListener::accept"]}
{"id": "C87", "title": "nothing is left undone for ever", "statement": "After the last call and the last packet, in every infinite run in which no work that stays possible is left undone for ever, an endpoint comes to where nothing is left to do and stays there: every call has returned, every message is routed, read or sent; unless it gets into the deadlock of a connection that waits for room in the queue of a stub whose send waits for the endpoint. Handles may be dropped and connections may fail meanwhile. The same holds of an endpoint over UDP, of one over TCP and of any number of endpoints on a TCP network, where from some time on everything that was accepted for sending has been given to the stubs that listen, in order, if both ends of the connection run and every read stopped between messages. Nothing is asked about the order in which tasks run. Rest lasts: an idle endpoint stays idle until somebody calls something or something arrives. Without the condition it is false: if nobody does what can be done, nothing comes to rest.", "quantifier": "every infinite run of every history, with any order of tasks, sockets, users and streams in which work that stays possible is not left undone for ever", "why_tests_cant": "A liveness claim is about infinite runs; a test sees a finite one.", "anchors": ["rsomeip/src/endpoint/v1.rs::EndpointTask", "rsomeip/src/endpoint/v1.rs::Stub::send_to", "rsomeip/src/endpoint/v1/connection.rs::ReceiverTask", "rsomeip/src/endpoint/v1/connection.rs::SenderTask", "rsomeip/src/endpoint/v1/listener.rs::ReceiverTask", "rsomeip/src/socket/udp.rs::ReceiverTask", "rsomeip/src/socket/tcp.rs::TcpSender::send", "rsomeip/src/socket/tcp.rs::TcpReceiver::recv"]}
{"id": "C88", "title": "the handles of an endpoint", "statement": "A weak handle upgrades to an endpoint if and only if a caller has an endpoint or a stub is opening a connection for a send at that moment; while a caller has one, upgrading changes nothing. Once all endpoints were dropped and no send is under way, it gives none, and then it never gives one again: no call of serve or proxy is made any more, and a stub can send only where it is connected. But that all endpoints were dropped does not mean that none can be had: while a stub opens a connection, a weak handle upgrades and the endpoint goes on to serve.", "quantifier": "every history of API calls, packets and task schedules", "why_tests_cant": "Whether an owner is left depends on where every send of every stub is at the moment of the upgrade.", "anchors": ["rsomeip/src/endpoint/v1.rs::WeakEndpoint::upgrade", "rsomeip/src/endpoint/v1.rs::Endpoint::downgrade", "rsomeip/src/endpoint/v1.rs::Stub::send_to", "rsomeip/src/endpoint/v1.rs::EndpointTask"]}
{"id": "C89", "title": "endpoints on a UDP network come to rest", "statement": "Any number of endpoints over UDP, on a network that holds datagrams under way, brings them in any order, loses and doubles them: every datagram has arrived, is under way or was lost, once for each time it was sent or doubled. Left to themselves, with no new calls and no doubling, the endpoints do not go on for ever, in whatever order tasks run and datagrams arrive or are lost. When no endpoint and no datagram can go on, nothing is under way except to sockets that have stopped receiving, and at every endpoint every call has returned, everything that arrived is read and everything accepted is sent; or an endpoint is in the deadlock of a connection that waits for room in the queue of a stub whose send waits for the endpoint. The same holds in every infinite run in which no work that stays possible is left undone for ever, and rest lasts. At rest, between two endpoints with one connection each, if nothing between them was lost, doubled or overtaken, turned away or reported as lag, the stub has been given everything sent to its service in order, and the proxy the replies to everything it sent.", "quantifier": "every number of endpoints, every history of the network, every schedule and every infinite run after it, every reply function that keeps the service", "why_tests_cant": "Termination under every schedule of every number of endpoints is a claim about infinitely many infinite runs.", "anchors": ["rsomeip/src/endpoint/v1.rs::EndpointTask", "rsomeip/src/endpoint/v1.rs::Stub::send_to", "rsomeip/src/endpoint/v1/connection.rs::ReceiverTask", "rsomeip/src/endpoint/v1/connection.rs::SenderTask", "rsomeip/src/endpoint/v1/listener.rs::ReceiverTask", "rsomeip/src/socket/udp.rs::ReceiverTask", "rsomeip/src/socket/udp.rs::UdpSender::send"]}
{"id": "C90", "title": "calls of an endpoint are executed one at a time, in order", "statement": "Calls of serve and proxy and the connections stubs ask for go through one channel with eight places. They are executed one at a time, in the order in which they got their places, and none is left out, also if the future of the call is dropped meanwhile. Once a call has its place, at most eight others are finished before it. A call is made, gets its place, is taken, is finished and returns, each at most once and in this order, unless its future is dropped on the way; it returns what its own execution gave: a stub for its own interface, a proxy for its own interface and address, or an error. A call is never answered that the endpoint is closed. Every stub and proxy that exists belongs to exactly one call, whose future was not dropped before it returned: what was created for a caller that is gone is dropped at once.", "quantifier": "every history of calls, dropped futures, packets and task schedules, with any number of callers", "why_tests_cant": "The order in which calls get their places and futures are dropped has as many variants as there are schedules; a test fixes one.", "anchors": ["rsomeip/src/endpoint/v1.rs::Endpoint::serve", "rsomeip/src/endpoint/v1.rs::Endpoint::proxy", "rsomeip/src/endpoint/v1.rs::Endpoint::connect", "rsomeip/src/endpoint/v1.rs::EndpointTask::command", "rsomeip/src/endpoint/v1.rs::Stub::send_to"]}
{"id": "C91", "title": "every call of an endpoint is answered", "statement": "With no new calls, packets and connections, only a bounded number of steps that do anything are possible from any state, also if futures and handles are dropped and sockets fail meanwhile. When callers and tasks cannot go on any more, every call of serve and proxy whose future was not dropped has returned a stub or proxy for what was asked, or an error, every command that got a place in the channel was executed, and nothing is left to do; or the endpoint is in the deadlock of a connection that waits for room in the queue of a stub whose send waits for the endpoint. From every state they get there, and so does every infinite run in which nothing that can go on stops for ever; rest lasts.", "quantifier": "every history of calls, dropped futures, packets and task schedules, every way to go on from it and every infinite run", "why_tests_cant": "That no caller waits for ever is a claim about all continuations of all histories.", "anchors": ["rsomeip/src/endpoint/v1.rs::Endpoint::serve", "rsomeip/src/endpoint/v1.rs::Endpoint::proxy", "rsomeip/src/endpoint/v1.rs::EndpointTask::command", "rsomeip/src/endpoint/v1.rs::Stub::send_to"]}
{"id": "C92", "title": "over UDP every call is answered", "statement": "An endpoint over UDP together with its calls: what happens to the calls is a history of the endpoint's calls (C90, C91), what happens to the socket is a history of an endpoint over UDP (C79 to C82), and both are about the same runtime. Left to themselves, with no new calls and no new datagrams, callers, tasks and socket do not go on for ever. When none can go on, every call of serve and proxy whose future was not dropped has returned a stub or proxy for what was asked, or an error, every datagram that arrived is read, everything accepted is with the system, and nothing is left to do; or the endpoint is in the deadlock of a connection that waits for room in the queue of a stub whose send waits for the endpoint. From every state they get that far, and in every fair run they do, also if futures and handles are dropped and the socket fails meanwhile. The socket is dropped only after the endpoint task has returned.", "quantifier": "every history of calls, dropped futures, datagrams and task schedules over UDP, every way to go on from it and every infinite run", "why_tests_cant": "It is about all continuations of all histories of callers, tasks and socket together; a test fixes one schedule.", "anchors": ["rsomeip/src/endpoint/v1.rs::Endpoint::serve", "rsomeip/src/endpoint/v1.rs::Endpoint::proxy", "rsomeip/src/endpoint/v1.rs::EndpointTask", "rsomeip/src/socket/udp.rs::ReceiverTask", "rsomeip/src/socket/udp.rs::UdpSender::send"]}
{"id": "C93", "title": "over TCP every call is answered", "statement": "An endpoint over TCP together with its calls: what happens to the calls is a history of the endpoint's calls (C90, C91), what happens to the streams is a history of an endpoint over TCP (C75 to C78), and both are about the same runtime. Left to themselves, with no new calls, bytes and connections, callers, tasks and streams do not go on for ever. When none can go on, every call of serve and proxy whose future was not dropped has returned a stub or proxy for what was asked, or an error, every connection that runs has read all that arrived, everything accepted is written, and nothing is left to do; or the endpoint is in the deadlock of a connection that waits for room in the queue of a stub whose send waits for the endpoint. From every state they get that far, and in every fair run they do, also if futures and handles are dropped, streams fail or take nothing for a while, and peers close their side meanwhile.", "quantifier": "every history of calls, dropped futures, bytes, connections and task schedules over TCP, every way to go on from it and every infinite run", "why_tests_cant": "It is about all continuations of all histories of callers, tasks and streams together; a test fixes one schedule.", "anchors": ["rsomeip/src/endpoint/v1.rs::Endpoint::serve", "rsomeip/src/endpoint/v1.rs::Endpoint::proxy", "rsomeip/src/endpoint/v1.rs::EndpointTask", "rsomeip/src/socket/tcp.rs::TcpSender::send", "rsomeip/src/socket/tcp.rs::TcpReceiver::recv"]}
{"id": "C94", "title": "what a UDP listener is owed", "statement": "A listener that was not dropped can always call accept and gets the oldest connection that waits for it, if there is one; else it waits as long as no later call of listen replaced it and the socket or its receiver task is left; else it is told that no more connections will come, and then it is never told anything else. Nothing leaves its line but by accept from the front, new connections join at the end, and none joins once another call of listen has returned. No connection is handed out twice, the line is never longer than the backlog, and each connection was made by a datagram of its own from its peer, in the order of the datagrams, with nothing older to be read from it. Dropping a listener closes the connections in its line for good, so that their peers are strangers again; it touches no other connection and no other line.", "quantifier": "every history of API calls, datagrams, task steps and dropped handles", "why_tests_cant": "Which connections are in line depends on every interleaving of arrivals, accepts, further listens and drops; a test fixes one.", "anchors": ["rsomeip/src/socket/udp.rs::UdpListener::accept", "rsomeip/src/socket/udp.rs::UdpSocket::listen", "rsomeip/src/socket/udp.rs::ReceiverTask"]}
{"id": "C95", "title": "in a network over UDP every call is answered, wherever it was made", "statement": "Any number of endpoints over UDP, each with its calls, and the datagrams between them, which the network brings in any order, loses and copies: what happens at each endpoint is what the claim about one endpoint over UDP (C92) is about, and without the calls the whole is a network of endpoints over UDP (C89). With no new calls, callers, tasks, sockets and datagrams do not go on for ever. When none can go on, every call of serve and proxy whose future was not dropped has returned, at every endpoint, a stub or proxy for what was asked, or an error; datagrams are under way only to sockets that receive no more, and nothing is left to do anywhere; or an endpoint is in the deadlock of a connection that waits for room in the queue of a stub whose send waits for the endpoint. From every state they get that far without losing a datagram, and in every fair run they do, whatever is lost meanwhile and whatever is dropped or fails at finitely many endpoints. Then a stub has been given every message a peer accepted for it, in order, and a proxy the replies, if nothing between the two was lost, doubled or overtaken.", "quantifier": "every history of calls, dropped futures, datagrams, losses, copies and task schedules at any number of endpoints, every way to go on from it and every infinite run", "why_tests_cant": "It is about all continuations of all histories of a whole network; a test fixes one schedule and one network.", "anchors": ["rsomeip/src/endpoint/v1.rs::Endpoint::serve", "rsomeip/src/endpoint/v1.rs::Endpoint::proxy", "rsomeip/src/endpoint/v1.rs::EndpointTask", "rsomeip/src/socket/udp.rs::ReceiverTask", "rsomeip/src/socket/udp.rs::UdpSender::send"]}
{"id": "C96", "title": "in a network over TCP every call is answered, wherever it was made", "statement": "Any number of endpoints over TCP, each with its calls, and the streams between them, which bring bytes in pieces of any size: what happens at each endpoint is what the claim about one endpoint over TCP (C93) is about, and without the calls the whole is a network of endpoints over TCP (C85, C86). With no new calls, callers, tasks, streams and listening sockets do not go on for ever. When none can go on, every call of serve and proxy whose future was not dropped has returned, at every endpoint, a stub or proxy for what was asked, or an error; no byte is under way, no connection waits at a listening socket, the ends of streams have arrived, and nothing is left to do anywhere; or an endpoint is in the deadlock of a connection that waits for room in the queue of a stub whose send waits for the endpoint. From every state they get that far, and in every fair run they do, whatever is dropped or fails at finitely many endpoints. Then a stub has been given every message the other end of a connection accepted for it, in order, and a proxy the replies, if both ends run and no read stopped inside a message.", "quantifier": "every history of calls, dropped futures, bytes, connections, failures and task schedules at any number of endpoints, every way to go on from it and every infinite run", "why_tests_cant": "It is about all continuations of all histories of a whole network; a test fixes one schedule and one network.", "anchors": ["rsomeip/src/endpoint/v1.rs::Endpoint::serve", "rsomeip/src/endpoint/v1.rs::Endpoint::proxy", "rsomeip/src/endpoint/v1.rs::EndpointTask", "rsomeip/src/socket/tcp.rs::TcpSender::send", "rsomeip/src/socket/tcp.rs::TcpReceiver::recv"]}
{"id": "C97", "title": "calls are answered under load that does not end", "statement": "However calls, packets, connections, dropped handles and socket failures go on for ever at an endpoint: if each of its tasks and each call that can go on again and again does go on, then every call of serve and proxy whose future is not dropped returns, with a stub or proxy for what was asked, or with an error, and every send of a stub ends. The only exception is an endpoint at which, from some time on, a connection waits for ever for room in the full queue of a stub or proxy from which nobody ever receives again. Without exception, every connection again and again has room for a message to send, or has ended, and what was accepted for it is written to its socket, in order, unless it ends. Every message that arrived at a connection is put into the queue of its stub or proxy, or dropped, unless the connection ends, or some queue is full for ever as above while it runs.", "quantifier": "every infinite run of an endpoint, with calls, dropped futures, packets, connections, failures and any task schedule in which nobody who can go on again and again is left out, and every call, send and connection in it", "why_tests_cant": "It is about the limit behaviour of runs that never come to rest, under every schedule that is fair; a test sees a finite prefix of one schedule.", "anchors": ["rsomeip/src/endpoint/v1.rs::Endpoint::serve", "rsomeip/src/endpoint/v1.rs::Endpoint::proxy", "rsomeip/src/endpoint/v1.rs::EndpointTask", "rsomeip/src/endpoint/v1/connection.rs::ReceiverTask", "rsomeip/src/endpoint/v1/connection.rs::SenderTask"]}
{"id": "C98", "title": "over TCP calls are answered, and streams are read and written, under load that does not end", "statement": "However calls, bytes, connections, dropped handles and stream failures go on for ever at an endpoint over TCP: if each of its tasks and each call that can go on again and again does go on, and each stream again and again takes a byte that is offered to it and gives bytes that arrived, or fails, then every call of serve and proxy whose future is not dropped returns, with a stub or proxy for what was asked, or with an error, and every send of a stub ends. The only exception is an endpoint at which, from some time on, a connection waits for ever for room in the full queue of a stub or proxy from which nobody ever receives again. Without exception, every message accepted for a connection has its bytes handed to the stream, after those accepted before it, whatever parts the stream takes, unless the connection ends. All the bytes that arrived at a connection are read, in order, and every message read is put into the queue of its stub or proxy, or dropped, unless the connection ends, or some queue is full for ever as above while it runs.", "quantifier": "every infinite run of an endpoint over TCP, with calls, dropped futures, bytes in pieces of any size, partial and pending writes, connections, failures and any task schedule in which nobody who can go on again and again is left out, and every call, send and connection in it", "why_tests_cant": "It is about the limit behaviour of runs that never come to rest, under every fair schedule and every way in which the streams split what is written and read; a test sees a finite prefix of one schedule.", "anchors": ["rsomeip/src/endpoint/v1.rs::Endpoint::serve", "rsomeip/src/endpoint/v1.rs::Endpoint::proxy", "rsomeip/src/endpoint/v1.rs::EndpointTask", "rsomeip/src/endpoint/v1/connection.rs::ReceiverTask", "rsomeip/src/endpoint/v1/connection.rs::SenderTask", "rsomeip/src/socket/tcp.rs::TcpSender", "rsomeip/src/socket/tcp.rs::TcpReceiver"]}
{"id": "C99", "title": "what is sent over TCP is delivered under load that does not end", "statement": "However calls, connections, dropped handles and stream failures go on for ever at any number of endpoints over TCP: if at each of them each task and each call that can go on again and again does go on, and the streams between them again and again take and give bytes, and bring what is under way, then every call at every endpoint returns as in C98. Everything written at one end of a stream arrives at the other end. Every message accepted at one end is read at the other, whatever parts are written, brought and read, unless the connection ends at either end, or at the receiving endpoint a connection waits for ever for room in the full queue of a stub or proxy from which nobody ever receives again. If every read stops where a message stops, and all messages are of the program's types, then under the same exceptions every message accepted for a connection is put into the queue of the stub at the other end that serves its service and version, or of the proxy there for it, in the order of acceptance and with none left out, provided the stub or proxy was there before anything was read from the connection and stays. If the program goes on receiving from that stub or proxy, in the sense that again and again nothing waits there or more was received, every such message is received from it.", "quantifier": "every infinite run of any number of endpoints over TCP and the streams between them, with calls, dropped futures, connections, failures, partial writes and reads, and any schedule in which nobody who can go on again and again is left out, and every pair of joined connections, every stub, proxy and message in it", "why_tests_cant": "It is about the limit behaviour of runs of several endpoints that never come to rest, under every fair schedule and every way in which the streams split what they carry; a test sees a finite prefix of one schedule of one network.", "anchors": ["rsomeip/src/endpoint/v1.rs::Endpoint::serve", "rsomeip/src/endpoint/v1.rs::Endpoint::proxy", "rsomeip/src/endpoint/v1.rs::EndpointTask", "rsomeip/src/endpoint/v1/connection.rs::ReceiverTask", "rsomeip/src/endpoint/v1/connection.rs::SenderTask", "rsomeip/src/socket/tcp.rs::TcpSocket", "rsomeip/src/socket/tcp.rs::TcpSender", "rsomeip/src/socket/tcp.rs::TcpReceiver"]}
{"id": "C100", "title": "over UDP calls are answered, and what was accepted is sent, under load that does not end", "statement": "However calls, datagrams, dropped handles and failures of the socket go on for ever at an endpoint over UDP: if each of its tasks and each call that can go on again and again does go on, then each call of serve or proxy whose future is not dropped returns what it can be answered, each send of a stub ends, every message accepted for a connection is handed to the system as one datagram for the connection's peer, in the order of acceptance and with none left out, unless the connection ends, every datagram that the socket put into the channel of a connection is taken by the connection or reported to it as lost, unless the connection ends, and every message that a connection took from the socket is given to the stub or proxy it is for, or dropped because there is none, unless the connection ends. The exception for calls, sends, datagrams in channels and messages taken from the socket is that a connection waits for ever for room in the full queue of a stub or proxy from which nobody ever receives again.", "quantifier": "every infinite run of an endpoint over UDP, with calls, dropped futures, datagrams, refused sends, failures and any task schedule in which nobody who can go on again and again is left out, and every call, send, connection and message in it", "why_tests_cant": "It is about the limit behaviour of runs that never come to rest, under every fair schedule of the tasks, the calls and the socket; a test sees a finite prefix of one schedule.", "anchors": ["rsomeip/src/endpoint/v1.rs::Endpoint::serve", "rsomeip/src/endpoint/v1.rs::Endpoint::proxy", "rsomeip/src/endpoint/v1.rs::EndpointTask", "rsomeip/src/endpoint/v1/connection.rs::ReceiverTask", "rsomeip/src/endpoint/v1/connection.rs::SenderTask", "rsomeip/src/socket/udp.rs::UdpSocket", "rsomeip/src/socket/udp.rs::UdpSender", "rsomeip/src/socket/udp.rs::UdpReceiver"]}
