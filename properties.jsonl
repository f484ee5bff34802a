{"id": "C01", "title": "Engine decoder: nothing before Open", "statement": "Feeding any sequence of websocket messages to a fresh engine decoder, no Close, Ping, Pong or Message packet is returned before an Open packet has been returned.", "quantifier": "every finite sequence of websocket messages", "why_tests_cant": "the claim is about every history of calls; a test feeds a few", "anchors": ["socket-io-protocol/src/engine.rs: Decoder::decode", "socket-io-protocol/src/engine.rs: Decoder::decode_text", "socket-io-protocol/src/engine.rs: Decoder::decode_binary"]}
{"id": "C02", "title": "Engine decoder: at most one Open", "statement": "Over any history a decoder returns at most one Open packet; every later Open-typed message is answered with SecondOpen (or MessageAfterClose once closed).", "quantifier": "every finite sequence of websocket messages", "why_tests_cant": "quantifies over all histories", "anchors": ["socket-io-protocol/src/engine.rs: Decoder::decode_text"]}
{"id": "C03", "title": "Engine decoder: silence after Close", "statement": "Once a decoder has returned a Close packet, every later decode call, whatever its argument, fails with MessageAfterClose, forever.", "quantifier": "every history before and after the Close", "why_tests_cant": "quantifies over unbounded continuations", "anchors": ["socket-io-protocol/src/engine.rs: Decoder::decode"]}
{"id": "C04", "title": "Engine decoder: errors change nothing", "statement": "If decode returns an error, the decoder answers every future sequence of messages exactly as if the failing message had never been delivered.", "quantifier": "every decoder history, failing message and continuation", "why_tests_cant": "quantifies over all continuations", "anchors": ["socket-io-protocol/src/engine.rs: Decoder"]}
{"id": "C05", "title": "Engine message round trip", "statement": "Once open, decoding encode_message(t) returns the text message t and decoding encode_binary(d) returns the binary message d, byte for byte; the encoders never panic, and package_message/package_binary panic exactly when the first byte is not the message header.", "quantifier": "all texts, all byte strings, every non-closed decoder history", "why_tests_cant": "all byte strings of all lengths", "anchors": ["socket-io-protocol/src/engine.rs: encode_message", "socket-io-protocol/src/engine.rs: encode_binary", "socket-io-protocol/src/engine.rs: package_message", "socket-io-protocol/src/engine.rs: package_binary"]}
{"id": "C06", "title": "Owned subslice algebra", "statement": "An OwnedSubslice made from a whole buffer dereferences to that buffer; taking subslice(r) of a subslice and dereferencing equals slicing the dereferenced parent, with the end clamped to the parent; subslices compose and never expose bytes outside the parent.", "quantifier": "all buffers, all ranges, all nesting depths", "why_tests_cant": "all ranges and nestings", "anchors": ["owned_subslice/src/lib.rs: OwnedSubslice::new", "owned_subslice/src/lib.rs: OwnedSubslice::subslice", "owned_subslice/src/lib.rs: Deref"]}
{"id": "C07", "title": "JSON string escaping is transparent", "statement": "Any string written as a JSON string by the packet builder is read back as exactly the same bytes, and the reader stops exactly at the closing quote whatever follows.", "quantifier": "all strings, all continuations of the input", "why_tests_cant": "all strings incl. control characters, quotes, backslashes and multi-byte text", "anchors": ["socket-io-protocol/src/socket/ser.rs: PacketBuilder::serialize_arg", "socket-io-protocol/src/socket/de.rs: parse_args", "socket-io-protocol/src/socket/args/mod.rs: Arg::to_json_value"]}
{"id": "C08", "title": "Text packets in the root namespace round trip", "statement": "A non-binary event or ack built for namespace \"/\" with any event name, optional id and any arguments that serialise is a single text frame which the engine decoder and deserialize turn back into a packet with namespace \"/\", the same kind, the same id, and whose i-th argument reads back as the JSON value of the i-th argument that was given, if that is nested at most 127 levels deep and uses no object that starts with serde_json's private raw-value key. Deeper arguments do not keep the packet from arriving, nor the others from being read.", "quantifier": "all event names, ids below 2^64, all argument lists over the whole serde data model", "why_tests_cant": "unbounded argument structure", "anchors": ["socket-io-protocol/src/socket/ser.rs: PacketBuilder", "socket-io-protocol/src/socket/de.rs: deserialize", "socket-io-protocol/src/socket/args/mod.rs: Arg::to_json_value"]}
{"id": "C09", "title": "Text packets in any namespace round trip", "statement": "The same round trip holds for every namespace that starts with '/' and contains no newline.", "quantifier": "all namespaces, event names, ids, argument lists", "why_tests_cant": "the interaction of greedy namespace matching with argument text is only visible on particular argument shapes", "anchors": ["socket-io-protocol/src/socket/de.rs: DESERIALIZE_RE", "socket-io-protocol/src/socket/de.rs: parse_text", "socket-io-protocol/src/socket/ser.rs: serialize_header"]}
{"id": "C10", "title": "No silent corruption", "statement": "For every namespace starting with '/' and free of newlines, when a built packet is parsed back the outcome is either an error (or a panic) or the packet that was built: it is never a packet with a different namespace, id, kind or arguments.", "quantifier": "all namespaces, ids, argument lists", "why_tests_cant": "absence of any corrupting input cannot be sampled", "anchors": ["socket-io-protocol/src/socket/de.rs: DESERIALIZE_RE", "socket-io-protocol/src/socket/de.rs: parse_text", "socket-io-protocol/src/socket/de.rs: parse_args"]}
{"id": "C11", "title": "Binary packets round trip", "statement": "A binary event or ack (root namespace) consisting of a header frame and its attachment frames is turned back, by decoding the header and supplying the attachments in order, into a packet with the same kind, id and arguments; byte strings come back byte for byte as arrays of their bytes. (Arguments as in C08, without objects that have a key _placeholder and without the sequences of C15.)", "quantifier": "all event names, ids, argument lists with any number and nesting of byte strings", "why_tests_cant": "unbounded nesting and attachment counts", "anchors": ["socket-io-protocol/src/socket/ser.rs: PacketBuilder::finish", "socket-io-protocol/src/socket/args/serialize_attachments.rs: serialize_json", "socket-io-protocol/src/socket/de.rs: deserialize_partial", "socket-io-protocol/src/socket/args/mod.rs: fill_placeholders_value"]}
{"id": "C12", "title": "Attachment count is truthful", "statement": "A finished binary packet is one text frame followed only by binary frames; the count written in the text header equals the number of binary frames that follow, and the parsed header asks for exactly that number.", "quantifier": "all sequences of serialize_arg calls, successful or failing, in binary mode", "why_tests_cant": "all call sequences", "anchors": ["socket-io-protocol/src/socket/ser.rs: PacketBuilder::finish", "socket-io-protocol/src/socket/ser.rs: PacketBuilder::serialize_arg", "socket-io-protocol/src/socket/de.rs: Partial::attachments"]}
{"id": "C13", "title": "Placeholders are numbered consecutively", "statement": "The byte strings of a binary packet are attached in the order in which they occur in the arguments, and the k-th placeholder written in the JSON text refers to the k-th attachment of the packet: no attachment is unreferenced, referenced twice or out of range.", "quantifier": "all argument lists", "why_tests_cant": "unbounded nesting", "anchors": ["socket-io-protocol/src/socket/args/serialize_attachments.rs: Wrapper::serialize_bytes", "socket-io-protocol/src/socket/args/serialize_attachments.rs: SeqWrapper::end"]}
{"id": "C14", "title": "A failed argument leaves the builder unchanged", "statement": "If serialize_arg returns an error, the packet finally produced is the same as if that call had never been made (documented: 'If serialization fails, the internal state will be unchanged').", "quantifier": "all builder histories, all failing arguments, all later calls", "why_tests_cant": "all histories mixing failing and succeeding calls", "anchors": ["socket-io-protocol/src/socket/ser.rs: PacketBuilder::serialize_arg"]}
{"id": "C15", "title": "Binary mode preserves sequences", "statement": "In binary mode a sequence that is not all bytes is sent with exactly its own elements.", "quantifier": "all sequences mixing bytes and other elements", "why_tests_cant": "needs a byte-typed prefix before a non-byte element", "anchors": ["socket-io-protocol/src/socket/args/serialize_attachments.rs: SeqWrapper::serialize_element"]}
{"id": "C16", "title": "Parsing never panics", "statement": "deserialize returns a value or an error for every incoming engine message; it never panics.", "quantifier": "all byte strings a peer can send", "why_tests_cant": "all inputs; the panicking ones are rare", "anchors": ["socket-io-protocol/src/socket/de.rs: parse_text"]}
{"id": "C17", "title": "Accessors of a parsed packet never panic", "statement": "For every packet returned by deserialize or deserialize_partial: namespace(), data(), args.len/get/iter never panic; slices fall on character boundaries and stay inside the message.", "quantifier": "all incoming messages and attachment lists", "why_tests_cant": "all inputs", "anchors": ["socket-io-protocol/src/socket/mod.rs: Packet::namespace", "socket-io-protocol/src/socket/mod.rs: Packet::data", "socket-io-protocol/src/socket/args/mod.rs: Args::get", "socket-io-protocol/src/socket/args/mod.rs: Args::iter"]}
{"id": "C18", "title": "Arguments are the elements of the JSON array", "statement": "For every accepted message, the arguments of the packet are, in order and verbatim, the JSON texts of the elements of the top-level array in the message; len is their number, is_empty says whether there are none, get(i) is the i-th, get beyond len is None, and iter yields exactly get(0..len).", "quantifier": "all accepted messages", "why_tests_cant": "all inputs", "anchors": ["socket-io-protocol/src/socket/de.rs: parse_args", "socket-io-protocol/src/socket/args/mod.rs: Args::get", "socket-io-protocol/src/socket/args/mod.rs: ArgsIter::next"]}
{"id": "C19", "title": "Accepted packets are well-formed", "statement": "deserialize accepts a text message only if it has the documented shape (type digit, optional count, optional namespace, optional id, optional JSON array); connect/disconnect packets carry no id, count or arguments; acks always carry an id; events and acks always carry at least one argument.", "quantifier": "all incoming messages", "why_tests_cant": "all inputs", "anchors": ["socket-io-protocol/src/socket/de.rs: deserialize_dataless", "socket-io-protocol/src/socket/de.rs: deserialize_event", "socket-io-protocol/src/socket/de.rs: deserialize_binary"]}
{"id": "C20", "title": "Partial packets complete only with exactly the announced binary attachments", "statement": "A header that announces n>0 attachments yields a partial packet with attachments()=n; completing it with a list of engine messages succeeds only if the list has exactly n entries, all binary, and then the packet's attachments are these in order; attachments() never panics.", "quantifier": "all headers, all attachment lists", "why_tests_cant": "all inputs", "anchors": ["socket-io-protocol/src/socket/de.rs: deserialize_partial", "socket-io-protocol/src/socket/de.rs: Partial::attachments"]}
{"id": "C21", "title": "Connect/disconnect packets round trip", "statement": "The engine message produced by serialize_connect(ns)/serialize_disconnect(ns) is parsed by deserialize as a connect/disconnect packet for ns.", "quantifier": "all namespaces", "why_tests_cant": "all namespaces", "anchors": ["socket-io-protocol/src/socket/ser.rs: serialize_connect", "socket-io-protocol/src/socket/ser.rs: serialize_disconnect"]}
{"id": "C22", "title": "Reading an argument never panics", "statement": "to_json_value (and therefore displaying the packet, as the receiver does when info logging is on) never panics on an argument of an accepted packet.", "quantifier": "all accepted packets", "why_tests_cant": "the panicking arguments are syntactically valid JSON that the strict reader rejects", "anchors": ["socket-io-protocol/src/socket/args/mod.rs: Arg::to_json_value", "socket-io-client/src/receiver.rs: Receiver::process_packet"]}
{"id": "C23", "title": "Placeholder substitution is exact", "statement": "to_json_value replaces every object having a _placeholder key by the array of bytes of the attachment its num designates, leaves everything else untouched, errors iff some placeholder has no valid num or is out of range, and performs no substitution at all when the packet has no attachments.", "quantifier": "all JSON values, all attachment lists", "why_tests_cant": "unbounded nesting", "anchors": ["socket-io-protocol/src/socket/args/mod.rs: fill_placeholders_value", "socket-io-protocol/src/socket/args/mod.rs: Arg::to_json_value"]}
{"id": "C24", "title": "The two argument readers agree", "statement": "deserialize::<Value>() and to_json_value() agree on every argument.", "quantifier": "all arguments, all attachment lists", "why_tests_cant": "disagreements need particular key orders", "anchors": ["socket-io-protocol/src/socket/args/deserialize_attachments.rs: BinaryVisitor::visit_map", "socket-io-protocol/src/socket/args/mod.rs: fill_placeholders_value"]}
{"id": "C25", "title": "Typed deserialisation ignores attachments it does not use", "statement": "When an argument contains no placeholder object, typed deserialisation gives the same result whether or not the packet carries attachments.", "quantifier": "all target shapes, all arguments, all attachment lists", "why_tests_cant": "unbounded type and value structure", "anchors": ["socket-io-protocol/src/socket/args/deserialize_attachments.rs: BinaryDeserializer", "socket-io-protocol/src/socket/args/deserialize_attachments.rs: BinaryVisitor", "socket-io-protocol/src/socket/args/deserialize_attachments.rs: BinaryMapAccess"]}
{"id": "C26", "title": "Typed deserialisation delivers attachments", "statement": "A placeholder for attachment k deserialised as a byte string or as a sequence of u8 yields exactly the bytes of attachment k, at any nesting depth, and an out-of-range index is an error.", "quantifier": "all attachments, indices, contexts", "why_tests_cant": "unbounded nesting", "anchors": ["socket-io-protocol/src/socket/args/deserialize_attachments.rs: BinaryVisitor::visit_map"]}
{"id": "C27", "title": "Callback routing", "statement": "An event is delivered to the callback most recently set for its namespace and name and not cleared since; otherwise to the namespace's current fallback; otherwise to nobody. Operations on one namespace or event never affect another.", "quantifier": "all histories of set/clear operations, all namespaces and event names", "why_tests_cant": "all histories", "anchors": ["socket-io-client/src/callbacks.rs: Callbacks", "socket-io-client/src/lib.rs: fwd_cbs"]}
{"id": "C28", "title": "Ack callbacks fire at most once", "statement": "Each registered ack callback is taken at most once over any history, and only by an ack carrying its own namespace and id.", "quantifier": "all histories", "why_tests_cant": "all histories", "anchors": ["socket-io-client/src/callbacks.rs: Callbacks::get_and_clear_ack", "socket-io-client/src/receiver.rs: Receiver::process_packet"]}
{"id": "C29", "title": "Ack ids are unique", "statement": "No two events emitted by one client with an ack request carry the same id (for fewer than 2^64 requests), across namespaces, abandoned builders and repeated callback() calls.", "quantifier": "all histories of builder calls", "why_tests_cant": "all histories", "anchors": ["socket-io-client/src/emit.rs: EventBuilder::callback", "socket-io-client/src/lib.rs: Client"]}
{"id": "C30", "title": "Acks are registered before they can arrive", "statement": "In every interleaving of the client, the connection task and a server that acknowledges only packets it has received, each at most once, an ack always finds its callback: no UnexpectedAck error occurs.", "quantifier": "all schedules, all honest servers", "why_tests_cant": "race condition over all schedules", "anchors": ["socket-io-client/src/emit.rs: EventArgsBuilder::send", "socket-io-client/src/receiver.rs: Receiver::process_packet"]}
{"id": "C31", "title": "Event delivery and ack builder", "statement": "On a well-formed event the receiver calls exactly the routed callback, once, with the packet's arguments; it passes an ack builder iff the event has an id, and what that builder sends parses back as an ack for the same namespace and id.", "quantifier": "all incoming messages, all callback tables", "why_tests_cant": "all inputs and states", "anchors": ["socket-io-client/src/receiver.rs: Receiver::process_packet", "socket-io-client/src/emit.rs: AckBuilder"]}
{"id": "C32", "title": "Reassembly of binary packets", "statement": "The receiver delivers a binary packet once all announced attachments have arrived, in order, unaffected by engine ping/pong and websocket control frames arriving in between; nothing is delivered earlier.", "quantifier": "all interleavings of control frames with attachment frames, all attachment counts", "why_tests_cant": "all interleavings", "anchors": ["socket-io-client/src/receiver.rs: Receiver::process_message", "socket-io-client/src/receiver.rs: InProgress"]}
{"id": "C33", "title": "Every ping is answered", "statement": "While the connection is open every engine ping makes the receiver queue exactly one pong and nothing else does; relative order is preserved.", "quantifier": "all incoming histories", "why_tests_cant": "all histories", "anchors": ["socket-io-client/src/receiver.rs: Receiver::process_message", "socket-io-protocol/src/engine.rs: encode_pong"]}
{"id": "C34", "title": "The callback table is not locked while user callbacks run", "statement": "The table of callbacks is released before a callback is invoked (documented on EventCallback), so a callback may register callbacks or emit events that request an ack.", "quantifier": "all callbacks, all API calls made from within them", "why_tests_cant": "lock scope is invisible unless a callback re-enters", "anchors": ["socket-io-client/src/receiver.rs: Receiver::process_packet", "socket-io-client/src/callbacks.rs: EventCallback"]}
{"id": "C35", "title": "Frames of a packet are contiguous on the wire", "statement": "In every schedule the frames written to the websocket are a prefix of the concatenation, in queueing order, of the packets queued: a packet's attachments directly follow its header, packets are not reordered, duplicated or interleaved.", "quantifier": "all schedules of any number of senders and the connection task", "why_tests_cant": "all schedules", "anchors": ["socket-io-client/src/connection.rs: process_websocket", "socket-io-client/src/emit.rs: EventArgsBuilder::send", "socket-io-client/src/emit.rs: AckArgsBuilder::send"]}
{"id": "C36", "title": "Packets queued before close are written", "statement": "A packet queued before close() is called is written to the websocket before the close frame.", "quantifier": "all schedules", "why_tests_cant": "depends on the scheduler's choice", "anchors": ["socket-io-client/src/connection.rs: process_websocket", "socket-io-client/src/connection.rs: Connection::close"]}
{"id": "C37", "title": "Close is idempotent in effect", "statement": "Of all close() calls on a client only the first can succeed; each later one fails with AlreadyClosed; at most one close frame is sent.", "quantifier": "all histories and schedules", "why_tests_cant": "all histories", "anchors": ["socket-io-client/src/connection.rs: Connection::close"]}
{"id": "C38", "title": "After the task ends nothing is delivered", "statement": "After the connection task has ended (stream end, error or panic), no callback is invoked and nothing is written any more.", "quantifier": "all schedules", "why_tests_cant": "all continuations", "anchors": ["socket-io-client/src/connection.rs: process_websocket"]}
{"id": "C39", "title": "A protocol error ends the connection", "statement": "The first message the receiver rejects ends the task with that error; every message before it was fully processed, none after it.", "quantifier": "all incoming histories", "why_tests_cant": "all histories", "anchors": ["socket-io-client/src/connection.rs: process_websocket", "socket-io-client/src/receiver.rs: Receiver::process_websocket_packet"]}
{"id": "C40", "title": "Connecting never panics", "statement": "Connecting returns a client or an error for every server behaviour.", "quantifier": "all server behaviours and schedules during the handshake", "why_tests_cant": "needs the stream to fail between handshake and Open", "anchors": ["socket-io-client/src/connection.rs: Connection::new"]}
{"id": "C41", "title": "URL preparation", "statement": "Connecting accepts exactly http, https, ws and wss URLs with a host; the scheme becomes ws or wss with the same security, host, path and effective port are those of the given URL, and the query keeps its old pairs and gains EIO=4 and transport=websocket.", "quantifier": "all URLs", "why_tests_cant": "all URLs", "anchors": ["socket-io-client/src/lib.rs: parse_url", "socket-io-client/src/lib.rs: add_socketio_query_params", "socket-io-client/src/lib.rs: Client::connect"]}
{"id": "C42", "title": "The builder's unchecked UTF-8 conversion is sound", "statement": "The bytes that finish() and serialize_header turn into a String without checking are valid UTF-8, whatever mix of failing and succeeding serialize_arg calls preceded, provided the given strings are valid UTF-8.", "quantifier": "all builder histories", "why_tests_cant": "undefined behaviour does not show in tests", "anchors": ["socket-io-protocol/src/socket/ser.rs: PacketBuilder::finish", "socket-io-protocol/src/socket/ser.rs: serialize_header"]}
{"id": "C43", "title": "Events without arguments from acks", "statement": "An ack without arguments (as any socket.io server sends for ack()) invokes its callback with no arguments.", "quantifier": "all acks", "why_tests_cant": "stated for all ids and namespaces", "anchors": ["socket-io-protocol/src/socket/de.rs: deserialize_event", "socket-io-protocol/src/socket/ser.rs: PacketBuilder::new_ack"]}
{"id": "C44", "title": "Building a packet never panics", "statement": "Creating an event or ack builder, any sequence of serialize_arg calls (failing or not) and finish() never panic; the result always starts with the message header that package_message asserts.", "quantifier": "all sources, namespaces, modes and argument histories", "why_tests_cant": "all builder histories, including failing ones", "anchors": ["socket-io-protocol/src/socket/ser.rs: PacketBuilder::new_event", "socket-io-protocol/src/socket/ser.rs: PacketBuilder::serialize_arg", "socket-io-protocol/src/socket/ser.rs: PacketBuilder::finish"]}
{"id": "C45", "title": "Fixed-length targets take the whole attachment", "statement": "Deserialising a placeholder into [u8; n] succeeds exactly when the designated attachment has n bytes (as for a JSON array of numbers).", "quantifier": "all attachments, all n", "why_tests_cant": "all lengths", "anchors": ["socket-io-protocol/src/socket/args/deserialize_attachments.rs: BinaryVisitor::visit_map"]}
{"id": "C46", "title": "Emissions are sent as asked", "statement": "Every emit that is sent gives the channel exactly one packet, built from its own namespace, event name, arguments, binary flag and ack id, and registers its own ack callback under that namespace and id; emits without an ack request keep the order of the calls. Nothing is missing unless it is under way in another thread, or a callback blocked or a callback panic poisoned the table.", "quantifier": "all runs: any number of threads, callbacks and builders, all interleavings", "why_tests_cant": "all runs", "anchors": ["socket-io-client/src/emit.rs: EventBuilder", "socket-io-client/src/emit.rs: EventArgsBuilder::send", "socket-io-client/src/lib.rs: Client::emit"]}
{"id": "C47", "title": "What is queued can always be written", "statement": "Whenever the connection task is in its main loop, it can by its own steps alone write everything queued so far, complete and in order, and be back in its main loop: no queued packet is dropped or stuck.", "quantifier": "all reachable states", "why_tests_cant": "liveness from every reachable state", "anchors": ["socket-io-client/src/connection.rs: process_websocket"]}
{"id": "C48", "title": "A server cannot make the connection task panic", "statement": "No websocket message from the server makes the connection task panic.", "quantifier": "all reachable states, all messages", "why_tests_cant": "all histories and messages", "anchors": ["socket-io-client/src/receiver.rs: Receiver::process_websocket_packet", "socket-io-protocol/src/socket/de.rs: deserialize", "socket-io-client/src/connection.rs: process_websocket"]}
{"id": "C49", "title": "A panicking callback does not affect other calls", "statement": "After a user callback has panicked, no other call of the client panics.", "quantifier": "all runs", "why_tests_cant": "all runs", "anchors": ["socket-io-client/src/receiver.rs: Receiver::process_packet", "socket-io-client/src/lib.rs: fwd_cbs", "socket-io-client/src/emit.rs: EventArgsBuilder::send"]}
{"id": "C50", "title": "The Open packet is read faithfully", "statement": "A text message of type 0 yields an Open packet exactly when no Open was received before and its text is a JSON object with exactly one sid string and exactly one pingTimeout and pingInterval that fit u64 (or the array of the three), and the packet carries exactly these values; what Open's Serialize writes reads back.", "quantifier": "all histories, all texts", "why_tests_cant": "all texts, duplicate and escaped keys", "anchors": ["socket-io-protocol/src/engine.rs: Open", "socket-io-protocol/src/engine.rs: parse_open", "socket-io-protocol/src/engine.rs: Decoder::decode"]}
{"id": "C51", "title": "Built events reach their callbacks, end to end", "statement": "The frames of events built by the packet builder, read by a live connection between packets, call the callbacks registered for their namespace and name, each exactly once, in order, only after the last frame, with the same namespace, id and arguments and an ack builder exactly when there is an id; the task then goes on as before. Acks reach the callback that waits for them; events without a listener change nothing. (For packets the header grammar reads as meant; see C09 and C15.)", "quantifier": "all reachable states, all sequences of events, namespaces, ids, arguments, both modes", "why_tests_cant": "composition of builder, engine, parser, receiver and callback table over all states", "anchors": ["socket-io-protocol/src/socket/ser.rs: PacketBuilder", "socket-io-protocol/src/engine.rs: Decoder::decode", "socket-io-protocol/src/socket/de.rs: deserialize", "socket-io-client/src/receiver.rs: Receiver::process_websocket_packet"]}
{"id": "C52", "title": "Typed arguments survive the trip", "statement": "A value of a Rust type (numbers, strings, options, newtypes, sequences, tuples, maps, structs, enums, byte strings and buffers, characters, serde_json::Value, nested at will) that is sent as an argument and read back from the received Arg as that type is the same value, in text and in binary mode, in the callback of an event or of an ack. Excepted are only: Some of a value written as null, &str that needs escapes, &[u8] in text mode or empty, and in binary mode objects whose first key needs an escape or is _placeholder, and maps with integer keys that are not empty.", "quantifier": "all types of the universe, all values, both modes, all reachable receiver states", "why_tests_cant": "types and values are unbounded; the writer and the reader are separate code", "anchors": ["socket-io-protocol/src/socket/ser.rs: PacketBuilder::serialize_arg", "socket-io-protocol/src/socket/args/mod.rs: Arg::deserialize", "socket-io-protocol/src/socket/args/deserialize_attachments.rs: deserialize"]}
{"id": "C53", "title": "Event callbacks shared between clients run one at a time", "statement": "Any number of clients and threads may share event callbacks (clones of one EventCallback). Each client then still behaves as a client alone. No two runs of one callback overlap; a run begins only if none is under way and none has panicked; whatever the callback does to its client it does during a run; the calls a client makes are run once each, in order, and a call waits only while the callback runs elsewhere.", "quantifier": "any number of clients, threads and callbacks, all interleavings", "why_tests_cant": "all schedules of several clients", "anchors": ["socket-io-client/src/callbacks.rs: EventCallback::call", "socket-io-client/src/receiver.rs: Receiver::process_packet"]}
{"id": "C54", "title": "A panicking callback affects only its own client", "statement": "A call of an event callback panics without running it only if the callback has panicked in the same client.", "quantifier": "any number of clients and threads, all interleavings", "why_tests_cant": "all schedules of several clients", "anchors": ["socket-io-client/src/callbacks.rs: EventCallback::call"]}
{"id": "C55", "title": "A received argument has the value its text means", "statement": "The value read from an argument of an accepted packet is the one its JSON text denotes by RFC 8259 and UTF-8 (escapes, surrogate pairs, the last of equal keys, integers exactly in the u64 and i64 ranges, other numbers as doubles: readable when their exact value is below 2^1024 by 2^-51 of it, unreadable when above by 2^-50 of it), with the placeholders replaced when there are attachments; it is readable exactly when the text has such a value of at most 127 levels. Strings of the value are valid UTF-8.", "quantifier": "all accepted packets, all texts", "why_tests_cant": "all texts; the reader is a separate grammar", "anchors": ["socket-io-protocol/src/socket/args/mod.rs: Arg::deserialize", "socket-io-protocol/src/socket/args/deserialize_attachments.rs: deserialize"]}
{"id": "C56", "title": "Closing can always be completed", "statement": "While close() is awaited and no callback has blocked itself, closing can still be completed by steps of the task and the server ending the stream: close() returns, with Ok if the task was running; everything queued can be written before, and the close frame is sent. If a callback has blocked itself, close() can only time out.", "quantifier": "all reachable states", "why_tests_cant": "liveness from every reachable state", "anchors": ["socket-io-client/src/connection.rs: Connection::close", "socket-io-client/src/connection.rs: process_websocket"]}
{"id": "C57", "title": "Rejections say why", "statement": "The engine decoder and the packet parser reject exactly the messages the protocol has no place for, each with one error that names the reason and carries the offending text, message or counts: after a close, second Open, before the Open, unreadable Open, wrong frame type, unknown type; no packet, arguments that are no JSON array, data where none is allowed, missing arguments, id or count, wrong attachment count, a text among the attachments, a binary message nobody waits for.", "quantifier": "all histories, all messages", "why_tests_cant": "all histories and messages; completeness and uniqueness of the classification", "anchors": ["socket-io-protocol/src/engine.rs: Decoder::decode", "socket-io-protocol/src/socket/de.rs: deserialize", "socket-io-protocol/src/socket/de.rs: deserialize_partial"]}
{"id": "C58", "title": "What is queued is written, and pings are answered", "statement": "In every infinite run in which select! does not pass over the channel for ever and every write and callback ends, everything that is queued is written some time, in order and complete, and every ping is answered with a pong, unless the task is told to close, ends, or a callback blocks itself.", "quantifier": "all infinite runs that are fair", "why_tests_cant": "infinite runs; a liveness property", "anchors": ["socket-io-client/src/connection.rs: process_websocket", "socket-io-client/src/receiver.rs: Receiver::process_websocket_packet"]}
{"id": "C59", "title": "close() returns", "statement": "In every infinite run in which select! is fair, writes and callbacks end and the server ends the stream on a close frame, an awaited close() returns some time unless a callback has blocked itself, even if there is always more to write; with the time-out it returns in any case.", "quantifier": "all infinite runs that are fair", "why_tests_cant": "infinite runs; a liveness property", "anchors": ["socket-io-client/src/connection.rs: Connection::close", "socket-io-client/src/connection.rs: process_websocket"]}
{"id": "C60", "title": "Letting go of the connection stops it", "statement": "The task is cancelled only after the user let go of the connection (dropped or timed out connecting, dropped or timed out close(), dropped the client). Once let go of, it can be cancelled whenever it is not inside a callback, and in every run in which callbacks end and cancellation is not put off for ever it is over some time: no task runs on unowned, unless a callback of it blocks.", "quantifier": "all runs, finite and infinite", "why_tests_cant": "all interleavings of dropping with the task; a liveness property", "anchors": ["socket-io-client/src/connection.rs: Connection", "socket-io-client/src/connection.rs: Connection::close", "socket-io-client/src/lib.rs: Client"]}
{"id": "C61", "title": "close() tells how the connection ended", "statement": "The task ends with Ok exactly when the stream ended, with a websocket error exactly when reading or writing failed, with an error of the receiver only when a message was rejected, with a panic only when a callback panicked, a message overflowed or could not be shown, or the channel was closed; dropped only when the user let go or the executor dropped it. close() tells which it was, and never reports a cancellation.", "quantifier": "all runs", "why_tests_cant": "all interleavings; completeness of the causes", "anchors": ["socket-io-client/src/connection.rs: process_websocket", "socket-io-client/src/connection.rs: Connection::close"]}
{"id": "C62", "title": "Exactly which texts a type accepts", "statement": "Arg::deserialize::<T>() succeeds exactly when the JSON text of the argument is worth a value as a T, and gives that value: numbers within the range, strings by their escapes (borrowed ones without), null only for units and options, arrays of exactly the length of a tuple or struct, each field of a struct exactly once or absent if it is an option, other members skipped, the last of equal keys of a map, integer keys by the number between the quotes (only without attachments), byte buffers from strings or arrays of bytes, variants by name; with attachments, an object that stands for one gives its bytes, and any other object read by its members must start with a key without escapes that is not _placeholder. Everything else is an error with the text of the argument.", "quantifier": "all received arguments, all types of the universe, all texts, all attachments", "why_tests_cant": "types, texts and attachments are unbounded; completeness of the accepted shapes", "anchors": ["socket-io-protocol/src/socket/args/mod.rs: Arg::deserialize", "socket-io-protocol/src/socket/args/deserialize_attachments.rs: BinaryDeserializer", "socket-io-protocol/src/socket/args/deserialize_attachments.rs: BinaryVisitor"]}
{"id": "C63", "title": "What a displayed packet says", "statement": "When displaying a received packet (Display for Packet, as logged) does not panic, the text shows its kind, its id in decimal and, as one JSON array, exactly the values of its arguments (attachments as arrays of bytes); packets shown alike have the same kind, id and argument values; and whatever the server sent, the text has no control characters, so that a log line cannot be forged.", "quantifier": "all accepted packets, all texts and attachments", "why_tests_cant": "all texts; injectivity and absence of control characters over all inputs", "anchors": ["socket-io-protocol/src/socket/mod.rs: Display for Packet", "socket-io-protocol/src/socket/mod.rs: Display for Data", "socket-io-protocol/src/socket/args/mod.rs: Display for Args", "socket-io-protocol/src/socket/args/mod.rs: Display for Arg"]}
{"id": "C64", "title": "A question gets its own answer", "statement": "An event sent with a callback is a question. When the answer to it (an ack of its namespace with its id) is read, the callback given with that event is called, exactly with the values sent back, whatever other questions are open and in whatever order they are registered, sent and answered; no ack with that id is ever given to another callback. In every infinite run in which sending threads, writes and callbacks go on, the channel is not passed over for ever and the server answers each question it was sent once, every question is answered to its callback, unless the task leaves its main loop or the channel is closed.", "quantifier": "all interleavings of emitting threads with the task, all infinite fair runs, up to 2^64 requests", "why_tests_cant": "interleavings of several threads with the task; a liveness property", "anchors": ["socket-io-client/src/emit.rs: EventBuilder", "socket-io-client/src/callbacks.rs: Callbacks", "socket-io-client/src/connection.rs: process_websocket", "socket-io-client/src/receiver.rs: Receiver::process_websocket_packet"]}
{"id": "C65", "title": "A received value can be sent on", "statement": "Values read from arguments as serde_json::Value (attachments filled in as arrays of bytes) can be sent on in an event or an ack, as text or in binary mode, and the packet that arrives carries exactly these values, so that a relay neither loses nor changes anything.", "quantifier": "all received packets, all values, both modes, all reachable receiver states", "why_tests_cant": "texts and values are unbounded; composition of two readers and a writer", "anchors": ["socket-io-protocol/src/socket/args/mod.rs: Arg::deserialize", "socket-io-protocol/src/socket/ser.rs: PacketBuilder::serialize_arg", "socket-io-protocol/src/socket/args/deserialize_attachments.rs: deserialize"]}
{"id": "C66", "title": "Deadlocks between callbacks and threads", "statement": "Callbacks and threads that share clients (behind a mutex each, as every method takes &mut self) wait for one another: for a client, for its callback table, which is locked while a callback of it runs, for a shared callback. If nobody asks for a client while having one, nobody calls callbacks directly and no callback sets callbacks of its own client, nobody waits for ever. In general one waits for ever exactly if one is part of, or waits for, a cycle of waits; whoever else waits can get what it waits for.", "quantifier": "all numbers of clients, threads and callbacks, all interleavings", "why_tests_cant": "all interleavings of any number of clients and threads; absence of deadlock", "anchors": ["socket-io-client/src/receiver.rs: Receiver::process_websocket_packet", "socket-io-client/src/callbacks.rs: Callbacks", "socket-io-client/src/lib.rs: Client", "socket-io-client/src/emit.rs: EventBuilder"]}
{"id": "C67", "title": "Callbacks that will never be called are let go", "statement": "A client keeps exactly the callbacks that have a use: the current callback of an event, the current fallback of a namespace, and those that wait for the answer to their event; what was replaced, cleared or answered is dropped. Once the connection is over, when no answer can come any more, no callback is kept waiting.", "quantifier": "all runs, all operations on the callback table", "why_tests_cant": "all interleavings of operations, packets and the end of the connection; absence of leaks", "anchors": ["socket-io-client/src/callbacks.rs: Callbacks", "socket-io-client/src/emit.rs: EventBuilder", "socket-io-client/src/connection.rs: process_websocket"]}
{"id": "C68", "title": "The reference implementation understands what is sent", "statement": "The frames of an event or ack whose arguments serialise are understood by the reference implementation of the protocol (socket.io-parser, over the engine.io revision that the client announces in its request) as one packet of that kind, with the same namespace, id and argument values, byte strings included.", "quantifier": "all events and acks, namespaces, ids, arguments, both modes", "why_tests_cant": "all packets against an independent specification of the other side", "anchors": ["socket-io-protocol/src/socket/ser.rs: PacketBuilder", "socket-io-protocol/src/socket/args/serialize_attachments.rs: serialize_json", "socket-io-client/src/lib.rs: add_socketio_query_params"]}
{"id": "C69", "title": "What the reference implementation sends is understood", "statement": "Every packet that the reference implementation sends (answers to joining a namespace, disconnects, events, acks, with or without attachments) is received as a packet of that kind with the same namespace, id, arguments and attachments.", "quantifier": "all packets of the reference implementation, all histories of a live connection", "why_tests_cant": "all packets of an independent specification of the other side", "anchors": ["socket-io-protocol/src/socket/de.rs: deserialize", "socket-io-protocol/src/engine.rs: Decoder::decode", "socket-io-client/src/receiver.rs: Receiver::process_websocket_packet"]}
{"id": "C70", "title": "A namespace is joined before it is used", "statement": "Before an event is sent for a namespace, a packet that joins the namespace has been sent. Everything that is written was queued as the answer to a ping, as the frames of an event or ack, or by the user through the channel itself.", "quantifier": "all runs", "why_tests_cant": "all runs; provenance of every frame", "anchors": ["socket-io-client/src/lib.rs: Client::namespace_emit", "socket-io-client/src/emit.rs: EventArgsBuilder::send", "socket-io-client/src/connection.rs: process_websocket"]}
{"id": "C71", "title": "What the server can make the client keep", "statement": "Reading one message leaves almost nothing behind in the client: no callback and no namespace that was not there, at most one pong to be written (for a ping), one ack builder in the hands of the callback called (for an event with an id), or one attachment of a packet that is still incomplete. The attachments kept are exactly those of the incomplete packet. How many the server can make the client keep is limited only by the largest number a packet can announce, 2^64 - 2.", "quantifier": "all runs, all messages, all numbers of attachments", "why_tests_cant": "all histories; an exact bound that no test can reach", "anchors": ["socket-io-client/src/receiver.rs: Receiver::process_message", "socket-io-client/src/receiver.rs: InProgress", "socket-io-client/src/callbacks.rs: Callbacks"]}
{"id": "C72", "title": "The client notices that the server is gone", "statement": "If the server falls silent (it sends a ping every pingInterval milliseconds, as it announced in its Open packet), or if it says that it closes the connection, the connection ends some time. (False of the code.) A close packet and a disconnect packet are read without any visible effect; after a close packet the next text or binary message ends the task with an error.", "quantifier": "all infinite runs in which nobody is starved", "why_tests_cant": "infinite runs; a liveness property", "anchors": ["socket-io-client/src/receiver.rs: Receiver::process_message", "socket-io-client/src/receiver.rs: Receiver::process_packet", "socket-io-client/src/connection.rs: process_websocket"]}
{"id": "C73", "title": "The text of an error is one line", "statement": "When a message of the server ends the connection with an error, the text of the error (as close() returns it) can be produced without a panic and is a single line, so that a server cannot put lines of its own into a log that the error is written to. (False of the code: a text that is not a packet, or one in the place of an attachment, is shown as it is.) It has a line break exactly when it shows such a text that has one.", "quantifier": "all runs, all messages, all errors", "why_tests_cant": "all texts that a server can send; which part of each error is escaped", "anchors": ["socket-io-client/src/receiver.rs: Error", "socket-io-protocol/src/socket/mod.rs: Error", "socket-io-protocol/src/engine.rs: Error", "socket-io-protocol/src/socket/args/mod.rs: Error", "socket-io-client/src/lib.rs: Error"]}
{"id": "C74", "title": "An untagged enum is the first variant that fits", "statement": "An argument read as a #[serde(untagged)] enum is the first of its variants that the argument could be read as on its own, and unreadable when there is none. (False of the code: serde reads the argument into a buffer first, where an attachment is a list of numbers; string and borrowed-bytes variants never receive an attachment, and a number out of range anywhere in the argument makes it unreadable. Exact for arguments without such places.)", "quantifier": "all received arguments, all untagged enums over the universe of types, all texts, all attachments", "why_tests_cant": "types, texts and attachments are unbounded; agreement of two readers", "anchors": ["socket-io-protocol/src/socket/args/mod.rs: Arg::deserialize", "socket-io-protocol/src/socket/args/deserialize_attachments.rs: BinaryDeserializer", "socket-io-protocol/src/socket/args/deserialize_attachments.rs: BinaryVisitor"]}
{"id": "C75", "title": "The order of tag and content is of no importance", "statement": "An argument read as an enum with a tag member and a content member gives the same result in whatever order its members are. (False of the code: with the tag first the content is read with its attachments, with the content first it is buffered. Exact for contents without places where the buffer makes a difference.) With the tag first, it is the variant that the tag names, with what the variant's type reads from the content; the list of tag and content is read likewise; an object with no tag, two tags or two contents is not read.", "quantifier": "all objects and permutations, all adjacently tagged enums over the universe of types, all attachments", "why_tests_cant": "all permutations of all objects", "anchors": ["socket-io-protocol/src/socket/args/mod.rs: Arg::deserialize", "socket-io-protocol/src/socket/args/deserialize_attachments.rs: BinaryDeserializer", "socket-io-protocol/src/socket/args/deserialize_attachments.rs: BinaryVisitor"]}
{"id": "C76", "title": "The tag selects the variant", "statement": "An argument read as an internally tagged enum is the variant its tag member names, with the value that the variant's type reads from the object without the tag, wherever the tag stands; a list whose first element is the tag likewise. (False of the code for borrowed bytes and strings from attachments; proved where the buffer makes no difference.) An object with no tag or two is not read. An attachment in place of the object selects the variant by its first byte.", "quantifier": "all objects, all internally tagged enums over the universe of types, all attachments", "why_tests_cant": "all objects and types; two ways of reading", "anchors": ["socket-io-protocol/src/socket/args/mod.rs: Arg::deserialize", "socket-io-protocol/src/socket/args/deserialize_attachments.rs: BinaryDeserializer", "socket-io-protocol/src/socket/args/deserialize_attachments.rs: BinaryVisitor"]}
{"id": "C77", "title": "The server hears the conversation as it was meant", "statement": "Whatever threads, callbacks and the server do: if nobody writes to the channel directly and every event emitted and every answer given is one that the reference implementation can understand, then what the client has written is, to the reference implementation, a sequence of pongs and packets (and the beginning of one more), in one way only: each event that was emitted, once and with its own namespace, id and values, each answer once and with the id of the event it answers, one pong for each ping, in the order in which they were queued, never mixed up; nothing that was not said, and, if no callback blocks, no thread panics and the channel is not closed, nothing missing but what is still on its way. In every infinite fair run all that was said is heard some time, unless the task leaves its main loop.", "quantifier": "all runs, finite and infinite, all interleavings of threads, all events and answers", "why_tests_cant": "all interleavings against an independent specification of the other side; a liveness property", "anchors": ["socket-io-client/src/emit.rs: EventArgsBuilder::send", "socket-io-client/src/emit.rs: AckArgsBuilder::send", "socket-io-protocol/src/socket/ser.rs: PacketBuilder", "socket-io-client/src/connection.rs: process_websocket", "socket-io-client/src/receiver.rs: Receiver::process_websocket_packet"]}
{"id": "C78", "title": "The client hears the conversation as it was meant", "statement": "Whatever threads and callbacks do: if the server (the reference implementation) sends pings and packets that a client can understand, one after the other, with control frames of the websocket anywhere in between, then the client takes what it has read for exactly those packets, in that order, each with its kind, namespace, id, arguments and attachments, and reacts to each at its own moment, in turn; no callback is called but in reaction to one of them; and it counts as many pings as were sent.", "quantifier": "all runs, all sequences of packets, any place at which the reading has arrived", "why_tests_cant": "all interleavings and all sequences of packets of an independent specification of the other side", "anchors": ["socket-io-protocol/src/engine.rs: Decoder::decode", "socket-io-protocol/src/socket/de.rs: deserialize", "socket-io-client/src/receiver.rs: Receiver::process_message", "socket-io-client/src/receiver.rs: Receiver::process_packet"]}
{"id": "C79", "title": "An argument can be read as its text", "statement": "An argument of a received packet read as a serde_json RawValue is its text, byte for byte, whether or not the packet has attachments and whatever the text contains, also where to_json_value panics. A RawValue holds exactly a JSON text without the whitespace around it.", "quantifier": "all received arguments, all texts, all attachments", "why_tests_cant": "all JSON texts", "anchors": ["socket-io-protocol/src/socket/args/mod.rs: Arg::deserialize", "socket-io-protocol/src/socket/args/deserialize_attachments.rs: BinaryDeserializer", "socket-io-protocol/src/socket/args/deserialize_attachments.rs: BinaryVisitor"]}
{"id": "C80", "title": "Texts are sent as they are", "statement": "An event or ack can be built from any mixture of values and RawValues, with or without attachments, and arrives with each text unchanged, each value as itself, and the attachments of the values only. (False of the code: a text with a line break is sent without an error and refused by the reader. In the namespace / the packet arrives exactly when no text has one.)", "quantifier": "all mixtures of values and texts, both modes, all namespaces and ids", "why_tests_cant": "all mixtures of arguments; composition of builder and parser", "anchors": ["socket-io-protocol/src/socket/ser.rs: PacketBuilder", "socket-io-protocol/src/socket/args/serialize_attachments.rs: BinarySerializer", "socket-io-protocol/src/socket/de.rs: deserialize"]}
{"id": "C81", "title": "Arguments can be relayed as texts", "statement": "The arguments of a received packet, sent on as RawValues, give every reader at the other end what the originals give. (False of the code: the text of an attachment is a placeholder, which refers to nothing or to another attachment. True of any selection of the arguments, if the attachments are sent after them as byte strings, or if there are none.)", "quantifier": "all received packets, any selection of arguments, all target types", "why_tests_cant": "all packets and all ways of reading them; a round trip through two connections", "anchors": ["socket-io-protocol/src/socket/args/mod.rs: Arg::deserialize", "socket-io-protocol/src/socket/args/mod.rs: Arg::to_json_value", "socket-io-protocol/src/socket/ser.rs: PacketBuilder", "socket-io-protocol/src/socket/args/deserialize_attachments.rs: BinaryDeserializer"]}
{"id": "C82", "title": "Namespaces do not bear on each other", "statement": "Which callbacks are called, with which arguments and in which order, is decided by the changes of the table, the callbacks registered for answers and the packets completed, in their order, and by nothing else: not by what is written or queued and when, not by pings, control frames or the interleaving of threads. The calls on account of packets of one namespace are decided by the part of this story that concerns the namespace: two runs that agree in it have the same calls there, whatever happens in other namespaces.", "quantifier": "all pairs of runs, all namespaces", "why_tests_cant": "a property of pairs of executions (non-interference), over all interleavings", "anchors": ["socket-io-client/src/callbacks.rs: Callbacks", "socket-io-client/src/receiver.rs: Receiver::process_packet", "socket-io-client/src/connection.rs: process_websocket", "socket-io-client/src/lib.rs: Client"]}
{"id": "C83", "title": "A 128-bit integer is read exactly", "statement": "An argument read as i128 or u128 gives an integer exactly if it is a JSON integer in the range of the type, and then that integer, sign included; integers of both types that are sent arrive and are read as themselves. (False of the code: in a packet with attachments the end of the text is not checked, so 12.5 is read as 12 and 1e3 as 1. Exact otherwise.)", "quantifier": "all received arguments, both types, all attachments; all mixtures of arguments sent", "why_tests_cant": "2^128 values; composition of builder and parser", "anchors": ["socket-io-protocol/src/socket/args/mod.rs: Arg::deserialize", "socket-io-protocol/src/socket/args/deserialize_attachments.rs: BinaryDeserializer", "socket-io-protocol/src/socket/args/serialize_attachments.rs: BinarySerializer", "socket-io-protocol/src/socket/ser.rs: PacketBuilder"]}
{"id": "C84", "title": "Flattening makes no difference", "statement": "An argument read as a struct with #[serde(flatten)] fields gives what the struct with all the fields side by side gives; a flattened map holds exactly the members that no field before it names. (False of the code: the members for flattened fields are buffered, where an attachment is a list of numbers, a list is not taken for such a struct, and a member that nobody asks for must be a Value. Exact for objects without such places.)", "quantifier": "all received objects, any number of flattened structs and maps over the universe of types, all attachments", "why_tests_cant": "types, objects and attachments are unbounded; agreement of two readers", "anchors": ["socket-io-protocol/src/socket/args/mod.rs: Arg::deserialize", "socket-io-protocol/src/socket/args/deserialize_attachments.rs: BinaryDeserializer", "socket-io-protocol/src/socket/args/deserialize_attachments.rs: BinaryVisitor"]}
{"id": "C85", "title": "Different packets look different on the wire", "statement": "The frames that the builder makes for any number of packets tell, by themselves and to anybody, how many packets there are, and of each the kind, mode, namespace, id and the values of its arguments: two different sequences of packets never give the same frames. (False of the code: an answer whose first argument cannot be serialised may look like an answer to another event in another namespace. True of all other packets, and without exception within one namespace.)", "quantifier": "all pairs of sequences of packets", "why_tests_cant": "injectivity over all pairs of unbounded inputs", "anchors": ["socket-io-protocol/src/socket/ser.rs: PacketBuilder", "socket-io-protocol/src/socket/args/serialize_attachments.rs: BinarySerializer"]}
{"id": "C86", "title": "The mode makes no difference to the reader", "statement": "A packet sent in text mode and in binary mode arrives with the same number of arguments, and each argument is read as the same value into any type: byte strings and lists of bytes as lists of numbers, whether they came as numbers or as attachments. (False of the code: a String, a borrowed byte string, a tuple or a struct is read differently or not at all out of an attachment, and maps with integer keys are read in text mode only. True of all untagged enums, internally tagged enums, flattened structs, and of all types and adjacently tagged enums that ask for nothing special where the argument has an attachment; of arguments without bytes and any type without such maps.)", "quantifier": "all packets, all arguments, all types of the universe, all enums, all namespaces and ids", "why_tests_cant": "agreement of two ways of writing and reading over unbounded values and types", "anchors": ["socket-io-protocol/src/socket/ser.rs: PacketBuilder", "socket-io-protocol/src/socket/args/serialize_attachments.rs: BinarySerializer", "socket-io-protocol/src/socket/args/deserialize_attachments.rs: BinaryDeserializer", "socket-io-protocol/src/socket/args/mod.rs: Arg::deserialize"]}
{"id": "C87", "title": "Values of enums survive the trip", "statement": "A value of an enum with #[serde(untagged)], #[serde(tag)] or #[serde(tag, content)], sent as an argument in either mode and read as the same enum, comes back as itself. (False of the code: of an untagged enum an earlier variant may be read, a Value::Null in an internally tagged variant comes back as an empty object, and bytes go through a buffer. Of an untagged enum exactly the values come back whose text no earlier variant reads; of a tagged one all whose contents the mode can carry, borrowed bytes included if the content stands beside the tag.)", "quantifier": "all enums over the universe of types, all values, both modes, all packets, namespaces and ids", "why_tests_cant": "composition of serialiser, builder, parser and reader over unbounded types and values", "anchors": ["socket-io-protocol/src/socket/ser.rs: PacketBuilder", "socket-io-protocol/src/socket/args/serialize_attachments.rs: BinarySerializer", "socket-io-protocol/src/socket/args/deserialize_attachments.rs: BinaryDeserializer", "socket-io-protocol/src/socket/args/mod.rs: Arg::deserialize"]}
{"id": "C88", "title": "Structs with flattened fields survive the trip", "statement": "A value of a struct with #[serde(flatten)] fields, structs or maps, sent as an argument in either mode and read as the same struct, comes back as itself. (False of the code: a flattened map takes every member that no field declared before it names, and a map key equal to the name of a field makes the argument unreadable. With different names it comes back exactly if every map has written just the members that are left for it; so always with at most one map, declared last.)", "quantifier": "all such structs over the universe of types, all values, both modes, all packets, namespaces and ids", "why_tests_cant": "composition of serialiser, builder, parser and reader over unbounded types and values", "anchors": ["socket-io-protocol/src/socket/ser.rs: PacketBuilder", "socket-io-protocol/src/socket/args/serialize_attachments.rs: BinarySerializer", "socket-io-protocol/src/socket/args/deserialize_attachments.rs: BinaryDeserializer", "socket-io-protocol/src/socket/args/mod.rs: Arg::deserialize"]}
{"id": "C89", "title": "Enums and flattened structs can stand anywhere in a type", "statement": "An argument read as a type that has untagged, internally or adjacently tagged enums or structs with flattened fields anywhere within it (in options, newtypes, lists, tuples, maps, structs, externally tagged enums) gives a value exactly if every such part, as an argument of its own in a packet with the same attachments, gives its value, and the containers have their usual shape; a list out of an attachment has the bytes as elements. A list is read exactly if each of its elements is, taken as an argument of its own.", "quantifier": "all received arguments nested at most 127 deep, all such types, all attachments", "why_tests_cant": "types, texts, depths and attachments are unbounded; agreement of the nested reader with the reader of whole arguments", "anchors": ["socket-io-protocol/src/socket/args/mod.rs: Arg::deserialize", "socket-io-protocol/src/socket/args/deserialize_attachments.rs: BinaryDeserializer", "socket-io-protocol/src/socket/args/deserialize_attachments.rs: BinaryVisitor", "socket-io-protocol/src/socket/args/deserialize_attachments.rs: SeqAccess", "socket-io-protocol/src/socket/args/deserialize_attachments.rs: MapAccess", "socket-io-protocol/src/socket/args/deserialize_attachments.rs: EnumAccess"]}
{"id": "C90", "title": "Values with enums and flattened structs within them survive the trip", "statement": "A value of a type that has untagged, internally or adjacently tagged enums or structs with flattened fields anywhere within it, all parts of which come back when sent alone, comes back as itself when it is sent as an argument in either mode. (False of the code: Some of something written as null comes back as None; in binary mode a Vec that begins with a byte and holds something else comes back with one element too many. True of all values without such places and, in binary mode, without objects whose first key needs an escape or is _placeholder.)", "quantifier": "all such types and values, both modes, all packets, namespaces and ids", "why_tests_cant": "composition of serialiser, builder, parser and reader over unbounded types, values and depths", "anchors": ["socket-io-protocol/src/socket/ser.rs: PacketBuilder", "socket-io-protocol/src/socket/args/serialize_attachments.rs: BinarySerializer", "socket-io-protocol/src/socket/args/deserialize_attachments.rs: BinaryDeserializer", "socket-io-protocol/src/socket/args/deserialize_attachments.rs: BinaryVisitor", "socket-io-protocol/src/socket/args/mod.rs: Arg::deserialize"]}
{"id": "C91", "title": "Connecting is decided in ten seconds", "statement": "connect() and from_stream() end (with a client, an error or a panic) within ten seconds, whatever the server does, and report a time-out never earlier; if an Open packet is read before the time is up, connecting succeeds. (False of connect(): the time that the given function takes to open the stream is not limited. From the moment the stream is there it holds; one timer counts for the handshake and the Open packet together.)", "quantifier": "all runs with all times, servers and schedules in which futures that can go on do so within d", "why_tests_cant": "all timings and schedules", "anchors": ["socket-io-client/src/connection.rs: Connection::new", "socket-io-client/src/lib.rs: Client::connect", "socket-io-client/src/lib.rs: Client::from_stream", "socket-io-client/src/lib.rs: Client::new"]}
{"id": "C92", "title": "close() returns in ten seconds", "statement": "An awaited close() returns within ten seconds of the call whatever the server, the task and its callbacks do; it returns as soon as the task has ended, and reports a time-out only after ten seconds in which the task did not end.", "quantifier": "all runs with all times, servers and schedules in which futures that can go on do so within d", "why_tests_cant": "all timings and schedules", "anchors": ["socket-io-client/src/connection.rs: Connection::close", "socket-io-client/src/connection.rs: process_websocket"]}
{"id": "C93", "title": "Errors of connecting tell what failed, and not the credentials", "statement": "The text of an error of connecting or closing tells its kind, the stage at which connecting failed, and for a refused URL which URL and why; a refused URL is refused before anything is done; no error depends on the user name and password in the URL. (The last is false of the code: a URL that is refused, for example because of a misspelled scheme, is quoted in full. If the URL is accepted it holds.)", "quantifier": "all URLs, all runs, all errors", "why_tests_cant": "all URLs and errors; independence of a part of the input", "anchors": ["socket-io-client/src/lib.rs: Error", "socket-io-client/src/lib.rs: UrlError", "socket-io-client/src/lib.rs: parse_url", "socket-io-client/src/lib.rs: Client::connect", "socket-io-client/src/lib.rs: Client::from_stream"]}
{"id": "C94", "title": "What is begun to be written is written", "statement": "A frame that the client has begun to write can be written to its end, also while the server writes to the client. (False of the code: the task does not read while it writes, so a server that does likewise and the client can block each other for ever, whatever the sizes of the buffers between them: exactly if neither what is left of the client's frame nor what is left of the server's fits into the buffer before it. Then nothing is read, written or called any more until the stream fails or the task is dropped. If the server goes on reading, every write ends and everything queued is written.)", "quantifier": "all sizes of the buffers, all frames, servers and schedules", "why_tests_cant": "deadlock and liveness over all schedules and unbounded frames", "anchors": ["socket-io-client/src/connection.rs: process_websocket"]}
{"id": "C95", "title": "Callbacks may call callbacks", "statement": "The body of an event callback may call any event callback. No two runs of one callback overlap, not even in one thread; runs of one thread end in the reverse order of their beginnings; a call goes on exactly if nobody executes the callback, and runs it unless a panic has passed through a run of it. A callback that is called from its own body, directly or by way of others, waits for ever and can be run by nobody again.", "quantifier": "any number of threads and callbacks, all depths of calls, all interleavings", "why_tests_cant": "all schedules and depths; waiting for ever", "anchors": ["socket-io-client/src/callbacks.rs: EventCallback::call"]}
{"id": "C96", "title": "A panic spoils only the callback that panicked", "statement": "A call of an event callback panics without running it only if the body of that callback itself has panicked before. (False of the code: a panic also spoils every callback on its way out, that is the callbacks that had called the one that panicked, and those that call a spoilt one later. True if the bodies catch the panics of what they call.)", "quantifier": "any number of threads and callbacks, all depths of calls, all interleavings", "why_tests_cant": "all schedules and depths", "anchors": ["socket-io-client/src/callbacks.rs: EventCallback::call"]}
{"id": "C97", "title": "Callbacks that call callbacks do not wait for ever", "statement": "If no callback is called from its own body, directly or by way of others, no call waits for ever unless a body never ends. (False of the code: two threads that execute callbacks which call each other. True if callbacks call only callbacks of smaller rank, for some rank. In general a call waits for ever exactly if its thread is in, or waits for, a set of threads each of which waits for a callback that one of them executes.)", "quantifier": "any number of threads and callbacks, all depths of calls, all interleavings", "why_tests_cant": "absence of deadlock over all schedules and depths", "anchors": ["socket-io-client/src/callbacks.rs: EventCallback::call"]}
{"id": "C98", "title": "The example programs neither block nor crash", "statement": "The programs socketio_test and ws_connect never block on the library: until main has ended there is always something that they can do without the server; main takes a bounded number of steps and the callbacks a bounded number for each call. What the callbacks print are the lines of the calls in their order. A program that succeeds has sent what it had to send and the connection ended well. With a working standard output they do not panic. (The last is false of the code: a server that sends a number too large to display makes the callback and, by way of close(), main panic. They panic only when the output fails, when a callback gets something that cannot be displayed, when the server makes the task panic, or when the connection ends before the Open packet.)", "quantifier": "both programs, all namespaces given to ws_connect, all servers, networks and schedules", "why_tests_cant": "all schedules of main thread, task and callbacks and all servers; absence of deadlock", "anchors": ["socket-io-client/examples/socketio_test.rs: main", "socket-io-client/examples/ws_connect.rs: main", "socket-io-client/src/lib.rs: Client", "socket-io-client/src/connection.rs: Connection::close"]}
{"id": "C99", "title": "socketio_test answers what it is asked and asks once", "statement": "socketio_test answers every event \"types\" of the root namespace that asks for an ack exactly once, with its id and \"message received\", in the order of the events (only the answer of a callback that has not ended can be missing). It asks its own question at most once, hears at most one answer to it, with id 0, and writes nothing else but pongs. Once its callbacks are set each event goes to the callback meant for it.", "quantifier": "all servers, networks and schedules", "why_tests_cant": "all schedules and all servers", "anchors": ["socket-io-client/examples/socketio_test.rs: main", "socket-io-client/src/emit.rs: AckBuilder", "socket-io-client/src/receiver.rs: process_websocket_packet"]}
{"id": "C100", "title": "ws_connect joins the namespace it is given", "statement": "The frame that ws_connect sends is read by a Socket.IO server as the request to join the namespace given on the command line; the program sends it at most once and nothing else but pongs; its callbacks get the events of the root and of that namespace only. (The first is false of the code: it holds exactly for namespaces that begin with a slash and contain no comma; without a leading slash nothing is ever printed for the namespace.)", "quantifier": "all namespaces, servers, networks and schedules", "why_tests_cant": "all names of namespaces, all schedules and servers", "anchors": ["socket-io-client/examples/ws_connect.rs: main", "socket-io-client/src/receiver.rs: process_websocket_packet", "socket-io-client/src/lib.rs: Client"]}
{"id": "C101", "title": "What is queued is written in time", "statement": "If the task, when it has something to do, does its next step within d (a frame is sent, a callback returns, a ready branch of select! is run) and select! passes the channel over at most k times in a row, then everything queued at some time, pongs included, has been written after at most d (1 + f + (2k + 1) p), for f frames not yet written and p messages in the channel, unless the task has left its main loop. So waiting that long before close() is enough to have everything sent. The bound cannot be lowered. Without a bound on k there is none: a server that keeps sending can keep a single frame waiting for any time.", "quantifier": "all d and k, all runs and schedules, all servers, callbacks and users", "why_tests_cant": "all schedules, numbers of messages and durations", "anchors": ["socket-io-client/src/connection.rs: process_websocket", "socket-io-client/src/receiver.rs: Receiver::process_websocket_packet"]}
{"id": "C102", "title": "Closing takes a bounded time and few messages", "statement": "With a task that does its next step within d, and select! that passes over the channel and the signal to close at most k times in a row each: after close() is called the task is done with sending the close frame after at most d (2 + h + k (f + 1)), for h frames or a callback in hand and messages of at most f frames, however many messages are queued; and at most k + 1 messages that were not written whole when close() was called are written, the others never. Both bounds are reached.", "quantifier": "all d, k and f, all runs and schedules, all servers, callbacks and users", "why_tests_cant": "all schedules, numbers of messages and durations", "anchors": ["socket-io-client/src/connection.rs: process_websocket", "socket-io-client/src/connection.rs: Connection::close"]}
{"id": "C103", "title": "What arrives is handled in time", "statement": "If the task, when it has something to do, does its next step within d, select! passes reading over at most k times in a row, and no queued message has more than f frames, then everything that has arrived from the server by some time has been handled, in the order of arrival and with nothing left out, after at most d (1 + h + n (2 + k (f + 1))), for h frames or a callback in hand and n messages not yet read, before and after close() alike, unless a callback has blocked the task or the task has ended; in particular the callbacks for the events and acks among it have been called by then. The bound is reached. Without a bound on k there is none: enough queued messages can keep a message of the server waiting for any time.", "quantifier": "all d, k and f, all runs and schedules, all servers, callbacks and users", "why_tests_cant": "all schedules, numbers of messages and durations", "anchors": ["socket-io-client/src/connection.rs: process_websocket", "socket-io-client/src/receiver.rs: Receiver::process_websocket_packet"]}
{"id": "C104", "title": "A ping that has arrived is answered in time", "statement": "With the bounds of C101 and C103 together (each step within d, neither the channel nor reading nor the signal to close passed over more than k times in a row): every ping that has arrived is read after at most the time of C103, and from any later moment its pong is written after at most the time of C101, for what is queued at that moment; unless the task has left its main loop or a user has closed the channel. The two demands on select! can be met together: time can always go on.", "quantifier": "all d, k >= 1 and f, all runs and schedules, all servers, callbacks and users", "why_tests_cant": "all schedules, numbers of messages and durations", "anchors": ["socket-io-client/src/connection.rs: process_websocket", "socket-io-client/src/receiver.rs: Receiver::process_websocket_packet"]}
