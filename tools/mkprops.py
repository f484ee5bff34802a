# Generates /verif/properties.jsonl from the table below (one tuple per property).
import json
P = []
def p(title, statement, quantifier, why, anchors):
    P.append(dict(id="C%02d" % (len(P)+1), title=title, statement=statement,
                  quantifier=quantifier, why_tests_cant=why, anchors=anchors))
ENG="socket-io-protocol/src/engine.rs"
SER="socket-io-protocol/src/socket/ser.rs"
DE="socket-io-protocol/src/socket/de.rs"
MOD="socket-io-protocol/src/socket/mod.rs"
ARG="socket-io-protocol/src/socket/args/mod.rs"
SA="socket-io-protocol/src/socket/args/serialize_attachments.rs"
DA="socket-io-protocol/src/socket/args/deserialize_attachments.rs"
SUB="owned_subslice/src/lib.rs"
CB="socket-io-client/src/callbacks.rs"
CON="socket-io-client/src/connection.rs"
EM="socket-io-client/src/emit.rs"
LIB="socket-io-client/src/lib.rs"
RCV="socket-io-client/src/receiver.rs"

p("Engine decoder: nothing before Open",
  "Feeding any sequence of websocket messages to a fresh engine decoder, no Close, Ping, Pong or Message packet is returned before an Open packet has been returned.",
  "every finite sequence of websocket messages",
  "the claim is about every history of calls; a test feeds a few",
  [ENG+": Decoder::decode", ENG+": Decoder::decode_text", ENG+": Decoder::decode_binary"])
p("Engine decoder: at most one Open",
  "Over any history a decoder returns at most one Open packet; every later Open-typed message is answered with SecondOpen (or MessageAfterClose once closed).",
  "every finite sequence of websocket messages", "quantifies over all histories", [ENG+": Decoder::decode_text"])
p("Engine decoder: silence after Close",
  "Once a decoder has returned a Close packet, every later decode call, whatever its argument, fails with MessageAfterClose, forever.",
  "every history before and after the Close", "quantifies over unbounded continuations", [ENG+": Decoder::decode"])
p("Engine decoder: errors change nothing",
  "If decode returns an error, the decoder answers every future sequence of messages exactly as if the failing message had never been delivered.",
  "every decoder history, failing message and continuation", "quantifies over all continuations", [ENG+": Decoder"])
p("Engine message round trip",
  "Once open, decoding encode_message(t) returns the text message t and decoding encode_binary(d) returns the binary message d, byte for byte; the encoders never panic, and package_message/package_binary panic exactly when the first byte is not the message header.",
  "all texts, all byte strings, every non-closed decoder history", "all byte strings of all lengths", [ENG+": encode_message", ENG+": encode_binary", ENG+": package_message", ENG+": package_binary"])
p("Owned subslice algebra",
  "An OwnedSubslice made from a whole buffer dereferences to that buffer; taking subslice(r) of a subslice and dereferencing equals slicing the dereferenced parent, with the end clamped to the parent; subslices compose and never expose bytes outside the parent.",
  "all buffers, all ranges, all nesting depths", "all ranges and nestings", [SUB+": OwnedSubslice::new", SUB+": OwnedSubslice::subslice", SUB+": Deref"])
p("JSON string escaping is transparent",
  "Any string written as a JSON string by the packet builder is read back as exactly the same bytes, and the reader stops exactly at the closing quote whatever follows.",
  "all strings, all continuations of the input", "all strings incl. control characters, quotes, backslashes and multi-byte text", [SER+": PacketBuilder::serialize_arg", DE+": parse_args", ARG+": Arg::to_json_value"])
p("Text packets in the root namespace round trip",
  "A non-binary event or ack built for namespace \"/\" with any event name, optional id and any arguments that serialise is a single text frame which the engine decoder and deserialize turn back into a packet with namespace \"/\", the same kind, the same id, and whose i-th argument reads back as the JSON value of the i-th argument that was given, if that is nested at most 127 levels deep and uses no object that starts with serde_json's private raw-value key. Deeper arguments do not keep the packet from arriving, nor the others from being read.",
  "all event names, ids below 2^64, all argument lists over the whole serde data model", "unbounded argument structure", [SER+": PacketBuilder", DE+": deserialize", ARG+": Arg::to_json_value"])
p("Text packets in any namespace round trip",
  "The same round trip holds for every namespace that starts with '/' and contains no newline.",
  "all namespaces, event names, ids, argument lists", "the interaction of greedy namespace matching with argument text is only visible on particular argument shapes", [DE+": DESERIALIZE_RE", DE+": parse_text", SER+": serialize_header"])
p("No silent corruption",
  "For every namespace starting with '/' and free of newlines, when a built packet is parsed back the outcome is either an error (or a panic) or the packet that was built: it is never a packet with a different namespace, id, kind or arguments.",
  "all namespaces, ids, argument lists", "absence of any corrupting input cannot be sampled", [DE+": DESERIALIZE_RE", DE+": parse_text", DE+": parse_args"])
p("Binary packets round trip",
  "A binary event or ack (root namespace) consisting of a header frame and its attachment frames is turned back, by decoding the header and supplying the attachments in order, into a packet with the same kind, id and arguments; byte strings come back byte for byte as arrays of their bytes. (Arguments as in C08, without objects that have a key _placeholder and without the sequences of C15.)",
  "all event names, ids, argument lists with any number and nesting of byte strings", "unbounded nesting and attachment counts", [SER+": PacketBuilder::finish", SA+": serialize_json", DE+": deserialize_partial", ARG+": fill_placeholders_value"])
p("Attachment count is truthful",
  "A finished binary packet is one text frame followed only by binary frames; the count written in the text header equals the number of binary frames that follow, and the parsed header asks for exactly that number.",
  "all sequences of serialize_arg calls, successful or failing, in binary mode", "all call sequences", [SER+": PacketBuilder::finish", SER+": PacketBuilder::serialize_arg", DE+": Partial::attachments"])
p("Placeholders are numbered consecutively",
  "The byte strings of a binary packet are attached in the order in which they occur in the arguments, and the k-th placeholder written in the JSON text refers to the k-th attachment of the packet: no attachment is unreferenced, referenced twice or out of range.",
  "all argument lists", "unbounded nesting", [SA+": Wrapper::serialize_bytes", SA+": SeqWrapper::end"])
p("A failed argument leaves the builder unchanged",
  "If serialize_arg returns an error, the packet finally produced is the same as if that call had never been made (documented: 'If serialization fails, the internal state will be unchanged').",
  "all builder histories, all failing arguments, all later calls", "all histories mixing failing and succeeding calls", [SER+": PacketBuilder::serialize_arg"])
p("Binary mode preserves sequences",
  "In binary mode a sequence that is not all bytes is sent with exactly its own elements.",
  "all sequences mixing bytes and other elements", "needs a byte-typed prefix before a non-byte element", [SA+": SeqWrapper::serialize_element"])
p("Parsing never panics",
  "deserialize returns a value or an error for every incoming engine message; it never panics.",
  "all byte strings a peer can send", "all inputs; the panicking ones are rare", [DE+": parse_text"])
p("Accessors of a parsed packet never panic",
  "For every packet returned by deserialize or deserialize_partial: namespace(), data(), args.len/get/iter never panic; slices fall on character boundaries and stay inside the message.",
  "all incoming messages and attachment lists", "all inputs", [MOD+": Packet::namespace", MOD+": Packet::data", ARG+": Args::get", ARG+": Args::iter"])
p("Arguments are the elements of the JSON array",
  "For every accepted message, the arguments of the packet are, in order and verbatim, the JSON texts of the elements of the top-level array in the message; len is their number, is_empty says whether there are none, get(i) is the i-th, get beyond len is None, and iter yields exactly get(0..len).",
  "all accepted messages", "all inputs", [DE+": parse_args", ARG+": Args::get", ARG+": ArgsIter::next"])
p("Accepted packets are well-formed",
  "deserialize accepts a text message only if it has the documented shape (type digit, optional count, optional namespace, optional id, optional JSON array); connect/disconnect packets carry no id, count or arguments; acks always carry an id; events and acks always carry at least one argument.",
  "all incoming messages", "all inputs", [DE+": deserialize_dataless", DE+": deserialize_event", DE+": deserialize_binary"])
p("Partial packets complete only with exactly the announced binary attachments",
  "A header that announces n>0 attachments yields a partial packet with attachments()=n; completing it with a list of engine messages succeeds only if the list has exactly n entries, all binary, and then the packet's attachments are these in order; attachments() never panics.",
  "all headers, all attachment lists", "all inputs", [DE+": deserialize_partial", DE+": Partial::attachments"])
p("Connect/disconnect packets round trip",
  "The engine message produced by serialize_connect(ns)/serialize_disconnect(ns) is parsed by deserialize as a connect/disconnect packet for ns.",
  "all namespaces", "all namespaces", [SER+": serialize_connect", SER+": serialize_disconnect"])
p("Reading an argument never panics",
  "to_json_value (and therefore displaying the packet, as the receiver does when info logging is on) never panics on an argument of an accepted packet.",
  "all accepted packets", "the panicking arguments are syntactically valid JSON that the strict reader rejects", [ARG+": Arg::to_json_value", RCV+": Receiver::process_packet"])
p("Placeholder substitution is exact",
  "to_json_value replaces every object having a _placeholder key by the array of bytes of the attachment its num designates, leaves everything else untouched, errors iff some placeholder has no valid num or is out of range, and performs no substitution at all when the packet has no attachments.",
  "all JSON values, all attachment lists", "unbounded nesting", [ARG+": fill_placeholders_value", ARG+": Arg::to_json_value"])
p("The two argument readers agree",
  "deserialize::<Value>() and to_json_value() agree on every argument.",
  "all arguments, all attachment lists", "disagreements need particular key orders", [DA+": BinaryVisitor::visit_map", ARG+": fill_placeholders_value"])
p("Typed deserialisation ignores attachments it does not use",
  "When an argument contains no placeholder object, typed deserialisation gives the same result whether or not the packet carries attachments.",
  "all target shapes, all arguments, all attachment lists", "unbounded type and value structure", [DA+": BinaryDeserializer", DA+": BinaryVisitor", DA+": BinaryMapAccess"])
p("Typed deserialisation delivers attachments",
  "A placeholder for attachment k deserialised as a byte string or as a sequence of u8 yields exactly the bytes of attachment k, at any nesting depth, and an out-of-range index is an error.",
  "all attachments, indices, contexts", "unbounded nesting", [DA+": BinaryVisitor::visit_map"])
p("Callback routing",
  "An event is delivered to the callback most recently set for its namespace and name and not cleared since; otherwise to the namespace's current fallback; otherwise to nobody. Operations on one namespace or event never affect another.",
  "all histories of set/clear operations, all namespaces and event names", "all histories", [CB+": Callbacks", LIB+": fwd_cbs"])
p("Ack callbacks fire at most once",
  "Each registered ack callback is taken at most once over any history, and only by an ack carrying its own namespace and id.",
  "all histories", "all histories", [CB+": Callbacks::get_and_clear_ack", RCV+": Receiver::process_packet"])
p("Ack ids are unique",
  "No two events emitted by one client with an ack request carry the same id (for fewer than 2^64 requests), across namespaces, abandoned builders and repeated callback() calls.",
  "all histories of builder calls", "all histories", [EM+": EventBuilder::callback", LIB+": Client"])
p("Acks are registered before they can arrive",
  "In every interleaving of the client, the connection task and a server that acknowledges only packets it has received, each at most once, an ack always finds its callback: no UnexpectedAck error occurs.",
  "all schedules, all honest servers", "race condition over all schedules", [EM+": EventArgsBuilder::send", RCV+": Receiver::process_packet"])
p("Event delivery and ack builder",
  "On a well-formed event the receiver calls exactly the routed callback, once, with the packet's arguments; it passes an ack builder iff the event has an id, and what that builder sends parses back as an ack for the same namespace and id.",
  "all incoming messages, all callback tables", "all inputs and states", [RCV+": Receiver::process_packet", EM+": AckBuilder"])
p("Reassembly of binary packets",
  "The receiver delivers a binary packet once all announced attachments have arrived, in order, unaffected by engine ping/pong and websocket control frames arriving in between; nothing is delivered earlier.",
  "all interleavings of control frames with attachment frames, all attachment counts", "all interleavings", [RCV+": Receiver::process_message", RCV+": InProgress"])
p("Every ping is answered",
  "While the connection is open every engine ping makes the receiver queue exactly one pong and nothing else does; relative order is preserved.",
  "all incoming histories", "all histories", [RCV+": Receiver::process_message", ENG+": encode_pong"])
p("The callback table is not locked while user callbacks run",
  "The table of callbacks is released before a callback is invoked (documented on EventCallback), so a callback may register callbacks or emit events that request an ack.",
  "all callbacks, all API calls made from within them", "lock scope is invisible unless a callback re-enters", [RCV+": Receiver::process_packet", CB+": EventCallback"])
p("Frames of a packet are contiguous on the wire",
  "In every schedule the frames written to the websocket are a prefix of the concatenation, in queueing order, of the packets queued: a packet's attachments directly follow its header, packets are not reordered, duplicated or interleaved.",
  "all schedules of any number of senders and the connection task", "all schedules", [CON+": process_websocket", EM+": EventArgsBuilder::send", EM+": AckArgsBuilder::send"])
p("Packets queued before close are written",
  "A packet queued before close() is called is written to the websocket before the close frame.",
  "all schedules", "depends on the scheduler's choice", [CON+": process_websocket", CON+": Connection::close"])
p("Close is idempotent in effect",
  "Of all close() calls on a client only the first can succeed; each later one fails with AlreadyClosed; at most one close frame is sent.",
  "all histories and schedules", "all histories", [CON+": Connection::close"])
p("After the task ends nothing is delivered",
  "After the connection task has ended (stream end, error or panic), no callback is invoked and nothing is written any more.",
  "all schedules", "all continuations", [CON+": process_websocket"])
p("A protocol error ends the connection",
  "The first message the receiver rejects ends the task with that error; every message before it was fully processed, none after it.",
  "all incoming histories", "all histories", [CON+": process_websocket", RCV+": Receiver::process_websocket_packet"])
p("Connecting never panics",
  "Connecting returns a client or an error for every server behaviour.",
  "all server behaviours and schedules during the handshake", "needs the stream to fail between handshake and Open", [CON+": Connection::new"])
p("URL preparation",
  "Connecting accepts exactly http, https, ws and wss URLs with a host; the scheme becomes ws or wss with the same security, host, path and effective port are those of the given URL, and the query keeps its old pairs and gains EIO=4 and transport=websocket.",
  "all URLs", "all URLs", [LIB+": parse_url", LIB+": add_socketio_query_params", LIB+": Client::connect"])
p("The builder's unchecked UTF-8 conversion is sound",
  "The bytes that finish() and serialize_header turn into a String without checking are valid UTF-8, whatever mix of failing and succeeding serialize_arg calls preceded, provided the given strings are valid UTF-8.",
  "all builder histories", "undefined behaviour does not show in tests", [SER+": PacketBuilder::finish", SER+": serialize_header"])
p("Events without arguments from acks",
  "An ack without arguments (as any socket.io server sends for ack()) invokes its callback with no arguments.",
  "all acks", "stated for all ids and namespaces", [DE+": deserialize_event", SER+": PacketBuilder::new_ack"])
p("Building a packet never panics",
  "Creating an event or ack builder, any sequence of serialize_arg calls (failing or not) and finish() never panic; the result always starts with the message header that package_message asserts.",
  "all sources, namespaces, modes and argument histories", "all builder histories, including failing ones", [SER+": PacketBuilder::new_event", SER+": PacketBuilder::serialize_arg", SER+": PacketBuilder::finish"])
p("Fixed-length targets take the whole attachment",
  "Deserialising a placeholder into [u8; n] succeeds exactly when the designated attachment has n bytes (as for a JSON array of numbers).",
  "all attachments, all n", "all lengths", ["socket-io-protocol/src/socket/args/deserialize_attachments.rs: BinaryVisitor::visit_map"])
p("Emissions are sent as asked",
  "Every emit that is sent gives the channel exactly one packet, built from its own namespace, event name, arguments, binary flag and ack id, and registers its own ack callback under that namespace and id; emits without an ack request keep the order of the calls. Nothing is missing unless it is under way in another thread, or a callback blocked or a callback panic poisoned the table.",
  "all runs: any number of threads, callbacks and builders, all interleavings", "all runs", [EM+": EventBuilder", EM+": EventArgsBuilder::send", LIB+": Client::emit"])
p("What is queued can always be written",
  "Whenever the connection task is in its main loop, it can by its own steps alone write everything queued so far, complete and in order, and be back in its main loop: no queued packet is dropped or stuck.",
  "all reachable states", "liveness from every reachable state", [CON+": process_websocket"])
p("A server cannot make the connection task panic",
  "No websocket message from the server makes the connection task panic.",
  "all reachable states, all messages", "all histories and messages", [RCV+": Receiver::process_websocket_packet", DE+": deserialize", CON+": process_websocket"])
p("A panicking callback does not affect other calls",
  "After a user callback has panicked, no other call of the client panics.",
  "all runs", "all runs", [RCV+": Receiver::process_packet", LIB+": fwd_cbs", EM+": EventArgsBuilder::send"])
p("The Open packet is read faithfully",
  "A text message of type 0 yields an Open packet exactly when no Open was received before and its text is a JSON object with exactly one sid string and exactly one pingTimeout and pingInterval that fit u64 (or the array of the three), and the packet carries exactly these values; what Open's Serialize writes reads back.",
  "all histories, all texts", "all texts, duplicate and escaped keys", [ENG+": Open", ENG+": parse_open", ENG+": Decoder::decode"])
p("Built events reach their callbacks, end to end",
  "The frames of events built by the packet builder, read by a live connection between packets, call the callbacks registered for their namespace and name, each exactly once, in order, only after the last frame, with the same namespace, id and arguments and an ack builder exactly when there is an id; the task then goes on as before. Acks reach the callback that waits for them; events without a listener change nothing. (For packets the header grammar reads as meant; see C09 and C15.)",
  "all reachable states, all sequences of events, namespaces, ids, arguments, both modes", "composition of builder, engine, parser, receiver and callback table over all states", [SER+": PacketBuilder", ENG+": Decoder::decode", DE+": deserialize", RCV+": Receiver::process_websocket_packet"])
p("Typed arguments survive the trip",
  "A value of a Rust type (numbers, strings, options, newtypes, sequences, tuples, maps, structs, enums, byte strings and buffers, characters, serde_json::Value, nested at will) that is sent as an argument and read back from the received Arg as that type is the same value, in text and in binary mode, in the callback of an event or of an ack. Excepted are only: Some of a value written as null, &str that needs escapes, &[u8] in text mode or empty, and in binary mode objects whose first key needs an escape or is _placeholder, and maps with integer keys that are not empty.",
  "all types of the universe, all values, both modes, all reachable receiver states", "types and values are unbounded; the writer and the reader are separate code", [SER+": PacketBuilder::serialize_arg", "socket-io-protocol/src/socket/args/mod.rs: Arg::deserialize", "socket-io-protocol/src/socket/args/deserialize_attachments.rs: deserialize"])
p("Event callbacks shared between clients run one at a time",
  "Any number of clients and threads may share event callbacks (clones of one EventCallback). Each client then still behaves as a client alone. No two runs of one callback overlap; a run begins only if none is under way and none has panicked; whatever the callback does to its client it does during a run; the calls a client makes are run once each, in order, and a call waits only while the callback runs elsewhere.",
  "any number of clients, threads and callbacks, all interleavings", "all schedules of several clients", [CB+": EventCallback::call", RCV+": Receiver::process_packet"])
p("A panicking callback affects only its own client",
  "A call of an event callback panics without running it only if the callback has panicked in the same client.",
  "any number of clients and threads, all interleavings", "all schedules of several clients", [CB+": EventCallback::call"])
p("A received argument has the value its text means",
  "The value read from an argument of an accepted packet is the one its JSON text denotes by RFC 8259 and UTF-8 (escapes, surrogate pairs, the last of equal keys, integers exactly in the u64 and i64 ranges, other numbers as doubles: readable when their exact value is below 2^1024 by 2^-51 of it, unreadable when above by 2^-50 of it), with the placeholders replaced when there are attachments; it is readable exactly when the text has such a value of at most 127 levels. Strings of the value are valid UTF-8.",
  "all accepted packets, all texts", "all texts; the reader is a separate grammar", ["socket-io-protocol/src/socket/args/mod.rs: Arg::deserialize", "socket-io-protocol/src/socket/args/deserialize_attachments.rs: deserialize"])
p("Closing can always be completed",
  "While close() is awaited and no callback has blocked itself, closing can still be completed by steps of the task and the server ending the stream: close() returns, with Ok if the task was running; everything queued can be written before, and the close frame is sent. If a callback has blocked itself, close() can only time out.",
  "all reachable states", "liveness from every reachable state", [CON+": Connection::close", CON+": process_websocket"])
p("Rejections say why",
  "The engine decoder and the packet parser reject exactly the messages the protocol has no place for, each with one error that names the reason and carries the offending text, message or counts: after a close, second Open, before the Open, unreadable Open, wrong frame type, unknown type; no packet, arguments that are no JSON array, data where none is allowed, missing arguments, id or count, wrong attachment count, a text among the attachments, a binary message nobody waits for.",
  "all histories, all messages", "all histories and messages; completeness and uniqueness of the classification", [ENG+": Decoder::decode", DE+": deserialize", DE+": deserialize_partial"])
p("What is queued is written, and pings are answered",
  "In every infinite run in which select! does not pass over the channel for ever and every write and callback ends, everything that is queued is written some time, in order and complete, and every ping is answered with a pong, unless the task is told to close, ends, or a callback blocks itself.",
  "all infinite runs that are fair", "infinite runs; a liveness property", [CON+": process_websocket", RCV+": Receiver::process_websocket_packet"])
p("close() returns",
  "In every infinite run in which select! is fair, writes and callbacks end and the server ends the stream on a close frame, an awaited close() returns some time unless a callback has blocked itself, even if there is always more to write; with the time-out it returns in any case.",
  "all infinite runs that are fair", "infinite runs; a liveness property", [CON+": Connection::close", CON+": process_websocket"])
p("Letting go of the connection stops it",
  "The task is cancelled only after the user let go of the connection (dropped or timed out connecting, dropped or timed out close(), dropped the client). Once let go of, it can be cancelled whenever it is not inside a callback, and in every run in which callbacks end and cancellation is not put off for ever it is over some time: no task runs on unowned, unless a callback of it blocks.",
  "all runs, finite and infinite", "all interleavings of dropping with the task; a liveness property", [CON+": Connection", CON+": Connection::close", LIB+": Client"])
p("close() tells how the connection ended",
  "The task ends with Ok exactly when the stream ended, with a websocket error exactly when reading or writing failed, with an error of the receiver only when a message was rejected, with a panic only when a callback panicked, a message overflowed or could not be shown, or the channel was closed; dropped only when the user let go or the executor dropped it. close() tells which it was, and never reports a cancellation.",
  "all runs", "all interleavings; completeness of the causes", [CON+": process_websocket", CON+": Connection::close"])
p("Exactly which texts a type accepts",
  "Arg::deserialize::<T>() succeeds exactly when the JSON text of the argument is worth a value as a T, and gives that value: numbers within the range, strings by their escapes (borrowed ones without), null only for units and options, arrays of exactly the length of a tuple or struct, each field of a struct exactly once or absent if it is an option, other members skipped, the last of equal keys of a map, integer keys by the number between the quotes (only without attachments), byte buffers from strings or arrays of bytes, variants by name; with attachments, an object that stands for one gives its bytes, and any other object read by its members must start with a key without escapes that is not _placeholder. Everything else is an error with the text of the argument.",
  "all received arguments, all types of the universe, all texts, all attachments", "types, texts and attachments are unbounded; completeness of the accepted shapes", [ARG+": Arg::deserialize", DA+": BinaryDeserializer", DA+": BinaryVisitor"])
p("What a displayed packet says",
  "When displaying a received packet (Display for Packet, as logged) does not panic, the text shows its kind, its id in decimal and, as one JSON array, exactly the values of its arguments (attachments as arrays of bytes); packets shown alike have the same kind, id and argument values; and whatever the server sent, the text has no control characters, so that a log line cannot be forged.",
  "all accepted packets, all texts and attachments", "all texts; injectivity and absence of control characters over all inputs", [MOD+": Display for Packet", MOD+": Display for Data", ARG+": Display for Args", ARG+": Display for Arg"])
p("A question gets its own answer",
  "An event sent with a callback is a question. When the answer to it (an ack of its namespace with its id) is read, the callback given with that event is called, exactly with the values sent back, whatever other questions are open and in whatever order they are registered, sent and answered; no ack with that id is ever given to another callback. In every infinite run in which sending threads, writes and callbacks go on, the channel is not passed over for ever and the server answers each question it was sent once, every question is answered to its callback, unless the task leaves its main loop or the channel is closed.",
  "all interleavings of emitting threads with the task, all infinite fair runs, up to 2^64 requests", "interleavings of several threads with the task; a liveness property", [EM+": EventBuilder", CB+": Callbacks", CON+": process_websocket", RCV+": Receiver::process_websocket_packet"])
p("A received value can be sent on",
  "Values read from arguments as serde_json::Value (attachments filled in as arrays of bytes) can be sent on in an event or an ack, as text or in binary mode, and the packet that arrives carries exactly these values, so that a relay neither loses nor changes anything.",
  "all received packets, all values, both modes, all reachable receiver states", "texts and values are unbounded; composition of two readers and a writer", [ARG+": Arg::deserialize", SER+": PacketBuilder::serialize_arg", DA+": deserialize"])
p("Deadlocks between callbacks and threads",
  "Callbacks and threads that share clients (behind a mutex each, as every method takes &mut self) wait for one another: for a client, for its callback table, which is locked while a callback of it runs, for a shared callback. If nobody asks for a client while having one, nobody calls callbacks directly and no callback sets callbacks of its own client, nobody waits for ever. In general one waits for ever exactly if one is part of, or waits for, a cycle of waits; whoever else waits can get what it waits for.",
  "all numbers of clients, threads and callbacks, all interleavings", "all interleavings of any number of clients and threads; absence of deadlock", [RCV+": Receiver::process_websocket_packet", CB+": Callbacks", LIB+": Client", EM+": EventBuilder"])
p("Callbacks that will never be called are let go",
  "A client keeps exactly the callbacks that have a use: the current callback of an event, the current fallback of a namespace, and those that wait for the answer to their event; what was replaced, cleared or answered is dropped. Once the connection is over, when no answer can come any more, no callback is kept waiting.",
  "all runs, all operations on the callback table", "all interleavings of operations, packets and the end of the connection; absence of leaks", [CB+": Callbacks", EM+": EventBuilder", CON+": process_websocket"])
p("The reference implementation understands what is sent",
  "The frames of an event or ack whose arguments serialise are understood by the reference implementation of the protocol (socket.io-parser, over the engine.io revision that the client announces in its request) as one packet of that kind, with the same namespace, id and argument values, byte strings included.",
  "all events and acks, namespaces, ids, arguments, both modes", "all packets against an independent specification of the other side", [SER+": PacketBuilder", SA+": serialize_json", LIB+": add_socketio_query_params"])
p("What the reference implementation sends is understood",
  "Every packet that the reference implementation sends (answers to joining a namespace, disconnects, events, acks, with or without attachments) is received as a packet of that kind with the same namespace, id, arguments and attachments.",
  "all packets of the reference implementation, all histories of a live connection", "all packets of an independent specification of the other side", [DE+": deserialize", ENG+": Decoder::decode", RCV+": Receiver::process_websocket_packet"])
p("A namespace is joined before it is used",
  "Before an event is sent for a namespace, a packet that joins the namespace has been sent. Everything that is written was queued as the answer to a ping, as the frames of an event or ack, or by the user through the channel itself.",
  "all runs", "all runs; provenance of every frame", [LIB+": Client::namespace_emit", EM+": EventArgsBuilder::send", CON+": process_websocket"])
p("What the server can make the client keep",
  "Reading one message leaves almost nothing behind in the client: no callback and no namespace that was not there, at most one pong to be written (for a ping), one ack builder in the hands of the callback called (for an event with an id), or one attachment of a packet that is still incomplete. The attachments kept are exactly those of the incomplete packet. How many the server can make the client keep is limited only by the largest number a packet can announce, 2^64 - 2.",
  "all runs, all messages, all numbers of attachments", "all histories; an exact bound that no test can reach", [RCV+": Receiver::process_message", RCV+": InProgress", CB+": Callbacks"])
p("The client notices that the server is gone",
  "If the server falls silent (it sends a ping every pingInterval milliseconds, as it announced in its Open packet), or if it says that it closes the connection, the connection ends some time. (False of the code.) A close packet and a disconnect packet are read without any visible effect; after a close packet the next text or binary message ends the task with an error.",
  "all infinite runs in which nobody is starved", "infinite runs; a liveness property", [RCV+": Receiver::process_message", RCV+": Receiver::process_packet", CON+": process_websocket"])
p("The text of an error is one line",
  "When a message of the server ends the connection with an error, the text of the error (as close() returns it) can be produced without a panic and is a single line, so that a server cannot put lines of its own into a log that the error is written to. (False of the code: a text that is not a packet, or one in the place of an attachment, is shown as it is.) It has a line break exactly when it shows such a text that has one.",
  "all runs, all messages, all errors", "all texts that a server can send; which part of each error is escaped", [RCV+": Error", MOD+": Error", ENG+": Error", ARG+": Error", LIB+": Error"])
p("An untagged enum is the first variant that fits",
  "An argument read as a #[serde(untagged)] enum is the first of its variants that the argument could be read as on its own, and unreadable when there is none. (False of the code: serde reads the argument into a buffer first, where an attachment is a list of numbers; string and borrowed-bytes variants never receive an attachment, and a number out of range anywhere in the argument makes it unreadable. Exact for arguments without such places.)",
  "all received arguments, all untagged enums over the universe of types, all texts, all attachments", "types, texts and attachments are unbounded; agreement of two readers", [ARG+": Arg::deserialize", DA+": BinaryDeserializer", DA+": BinaryVisitor"])
p("The order of tag and content is of no importance",
  "An argument read as an enum with a tag member and a content member gives the same result in whatever order its members are. (False of the code: with the tag first the content is read with its attachments, with the content first it is buffered. Exact for contents without places where the buffer makes a difference.) With the tag first, it is the variant that the tag names, with what the variant's type reads from the content; the list of tag and content is read likewise; an object with no tag, two tags or two contents is not read.",
  "all objects and permutations, all adjacently tagged enums over the universe of types, all attachments", "all permutations of all objects", [ARG+": Arg::deserialize", DA+": BinaryDeserializer", DA+": BinaryVisitor"])
p("The tag selects the variant",
  "An argument read as an internally tagged enum is the variant its tag member names, with the value that the variant's type reads from the object without the tag, wherever the tag stands; a list whose first element is the tag likewise. (False of the code for borrowed bytes and strings from attachments; proved where the buffer makes no difference.) An object with no tag or two is not read. An attachment in place of the object selects the variant by its first byte.",
  "all objects, all internally tagged enums over the universe of types, all attachments", "all objects and types; two ways of reading", [ARG+": Arg::deserialize", DA+": BinaryDeserializer", DA+": BinaryVisitor"])
p("The server hears the conversation as it was meant",
  "Whatever threads, callbacks and the server do: if nobody writes to the channel directly and every event emitted and every answer given is one that the reference implementation can understand, then what the client has written is, to the reference implementation, a sequence of pongs and packets (and the beginning of one more), in one way only: each event that was emitted, once and with its own namespace, id and values, each answer once and with the id of the event it answers, one pong for each ping, in the order in which they were queued, never mixed up; nothing that was not said, and, if no callback blocks, no thread panics and the channel is not closed, nothing missing but what is still on its way. In every infinite fair run all that was said is heard some time, unless the task leaves its main loop.",
  "all runs, finite and infinite, all interleavings of threads, all events and answers", "all interleavings against an independent specification of the other side; a liveness property", [EM+": EventArgsBuilder::send", EM+": AckArgsBuilder::send", SER+": PacketBuilder", CON+": process_websocket", RCV+": Receiver::process_websocket_packet"])
p("The client hears the conversation as it was meant",
  "Whatever threads and callbacks do: if the server (the reference implementation) sends pings and packets that a client can understand, one after the other, with control frames of the websocket anywhere in between, then the client takes what it has read for exactly those packets, in that order, each with its kind, namespace, id, arguments and attachments, and reacts to each at its own moment, in turn; no callback is called but in reaction to one of them; and it counts as many pings as were sent.",
  "all runs, all sequences of packets, any place at which the reading has arrived", "all interleavings and all sequences of packets of an independent specification of the other side", [ENG+": Decoder::decode", DE+": deserialize", RCV+": Receiver::process_message", RCV+": Receiver::process_packet"])
p("An argument can be read as its text",
  "An argument of a received packet read as a serde_json RawValue is its text, byte for byte, whether or not the packet has attachments and whatever the text contains, also where to_json_value panics. A RawValue holds exactly a JSON text without the whitespace around it.",
  "all received arguments, all texts, all attachments", "all JSON texts", [ARG+": Arg::deserialize", DA+": BinaryDeserializer", DA+": BinaryVisitor"])
p("Texts are sent as they are",
  "An event or ack can be built from any mixture of values and RawValues, with or without attachments, and arrives with each text unchanged, each value as itself, and the attachments of the values only. (False of the code: a text with a line break is sent without an error and refused by the reader. In the namespace / the packet arrives exactly when no text has one.)",
  "all mixtures of values and texts, both modes, all namespaces and ids", "all mixtures of arguments; composition of builder and parser", [SER+": PacketBuilder", SA+": BinarySerializer", DE+": deserialize"])
p("Arguments can be relayed as texts",
  "The arguments of a received packet, sent on as RawValues, give every reader at the other end what the originals give. (False of the code: the text of an attachment is a placeholder, which refers to nothing or to another attachment. True of any selection of the arguments, if the attachments are sent after them as byte strings, or if there are none.)",
  "all received packets, any selection of arguments, all target types", "all packets and all ways of reading them; a round trip through two connections", [ARG+": Arg::deserialize", ARG+": Arg::to_json_value", SER+": PacketBuilder", DA+": BinaryDeserializer"])
p("Namespaces do not bear on each other",
  "Which callbacks are called, with which arguments and in which order, is decided by the changes of the table, the callbacks registered for answers and the packets completed, in their order, and by nothing else: not by what is written or queued and when, not by pings, control frames or the interleaving of threads. The calls on account of packets of one namespace are decided by the part of this story that concerns the namespace: two runs that agree in it have the same calls there, whatever happens in other namespaces.",
  "all pairs of runs, all namespaces", "a property of pairs of executions (non-interference), over all interleavings", [CB+": Callbacks", RCV+": Receiver::process_packet", CON+": process_websocket", LIB+": Client"])
p("A 128-bit integer is read exactly",
  "An argument read as i128 or u128 gives an integer exactly if it is a JSON integer in the range of the type, and then that integer, sign included; integers of both types that are sent arrive and are read as themselves. (False of the code: in a packet with attachments the end of the text is not checked, so 12.5 is read as 12 and 1e3 as 1. Exact otherwise.)",
  "all received arguments, both types, all attachments; all mixtures of arguments sent", "2^128 values; composition of builder and parser", [ARG+": Arg::deserialize", DA+": BinaryDeserializer", SA+": BinarySerializer", SER+": PacketBuilder"])
p("Flattening makes no difference",
  "An argument read as a struct with #[serde(flatten)] fields gives what the struct with all the fields side by side gives; a flattened map holds exactly the members that no field before it names. (False of the code: the members for flattened fields are buffered, where an attachment is a list of numbers, a list is not taken for such a struct, and a member that nobody asks for must be a Value. Exact for objects without such places.)",
  "all received objects, any number of flattened structs and maps over the universe of types, all attachments", "types, objects and attachments are unbounded; agreement of two readers", [ARG+": Arg::deserialize", DA+": BinaryDeserializer", DA+": BinaryVisitor"])
p("Different packets look different on the wire",
  "The frames that the builder makes for any number of packets tell, by themselves and to anybody, how many packets there are, and of each the kind, mode, namespace, id and the values of its arguments: two different sequences of packets never give the same frames. (False of the code: an answer whose first argument cannot be serialised may look like an answer to another event in another namespace. True of all other packets, and without exception within one namespace.)",
  "all pairs of sequences of packets", "injectivity over all pairs of unbounded inputs", [SER+": PacketBuilder", SA+": BinarySerializer"])
p("The mode makes no difference to the reader",
  "A packet sent in text mode and in binary mode arrives with the same number of arguments, and each argument is read as the same value into any type: byte strings and lists of bytes as lists of numbers, whether they came as numbers or as attachments. (False of the code: a String, a borrowed byte string, a tuple or a struct is read differently or not at all out of an attachment, and maps with integer keys are read in text mode only. True of all untagged enums, internally tagged enums, flattened structs, and of all types and adjacently tagged enums that ask for nothing special where the argument has an attachment; of arguments without bytes and any type without such maps.)",
  "all packets, all arguments, all types of the universe, all enums, all namespaces and ids", "agreement of two ways of writing and reading over unbounded values and types", [SER+": PacketBuilder", SA+": BinarySerializer", DA+": BinaryDeserializer", ARG+": Arg::deserialize"])
p("Values of enums survive the trip",
  "A value of an enum with #[serde(untagged)], #[serde(tag)] or #[serde(tag, content)], sent as an argument in either mode and read as the same enum, comes back as itself. (False of the code: of an untagged enum an earlier variant may be read, a Value::Null in an internally tagged variant comes back as an empty object, and bytes go through a buffer. Of an untagged enum exactly the values come back whose text no earlier variant reads; of a tagged one all whose contents the mode can carry, borrowed bytes included if the content stands beside the tag.)",
  "all enums over the universe of types, all values, both modes, all packets, namespaces and ids", "composition of serialiser, builder, parser and reader over unbounded types and values", [SER+": PacketBuilder", SA+": BinarySerializer", DA+": BinaryDeserializer", ARG+": Arg::deserialize"])
p("Structs with flattened fields survive the trip",
  "A value of a struct with #[serde(flatten)] fields, structs or maps, sent as an argument in either mode and read as the same struct, comes back as itself. (False of the code: a flattened map takes every member that no field declared before it names, and a map key equal to the name of a field makes the argument unreadable. With different names it comes back exactly if every map has written just the members that are left for it; so always with at most one map, declared last.)",
  "all such structs over the universe of types, all values, both modes, all packets, namespaces and ids", "composition of serialiser, builder, parser and reader over unbounded types and values", [SER+": PacketBuilder", SA+": BinarySerializer", DA+": BinaryDeserializer", ARG+": Arg::deserialize"])
p("Enums and flattened structs can stand anywhere in a type",
  "An argument read as a type that has untagged, internally or adjacently tagged enums or structs with flattened fields anywhere within it (in options, newtypes, lists, tuples, maps, structs, externally tagged enums) gives a value exactly if every such part, as an argument of its own in a packet with the same attachments, gives its value, and the containers have their usual shape; a list out of an attachment has the bytes as elements. A list is read exactly if each of its elements is, taken as an argument of its own.",
  "all received arguments nested at most 127 deep, all such types, all attachments", "types, texts, depths and attachments are unbounded; agreement of the nested reader with the reader of whole arguments", [ARG+": Arg::deserialize", DA+": BinaryDeserializer", DA+": BinaryVisitor", DA+": SeqAccess", DA+": MapAccess", DA+": EnumAccess"])
p("Values with enums and flattened structs within them survive the trip",
  "A value of a type that has untagged, internally or adjacently tagged enums or structs with flattened fields anywhere within it, all parts of which come back when sent alone, comes back as itself when it is sent as an argument in either mode. (False of the code: Some of something written as null comes back as None; in binary mode a Vec that begins with a byte and holds something else comes back with one element too many. True of all values without such places and, in binary mode, without objects whose first key needs an escape or is _placeholder.)",
  "all such types and values, both modes, all packets, namespaces and ids", "composition of serialiser, builder, parser and reader over unbounded types, values and depths", [SER+": PacketBuilder", SA+": BinarySerializer", DA+": BinaryDeserializer", DA+": BinaryVisitor", ARG+": Arg::deserialize"])
p("Connecting is decided in ten seconds",
  "connect() and from_stream() end (with a client, an error or a panic) within ten seconds, whatever the server does, and report a time-out never earlier; if an Open packet is read before the time is up, connecting succeeds. (False of connect(): the time that the given function takes to open the stream is not limited. From the moment the stream is there it holds; one timer counts for the handshake and the Open packet together.)",
  "all runs with all times, servers and schedules in which futures that can go on do so within d",
  "all timings and schedules",
  [CON + ": Connection::new", LIB + ": Client::connect", LIB + ": Client::from_stream", LIB + ": Client::new"])
p("close() returns in ten seconds",
  "An awaited close() returns within ten seconds of the call whatever the server, the task and its callbacks do; it returns as soon as the task has ended, and reports a time-out only after ten seconds in which the task did not end.",
  "all runs with all times, servers and schedules in which futures that can go on do so within d",
  "all timings and schedules",
  [CON + ": Connection::close", CON + ": process_websocket"])
p("Errors of connecting tell what failed, and not the credentials",
  "The text of an error of connecting or closing tells its kind, the stage at which connecting failed, and for a refused URL which URL and why; a refused URL is refused before anything is done; no error depends on the user name and password in the URL. (The last is false of the code: a URL that is refused, for example because of a misspelled scheme, is quoted in full. If the URL is accepted it holds.)",
  "all URLs, all runs, all errors",
  "all URLs and errors; independence of a part of the input",
  [LIB + ": Error", LIB + ": UrlError", LIB + ": parse_url", LIB + ": Client::connect", LIB + ": Client::from_stream"])
p("What is begun to be written is written",
  "A frame that the client has begun to write can be written to its end, also while the server writes to the client. (False of the code: the task does not read while it writes, so a server that does likewise and the client can block each other for ever, whatever the sizes of the buffers between them: exactly if neither what is left of the client's frame nor what is left of the server's fits into the buffer before it. Then nothing is read, written or called any more until the stream fails or the task is dropped. If the server goes on reading, every write ends and everything queued is written.)",
  "all sizes of the buffers, all frames, servers and schedules",
  "deadlock and liveness over all schedules and unbounded frames",
  [CON + ": process_websocket"])
p("Callbacks may call callbacks",
  "The body of an event callback may call any event callback. No two runs of one callback overlap, not even in one thread; runs of one thread end in the reverse order of their beginnings; a call goes on exactly if nobody executes the callback, and runs it unless a panic has passed through a run of it. A callback that is called from its own body, directly or by way of others, waits for ever and can be run by nobody again.",
  "any number of threads and callbacks, all depths of calls, all interleavings",
  "all schedules and depths; waiting for ever",
  [CB + ": EventCallback::call"])
p("A panic spoils only the callback that panicked",
  "A call of an event callback panics without running it only if the body of that callback itself has panicked before. (False of the code: a panic also spoils every callback on its way out, that is the callbacks that had called the one that panicked, and those that call a spoilt one later. True if the bodies catch the panics of what they call.)",
  "any number of threads and callbacks, all depths of calls, all interleavings",
  "all schedules and depths",
  [CB + ": EventCallback::call"])
p("Callbacks that call callbacks do not wait for ever",
  "If no callback is called from its own body, directly or by way of others, no call waits for ever unless a body never ends. (False of the code: two threads that execute callbacks which call each other. True if callbacks call only callbacks of smaller rank, for some rank. In general a call waits for ever exactly if its thread is in, or waits for, a set of threads each of which waits for a callback that one of them executes.)",
  "any number of threads and callbacks, all depths of calls, all interleavings",
  "absence of deadlock over all schedules and depths",
  [CB + ": EventCallback::call"])
EXT="socket-io-client/examples/socketio_test.rs"
EXW="socket-io-client/examples/ws_connect.rs"
p("The example programs neither block nor crash",
  "The programs socketio_test and ws_connect never block on the library: until main has ended there is always something that they can do without the server; main takes a bounded number of steps and the callbacks a bounded number for each call. What the callbacks print are the lines of the calls in their order. A program that succeeds has sent what it had to send and the connection ended well. With a working standard output they do not panic. (The last is false of the code: a server that sends a number too large to display makes the callback and, by way of close(), main panic. They panic only when the output fails, when a callback gets something that cannot be displayed, when the server makes the task panic, or when the connection ends before the Open packet.)",
  "both programs, all namespaces given to ws_connect, all servers, networks and schedules",
  "all schedules of main thread, task and callbacks and all servers; absence of deadlock",
  [EXT+": main", EXW+": main", LIB+": Client", CON+": Connection::close"])
p("socketio_test answers what it is asked and asks once",
  "socketio_test answers every event \"types\" of the root namespace that asks for an ack exactly once, with its id and \"message received\", in the order of the events (only the answer of a callback that has not ended can be missing). It asks its own question at most once, hears at most one answer to it, with id 0, and writes nothing else but pongs. Once its callbacks are set each event goes to the callback meant for it.",
  "all servers, networks and schedules",
  "all schedules and all servers",
  [EXT+": main", EM+": AckBuilder", RCV+": process_websocket_packet"])
p("ws_connect joins the namespace it is given",
  "The frame that ws_connect sends is read by a Socket.IO server as the request to join the namespace given on the command line; the program sends it at most once and nothing else but pongs; its callbacks get the events of the root and of that namespace only. (The first is false of the code: it holds exactly for namespaces that begin with a slash and contain no comma; without a leading slash nothing is ever printed for the namespace.)",
  "all namespaces, servers, networks and schedules",
  "all names of namespaces, all schedules and servers",
  [EXW+": main", RCV+": process_websocket_packet", LIB+": Client"])
p("What is queued is written in time",
  "If the task, when it has something to do, does its next step within d (a frame is sent, a callback returns, a ready branch of select! is run) and select! passes the channel over at most k times in a row, then everything queued at some time, pongs included, has been written after at most d (1 + f + (2k + 1) p), for f frames not yet written and p messages in the channel, unless the task has left its main loop. So waiting that long before close() is enough to have everything sent. The bound cannot be lowered. Without a bound on k there is none: a server that keeps sending can keep a single frame waiting for any time.",
  "all d and k, all runs and schedules, all servers, callbacks and users",
  "all schedules, numbers of messages and durations",
  [CON+": process_websocket", RCV+": Receiver::process_websocket_packet"])
p("Closing takes a bounded time and few messages",
  "With a task that does its next step within d, and select! that passes over the channel and the signal to close at most k times in a row each: after close() is called the task is done with sending the close frame after at most d (2 + h + k (f + 1)), for h frames or a callback in hand and messages of at most f frames, however many messages are queued; and at most k + 1 messages that were not written whole when close() was called are written, the others never. Both bounds are reached.",
  "all d, k and f, all runs and schedules, all servers, callbacks and users",
  "all schedules, numbers of messages and durations",
  [CON+": process_websocket", CON+": Connection::close"])
p("What arrives is handled in time",
  "If the task, when it has something to do, does its next step within d, select! passes reading over at most k times in a row, and no queued message has more than f frames, then everything that has arrived from the server by some time has been handled, in the order of arrival and with nothing left out, after at most d (1 + h + n (2 + k (f + 1))), for h frames or a callback in hand and n messages not yet read, before and after close() alike, unless a callback has blocked the task or the task has ended; in particular the callbacks for the events and acks among it have been called by then. The bound is reached. Without a bound on k there is none: enough queued messages can keep a message of the server waiting for any time.",
  "all d, k and f, all runs and schedules, all servers, callbacks and users",
  "all schedules, numbers of messages and durations",
  [CON+": process_websocket", RCV+": Receiver::process_websocket_packet"])
p("A ping that has arrived is answered in time",
  "With the bounds of C101 and C103 together (each step within d, neither the channel nor reading nor the signal to close passed over more than k times in a row): every ping that has arrived is read after at most the time of C103, and from any later moment its pong is written after at most the time of C101, for what is queued at that moment; unless the task has left its main loop or a user has closed the channel. The two demands on select! can be met together: time can always go on.",
  "all d, k >= 1 and f, all runs and schedules, all servers, callbacks and users",
  "all schedules, numbers of messages and durations",
  [CON+": process_websocket", RCV+": Receiver::process_websocket_packet"])
with open("/verif/properties.jsonl","w") as f:
    for x in P: f.write(json.dumps(x)+"\n")
print(len(P))
