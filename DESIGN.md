# Formal model of iburinoc/socket.io-client-rs

Written before the proofs, kept current since.  Properties: `properties.jsonl`.  Theorems per
property: `MANIFEST.json`.  Wrong programs tried: `seeded/LOG.jsonl`.

## 1. Approach

The Rust sources are read as text and transcribed, function by function, into total, executable
Gallina (`rocq/theories`).  Every definition that models code cites file and lines of `/repo`.

* `String`, `&str`, `Vec<u8>` are `list byte`.  Theorems quantify over all byte lists; UTF-8
  validity is a separate predicate (`Utf8.v`) used where it matters.
* `Result` is `res E A := Ok a | Err e | Panic` (or an `option` with `None` for a panic).  Every
  `unwrap`, `expect`, `assert!`, `unreachable!` and every slice out of range or off a character
  boundary is an explicit panic value.
* `&mut self` methods return the new state.
* `u64` values are `N`; where the bound matters (`parse::<u64>().unwrap()`, ack ids) `2^64 - 1` is
  explicit (`u64_max`).
* Concurrency is a labelled transition system (`System.v`): `step log s l = Some (s', observations)`.
  Theorems about runs quantify over all label sequences (`trace`), that is over all schedules, all
  messages of the other side and everything a callback may do.

A property is stated through observations (what is decoded, what a packet shows, which calls happen,
which frames are written) and a small specification of its own (`Spec*.v`) that does not use the
helpers of the model: a denotation of serialised values (`json_of`), a grammar of JSON and of packet
texts (`jvalue`, `accepts`), histories of the callback table, an inductive relation for reactions,
and so on.  Beside each group of theorems an `Example ..._nonvacuous` gives a concrete case that
meets the hypotheses.

A property that is false of the code has its full statement as `CNN_full : Prop`, a theorem
`..._refuted : ~ CNN_full` with a witness, a `..._partial` theorem for the part that holds, and where
possible an exact characterisation.

## 2. Files

| file | contents |
|---|---|
| `Bytes.v`, `Utf8.v` | bytes, results, decimal numbers, checked slices, UTF-8 validity |
| `Json.v` | serde_json: lax scan (`RawValue`), strict values, writer, numbers, strings |
| `Subslice.v` | `owned_subslice/src/lib.rs` |
| `Engine.v` | `engine.rs` |
| `Regex.v`, `CharRegex.v` | leftmost-first matcher on bytes and on characters, `DESERIALIZE_RE` |
| `SocketDe.v` | `socket/mod.rs`, `socket/de.rs` |
| `SerModel.v`, `SocketSer.v` | serde data model, `serialize_attachments.rs`, `ser.rs` |
| `Args.v` | `args/mod.rs` |
| `DeModel.v` | universe of target types, serde_json's typed reader, `deserialize_attachments.rs` |
| `Buffered.v` | untagged, internally and adjacently tagged enums as the type of an argument: serde's buffer (`Content`) behind the wrapper |
| `RawArg.v` | arguments that are `RawValue`s: read and passed to the builder |
| `Flatten.v` | arguments read as structs with flattened fields |
| `Wide.v` | arguments that are 128-bit integers, read (sending them: `SInt`) |
| `Callbacks.v`, `Emit.v`, `Receiver.v` | `callbacks.rs`, `emit.rs`, `receiver.rs` |
| `System.v` | `connection.rs`, `lib.rs` (`Client`), sending; transition system |
| `Shared.v` | the mutex of an `EventCallback`; several clients and threads that share callbacks |
| `Mesh.v` | who has access to which client (`&mut self`), what callbacks and threads wait for |
| `Url.v` | URL preparation in `lib.rs` and `connection.rs` |
| `Spec*.v` | specifications used in the statements |
| `*Proofs.v`, `BuildFacts.v`, `ClientDemo.v` | lemmas and witnesses |
| `Prop*.v` | only the property theorems, each with `Print Assumptions`, and non-vacuity examples |
| `Tests.v` | the repository's unit tests, run on the model (tests of the transcription, not proofs) |

`PropEngine` C01–C06; `PropSocket` C16–C20; `PropWrite` C07–C15, C42, C44; `PropRead` C21–C26,
C43, C45; `PropClient` C27–C40; `PropUrl` C41; `PropFlow` C46–C49; `PropOpen` C50; `PropDeliver`
C51; `PropTyped` C52; `PropShared` C53, C54; `PropValue` C55; `PropLive` C56 and a theorem of C36;
`PropExact` the exact theorems of C24 and C25, `PropError` C57
(which error), `PropFair` C58 and C59 (what must happen in fair runs), `PropEnding` C60 and C61 (what ends a connection),
`PropShape` C62 (which texts a type accepts, `SpecShape.v`); `PropShow` C63 (what a packet is displayed as, `SpecShow.v`); `PropQuestion` C64 (a question gets its own answer, `SpecQuestion.v`); `PropRelay` C65 (values sent on, `SpecRelay.v`);
`PropMesh` C66 (deadlocks, `SpecMesh.v`); `PropHeld` C67 (which callbacks are kept, `SpecHeld.v`); `PropPeer`
C68–C70 (the reference implementation, `SpecPeer.v`, `SpecJoin.v`); `PropStore` C71 (what the server can make a client
keep, `SpecStore.v`); `PropSilence` C72 (noticing that the server is gone, `SpecSilence.v`); `PropText` C73 (texts of errors, `ErrorText.v`, `SpecText.v`);
`PropBuffer` C74–C76 (buffered enums, `SpecBuffer.v`); `PropTalk` C77, C78 (whole conversations, `SpecTalk.v`); `PropIsolate` C82 (pairs of runs, `SpecIsolate.v`); `PropRawArg` C79–C81 (arguments as texts,
`SpecRawArg.v`); `PropWide` C83 (128-bit integers, `SpecWide.v`); `PropFlatten` C84 (`SpecFlatten.v`);
`PropFilled` the exact theorems of C74–C76 and C84 on attachments (`SpecFilled.v`); `PropWire` C85 (different packets look different, `SpecWire.v`); `PropMode` C86 (text and binary mode, `SpecMode.v`, `SpecModeAdj.v`); `PropVariant` C87 (enums sent and read back, `SpecVariant.v`); `PropMerge` C88 (structs with flattened fields sent and read back, `SpecMerge.v`); `PropNested` C89 (enums and flattened structs within other types, `SpecNested.v`); `PropParts` C90 (such values sent and read back, `SpecParts.v`); `PropTimed` C91–C93 (time, errors of connecting, `SpecTimed.v`); `PropPipe` C94 (limited buffers, `SpecPipe.v`; frames byte by byte, `SpecFrame.v`); `PropNest` C95–C97 (callbacks that call callbacks, `SpecNest.v`); `PropProgram` C98–C100 (the example programs, `SpecProgram.v`); `PropPace` C101, C102 (how soon what is queued is written and the connection closed, `SpecPace.v`); `PropInbox` C103 (how soon what arrives is handled, `SpecInbox.v`); `PropKeep` C104 (how soon a ping that has arrived is answered, `SpecKeep.v`); later ones are named in
`MANIFEST.json`.

## 3. Trusted base

* The Coq 8.16.1 kernel (and `coqchk`), `vm_compute` included.
* Axioms: none.  `Print Assumptions` under every theorem in `Prop*.v` prints "Closed under the global
  context".  (A checker that lists every axiom of every *loaded* library file also shows seven entries
  `Coq.ssr.ssrunder.Under_rel.*`: parameters of a module type inside the standard library file
  `ssrunder`, which `Lia`/ssreflect plumbing loads.  No theorem depends on them.)
* The transcription: that the definitions say what the Rust code does.  It is checked by reading, by
  `Tests.v` (every unit test of the repository holds of the model), and indirectly by the theorems.
* The reading of external crates, listed next.

### External crates, as modelled

* `serde_json` 1.0 (features std, raw_value): the lax grammar for `RawValue` and ignored values; the
  strict reading into `Value` and into types (depth limit 128, surrogate pairs, number range, private
  raw-value key, duplicate keys); the compact writer; map-key writer; `Number` as the literal for
  floats (no arithmetic on floats is modelled: a float is the literal that is printed, and reading
  decides only whether it is in range).
* `serde`: the data model (`sval`) of what a `Serialize` implementation can ask for, including
  failure; std/derived `Deserialize` implementations for the universe `ty`; the private `Content` buffer of
  derived untagged and tagged enums (`Buffered.v`) and of structs with flattened fields (`Flatten.v`).
* `regex` 1.3: leftmost-first matching.  The byte matcher used in the model and a matcher on whole
  characters are proved to agree on the pattern for valid UTF-8 (`captures_same`).
* `tungstenite::Message`: text, binary, ping, pong, close; a text message is valid UTF-8.
* `futures` mpsc and oneshot channels, `select!`, `RemoteHandle` (dropping it cancels the task at its next
  poll; awaiting it panics if the task panicked or was dropped), std `Mutex` (not reentrant,
  poisoned by panics): in `System.v`, every ready branch may be taken.
* `url`: components of a parsed URL and the operations used on them.

### Modelled code

* `owned_subslice/src/lib.rs`: all of it (`new`, `subslice`, `Deref`, `DerefMut`, equality).
* `engine.rs`: `Decoder`, `parse_open`, `Open`'s `Deserialize` and `Serialize`, `encode_*`, `package_*`, headers.
* `socket/mod.rs`, `de.rs`: everything; the `Display` and `Debug` texts of packets are modelled in full.
* `ErrorText.v`: the `Display` texts of the errors of `engine.rs`, `socket/mod.rs`, `args/mod.rs`, `receiver.rs` and
  `lib.rs` (`ProcessingError`), with Rust's `Debug` for strings, lists, options, ranges and derived types.
* `ser.rs`, `args/mod.rs`, `serialize_attachments.rs`, `deserialize_attachments.rs`: everything,
  over the serde data model and the universe `ty`.
* `callbacks.rs`: the tables, and in `Shared.v` the mutex of each event callback.  `emit.rs`: all builders.  `receiver.rs`: all.  `connection.rs`:
  `Connection::new`, `process_websocket`, `Connection::close`.  `lib.rs`:
  `Client`, `Namespace` calls, URL builder.
* `Timed.v`: `Client::connect`, `from_stream` and `new` as a whole, the texts of `Error` and `UrlError`, and time: both
  timers of `connection.rs`, every step at a time.  What is assumed of the executor is `prompt` in `SpecTimed.v`: a future
  that can go on does so within `d` milliseconds (a parameter); C91 shows that this can always be met.
* `Pipe.v`: the task of `connection.rs` writing into and reading from a connection whose two directions hold a limited
  number of bytes, with a server that writes and reads: a write ends when all bytes of the frame are in the pipe, and
  the task takes bytes out only while it waits for a message.
* `Nest.v`: `EventCallback::call` from within bodies of callbacks: threads with the stack of bodies they execute, the mutexes,
  panics that pass through any number of bodies.
* `Programs.v`: `examples/socketio_test.rs` and `examples/ws_connect.rs`: the main thread and the closures step by step, as
  users of the client of `System.v`; the waiting for the time given on the command line may end at any moment.

### Not modelled

* `Url::parse` (only invariants of its results, `parsed_ok` and `url_parts`), lossy UTF-8 decoding of query pairs.
* TLS, the websocket handshake, tungstenite's framing; in `System.v` the time-out future is a label that may
  happen at any time (in `Timed.v` when its timer has run out).
* Texts of errors of url, futures, serde_json and tungstenite (where they occur in other
  errors: parameters, `formats` in `ErrorText.v`, `lib_formats` in `Timed.v`); log output except for the packets formatted into it.
* `From` implementations of `EventCallback`/`AckCallback`.  A callback that uses another client
  is in `System.v` and `Shared.v` a user thread that does so meanwhile; that the callback waits for it
  is recorded in `Mesh.v` only.  A callback that calls another callback is such a thread everywhere but in `Nest.v`, which
  has no clients; deadlocks through clients and nested calls together are not modelled.
  In `Mesh.v` a method that panics (poisoned table) does not make the callback panic that called it,
  unless the step `LCbPanic` follows.
* `protocol.rs` (re-exports).  Of `examples/`: parsing of the command line, logging, opening the TCP stream.
* `usize` overflow (buffers beyond 2^63), memory exhaustion, stack overflow.
* Target types outside `ty` (maps with keys other than strings and integers, `RawValue` and 128-bit integers inside other types (`RawArg.v` and `Wide.v` have them as whole arguments);
  untagged, internally and adjacently tagged enums and structs with flattened fields inside the variants of such enums or inside flattened fields (inside other types they are in `Nested.v`); flattened fields other than structs and maps), `Serialize` implementations with wrong length hints.

### Over-approximations

The transition system allows a little more than the code: dropping the client or calling `close`
again while `close` is being awaited (Rust's `&mut` forbids it), steps of `send` split at the release
of the mutex, any order of ready branches.  In `System.v` a callback that waits for its own mutex is
one that has not done anything yet, and a poisoned one is one that panics at once; C53 makes this
precise.  Every theorem about all runs therefore covers the real ones.  The theorems about infinite
runs (C58–C60, C64, C77) assume fairness explicitly, as hypotheses: `select!` passes over no branch for ever, and
writes and callbacks end.  The theorems about time (C101–C104) put numbers in the place of fairness: a task
with something to do does its next step within `d`, and `select!` passes over a ready branch at most
`k` times in a row.  Neither number is in the code (`select!` chooses at random), so both are parameters
of the theorems, and `C101_no_bound_without_fairness` and `C103_no_bound_without_fairness` say what
happens without `k`.  The stream may end or fail while messages that have arrived are not read yet.

## 4. Results

Each line of `MANIFEST.json` names the theorems.  In short:

* engine: C01 refuted for text messages (exact criterion), C02–C06, C50 proved;
* writing: C07, C08, C11–C13, C42, C44 proved; C09, C10, C14, C15, C21, C85–C88, C90 refuted with exact or partial
  theorems;
* reading: C17–C20, C23, C26, C55, C57, C62, C63, C89 proved; C16, C22, C24, C25, C43, C45, C74–C76, C84 refuted with exact or partial theorems;
* client: C27–C30, C32, C33, C35, C37–C39, C41, C46, C47, C56, C58–C61, C64, C71, C92, C95 proved; C31, C34, C36, C40, C48, C49, C67, C72, C73, C91, C93, C94, C96, C97 refuted
  with exact or partial theorems;
* end to end: C51 (built events and acks reach their callbacks), C52 (typed arguments survive the trip)
  proved; C65 (received values can be sent on) refuted for serde_json's private key, with the exact criterion (`RereadProofs.v`);
* example programs: C99 proved; C98, C100 refuted with exact or partial theorems;
* pairs of runs that agree in one namespace: C82 proved;
* arguments as texts: C79 proved; C80, C81 refuted with exact theorems; 128-bit integers: C83 refuted for reading (exact theorem), proved for the trip.
* against the reference implementation: C77, C78 (whole conversations) proved; C68–C70 refuted with exact theorems (`SpecPeer.v` says what it reads and
  writes; that specification was written from its documented behaviour and is not checked against its
  source; numbers are taken exactly, ids and counts below 2^53, white space where an id may stand is not covered);
* several clients: C53 proved, C54 and C66 (deadlocks) refuted with exact theorems (and proved absent where things are asked for in order of a rank, `MeshOrder.v`);
* time to write what is queued and to close: C101, C102 proved; time to handle what arrives: C103 proved; both together, for pings: C104 proved.

### Findings about the code

1. Text messages are accepted before Open (`engine.rs`, the `'4'` branch) — C01.
2. An id or attachment count of 2^64 or more panics (`parse().unwrap()`) — C16, C48.
3. The header pattern takes the namespace greedily: arguments containing `,[` or `,<digits>[` are
   misread in a namespace other than `/` — C09.
4. `serialize_connect`/`serialize_disconnect` put the engine header into the message — C21.
5. A failed `serialize_arg` does not restore `first` — C14, C10.
6. In binary mode a sequence that starts with `u8` and continues otherwise gains an element — C15.
7. An ack without arguments is rejected (`MissingData`) — C43, C31.
8. `to_json_value` and `Display` panic on arguments that only passed the lax scan — C22.
9. The two readers of placeholders disagree; an escaped first key is an error when attachments are
   present — C24, C25.
10. Fixed-length targets silently drop surplus bytes of an attachment — C45.
11. The callback table stays locked while a callback runs: `set_*` or an emit with callback from inside
    a callback deadlocks; a panic in it poisons the table — C34, C49.
12. `close` may drop queued packets — C36.
13. `open.unwrap()` panics if the task ends before Open — C40.
14. An unexpected ack id ends the connection task.
15. `Client::send` is public: `close_channel()` on it makes the task panic.
16. The "second open" branch in `receiver.rs` is dead code; `UrlError::NoHost` is dead code too.
17. A remote server can panic the task — C48.
18. `Some(None)`, `Some(())` come back as `None`; an empty `&[u8]`, or any in text mode, cannot be read
    back — C52.
19. Clones of one `EventCallback` share a mutex: a panic in one client ends every other client that
    calls it — C54.
20. If the executor drops the task (a runtime that shuts down), `close()` panics, and so does connecting
    (`open.unwrap()`) — C61, C40.
21. A map with integer keys (`HashMap<u64, T>`) is read from a packet without attachments, but never (unless
    empty) from one with attachments: the first key is handed over as a string
    (`deserialize_attachments.rs:424-430`) — C25, C52, C62.  Likewise a byte buffer written as a string
    with a lone surrogate.
22. The table stays locked while a callback runs and all methods take `&mut self`: a callback that uses
    its own client through a shared mutex deadlocks with a thread that has the client and sets a
    callback (or emits with a callback for the ack); two callbacks that set callbacks of each other's
    clients deadlock too — C66.
23. The end of the connection lets go of no callback that waits for an ack: they are neither called nor
    dropped while the client lives, and there is no way to remove them.  `send()` of an event with a
    callback after the end registers one more, drops the packet and reports nothing
    (`emit.rs`: the result of `unbounded_send` is not looked at) — C67.
24. The request announces revision 4 of the engine.io protocol (`lib.rs:224`, `EIO=4`), but binary frames
    are written and read as in revision 3, with a byte 4 in front: a peer of revision 4 gets every byte
    string with one byte too many, and the first attachment it sends ends the connection (unless it
    happens to begin with 4, when it loses that byte) — C68, C69.
25. No namespace is ever joined: `namespace_emit` only puts the namespace into the packet — C70.  The answer of a
    peer of revision 5 of the socket.io protocol to joining one (`0{"sid":...}`) is refused and ends the
    connection — C69.
26. Nothing keeps a user from events that the peer reserves (`connect`, `disconnect`, ...), which it
    answers by closing the connection, nor from commas in a namespace — C68.
27. Findings 2 and 3 together: outside `/`, the text of a string argument that another user wrote, say
    `a,99999999999999999999[b`, makes the task of the client that receives it panic; any packet of the
    peer that is not understood ends the connection — C69.
28. A server that falls silent is never noticed: `pingInterval` and `pingTimeout` are read and not used, and
    there is no timer.  The engine's close packet and disconnect packets are read without effect — C72.
29. A packet may announce up to 2^64 - 1 attachments; the client keeps what arrives until all are there,
    without any limit — C71.
30. The errors of `socket/mod.rs` show texts with `{0}` instead of `{0:?}`: a server that sends a text that is no
    packet writes whatever it likes, line breaks included, into the error that the connection ends with — C73.
31. Enums that serde buffers (untagged, internally tagged, adjacently tagged with the content first) see an
    attachment as a list of numbers, because the wrapper answers `deserialize_any` with a sequence: variants with
    `String`, `&str` or `&[u8]` that can be read on their own are lost — C74–C76.  An attachment in place of an
    internally tagged object is an instance of the variant that its first byte numbers — C76.  The same buffer
    is behind flattened fields — C84.
32. With attachments in the packet nothing checks the end of an argument's text (`deserialize_attachments.rs:30-37`):
    read as `i128` or `u128`, `12.5` is 12 and `1e3` is 1 — C83.
33. The ten seconds of `Client::connect` do not count while the given function opens the stream (`lib.rs:118-123`), and the
    handshake and the Open packet share one timer (`connection.rs:46`) — C91.
34. `Error::UrlError` quotes the whole URL, with user name and password, if it is refused — C93.
35. While a frame is written the task does not read (`connection.rs:151-157`, the `await` within the branch of `select!`):
    with a server that does the same both can wait for ever, and neither pings nor `close()` are seen — C94.
36. A panic in a callback poisons also the callbacks that had called it (`callbacks.rs:19`, one guard per call on the stack),
    so one panicking callback can end every client that uses one of its callers — C96.
37. A server can make both example programs panic: `println!("{}", args)` with a number such as `1e999`
    (`socketio_test.rs:49`, `ws_connect.rs:53`), and `close()` passes the panic on to `main` — C98.
38. `ws_connect --namespace chat` asks to join the root namespace with a payload that is no JSON (`ws_connect.rs:63`) — C100.

## 5. Wrong programs

Mutants of the model are built in a scratch copy; proofs that no longer check are admitted there and
the theorems that depend on them are recorded.  `seeded/LOG.jsonl` has one line per mutant: the
definition, the edit, the claim it breaks, the theorems that failed and what was tightened.

How to read a line:
- `lemmas_rejected` are the proofs that Rocq rejected for the mutant.  That is what was observed.
- `theorems_failed` is computed from it: the property theorems of the current tree whose proofs use a
  rejected lemma.  It means that the proof no longer stands, not that the statement is false of the mutant;
  a lemma used by many theorems makes the list long.
- Mutants are not rerun when theorems are added, so a list can name a theorem younger than the run.
- Many runs stop at the first rejected lemmas that reach a theorem, so `lemmas_rejected` need not be complete.
- Mutants that were not run to the end have no line.
