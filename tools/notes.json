{
 "C01": [
  "partial",
  "Full statement refuted (C01_nothing_before_open_refuted): text messages are passed on before Open. The partial theorem proves it for every other packet; C01_text_message_exact says exactly when text messages are passed on."
 ],
 "C16": [
  "partial",
  "False as stated: ids or attachment counts >= 2^64 make parse::<u64>().unwrap() panic (C16_..._refuted). C16_parsing_panics_exactly characterises the panic; the _partial theorem covers all other messages."
 ],
 "C09": [
  "partial",
  "False as stated: the header regex takes the namespace greedily, so arguments containing ',[' or ',<digits>[' (nested arrays, some strings) are misread (C09_..._refuted). C09_round_trip_exact says exactly which packets arrive and what happens to the others; the _partial theorem gives a condition on the arguments."
 ],
 "C10": [
  "partial",
  "False as stated (C10_..._refuted: an ack whose first argument fails, with a namespace containing ',9['). The _partial theorems cover every namespace, both modes and all packets whose first ack argument does not fail, or whose namespace has no comma followed by a number and a bracket; C10_..._exactly says exactly when it holds, C10_what_arrives_instead what arrives otherwise."
 ],
 "C14": [
  "partial",
  "False as stated for the first argument of an ack (C14_..._refuted). C14_failed_argument_exact states the exact effect in every state; the _partial theorem covers every other position."
 ],
 "C15": [
  "partial",
  "False as stated: a sequence that starts with u8 and continues with something else gains an element 4 (C15_..._refuted). C15_sequences_exact describes exactly what arrives; the _partial theorem covers values without such sequences."
 ],
 "C21": [
  "partial",
  "False as stated: serialize_connect/serialize_disconnect put the engine '4' prefix into the EngineMessage, so deserialize always answers InvalidMessage (C21_..._refuted, C21_..._rejected). The _partial theorem: the same text as a websocket frame is parsed as intended."
 ],
 "C22": [
  "partial",
  "False as stated: arguments are only scanned for JSON syntax, so deep nesting, unpaired surrogates and out-of-range numbers panic (C22_..._refuted). C22_reading_panics_exactly and C22_display_panics_exactly characterise the panics; the _partial theorem covers all other arguments."
 ],
 "C24": [
  "partial",
  "False as stated: {\"num\":0,\"_placeholder\":true} is a placeholder for to_json_value only (C24_..._refuted). The _partial theorem covers packets without attachments and arguments in canonical shape. C24_readers_agree_exactly says exactly when the two readers agree, for every text with a value and different keys in every object."
 ],
 "C25": [
  "partial",
  "False as stated: when the packet carries attachments, an object whose first key is written with an escape is an error (C25_..._refuted). The _partial theorem covers all arguments whose objects have ordinary first keys and all types without byte buffers and integer-keyed maps. C25_unused_attachments_exactly says exactly when unused attachments make no difference."
 ],
 "C43": [
  "partial",
  "False as stated: every ack without arguments is rejected with MissingData (C43_..._refuted, C43_..._rejected). The _partial theorem covers acks with arguments."
 ],
 "C45": [
  "partial",
  "False as stated: surplus bytes are dropped silently (C45_..._refuted). The _partial theorem says exactly what is read."
 ],
 "C31": [
  "partial",
  "Delivery and the ack builder's provenance are proved in full (C31_event_delivered, C31_builders_used_once, C31_ack_source). That what the builder sends always parses back is false: an ack without arguments is rejected (C31_..._refuted, see also C43, C14, C09). The _partial theorem gives the cases in which it does, and that otherwise nothing else is read."
 ],
 "C34": [
  "partial",
  "False as stated: the mutex guard lives until the end of the `if let`, so the table is locked during the call (C34_..._refuted). C34_blocks_exactly and C34_blocked_forever characterise it; the _partial theorem: sending without an ack request and answering never block."
 ],
 "C36": [
  "partial",
  "False as stated: select! may take the close signal while packets are queued (C36_..._refuted). The _partial theorem: only whole packets, the first ones queued, are written before the close frame and nothing after it; C36_any_number_written: any number of them is possible, so nothing stronger holds."
 ],
 "C40": [
  "partial",
  "False as stated: open.unwrap() panics if the task ends before Open (C40_..._refuted). The other theorems say exactly when, and that a returned client has the server's sid."
 ],
 "C48": [
  "partial",
  "False as stated: an id or attachment count beyond 2^64-1 panics, and so does logging a packet that cannot be displayed (C48_..._refuted). The _partial theorem says that exactly these two kinds of messages do; C48_all_panics_of_task lists every cause of a panic of the task."
 ],
 "C49": [
  "partial",
  "False as stated: the panic poisons the mutex of the callback table, and later set_*/clear_* calls and emits with an ack request panic (C49_..._refuted). The _partial theorem says that exactly these calls do."
 ],
 "C52": [
  "proved",
  "Proved for every typed value that is recoverable (the condition is in the statement). C52_unrestricted_refuted shows that the condition is needed: Some(None) reads back None."
 ],
 "C54": [
  "partial",
  "False as stated: clones of an EventCallback share one mutex, so a panic in one client poisons it and the next client that calls it panics too (C54_..._refuted, two clients). C54_refused_because_of_another says that a refusal always comes from somebody else; the _partial theorem says that a callback nobody else runs is never refused; C54_panics_exactly lists all causes of panics of a task among other clients."
 ],
 "C55": [
  "proved",
  "A double is represented by its literal: which of the nearest doubles it becomes is not modelled; its range is (C55_double_range; in the window of 2^-50 around 2^1024 the rounding of serde_json, modelled in num_of, decides)."
 ],
 "C62": [
  "proved",
  "Over the universe of target types ty (DeModel.v); a double is represented by its literal."
 ],
 "C63": [
  "proved",
  "A double is shown as its literal; the code prints the shortest decimal of the double it was rounded to, so packets whose doubles differ only by rounding may be shown alike."
 ],
 "C64": [
  "proved",
  "The id counter has not wrapped around (few_requests). Liveness assumes, as hypotheses: threads, writes and callbacks go on, LTake is not passed over for ever, the server answers what was written, once."
 ],
 "C65": [
  "partial",
  "False in full (C65_relay_refuted: an object with serde_json's private key behind another key is rewritten with it first and refused). Exact: each argument reads as the value itself if no object in it has that key as its least key and it has at most 127 levels, and as nothing otherwise, in either mode (C65_each_argument_exactly, C65_unchanged_exactly); any text without that key gives such a value (C65_ordinary_values). At other namespaces than / arrival is C09's business; what arrives is right. Which literal a double is printed as is not modelled (any that reads as a double)."
 ],
 "C66": [
  "partial",
  "False in full (C66_no_deadlock_refuted: a thread that has the client sets a callback while a running callback waits for the client). Proved if callbacks use no clients, or if nobody touches the callback tables, or if everybody asks in the order of some rank (in particular: callbacks use only clients of lower levels). What deadlocks consist of, that they last, and that only they last, is proved for all runs. Callbacks that call other callbacks themselves, and poisoning of the user's own mutex, are not modelled."
 ],
 "C67": [
  "partial",
  "The last sentence is false (C67_waiting_let_go_refuted: the stream ends while a callback waits; C67_waits_for_ever, C67_asked_too_late: it is kept for ever, and so are those of events emitted after the end). The rest is proved exactly. Ids may not have wrapped around (2^64 requests) where answers are concerned."
 ],
 "C68": [
  "partial",
  "False in full (C68_peer_understands_refuted: the request says EIO=4, but binary frames carry the byte 4 of revision 3; C68_extra_byte). In the third revision, or without attachments, proved exactly: understood iff the namespace has no comma and the event name is not reserved. The reference implementation is a specification in SpecPeer.v, written from its documented behaviour; numbers are taken exactly, ids and counts below 2^53."
 ],
 "C69": [
  "partial",
  "False in full (C69_client_understands_refuted: the answer to joining a namespace has a JSON object as payload and is refused, which ends the connection: C69_join_answer_ends). What is understood is characterised exactly: third-revision attachments only, arguments present, and outside / no bracket after a comma (C09)."
 ],
 "C70": [
  "partial",
  "The first sentence is false (C70_joined_before_use_refuted); in fact no namespace is ever joined or left except by frames the user pushes (C70_never_joins). The second sentence is proved (C70_written_was_queued, C70_sources_partial)."
 ],
 "C71": [
  "proved",
  "Every message's lasting effects (C71_one_message), the attachments kept (C71_kept_exactly) and the exact bound (C71_kept_bound)."
 ],
 "C72": [
  "partial",
  "The first sentence is false (C72_server_gone_noticed_refuted), from every state of the client (C72_never_noticed: nothing ever times out). The second sentence is proved (C72_close_ignored, C72_disconnect_ignored, C72_after_close_partial). With time: C72_however_long, C72_time_changes_nothing."
 ],
 "C73": [
  "partial",
  "The first sentence is false (C73_one_line_refuted; C73_forged: any text with a line break appears verbatim). The exact criterion, and that no error text panics, is proved (C73_one_line_partial). Texts of serde_json errors, JSON values and close frames are parameters, assumed to be without control characters; which characters beyond ASCII Debug escapes is a parameter without assumptions."
 ],
 "C74": [
  "partial",
  "False in general (C74_first_variant_refuted). Proved exactly where the buffer makes no difference (C74_first_variant_partial); two exact limits: C74_needs_a_value, C74_no_attachment_for_bytes. What holds in general is proved exactly: the first variant that can be read from the text with the numbers of the bytes in the place of each attachment (C74_first_of_numbers, C74_attachments_are_numbers, C74_needs_attachments). Enums only as the type of the whole argument."
 ],
 "C75": [
  "partial",
  "False in general (C75_order_refuted: the attachment is lost when the content comes first). Proved for contents that read as a Value with nothing at a place where the buffer makes a difference (C75_order_partial). The last sentence is proved exactly (C75_variant_read, C75_pair_read, C75_one_tag). A content ahead of the tag sees attachments exactly as lists of numbers (C75_content_first_numbers, C75_content_first_needs)."
 ],
 "C76": [
  "partial",
  "The first sentence is false (C76_tag_refuted), proved where the buffer makes no difference (C76_tag_partial, C76_list_partial). The last two sentences are proved (C76_one_tag, C76_attachment_names_variant). What holds in general: attachments within are exactly the lists of their numbers (C76_attachments_are_numbers, C76_needs_attachments)."
 ],
 "C80": [
  "partial",
  "False as stated (C80_texts_arrive_refuted: line breaks). Proved: what arrives is exact in every namespace; in / it arrives exactly when no text has a line break (C80_texts_arrive_partial)."
 ],
 "C81": [
  "partial",
  "False as stated (C81_relayed_texts_refuted: placeholders). Proved when the attachments are sent along, or there are none (C81_relayed_texts_partial)."
 ],
 "C83": [
  "partial",
  "Reading is false as stated (C83_integers_refuted: 12.5 read as 12 next to attachments); exactly what is read is proved (C83_integers_partial), and that integers survive the trip (C83_integers_survive)."
 ],
 "C84": [
  "partial",
  "False in general (C84_flatten_refuted: borrowed bytes never receive an attachment). Proved where the buffer makes no difference (C84_flatten_partial, C84_parts_partial); what is refused (C84_only_objects, C84_needs_values). What holds in general: flattened fields see attachments exactly as the lists of their numbers (C84_attachments_are_numbers, C84_needs_attachments)."
 ],
 "C85": [
  "partial",
  "The full statement (C85_full in SpecWire.v) is false of the code and refuted with two answers whose first argument fails: PacketBuilder writes no opening bracket then, and 43/a,5,6] is both an answer to event 5 in /a and to event 6 in /a,5. Proved for all sequences of packets in which the first argument of each answer, if any, serialises, and for all sequences within one namespace, without reference to the parser."
 ],
 "C86": [
  "partial",
  "The full statement (C86_full in SpecMode.v) is false of the code and refuted with a byte string read as a String, which succeeds in binary mode only. Proved for every packet whose objects begin with an ordinary key and that has no list beginning with bytes and going on with something else (C09/C13 show what those do): same number of arguments; same results for all untagged enums, internally tagged enums (argument not itself bytes), flattened structs, all types with nothing special at the place of an attachment, and for arguments without bytes all types without integer-keyed maps. Adjacently tagged enums: the same, unless a variant asks for something special where the content has an attachment and follows the tag (ahead of the tag anything goes)."
 ],
 "C87": [
  "partial",
  "The full statement (C87_full in SpecVariant.v) is false of the code and refuted with an untagged enum whose earlier variant reads the value of a later one. Proved instead, for every packet, place and mode: of an untagged enum exactly the values come back whose JSON text no earlier variant reads (none_earlier); of an internally or adjacently tagged enum all values come back whose contents are recoverable (enum_keeps: in text mode if they pass through a buffer, without maps with integer keys, no Value::Null under an internal tag, which arrives as an empty object, C87_tagged_null) if the first keys of objects are ordinary in binary mode (enum_first). Missing: the values excluded by enum_keeps and enum_first other than null; for untagged enums and internally tagged ones some of them do come back."
 ],
 "C88": [
  "partial",
  "The full statement (C88_full in SpecMerge.v) is false of the code and refuted with a flattened map declared before a flattened struct. Proved instead, for every packet, place and mode and members with different names: the struct comes back iff every flattened map has written exactly the members that no field declared before it names (maps_alone), hence always with at most one map, declared last (C88_map_last_partial); a map key equal to the name of a field makes the argument unreadable (C88_name_clash, C88_refuses_duplicates). Missing: values that flat_keeps excludes (as C52, own fields in the mode, flattened ones in text mode), extraordinary first keys in binary mode, and two flattened maps with a common key."
 ],
 "C89": [
  "proved",
  "Up to 127 arrays and objects within one another (beyond that the part on its own would be nested less deep than within the argument, and serde_json's recursion limit makes the difference). Alternatives of the enums and flattened parts are themselves of the universe ty; RawValue and 128-bit integers are covered as whole arguments only."
 ],
 "C90": [
  "partial",
  "The full statement is refuted; proved for careful containers, and the two ways in which other containers fail are characterised (C90_some_null, C90_mixed_grows). The parts have the hypotheses of C52, C87 and C88."
 ],
 "C91": [
  "partial",
  "Refuted for connect(): the user's own function may take any time. Proved from the moment the stream is there (and so for from_stream), with the time-outs never early, success if Open is read in time, and time able to go on in every state (Timed.v). Futures that can go on do so within d (parameter, in the definition of timed)."
 ],
 "C92": [
  "proved",
  "Time in Timed.v; futures that can go on do so within d."
 ],
 "C93": [
  "partial",
  "Refuted: a refused URL is quoted with its credentials. Proved: for accepted URLs the errors (and all observations but the request) do not depend on them; refused URLs exactly, before anything is done; texts tell kind, stage, URL and reason. Texts of ParseError, tungstenite, SpawnError: parameters."
 ],
 "C94": [
  "partial",
  "Refuted: client and server that read only while they do not write can block each other (C94_any_size: with any buffers; C94_exact: exactly when; C94_blocked_stays: until the stream fails or the task is dropped; C94_ways_out, C94_close_fails: what can release it and what close() reports then). Proved if the server goes on reading (C94_writes_end_partial, C94_queued_is_written_partial). Bytes in Pipe.v; TLS and frames that tungstenite sends by itself are not modelled."
 ],
 "C95": [
  "proved",
  "Nest.v: threads with the stack of bodies they execute, and the mutex of each callback; on Linux a second lock() by one thread waits."
 ],
 "C96": [
  "partial",
  "Refuted: callbacks that had called the one that panicked are refused too. Proved: exactly those through which a panic passed are refused (C96_refused_because, C95_goes_on_exactly), what makes one pass (C96_passed_because), and the statement for bodies that catch."
 ],
 "C97": [
  "partial",
  "Refuted: two threads, two callbacks that call each other. Proved: none with a rank; exactly when a call waits for ever. What callbacks do to clients meanwhile is C66 (Mesh.v) and not combined with this."
 ],
 "C98": [
  "partial",
  "Refuted: a server that sends 1e999 makes both programs panic. Proved: the only causes of panics; no blocking; always a step of its own (time-outs count as such); bounds of steps; lines; success."
 ],
 "C99": [
  "proved",
  "Routing (C99_events_go_where_meant) and the bound on ack calls are stated for both programs."
 ],
 "C100": [
  "partial",
  "Refuted: the namespace chat. Proved: exactly which namespaces are joined, as a Socket.IO server decodes the frame (SpecPeer.v)."
 ],
 "C101": [
  "proved",
  "SpecPace.v adds a clock to the runs of System.v (C101_clock_is_extra, C101_every_trace). The code bounds neither d nor k; they are parameters. That the bound is reached is shown for every d and k."
 ],
 "C102": [
  "proved",
  "Same clock as C101. What comes after the close frame depends on the server; close() itself has a time-out (C91)."
 ],
 "C103": [
  "proved",
  "A clock and an inbox of arrived messages added to the runs of System.v (SpecInbox.v; C103_clock_is_extra, C103_every_trace). The code bounds neither d nor k; they are parameters. That the bound is reached is shown for every d, k and f (InboxWide.v)."
 ],
 "C104": [
  "proved",
  "The clocks of C101 and C103 run together (SpecKeep.v; C104_both, C104_every_trace). The time of writing depends on what is queued when the ping has been read; users can queue any amount. The bound on answering needs no k >= 1, but only then does time always go on."
 ]
}