{
 "claims": [
  {
   "property": "C01",
   "status": "partial",
   "theorems": [
    "C01_nothing_before_open_refuted",
    "C01_nothing_before_open_partial",
    "C01_text_message_exact"
   ],
   "note": "Full statement refuted (C01_nothing_before_open_refuted): text messages are passed on before Open. The partial theorem proves it for every other packet; C01_text_message_exact says exactly when text messages are passed on."
  },
  {
   "property": "C02",
   "status": "proved",
   "theorems": [
    "C02_at_most_one_open",
    "C02_later_open_rejected"
   ],
   "note": ""
  },
  {
   "property": "C03",
   "status": "proved",
   "theorems": [
    "C03_silence_after_close"
   ],
   "note": ""
  },
  {
   "property": "C04",
   "status": "proved",
   "theorems": [
    "C04_errors_change_nothing",
    "C04_decoding_never_panics"
   ],
   "note": ""
  },
  {
   "property": "C05",
   "status": "proved",
   "theorems": [
    "C05_text_round_trip",
    "C05_binary_round_trip",
    "C05_ping_pong_round_trip",
    "C05_package_message_panics_exactly",
    "C05_package_message_verbatim",
    "C05_package_binary_panics_exactly",
    "C05_package_binary_verbatim"
   ],
   "note": ""
  },
  {
   "property": "C06",
   "status": "proved",
   "theorems": [
    "C06_whole_buffer",
    "C06_subslices_compose",
    "C06_subslice_of_string",
    "C06_mutation_stays_inside",
    "C06_equality_is_of_visible_bytes",
    "C06_parts_of_strings",
    "C06_parts_of_parts_of_strings"
   ],
   "note": ""
  },
  {
   "property": "C07",
   "status": "proved",
   "theorems": [
    "C07_string_scan_stops",
    "C07_string_reads_back",
    "C07_builder_writes"
   ],
   "note": ""
  },
  {
   "property": "C08",
   "status": "proved",
   "theorems": [
    "C08_text_root_round_trip",
    "C08_any_depth"
   ],
   "note": ""
  },
  {
   "property": "C09",
   "status": "partial",
   "theorems": [
    "C09_any_namespace_round_trip_refuted",
    "C09_round_trip_exact",
    "C09_any_namespace_round_trip_partial"
   ],
   "note": "False as stated: the header regex takes the namespace greedily, so arguments containing ',[' or ',<digits>[' (nested arrays, some strings) are misread (C09_..._refuted). C09_round_trip_exact says exactly which packets arrive and what happens to the others; the _partial theorem gives a condition on the arguments."
  },
  {
   "property": "C10",
   "status": "partial",
   "theorems": [
    "C10_no_silent_corruption_refuted",
    "C10_no_silent_corruption_partial",
    "C10_no_silent_corruption_mixed_partial",
    "C10_no_silent_corruption_namespace_partial",
    "C10_no_silent_corruption_exactly",
    "C10_what_arrives_instead"
   ],
   "note": "False as stated (C10_..._refuted: an ack whose first argument fails, with a namespace containing ',9['). The _partial theorems cover every namespace, both modes and all packets whose first ack argument does not fail, or whose namespace has no comma followed by a number and a bracket; C10_..._exactly says exactly when it holds, C10_what_arrives_instead what arrives otherwise."
  },
  {
   "property": "C11",
   "status": "proved",
   "theorems": [
    "C11_binary_root_round_trip"
   ],
   "note": ""
  },
  {
   "property": "C12",
   "status": "proved",
   "theorems": [
    "C12_count_truthful"
   ],
   "note": ""
  },
  {
   "property": "C13",
   "status": "proved",
   "theorems": [
    "C13_placeholders_consecutive"
   ],
   "note": ""
  },
  {
   "property": "C14",
   "status": "partial",
   "theorems": [
    "C14_failed_argument_refuted",
    "C14_failed_argument_exact",
    "C14_failed_argument_partial",
    "C14_fails_exactly"
   ],
   "note": "False as stated for the first argument of an ack (C14_..._refuted). C14_failed_argument_exact states the exact effect in every state; the _partial theorem covers every other position."
  },
  {
   "property": "C15",
   "status": "partial",
   "theorems": [
    "C15_sequences_preserved_refuted",
    "C15_sequences_exact",
    "C15_sequences_preserved_partial"
   ],
   "note": "False as stated: a sequence that starts with u8 and continues with something else gains an element 4 (C15_..._refuted). C15_sequences_exact describes exactly what arrives; the _partial theorem covers values without such sequences."
  },
  {
   "property": "C16",
   "status": "partial",
   "theorems": [
    "C16_parsing_never_panics_refuted",
    "C16_parsing_panics_exactly",
    "C16_parsing_never_panics_partial",
    "C16_completing_never_panics",
    "C16_decoder_messages_readable"
   ],
   "note": "False as stated: ids or attachment counts >= 2^64 make parse::<u64>().unwrap() panic (C16_..._refuted). C16_parsing_panics_exactly characterises the panic; the _partial theorem covers all other messages."
  },
  {
   "property": "C17",
   "status": "proved",
   "theorems": [
    "C17_accessors_never_panic"
   ],
   "note": ""
  },
  {
   "property": "C18",
   "status": "proved",
   "theorems": [
    "C18_arguments_are_array_elements"
   ],
   "note": ""
  },
  {
   "property": "C19",
   "status": "proved",
   "theorems": [
    "C19_matched_by_characters",
    "C19_accepted_exactly",
    "C19_accepted_packets_well_formed"
   ],
   "note": ""
  },
  {
   "property": "C20",
   "status": "proved",
   "theorems": [
    "C20_partial_completes_exactly",
    "C20_partial_when_announced"
   ],
   "note": ""
  },
  {
   "property": "C21",
   "status": "partial",
   "theorems": [
    "C21_connect_disconnect_round_trip_refuted",
    "C21_connect_disconnect_rejected",
    "C21_connect_disconnect_round_trip_partial"
   ],
   "note": "False as stated: serialize_connect/serialize_disconnect put the engine '4' prefix into the EngineMessage, so deserialize always answers InvalidMessage (C21_..._refuted, C21_..._rejected). The _partial theorem: the same text as a websocket frame is parsed as intended."
  },
  {
   "property": "C22",
   "status": "partial",
   "theorems": [
    "C22_reading_never_panics_refuted",
    "C22_reading_panics_exactly",
    "C22_reading_never_panics_partial",
    "C22_display_panics_exactly"
   ],
   "note": "False as stated: arguments are only scanned for JSON syntax, so deep nesting, unpaired surrogates and out-of-range numbers panic (C22_..._refuted). C22_reading_panics_exactly and C22_display_panics_exactly characterise the panics; the _partial theorem covers all other arguments."
  },
  {
   "property": "C23",
   "status": "proved",
   "theorems": [
    "C23_substitution_exact",
    "C23_everything_else_untouched",
    "C23_no_attachments_no_substitution"
   ],
   "note": ""
  },
  {
   "property": "C24",
   "status": "partial",
   "theorems": [
    "C24_readers_agree_exactly",
    "C24_readers_agree_refuted",
    "C24_readers_agree_partial"
   ],
   "note": "False as stated: {\"num\":0,\"_placeholder\":true} is a placeholder for to_json_value only (C24_..._refuted). The _partial theorem covers packets without attachments and arguments in canonical shape. C24_readers_agree_exactly says exactly when the two readers agree, for every text with a value and different keys in every object."
  },
  {
   "property": "C25",
   "status": "partial",
   "theorems": [
    "C25_unused_attachments_exactly",
    "C25_unused_attachments_ignored_refuted",
    "C25_unused_attachments_ignored_partial"
   ],
   "note": "False as stated: when the packet carries attachments, an object whose first key is written with an escape is an error (C25_..._refuted). The _partial theorem covers all arguments whose objects have ordinary first keys and all types without byte buffers and integer-keyed maps. C25_unused_attachments_exactly says exactly when unused attachments make no difference."
  },
  {
   "property": "C26",
   "status": "proved",
   "theorems": [
    "C26_placeholder_read",
    "C26_bytes_delivered",
    "C26_as_if_inline",
    "C26_inline_has_a_text"
   ],
   "note": ""
  },
  {
   "property": "C27",
   "status": "proved",
   "theorems": [
    "C27_routing_exact",
    "C27_namespaces_independent",
    "C27_calls_are_routed"
   ],
   "note": ""
  },
  {
   "property": "C28",
   "status": "proved",
   "theorems": [
    "C28_taken_exact",
    "C28_taken_once",
    "C28_taken_from_registration",
    "C28_calls_registered",
    "C28_called_once"
   ],
   "note": ""
  },
  {
   "property": "C29",
   "status": "proved",
   "theorems": [
    "C29_ids_unique",
    "C29_ids_in_order"
   ],
   "note": ""
  },
  {
   "property": "C30",
   "status": "proved",
   "theorems": [
    "C30_never_unexpected",
    "C30_ack_delivered"
   ],
   "note": ""
  },
  {
   "property": "C31",
   "status": "partial",
   "theorems": [
    "C31_event_delivered",
    "C31_builders_used_once",
    "C31_ack_source",
    "C31_ack_parses_back_refuted",
    "C31_ack_parses_back_partial"
   ],
   "note": "Delivery and the ack builder's provenance are proved in full (C31_event_delivered, C31_builders_used_once, C31_ack_source). That what the builder sends always parses back is false: an ack without arguments is rejected (C31_..._refuted, see also C43, C14, C09). The _partial theorem gives the cases in which it does, and that otherwise nothing else is read."
  },
  {
   "property": "C32",
   "status": "proved",
   "theorems": [
    "C32_reassembled",
    "C32_not_before",
    "C32_attachments_delivered",
    "C32_control_frames_ignored",
    "C32_pings_ignored"
   ],
   "note": ""
  },
  {
   "property": "C33",
   "status": "proved",
   "theorems": [
    "C33_ping_answered",
    "C33_pong_for_ping",
    "C33_pongs_are_pings"
   ],
   "note": ""
  },
  {
   "property": "C34",
   "status": "partial",
   "theorems": [
    "C34_callback_unlocked_refuted",
    "C34_blocks_exactly",
    "C34_blocked_forever",
    "C34_callback_unlocked_partial",
    "C34_callback_can_send"
   ],
   "note": "False as stated: the mutex guard lives until the end of the `if let`, so the table is locked during the call (C34_..._refuted). C34_blocks_exactly and C34_blocked_forever characterise it; the _partial theorem: sending without an ack request and answering never block."
  },
  {
   "property": "C35",
   "status": "proved",
   "theorems": [
    "C35_frames_contiguous"
   ],
   "note": ""
  },
  {
   "property": "C36",
   "status": "partial",
   "theorems": [
    "C36_queued_before_close_refuted",
    "C36_queued_before_close_partial",
    "C36_any_number_written"
   ],
   "note": "False as stated: select! may take the close signal while packets are queued (C36_..._refuted). The _partial theorem: only whole packets, the first ones queued, are written before the close frame and nothing after it; C36_any_number_written: any number of them is possible, so nothing stronger holds."
  },
  {
   "property": "C37",
   "status": "proved",
   "theorems": [
    "C37_close_goes_through_once",
    "C37_one_result",
    "C37_later_calls_fail",
    "C37_result_truthful",
    "C37_one_close_frame"
   ],
   "note": ""
  },
  {
   "property": "C38",
   "status": "proved",
   "theorems": [
    "C38_nothing_after_end"
   ],
   "note": ""
  },
  {
   "property": "C39",
   "status": "proved",
   "theorems": [
    "C39_rejected_ends",
    "C39_error_is_of_last_message",
    "C39_reaction_determined",
    "C39_reaction_exact"
   ],
   "note": ""
  },
  {
   "property": "C40",
   "status": "partial",
   "theorems": [
    "C40_connecting_never_panics_refuted",
    "C40_connecting_never_panics_partial",
    "C40_connecting_panics_when",
    "C40_connected_sid"
   ],
   "note": "False as stated: open.unwrap() panics if the task ends before Open (C40_..._refuted). The other theorems say exactly when, and that a returned client has the server's sid."
  },
  {
   "property": "C41",
   "status": "proved",
   "theorems": [
    "C41_accepted_exactly",
    "C41_only_scheme_changes",
    "C41_connects_to",
    "C41_request_text",
    "C41_text_unique",
    "C41_refused_exactly",
    "C41_never_panics",
    "C41_query_pairs"
   ],
   "note": ""
  },
  {
   "property": "C42",
   "status": "proved",
   "theorems": [
    "C42_buffer_utf8",
    "C42_header_utf8",
    "C42_frames_utf8"
   ],
   "note": ""
  },
  {
   "property": "C43",
   "status": "partial",
   "theorems": [
    "C43_ack_without_arguments_refuted",
    "C43_ack_without_arguments_rejected",
    "C43_ack_without_arguments_partial"
   ],
   "note": "False as stated: every ack without arguments is rejected with MissingData (C43_..._refuted, C43_..._rejected). The _partial theorem covers acks with arguments."
  },
  {
   "property": "C44",
   "status": "proved",
   "theorems": [
    "C44_building_never_panics"
   ],
   "note": ""
  },
  {
   "property": "C45",
   "status": "partial",
   "theorems": [
    "C45_array_length_refuted",
    "C45_array_length_partial"
   ],
   "note": "False as stated: surplus bytes are dropped silently (C45_..._refuted). The _partial theorem says exactly what is read."
  },
  {
   "property": "C46",
   "status": "proved",
   "theorems": [
    "C46_one_emission",
    "C46_sent_as_asked",
    "C46_registered_as_asked",
    "C46_in_order"
   ],
   "note": ""
  },
  {
   "property": "C47",
   "status": "proved",
   "theorems": [
    "C47_queued_can_be_written"
   ],
   "note": ""
  },
  {
   "property": "C48",
   "status": "partial",
   "theorems": [
    "C48_server_cannot_panic_task_refuted",
    "C48_server_cannot_panic_task_partial",
    "C48_all_panics_of_task"
   ],
   "note": "False as stated: an id or attachment count beyond 2^64-1 panics, and so does logging a packet that cannot be displayed (C48_..._refuted). The _partial theorem says that exactly these two kinds of messages do; C48_all_panics_of_task lists every cause of a panic of the task."
  },
  {
   "property": "C49",
   "status": "partial",
   "theorems": [
    "C49_callback_panic_contained_refuted",
    "C49_callback_panic_contained_partial",
    "C49_no_panic_before_task_panics"
   ],
   "note": "False as stated: the panic poisons the mutex of the callback table, and later set_*/clear_* calls and emits with an ack request panic (C49_..._refuted). The _partial theorem says that exactly these calls do."
  },
  {
   "property": "C50",
   "status": "proved",
   "theorems": [
    "C50_open_read_exactly",
    "C50_open_unambiguous",
    "C50_open_round_trip"
   ],
   "note": ""
  },
  {
   "property": "C51",
   "status": "proved",
   "theorems": [
    "C51_events_in_order",
    "C51_event_delivered",
    "C51_ack_delivered",
    "C51_unheard_harmless"
   ],
   "note": ""
  },
  {
   "property": "C52",
   "status": "proved",
   "theorems": [
    "C52_typed_packet",
    "C52_typed_event",
    "C52_typed_ack",
    "C52_unrestricted_refuted"
   ],
   "note": "Proved for every typed value that is recoverable (the condition is in the statement). C52_unrestricted_refuted shows that the condition is needed: Some(None) reads back None."
  },
  {
   "property": "C53",
   "status": "proved",
   "theorems": [
    "C53_a_client_like_any",
    "C53_begins_alone",
    "C53_ends_by_its_runner",
    "C53_one_at_a_time",
    "C53_acts_while_running",
    "C53_calls_in_order",
    "C53_waits_for_runner"
   ],
   "note": ""
  },
  {
   "property": "C54",
   "status": "partial",
   "theorems": [
    "C54_panic_stays_in_its_client_refuted",
    "C54_refused_because_of_another",
    "C54_own_callbacks_partial",
    "C54_panics_exactly"
   ],
   "note": "False as stated: clones of an EventCallback share one mutex, so a panic in one client poisons it and the next client that calls it panics too (C54_..._refuted, two clients). C54_refused_because_of_another says that a refusal always comes from somebody else; the _partial theorem says that a callback nobody else runs is never refused; C54_panics_exactly lists all causes of panics of a task among other clients."
  },
  {
   "property": "C55",
   "status": "proved",
   "theorems": [
    "C55_value_of_argument",
    "C55_text_means",
    "C55_double_range",
    "C55_strings_valid",
    "C55_valid_is_characters"
   ],
   "note": "A double is represented by its literal: which of the nearest doubles it becomes is not modelled; its range is (C55_double_range; in the window of 2^-50 around 2^1024 the rounding of serde_json, modelled in num_of, decides)."
  },
  {
   "property": "C56",
   "status": "proved",
   "theorems": [
    "C56_close_can_complete",
    "C56_blocked_cannot"
   ],
   "note": ""
  },
  {
   "property": "C57",
   "status": "proved",
   "theorems": [
    "C57_engine_errors",
    "C57_text_errors",
    "C57_binary_errors",
    "C57_one_verdict",
    "C57_attachment_errors"
   ],
   "note": ""
  },
  {
   "property": "C58",
   "status": "proved",
   "theorems": [
    "C58_queued_is_written",
    "C58_main_loop_left",
    "C58_pings_answered"
   ],
   "note": ""
  },
  {
   "property": "C59",
   "status": "proved",
   "theorems": [
    "C59_main_loop_ends",
    "C59_close_returns",
    "C59_close_times_out"
   ],
   "note": ""
  },
  {
   "property": "C60",
   "status": "proved",
   "theorems": [
    "C60_cancelled_only_if_let_go",
    "C60_can_be_cancelled_exactly",
    "C60_letting_go_ends_it"
   ],
   "note": ""
  },
  {
   "property": "C61",
   "status": "proved",
   "theorems": [
    "C61_cause_of_end",
    "C61_effect_of_end",
    "C61_close_tells_cause"
   ],
   "note": ""
  },
  {
   "property": "C62",
   "status": "proved",
   "theorems": [
    "C62_argument_worth",
    "C62_reads_exactly",
    "C62_otherwise_error",
    "C62_worth_unique",
    "C62_missing_field"
   ],
   "note": "Over the universe of target types ty (DeModel.v); a double is represented by its literal."
  },
  {
   "property": "C63",
   "status": "proved",
   "theorems": [
    "C63_display_says",
    "C63_display_tells_apart"
   ],
   "note": "A double is shown as its literal; the code prints the shortest decimal of the double it was rounded to, so packets whose doubles differ only by rounding may be shown alike."
  },
  {
   "property": "C64",
   "status": "proved",
   "theorems": [
    "C64_answer_reaches_asker",
    "C64_answer_to_nobody_else",
    "C64_question_answered"
   ],
   "note": "The id counter has not wrapped around (few_requests). Liveness assumes, as hypotheses: threads, writes and callbacks go on, LTake is not passed over for ever, the server answers what was written, once."
  },
  {
   "property": "C65",
   "status": "partial",
   "theorems": [
    "C65_relay_refuted",
    "C65_relay_partial",
    "C65_ordinary_values",
    "C65_each_argument_exactly",
    "C65_unchanged_exactly"
   ],
   "note": "False in full (C65_relay_refuted: an object with serde_json's private key behind another key is rewritten with it first and refused). Exact: each argument reads as the value itself if no object in it has that key as its least key and it has at most 127 levels, and as nothing otherwise, in either mode (C65_each_argument_exactly, C65_unchanged_exactly); any text without that key gives such a value (C65_ordinary_values). At other namespaces than / arrival is C09's business; what arrives is right. Which literal a double is printed as is not modelled (any that reads as a double)."
  },
  {
   "property": "C66",
   "status": "partial",
   "theorems": [
    "C66_no_deadlock_refuted",
    "C66_no_deadlock_partial",
    "C66_no_deadlock_in_order",
    "C66_no_deadlock_by_levels",
    "C66_parts_of_a_deadlock",
    "C66_deadlock_is_for_ever",
    "C66_deadlock_exactly",
    "C66_callbacks_ask"
   ],
   "note": "False in full (C66_no_deadlock_refuted: a thread that has the client sets a callback while a running callback waits for the client). Proved if callbacks use no clients, or if nobody touches the callback tables, or if everybody asks in the order of some rank (in particular: callbacks use only clients of lower levels). What deadlocks consist of, that they last, and that only they last, is proved for all runs. Callbacks that call other callbacks themselves, and poisoning of the user's own mutex, are not modelled."
  },
  {
   "property": "C67",
   "status": "partial",
   "theorems": [
    "C67_waiting_let_go_refuted",
    "C67_kept_exactly_partial",
    "C67_waiting_exactly",
    "C67_waits_for_ever",
    "C67_asked_too_late"
   ],
   "note": "The last sentence is false (C67_waiting_let_go_refuted: the stream ends while a callback waits; C67_waits_for_ever, C67_asked_too_late: it is kept for ever, and so are those of events emitted after the end). The rest is proved exactly. Ids may not have wrapped around (2^64 requests) where answers are concerned."
  },
  {
   "property": "C68",
   "status": "partial",
   "theorems": [
    "C68_peer_understands_refuted",
    "C68_peer_understands_partial",
    "C68_extra_byte"
   ],
   "note": "False in full (C68_peer_understands_refuted: the request says EIO=4, but binary frames carry the byte 4 of revision 3; C68_extra_byte). In the third revision, or without attachments, proved exactly: understood iff the namespace has no comma and the event name is not reserved. The reference implementation is a specification in SpecPeer.v, written from its documented behaviour; numbers are taken exactly, ids and counts below 2^53."
  },
  {
   "property": "C69",
   "status": "partial",
   "theorems": [
    "C69_client_understands_refuted",
    "C69_client_understands_partial",
    "C69_join_answer_refused",
    "C69_join_answer_ends",
    "C69_attachment_ends",
    "C69_not_understood_ends"
   ],
   "note": "False in full (C69_client_understands_refuted: the answer to joining a namespace has a JSON object as payload and is refused, which ends the connection: C69_join_answer_ends). What is understood is characterised exactly: third-revision attachments only, arguments present, and outside / no bracket after a comma (C09)."
  },
  {
   "property": "C70",
   "status": "partial",
   "theorems": [
    "C70_joined_before_use_refuted",
    "C70_never_joins",
    "C70_written_was_queued",
    "C70_sources_partial"
   ],
   "note": "The first sentence is false (C70_joined_before_use_refuted); in fact no namespace is ever joined or left except by frames the user pushes (C70_never_joins). The second sentence is proved (C70_written_was_queued, C70_sources_partial)."
  },
  {
   "property": "C71",
   "status": "proved",
   "theorems": [
    "C71_one_message",
    "C71_kept_exactly",
    "C71_kept_bound"
   ],
   "note": "Every message's lasting effects (C71_one_message), the attachments kept (C71_kept_exactly) and the exact bound (C71_kept_bound)."
  },
  {
   "property": "C72",
   "status": "partial",
   "theorems": [
    "C72_server_gone_noticed_refuted",
    "C72_never_noticed",
    "C72_close_ignored",
    "C72_after_close_partial",
    "C72_disconnect_ignored",
    "C72_however_long",
    "C72_time_changes_nothing"
   ],
   "note": "The first sentence is false (C72_server_gone_noticed_refuted), from every state of the client (C72_never_noticed: nothing ever times out). The second sentence is proved (C72_close_ignored, C72_disconnect_ignored, C72_after_close_partial). With time: C72_however_long, C72_time_changes_nothing."
  },
  {
   "property": "C73",
   "status": "partial",
   "theorems": [
    "C73_one_line_refuted",
    "C73_one_line_partial",
    "C73_forged"
   ],
   "note": "The first sentence is false (C73_one_line_refuted; C73_forged: any text with a line break appears verbatim). The exact criterion, and that no error text panics, is proved (C73_one_line_partial). Texts of serde_json errors, JSON values and close frames are parameters, assumed to be without control characters; which characters beyond ASCII Debug escapes is a parameter without assumptions."
  },
  {
   "property": "C74",
   "status": "partial",
   "theorems": [
    "C74_first_variant_refuted",
    "C74_first_variant_partial",
    "C74_needs_a_value",
    "C74_no_attachment_for_bytes",
    "C74_attachments_are_numbers",
    "C74_needs_attachments",
    "C74_first_of_numbers"
   ],
   "note": "False in general (C74_first_variant_refuted). Proved exactly where the buffer makes no difference (C74_first_variant_partial); two exact limits: C74_needs_a_value, C74_no_attachment_for_bytes. What holds in general is proved exactly: the first variant that can be read from the text with the numbers of the bytes in the place of each attachment (C74_first_of_numbers, C74_attachments_are_numbers, C74_needs_attachments). Enums only as the type of the whole argument."
  },
  {
   "property": "C75",
   "status": "partial",
   "theorems": [
    "C75_order_refuted",
    "C75_order_partial",
    "C75_variant_read",
    "C75_pair_read",
    "C75_one_tag",
    "C75_content_first_numbers",
    "C75_content_first_needs"
   ],
   "note": "False in general (C75_order_refuted: the attachment is lost when the content comes first). Proved for contents that read as a Value with nothing at a place where the buffer makes a difference (C75_order_partial). The last sentence is proved exactly (C75_variant_read, C75_pair_read, C75_one_tag). A content ahead of the tag sees attachments exactly as lists of numbers (C75_content_first_numbers, C75_content_first_needs)."
  },
  {
   "property": "C76",
   "status": "partial",
   "theorems": [
    "C76_tag_refuted",
    "C76_tag_partial",
    "C76_one_tag",
    "C76_list_partial",
    "C76_attachment_names_variant",
    "C76_attachments_are_numbers",
    "C76_needs_attachments"
   ],
   "note": "The first sentence is false (C76_tag_refuted), proved where the buffer makes no difference (C76_tag_partial, C76_list_partial). The last two sentences are proved (C76_one_tag, C76_attachment_names_variant). What holds in general: attachments within are exactly the lists of their numbers (C76_attachments_are_numbers, C76_needs_attachments)."
  },
  {
   "property": "C77",
   "status": "proved",
   "theorems": [
    "C77_heard_unique",
    "C77_conversation",
    "C77_all_heard"
   ],
   "note": ""
  },
  {
   "property": "C78",
   "status": "proved",
   "theorems": [
    "C78_in_turn",
    "C78_conversation"
   ],
   "note": ""
  },
  {
   "property": "C79",
   "status": "proved",
   "theorems": [
    "C79_raw_reading",
    "C79_what_it_holds"
   ],
   "note": ""
  },
  {
   "property": "C80",
   "status": "partial",
   "theorems": [
    "C80_texts_arrive_refuted",
    "C80_texts_arrive_partial"
   ],
   "note": "False as stated (C80_texts_arrive_refuted: line breaks). Proved: what arrives is exact in every namespace; in / it arrives exactly when no text has a line break (C80_texts_arrive_partial)."
  },
  {
   "property": "C81",
   "status": "partial",
   "theorems": [
    "C81_relayed_texts_refuted",
    "C81_relayed_texts_partial"
   ],
   "note": "False as stated (C81_relayed_texts_refuted: placeholders). Proved when the attachments are sent along, or there are none (C81_relayed_texts_partial)."
  },
  {
   "property": "C82",
   "status": "proved",
   "theorems": [
    "C82_one_story",
    "C82_story_decides",
    "C82_namespaces_isolated"
   ],
   "note": ""
  },
  {
   "property": "C83",
   "status": "partial",
   "theorems": [
    "C83_integers_refuted",
    "C83_integers_partial",
    "C83_integers_survive"
   ],
   "note": "Reading is false as stated (C83_integers_refuted: 12.5 read as 12 next to attachments); exactly what is read is proved (C83_integers_partial), and that integers survive the trip (C83_integers_survive)."
  },
  {
   "property": "C84",
   "status": "partial",
   "theorems": [
    "C84_attachments_are_numbers",
    "C84_needs_attachments",
    "C84_flatten_refuted",
    "C84_flatten_partial",
    "C84_parts_partial",
    "C84_only_objects",
    "C84_needs_values"
   ],
   "note": "False in general (C84_flatten_refuted: borrowed bytes never receive an attachment). Proved where the buffer makes no difference (C84_flatten_partial, C84_parts_partial); what is refused (C84_only_objects, C84_needs_values). What holds in general: flattened fields see attachments exactly as the lists of their numbers (C84_attachments_are_numbers, C84_needs_attachments)."
  },
  {
   "property": "C85",
   "status": "partial",
   "theorems": [
    "C85_wire_tells_refuted",
    "C85_wire_tells_partial",
    "C85_within_a_namespace"
   ],
   "note": "The full statement (C85_full in SpecWire.v) is false of the code and refuted with two answers whose first argument fails: PacketBuilder writes no opening bracket then, and 43/a,5,6] is both an answer to event 5 in /a and to event 6 in /a,5. Proved for all sequences of packets in which the first argument of each answer, if any, serialises, and for all sequences within one namespace, without reference to the parser."
  },
  {
   "property": "C86",
   "status": "partial",
   "theorems": [
    "C86_modes_agree_refuted",
    "C86_same_arguments",
    "C86_types_partial",
    "C86_without_bytes",
    "C86_untagged",
    "C86_tagged",
    "C86_flattened",
    "C86_adjacent",
    "C86_adjacent_without_bytes"
   ],
   "note": "The full statement (C86_full in SpecMode.v) is false of the code and refuted with a byte string read as a String, which succeeds in binary mode only. Proved for every packet whose objects begin with an ordinary key and that has no list beginning with bytes and going on with something else (C09/C13 show what those do): same number of arguments; same results for all untagged enums, internally tagged enums (argument not itself bytes), flattened structs, all types with nothing special at the place of an attachment, and for arguments without bytes all types without integer-keyed maps. Adjacently tagged enums: the same, unless a variant asks for something special where the content has an attachment and follows the tag (ahead of the tag anything goes)."
  },
  {
   "property": "C87",
   "status": "partial",
   "theorems": [
    "C87_enums_return_refuted",
    "C87_untagged_partial",
    "C87_tagged_partial",
    "C87_tagged_null",
    "C87_adjacent_partial"
   ],
   "note": "The full statement (C87_full in SpecVariant.v) is false of the code and refuted with an untagged enum whose earlier variant reads the value of a later one. Proved instead, for every packet, place and mode: of an untagged enum exactly the values come back whose JSON text no earlier variant reads (none_earlier); of an internally or adjacently tagged enum all values come back whose contents are recoverable (enum_keeps: in text mode if they pass through a buffer, without maps with integer keys, no Value::Null under an internal tag, which arrives as an empty object, C87_tagged_null) if the first keys of objects are ordinary in binary mode (enum_first). Missing: the values excluded by enum_keeps and enum_first other than null; for untagged enums and internally tagged ones some of them do come back."
  },
  {
   "property": "C88",
   "status": "partial",
   "theorems": [
    "C88_flattened_return_refuted",
    "C88_flattened_partial",
    "C88_map_last_partial",
    "C88_name_clash",
    "C88_refuses_duplicates"
   ],
   "note": "The full statement (C88_full in SpecMerge.v) is false of the code and refuted with a flattened map declared before a flattened struct. Proved instead, for every packet, place and mode and members with different names: the struct comes back iff every flattened map has written exactly the members that no field declared before it names (maps_alone), hence always with at most one map, declared last (C88_map_last_partial); a map key equal to the name of a field makes the argument unreadable (C88_name_clash, C88_refuses_duplicates). Missing: values that flat_keeps excludes (as C52, own fields in the mode, flattened ones in text mode), extraordinary first keys in binary mode, and two flattened maps with a common key."
  },
  {
   "property": "C89",
   "status": "proved",
   "theorems": [
    "C89_each_as_alone",
    "C89_list",
    "C89_alone",
    "C89_ordinary_types"
   ],
   "note": "Up to 127 arrays and objects within one another (beyond that the part on its own would be nested less deep than within the argument, and serde_json's recursion limit makes the difference). Alternatives of the enums and flattened parts are themselves of the universe ty; RawValue and 128-bit integers are covered as whole arguments only."
  },
  {
   "property": "C90",
   "status": "partial",
   "theorems": [
    "C90_nested_return_refuted",
    "C90_nested_return_partial",
    "C90_some_null",
    "C90_mixed_grows"
   ],
   "note": "The full statement is refuted; proved for careful containers, and the two ways in which other containers fail are characterised (C90_some_null, C90_mixed_grows). The parts have the hypotheses of C52, C87 and C88."
  },
  {
   "property": "C91",
   "status": "partial",
   "theorems": [
    "C91_model_timed",
    "C91_time_goes_on",
    "C91_connect_in_time_refuted",
    "C91_connect_in_time_partial",
    "C91_from_stream_in_time",
    "C91_timeout_not_early",
    "C91_open_in_time"
   ],
   "note": "Refuted for connect(): the user's own function may take any time. Proved from the moment the stream is there (and so for from_stream), with the time-outs never early, success if Open is read in time, and time able to go on in every state (Timed.v). Futures that can go on do so within d (parameter, in the definition of timed)."
  },
  {
   "property": "C92",
   "status": "proved",
   "theorems": [
    "C92_close_in_time",
    "C92_close_returns_at_end",
    "C92_timeout_not_early"
   ],
   "note": "Time in Timed.v; futures that can go on do so within d."
  },
  {
   "property": "C93",
   "status": "partial",
   "theorems": [
    "C93_credentials_unreported_refuted",
    "C93_credentials_unreported_partial",
    "C93_refused_at_once",
    "C93_url_error_only_if_refused",
    "C93_connect_story",
    "C93_from_stream_story",
    "C93_close_told",
    "C93_connect_told",
    "C93_kind_told",
    "C93_stage_told",
    "C93_url_told"
   ],
   "note": "Refuted: a refused URL is quoted with its credentials. Proved: for accepted URLs the errors (and all observations but the request) do not depend on them; refused URLs exactly, before anything is done; texts tell kind, stage, URL and reason. Texts of ParseError, tungstenite, SpawnError: parameters."
  },
  {
   "property": "C94",
   "status": "partial",
   "theorems": [
    "C94_write_ends_refuted",
    "C94_exact",
    "C94_blocked_stays",
    "C94_any_size",
    "C94_writes_end_partial",
    "C94_queued_is_written_partial",
    "C94_bytes_accounted",
    "C94_ways_out",
    "C94_close_fails",
    "C94_frame_sizes",
    "C94_frames_apart",
    "C94_written_in_bytes"
   ],
   "note": "Refuted: client and server that read only while they do not write can block each other (C94_any_size: with any buffers; C94_exact: exactly when; C94_blocked_stays: until the stream fails or the task is dropped; C94_ways_out, C94_close_fails: what can release it and what close() reports then). Proved if the server goes on reading (C94_writes_end_partial, C94_queued_is_written_partial). Bytes in Pipe.v; TLS and frames that tungstenite sends by itself are not modelled."
  },
  {
   "property": "C95",
   "status": "proved",
   "theorems": [
    "C95_begins_alone",
    "C95_one_at_a_time",
    "C95_last_ends_first",
    "C95_goes_on_exactly",
    "C95_may_call_any",
    "C95_calling_itself_is_for_ever"
   ],
   "note": "Nest.v: threads with the stack of bodies they execute, and the mutex of each callback; on Linux a second lock() by one thread waits."
  },
  {
   "property": "C96",
   "status": "partial",
   "theorems": [
    "C96_refused_only_own_panic_refuted",
    "C96_refused_only_own_panic_partial",
    "C96_refused_because",
    "C96_passed_because"
   ],
   "note": "Refuted: callbacks that had called the one that panicked are refused too. Proved: exactly those through which a panic passed are refused (C96_refused_because, C95_goes_on_exactly), what makes one pass (C96_passed_because), and the statement for bodies that catch."
  },
  {
   "property": "C97",
   "status": "partial",
   "theorems": [
    "C97_no_deadlock_refuted",
    "C97_no_deadlock_partial",
    "C97_deadlock_is_for_ever",
    "C97_deadlock_exactly"
   ],
   "note": "Refuted: two threads, two callbacks that call each other. Proved: none with a rank; exactly when a call waits for ever. What callbacks do to clients meanwhile is C66 (Mesh.v) and not combined with this."
  },
  {
   "property": "C98",
   "status": "partial",
   "theorems": [
    "C98_programs_do_not_crash_refuted",
    "C98_programs_do_not_crash_partial",
    "C98_never_blocks",
    "C98_always_goes_on",
    "C98_bounded_work",
    "C98_success_means_done",
    "C98_lines_in_turn"
   ],
   "note": "Refuted: a server that sends 1e999 makes both programs panic. Proved: the only causes of panics; no blocking; always a step of its own (time-outs count as such); bounds of steps; lines; success."
  },
  {
   "property": "C99",
   "status": "proved",
   "theorems": [
    "C99_questions_answered",
    "C99_asks_once",
    "C99_hears_once",
    "C99_says_nothing_else",
    "C99_events_go_where_meant",
    "C99_ready_before_asking"
   ],
   "note": "Routing (C99_events_go_where_meant) and the bound on ack calls are stated for both programs."
  },
  {
   "property": "C100",
   "status": "partial",
   "theorems": [
    "C100_namespace_joined_refuted",
    "C100_namespace_joined_partial",
    "C100_joins_once",
    "C100_says_nothing_else",
    "C100_calls_are_meant",
    "C100_named_has_slash"
   ],
   "note": "Refuted: the namespace chat. Proved: exactly which namespaces are joined, as a Socket.IO server decodes the frame (SpecPeer.v)."
  },
  {
   "property": "C101",
   "status": "proved",
   "theorems": [
    "C101_written_in_time",
    "C101_pongs_in_time",
    "C101_wait_before_close",
    "C101_bound_reached",
    "C101_no_bound_without_fairness",
    "C101_time_goes_on",
    "C101_clock_is_extra",
    "C101_every_trace"
   ],
   "note": "SpecPace.v adds a clock to the runs of System.v (C101_clock_is_extra, C101_every_trace). The code bounds neither d nor k; they are parameters. That the bound is reached is shown for every d and k."
  },
  {
   "property": "C102",
   "status": "proved",
   "theorems": [
    "C102_closed_in_time",
    "C102_few_after_close",
    "C102_bounds_reached"
   ],
   "note": "Same clock as C101. What comes after the close frame depends on the server; close() itself has a time-out (C91)."
  },
  {
   "property": "C103",
   "status": "proved",
   "theorems": [
    "C103_handled_in_time",
    "C103_bound_reached",
    "C103_no_bound_without_fairness",
    "C103_time_goes_on",
    "C103_clock_is_extra",
    "C103_every_trace",
    "C103_called_in_time",
    "C103_acks_called_in_time"
   ],
   "note": "A clock and an inbox of arrived messages added to the runs of System.v (SpecInbox.v; C103_clock_is_extra, C103_every_trace). The code bounds neither d nor k; they are parameters. That the bound is reached is shown for every d, k and f (InboxWide.v)."
  },
  {
   "property": "C104",
   "status": "proved",
   "theorems": [
    "C104_pings_answered_in_time",
    "C104_time_goes_on",
    "C104_both",
    "C104_every_trace"
   ],
   "note": "The clocks of C101 and C103 run together (SpecKeep.v; C104_both, C104_every_trace). The time of writing depends on what is queued when the ping has been read; users can queue any amount. The bound on answering needs no k >= 1, but only then does time always go on."
  }
 ]
}