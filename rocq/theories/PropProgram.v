(** Properties C98 to C100: the example programs (examples/socketio_test.rs, examples/ws_connect.rs). *)
From Verif Require Import ProgramDemo.

(** ** C98 *)
(** False of the code: a server that sends a number too large to display makes the callback panic,
    and [close] passes the panic on to [main]. *)
Theorem C98_programs_do_not_crash_refuted : ~ C98_full.
Proof. exact C98_refuted_lemma. Qed.
Print Assumptions C98_programs_do_not_crash_refuted.
(** They panic only when the output fails, when a callback gets something that cannot be displayed,
    when the server makes the task panic (C48) or when connecting does (C40).
    Missing from the full statement: those. *)
Theorem C98_programs_do_not_crash_partial :
  forall p log ls g o, prog_run p log ls g o -> In (GExit ExitPanic) o -> crash log o.
Proof. exact panics_because. Qed.
Print Assumptions C98_programs_do_not_crash_partial.
Example C98_crash_nonvacuous : prog_run (WsConnect None) false crash_session (after_run (WsConnect None) crash_session) (seen_by (WsConnect None) crash_session) /\
  In (GExit ExitPanic) (seen_by (WsConnect None) crash_session).
Proof. split; [exact crash_ran|]. vm_compute. auto 20. Qed.
(** They never block on the lock of the table; *)
Theorem C98_never_blocks :
  forall p log ls g o, prog_run p log ls g o -> ~ In OBlocked (sys o).
Proof. exact never_blocks. Qed.
Print Assumptions C98_never_blocks.
(** until [main] has returned or panicked there is always a step that needs neither the server nor
    the network; *)
Theorem C98_always_goes_on :
  forall p log ls g o, prog_run p log ls g o -> ~ has_ended g ->
    exists l g' o', own_step l = true /\ gstep p log g l = Some (g', o').
Proof. exact goes_on. Qed.
Print Assumptions C98_always_goes_on.
Example C98_goes_on_nonvacuous : exists g o, prog_run SocketioTest false waiting_session g o /\ ~ has_ended g /\ locked (g_sys g) = true /\
  gstep SocketioTest false g GMain = None.
Proof.
  exists (after_run SocketioTest waiting_session), (seen_by SocketioTest waiting_session). split; [exact waiting_ran|].
  split; [intros [e X]; vm_compute in X; discriminate X|]. split; vm_compute; reflexivity.
Qed.
(** and the main thread takes at most nine steps, the callbacks at most four for each call. *)
Theorem C98_bounded_work :
  forall p log ls g o, prog_run p log ls g o ->
    length (filter main_step ls) <= 9 /\ length (filter callback_step ls) <= 4 * length (calls_made (sys o)).
Proof. exact bounded_work. Qed.
Print Assumptions C98_bounded_work.
Example C98_work_nonvacuous : prog_run SocketioTest false test_session (after_run SocketioTest test_session) (seen_by SocketioTest test_session) /\
  length (filter main_step test_session) = 9 /\ length (filter callback_step test_session) = 6.
Proof. split; [exact test_ran|]. vm_compute. auto. Qed.
(** A program that returns Ok has done everything: the task ended well, nothing of the user's was
    lost, socketio_test has asked its question, ws_connect has queued its request. *)
Theorem C98_success_means_done :
  forall p log ls g o, prog_run p log ls g o -> In (GExit ExitOk) o ->
    In (OEnd EndOk) (sys o) /\ (forall fs, ~ In (OLost ByUser fs) (sys o)) /\
    match p with
    | SocketioTest => asked_for (sys o) = [the_question]
    | WsConnect (Some ns) => In (OQueued ByUser (join_frames ns)) (sys o)
    | WsConnect None => True
    end.
Proof. exact ends_well. Qed.
Print Assumptions C98_success_means_done.
Example C98_success_nonvacuous : In (GExit ExitOk) (seen_by SocketioTest test_session) /\
  prog_run (WsConnect (Some (bs "/chat"))) false chat_session (after_run (WsConnect (Some (bs "/chat"))) chat_session) (seen_by (WsConnect (Some (bs "/chat"))) chat_session) /\
  In (GExit ExitOk) (seen_by (WsConnect (Some (bs "/chat"))) chat_session).
Proof. split; [vm_compute; auto 40|]. split; [exact chat_ran|]. vm_compute. auto 40. Qed.
(** What the callbacks print: the lines of the calls, in the order of the calls; only the last call
    may have printed a part only. *)
Theorem C98_lines_in_turn :
  forall p log ls g o, prog_run p log ls g o ->
    exists cs rest part, calls_made (sys o) = cs ++ rest /\ (rest = [] \/ (exists c, rest = [c]) /\ unfinished g) /\
      lines TheCallback o = flat_map (call_lines p) cs ++ part /\ initial_part part (flat_map (call_lines p) rest).
Proof. exact lines_in_turn. Qed.
Print Assumptions C98_lines_in_turn.
Example C98_lines_nonvacuous :
  lines TheCallback (seen_by SocketioTest test_session) =
    [bs "types messaged received: [""types"", [1,true]]"; bs "Emitting ack"; bs "event ack received: [5]"] /\
  lines TheCallback (seen_by (WsConnect (Some (bs "/chat"))) chat_session) = [bs "/chat: [""x"", 1]"; bs "[""y""]"].
Proof. vm_compute. auto. Qed.

(** ** C99: socketio_test *)
(** Every event "types" that asks for an ack is answered once, with "message received" and its id,
    in the order of the events; only the answer of a callback that has not ended may be missing. *)
Theorem C99_questions_answered :
  forall log ls g o, prog_run SocketioTest log ls g o ->
    exists qs rest, questions (sys o) = qs ++ rest /\ replies (sys o) = map answer_to qs /\
      (rest = [] \/ (exists q, rest = [q]) /\ unfinished g).
Proof. exact answers_given. Qed.
Print Assumptions C99_questions_answered.
(** It asks its own question at most once, *)
Theorem C99_asks_once :
  forall log ls g o, prog_run SocketioTest log ls g o -> asked_for (sys o) = [] \/ asked_for (sys o) = [the_question].
Proof. exact asks_once. Qed.
Print Assumptions C99_asks_once.
(** hears at most one answer to it, *)
Theorem C99_hears_once :
  forall p log ls g o, prog_run p log ls g o ->
    length (filter is_reply (sys o)) <= 1 /\
    forall pk f a, In (OCall pk (AckCall f a)) (sys o) ->
      p = SocketioTest /\ f = cb_reply /\ packet_namespace pk = Some (bs "/") /\ packet_data pk = Some (DataAck 0%N a).
Proof. exact reply_calls. Qed.
Print Assumptions C99_hears_once.
(** and says nothing else, but for pongs. *)
Theorem C99_says_nothing_else :
  forall log ls g o m, prog_run SocketioTest log ls g o -> In (OWrite m) (sys o) ->
    m = WText (bs "3") \/ In m (snd the_question) \/ exists q, In q (questions (sys o)) /\ snd (answer_to q) = [m].
Proof. exact test_writes. Qed.
Print Assumptions C99_says_nothing_else.
Example C99_nonvacuous : prog_run SocketioTest false test_session (after_run SocketioTest test_session) (seen_by SocketioTest test_session) /\
  questions (sys (seen_by SocketioTest test_session)) = [(bs "/", 7%N)] /\
  replies (sys (seen_by SocketioTest test_session)) = [(bs "/", 7%N, [WText (bs "437[""message received""]")])] /\
  asked_for (sys (seen_by SocketioTest test_session)) = [the_question] /\
  length (filter is_reply (sys (seen_by SocketioTest test_session))) = 1 /\
  writes (sys (seen_by SocketioTest test_session)) = WText (bs "437[""message received""]") :: snd the_question.
Proof. split; [exact test_ran|]. vm_compute. auto. Qed.
(** Once its callbacks are set, an event goes to the callback meant for it and to no other: "types"
    of the root to the one that answers, other events of the root to the one that prints (for
    ws_connect: events of the namespace to the one that prints it). *)
Theorem C99_events_go_where_meant :
  forall p log ls g o m g' o' pk ns id a name, prog_run p log ls g o -> callbacks_set p (sys o) ->
    gstep p log g (GTask (LRead m)) = Some (g', o') ->
    completes (sys o) m pk -> packet_namespace pk = Some ns -> packet_data pk = Some (DataEvent id a) ->
    event_name pk (Ok name) -> (log = true -> show_packet pk <> None) ->
    sys o' = ORead m :: match goes_to p ns name with
                        | Some f => [OCall pk (EventCall f a (option_map (fun i => AckBuilder ns i false) id))]
                        | None => []
                        end.
Proof. exact event_given. Qed.
Print Assumptions C99_events_go_where_meant.
Example C99_goes_nonvacuous : exists g o g' o' pk a, prog_run SocketioTest false types_before g o /\ callbacks_set SocketioTest (sys o) /\
  gstep SocketioTest false g (GTask (LRead types_message)) = Some (g', o') /\
  completes (sys o) types_message pk /\ packet_namespace pk = Some (bs "/") /\ packet_data pk = Some (DataEvent (Some 7%N) a) /\
  event_name pk (Ok (bs "types")) /\ goes_to SocketioTest (bs "/") (bs "types") = Some cb_types.
Proof. exact types_go. Qed.
(** The callbacks are in place before the server is asked for anything, so what it then says is
    not missed; the callback of the reply too. *)
Theorem C99_ready_before_asking :
  forall p log ls g o, prog_run p log ls g o -> asked_for (sys o) <> [] \/ raw_sent (sys o) <> [] ->
    callbacks_set p (sys o) /\ (asked_for (sys o) <> [] -> In (ORegister (bs "/") 0%N cb_reply) (sys o)).
Proof. exact ready_first. Qed.
Print Assumptions C99_ready_before_asking.
Example C99_ready_nonvacuous : asked_for (sys (seen_by SocketioTest test_session)) <> [] /\
  raw_sent (sys (seen_by (WsConnect (Some (bs "/chat"))) chat_session)) <> [].
Proof. split; vm_compute; discriminate. Qed.

(** ** C100: ws_connect *)
(** False of the code: a namespace without a leading slash, or with a comma, is not what the server
    is asked to join. *)
Theorem C100_namespace_joined_refuted : ~ C100_full.
Proof. exact C100_refuted_lemma. Qed.
Print Assumptions C100_namespace_joined_refuted.
(** Exactly the namespaces that begin with a slash and contain no comma are.
    Missing from the full statement: the others. *)
Theorem C100_namespace_joined_partial :
  forall ns, peer_joins ns (join_frames ns) <-> (exists t, ns = "/"%byte :: t) /\ ~ In ","%byte ns.
Proof. exact joins_exactly. Qed.
Print Assumptions C100_namespace_joined_partial.
(** The program asks at most once, and emits and answers nothing; *)
Theorem C100_joins_once :
  forall w log ls g o, prog_run (WsConnect w) log ls g o ->
    asked_for (sys o) = [] /\ replies (sys o) = [] /\
    (raw_sent (sys o) = [] \/ exists ns, w = Some ns /\ raw_sent (sys o) = [join_frames ns]).
Proof. exact joins_once. Qed.
Print Assumptions C100_joins_once.
(** it says nothing else, but for pongs. *)
Theorem C100_says_nothing_else :
  forall w log ls g o m, prog_run (WsConnect w) log ls g o -> In (OWrite m) (sys o) ->
    m = WText (bs "3") \/ exists ns, w = Some ns /\ join_frames ns = [m].
Proof. exact connect_writes. Qed.
Print Assumptions C100_says_nothing_else.
Example C100_nonvacuous :
  raw_sent (sys (seen_by (WsConnect (Some (bs "/chat"))) chat_session)) = [join_frames (bs "/chat")] /\
  writes (sys (seen_by (WsConnect (Some (bs "/chat"))) chat_session)) = [WText (bs "40/chat,")] /\
  peer_joins (bs "/chat") (join_frames (bs "/chat")).
Proof. split; [vm_compute; reflexivity|]. split; [vm_compute; reflexivity|]. exists (bs "0/chat,"). split; reflexivity. Qed.
(** The callbacks of the programs get only events of the namespaces they are for; *)
Theorem C100_calls_are_meant :
  forall p log ls g o pk f a b, prog_run p log ls g o -> In (OCall pk (EventCall f a b)) (sys o) ->
    exists ns id name, packet_namespace pk = Some ns /\ packet_data pk = Some (DataEvent id a) /\ event_name pk (Ok name) /\
      b = option_map (fun i => AckBuilder ns i false) id /\
      match p with
      | SocketioTest => ns = bs "/" /\ (f = cb_print \/ f = cb_types /\ name = bs "types")
      | WsConnect None => ns = bs "/" /\ f = cb_print
      | WsConnect (Some n) => (ns = bs "/" /\ f = cb_print) \/ (ns = n /\ f = cb_named)
      end.
Proof. exact event_goes. Qed.
Print Assumptions C100_calls_are_meant.
(** nothing is printed for a namespace without a leading slash. *)
Theorem C100_named_has_slash :
  forall ns log ls g o pk a b, prog_run (WsConnect (Some ns)) log ls g o -> In (OCall pk (EventCall cb_named a b)) (sys o) ->
    exists t, ns = "/"%byte :: t.
Proof. exact named_slash. Qed.
Print Assumptions C100_named_has_slash.
Example C100_calls_nonvacuous : exists pk a, In (OCall pk (EventCall cb_named a None)) (sys (seen_by (WsConnect (Some (bs "/chat"))) chat_session)).
Proof. do 2 eexists. vm_compute. do 8 right. left. reflexivity. Qed.
