(** C27-C40: the client, its connection task and its callbacks.  [trace log s o]: some run of the
    client with any users, callbacks, server and scheduling ends in the state [s] with the
    observations [o]. *)
From Verif Require Import ClientDemo.

(** ** C27: the table *)
(** The callback that the table gives for an event is the one routed to by its history. *)
Theorem C27_routing_exact :
  forall h ns ev f, get_event (table_after h) ns ev = Some f <-> routed h ns ev f.
Proof. exact routing_exact. Qed.
Print Assumptions C27_routing_exact.
Example C27_nonvacuous :
  let h := [CSetFallback (bs "/") 1%N; CSetEvent (bs "/") (bs "a") 2%N; CSetEvent (bs "/x") (bs "a") 3%N;
            CSetEvent (bs "/") (bs "a") 4%N; CClearFallback (bs "/x"); CClearEvent (bs "/") (bs "b")] in
  get_event (table_after h) (bs "/") (bs "a") = Some 4%N /\ get_event (table_after h) (bs "/") (bs "b") = Some 1%N /\
  get_event (table_after h) (bs "/x") (bs "b") = None.
Proof. vm_compute. auto. Qed.
(** Operations on one namespace leave the others alone. *)
Theorem C27_namespaces_independent :
  forall h o ns, ns_of o <> ns ->
    (forall ev, get_event (table_after (h ++ [o])) ns ev = get_event (table_after h) ns ev) /\
    (forall id, snd (get_and_clear_ack (table_after (h ++ [o])) ns id) = snd (get_and_clear_ack (table_after h) ns id)).
Proof. exact isolation. Qed.
Print Assumptions C27_namespaces_independent.
(** In a run: every event callback that is called is the one routed to by what happened to the
    table before the packet was read. *)
Theorem C27_calls_are_routed :
  forall log s o1 p f a b o2, trace log s (o1 ++ OCall p (EventCall f a b) :: o2) ->
    exists o0 m ns id name, o1 = o0 ++ [ORead m] /\ completes o0 m p /\
      packet_namespace p = Some ns /\ packet_data p = Some (DataEvent id a) /\ event_name p (Ok name) /\
      routed (table_history o0) ns name f /\ b = option_map (fun i => AckBuilder ns i false) id.
Proof. exact event_calls_routed. Qed.
Print Assumptions C27_calls_are_routed.
Example C27_calls_nonvacuous : (exists s, trace false s demo_obs) /\ In (Scall 7%N) (map shape_of demo_obs).
Proof. split; [exact demo_trace|]. vm_compute. tauto. Qed.

(** ** C28: ack callbacks *)
(** Whatever the table gives for an ack was registered for that namespace and id, and not taken or
    replaced since. *)
Theorem C28_taken_exact :
  forall h ns id f, snd (get_and_clear_ack (table_after h) ns id) = Some f <-> awaiting h ns id f.
Proof. exact take_exact. Qed.
Print Assumptions C28_taken_exact.
(** No registration is taken twice. *)
Theorem C28_taken_once :
  forall h i j j', taken_from h i j -> taken_from h i j' -> j = j'.
Proof. exact taken_once. Qed.
Print Assumptions C28_taken_once.
Theorem C28_taken_from_registration :
  forall h j ns id f, nth_error h j = Some (CTakeAck ns id) ->
    snd (get_and_clear_ack (table_after (firstn j h)) ns id) = Some f ->
    exists i, nth_error h i = Some (CSetAck ns id f) /\ taken_from h i j.
Proof. exact take_has_source. Qed.
Print Assumptions C28_taken_from_registration.
(** In a run: every call of an ack callback has its registration; *)
Theorem C28_calls_registered :
  forall log s o j p f a, trace log s o -> nth_error o j = Some (OCall p (AckCall f a)) -> exists i, fires o i j.
Proof. exact fires_from. Qed.
Print Assumptions C28_calls_registered.
(** and no registration has two calls. *)
Theorem C28_called_once :
  forall o i j j', fires o i j -> fires o i j' -> j = j'.
Proof. exact fires_once. Qed.
Print Assumptions C28_called_once.
Example C28_nonvacuous : exists i j, fires demo_obs i j.
Proof.
  destruct demo_trace as [s H].
  destruct (nth_error demo_obs 11) as [[| p c | | | | | | | | | | | | | | |]|] eqn:E; try (vm_compute in E; discriminate).
  destruct c as [|f a]; [vm_compute in E; discriminate|].
  destruct (fires_from false s demo_obs 11 p f a H E) as [i Hi]. eauto.
Qed.

(** ** C29 *)
(** Ids are allotted in order; with at most 2^64 requests no two events carry the same id and no
    two callbacks are registered for the same id. *)
Theorem C29_ids_unique :
  forall log s o, trace log s o -> (N.of_nat (length (requested o)) <= 2 ^ 64)%N ->
    NoDup (requested o) /\ NoDup (emitted_ids o) /\ NoDup (registered_ids o) /\
    incl (emitted_ids o) (requested o) /\ incl (registered_ids o) (requested o).
Proof. exact ids_unique. Qed.
Print Assumptions C29_ids_unique.
Theorem C29_ids_in_order :
  forall log s o, trace log s o ->
    requested o = map (fun k => (N.of_nat k mod 2 ^ 64)%N) (seq 0 (length (requested o))).
Proof. exact requested_order. Qed.
Print Assumptions C29_ids_in_order.
Example C29_nonvacuous : exists s o, trace false s o /\ requested o = [0%N; 1%N; 2%N; 3%N] /\ emitted_ids o = [2%N; 3%N].
Proof.
  destruct (execute false init (opened_run ++
    [LBuild (Emission (bs "/") (bs "x") [SetCallback 1%N] []);
     LEmit (Emission (bs "/") (bs "x") [SetCallback 1%N; SetBinary true; SetCallback 2%N] []);
     LEmit (Emission (bs "/a") (bs "x") [SetCallback 2%N] []);
     LRegister 1; LRegister 0; LPush 0; LPush 0])) as [[s o]|] eqn:E; [|vm_compute in E; discriminate].
  exists s, o. split; [eapply run_trace; exact E|]. vm_compute in E. injection E as _ <-. vm_compute. auto.
Qed.

(** ** C30 *)
Theorem C30_never_unexpected :
  forall log s o, trace log s o -> honest o -> forall p, ~ In (OEnd (EndErr (RUnexpectedAck p))) o.
Proof. exact honest_never_unexpected. Qed.
Print Assumptions C30_never_unexpected.
(** The ack is delivered to a callback registered for it. *)
Theorem C30_ack_delivered :
  forall log s o m s' o' p ns id a, trace log s o -> step log s (LRead m) = Some (s', o') ->
    completes o m p -> packet_namespace p = Some ns -> packet_data p = Some (DataAck id a) ->
    (log = true -> show_packet p <> None) -> honest (o ++ o') ->
    exists f, In (ORegister ns id f) o /\ o' = [ORead m; OCall p (AckCall f a)].
Proof. exact honest_delivered. Qed.
Print Assumptions C30_ack_delivered.
Example C30_nonvacuous : (exists s, trace false s demo_obs) /\ honest demo_obs /\ In (Scall 9%N) (map shape_of demo_obs).
Proof. split; [exact demo_trace|]. split; [exact demo_honest|]. vm_compute. tauto. Qed.

(** ** C31 *)
(** Reading the message that completes an event: the routed callback is called, once, with the
    arguments of the packet and an ack builder exactly if the event has an id; without a routed
    callback nothing happens. *)
Theorem C31_event_delivered :
  forall log s o m s' o' p ns id a name, trace log s o -> step log s (LRead m) = Some (s', o') ->
    completes o m p -> packet_namespace p = Some ns -> packet_data p = Some (DataEvent id a) ->
    event_name p (Ok name) -> (log = true -> show_packet p <> None) ->
    (forall f, routed (table_history o) ns name f ->
       o' = [ORead m; OCall p (EventCall f a (option_map (fun i => AckBuilder ns i false) id))]) /\
    ((forall f, ~ routed (table_history o) ns name f) -> o' = [ORead m]).
Proof. exact event_reaction. Qed.
Print Assumptions C31_event_delivered.
(** Every ack builder is used at most once, and none is used that was not given to a callback. *)
Theorem C31_builders_used_once :
  forall log s o, trace log s o -> exists unused, Permutation (builders_given o) (builders_used o ++ unused).
Proof. exact builders_once. Qed.
Print Assumptions C31_builders_used_once.
(** What is sent as an ack is an ack packet for the namespace and id of an event that was
    delivered. *)
Theorem C31_ack_source :
  forall log s o ns id fs, trace log s o -> In (OQueued (ByAck ns id) fs) o \/ In (OLost (ByAck ns id) fs) o ->
    (exists bin args, build (OfAck id) ns bin args = Some fs) /\
    (exists o1 p f a o2, o = o1 ++ OCall p (EventCall f a (Some (AckBuilder ns id false))) :: o2 /\
      packet_namespace p = Some ns /\ packet_data p = Some (DataEvent (Some id) a)) /\ ns_ok ns /\ (id <= u64_max)%N.
Proof. exact ack_sources. Qed.
Print Assumptions C31_ack_source.
(** That it always parses back is false of the code: see C43, C14 and C09. *)
Theorem C31_ack_parses_back_refuted : ~ C31_full.
Proof. exact C31_refuted_lemma. Qed.
Print Assumptions C31_ack_parses_back_refuted.
(** It does for an ack with a first argument that serialises, in the root namespace or with
    arguments that contain no '['; and if the first argument serialises, nothing else arrives.
    Missing from the full statement: the others. *)
Theorem C31_ack_parses_back_partial :
  forall log s o l i bin args s' o', trace log s o -> l = LAck i bin args \/ l = LCbAck i bin args ->
    step log s l = Some (s', o') ->
    exists ns id fs, In (ns, id) (builders_given o) /\ ns_ok ns /\
      (o' = [OQueued (ByAck ns id) fs] \/
       o' = [OLost (ByAck ns id) fs] /\ (In OChannelClosed o \/ exists e, In (OEnd e) o)) /\
      forall h, opened h -> ~ closed h -> usable args -> (bin = true -> usable_binary args) ->
        (first_ok (OfAck id) args -> forall p, arrives h fs p -> carries p KAck ns (Some id) (pkt_values bin args)) /\
        (starts (OfAck id) args -> ns = bs "/" \/ (bin = false /\ Forall plain args) ->
           exists p, arrives h fs p /\ carries p KAck ns (Some id) (pkt_values bin args)).
Proof. exact ack_answer. Qed.
Print Assumptions C31_ack_parses_back_partial.
Example C31_nonvacuous : builders_given demo_obs = [(bs "/", 5%N)] /\ builders_used demo_obs = [(bs "/", 5%N)] /\
  In (Squeue demo_ack) (map shape_of demo_obs) /\
  usable [SBytes (bs "ok")] /\ usable_binary [SBytes (bs "ok")] /\ starts (OfAck 5) [SBytes (bs "ok")].
Proof.
  split; [vm_compute; reflexivity|]. split; [vm_compute; reflexivity|]. split; [vm_compute; tauto|].
  split; [repeat constructor; cbn; lia|]. split; [split; [repeat constructor; cbn|cbn; unfold u64_max; lia]|reflexivity].
Qed.

(** ** C32 *)
(** When the message that completes a packet (a text message followed by its attachments, whatever
    control frames came in between) is read, the packet is delivered; *)
Theorem C32_reassembled :
  forall log s o m s' o' x es ps t l p, trace log s o -> step log s (LRead m) = Some (s', o') ->
    is_data m = true -> engine_answer (reads o) m (Ok (PktMessage x)) ->
    messages (reads o) ++ [x] = es ++ MText t :: l -> assembled es ps [] -> received t l p ->
    exists out, o' = ORead m :: out /\ packet_reaction log o p out.
Proof. exact reassembled. Qed.
Print Assumptions C32_reassembled.
(** before that, nothing is; *)
Theorem C32_not_before :
  forall log s o m s' o' x es ps t l q n, trace log s o -> step log s (LRead m) = Some (s', o') ->
    is_data m = true -> engine_answer (reads o) m (Ok (PktMessage x)) ->
    messages (reads o) ++ [x] = es ++ MText t :: l -> assembled es ps [] ->
    deserialize (MText t) = Ok (DDataNeeded q) -> partial_attachments q = Some n -> (N.of_nat (length l) < n)%N ->
    o' = [ORead m].
Proof. exact not_before. Qed.
Print Assumptions C32_not_before.
(** and what a callback gets as attachments is the content of the announced number of messages, in
    order, that directly follow the text message. *)
Theorem C32_attachments_delivered :
  forall log s o1 p c o2, trace log s (o1 ++ OCall p c :: o2) ->
    exists o0 m es ps t text l d a, o1 = o0 ++ [ORead m] /\
      messages (reads o1) = es ++ MText t :: l /\ assembled es ps [] /\ received t l p /\ sub_deref_str t = Some text /\
      packet_data p = Some d /\ data_args d = Some a /\ (match c with EventCall _ a' _ | AckCall _ a' => a' = a end) /\
      length (a_attachments a) = length l /\
      all_some (map sub_deref_vec (a_attachments a)) = all_some (map binary_content l).
Proof. exact call_attachments. Qed.
Print Assumptions C32_attachments_delivered.
(** Websocket control frames and engine pings and pongs make no difference to the messages. *)
Theorem C32_control_frames_ignored :
  forall h m h', is_data m = false -> messages (h ++ m :: h') = messages (h ++ h').
Proof. exact messages_control. Qed.
Print Assumptions C32_control_frames_ignored.
Theorem C32_pings_ignored :
  forall h m h' r, is_data m = true -> engine_answer h m (Ok r) -> r = PktPing \/ r = PktPong ->
    messages (h ++ m :: h') = messages (h ++ h').
Proof. exact messages_ping. Qed.
Print Assumptions C32_pings_ignored.
Example C32_nonvacuous :
  (exists s, trace false s demo_obs) /\ In (WPing [x00]) (reads demo_obs) /\
  length (messages (reads demo_obs)) = 3 /\
  engine_answer [sample_open] (WText (bs "2")) (Ok PktPing).
Proof. split; [exact demo_trace|]. vm_compute. tauto. Qed.

(** ** C33 *)
Theorem C33_ping_answered :
  forall log s o m s' o', trace log s o -> step log s (LRead m) = Some (s', o') ->
    is_data m = true -> engine_answer (reads o) m (Ok PktPing) -> ~ In OChannelClosed o ->
    o' = [ORead m; OQueued ByReceiver [WText (bs "3")]].
Proof. exact ping_answered. Qed.
Print Assumptions C33_ping_answered.
Theorem C33_pong_for_ping :
  forall log s o1 fs o2, trace log s (o1 ++ OQueued ByReceiver fs :: o2) ->
    fs = [WText (bs "3")] /\
    exists o0 m, o1 = o0 ++ [ORead m] /\ is_data m = true /\ engine_answer (reads o0) m (Ok PktPing).
Proof. exact pong_for_ping. Qed.
Print Assumptions C33_pong_for_ping.
(** As many pongs as pings, and nothing else, are given to the channel by the receiver. *)
Theorem C33_pongs_are_pings :
  forall log s o, trace log s o -> pongs o = repeat [WText (bs "3")] (ping_count (reads o)).
Proof. exact pongs_are. Qed.
Print Assumptions C33_pongs_are_pings.
Example C33_nonvacuous : (exists s, trace false s demo_obs) /\ ping_count (reads demo_obs) = 1.
Proof. split; [exact demo_trace|vm_compute; reflexivity]. Qed.

(** ** C34 *)
(** False of the code: the table stays locked while a callback runs. *)
Theorem C34_callback_unlocked_refuted : ~ C34_full.
Proof. exact C34_refuted_lemma. Qed.
Print Assumptions C34_callback_unlocked_refuted.
(** Exactly when something blocks: a callback sets or clears a callback, or sends an event that
    requests an ack. *)
Theorem C34_blocks_exactly :
  forall log s o l s' o', trace log s o -> step log s l = Some (s', o') ->
    (In OBlocked o' <-> (exists c k, s_phase s = PCalling c k) /\
      ((exists op, l = LCbTable op) \/ (exists e f, l = LCbEmit e /\ chosen_callback (em_calls e) = Some f))).
Proof. exact blocked_exact. Qed.
Print Assumptions C34_blocks_exactly.
(** Then the task never does anything again, and close() can only time out. *)
Theorem C34_blocked_forever :
  forall log s o1 o2, trace log s (o1 ++ OBlocked :: o2) -> s_phase s = PStuck /\ Forall while_blocked o2.
Proof. exact blocked_forever. Qed.
Print Assumptions C34_blocked_forever.
Example C34_nonvacuous : exists s o, execute false init blocking_run = Some (s, o) /\ last o OUserPanic = OBlocked.
Proof.
  destruct (execute false init blocking_run) as [[s o]|] eqn:E; [|vm_compute in E; discriminate].
  exists s, o. split; [reflexivity|]. vm_compute in E. injection E as _ <-. reflexivity.
Qed.
(** The part that holds: a callback can always send events that request no ack, and answer with
    ack builders. *)
Theorem C34_callback_unlocked_partial :
  forall log s o l s' o' c k, trace log s o -> s_phase s = PCalling c k -> step log s l = Some (s', o') ->
    (exists e, l = LCbEmit e /\ chosen_callback (em_calls e) = None) \/ (exists i bin args, l = LCbAck i bin args) ->
    s_phase s' = PCalling c k /\ ~ In OBlocked o'.
Proof. exact callback_free. Qed.
Print Assumptions C34_callback_unlocked_partial.
Theorem C34_callback_can_send :
  forall log s c k, s_phase s = PCalling c k ->
    (forall e, usable_client s = true -> exists s' o', step log s (LCbEmit e) = Some (s', o')) /\
    (forall i bin args x, nth_error (s_acks s) i = Some x -> exists s' o', step log s (LCbAck i bin args) = Some (s', o')).
Proof. exact callback_possible. Qed.
Print Assumptions C34_callback_can_send.

(** ** C35 *)
Theorem C35_frames_contiguous :
  forall log s o, trace log s o -> exists r, concat (queued o) = writes o ++ r.
Proof. exact frames_contiguous. Qed.
Print Assumptions C35_frames_contiguous.
Example C35_nonvacuous : (exists s, trace false s demo_obs) /\
  writes demo_obs = WText (bs "420[""ask"",1]") :: WText (bs "3") :: demo_ack.
Proof. split; [exact demo_trace|vm_compute; reflexivity]. Qed.

(** ** C36 *)
(** False of the code: the select may take the close signal while packets are queued. *)
Theorem C36_queued_before_close_refuted : ~ C36_full.
Proof. exact C36_refuted_lemma. Qed.
Print Assumptions C36_queued_before_close_refuted.
(** The part that holds: before the close frame a number of whole packets has been written, the
    first ones queued; there is one close frame, and nothing is written after it.  Missing from the
    full statement: that these are all packets queued before close() was called. *)
Theorem C36_queued_before_close_partial :
  forall log s o1 o2, trace log s (o1 ++ OCloseFrame :: o2) ->
    (exists q1 q2, queued o1 = q1 ++ q2 /\ writes o1 = concat q1) /\ ~ In OCloseFrame o1 /\ Forall no_write o2.
Proof. exact close_frame. Qed.
Print Assumptions C36_queued_before_close_partial.
Example C36_nonvacuous : exists s o1 o2, trace false s (o1 ++ OCloseFrame :: o2) /\ length (writes o1) = 4.
Proof.
  destruct demo_trace as [s H].
  assert (E : nth_error demo_obs 21 = Some OCloseFrame) by (vm_compute; reflexivity).
  destruct (nth_error_split _ _ E) as (o1 & o2 & Eo & Hl). exists s, o1, o2. rewrite <- Eo. split; [exact H|].
  assert (o1 = firstn 21 demo_obs) as ->.
  { rewrite Eo, firstn_app, Hl, Nat.sub_diag, firstn_O, app_nil_r, <- Hl, firstn_all. reflexivity. }
  vm_compute. reflexivity.
Qed.

(** ** C37 *)
(** At most one close() goes through; no close() has ended before it. *)
Theorem C37_close_goes_through_once :
  forall log s o1 o2, trace log s (o1 ++ OCloseCalled :: o2) ->
    ~ In OCloseCalled o1 /\ ~ In OCloseCalled o2 /\ forall r, ~ In (OClose r) o1.
Proof. exact close_called_once. Qed.
Print Assumptions C37_close_goes_through_once.
(** At most one close() ends with something else than AlreadyClosed. *)
Theorem C37_one_result :
  forall log s o1 r o2, trace log s (o1 ++ OClose r :: o2) -> r <> CloseAlready ->
    In OCloseCalled o1 /\ (forall r', In (OClose r') o1 \/ In (OClose r') o2 -> r' = CloseAlready).
Proof. exact close_result_once. Qed.
Print Assumptions C37_one_result.
(** Every later call fails with AlreadyClosed, at once. *)
Theorem C37_later_calls_fail :
  forall log s o, trace log s o -> usable_client s = true -> In OCloseCalled o ->
    step log s LCloseCall = Some (s, [OClose CloseAlready]).
Proof. exact close_again. Qed.
Print Assumptions C37_later_calls_fail.
(** What close() reports is how the task ended. *)
Theorem C37_result_truthful :
  forall log s o1 r o2, trace log s (o1 ++ OClose r :: o2) ->
    match r with
    | CloseOk => In (OEnd EndOk) o1
    | ClosePanic => In (OEnd EndPanic) o1 \/ In (OEnd EndAborted) o1
    | CloseErr e => In (OEnd e) o1 /\ e <> EndOk /\ e <> EndPanic /\ e <> EndAborted
    | CloseTimeout | CloseAlready => True
    end.
Proof. exact close_reports. Qed.
Print Assumptions C37_result_truthful.
Theorem C37_one_close_frame :
  forall log s o1 o2, trace log s (o1 ++ OCloseFrame :: o2) -> ~ In OCloseFrame o1 /\ ~ In OCloseFrame o2.
Proof. exact one_close_frame. Qed.
Print Assumptions C37_one_close_frame.
Example C37_nonvacuous : (exists s, trace false s demo_obs) /\ In OCloseCalled demo_obs /\ In OCloseFrame demo_obs /\
  In (OClose CloseOk) demo_obs /\ In (OClose CloseAlready) demo_obs.
Proof. split; [exact demo_trace|]. vm_compute. tauto. Qed.

(** ** C38 *)
Theorem C38_nothing_after_end :
  forall log s o1 e o2, trace log s (o1 ++ OEnd e :: o2) ->
    Forall (fun x => ~ ends x) o1 /\ Forall after_end o2 /\ s_phase s = PEnded e.
Proof. exact nothing_after_end. Qed.
Print Assumptions C38_nothing_after_end.
Example C38_nonvacuous : (exists s, trace false s demo_obs) /\ In (OEnd EndOk) demo_obs.
Proof. split; [exact demo_trace|]. vm_compute. tauto. Qed.

(** ** C39 *)
(** A message that the receiver rejects ends the task with that error; *)
Theorem C39_rejected_ends :
  forall log s o m e s' o', trace log s o -> step log s (LRead m) = Some (s', o') ->
    reaction log o m [OEnd (EndErr e)] -> o' = [ORead m; OEnd (EndErr e)] /\ s_phase s' = PEnded (EndErr e).
Proof. exact rejected_ends. Qed.
Print Assumptions C39_rejected_ends.
(** if the task ended with an error, it is that of the last message read, all messages before were
    processed, and none is after. *)
Theorem C39_error_is_of_last_message :
  forall log s o1 e o2, trace log s (o1 ++ OEnd (EndErr e) :: o2) ->
    exists o0 m, o1 = o0 ++ [ORead m] /\ reaction log o0 m [OEnd (EndErr e)] /\
      (forall oa m' ob, o0 = oa ++ ORead m' :: ob ->
         exists out oc, ob = out ++ oc /\ reaction log oa m' out /\ Forall (fun x => ~ ends x) out) /\
      Forall after_end o2.
Proof. exact error_ends. Qed.
Print Assumptions C39_error_is_of_last_message.
(** The reaction to a message is a function of the past. *)
Theorem C39_reaction_determined :
  forall log o m out out', reaction log o m out -> reaction log o m out' -> out = out'.
Proof. exact reaction_unique. Qed.
Print Assumptions C39_reaction_determined.
Theorem C39_reaction_exact :
  forall log s o m s' o', trace log s o -> step log s (LRead m) = Some (s', o') ->
    exists out, o' = ORead m :: out /\ reaction log o m out.
Proof. exact reaction_exact. Qed.
Print Assumptions C39_reaction_exact.
Example C39_nonvacuous : exists s x e, trace false s [ORead sample_open; OOpened x; ORead (WText (bs "4x")); OEnd (EndErr e)].
Proof.
  destruct (execute false init [LHandshake None; LRead sample_open; LRead (WText (bs "4x"))]) as [[s o]|] eqn:E; [|vm_compute in E; discriminate].
  pose proof (run_trace _ _ _ _ E) as H. vm_compute in E. injection E as _ <-. eexists _, _, _. exact H.
Qed.

(** ** C40 *)
(** False of the code: [open.unwrap()] (connection.rs:73). *)
Theorem C40_connecting_never_panics_refuted : ~ C40_full.
Proof. exact C40_refuted_lemma. Qed.
Print Assumptions C40_connecting_never_panics_refuted.
(** Connecting panics only if the task ended before an Open packet; *)
Theorem C40_connecting_never_panics_partial :
  forall log s o1 o2, trace log s (o1 ++ OConnect CPanicked :: o2) ->
    (exists e, In (OEnd e) o1) /\ (forall x, ~ In (OOpened x) o1).
Proof. exact connect_panics. Qed.
Print Assumptions C40_connecting_never_panics_partial.
(** and then it does, unless the timeout or the user is faster. *)
Theorem C40_connecting_panics_when :
  forall log s o, trace log s o -> s_conn s = COpening ->
    (exists e, In (OEnd e) o) -> (forall x, ~ In (OOpened x) o) ->
    exists s', step log s LOpenSeen = Some (s', [OConnect CPanicked]).
Proof. exact connect_panics_when. Qed.
Print Assumptions C40_connecting_panics_when.
(** A client that is returned has the session id of the Open packet received. *)
Theorem C40_connected_sid :
  forall log s o1 sid o2, trace log s (o1 ++ OConnect (CConnected sid) :: o2) ->
    exists x, In (OOpened x) o1 /\ sid = o_sid x.
Proof. exact connected_sid. Qed.
Print Assumptions C40_connected_sid.
Example C40_nonvacuous : (exists s, trace false s demo_obs) /\ In (OConnect (CConnected (bs "lv_VI97HAXpY6yYWAAAC"))) demo_obs.
Proof. split; [exact demo_trace|]. vm_compute. tauto. Qed.
