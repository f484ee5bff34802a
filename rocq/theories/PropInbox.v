(** C103: how soon what has arrived is handled. *)
From Verif Require Import InboxCallsDemo InboxWide.

(** If a task with something to do does its next step within [d], [select!] passes reading over at most
    [k] times in a row, and no queued message has more than [f] frames, then everything that has arrived
    by some time is read, in the order of arrival and with nothing left out, after at most [d] times
    [1 + h + n (2 + k (f + 1))], for [h] frames (or a callback) in hand and [n] messages not yet read;
    unless a callback has blocked the task or the task has ended. *)
Theorem C103_handled_in_time : forall log d k f c c', attended log d k c -> onward log d k c c' ->
  Forall (fun fs => length fs <= f) (queued (noticed c')) ->
  e_now c + d * steps_to_read k f c < e_now c' ->
  In OBlocked (noticed c') \/ (exists e, In (OEnd e) (noticed c')) \/
  exists rest, reads (noticed_until (e_now c + d * steps_to_read k f c) c') = e_came c ++ rest.
Proof. exact handled_in_time. Qed.
Print Assumptions C103_handled_in_time.
(** The bound cannot be lowered: whatever [d], [k] and [f], there is a run where at that very time
    the one message that has arrived is not read yet, although the task goes on. *)
Theorem C103_bound_reached : forall d k f, exists c c', attended false d k c /\ onward false d k c c' /\
  Forall (fun fs => length fs <= f) (queued (noticed c')) /\
  e_now c' = e_now c + d * steps_to_read k f c /\ ~ over (e_state c') /\
  e_came c = [sample_open; WText (bs "42[""x"",2]")] /\ reads (noticed c') = [sample_open].
Proof. exact wide_bound_reached. Qed.
Print Assumptions C103_bound_reached.
(** And without a bound on how often reading is passed over there is no bound on the time: while users
    have enough queued, a single message of the server waits as long as one likes. *)
Theorem C103_no_bound_without_fairness : forall d B, 0 < d -> exists k c c', attended false d k c /\ onward false d k c c' /\
  Forall (fun fs => length fs <= 1) (queued (noticed c')) /\
  e_now c + B < e_now c' /\ ~ over (e_state c') /\
  e_came c = [sample_open; WText (bs "42[""x"",2]")] /\ reads (noticed c') = [sample_open].
Proof. exact no_read_bound. Qed.
Print Assumptions C103_no_bound_without_fairness.
(** The clock is never stopped by these rules, and the task need not end for that (except for what it
    reads). *)
Theorem C103_time_goes_on : forall log d k c t, 0 < d -> attended log d k c ->
  exists c', onward log d k c c' /\ t <= e_now c' /\
    forall e, In (OEnd e) (noticed c') -> In (OEnd e) (noticed c) \/ e = EndPanic \/ exists r, e = EndErr r.
Proof. exact desk_goes_on. Qed.
Print Assumptions C103_time_goes_on.
(** The runs are the runs of the client, and what has arrived is what is read and what is still to be read. *)
Theorem C103_clock_is_extra : forall log d k c, attended log d k c ->
  trace log (e_state c) (noticed c) /\ e_came c = reads (noticed c) ++ e_inbox c.
Proof. exact attended_is_trace. Qed.
Print Assumptions C103_clock_is_extra.
(** And all its runs, for every [d] and [k]. *)
Theorem C103_every_trace : forall log d k s o, trace log s o ->
  exists c, attended log d k c /\ e_state c = s /\ noticed c = o.
Proof. exact trace_is_attended. Qed.
Print Assumptions C103_every_trace.
(** A run that meets all hypotheses, for each [d] and [k]: the message is read, the task goes on. *)
Example C103_nonvacuous : forall d k, exists c c', attended false d k c /\ onward false d k c c' /\
  Forall (fun fs => length fs <= 1) (queued (noticed c')) /\ e_now c + d * steps_to_read k 1 c < e_now c' /\ ~ over (e_state c') /\
  reads (noticed c) = [sample_open] /\ e_came c = [sample_open; WText (bs "42[""x"",2]")] /\
  reads (noticed c') = [sample_open; WText (bs "42[""x"",2]")].
Proof. exact read_at_last. Qed.
(** In particular the callback of an event that has arrived is called within that time, right after the
    message that completes the event is read, if one is set for it (in the table as it is by then). *)
Theorem C103_called_in_time : forall log d k f c c' q m q' p ns id a name, attended log d k c -> onward log d k c c' ->
  Forall (fun fs => length fs <= f) (queued (noticed c')) ->
  e_now c + d * steps_to_read k f c < e_now c' ->
  e_came c = q ++ m :: q' -> brings q m p -> packet_namespace p = Some ns -> packet_data p = Some (DataEvent id a) ->
  event_name p (Ok name) -> (log = true -> show_packet p <> None) ->
  In OBlocked (noticed c') \/ (exists e, In (OEnd e) (noticed c')) \/
  exists o1 o2, noticed_until (e_now c + d * steps_to_read k f c) c' = o1 ++ ORead m :: o2 /\ reads o1 = q /\
    forall g, routed (table_history o1) ns name g ->
      exists o3, o2 = OCall p (EventCall g a (option_map (fun i => AckBuilder ns i false) id)) :: o3.
Proof. exact called_in_time. Qed.
Print Assumptions C103_called_in_time.
(** And the callback that waits for an ack is called within that time when the ack has arrived, if the
    server acknowledges only what it was asked to, and once. *)
Theorem C103_acks_called_in_time : forall log d k f c c' q m q' p ns id a, attended log d k c -> onward log d k c c' ->
  Forall (fun fs => length fs <= f) (queued (noticed c')) ->
  e_now c + d * steps_to_read k f c < e_now c' -> honest (noticed c') ->
  e_came c = q ++ m :: q' -> brings q m p -> packet_namespace p = Some ns -> packet_data p = Some (DataAck id a) ->
  (log = true -> show_packet p <> None) ->
  In OBlocked (noticed c') \/ (exists e, In (OEnd e) (noticed c')) \/
  exists o1 o3 g, noticed_until (e_now c + d * steps_to_read k f c) c' = o1 ++ ORead m :: OCall p (AckCall g a) :: o3 /\ reads o1 = q /\
    In (ORegister ns id g) o1.
Proof. exact acks_called_in_time. Qed.
Print Assumptions C103_acks_called_in_time.
(** An event and an ack arrive together at time 0; with [d = 3], [k = 1] the bound is 27, and the run goes
    on to 30.  All hypotheses of both theorems hold, and the callbacks 7 and 9 are called. *)
Example C103_calls_nonvacuous :
  attended false 3 1 call_arrived /\ onward false 3 1 call_arrived call_done /\
  Forall (fun fs => length fs <= 1) (queued (noticed call_done)) /\
  e_now call_arrived + 3 * steps_to_read 1 1 call_arrived < e_now call_done /\ honest (noticed call_done) /\
  e_came call_arrived = [sample_open] ++ WText (bs "42[""news"",5]") :: [WText (bs "430[true]")] /\
  (exists p ns id a name, brings [sample_open] (WText (bs "42[""news"",5]")) p /\ packet_namespace p = Some ns /\ packet_data p = Some (DataEvent id a) /\
    event_name p (Ok name) /\ routed (table_history (noticed call_arrived)) ns name 7%N) /\
  (exists p ns id a, brings [sample_open; WText (bs "42[""news"",5]")] (WText (bs "430[true]")) p /\ packet_namespace p = Some ns /\ packet_data p = Some (DataAck id a)) /\
  ~ In OBlocked (noticed call_done) /\ (forall e, ~ In (OEnd e) (noticed call_done)) /\
  map shape_of (skipn 8 (noticed call_done)) = [Sread (bs "42[""news"",5]"); Scall 7%N; Sread (bs "430[true]"); Scall 9%N].
Proof.
  split; [exact call_attended|]. split; [exact call_onward|]. split; [vm_compute; repeat constructor|]. split; [vm_compute; repeat constructor|].
  split; [exact call_honest|]. split; [vm_compute; reflexivity|].
  split; [replace (noticed call_arrived) with (snd call_0) by (vm_compute; reflexivity); exact news_meets|]. split; [exact answer_meets|].
  split; [vm_compute; intuition discriminate|]. split; [intros e; vm_compute; intuition discriminate|]. exact call_shapes.
Qed.
