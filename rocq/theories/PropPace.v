(** C101, C102: how soon what is queued is written, and how soon the connection is closed. *)
From Verif Require Import PaceCloseDemo.

(** ** C101 *)

(** If a task with something to do does its next step within [d], and [select!] passes the channel over
    at most [k] times in a row, then everything that is queued by some time has been written, in order
    and with nothing left out, after at most [d] times [1 + f + (2k + 1) p], for [f] frames not yet
    written and [p] messages in the channel (or else the task has left its main loop). *)
Theorem C101_written_in_time : forall log d k c c', paced log d k c -> later log d k c c' ->
  k_now c + d * steps_needed k c < k_now c' ->
  past_loop (k_state c') \/
  exists rest, writes (seen_until (k_now c + d * steps_needed k c) c') = concat (queued (observed c)) ++ rest.
Proof. exact written_in_time. Qed.
Print Assumptions C101_written_in_time.
(** In particular every ping read by then has been answered, unless a user has closed the channel. *)
Theorem C101_pongs_in_time : forall log d k c c', paced log d k c -> later log d k c c' ->
  k_now c + d * steps_needed k c < k_now c' ->
  past_loop (k_state c') \/ In OChannelClosed (observed c') \/
  ping_count (reads (observed c)) <= pongs_written (seen_until (k_now c + d * steps_needed k c) c').
Proof. exact pongs_in_time. Qed.
Print Assumptions C101_pongs_in_time.
(** So whoever waits that long before calling [close()] (or dropping the client) knows that everything
    has been written, unless the connection has ended or a callback has blocked it. *)
Theorem C101_wait_before_close : forall log d k c c', paced log d k c -> later log d k c c' ->
  k_now c + d * steps_needed k c < k_now c' ->
  s_signal (k_state c') = false -> ~ In OBlocked (observed c') -> (forall e, ~ In (OEnd e) (observed c')) ->
  exists rest, writes (observed c') = concat (queued (observed c)) ++ rest.
Proof. exact wait_then_close. Qed.
Print Assumptions C101_wait_before_close.
(** The bound cannot be lowered: whatever [d] and [k], there is a run where at that very time the frame
    is not written yet. *)
Theorem C101_bound_reached : forall d k, exists c c', paced false d k c /\ later false d k c c' /\
  k_now c' = k_now c + d * steps_needed k c /\ in_main_loop (k_state c') /\
  concat (queued (observed c)) = [WText (bs "42[""tick""]")] /\ writes (observed c') = [].
Proof. exact bound_reached. Qed.
Print Assumptions C101_bound_reached.
(** And without a bound on how often the channel is passed over (the code sets none: [select!] chooses
    at random) there is no bound on the time: a single frame waits as long as the server keeps sending. *)
Theorem C101_no_bound_without_fairness : forall d, 0 < d -> forall B, exists k c c',
  paced false d k c /\ later false d k c c' /\
  k_now c + B < k_now c' /\ in_main_loop (k_state c') /\ unwritten c = 1 /\ length (s_chan (k_state c)) = 1 /\
  concat (queued (observed c)) = [WText (bs "42[""tick""]")] /\ writes (observed c') = [].
Proof. exact no_bound_at_all. Qed.
Print Assumptions C101_no_bound_without_fairness.
(** The clock is never stopped by these rules: from every state a run can go on to any later time, and
    the task need not end for that. *)
Theorem C101_time_goes_on : forall log d k c t, 0 < d -> paced log d k c ->
  exists c', later log d k c c' /\ t <= k_now c' /\ task_ended (k_state c') = task_ended (k_state c).
Proof. exact time_goes_on. Qed.
Print Assumptions C101_time_goes_on.
(** The runs are the runs of the client: forgetting the clock, what is observed is a trace. *)
Theorem C101_clock_is_extra : forall log d k c, paced log d k c -> trace log (k_state c) (observed c).
Proof. exact paced_is_trace. Qed.
Print Assumptions C101_clock_is_extra.
(** And all its runs: every trace is what is observed in a run with a clock, for a [k] large enough. *)
Theorem C101_every_trace : forall log d s o, trace log s o ->
  exists k c, paced log d k c /\ k_state c = s /\ observed c = o.
Proof. exact trace_is_paced. Qed.
Print Assumptions C101_every_trace.
(** A ping is read at time 0 and the pong is written at time 5; the bound for [d = 3], [k = 1] is 15. *)
Example C101_nonvacuous :
  paced false 3 1 ping_read /\ later false 3 1 ping_read pong_written /\
  k_now ping_read + 3 * steps_needed 1 ping_read < k_now pong_written /\
  ~ past_loop (k_state pong_written) /\ ~ In OChannelClosed (observed pong_written) /\
  steps_needed 1 ping_read = 5 /\ ping_count (reads (observed ping_read)) = 1 /\
  s_signal (k_state pong_written) = false /\ ~ In OBlocked (observed pong_written) /\ (forall e, ~ In (OEnd e) (observed pong_written)) /\
  writes (seen_until 4 pong_written) = [] /\ writes (seen_until 15 pong_written) = [WText (bs "3")].
Proof.
  split; [exact ping_paced|]. split; [exact pong_later|].
  replace (steps_needed 1 ping_read) with 5 by (vm_compute; reflexivity).
  split; [vm_compute; repeat constructor|]. split; [vm_compute; auto|].
  split; [vm_compute; intuition discriminate|]. split; [reflexivity|]. split; [vm_compute; reflexivity|]. split; [vm_compute; reflexivity|].
  split; [vm_compute; intuition discriminate|]. split; [intros e; vm_compute; intuition discriminate|]. split; vm_compute; reflexivity.
Qed.

(** ** C102 *)
(** With the same rules, once [close()] is called and no message has more than [f] frames, the task is
    done with sending the close frame after at most [d] times [2 + h + k (f + 1)], for [h] frames (or a
    callback) in hand. *)
Theorem C102_closed_in_time : forall log d k f c c', paced log d k c -> later log d k c c' -> 1 <= f ->
  Forall (fun fs => length fs <= f) (queued (observed c')) -> In OCloseCalled (observed c) ->
  k_now c + d * steps_to_close k f c < k_now c' -> past_closing (k_state c').
Proof. exact closed_in_time. Qed.
Print Assumptions C102_closed_in_time.
(** And however many messages are queued, at most [k + 1] of those not written whole when [close()] was
    called (the one in hand and [k] more) are ever written, in whole or in part: [q] have been written
    before, what is written in the end is the beginning of [q ++ q2]. *)
Theorem C102_few_after_close : forall log d k c c', paced log d k c -> later log d k c c' -> In OCloseCalled (observed c) ->
  exists q q2 q3 r r', queued (observed c') = q ++ q2 ++ q3 /\ writes (observed c) = concat q ++ r /\
    length q2 <= k + 1 /\ concat (q ++ q2) = writes (observed c') ++ r'.
Proof. exact few_after_close. Qed.
Print Assumptions C102_few_after_close.
(** Neither bound can be lowered: for every [d] and [k] there is a run where at that very time the close
    frame has not been sent, and [k + 1] messages have been written since [close()] was called. *)
Theorem C102_bounds_reached : forall d k, exists c c', paced false d k c /\ later false d k c c' /\ In OCloseCalled (observed c) /\
  Forall (fun fs => length fs <= 1) (queued (observed c')) /\
  k_now c' = k_now c + d * steps_to_close k 1 c /\ s_phase (k_state c') = PClosing /\
  writes (observed c) = [] /\ writes (observed c') = repeat (WText (bs "42[""tick""]")) (k + 1).
Proof. exact close_bound_reached. Qed.
Print Assumptions C102_bounds_reached.
(** A run that meets all hypotheses of both, for each [d] and [k]. *)
Example C102_nonvacuous : forall d k, exists c c', paced false d k c /\ later false d k c c' /\ In OCloseCalled (observed c) /\
  Forall (fun fs => length fs <= 1) (queued (observed c')) /\ k_now c + d * steps_to_close k 1 c < k_now c' /\
  In OCloseFrame (observed c') /\ writes (observed c) = [] /\ writes (observed c') = repeat (WText (bs "42[""tick""]")) (k + 1).
Proof. exact close_goes_out. Qed.
