(** C58, C59: what must happen in a run that goes on for ever, if nobody is starved. *)
From Verif Require Import FairDemo.

(** ** C58 *)
(** If [select!] does not pass over the channel for ever, and every write and every callback ends, then
    everything queued is written some time, in order and with nothing left out, or else the task leaves
    its main loop. *)
Theorem C58_queued_is_written : forall log r,
  lives log r -> writes_end r -> callbacks_end r -> fair_to log r LTake ->
  forall k, exists j, k <= j /\
    (past_loop (at_time r j) \/ exists rest, writes (seen r j) = concat (queued (seen r k)) ++ rest).
Proof. exact queued_is_written. Qed.
Print Assumptions C58_queued_is_written.
(** It leaves its main loop only if it ends, or a callback blocks, or it was told to close. *)
Theorem C58_main_loop_left : forall log s o, trace log s o -> past_loop s ->
  s_signal s = true \/ In OBlocked o \/ exists e, In (OEnd e) o.
Proof. exact past_signal. Qed.
Print Assumptions C58_main_loop_left.
(** In particular every ping is answered. *)
Theorem C58_pings_answered : forall log r,
  lives log r -> writes_end r -> callbacks_end r -> fair_to log r LTake ->
  forall k, exists j, k <= j /\
    (past_loop (at_time r j) \/ In OChannelClosed (seen r j) \/
     ping_count (reads (seen r k)) <= pongs_written (seen r j)).
Proof. exact pings_answered. Qed.
Print Assumptions C58_pings_answered.
(** A life that is busy for ever and never leaves its main loop. *)
Example C58_nonvacuous :
  lives false busy_life /\ writes_end busy_life /\ callbacks_end busy_life /\ fair_to false busy_life LTake /\
  (forall k, length opened_run <= k -> ~ past_loop (at_time busy_life k)) /\
  queued (seen busy_life (length opened_run + 8)) =
    [[WText (bs "42[""tick""]")]; [WText (bs "3")]; [WText (bs "42[""tick""]")]; [WText (bs "3")]] /\
  writes (seen busy_life (length opened_run + 8)) = [WText (bs "42[""tick""]"); WText (bs "3")] /\
  ping_count (reads (seen busy_life (length opened_run + 8))) = 2.
Proof.
  split; [exact busy_lives|]. split; [exact busy_writes|]. split; [exact busy_calls|]. split; [exact busy_fair|].
  split; [intros k Hk Hp; exact (main_not_past _ (busy_loop k Hk) Hp)|]. repeat split; vm_compute; reflexivity.
Qed.

(** ** C59 *)
(** Once the task is told to close it leaves its main loop, even if there is always more to write. *)
Theorem C59_main_loop_ends : forall log r,
  lives log r -> writes_end r -> callbacks_end r -> fair_to log r LClosed ->
  forall k, in_main_loop (at_time r k) -> s_signal (at_time r k) = true -> exists j, k <= j /\ past_loop (at_time r j).
Proof. exact loop_is_left. Qed.
Print Assumptions C59_main_loop_ends.
(** If moreover the server ends the stream when it is sent the close frame, [close()] returns, unless a
    callback blocks (or the caller stops waiting). *)
Theorem C59_close_returns : forall log r,
  lives log r -> writes_end r -> callbacks_end r -> fair_to log r LClosed -> closing_ends r -> server_ends r ->
  fair_to log r LCloseReturn ->
  forall k, In OCloseCalled (seen r k) -> exists j, k <= j /\ (In OBlocked (seen r j) \/ close_answered r j).
Proof. exact close_returns. Qed.
Print Assumptions C59_close_returns.
(** Whatever the server, the callbacks and the task do, [close()] returns when its time-out passes. *)
Theorem C59_close_times_out : forall log r, lives log r -> fair_to log r LCloseTimeout ->
  forall k, In OCloseCalled (seen r k) -> exists j, k <= j /\ close_answered r j.
Proof. exact close_times_out. Qed.
Print Assumptions C59_close_times_out.
Example C59_nonvacuous :
  (lives false closing_life /\ writes_end closing_life /\ callbacks_end closing_life /\
   closing_ends closing_life /\ server_ends closing_life /\
   fair_to false closing_life LClosed /\ fair_to false closing_life LCloseReturn /\ fair_to false closing_life LCloseTimeout) /\
  In OCloseCalled (seen closing_life (length flow_run + 1)) /\
  in_main_loop (at_time closing_life (length flow_run + 1)) /\ s_signal (at_time closing_life (length flow_run + 1)) = true.
Proof.
  split; [exact closing_life_fair|]. split; [exact closing_called|]. split; vm_compute; auto.
Qed.
