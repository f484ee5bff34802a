(** C104: how soon a ping that has arrived is answered. *)
From Verif Require Import KeepProofs.

(** In the runs of C101 and C103 together: every ping that has arrived by a time [x] has been read by any
    time [y] that is more than the bound of C103 later, and its pong has been written after the bound
    of C101 from [y] on, which depends on what is queued then (unless the task has left its main loop
    or a user has closed the channel). *)
Theorem C104_pings_answered_in_time : forall log d k f x y z, tended log d k x -> goes log d k x y -> goes log d k y z ->
  Forall (fun fs => length fs <= f) (queued (noticed (snd y))) ->
  e_now (snd x) + d * steps_to_read k f (snd x) < e_now (snd y) ->
  e_now (snd y) + d * steps_needed k (fst y) < e_now (snd z) ->
  past_loop (e_state (snd z)) \/ In OChannelClosed (noticed (snd z)) \/
  ping_count (e_came (snd x)) <= pongs_written (noticed_until (e_now (snd y) + d * steps_needed k (fst y)) (snd z)).
Proof. exact pings_answered_in_time. Qed.
Print Assumptions C104_pings_answered_in_time.
(** These rules never stop the clock: the queue and the server can always both be served, and the task
    need not end for that (except for what it reads). *)
Theorem C104_time_goes_on : forall log d k x t, 0 < d -> 1 <= k -> tended log d k x ->
  exists y, goes log d k x y /\ t <= e_now (snd y) /\
    forall e, In (OEnd e) (noticed (snd y)) -> In (OEnd e) (noticed (snd x)) \/ e = EndPanic \/ exists r, e = EndErr r.
Proof. exact joint_goes_on. Qed.
Print Assumptions C104_time_goes_on.
(** Each such run is a run as in C101 and one as in C103, at the same time, in the same state and with
    the same observations. *)
Theorem C104_both : forall log d k x, tended log d k x -> paced log d k (fst x) /\ attended log d k (snd x) /\
  k_state (fst x) = e_state (snd x) /\ k_now (fst x) = e_now (snd x) /\ observed (fst x) = noticed (snd x).
Proof. exact tended_same. Qed.
Print Assumptions C104_both.
(** And every run of the client is one, for a [k] large enough. *)
Theorem C104_every_trace : forall log d s o, trace log s o ->
  exists k x, tended log d k x /\ e_state (snd x) = s /\ noticed (snd x) = o.
Proof. exact trace_is_tended. Qed.
Print Assumptions C104_every_trace.
(** A ping arrives at time 0, is read at time 2, its pong is written at time 7; with [d = 3], [k = 1] the
    bounds are 15, and 3 more from any later time. *)
Example C104_nonvacuous :
  tended false 3 1 keep_arrived /\ goes false 3 1 keep_arrived (keep_later 16) /\ goes false 3 1 (keep_later 16) (keep_later 20) /\
  Forall (fun fs => length fs <= 1) (queued (noticed (snd (keep_later 16)))) /\
  e_now (snd keep_arrived) + 3 * steps_to_read 1 1 (snd keep_arrived) < e_now (snd (keep_later 16)) /\
  e_now (snd (keep_later 16)) + 3 * steps_needed 1 (fst (keep_later 16)) < e_now (snd (keep_later 20)) /\
  ~ past_loop (e_state (snd (keep_later 20))) /\ ~ In OChannelClosed (noticed (snd (keep_later 20))) /\
  ping_count (reads (noticed (snd keep_arrived))) = 0 /\ ping_count (e_came (snd keep_arrived)) = 1 /\
  pongs_written (noticed_until 6 (snd (keep_later 20))) = 0 /\ pongs_written (noticed_until 19 (snd (keep_later 20))) = 1.
Proof.
  split; [exact keep_tended|]. split; [exact keep_goes|]. split; [exact keep_goes_on|].
  split; [vm_compute; repeat constructor|]. split; [vm_compute; repeat constructor|]. split; [vm_compute; repeat constructor|].
  split; [vm_compute; auto|]. split; [vm_compute; intuition discriminate|]. repeat split; vm_compute; reflexivity.
Qed.
