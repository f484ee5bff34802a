(** C72: whether a client notices that the server is gone. *)
From Verif Require Import TimedSilence SilenceProofs.

(** False of the code: the times announced in the Open packet are not used, and the engine's close
    packet changes only what is thought of later packets. *)
Theorem C72_server_gone_noticed_refuted : ~ C72_full.
Proof. exact C72_refuted_lemma. Qed.
Print Assumptions C72_server_gone_noticed_refuted.

(** It is never noticed: whatever has happened, also if the server has said that it closes the
    connection, if then nothing comes from the server and no user does anything, the task does what it
    has to do and then rests for ever, without having ended (unless a user closed the channel). *)
Theorem C72_never_noticed :
  forall log ls s o, client_run log ls s o -> task_ended s = false -> ~ In OChannelClosed o ->
    exists r, lives log r /\ just log r /\ at_time r (length ls) = s /\ seen r (length ls) = o /\ silent_from r (length ls) /\
      exists s', task_ended s' = false /\ at_rest log s' /\ exists k, forall j, k <= j -> at_time r j = s'.
Proof. exact never_noticed. Qed.
Print Assumptions C72_never_noticed.
Example C72_nonvacuous : exists s o, client_run false farewell_run s o /\ task_ended s = false /\ ~ In OChannelClosed o /\ server_closed o.
Proof. exact farewell. Qed.

(** The engine's close packet is read without any effect that can be seen; *)
Theorem C72_close_ignored :
  forall log s o t s' o', trace log s o -> live o -> step log s (LRead (WText ("1"%byte :: t))) = Some (s', o') ->
    o' = [ORead (WText ("1"%byte :: t))] /\ server_closed (o ++ o') /\
    s_phase s' = s_phase s /\ s_chan s' = s_chan s /\ s_table s' = s_table s.
Proof. exact close_ignored. Qed.
Print Assumptions C72_close_ignored.
(** the next text or binary message, if one comes, ends the task with an error. *)
Theorem C72_after_close_partial :
  forall log s o m s' o', trace log s o -> server_closed o -> is_data m = true -> step log s (LRead m) = Some (s', o') ->
    o' = [ORead m; OEnd (EndErr (REngine EMessageAfterClose))].
Proof. exact after_close. Qed.
Print Assumptions C72_after_close_partial.
(** A disconnect packet, with which the server puts a client out of a namespace, is ignored too: no
    callback is called for it, and the callbacks of the namespace stay. *)
Theorem C72_disconnect_ignored :
  forall log s o m p ns s' o', trace log s o -> completes o m p -> view p = Some (PView KDisconnect ns None [] []) ->
    (log = true -> show_packet p <> None) -> step log s (LRead m) = Some (s', o') ->
    o' = [ORead m] /\ s_phase s' = s_phase s /\ s_chan s' = s_chan s /\ s_table s' = s_table s.
Proof. exact disconnect_ignored. Qed.
Print Assumptions C72_disconnect_ignored.
Example C72_disconnect_nonvacuous : exists s o p s' o', trace false s o /\ completes o (WText (bs "41")) p /\
  view p = Some (PView KDisconnect (bs "/") None [] []) /\ step false s (LRead (WText (bs "41"))) = Some (s', o').
Proof. exact disconnected. Qed.

(** With time (the model of C91): however long the server says nothing, a client whose [close()] is not
    awaited can be in the same state at any later time, with nothing observed meanwhile; *)
Theorem C72_however_long :
  forall log d w given parsed t0 since c s t o t', timed log d w given parsed t0 (TConn since c s) t o ->
    is_connected s = true -> s_handle s <> HClosing -> (t <= t')%N -> timed log d w given parsed t0 (TConn since c s) t' o.
Proof. exact however_long. Qed.
Print Assumptions C72_however_long.
(** and what can happen to it then is what could have happened before (only the timer of [close()] starts
    later): no time that has passed makes a step possible or impossible. *)
Theorem C72_time_changes_nothing :
  forall log since c s l t t', is_connected s = true -> s_handle s <> HClosing -> l <> LCloseCall ->
    tstep log (TConn since c s) t (KStep l) = tstep log (TConn since c s) t' (KStep l).
Proof. exact time_changes_nothing. Qed.
Print Assumptions C72_time_changes_nothing.
Example C72_timed_nonvacuous : exists since c s o, timed false 5 ByConnect site_text (Some site) 0 (TConn since c s) 75000 o /\
  is_connected s = true /\ s_handle s <> HClosing /\ task_ended s = false.
Proof. exact silent_case. Qed.
