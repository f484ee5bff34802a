(** Closing, and what can still happen: theorems, the assumptions of each, and a case that meets their
    hypotheses. *)
From Verif Require Import FlowProofs CloseLive PanicProofs.

(** ** C36 *)
(** How many packets are lost is left to chance: when the task is at the select and [close()] has been
    called, any number of the packets queued may still be written before the close frame.  (With
    [C36_queued_before_close_partial]: whole packets, the first ones, and nothing later.) *)
Theorem C36_any_number_written :
  forall log s o q1 q2, trace log s o -> In OCloseCalled o -> s_phase s = PLoop -> s_chan s = q1 ++ q2 ->
    exists q0 ls s' o', queued o = q0 ++ q1 ++ q2 /\ writes o = concat q0 /\ Forall own_step ls /\
      execute log s ls = Some (s', o' ++ [OCloseFrame]) /\ writes o' = concat q1.
Proof. exact close_any_moment. Qed.
Print Assumptions C36_any_number_written.

(** ** C56 *)
(** While [close()] is awaited and no callback has blocked, closing can be completed by steps of the
    task and the server's end of the stream: [close()] returns, with Ok if the task was running; all
    packets queued can be written before, and the close frame is sent. *)
Theorem C56_close_can_complete :
  forall log s o, trace log s o -> s_handle s = HClosing -> ~ In OBlocked o ->
    exists ls s' o' r, Forall to_the_end ls /\ execute log s ls = Some (s', o' ++ [OClose r]) /\
      ((forall e, ~ In (OEnd e) o) -> r = CloseOk) /\
      (in_main_loop s -> In OCloseFrame o' /\ writes (o ++ o') = concat (queued o)).
Proof. exact close_completes. Qed.
Print Assumptions C56_close_can_complete.
(** If a callback has blocked, it cannot: neither the task nor [close()] does anything, except that
    the time-out of [close()] may pass. *)
Theorem C56_blocked_cannot :
  forall log s o1 o2 r, trace log s (o1 ++ OBlocked :: o2) -> In (OClose r) o2 -> r = CloseTimeout \/ r = CloseAlready.
Proof. exact blocked_close. Qed.
Print Assumptions C56_blocked_cannot.
Example C56_nonvacuous : exists s o, client_run false (flow_run ++ [LCloseCall]) s o /\ In OCloseCalled o /\ s_phase s = PLoop /\
  length (s_chan s) = 3 /\ s_handle s = HClosing /\ ~ In OBlocked o.
Proof.
  destruct (execute false init (flow_run ++ [LCloseCall])) as [[s o]|] eqn:E; [|vm_compute in E; discriminate].
  exists s, o. split; [exact E|]. vm_compute in E. injection E as <- <-. split; [cbn; tauto|]. split; [reflexivity|]. split; [reflexivity|]. split; [reflexivity|].
  intros H. cbn [In] in H. repeat (destruct H as [H|H]; [discriminate|]). exact H.
Qed.
