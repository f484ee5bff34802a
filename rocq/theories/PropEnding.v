(** C60, C61: what ends a connection, and how that is told. *)
From Verif Require Import EndingDemo.

(** ** C60 *)
(** The task is cancelled only if the user let go of the connection. *)
Theorem C60_cancelled_only_if_let_go :
  forall log ls s o, client_run log ls s o -> In (OEnd EndCancelled) o -> exists l, In l ls /\ lets_go l.
Proof. exact cancelled_let_go. Qed.
Print Assumptions C60_cancelled_only_if_let_go.
(** Once it is let go of, it can be cancelled whenever it waits for something other than a callback. *)
Theorem C60_can_be_cancelled_exactly :
  forall log ls s o, client_run log ls s o ->
    (step log s LCancel <> None <-> (exists l, In l ls /\ lets_go l) /\ waiting s).
Proof. exact cancel_exactly. Qed.
Print Assumptions C60_can_be_cancelled_exactly.
(** If callbacks end and cancellation is not put off for ever, a connection that is let go of is
    over some time: its task ends, or a callback of it blocks; or the task was never started. *)
Theorem C60_letting_go_ends_it :
  forall log r, lives log r -> callbacks_end r -> fair_to log r LCancel -> forall k l, does r k = Some l -> lets_go l ->
    (exists j, k <= j /\ over (at_time r j)) \/ (forall j, s_phase (at_time r j) = PUnborn).
Proof. exact let_go_ends. Qed.
Print Assumptions C60_letting_go_ends_it.
Example C60_nonvacuous : lives false dropped_life /\ callbacks_end dropped_life /\ fair_to false dropped_life LCancel /\
  does dropped_life (length opened_run + 2) = Some LDropClient /\ lets_go LDropClient /\
  (exists s o, client_run false dropped_pre s o /\ In (OEnd EndCancelled) o).
Proof.
  destruct dropped_fair as (A & B & C). split; [exact A|]. split; [exact B|]. split; [exact C|]. split; [exact dropped_drops|]. split; [exact I|].
  destruct (proj1 dropped_lasso) as [o H]. exists dropped_state, o. split; [exact H|]. vm_compute in H. injection H as <-. cbn. tauto.
Qed.

(** ** C61 *)
(** Each way of ending has its causes; *)
Theorem C61_cause_of_end :
  forall log s o l s' o' e, trace log s o -> step log s l = Some (s', o') -> In (OEnd e) o' -> ended_by l e.
Proof. exact cause_of_end. Qed.
Print Assumptions C61_cause_of_end.
(** the end of the stream, failures of the websocket, panics of callbacks and cancellation end the
    task, in that way; *)
Theorem C61_effect_of_end :
  forall log s l s' o', step log s l = Some (s', o') -> must_end l -> exists e, o' = [OEnd e] /\ ended_by l e.
Proof. exact effect_of_end. Qed.
Print Assumptions C61_effect_of_end.
(** and close() tells which it was.  It never reports a cancellation. *)
Theorem C61_close_tells_cause :
  forall log ls s o r, client_run log ls s o -> In (OClose r) o ->
    match r with
    | CloseOk => In LReadEnd ls
    | CloseErr e => (e = EndWs /\ (In LReadErr ls \/ In LWriteErr ls)) \/ exists x m, e = EndErr x /\ In (LRead m) ls
    | ClosePanic => In (OEnd EndPanic) o \/ In LAbort ls
    | CloseTimeout => In LCloseTimeout ls
    | CloseAlready => In OCloseCalled o
    end.
Proof. exact close_result_cause. Qed.
Print Assumptions C61_close_tells_cause.
Example C61_nonvacuous :
  (exists s o, client_run false closing_pre s o /\ In (OClose CloseOk) o) /\
  (exists s o, client_run false (opened_run ++ [LCloseCall; LReadErr; LCloseReturn]) s o /\ In (OClose (CloseErr EndWs)) o) /\
  (exists s o, client_run false (opened_run ++ [LCloseCall; LRead (WText (bs "9")); LCloseReturn]) s o /\ exists e, In (OClose (CloseErr (EndErr e))) o) /\
  (exists s o, client_run false (opened_run ++ [LCloseCall; LAbort; LCloseReturn]) s o /\ In (OClose ClosePanic) o) /\
  (exists s o, client_run false (opened_run ++ [LCloseCall; LCloseTimeout; LCloseCall; LCancel]) s o /\ In (OClose CloseTimeout) o /\ In (OClose CloseAlready) o).
Proof.
  split; [|split; [|split; [|split]]]; eexists _, _; (split; [vm_compute; reflexivity|]); cbn; try tauto.
  eexists. cbn. tauto.
Qed.
