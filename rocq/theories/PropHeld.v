(** C67: which callbacks a client keeps. *)
From Verif Require Import HeldProofs.

(** ** C67 *)
(** The full statement is false: the end of the connection lets go of no callback that waits for an
    answer (the stream ends after an event with a callback was sent). *)
Theorem C67_waiting_let_go_refuted : ~ C67_full.
Proof. exact C67_false. Qed.
Print Assumptions C67_waiting_let_go_refuted.
(** Otherwise nothing is kept without a use: the callbacks in the table are those that are the current
    one of an event or the current fallback of a namespace, or that wait for an answer.  What was
    replaced, cleared or answered is gone. *)
Theorem C67_kept_exactly_partial :
  forall log s o f, trace log s o -> held (s_table s) f <-> in_use (table_history o) f.
Proof. exact held_exactly. Qed.
Print Assumptions C67_kept_exactly_partial.
(** The callbacks that wait for an answer are those whose event was emitted and that were never called
    with an answer to it: nothing else, neither other operations nor the end of the connection,
    stops the wait. *)
Theorem C67_waiting_exactly :
  forall log s o ns id f, trace log s o -> few_requests o ->
    awaiting (table_history o) ns id f <-> In (ORegister ns id f) o /\ ~ answered_to o ns id f.
Proof. exact waiting_exactly. Qed.
Print Assumptions C67_waiting_exactly.
(** Callbacks that wait when the connection is over wait for ever, whatever is done with the client. *)
Theorem C67_waits_for_ever :
  forall log s o ns id f ls s' o',
    trace log s o -> awaiting (table_history o) ns id f -> task_ended s = true ->
    execute log s ls = Some (s', o') -> few_requests (o ++ o') ->
    awaiting (table_history (o ++ o')) ns id f /\ ~ answered_to (o ++ o') ns id f.
Proof. exact kept_for_ever. Qed.
Print Assumptions C67_waits_for_ever.
(** An event with a callback that is emitted after the end is never sent and never answered, and its
    callback is kept all the same, once registered. *)
Theorem C67_asked_too_late :
  forall log s0 o0 e ns id f s1 o1 ls s o2,
    trace log s0 o0 -> task_ended s0 = true -> step log s0 (LEmit e) = Some (s1, o1) -> question s0 e ns id f ->
    execute log s1 ls = Some (s, o2) -> few_requests (o0 ++ o1 ++ o2) ->
    (forall fs, ~ In (OQueued (ByEmit ns (Some id)) fs) (o0 ++ o1 ++ o2)) /\
    ~ answered_to (o0 ++ o1 ++ o2) ns id f /\
    (In (ORegister ns id f) (o0 ++ o1 ++ o2) -> awaiting (table_history (o0 ++ o1 ++ o2)) ns id f).
Proof. exact asked_too_late. Qed.
Print Assumptions C67_asked_too_late.
(** A client with one callback waiting at the end, and one emission too late. *)
Example C67_nonvacuous : exists s1 o1 s o2,
  trace true kept_state kept_obs /\ task_ended kept_state = true /\ awaiting (table_history kept_obs) (bs "/") 0 9%N /\
  step true kept_state (LEmit kept_late) = Some (s1, o1) /\ question kept_state kept_late (bs "/") 1 8%N /\
  execute true s1 kept_more = Some (s, o2) /\ few_requests (kept_obs ++ o1 ++ o2) /\
  In (ORegister (bs "/") 1 8%N) (kept_obs ++ o1 ++ o2) /\ In (OLost (ByEmit (bs "/") (Some 1%N)) [WText (bs "421[""late""]")]) (kept_obs ++ o1 ++ o2).
Proof. exact kept_case. Qed.
(** A callback that was replaced is not kept, the one that replaced it is. *)
Example C67_nonvacuous_replaced : exists s o,
  trace true s o /\ held (s_table s) 2%N /\ ~ held (s_table s) 1%N /\ In (OTable (SetEvent (bs "/") (bs "e") 1%N)) o.
Proof. exact replaced_case. Qed.
