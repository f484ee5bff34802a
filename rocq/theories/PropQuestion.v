(** C64: an event that asks for an acknowledgement gets its own answer. *)
From Verif Require Import QuestionDemo.

(** ** C64 *)
(** Whatever happens between (other questions, other threads, reads and writes): when the answer to a
    question that was sent is read, the callback given with that question is called, with the values
    that were sent back, after the last frame of the answer and not before. *)
Theorem C64_answer_reaches_asker :
  forall log s0 o0 e ns id f s1 o1 ls s o2 fs bin args afs,
    trace log s0 o0 -> step log s0 (LEmit e) = Some (s1, o1) -> question s0 e ns id f -> execute log s1 ls = Some (s, o2) ->
    few_requests (o0 ++ o1 ++ o2) -> In (OQueued (ByEmit ns (Some id)) fs) (o0 ++ o1 ++ o2) -> unanswered (o0 ++ o1 ++ o2) ns id ->
    reading s -> between_packets (o0 ++ o1 ++ o2) -> live (o0 ++ o1 ++ o2) ->
    deliverable (OfAck id) ns bin args -> build (OfAck id) ns bin args = Some afs ->
    exists s' p a, execute log s (map LRead afs) = Some (s', map ORead afs ++ [OCall p (AckCall f a)]) /\
      packet_data p = Some (DataAck id a) /\ carries p KAck ns (Some id) (pkt_values bin args).
Proof. exact answer_reaches_asker. Qed.
Print Assumptions C64_answer_reaches_asker.
(** An ack with the id of a question is never given to another callback, nor taken from another
    namespace, whoever sends it. *)
Theorem C64_answer_to_nobody_else :
  forall log s0 o0 e ns id f s1 o1 ls s o2 p g a ns',
    trace log s0 o0 -> step log s0 (LEmit e) = Some (s1, o1) -> question s0 e ns id f -> execute log s1 ls = Some (s, o2) ->
    few_requests (o0 ++ o1 ++ o2) -> In (OCall p (AckCall g a)) (o0 ++ o1 ++ o2) ->
    packet_namespace p = Some ns' -> packet_data p = Some (DataAck id a) ->
    g = f /\ ns' = ns.
Proof. exact answer_only_to_asker. Qed.
Print Assumptions C64_answer_to_nobody_else.
(** If threads, writes and callbacks go on, the channel is not passed over for ever, and the server
    answers what it was sent, once, then every question is answered to its callback, unless the task
    leaves its main loop or the channel is closed. *)
Theorem C64_question_answered :
  forall log r, lives log r -> threads_go_on r -> writes_end r -> callbacks_end r -> fair_to log r LTake ->
    (forall k, few_requests (seen r k)) -> (forall k, honest (seen r k)) -> server_answers log r ->
    forall k e ns id f, does r k = Some (LEmit e) -> question (at_time r k) e ns id f ->
    exists j, k <= j /\ (past_loop (at_time r j) \/ In OChannelClosed (seen r j) \/ answered_to (seen r j) ns id f).
Proof. exact question_answered. Qed.
Print Assumptions C64_question_answered.
Example C64_nonvacuous : exists s0 o0 s1 o1 s o2,
  trace true s0 o0 /\ step true s0 (LEmit ask_first) = Some (s1, o1) /\ question s0 ask_first (bs "/") 0 9%N /\
  execute true s1 ask_then = Some (s, o2) /\ few_requests (o0 ++ o1 ++ o2) /\
  In (OQueued (ByEmit (bs "/") (Some 0%N)) ask_sent) (o0 ++ o1 ++ o2) /\ unanswered (o0 ++ o1 ++ o2) (bs "/") 0 /\
  reading s /\ between_packets (o0 ++ o1 ++ o2) /\ live (o0 ++ o1 ++ o2) /\
  deliverable (OfAck 0) (bs "/") true [SBytes (bs "ok")] /\ build (OfAck 0) (bs "/") true [SBytes (bs "ok")] = Some ask_back.
Proof. exact ask_case. Qed.
(** A life with two questions, which stays in its main loop and never closes the channel. *)
Example C64_nonvacuous_life :
  lives false ask_life /\ threads_go_on ask_life /\ writes_end ask_life /\ callbacks_end ask_life /\ fair_to false ask_life LTake /\
  (forall k, few_requests (seen ask_life k)) /\ (forall k, honest (seen ask_life k)) /\ server_answers false ask_life /\
  (does ask_life 3 = Some (LEmit ask_first) /\ question (at_time ask_life 3) ask_first (bs "/") 0 9%N) /\
  (forall k, 3 <= k -> ~ past_loop (at_time ask_life k)) /\ (forall k, ~ In OChannelClosed (seen ask_life k)).
Proof.
  split; [exact ask_lives|]. split; [exact ask_goes|]. split; [exact ask_writes|]. split; [exact ask_calls|]. split; [exact ask_fair|].
  split; [exact ask_few|]. split; [exact ask_honest|]. split; [exact ask_answers|]. split; [repeat split|]. exact ask_stays.
Qed.
