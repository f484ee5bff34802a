(** Questions (events that ask for an acknowledgement) and their answers. *)
From Verif Require Export SpecDeliver SpecFair.

(** Sending [e] in the state [s] asks a question: the event carries [id], and [f] waits for the answer. *)
Definition question (s : state) (e : emission) (ns : bytes) (id : N) (f : cb) : Prop :=
  em_ns e = ns /\ chosen_callback (em_calls e) = Some f /\ chosen_id (s_next_id s) (em_calls e) = Some id.
(** Ids have not wrapped around. *)
Definition few_requests (o : list obs) : Prop := (N.of_nat (length (requested o)) <= 2 ^ 64)%N.
(** No answer has arrived yet. *)
Definition unanswered (o : list obs) (ns : bytes) (id : N) : Prop :=
  forall o1 m o2, o = o1 ++ ORead m :: o2 -> ~ brings_ack o1 m ns id.
(** The callback is called with an answer to the question. *)
Definition answered_to (o : list obs) (ns : bytes) (id : N) (f : cb) : Prop :=
  exists p a, In (OCall p (AckCall f a)) o /\ packet_namespace p = Some ns /\ packet_data p = Some (DataAck id a).

(** Every thread that is sending a question goes on some time (unless the task is over). *)
Definition threads_go_on (r : life) : Prop :=
  forall k x, In x (s_inflight (at_time r k)) ->
    exists j, k <= j /\ (past_loop (at_time r j) \/ ~ In x (s_inflight (at_time r j))).
(** Every question that was written is answered some time, with a packet that can be read. *)
Definition server_answers (log : bool) (r : life) : Prop :=
  forall k j ns id fs rest, In (OQueued (ByEmit ns (Some id)) fs) (seen r k) ->
    writes (seen r j) = concat (queued (seen r k)) ++ rest ->
    exists i, past_loop (at_time r i) \/
      exists m p a, does r i = Some (LRead m) /\ completes (seen r i) m p /\ packet_namespace p = Some ns /\
        packet_data p = Some (DataAck id a) /\ (log = true -> show_packet p <> None).
