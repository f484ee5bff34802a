(** Delivery from the sender's arguments to the receiver's callback: theorems, the assumptions of
    each, and a case that meets their hypotheses. *)
From Verif Require Import DeliverProofs.

(** ** C51 *)
(** Events that were built and whose frames are read one after the other reach the callbacks
    registered for them, each once, in order, with namespace, id and arguments; the task goes on. *)
Theorem C51_events_in_order :
  forall log es s o fss, trace log s o -> reading s -> between_packets o -> live o ->
    Forall event_deliverable es -> Forall2 (fun e fs => event_frames e = Some fs) es fss ->
    Forall (fun e => exists f, routed (table_history o) (e_ns e) (e_name e) f) es ->
    exists s' o', execute log s (read_all fss) = Some (s', o') /\ s_phase s' = s_phase s /\ reads o' = concat fss /\
      Forall2 (fun e pc => exists f a ack, snd pc = EventCall f a ack /\ routed (table_history o) (e_ns e) (e_name e) f /\ sees (fst pc) a ack e)
        es (calls o').
Proof. exact events_delivered. Qed.
Print Assumptions C51_events_in_order.
(** One event: the callback is called after the last frame and not before. *)
Theorem C51_event_delivered :
  forall log s o e fs f, trace log s o -> reading s -> between_packets o -> live o ->
    event_deliverable e -> event_frames e = Some fs -> routed (table_history o) (e_ns e) (e_name e) f ->
    exists s' p a ack, execute log s (map LRead fs) = Some (s', map ORead fs ++ [OCall p (EventCall f a ack)]) /\ sees p a ack e.
Proof. exact one_event. Qed.
Print Assumptions C51_event_delivered.
(** An ack reaches the callback that waits for it. *)
Theorem C51_ack_delivered :
  forall log s o id ns bin args fs f, trace log s o -> reading s -> between_packets o -> live o ->
    deliverable (OfAck id) ns bin args -> build (OfAck id) ns bin args = Some fs -> awaiting (table_history o) ns id f ->
    exists s' p a, execute log s (map LRead fs) = Some (s', map ORead fs ++ [OCall p (AckCall f a)]) /\
      packet_data p = Some (DataAck id a) /\ carries p KAck ns (Some id) (pkt_values bin args).
Proof. exact ack_delivered. Qed.
Print Assumptions C51_ack_delivered.
(** An event nobody listens to changes nothing. *)
Theorem C51_unheard_harmless :
  forall log s o e fs, trace log s o -> reading s -> between_packets o -> live o ->
    event_deliverable e -> event_frames e = Some fs -> (forall f, ~ routed (table_history o) (e_ns e) (e_name e) f) ->
    exists s', execute log s (map LRead fs) = Some (s', map ORead fs) /\ s_phase s' = s_phase s.
Proof. exact unheard_harmless. Qed.
Print Assumptions C51_unheard_harmless.
Example C51_nonvacuous : exists s o, trace true s o /\ reading s /\ between_packets o /\ live o /\
  Forall event_deliverable deliver_events /\
  Forall2 (fun e fs => event_frames e = Some fs) deliver_events
    [[WText (bs "452-3[""news"",[{""_placeholder"":true,""num"":0},{""_placeholder"":true,""num"":1}],1]"); WBinary (x04 :: bs "a"); WBinary [x04]];
     [WText (bs "42/chat,[""other"",""x,y""]")]] /\
  Forall (fun e => exists f, routed (table_history o) (e_ns e) (e_name e) f) deliver_events /\
  awaiting (table_history o) (bs "/") 0 9%N /\
  deliverable (OfAck 0) (bs "/") true [SBytes (bs "ok")] /\
  (forall f, ~ routed (table_history o) (bs "/") (bs "nobody") f) /\
  event_deliverable (Event (bs "nobody") None (bs "/") false []).
Proof. exact deliver_case. Qed.
