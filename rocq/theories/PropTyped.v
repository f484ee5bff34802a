(** Typed arguments: theorems, the assumptions of each, and a case that meets their hypotheses. *)
From Verif Require Import RoundProofs.

(** ** C52 *)
(** Whatever the sender's arguments are as values of Rust types, the receiver reads them back, as
    those types, from the packet that arrives. *)
Theorem C52_typed_packet :
  forall h src ns bin ts xs args fs, opened h -> ~ closed h -> deliverable src ns bin args -> build src ns bin args = Some fs ->
    Forall ty_ok ts -> Forall3 encodes ts xs args -> Forall2 (recoverable bin) ts xs ->
    (exists p, arrives h fs p) /\
    forall p, arrives h fs p -> exists d a, packet_data p = Some d /\ data_args d = Some a /\ typed_args (args_from src) a ts xs.
Proof. exact typed_packet. Qed.
Print Assumptions C52_typed_packet.
(** The callback of the event is called with arguments that read back so. *)
Theorem C52_typed_event :
  forall log s o e fs f ts xs, trace log s o -> reading s -> between_packets o -> live o ->
    event_deliverable e -> event_frames e = Some fs -> routed (table_history o) (e_ns e) (e_name e) f ->
    Forall ty_ok ts -> Forall3 encodes ts xs (e_args e) -> Forall2 (recoverable (e_binary e)) ts xs ->
    exists s' p a ack, execute log s (map LRead fs) = Some (s', map ORead fs ++ [OCall p (EventCall f a ack)]) /\
      sees p a ack e /\ typed_args 1 a ts xs.
Proof. exact typed_event. Qed.
Print Assumptions C52_typed_event.
(** And the callback that waits for an ack. *)
Theorem C52_typed_ack :
  forall log s o id ns bin args fs f ts xs, trace log s o -> reading s -> between_packets o -> live o ->
    deliverable (OfAck id) ns bin args -> build (OfAck id) ns bin args = Some fs -> awaiting (table_history o) ns id f ->
    Forall ty_ok ts -> Forall3 encodes ts xs args -> Forall2 (recoverable bin) ts xs ->
    exists s' p a, execute log s (map LRead fs) = Some (s', map ORead fs ++ [OCall p (AckCall f a)]) /\
      packet_data p = Some (DataAck id a) /\ typed_args 0 a ts xs.
Proof. exact typed_ack. Qed.
Print Assumptions C52_typed_ack.
(** Without the restriction to recoverable values the claim is false ([Some(None)] comes back as
    [None]). *)
Theorem C52_unrestricted_refuted : ~ C52_full.
Proof. exact typed_refuted. Qed.
Print Assumptions C52_unrestricted_refuted.
Example C52_nonvacuous : exists s o, trace true s o /\ reading s /\ between_packets o /\ live o /\ routed (table_history o) (bs "/") (bs "news") 7%N /\
  forall bin, event_deliverable (case_event bin) /\ event_frames (case_event bin) <> None /\
    Forall ty_ok [case_ty; TyInt 0 65535] /\ Forall3 encodes [case_ty; TyInt 0 65535] [case_value; XInt 7] (e_args (case_event bin)) /\
    Forall2 (recoverable bin) [case_ty; TyInt 0 65535] [case_value; XInt 7].
Proof. exact typed_case. Qed.
