(** C73: line breaks in the text of an error. *)
From Verif Require Import TextProofs.

(** C73 is false of the code: a text that is not a packet is shown as it is, with its line breaks. *)
Theorem C73_one_line_refuted : ~ C73_full.
Proof. exact C73_refuted_lemma. Qed.
Print Assumptions C73_one_line_refuted.

(** Exactly when: whatever message ends the task with an error, the text of the error can be produced
    without a panic, and it has a line break exactly when the error quotes a text of the server that has
    one: a text that is not a packet, or one in the place of an attachment. Everything else that is
    shown (frames, packets, attachments, arguments, namespaces) cannot bring in a line break. *)
Theorem C73_one_line_partial :
  forall fm log s o m s' o' e, tame fm -> trace log s o -> step log s (LRead m) = Some (s', o') ->
    In (OEnd (EndErr e)) o' ->
    exists t, error_text fm e = Some t /\ (In x0a t <-> exists x, quotes_text e x /\ In x0a x).
Proof. exact error_lines. Qed.
Print Assumptions C73_one_line_partial.
Example C73_partial_nonvacuous : tame plain /\ exists s o s' o' e,
  trace false s o /\ step false s (LRead (WText stray)) = Some (s', o') /\
  In (OEnd (EndErr e)) o' /\ error_text plain e =
    Some (bs "Error processing packet: Unexpected ack received: Packet { message: ""3/\r,7[\""a\\n\"",true]"", kind: Ack, namespace: Some(1..3), id: Some(7), args: [6..11, 12..16], attachments: [] }").
Proof. split; [exact plain_tame|exact stray_read]. Qed.

(** What the server can do with it: after a fixed prefix, the error of the task is any text with a line
    break that the server likes. *)
Theorem C73_forged :
  forall fm log s o u s' o', trace log s o -> live o -> between_packets o -> In x0a u ->
    step log s (LRead (WText ("4"%byte :: u))) = Some (s', o') ->
    s_phase s' = PEnded (EndErr (RSocket (SInvalidMessage u))) /\
    error_text fm (RSocket (SInvalidMessage u)) =
      Some (bs "Error processing packet: Error deserializing socket.io protocol: Invalid message: " ++ u).
Proof. exact forged. Qed.
Print Assumptions C73_forged.
Example C73_forged_nonvacuous : In x0a forgery /\ exists s o s' o', trace false s o /\ live o /\ between_packets o /\
  step false s (LRead (WText ("4"%byte :: forgery))) = Some (s', o') /\ In (OEnd (EndErr (RSocket (SInvalidMessage forgery)))) o'.
Proof. split; [vm_compute; tauto|exact forgery_read]. Qed.
