(** C63: what a received packet is displayed as. *)
From Verif Require Import ShowProofs.

(** Whenever displaying a packet returns a text (C22 says when it does not), the text shows the kind
    and the id of the packet and, as one JSON array, exactly the values of its arguments; and it has no
    control characters, whatever the server sent. *)
Theorem C63_display_says :
  forall m t l p s, sub_deref_str m = Some t -> Forall emsg_ok l -> received m l p -> show_packet p = Some s ->
    exists d vs, packet_data p = Some d /\ argument_values d vs /\ shown d vs s /\ one_line s.
Proof. exact display_says. Qed.
Print Assumptions C63_display_says.

(** Packets displayed alike have the same kind, the same id and the same argument values. *)
Theorem C63_display_tells_apart :
  forall m t l p m' t' l' p' s,
    sub_deref_str m = Some t -> Forall emsg_ok l -> received m l p ->
    sub_deref_str m' = Some t' -> Forall emsg_ok l' -> received m' l' p' ->
    show_packet p = Some s -> show_packet p' = Some s ->
    exists d d' vs, packet_data p = Some d /\ packet_data p' = Some d' /\ heading d = heading d' /\
      argument_values d vs /\ argument_values d' vs.
Proof. exact display_tells. Qed.
Print Assumptions C63_display_tells_apart.

(** A packet with a line break in a string, an attachment, and an id. *)
Example C63_nonvacuous :
  exists p, received (sub_from (bs "51-12[""a\u000ab"",{""_placeholder"":true,""num"":0},-0.5]")) [MBinary (sub_from [x04; xff])] p /\
    show_packet p = Some (bs "Event { id: Some(12), args: [""a\nb"", [4,255], -0.5] }").
Proof.
  eexists. split; [right; eexists; split; [vm_compute; reflexivity|vm_compute; reflexivity]|vm_compute; reflexivity].
Qed.
