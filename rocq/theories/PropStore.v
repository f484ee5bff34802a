(** C71: what the server can make a client keep. *)
From Verif Require Import StoreProofs.

(** One message leaves almost nothing behind: no callback and no namespace in the table, nothing in
    other threads; for a ping one packet to be written, for an event with an id one ack builder in
    the hands of the callback, and otherwise at most one attachment. *)
Theorem C71_one_message : forall log s o m s' o', trace log s o -> step log s (LRead m) = Some (s', o') -> leaves_behind s s' m o'.
Proof. exact one_message. Qed.
Print Assumptions C71_one_message.

(** The attachments kept are exactly those of the packet that is still incomplete: when no packet
    is incomplete nothing is kept. *)
Theorem C71_kept_exactly : forall log s o, trace log s o -> task_ended s = false ->
  exists ps rest, assembled (messages (reads o)) ps rest /\ buffered s = tl rest /\ (nothing_kept s <-> rest = []).
Proof. exact kept_exactly. Qed.
Print Assumptions C71_kept_exactly.

(** The only limit to how many are kept is the largest number a packet can announce: the server can
    make the client keep any number below it, with a packet of a few bytes and messages of one byte. *)
Theorem C71_kept_bound : forall log n,
  (exists s o, trace log s o /\ task_ended s = false /\ length (buffered s) = n) <-> (N.of_nat n < u64_max)%N.
Proof. exact kept_bound. Qed.
Print Assumptions C71_kept_bound.

Example C71_nonvacuous : exists s o, trace false s o /\ task_ended s = false /\ length (buffered s) = 2 /\
  s_chan s = [[WText (bs "3")]].
Proof. destruct hoard_reached as (s & o & E & H). exists s, o. split; [exact (run_trace _ _ _ _ E)|exact H]. Qed.
