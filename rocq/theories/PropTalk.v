(** C77, C78: whole conversations with the reference implementation of the protocol. *)
From Verif Require Import TalkDemo.

(** ** C77 *)
(** Frames can be heard in one way only. *)
Theorem C77_heard_unique : forall v fs hs rest hs' rest',
  hears v fs hs rest -> hears v fs hs' rest' -> hs = hs' /\ rest = rest'.
Proof. exact hears_unique. Qed.
Print Assumptions C77_heard_unique.
(** Whatever users, callbacks and the server do: if what is said can be understood, then what the client
    has written is heard by the peer as it was meant, the packets of several threads not mixed up, and as
    it was said: each event once, each answer once, a pong for each ping (see [as_said]).  Only the end of
    what was queued is still missing; of the packet being written the peer has the beginning. *)
Theorem C77_conversation : forall v log ls s o,
  client_run log ls s o -> no_raw ls -> well_spoken v ls o ->
  exists us1 us2 rest, as_said ls s o (us1 ++ us2) /\ hears v (writes o) (map meant us1) rest /\
    (rest = [] \/ exists u us more, us2 = u :: us /\ more <> [] /\ spoken u = Some (rest ++ more)) /\
    (writes o = concat (queued o) -> us2 = [] /\ rest = []).
Proof. exact conversation. Qed.
Print Assumptions C77_conversation.
(** If nobody is starved, everything that was said by the moment [k] is heard some time, or else the task
    leaves its main loop. *)
Theorem C77_all_heard : forall v log r,
  lives log r -> writes_end r -> callbacks_end r -> fair_to log r LTake ->
  forall k, no_raw (deeds r k) -> well_spoken v (deeds r k) (seen r k) ->
  exists us, as_said (deeds r k) (at_time r k) (seen r k) us /\
  exists j, k <= j /\ (past_loop (at_time r j) \/ exists fs more, writes (seen r j) = fs ++ more /\ hears v fs (map meant us) []).
Proof. exact all_heard. Qed.
Print Assumptions C77_all_heard.
(** An event that asks for an answer, a ping, an event that is answered with an attachment. *)
Example C77_nonvacuous :
  (exists s, client_run false demo_run s demo_obs /\ s_inflight s = []) /\ no_raw demo_run /\ well_spoken Third demo_run demo_obs /\
  calm demo_obs /\ writes demo_obs = concat (queued demo_obs) /\
  said 0 demo_run = [Say (OfEvent (bs "ask") (Some 0%N)) (bs "/") false [SInt 1]] /\ replies demo_run = [(true, [SBytes (bs "ok")])] /\
  hears Third (writes demo_obs)
    [HPacket KEvent (bs "/") (Some 0%N) [VStr (bs "ask"); VNum (NPos 1)]; HPong; HPacket KAck (bs "/") (Some 5%N) [byte_array (bs "ok")]] [].
Proof.
  split; [exact demo_client_run|]. split; [exact demo_no_raw|]. split; [exact demo_well_spoken|]. split; [exact demo_calm|].
  split; [vm_compute; reflexivity|]. split; [apply demo_said|]. split; [apply demo_said|]. exact demo_heard.
Qed.
Example C77_fair_nonvacuous :
  lives false busy_life /\ writes_end busy_life /\ callbacks_end busy_life /\ fair_to false busy_life LTake /\
  no_raw (deeds busy_life busy_moment) /\ well_spoken Fourth (deeds busy_life busy_moment) (seen busy_life busy_moment) /\
  said 0 (deeds busy_life busy_moment) = [Say (OfEvent (bs "tick") None) (bs "/") false []; Say (OfEvent (bs "tick") None) (bs "/") false []] /\
  forall k, length opened_run <= k -> ~ past_loop (at_time busy_life k).
Proof.
  split; [exact busy_lives|]. split; [exact busy_writes|]. split; [exact busy_calls|]. split; [exact busy_fair|].
  split; [apply busy_deeds|]. split; [apply busy_deeds|]. split; [apply busy_deeds|].
  intros k Hk Hp. exact (main_not_past _ (busy_loop k Hk) Hp).
Qed.

(** ** C78 *)
(** The packets of the server are taken in turn: the reaction to each happens at its own moment, in the
    order of the packets, and no callback is called but in reaction to one of them. *)
Theorem C78_in_turn : forall log s o, trace log s o ->
  forall ps rest, assembled (messages (reads o)) ps rest -> exists cs, in_turn log o ps cs.
Proof. exact all_in_turn. Qed.
Print Assumptions C78_in_turn.
(** If the server says what a client can understand, pings and packets in any order and control frames
    anywhere in between, then the client has them as they were said, all that were completely read and
    no others, and reacts to each in turn. *)
Theorem C78_conversation : forall v log s o f fs more ss,
  trace log s o -> opened [f] -> Forall (plain_saying v) ss ->
  data_frames (reads o) = f :: fs -> fs ++ more = concat (map (saying_frames v) ss) ->
  exists ss1 ss2 part ps cs, ss = ss1 ++ ss2 /\ fs = concat (map (saying_frames v) ss1) ++ part /\
    (part = [] \/ exists x ss' more', ss2 = x :: ss' /\ saying_frames v x = part ++ more' /\ more' <> []) /\
    in_turn log o ps cs /\ calls o = concat cs /\ Forall2 taken_as ps (filter is_packet ss1) /\
    ping_count (reads o) = length (filter (fun x => negb (is_packet x)) ss1).
Proof. exact client_hears. Qed.
Print Assumptions C78_conversation.
(** A ping, the answer to a question and an event with an attachment (and a control frame in between). *)
Example C78_nonvacuous : (exists s, trace false s demo_obs) /\ opened [sample_open] /\ Forall (plain_saying Third) demo_sayings /\
  data_frames (reads demo_obs) = sample_open :: concat (map (saying_frames Third) demo_sayings) /\
  length (reads demo_obs) = 6 /\ length (calls demo_obs) = 2 /\ length (filter is_packet demo_sayings) = 2.
Proof.
  split; [exact demo_trace|]. split; [apply sample_opened|]. split; [exact demo_plain|]. repeat split; vm_compute; reflexivity.
Qed.
