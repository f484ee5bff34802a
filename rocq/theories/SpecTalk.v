(** Whole conversations with the reference implementation: what the peer makes of everything that a
    client writes, and what a client makes of everything that the peer writes. *)
From Verif Require Export SpecJoin SpecFair SpecDeliver.

(** ** What the peer hears *)
Inductive heard := HPong | HPacket (k : kind) (ns : bytes) (id : option N) (vs : list value).
(** [hears v fs hs rest]: a peer of the revision [v] takes the frames [fs] for the pongs and packets
    [hs], one after the other, and then [rest], the beginning of one more packet. *)
Inductive hears (v : revision) : list wsmsg -> list heard -> list wsmsg -> Prop :=
| he_nothing : hears v [] [] []
| he_waiting t p bl : sio_decode t = Some p -> (N.of_nat (length bl) < o_count p)%N ->
    hears v (WText ("4"%byte :: t) :: map (attachment_frame v) bl) [] (WText ("4"%byte :: t) :: map (attachment_frame v) bl)
| he_pong fs hs rest : hears v fs hs rest -> hears v (WText (bs "3") :: fs) (HPong :: hs) rest
| he_packet pk k ns id vs fs hs rest : peer_gets v pk k ns id vs -> hears v fs hs rest ->
    hears v (pk ++ fs) (HPacket k ns id vs :: hs) rest.

(** ** What the client says *)
(** An answer to a ping, or an event or ack as its sender describes it. *)
Inductive speech := Pong | Say (src : source) (ns : bytes) (bin : bool) (args : list sval).
Definition spoken (u : speech) : option (list wsmsg) :=
  match u with Pong => Some [WText (bs "3")] | Say src ns bin args => build src ns bin args end.
Definition meant (u : speech) : heard :=
  match u with
  | Pong => HPong
  | Say src ns bin args => HPacket (src_kind src) ns (src_id src) (pkt_values bin (all_args src args))
  end.
(** What a peer of the revision [v] can understand (C68). *)
Definition clear (v : revision) (u : speech) : Prop :=
  match u with
  | Pong => True
  | Say src ns bin args =>
      nsp_ok ns /\ readable_ids src /\ starts src args /\ usable (all_args src args) /\
      (bin = true -> usable_binary (all_args src args)) /\
      (N.of_nat (length (attachments src bin args)) < exact_max)%N /\ (v = Third \/ attachments src bin args = []) /\
      free_name src
  end.
Definition is_event (u : speech) : bool := match u with Say (OfEvent _ _) _ _ _ => true | _ => false end.
(** Events that ask for no answer. *)
Definition unasked (u : speech) : bool := match u with Say (OfEvent _ None) _ _ _ => true | _ => false end.
Definition pongs_back (u : speech) : bool := match u with Pong => true | _ => false end.

(** Read off the labels of a run: the events that users emit (with the id of the answer they ask for),
    and the arguments with which events are acknowledged, in the order of the calls. *)
Definition speech_of (n : N) (e : emission) : speech :=
  Say (OfEvent (em_event e) (match chosen_callback (em_calls e) with Some _ => chosen_id n (em_calls e) | None => None end))
      (em_ns e) (binary_or_not (em_calls e)) (em_args e).
Fixpoint said (n : N) (ls : list label) : list speech :=
  match ls with
  | [] => []
  | l :: ls' =>
      match label_emission l with
      | Some (e, true) => speech_of n e :: said (ids_after n (em_calls e)) ls'
      | Some (e, false) => said (ids_after n (em_calls e)) ls'
      | None => said n ls'
      end
  end.
Definition replies (ls : list label) : list (bool * list sval) :=
  flat_map (fun l => match l with LAck _ bin args | LCbAck _ bin args => [(bin, args)] | _ => [] end) ls.
Definition reply_of (u : speech) : list (bool * list sval) :=
  match u with Say (OfAck _) _ bin args => [(bin, args)] | _ => [] end.
(** No user pushes frames of their own into the channel. *)
Definition no_raw (ls : list label) : Prop := forall fs, ~ In (LRaw fs) ls.
(** No callback blocked, no user thread panicked, and nothing was given to a closed channel. *)
Definition calm (o : list obs) : Prop := ~ disturbed o /\ forall by_ fs, ~ In (OLost by_ fs) o.
(** Everything that is emitted, and every answer to every event delivered, can be understood. *)
Definition well_spoken (v : revision) (ls : list label) (o : list obs) : Prop :=
  Forall (clear v) (said 0 ls) /\
  forall bin args ns id, In (bin, args) (replies ls) -> In (ns, id) (builders_given o) -> clear v (Say (OfAck id) ns bin args).
(** [as_said ls s o us]: what was queued, [us], is what was said.  Each event emitted is there, once, and
    no other, but for those [missing]; the answers are those of the users, to events that were delivered;
    and if nothing disturbs the client, the only events missing are those that ask for an answer and that
    some thread is about to queue, events that ask for none are in the order in which they were emitted, the
    answers are in the order in which they were given, and each ping is answered once. *)
Definition as_said (ls : list label) (s : state) (o : list obs) (us : list speech) : Prop :=
  Forall2 (fun q u => spoken u = Some q) (queued o) us /\
  (forall id ns bin args, In (Say (OfAck id) ns bin args) us -> In (ns, id) (builders_given o) /\ In (bin, args) (replies ls)) /\
  exists missing, Permutation (said 0 ls) (filter is_event us ++ missing) /\
    (calm o -> (s_inflight s = [] -> missing = []) /\ Forall (fun u => is_event u = true /\ unasked u = false) missing /\
               filter unasked us = filter unasked (said 0 ls) /\ flat_map reply_of us = replies ls /\
               length (filter pongs_back us) = ping_count (reads o)).
(** What happened in a life before the moment [k]. *)
Fixpoint deeds (r : life) (k : nat) : list label :=
  match k with O => [] | S k' => deeds r k' ++ match does r k' with Some l => [l] | None => [] end end.

(** ** What the server says *)
Inductive saying := SPing | SPacket (p : sio) (bl : list bytes).
Definition saying_frames (v : revision) (x : saying) : list wsmsg :=
  match x with
  | SPing => [WText (bs "2")]
  | SPacket p bl => WText ("4"%byte :: sio_encode p) :: map (attachment_frame v) bl
  end.
(** What a client can understand of it (C69). *)
Definition plain_saying (v : revision) (x : saying) : Prop :=
  match x with
  | SPing => True
  | SPacket p bl => sends p /\ o_count p = N.of_nat (length bl) /\ (v = Third \/ bl = []) /\
      exists ts, sio_args p ts /\ understood p ts
  end.
(** The client has the packet as it was sent. *)
Definition taken_as (p : packet) (x : saying) : Prop :=
  match x with
  | SPing => False
  | SPacket q bl => exists k ts, sio_kind k (o_type q) /\ sio_args q ts /\ view p = Some (PView k (o_nsp q) (o_id q) ts bl)
  end.
Definition is_packet (x : saying) : bool := match x with SPacket _ _ => true | SPing => false end.
(** [in_turn log o ps cs]: in the run with the observations [o] the packets [ps] were complete one after
    the other, at different moments, and the calls [cs] were the reactions to them; no other callback was
    called. *)
Inductive in_turn (log : bool) : list obs -> list packet -> list (list (packet * call)) -> Prop :=
| it_none o : calls o = [] -> in_turn log o [] []
| it_next o ps cs m p out o' : in_turn log o ps cs -> completes o m p -> packet_reaction log o p out -> calls o' = [] ->
    in_turn log (o ++ ORead m :: out ++ o') (ps ++ [p]) (cs ++ [calls out]).
