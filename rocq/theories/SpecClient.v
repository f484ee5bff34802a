(** Observations of the client as a whole: what the statements about traces are made of. *)
From Verif Require Export System SpecCallbacks SpecEngine SpecSocket SpecRead SpecBuild.

(** [trace log_info s o]: some run from the initial state ends in [s], and [o] was observed. *)
Definition trace (log_info : bool) (s : state) (o : list obs) : Prop :=
  exists ls, execute log_info init ls = Some (s, o).

(** ** Projections of a trace *)
Definition reads (o : list obs) : list wsmsg :=
  flat_map (fun x => match x with ORead m => [m] | _ => [] end) o.
Definition writes (o : list obs) : list wsmsg :=
  flat_map (fun x => match x with OWrite m => [m] | _ => [] end) o.
Definition queued (o : list obs) : list (list wsmsg) :=
  flat_map (fun x => match x with OQueued _ fs => [fs] | _ => [] end) o.
Definition requested (o : list obs) : list N :=
  flat_map (fun x => match x with ORequest id => [id] | _ => [] end) o.
(** What happened to the callback table. *)
Definition table_history (o : list obs) : list cop :=
  flat_map (fun x =>
    match x with
    | OTable (SetEvent ns ev f) => [CSetEvent ns ev f]
    | OTable (ClearEvent ns ev) => [CClearEvent ns ev]
    | OTable (SetFallback ns f) => [CSetFallback ns f]
    | OTable (ClearFallback ns) => [CClearFallback ns]
    | ORegister ns id f => [CSetAck ns id f]
    | OCall p (AckCall _ _) | OEnd (EndErr (RUnexpectedAck p)) =>
        match packet_namespace p, packet_data p with
        | Some ns, Some (DataAck id _) => [CTakeAck ns id]
        | _, _ => []
        end
    | _ => []
    end) o.

(** ** The incoming side *)
(** Text and binary frames; websocket control frames are ignored. *)
Definition is_data (m : wsmsg) : bool := match m with WText _ | WBinary _ => true | _ => false end.
Definition data_frames (h : list wsmsg) : list wsmsg := filter is_data h.
(** The engine's answer to a frame after a history of frames. *)
Definition engine_answer (h : list wsmsg) (m : wsmsg) (r : res eerror epacket) : Prop :=
  history_answers (data_frames h ++ [m]) = history_answers (data_frames h) ++ [r].
(** The engine messages of a history. *)
Definition messages (h : list wsmsg) : list emsg :=
  flat_map (fun r => match r with Ok (PktMessage m) => [m] | _ => [] end) (history_answers (data_frames h)).
(** [assembled es ps rest]: the messages [es] are the packets [ps], each a text message directly
    followed by its attachments, and then [rest], the beginning of one more packet. *)
Inductive assembled : list emsg -> list packet -> list emsg -> Prop :=
| as_nothing : assembled [] [] []
| as_waiting m q n l : deserialize (MText m) = Ok (DDataNeeded q) -> partial_attachments q = Some n ->
    (N.of_nat (length l) < n)%N -> assembled (MText m :: l) [] (MText m :: l)
| as_packet m l p es ps rest : received m l p -> assembled es ps rest ->
    assembled (MText m :: l ++ es) (p :: ps) rest.

(** The name of an event: its first argument read as a string. *)
Definition event_name (p : packet) (r : res aerror bytes) : Prop :=
  exists id a g, packet_data p = Some (DataEvent id a) /\ args_get a 0 = Ok (Some g) /\
    match r with
    | Ok name => arg_deserialize TyString g = Ok (XStr name)
    | Err e => arg_deserialize TyString g = Err e
    | Panic => False
    end.

(** Reaction to a complete packet after the observations [o]: which callback is called, or how the
    task ends. *)
Inductive packet_reaction (log_info : bool) (o : list obs) (p : packet) : list obs -> Prop :=
| pr_unshowable : log_info = true -> show_packet p = None -> packet_reaction log_info o p [OEnd EndPanic]
| pr_connect ns : (log_info = true -> show_packet p <> None) ->
    view p = Some (PView KConnect ns None [] []) -> packet_reaction log_info o p []
| pr_disconnect ns : (log_info = true -> show_packet p <> None) ->
    view p = Some (PView KDisconnect ns None [] []) -> packet_reaction log_info o p []
| pr_event ns id a name f : (log_info = true -> show_packet p <> None) ->
    packet_namespace p = Some ns -> packet_data p = Some (DataEvent id a) ->
    event_name p (Ok name) -> routed (table_history o) ns name f ->
    packet_reaction log_info o p [OCall p (EventCall f a (option_map (fun i => AckBuilder ns i false) id))]
| pr_event_unheard ns id a name : (log_info = true -> show_packet p <> None) ->
    packet_namespace p = Some ns -> packet_data p = Some (DataEvent id a) ->
    event_name p (Ok name) -> (forall f, ~ routed (table_history o) ns name f) ->
    packet_reaction log_info o p []
| pr_event_unnamed e : (log_info = true -> show_packet p <> None) ->
    event_name p (Err e) -> packet_reaction log_info o p [OEnd (EndErr (RArgs e))]
| pr_ack ns id a f : (log_info = true -> show_packet p <> None) ->
    packet_namespace p = Some ns -> packet_data p = Some (DataAck id a) ->
    awaiting (table_history o) ns id f -> packet_reaction log_info o p [OCall p (AckCall f a)]
| pr_ack_unexpected ns id a : (log_info = true -> show_packet p <> None) ->
    packet_namespace p = Some ns -> packet_data p = Some (DataAck id a) ->
    (forall f, ~ awaiting (table_history o) ns id f) ->
    packet_reaction log_info o p [OEnd (EndErr (RUnexpectedAck p))].

(** Reaction to an engine message. *)
Inductive message_reaction (log_info : bool) (o : list obs) (x : emsg) : list obs -> Prop :=
| mr_complete ps p out : (exists rest, assembled (messages (reads o)) ps rest) ->
    assembled (messages (reads o) ++ [x]) (ps ++ [p]) [] ->
    packet_reaction log_info o p out -> message_reaction log_info o x out
| mr_incomplete ps rest : (exists rest0, assembled (messages (reads o)) ps rest0) ->
    assembled (messages (reads o) ++ [x]) ps rest -> rest <> [] -> message_reaction log_info o x []
| mr_not_a_packet ps e : assembled (messages (reads o)) ps [] ->
    deserialize x = Err e -> message_reaction log_info o x [OEnd (EndErr (RSocket e))]
| mr_panic ps : assembled (messages (reads o)) ps [] ->
    deserialize x = Panic -> message_reaction log_info o x [OEnd EndPanic]
| mr_not_completed ps m l q e : assembled (messages (reads o)) ps (MText m :: l) ->
    deserialize (MText m) = Ok (DDataNeeded q) ->
    partial_attachments q = Some (N.of_nat (length (l ++ [x]))) ->
    deserialize_partial q (l ++ [x]) = Err e ->
    message_reaction log_info o x [OEnd (EndErr (RSocket e))].

(** Reaction to a websocket message. *)
Inductive reaction (log_info : bool) (o : list obs) (m : wsmsg) : list obs -> Prop :=
| re_control : is_data m = false -> reaction log_info o m []
| re_error e : is_data m = true -> engine_answer (reads o) m (Err e) ->
    reaction log_info o m [OEnd (EndErr (REngine e))]
| re_open x : is_data m = true -> engine_answer (reads o) m (Ok (PktOpen x)) ->
    reaction log_info o m [OOpened x]
| re_close : is_data m = true -> engine_answer (reads o) m (Ok PktClose) -> reaction log_info o m []
| re_pong : is_data m = true -> engine_answer (reads o) m (Ok PktPong) -> reaction log_info o m []
| re_ping : is_data m = true -> engine_answer (reads o) m (Ok PktPing) -> ~ In OChannelClosed o ->
    reaction log_info o m [OQueued ByReceiver [WText (bs "3")]]
| re_ping_lost : is_data m = true -> engine_answer (reads o) m (Ok PktPing) ->
    In OChannelClosed o -> reaction log_info o m [OLost ByReceiver [WText (bs "3")]]
| re_message x out : is_data m = true -> engine_answer (reads o) m (Ok (PktMessage x)) ->
    message_reaction log_info o x out -> reaction log_info o m out.

(** Reading [m] after [o] completes the packet [p]. *)
Definition completes (o : list obs) (m : wsmsg) (p : packet) : Prop :=
  is_data m = true /\ exists x ps rest, engine_answer (reads o) m (Ok (PktMessage x)) /\
    assembled (messages (reads o)) ps rest /\ assembled (messages (reads o) ++ [x]) (ps ++ [p]) [].

(** Reading [m] after [o] completes an ack for namespace [ns] and id [id]. *)
Definition brings_ack (o : list obs) (m : wsmsg) (ns : bytes) (id : N) : Prop :=
  exists p a, completes o m p /\ packet_namespace p = Some ns /\ packet_data p = Some (DataAck id a).
(** Observations that concern the ack callback for [ns] and [id]: it is registered, or an ack for
    it arrives. *)
Definition about_ack (ns : bytes) (id : N) (x : obs) : Prop :=
  (exists f, x = ORegister ns id f) \/
  (exists p a f b, x = OCall p (AckCall f b) /\ packet_namespace p = Some ns /\ packet_data p = Some (DataAck id a)) \/
  (exists p a, x = OEnd (EndErr (RUnexpectedAck p)) /\ packet_namespace p = Some ns /\ packet_data p = Some (DataAck id a)).
(** A server that acknowledges only events it can have received (queued with an ack request under
    that namespace and id), each at most once. *)
Definition honest (o : list obs) : Prop :=
  forall o1 m o2 ns id, o = o1 ++ ORead m :: o2 -> brings_ack o1 m ns id ->
    (exists fs, In (OQueued (ByEmit ns (Some id)) fs) o1) /\
    (forall o3 m' o4, o1 = o3 ++ ORead m' :: o4 -> ~ brings_ack o3 m' ns id).

(** Ack builders handed to callbacks, and used to send. *)
Definition builders_given (o : list obs) : list (bytes * N) :=
  flat_map (fun x => match x with OCall _ (EventCall _ _ (Some a)) => [(ab_ns a, ab_id a)] | _ => [] end) o.
Definition builders_used (o : list obs) : list (bytes * N) :=
  flat_map (fun x => match x with OQueued (ByAck ns id) _ | OLost (ByAck ns id) _ => [(ns, id)] | _ => [] end) o.
(** Ids of the events given to the channel with an ack request. *)
Definition emitted_ids (o : list obs) : list N :=
  flat_map (fun x => match x with OQueued (ByEmit _ (Some id)) _ | OLost (ByEmit _ (Some id)) _ => [id] | _ => [] end) o.
Definition registered_ids (o : list obs) : list N :=
  flat_map (fun x => match x with ORegister _ id _ => [id] | _ => [] end) o.
(** What the receiver itself gives to the channel. *)
Definition pongs (o : list obs) : list (list wsmsg) :=
  flat_map (fun x => match x with OQueued ByReceiver fs | OLost ByReceiver fs => [fs] | _ => [] end) o.
(** Pings among the engine packets of a history. *)
Definition ping_count (h : list wsmsg) : nat :=
  length (filter (fun r => match r with Ok PktPing => true | _ => false end) (history_answers (data_frames h))).

(** What a list of builder calls asks for: the last [binary] call (default: no) and the last
    [callback] call. *)
Fixpoint chosen_binary (l : list bcall) : option bool :=
  match l with
  | [] => None
  | SetBinary b :: l' => match chosen_binary l' with Some b' => Some b' | None => Some b end
  | _ :: l' => chosen_binary l'
  end.
Fixpoint chosen_callback (l : list bcall) : option cb :=
  match l with
  | [] => None
  | SetCallback f :: l' => match chosen_callback l' with Some f' => Some f' | None => Some f end
  | _ :: l' => chosen_callback l'
  end.
(** The ids that the calls take, starting at [n]. *)
Fixpoint chosen_id (n : N) (l : list bcall) : option N :=
  match l with
  | [] => None
  | SetCallback _ :: l' => match chosen_id ((n + 1) mod 2 ^ 64) l' with Some k => Some k | None => Some n end
  | _ :: l' => chosen_id n l'
  end.

Definition binary_or_not (l : list bcall) : bool := match chosen_binary l with Some b => b | None => false end.

(** What may still be observed after the end of the task. *)
Definition after_end (x : obs) : Prop :=
  match x with
  | ORead _ | OCall _ _ | OEnd _ | OWrite _ | OCloseFrame | OQueued _ _ | OOpened _ | OBlocked => False
  | _ => True
  end.
(** The task ends. *)
Definition ends (x : obs) : Prop := match x with OEnd _ => True | _ => False end.
(** Nothing is written to the websocket. *)
Definition no_write (x : obs) : Prop := match x with OWrite _ | OCloseFrame => False | _ => True end.
(** What may still be observed once a callback has blocked. *)
Definition while_blocked (x : obs) : Prop :=
  match x with
  | ORead _ | OCall _ _ | OEnd _ | OWrite _ | OCloseFrame | OOpened _ | OBlocked | OTable _ | ORegister _ _ _ => False
  | OClose r => r = CloseTimeout \/ r = CloseAlready
  | _ => True
  end.
(** Why a packet is not queued: a user closed the channel, or the task has ended. *)
Definition lost_reason (o : list obs) : Prop := In OChannelClosed o \/ exists e, In (OEnd e) o.

(** Full statements of properties that turned out to be false. *)
(** C34: a callback that uses the client never blocks. *)
Definition C34_full : Prop := forall log s o, trace log s o -> ~ In OBlocked o.
(** C36: what was queued when [close()] was called is written before the close frame. *)
Definition C36_full : Prop := forall log s o1 o2 o3, trace log s (o1 ++ OCloseCalled :: o2 ++ OCloseFrame :: o3) ->
  exists r, writes (o1 ++ OCloseCalled :: o2) = concat (queued o1) ++ r.
(** C40: connecting does not panic. *)
Definition C40_full : Prop := forall log s o, trace log s o -> ~ In (OConnect CPanicked) o.
(** C31: what an ack builder sends parses back as an ack for its namespace and id. *)
Definition C31_full : Prop := forall log s o ns id fs h, trace log s o -> In (OQueued (ByAck ns id) fs) o ->
  opened h -> ~ closed h ->
  exists p a, arrives h fs p /\ packet_namespace p = Some ns /\ packet_data p = Some (DataAck id a).
(** [fires o i j]: the [j]-th observation calls the ack callback that the [i]-th registers, on
    account of an ack with the namespace and id it was registered for. *)
Definition fires (o : list obs) (i j : nat) : Prop :=
  exists ns id f p a, nth_error o i = Some (ORegister ns id f) /\ nth_error o j = Some (OCall p (AckCall f a)) /\
    packet_namespace p = Some ns /\ packet_data p = Some (DataAck id a) /\ i < j /\
    forall k y, i < k < j -> nth_error o k = Some y -> ~ about_ack ns id y.
