(** Specifications for statements about whole runs: what users asked to be sent, read off the
    labels of the run alone, against what was sent. *)
From Verif Require Export SpecClient.

(** [client_run log ls s o]: the labels [ls], in this order, lead from the initial state to [s], and [o]
    is observed. *)
Definition client_run (log : bool) (ls : list label) (s : state) (o : list obs) : Prop :=
  execute log init ls = Some (s, o).

(** The [next_id] of the client after builder calls, and after a run. *)
Fixpoint ids_after (n : N) (l : list bcall) : N :=
  match l with
  | [] => n
  | SetBinary _ :: l' => ids_after n l'
  | SetCallback _ :: l' => ids_after ((n + 1) mod 2 ^ 64)%N l'
  end.
Definition label_emission (l : label) : option (emission * bool) :=
  match l with
  | LEmit e | LCbEmit e => Some (e, true)
  | LBuild e => Some (e, false)
  | _ => None
  end.
Fixpoint next_after (n : N) (ls : list label) : N :=
  match ls with
  | [] => n
  | l :: ls' => next_after (match label_emission l with Some (e, _) => ids_after n (em_calls e) | None => n end) ls'
  end.

(** What the users asked to be sent: namespace, id and callback of the ack request, frames. *)
Definition request : Type := bytes * option (N * cb) * list wsmsg.
Definition request_of (n : N) (e : emission) : list request :=
  let ack := match chosen_id n (em_calls e), chosen_callback (em_calls e) with
             | Some id, Some f => Some (id, f)
             | _, _ => None
             end in
  match build (OfEvent (em_event e) (option_map fst ack)) (em_ns e) (binary_or_not (em_calls e)) (em_args e) with
  | Some fs => [(em_ns e, ack, fs)]
  | None => []
  end.
Fixpoint asked (n : N) (ls : list label) : list request :=
  match ls with
  | [] => []
  | l :: ls' =>
      match label_emission l with
      | Some (e, true) => request_of n e ++ asked (ids_after n (em_calls e)) ls'
      | Some (e, false) => asked (ids_after n (em_calls e)) ls'
      | None => asked n ls'
      end
  end.
(** Packets asked for, and callbacks to be registered. *)
Definition packet_of (r : request) : bytes * option N * list wsmsg :=
  let '(ns, ack, fs) := r in (ns, option_map fst ack, fs).
Definition callback_of (r : request) : list (bytes * N * cb) :=
  let '(ns, ack, _) := r in match ack with Some (id, f) => [(ns, id, f)] | None => [] end.

(** Packets of events given to the channel, and callbacks registered, in a trace. *)
Definition emitted (o : list obs) : list (bytes * option N * list wsmsg) :=
  flat_map (fun x => match x with OQueued (ByEmit ns id) fs | OLost (ByEmit ns id) fs => [(ns, id, fs)] | _ => [] end) o.
Definition registrations (o : list obs) : list (bytes * N * cb) :=
  flat_map (fun x => match x with ORegister ns id f => [(ns, id, f)] | _ => [] end) o.

(** A request under way in some thread: built, and neither sent nor lost yet. *)
Definition flight_packet (f : inflight) : bytes * option N * list wsmsg := (f_ns f, Some (f_id f), f_packet f).

(** What may have kept a request from being sent: a callback blocked, or a user thread panicked. *)
Definition disturbed (o : list obs) : Prop := In OBlocked o \/ In OUserPanic o.

(** Labels of the task alone that write what is queued. *)
Definition writing (l : label) : Prop := l = LTake \/ l = LWrite \/ l = LCbReturn.
(** The task is in its main loop (and not in a callback that blocked, or closing). *)
Definition in_main_loop (s : state) : Prop :=
  match s_phase s with PLoop | PSending _ | PCalling false _ => True | _ => False end.

(** Steps of the task that need nobody else. *)
Definition own_step (l : label) : Prop :=
  match l with LTake | LWrite | LCbReturn | LClosed | LCloseFrame true => True | _ => False end.
(** Steps of the task, the end of the stream, and the return of [close()]. *)
Definition to_the_end (l : label) : Prop := own_step l \/ l = LReadEnd \/ l = LCloseReturn.

(** Requests without an ack. *)
Definition no_ack (x : bytes * option N * list wsmsg) : bool :=
  let '(_, id, _) := x in match id with None => true | Some _ => false end.

(** ** Panics *)
(** A packet text with a number beyond 2^64 - 1 in its header arrives where a new packet begins. *)
Definition overflow_message (o : list obs) (m : wsmsg) : Prop :=
  is_data m = true /\ (exists ps, assembled (messages (reads o)) ps []) /\
  exists x t w, engine_answer (reads o) m (Ok (PktMessage (MText x))) /\ sub_deref_str x = Some t /\
    reads_as t w /\ (too_big (w_count w) \/ too_big (w_id w)).
(** A packet is completed that cannot be displayed (C22), while packets are logged. *)
Definition unshowable_message (log : bool) (o : list obs) (m : wsmsg) : Prop :=
  log = true /\ exists p, completes o m p /\ show_packet p = None.

(** Full statements of properties that turned out to be false. *)
(** No message from the server makes the task panic. *)
Definition C48_full : Prop := forall log s o m s' o', trace log s o -> step log s (LRead m) = Some (s', o') ->
  ~ In (OEnd EndPanic) o'.
(** A panic in a callback does not make other calls panic. *)
Definition C49_full : Prop := forall log s o, trace log s o -> ~ In OUserPanic o.
