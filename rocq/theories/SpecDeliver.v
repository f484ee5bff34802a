(** From the sender's arguments to the receiver's callback: observations used in the statements
    about delivery. *)
From Verif Require Export SpecClient.

(** The task is waiting for the other side (possibly already closing). *)
Definition reading (s : state) : Prop := s_phase s = PLoop \/ s_phase s = PReading.
(** No packet is half read. *)
Definition between_packets (o : list obs) : Prop := exists ps, assembled (messages (reads o)) ps [].
(** The engine has opened and not closed. *)
Definition live (o : list obs) : Prop := opened (data_frames (reads o)) /\ ~ closed (data_frames (reads o)).

(** Packets that the receiver's grammar reads as they were meant (C09, C15 show that some are not). *)
Definition deliverable (src : source) (ns : bytes) (bin : bool) (args : list sval) : Prop :=
  ns_ok ns /\ utf8_valid ns = true /\ fits (src_id src) /\ starts src args /\
  Forall strs_ok (all_args src args) /\ usable (all_args src args) /\
  (bin = true -> usable_binary (all_args src args)) /\
  (ns = bs "/" \/ (bin = false /\ Forall plain (all_args src args))).

(** An event as its sender describes it. *)
Record event := Event { e_name : bytes; e_id : option N; e_ns : bytes; e_binary : bool; e_args : list sval }.
Definition event_frames (e : event) : option (list wsmsg) :=
  build (OfEvent (e_name e) (e_id e)) (e_ns e) (e_binary e) (e_args e).
Definition event_deliverable (e : event) : Prop :=
  deliverable (OfEvent (e_name e) (e_id e)) (e_ns e) (e_binary e) (e_args e).
(** What the callback of an event sees of it: namespace, id and arguments, and a way to
    acknowledge it exactly if an id is there. *)
Definition sees (p : packet) (a : args_t) (ack : option ack_builder) (e : event) : Prop :=
  packet_data p = Some (DataEvent (e_id e) a) /\
  carries p KEvent (e_ns e) (e_id e) (pkt_values (e_binary e) (all_args (OfEvent (e_name e) (e_id e)) (e_args e))) /\
  match e_id e, ack with
  | None, None => True
  | Some i, Some b => ab_ns b = e_ns e /\ ab_id b = i
  | _, _ => False
  end.

(** The callback calls of a trace. *)
Definition calls (o : list obs) : list (packet * call) :=
  flat_map (fun x => match x with OCall p c => [(p, c)] | _ => [] end) o.
(** The frames of some packets are read one after the other; each callback returns. *)
Definition read_all (l : list (list wsmsg)) : list label := flat_map (fun fs => map LRead fs ++ [LCbReturn]) l.
