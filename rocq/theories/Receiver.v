(** Model of socket-io-client/src/receiver.rs. *)
From Verif Require Export Args DeModel Emit.

(** receiver.rs:18-30 [enum Error] *)
Inductive rerror :=
| REngine (e : eerror)
| RSocket (e : serror)
| RArgs (e : aerror)
| REventNoArgs (p : packet)
| RUnexpectedAck (p : packet).

(** receiver.rs:32-38 [struct Receiver]: the decoder, the packet in progress with the attachments
    so far (receiver.rs:40-43), and whether the sender for the Open message is still there.  The
    callback table is passed separately, because it is shared. *)
Record receiver := Receiver {
  r_decoder : dstate; r_progress : option (parse * list emsg); r_open : bool }.
(** receiver.rs:46-58 *)
Definition receiver_new : receiver := Receiver decoder_new None true.

(** A call of a user callback: callbacks.rs:18-20 with the arguments and maybe an ack builder, or
    callbacks.rs:47-49. *)
Inductive call :=
| EventCall (f : cb) (a : args_t) (ack : option ack_builder)
| AckCall (f : cb) (a : args_t).

(** How processing ends.  When a callback is called, that call is the last thing that happens: the
    result is then [Ok(())]. *)
Inductive routcome :=
| Return (r : res rerror unit)
| CallOf (p : packet) (c : call).

(** receiver.rs:126-163 [process_packet].  [log_info]: whether the logger formats info messages
    (line 127: [Display], which can panic); [poisoned]: the mutex of the table is poisoned, so that
    [lock().unwrap()] panics.  [Cow<str>] is deserialised like [String]. *)
Definition process_packet (log_info poisoned : bool) (c : callbacks) (p : packet) : callbacks * routcome :=
  if log_info && match show_packet p with None => true | Some _ => false end then (c, Return Panic)
  else
    match packet_namespace p, packet_data p with
    | Some namespace, Some d =>
        match d with
        | DataConnect => (c, Return (Ok tt))
        | DataDisconnect => (c, Return (Ok tt))
        | DataEvent id a =>
            match args_get a 0 with
            | Ok None => (c, Return (Err (REventNoArgs p)))
            | Ok (Some g) =>
                match arg_deserialize TyString g with
                | Ok (XStr event) =>
                    let ack := option_map (ack_builder_new namespace) id in
                    if poisoned then (c, Return Panic)
                    else match get_event c namespace event with
                         | Some f => (c, CallOf p (EventCall f a ack))
                         | None => (c, Return (Ok tt))
                         end
                | Ok _ => (c, Return Panic) (* impossible: a String was read *)
                | Err e => (c, Return (Err (RArgs e)))
                | Panic => (c, Return Panic)
                end
            | Err e => (c, Return (Err (RArgs e))) (* impossible: [get] returns no error *)
            | Panic => (c, Return Panic)
            end
        | DataAck id a =>
            if poisoned then (c, Return Panic)
            else match get_and_clear_ack c namespace id with
                 | (c', Some f) => (c', CallOf p (AckCall f a))
                 | (c', None) => (c', Return (Err (RUnexpectedAck p)))
                 end
        end
    | _, _ => (c, Return Panic)
    end.

(** Everything processing a websocket message does: the receiver and the table afterwards, the Open
    handed to the connecting task, the packet queued for sending, the outcome. *)
Record processed := Processed {
  pr_receiver : receiver;
  pr_callbacks : callbacks;
  pr_open : option open_t;
  pr_queue : option (list wsmsg);
  pr_outcome : routcome
}.

(** receiver.rs:178-180 [InProgress::ready]; [None] is a panic of [Partial::attachments]. *)
Definition progress_ready (q : parse) (l : list emsg) : option bool :=
  match partial_attachments q with
  | Some n => Some (n =? N.of_nat (length l))%N
  | None => None
  end.

(** receiver.rs:101-122: a message packet of the engine. *)
Definition process_emsg (log_info poisoned : bool) (d : dstate) (progress : option (parse * list emsg))
  (op : bool) (c : callbacks) (msg : emsg) : processed :=
  let packet_done p :=
    let (c', o) := process_packet log_info poisoned c p in
    Processed (Receiver d None op) c' None None o in
  let stop r := Processed (Receiver d None op) c None None (Return r) in
  match progress with
  | Some (q, l) =>
      let l' := l ++ [msg] in
      match progress_ready q l' with
      | None => stop Panic
      | Some true =>
          match deserialize_partial q l' with
          | Ok p => packet_done p
          | Err e => stop (Err (RSocket e))
          | Panic => stop Panic
          end
      | Some false => Processed (Receiver d (Some (q, l')) op) c None None (Return (Ok tt))
      end
  | None =>
      match deserialize msg with
      | Ok (DPacket p) => packet_done p
      | Ok (DDataNeeded q) => Processed (Receiver d (Some (q, [])) op) c None None (Return (Ok tt))
      | Err e => stop (Err (RSocket e))
      | Panic => stop Panic
      end
  end.

(** receiver.rs:73-124 [process_message] *)
Definition process_message (log_info poisoned : bool) (r : receiver) (c : callbacks) (msg : wsmsg) : processed :=
  let (d, a) := decode (r_decoder r) msg in
  let keep op open queue out := Processed (Receiver d (r_progress r) op) c open queue (Return out) in
  match a with
  | Ok (PktOpen o) => keep false (if r_open r then Some o else None) None (Ok tt)
  | Ok PktClose => keep (r_open r) None None (Ok tt)
  | Ok PktPing => keep (r_open r) None (Some [encode_pong]) (Ok tt)
  | Ok PktPong => keep (r_open r) None None (Ok tt)
  | Ok (PktMessage m) => process_emsg log_info poisoned d (r_progress r) (r_open r) c m
  | Err e => keep (r_open r) None None (Err (REngine e))
  | Panic => keep (r_open r) None None Panic
  end.

(** receiver.rs:60-71 [process_websocket_packet] *)
Definition process_websocket_packet (log_info poisoned : bool) (r : receiver) (c : callbacks) (msg : wsmsg)
  : processed :=
  match msg with
  | WClose _ | WPing _ | WPong _ => Processed r c None None (Return (Ok tt))
  | WText _ | WBinary _ => process_message log_info poisoned r c msg
  end.
