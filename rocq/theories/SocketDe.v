(** Model of socket-io-protocol/src/socket/mod.rs and socket/de.rs. *)
From Verif Require Export Engine Regex.

(** socket/mod.rs:28-34 [enum Kind] *)
Inductive kind := KConnect | KDisconnect | KEvent | KAck.
(** socket/mod.rs:62-70 [enum ProtocolKind] *)
Inductive pkind := PKConnect | PKDisconnect | PKEvent | PKAck | PKBinaryEvent | PKBinaryAck.

(** socket/mod.rs:17-26 [struct Packet] *)
Record packet := Packet {
  p_message : subslice_t;
  p_kind : kind;
  p_namespace : option range;
  p_id : option N;
  p_args : list range;
  p_attachments : list subslice_t
}.

(** socket/mod.rs:44-60 [enum Error]; the [&'static str] names are kept as bytes, [JsonError]
    is abstracted. *)
Inductive serror :=
| SNonAttachmentBinary (d : bytes)
| STextAttachment (s : bytes)
| SInvalidMessage (s : bytes)
| SInvalidExtraData (name : bytes) (s : bytes)
| SMissingData (name : bytes) (s : bytes)
| SInvalidDataJson (s : bytes)
| SInvalidAttachmentCount (got want : N).

(** socket/de.rs:22-29 [struct Parse]; de.rs:11 [Partial] is a wrapper around it. *)
Record parse := Parse {
  pa_message : subslice_t;
  pa_kind : pkind;
  pa_attachments : option N;
  pa_namespace : option range;
  pa_id : option N;
  pa_args : list range
}.
(** socket/de.rs:15-18 [enum DeserializeResult] *)
Inductive dresult :=
| DPacket (p : packet)
| DDataNeeded (p : parse).

(** socket/de.rs:32-34 [Partial::attachments]; [None] is the panic of [unwrap]. *)
Definition partial_attachments (p : parse) : option N := pa_attachments p.
(** socket/de.rs:38-43 [DeserializeResult::packet] *)
Definition dresult_packet (r : dresult) : option packet :=
  match r with DPacket p => Some p | DDataNeeded _ => None end.

(** de.rs:66-81 *)
Definition kind_of_char (c : byte) : option pkind :=
  if c =b "0" then Some PKConnect
  else if c =b "1" then Some PKDisconnect
  else if c =b "2" then Some PKEvent
  else if c =b "3" then Some PKAck
  else if c =b "5" then Some PKBinaryEvent
  else if c =b "6" then Some PKBinaryAck
  else None (* unreachable!() *).

(** de.rs:109-121 [parse_args]: element ranges relative to [arg_str]. *)
Definition parse_args (arg_str : bytes) : res serror (list range) :=
  match raw_array_ranges arg_str with
  | Some l => Ok l
  | None => Err (SInvalidDataJson arg_str)
  end.

(** [captures.get(n).map(|x| x.as_str().parse::<u64>().unwrap())] (de.rs:83, 85). *)
Definition cap_u64 (t : bytes) (c : option range) : res serror (option N) :=
  match c with
  | None => Ok None
  | Some (a, b) => match parse_u64 (slice a b t) with Some n => Ok (Some n) | None => Panic end
  end.

(** de.rs:60-107 [parse_text].  The statements run in source order: attachments, namespace, id,
    args. *)
Definition parse_text (text : subslice_t) : res serror parse :=
  match sub_deref_str text with
  | None => Panic
  | Some t =>
      match captures DESERIALIZE_RE t with
      | None => Err (SInvalidMessage t)
      | Some caps =>
          match cap_get 1 caps with
          | None => Panic
          | Some (a, b) =>
              match slice a b t with
              | [] => Panic
              | c :: _ =>
                  match kind_of_char c with
                  | None => Panic
                  | Some kind =>
                      rbind (cap_u64 t (cap_get 3 caps)) (fun attachments =>
                      let namespace := cap_get 5 caps in
                      rbind (cap_u64 t (cap_get 6 caps)) (fun id =>
                      rbind (match cap_get 7 caps with
                             | Some (s, e) =>
                                 rmap (map (fun r => (fst r + s, snd r + s)))
                                      (parse_args (slice s e t))
                             | None => Ok []
                             end) (fun args =>
                      Ok (Parse text kind attachments namespace id args))))
                  end
              end
          end
      end
  end.

(** [parse.message.to_string()] in error values: a panic in [Deref] is impossible there because
    [parse_text] already dereferenced the message. *)
Definition msg_text (s : subslice_t) : bytes :=
  match sub_deref_str s with Some t => t | None => [] end.

(** de.rs:142-154 [deserialize_dataless] *)
Definition deserialize_dataless (p : parse) (k : kind) (name : bytes) : res serror packet :=
  match pa_attachments p, pa_id p, pa_args p with
  | None, None, [] => Ok (Packet (pa_message p) k (pa_namespace p) None [] [])
  | _, _, _ => Err (SInvalidExtraData name (msg_text (pa_message p)))
  end.

Definition opt_or (d : N) (o : option N) : N := match o with Some x => x | None => d end.
Definition is_none {A} (o : option A) : bool := match o with None => true | Some _ => false end.
Definition is_nil {A} (l : list A) : bool := match l with [] => true | _ => false end.
Definition kind_is_ack (k : kind) : bool := match k with KAck => true | _ => false end.

(** de.rs:193-216 [deserialize_event] *)
Definition deserialize_event (p : parse) (k : kind) (name : bytes) (atts : list subslice_t)
  : res serror packet :=
  if (kind_is_ack k && is_none (pa_id p)) || is_nil (pa_args p) then
    Err (SMissingData name (msg_text (pa_message p)))
  else if negb (N.of_nat (length atts) =? opt_or 0 (pa_attachments p))%N then
    Err (SInvalidAttachmentCount (N.of_nat (length atts)) (opt_or 0 (pa_attachments p)))
  else Ok (Packet (pa_message p) k (pa_namespace p) (pa_id p) (pa_args p) atts).

(** de.rs:156-170 [deserialize_binary] *)
Definition deserialize_binary (p : parse) (k : kind) (name : bytes) : res serror dresult :=
  match pa_attachments p with
  | Some n =>
      if (n =? 0)%N then rmap DPacket (deserialize_event p k name [])
      else Ok (DDataNeeded p)
  | None => Err (SMissingData name (msg_text (pa_message p)))
  end.

(** de.rs:123-140 [deserialize_text] *)
Definition deserialize_text (text : subslice_t) : res serror dresult :=
  rbind (parse_text text) (fun p =>
  match pa_kind p with
  | PKConnect => rmap DPacket (deserialize_dataless p KConnect (bs "connect"))
  | PKDisconnect => rmap DPacket (deserialize_dataless p KDisconnect (bs "disconnect"))
  | PKEvent => rmap DPacket (deserialize_event p KEvent (bs "event") [])
  | PKAck => rmap DPacket (deserialize_event p KAck (bs "ack") [])
  | PKBinaryEvent => deserialize_binary p KEvent (bs "binary event")
  | PKBinaryAck => deserialize_binary p KAck (bs "binary ack")
  end).

(** de.rs:53-58 [deserialize] *)
Definition deserialize (msg : emsg) : res serror dresult :=
  match msg with
  | MText t => deserialize_text t
  | MBinary d =>
      match sub_deref_vec d with
      | Some v => Err (SNonAttachmentBinary v)
      | None => Panic
      end
  end.

(** de.rs:177-183: collecting the attachments stops at the first text message. *)
Fixpoint collect_binary (l : list emsg) : res serror (list subslice_t) :=
  match l with
  | [] => Ok []
  | MText s :: _ =>
      match sub_deref_str s with Some t => Err (STextAttachment t) | None => Panic end
  | MBinary d :: l' => rmap (cons d) (collect_binary l')
  end.
(** de.rs:172-191 [deserialize_partial] *)
Definition deserialize_partial (p : parse) (attachments : list emsg) : res serror packet :=
  rbind (collect_binary attachments) (fun atts =>
  match pa_kind p with
  | PKBinaryEvent => deserialize_event p KEvent (bs "binary event") atts
  | PKBinaryAck => deserialize_event p KAck (bs "binary ack") atts
  | _ => Panic (* unreachable!() *)
  end).

(** socket/args/mod.rs:13-18 [struct Args], 20-24 [struct Arg] *)
Record args_t := Args { a_message : bytes; a_ranges : list range; a_attachments : list subslice_t }.
Record arg_t := Arg { g_text : bytes; g_attachments : list subslice_t }.

(** socket/mod.rs:36-42 [enum Data] *)
Inductive data_t :=
| DataConnect
| DataDisconnect
| DataEvent (id : option N) (args : args_t)
| DataAck (id : N) (args : args_t).

(** socket/mod.rs:73-78 [Packet::namespace]; [None] is a panic. *)
Definition packet_namespace (p : packet) : option bytes :=
  match p_namespace p with
  | None => Some (bs "/")
  | Some r => match sub_deref_str (p_message p) with Some t => str_slice t r | None => None end
  end.
(** socket/mod.rs:95-101 [Packet::args] *)
Definition packet_args (p : packet) : option args_t :=
  match sub_deref_str (p_message p) with
  | Some t => Some (Args t (p_args p) (p_attachments p))
  | None => None
  end.
(** socket/mod.rs:80-93 [Packet::data]; [None] is a panic ([self.id.unwrap()]). *)
Definition packet_data (p : packet) : option data_t :=
  match p_kind p with
  | KConnect => Some DataConnect
  | KDisconnect => Some DataDisconnect
  | KEvent => match packet_args p with Some a => Some (DataEvent (p_id p) a) | None => None end
  | KAck =>
      match p_id p, packet_args p with
      | Some id, Some a => Some (DataAck id a)
      | _, _ => None
      end
  end.
