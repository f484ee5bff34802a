(** Building a packet, sending it, and what arrives: observations used in the statements about
    the packet builder. *)
From Verif Require Export SpecEngine SpecSer DeModel.

(** What is built: an event with a name and possibly an id, or the ack of an event. *)
Inductive source := OfEvent (name : bytes) (id : option N) | OfAck (id : N).
Definition src_kind (s : source) : kind := match s with OfEvent _ _ => KEvent | OfAck _ => KAck end.
Definition src_id (s : source) : option N := match s with OfEvent _ i => i | OfAck i => Some i end.
(** The event name is the first argument. *)
Definition all_args (s : source) (args : list sval) : list sval :=
  match s with OfEvent e _ => SStr e :: args | OfAck _ => args end.
Definition fresh (s : source) (ns : bytes) (bin : bool) : option builder :=
  match s with OfEvent e i => new_event e ns i bin | OfAck i => Some (new_ack ns i bin) end.
(** A new builder, any number of [serialize_arg] calls (failing or not), [finish]; [None]: a panic. *)
Definition build (s : source) (ns : bytes) (bin : bool) (args : list sval) : option (list wsmsg) :=
  match fresh s ns bin with Some b => finish (serialize_args b args) | None => None end.

(** Arguments whose serialisation succeeds, and their JSON values. *)
Definition serialises (v : sval) : bool := match json_of v with Some _ => true | None => false end.
Definition kept (l : list sval) : list sval := filter serialises l.
Definition json_values (l : list sval) : list value :=
  flat_map (fun v => match json_of v with Some x => [x] | None => [] end) l.
(** The first argument of an ack exists and serialises (an event always has its name). *)
Definition starts (s : source) (args : list sval) : Prop :=
  match s with
  | OfEvent _ _ => True
  | OfAck _ => match args with [] => False | v :: _ => serialises v = true end
  end.
(** Conditions on the arguments that serialise: covered by the model, not nested deeper than the
    reader allows. *)
Definition usable (l : list sval) : Prop :=
  Forall (fun v => serialises v = true -> val_ok v /\ nesting v < 128) l.
(** Additionally, in binary mode: no placeholder look-alike and fewer than 2^64 byte strings. *)
Definition usable_binary (l : list sval) : Prop :=
  Forall (fun v => serialises v = true -> no_pkey v) l /\
  (N.of_nat (length (flat_map blobs (kept l))) <= u64_max)%N.
Definition fits (o : option N) : Prop := match o with Some n => (n <= u64_max)%N | None => True end.
Definition ns_ok (ns : bytes) : Prop := (exists r, ns = "/"%byte :: r) /\ no_newline ns.

(** The packet type and the namespace field of the header. *)
Definition out_kind (s : source) (bin : bool) : pkind :=
  match s, bin with
  | OfEvent _ _, false => PKEvent | OfEvent _ _, true => PKBinaryEvent
  | OfAck _, false => PKAck | OfAck _, true => PKBinaryAck
  end.
Definition ns_opt (ns : bytes) : option bytes := if bytes_eqb ns (bs "/") then None else Some ns.

(** [arrives h fs p]: after the websocket history [h] the frames [fs] are decoded into one text
    message and attachments, which parse into the packet [p]. *)
Definition arrives (h fs : list wsmsg) (p : packet) : Prop :=
  exists m l, history_answers (h ++ fs) =
      history_answers h ++ map (fun x => Ok (PktMessage x)) (MText m :: l) /\ received m l p.
(** [carries p k ns id vs]: the packet shows kind [k], namespace [ns], id [id], and its arguments
    read as the JSON values [vs]. *)
Definition carries (p : packet) (k : kind) (ns : bytes) (id : option N) (vs : list value) : Prop :=
  packet_namespace p = Some ns /\
  exists a gs, match k, id with
    | KEvent, i => packet_data p = Some (DataEvent i a)
    | KAck, Some i => packet_data p = Some (DataAck i a)
    | _, _ => False
    end /\ args_iter a = Ok gs /\ map to_json_value gs = map Ok vs.

(** The values that arrive; in binary mode a mixed sequence has gained an element ([sent]). *)
Definition pkt_values (bin : bool) (l : list sval) : list value :=
  if bin then json_values (map sent (kept l)) else json_values l.
(** The first argument of an ack, if there is one, serialises. *)
Definition first_ok (s : source) (args : list sval) : Prop :=
  match s, args with OfAck _, v :: _ => serialises v = true | _, _ => True end.

(** The text of an argument array contains, at or after its start, something that the header
    grammar takes for the end of a longer namespace: a comma, possibly a number, and a bracket. *)
Definition misreadable (a : bytes) : Prop :=
  exists x o y, a = x ++ ","%byte :: opt_text dec o ++ "["%byte :: y.

(** The namespace [ns] goes on after [ns'] with what looks like the id [i] and the start of the
    arguments. *)
Definition cut_short (ns ns' : bytes) (i : N) : Prop :=
  exists y, ns = ns' ++ ","%byte :: dec i ++ "["%byte :: y.

(** Values whose JSON text contains no opening bracket: no sequences or byte strings, no '[' in
    strings and keys. *)
Definition no_bracket (s : bytes) : Prop := ~ In "["%byte s.
Fixpoint plain (v : sval) : Prop :=
  match v with
  | SChar s | SStr s | SUnitVariant s => no_bracket s
  | SBytes _ | SSeq _ | STuple _ | STupleStruct _ | STupleVariant _ _ => False
  | SFloat (Some t) => numlit_ok t
  | SSome x | SNewtypeStruct x => plain x
  | SNewtypeVariant n x => no_bracket n /\ plain x
  | SMap l => allP (fun '(k, x) => plain k /\ plain x) l
  | SStruct l => allP (fun '(k, x) => no_bracket k /\ plain x) l
  | SStructVariant n l => no_bracket n /\ allP (fun '(k, x) => no_bracket k /\ plain x) l
  | _ => True
  end.

(** Full statements of properties that turned out to be false. *)
Definition C09_full : Prop := forall h src ns args fs,
  opened h -> ~ closed h -> ns_ok ns -> fits (src_id src) -> starts src args ->
  usable (all_args src args) ->
  build src ns false args = Some fs ->
  exists p, arrives h fs p /\ carries p (src_kind src) ns (src_id src) (json_values (all_args src args)).
Definition C10_full : Prop := forall h src ns bin args fs p,
  opened h -> ~ closed h -> ns_ok ns -> fits (src_id src) ->
  usable (all_args src args) ->
  build src ns bin args = Some fs -> arrives h fs p ->
  carries p (src_kind src) ns (src_id src) (json_values (all_args src args)).
Definition C14_full : Prop := forall src ns bin before v after b b',
  fresh src ns bin = Some b -> serialize_arg (serialize_args b before) v = (b', Err JsonSerError) ->
  finish (serialize_args b' after) = finish (serialize_args b (before ++ after)).
Definition C15_full : Prop := forall h src args fs,
  opened h -> ~ closed h -> fits (src_id src) -> starts src args ->
  usable (all_args src args) -> usable_binary (all_args src args) ->
  build src (bs "/") true args = Some fs ->
  exists p, arrives h fs p /\ carries p (src_kind src) (bs "/") (src_id src) (json_values (all_args src args)).
