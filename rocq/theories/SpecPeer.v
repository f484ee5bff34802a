(** The other side of the connection: what the reference implementation of the protocol (the
    JavaScript packages socket.io-parser 4, protocol revision 5, and engine.io-parser, revisions 3 and
    4) writes and reads.  This is a specification written from those packages' documented behaviour;
    nothing in it comes from the modelled code.  Texts about whose reading it says nothing (white space
    where an id may stand, numbers from 2^53 on, which JavaScript rounds) are mapped to [None]. *)
From Verif Require Export SpecValue.

(** ** Packets *)
Inductive sio_type := SConnect | SDisconnect | SEvent | SAck | SConnectError | SBinaryEvent | SBinaryAck.
Definition sio_digits : list (byte * sio_type) :=
  [("0", SConnect); ("1", SDisconnect); ("2", SEvent); ("3", SAck); ("4", SConnectError);
   ("5", SBinaryEvent); ("6", SBinaryAck)]%byte.
Definition sio_digit (ty : sio_type) : byte :=
  match ty with
  | SConnect => "0" | SDisconnect => "1" | SEvent => "2" | SAck => "3" | SConnectError => "4"
  | SBinaryEvent => "5" | SBinaryAck => "6"
  end.
(** Only binary packets carry a number of attachments. *)
Definition counted (ty : sio_type) : bool := match ty with SBinaryEvent | SBinaryAck => true | _ => false end.
(** Type, number of attachments, namespace, id, text of the payload. *)
Record sio := Sio { o_type : sio_type; o_count : N; o_nsp : bytes; o_id : option N; o_data : option bytes }.
(** [Encoder.encodeAsString]. *)
Definition sio_encode (p : sio) : bytes :=
  sio_digit (o_type p) :: (if counted (o_type p) then dec (o_count p) ++ bs "-" else [])
  ++ (if bytes_eqb (o_nsp p) (bs "/") then [] else o_nsp p ++ bs ",")
  ++ opt_text dec (o_id p) ++ opt_text (fun a => a) (o_data p).

(** ** Reading *)
(** The text up to the first byte with [P], and the rest. *)
Fixpoint upto (P : byte -> bool) (s : bytes) : bytes * bytes :=
  match s with
  | [] => ([], [])
  | c :: s' => if P c then ([], s) else let '(a, b) := upto P s' in (c :: a, b)
  end.
Definition decimal (c : byte) : bool := ((48 <=? bN c) && (bN c <=? 57))%N.
Definition exact_max : N := (2 ^ 53)%N.
Definition js_number (s : bytes) : option N :=
  let n := Z.to_N (magnitude s) in
  match s with [] => None | _ => if forallb decimal s && (n <? exact_max)%N then Some n else None end.
Definition read_type (c : byte) : option sio_type :=
  match find (fun x => Byte.eqb (fst x) c) sio_digits with Some (_, ty) => Some ty | None => None end.
Definition read_count (ty : sio_type) (t : bytes) : option (N * bytes) :=
  if counted ty then
    match upto (Byte.eqb "-") t with
    | (ds, _ :: t') => match js_number ds with Some n => Some (n, t') | None => None end
    | _ => None
    end
  else Some (0%N, t).
(** A namespace begins with a slash and ends before the first comma. *)
Definition read_nsp (t : bytes) : bytes * bytes :=
  match t with
  | c :: _ => if Byte.eqb c "/" then let '(ns, t') := upto (Byte.eqb ",") t in (ns, tl t') else (bs "/", t)
  | [] => (bs "/", t)
  end.
Definition read_id (t : bytes) : option (option N * bytes) :=
  match upto (fun c => negb (decimal c)) t with
  | ([], t') => Some (None, t')
  | (ds, t') => match js_number ds with Some n => Some (Some n, t') | None => None end
  end.
Definition read_data (t : bytes) : option (option bytes) :=
  match t with
  | [] => Some None
  | c :: _ => if ((32 <? bN c) && (bN c <? 128))%N then Some (Some t) else None
  end.
(** [Decoder.decodeString], up to the payload. *)
Definition sio_decode (t : bytes) : option sio :=
  match t with
  | [] => None
  | c :: t1 =>
      match read_type c with None => None | Some ty =>
      match read_count ty t1 with None => None | Some (n, t2) =>
      let '(ns, t3) := read_nsp t2 in
      match read_id t3 with None => None | Some (id, t4) =>
      match read_data t4 with None => None | Some d => Some (Sio ty n ns id d) end end end end
  end.
(** [Decoder.isPayloadValid]: events begin with a number or with a string that is not reserved. *)
Definition reserved : list bytes :=
  [bs "connect"; bs "connect_error"; bs "disconnect"; bs "disconnecting"; bs "newListener"; bs "removeListener"].
Definition event_payload (r : raw) : Prop :=
  match r with
  | RArr (RNum _ :: _) => True
  | RArr (RStr b :: _) => forall e, string_means b e -> ~ In e reserved
  | _ => False
  end.
Definition payload_valid (ty : sio_type) (r : raw) : Prop :=
  match ty with
  | SConnect => exists l, r = RObj l
  | SDisconnect => False
  | SConnectError => (exists b, r = RStr b) \/ exists l, r = RObj l
  | SEvent | SBinaryEvent => event_payload r
  | SAck | SBinaryAck => exists l, r = RArr l
  end.

(** ** Values *)
(** What a JSON text means to the peer; like [means], without the private key of serde_json and
    without a limit on the nesting.  (Numbers are taken exactly; JavaScript rounds them to doubles.) *)
Inductive js_means : raw -> value -> Prop :=
| jm_null : js_means RNull VNull
| jm_bool b : js_means (RBool b) (VBool b)
| jm_num x y : number_means x y -> js_means (RNum x) (VNum y)
| jm_str b s : string_means b s -> js_means (RStr b) (VStr s)
| jm_arr l vs : Forall2 js_means l vs -> js_means (RArr l) (VArr vs)
| jm_obj l ms m : Forall2 (fun a b => string_means (fst a) (fst b) /\ js_means (snd a) (snd b)) l ms ->
    map_of_members ms m -> js_means (RObj l) (VObj m).
(** [BinaryReconstructor]: an object whose [_placeholder] is [true] stands for the attachment [num]
    (here shown as the array of its bytes); anything else with that key is an ordinary object. *)
Inductive rebuilt (bl : list bytes) : value -> value -> Prop :=
| rb_null : rebuilt bl VNull VNull
| rb_bool b : rebuilt bl (VBool b) (VBool b)
| rb_num n : rebuilt bl (VNum n) (VNum n)
| rb_str s : rebuilt bl (VStr s) (VStr s)
| rb_arr l l' : Forall2 (rebuilt bl) l l' -> rebuilt bl (VArr l) (VArr l')
| rb_obj m m' : obj_get key_placeholder m <> Some (VBool true) ->
    Forall2 (fun a b => fst a = fst b /\ rebuilt bl (snd a) (snd b)) m m' -> rebuilt bl (VObj m) (VObj m')
| rb_buffer m k b : obj_get key_placeholder m = Some (VBool true) -> obj_get key_num m = Some (VNum (NPos k)) ->
    nth_error bl (N.to_nat k) = Some b -> rebuilt bl (VObj m) (byte_array b).

(** ** Frames *)
(** The two revisions of the engine.io protocol in use: in the third, binary frames begin with the
    byte 4; in the fourth, they are the attachment itself. *)
Inductive revision := Third | Fourth.
Definition attachment_frame (v : revision) (b : bytes) : wsmsg :=
  match v with Third => WBinary (x04 :: b) | Fourth => WBinary b end.
Definition sio_kind (k : kind) (ty : sio_type) : Prop :=
  match k with
  | KConnect => ty = SConnect | KDisconnect => ty = SDisconnect
  | KEvent => ty = SEvent \/ ty = SBinaryEvent | KAck => ty = SAck \/ ty = SBinaryAck
  end.
(** [peer_gets v fs k ns id vs]: a peer that speaks revision [v] takes the frames [fs] for one packet
    of kind [k] for the namespace [ns] with the id [id] and the arguments [vs]. *)
Definition peer_gets (v : revision) (fs : list wsmsg) (k : kind) (ns : bytes) (id : option N) (vs : list value) : Prop :=
  exists t ty a rs bl xs,
    fs = WText ("4"%byte :: t) :: map (attachment_frame v) bl /\
    sio_decode t = Some (Sio ty (N.of_nat (length bl)) ns id (Some a)) /\ sio_kind k ty /\
    jdoc (RArr rs) a /\ payload_valid ty (RArr rs) /\ Forall2 js_means rs xs /\
    match bl with [] => vs = xs | _ => Forall2 (rebuilt bl) xs vs end.

(** ** What the reference implementation sends *)
(** Namespaces have no commas (and begin with a slash); payloads are printed without newlines;
    binary packets have attachments, and so arguments. *)
Definition nsp_ok (ns : bytes) : Prop := ns_ok ns /\ ~ In ","%byte ns.
Record sends (p : sio) : Prop := Sends {
  sd_nsp : nsp_ok (o_nsp p);
  sd_id : fits (o_id p);
  sd_count : (o_count p <= u64_max)%N;
  sd_none : counted (o_type p) = false -> o_count p = 0%N;
  sd_some : counted (o_type p) = true -> (o_count p > 0)%N;
  sd_newline : forall a, o_data p = Some a -> no_newline a;
  sd_data : match o_type p with
            | SConnect | SConnectError => o_id p = None /\ exists l a, o_data p = Some a /\ jvalue (RObj l) a
            | SDisconnect => o_id p = None /\ o_data p = None
            | SEvent | SBinaryEvent => exists r rs a, o_data p = Some a /\ jvalue (RArr (r :: rs)) a /\ event_payload (RArr (r :: rs))
            | SAck => o_id p <> None /\ exists rs a, o_data p = Some a /\ jvalue (RArr rs) a
            | SBinaryAck => o_id p <> None /\ exists r rs a, o_data p = Some a /\ jvalue (RArr (r :: rs)) a
            end }.
(** The client receives the frames [fs] after the history [h] as a packet of that kind for that
    namespace, with that id, the arguments [ts] (as texts) and the attachments [bl]. *)
Definition client_gets (h fs : list wsmsg) (k : kind) (ns : bytes) (id : option N) (ts bl : list bytes) : Prop :=
  exists p, arrives h fs p /\ view p = Some (PView k ns id ts bl).
Definition sio_args (p : sio) (ts : list bytes) : Prop :=
  match o_type p with
  | SConnect | SDisconnect | SConnectError => ts = []
  | _ => exists a, o_data p = Some a /\ jarray ts a
  end.

(** Packets that answer a request to join a namespace. *)
Definition opens_namespace (ty : sio_type) : Prop := ty = SConnect \/ ty = SConnectError.
(** What the client understands: disconnects, and events and acks that have arguments and, outside
    the default namespace, whose text has no bracket after a comma (and perhaps digits). *)
Definition understood (p : sio) (ts : list bytes) : Prop :=
  match o_type p with
  | SConnect | SConnectError => False
  | SDisconnect => True
  | _ => ts <> [] /\ (o_nsp p = bs "/" \/ forall a, o_data p = Some a -> ~ misreadable a)
  end.

(** ** Conditions on what is sent *)
(** JavaScript reads the id exactly; the event name is not reserved. *)
Definition readable_ids (src : source) : Prop := forall i, src_id src = Some i -> (i < exact_max)%N.
Definition free_name (src : source) : Prop := match src with OfEvent e _ => ~ In e reserved | OfAck _ => True end.
(** The byte strings that travel as attachments. *)
Definition attachments (src : source) (bin : bool) (args : list sval) : list bytes :=
  if bin then flat_map blobs (kept (all_args src args)) else [].

(** ** Full statements of properties that turned out to be false *)
(** The revision the client announces in its request is the fourth (lib.rs:224). *)
Definition C68_full : Prop := forall src ns bin args fs,
  ns_ok ns -> readable_ids src -> starts src args ->
  usable (all_args src args) -> (bin = true -> usable_binary (all_args src args)) ->
  build src ns bin args = Some fs ->
  peer_gets Fourth fs (src_kind src) ns (src_id src) (pkt_values bin (all_args src args)).
Definition C69_full : Prop := forall h p bl ts k,
  opened h -> ~ closed h -> sends p -> o_count p = N.of_nat (length bl) -> sio_args p ts -> sio_kind k (o_type p) ->
  client_gets h (WText ("4"%byte :: sio_encode p) :: map (attachment_frame Fourth) bl) k (o_nsp p) (o_id p) ts bl.
