(** The socket.io text protocol, stated independently of the regular expression and the parser:
    texts of a packet header, what they are read as, and what a user sees of a packet. *)
From Verif Require Export SpecJson Args.

(** ** Headers *)
(** The digit of each packet type. *)
Definition type_digit (k : pkind) : byte :=
  match k with
  | PKConnect => "0" | PKDisconnect => "1" | PKEvent => "2" | PKAck => "3"
  | PKBinaryEvent => "5" | PKBinaryAck => "6"
  end.
(** type, attachment count, namespace, id, text of the argument array *)
Record wire := Wire {
  w_kind : pkind; w_count : option N; w_ns : option bytes; w_id : option N; w_args : option bytes }.
Definition opt_text {A} (f : A -> bytes) (o : option A) : bytes :=
  match o with Some x => f x | None => [] end.
Definition wire_text (w : wire) : bytes :=
  type_digit (w_kind w) :: opt_text (fun n => dec n ++ bs "-") (w_count w)
  ++ opt_text (fun x => x ++ bs ",") (w_ns w) ++ opt_text dec (w_id w)
  ++ opt_text (fun a => a) (w_args w).
Definition no_newline (s : bytes) : Prop := ~ In x0a s.
(** A namespace is '/' and at least one more byte; arguments are enclosed in brackets; neither
    contains a newline. *)
Definition wire_ok (w : wire) : Prop :=
  (forall x, w_ns w = Some x -> (exists c r, x = "/"%byte :: c :: r) /\ no_newline x) /\
  (forall a, w_args w = Some a -> (exists b, a = "["%byte :: b ++ ["]"%byte]) /\ no_newline a).
Definition ns_length (w : wire) : nat := length (opt_text (fun x => x) (w_ns w)).
(** [t] is read as [w]: of all ways to cut [t] into header fields, the one with the longest
    namespace. *)
Definition reads_as (t : bytes) (w : wire) : Prop :=
  t = wire_text w /\ wire_ok w /\
  forall w', t = wire_text w' -> wire_ok w' -> ns_length w' <= ns_length w.

(** Numbers that do not fit [u64]. *)
Definition too_big (o : option N) : Prop := exists n, o = Some n /\ (n > u64_max)%N.

(** The elements of the argument array, verbatim; no array means no arguments. *)
Definition elements (o : option bytes) (ts : list bytes) : Prop :=
  match o with Some a => jarray ts a | None => ts = [] end.

(** ** Packets as seen by a user *)
(** Kind, namespace, id, verbatim JSON text of each argument, content of each attachment. *)
Record pview := PView {
  v_kind : kind; v_ns : bytes; v_id : option N; v_args : list bytes; v_atts : list bytes }.
Fixpoint all_some {A} (l : list (option A)) : option (list A) :=
  match l with
  | [] => Some []
  | Some x :: l' => option_map (cons x) (all_some l')
  | None :: _ => None
  end.
Definition args_view (a : args_t) : option (list bytes * list bytes) :=
  match args_iter a, all_some (map sub_deref_vec (a_attachments a)) with
  | Ok l, Some atts => Some (map g_text l, atts)
  | _, _ => None
  end.
(** Through [namespace()], [data()], [Args::iter], [Deref] of the attachments; [None] if any of
    them panics. *)
Definition view (p : packet) : option pview :=
  match packet_namespace p, packet_data p with
  | Some ns, Some DataConnect => Some (PView KConnect ns None [] [])
  | Some ns, Some DataDisconnect => Some (PView KDisconnect ns None [] [])
  | Some ns, Some (DataEvent id a) =>
      match args_view a with Some (ts, atts) => Some (PView KEvent ns id ts atts) | None => None end
  | Some ns, Some (DataAck id a) =>
      match args_view a with Some (ts, atts) => Some (PView KAck ns (Some id) ts atts) | None => None end
  | _, _ => None
  end.

(** [accepts t k ns id ts n]: the text [t] is a packet of kind [k] for namespace [ns] with id [id]
    and arguments [ts], and announces [n] attachments still to come. *)
Definition accepts (t : bytes) (k : kind) (ns : bytes) (id : option N) (ts : list bytes) (n : N) : Prop :=
  exists w, reads_as t w /\ ~ too_big (w_count w) /\ ~ too_big (w_id w) /\ elements (w_args w) ts /\
    ns = match w_ns w with Some x => x | None => bs "/" end /\ id = w_id w /\
    match w_kind w with
    | PKConnect => k = KConnect /\ w_count w = None /\ w_id w = None /\ ts = [] /\ n = 0%N
    | PKDisconnect => k = KDisconnect /\ w_count w = None /\ w_id w = None /\ ts = [] /\ n = 0%N
    | PKEvent => k = KEvent /\ ts <> [] /\ (w_count w = None \/ w_count w = Some 0%N) /\ n = 0%N
    | PKAck => k = KAck /\ ts <> [] /\ id <> None /\ (w_count w = None \/ w_count w = Some 0%N) /\ n = 0%N
    | PKBinaryEvent => k = KEvent /\ w_count w = Some n /\ (n = 0%N -> ts <> [])
    | PKBinaryAck => k = KAck /\ w_count w = Some n /\ (n = 0%N -> ts <> [] /\ id <> None)
    end.
(** What completing a packet additionally requires. *)
Definition complete_ok (k : kind) (id : option N) (ts : list bytes) : Prop :=
  ts <> [] /\ (k = KAck -> id <> None).

Definition binary_content (m : emsg) : option bytes :=
  match m with MBinary d => sub_deref_vec d | MText _ => None end.

(** Engine messages whose content can be read; the decoder only produces such. *)
Definition emsg_ok (m : emsg) : Prop :=
  match m with MText s => sub_deref_str s <> None | MBinary d => sub_deref_vec d <> None end.
(** [p] is the packet obtained from the text message [m] and the attachments [l]. *)
Definition received (m : subslice_t) (l : list emsg) (p : packet) : Prop :=
  (deserialize (MText m) = Ok (DPacket p) /\ l = []) \/
  (exists q, deserialize (MText m) = Ok (DDataNeeded q) /\ deserialize_partial q l = Ok p).
(** The arguments a user gets from [data()]. *)
Definition data_args (d : data_t) : option args_t :=
  match d with DataEvent _ a | DataAck _ a => Some a | _ => None end.

(** C16 in full. *)
Definition C16_full : Prop := forall m, emsg_ok m -> deserialize m <> Panic.

(** Sample used in the non-vacuity examples. *)
Definition sample_binary : bytes := bs "62-/ns,12[{""_placeholder"":true,""num"":0}, ""x""]".
