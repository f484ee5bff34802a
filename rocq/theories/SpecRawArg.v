(** Arguments as texts: observations used in the statements about [RawValue]s. *)
From Verif Require Export RawArg SpecRead.

(** A JSON text without whitespace around it: what a [RawValue] can hold. *)
Definition json_text (t : bytes) : Prop := exists r, jvalue r t.

(** The event name is the first argument. *)
Definition all_items (s : source) (l : list item) : list item :=
  match s with OfEvent e _ => IVal (SStr e) :: l | OfAck _ => l end.
(** A new builder, any number of arguments, [finish]; [None]: a panic. *)
Definition build_items (s : source) (ns : bytes) (bin : bool) (l : list item) : option (list wsmsg) :=
  match fresh s ns bin with Some b => finish (serialize_items b l) | None => None end.
(** The arguments whose serialisation succeeds. *)
Definition succeeds (i : item) : bool := match i with IVal v => serialises v | IRaw _ => true end.
Definition kept_items (l : list item) : list item := filter succeeds l.
Definition item_starts (s : source) (l : list item) : Prop :=
  match s with
  | OfEvent _ _ => True
  | OfAck _ => match l with [] => False | i :: _ => succeeds i = true end
  end.
(** The byte strings in the arguments; none in texts. *)
Definition item_blobs (i : item) : list bytes := match i with IVal v => blobs v | IRaw _ => [] end.
(** As [usable] and [usable_binary]; texts are JSON texts. *)
Definition item_usable (bin : bool) (i : item) : Prop :=
  match i with
  | IVal v => serialises v = true -> val_ok v /\ nesting v < 128 /\ (bin = true -> no_pkey v)
  | IRaw t => json_text t
  end.
Definition items_usable (bin : bool) (l : list item) : Prop :=
  Forall (item_usable bin) l /\
  (bin = true -> (N.of_nat (length (flat_map item_blobs (kept_items l))) <= u64_max)%N).
Definition on_one_line (i : item) : Prop := match i with IVal _ => True | IRaw t => no_newline t end.

(** [item_shown bin i g]: the argument [g] shows the text, or reads as the value. *)
Definition item_shown (bin : bool) (i : item) (g : arg_t) : Prop :=
  match i with
  | IRaw t => g_text g = t /\ arg_raw g = Ok t
  | IVal v => exists x, json_of (if bin then sent v else v) = Some x /\ to_json_value g = Ok x
  end.
(** The packet shows kind, namespace and id, the arguments [gs], and attachments with contents [bl]. *)
Definition presents (p : packet) (k : kind) (ns : bytes) (id : option N) (gs : list arg_t) (bl : list bytes) : Prop :=
  packet_namespace p = Some ns /\
  exists a, match k, id with
    | KEvent, i => packet_data p = Some (DataEvent i a)
    | KAck, Some i => packet_data p = Some (DataAck i a)
    | _, _ => False
    end /\ args_iter a = Ok gs /\ contents (a_attachments a) = Some bl.
Definition built_blobs (bin : bool) (l : list item) : list bytes :=
  if bin then flat_map item_blobs (kept_items l) else [].

(** Every way of reading the one argument gives what it gives for the other. *)
Definition read_alike (g g' : arg_t) : Prop :=
  g_text g' = g_text g /\ to_json_value g' = to_json_value g /\ arg_raw g' = arg_raw g /\
  forall t, arg_deserialize t g' = arg_deserialize t g.
(** The arguments of a packet from [src] after the event's name. *)
Definition after_name (src : source) (gs : list arg_t) : list arg_t := match src with OfEvent _ _ => tl gs | OfAck _ => gs end.
Definition as_texts (gs : list arg_t) : list item := map (fun g => IRaw (g_text g)) gs.
Definition as_bytes (bl : list bytes) : list item := map (fun b => IVal (SBytes b)) bl.

(** ** Full statements of properties that turned out to be false *)
Definition C80_full : Prop := forall h src items fs, opened h -> ~ closed h -> fits (src_id src) ->
  item_starts src items -> items_usable false (all_items src items) ->
  build_items src (bs "/") false items = Some fs -> exists p, arrives h fs p.
Definition C81_full : Prop := forall h src bin m t l p d a gs fs, opened h -> ~ closed h -> fits (src_id src) ->
  items_usable bin (all_items src []) ->
  sub_deref_str m = Some t -> Forall emsg_ok l -> received m l p -> packet_data p = Some d -> data_args d = Some a ->
  args_iter a = Ok gs -> item_starts src (as_texts gs) ->
  build_items src (bs "/") bin (as_texts gs) = Some fs ->
  exists p' gs' bl, arrives h fs p' /\
    presents p' (src_kind src) (bs "/") (src_id src) gs' bl /\ Forall2 read_alike gs (after_name src gs').
