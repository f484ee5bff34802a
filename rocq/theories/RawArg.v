(** Arguments that are [serde_json::value::RawValue]s (a JSON text carried as it is): reading them
    with [Arg::deserialize] and passing them to [PacketBuilder::serialize_arg]. *)
From Verif Require Export DeModel SocketSer.

(** [Deserializer::deserialize_raw_value] (external): skip whitespace, take the text of one value,
    unread.  Also returns what follows. *)
Definition take_raw (s : bytes) : option (bytes * bytes) :=
  let s1 := skip_ws s in
  match scan_value (value_fuel s1) s1 with
  | Some (_, rest) => Some (firstn (length s1 - length rest) s1, rest)
  | None => None
  end.
(** [RawValue::from_string], [serde_json::from_str::<&RawValue>] (external): nothing but whitespace
    may follow. *)
Definition raw_from_str (s : bytes) : option bytes :=
  match take_raw s with
  | Some (t, rest) => match skip_ws rest with [] => Some t | _ => None end
  | None => None
  end.
(** args/mod.rs:75-85 [Arg::deserialize] for [&RawValue] and [Box<RawValue>].  With attachments
    (deserialize_attachments.rs:30-37): [RawValue] asks for a newtype struct with serde_json's
    private name, which is forwarded with the name (line 169); serde_json answers with [visit_map] of
    a map with its private key, which is not [_placeholder] (291-292) and is replayed (425-431); its
    value, the text, is forwarded as a string (179, 234).  Nothing checks the end of the text. *)
Definition arg_raw (g : arg_t) : res aerror bytes :=
  match (match g_attachments g with
         | [] => raw_from_str (g_text g)
         | _ => option_map fst (take_raw (g_text g))
         end) with
  | Some t => Ok t
  | None => Err (AJsonDeError (g_text g))
  end.

(** What is passed to [serialize_arg]: a value of the serde data model, or a [RawValue] that holds
    the text [t].  (A [RawValue] inside another value is not modelled.) *)
Inductive item := IVal (v : sval) | IRaw (t : bytes).
(** ser.rs:95-124 [serialize_arg] for a [RawValue]: serde_json writes its text verbatim.  In binary
    mode its [serialize_struct] with serde_json's private name is forwarded with the name
    (serialize_attachments.rs:166, 322-342) and the text as a wrapped string (190), so nothing is
    attached.  It cannot fail. *)
Definition serialize_raw (b : builder) (t : bytes) : builder :=
  Builder (b_buffer b ++ (if b_first b then ["["%byte] else [","%byte]) ++ t) (b_approach b) false.
Definition serialize_item (b : builder) (i : item) : builder * res ser_error unit :=
  match i with
  | IVal v => serialize_arg b v
  | IRaw t => (serialize_raw b t, Ok tt)
  end.
(** A run of [serialize_arg] calls, as [serialize_args]. *)
Definition serialize_items (b : builder) (l : list item) : builder :=
  fold_left (fun b i => fst (serialize_item b i)) l b.
