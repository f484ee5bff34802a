(** Model of the texts of errors: the [#[error(...)]] attributes of engine.rs, socket/mod.rs,
    args/mod.rs, receiver.rs and lib.rs ([Display], by thiserror), and the [Debug] output they
    contain. *)
From Verif Require Export System.

(** What is left open of the standard library, tungstenite and serde_json: which characters beyond
    ASCII [Debug for str] escapes, and the texts of a JSON error ([Debug] and [Display]), of a JSON value
    and of a close frame ([Debug]). *)
Record formats := Formats {
  fm_escaped : bytes -> bool;
  fm_json_debug : bytes;
  fm_json : bytes;
  fm_value : value -> bytes;
  fm_close : option bytes -> bytes
}.

(** Lower case hexadecimal digits without leading zeros ([{:x}]). *)
Fixpoint hex_fuel (k : nat) (n : N) (acc : bytes) : bytes :=
  match k with
  | O => acc
  | S k' => let acc' := hex_lower (n mod 16) :: acc in if (n / 16 =? 0)%N then acc' else hex_fuel k' (n / 16) acc'
  end.
Definition hex (n : N) : bytes := hex_fuel 8 n [].
Definition unicode_escape (n : N) : bytes := bs "\u{" ++ hex n ++ bs "}".
(** [char::escape_debug_ext] for ASCII, as [Debug for str] uses it (single quotes stay). *)
Definition debug_ascii (c : byte) : bytes :=
  if c =b x00 then bs "\0"
  else if c =b x09 then bs "\t"
  else if c =b x0a then bs "\n"
  else if c =b x0d then bs "\r"
  else if c =b quote then [backslash; quote]
  else if c =b backslash then [backslash; backslash]
  else if (bN c <? 32)%N || (bN c =? 127)%N then unicode_escape (bN c)
  else [c].
(** The number of bytes of a character and its code point, from UTF-8. *)
Definition char_width (c : byte) : nat :=
  if (bN c <? 128)%N then 1 else if (bN c <? 224)%N then 2 else if (bN c <? 240)%N then 3 else 4.
Definition lead_bits (c : byte) : N :=
  if (bN c <? 224)%N then (bN c mod 32)%N else if (bN c <? 240)%N then (bN c mod 16)%N else (bN c mod 8)%N.
Definition code_point (s : bytes) : N :=
  match s with
  | [] => 0%N
  | c :: r => fold_left (fun n d => (n * 64 + bN d mod 64)%N) r (lead_bits c)
  end.
(** [Debug for str]; the fuel is the number of bytes. *)
Fixpoint debug_chars (fm : formats) (k : nat) (s : bytes) : bytes :=
  match k, s with
  | S k', c :: r =>
      if (bN c <? 128)%N then debug_ascii c ++ debug_chars fm k' r
      else
        let ch := firstn (char_width c) s in
        (if fm_escaped fm ch then unicode_escape (code_point ch) else ch) ++ debug_chars fm k' (skipn (char_width c) s)
  | _, _ => []
  end.
Definition debug_str (fm : formats) (s : bytes) : bytes := quote :: debug_chars fm (length s) s ++ [quote].
(** [Debug] of a list. *)
Fixpoint debug_elems {A} (f : A -> bytes) (first : bool) (l : list A) : bytes :=
  match l with [] => [] | x :: l' => (if first then [] else bs ", ") ++ f x ++ debug_elems f false l' end.
Definition debug_list {A} (f : A -> bytes) (l : list A) : bytes := bs "[" ++ debug_elems f true l ++ bs "]".
Definition debug_bytes (d : bytes) : bytes := debug_list (fun c => dec (bN c)) d.
Definition debug_option {A} (f : A -> bytes) (o : option A) : bytes :=
  match o with Some x => bs "Some(" ++ f x ++ bs ")" | None => bs "None" end.
Definition debug_range (r : range) : bytes := dec (N.of_nat (fst r)) ++ bs ".." ++ dec (N.of_nat (snd r)).
(** tungstenite's [Message] *)
Definition debug_wsmsg (fm : formats) (m : wsmsg) : bytes :=
  match m with
  | WText t => bs "Text(" ++ debug_str fm t ++ bs ")"
  | WBinary d => bs "Binary(" ++ debug_bytes d ++ bs ")"
  | WPing d => bs "Ping(" ++ debug_bytes d ++ bs ")"
  | WPong d => bs "Pong(" ++ debug_bytes d ++ bs ")"
  | WClose f => bs "Close(" ++ fm_close fm f ++ bs ")"
  end.
(** socket/mod.rs:17-42 [#[derive(Debug)]] of [Packet] and [Kind]; slices are shown through
    owned_subslice lib.rs:75-83 ([Debug for OwnedSubslice]); [None] is a panic. *)
Definition debug_kind (k : kind) : bytes :=
  match k with KConnect => bs "Connect" | KDisconnect => bs "Disconnect" | KEvent => bs "Event" | KAck => bs "Ack" end.
Fixpoint all_slices (l : list subslice_t) : option (list bytes) :=
  match l with
  | [] => Some []
  | x :: l' => match sub_deref_vec x, all_slices l' with Some d, Some r => Some (d :: r) | _, _ => None end
  end.
Definition debug_packet (fm : formats) (p : packet) : option bytes :=
  match sub_deref_str (p_message p), all_slices (p_attachments p) with
  | Some t, Some atts =>
      Some (bs "Packet { message: " ++ debug_str fm t ++ bs ", kind: " ++ debug_kind (p_kind p) ++
            bs ", namespace: " ++ debug_option debug_range (p_namespace p) ++
            bs ", id: " ++ debug_option dec (p_id p) ++
            bs ", args: " ++ debug_list debug_range (p_args p) ++
            bs ", attachments: " ++ debug_list debug_bytes atts ++ bs " }")
  | _, _ => None
  end.

(** engine.rs:33-47 *)
Definition engine_error_text (fm : formats) (e : eerror) : bytes :=
  match e with
  | EInvalidMessage m => bs "Failed to parse websocket message: " ++ debug_wsmsg fm m
  | EWrongMessageType m => bs "Received non-Text, non-Binary websocket message: " ++ debug_wsmsg fm m
  | EMessageBeforeOpen => bs "Received message before open"
  | EMessageAfterClose => bs "Received message after close"
  | ESecondOpen => bs "Received second open"
  | EJsonError => bs "Failed to parse json in message: " ++ fm_json_debug fm
  end.
(** socket/mod.rs:44-60 *)
Definition socket_error_text (fm : formats) (e : serror) : bytes :=
  match e with
  | SNonAttachmentBinary d => bs "Received non-attachment binary message: " ++ debug_bytes d
  | STextAttachment s => bs "Received text message as attachment: " ++ s
  | SInvalidMessage s => bs "Invalid message: " ++ s
  | SInvalidExtraData name s => bs "Invalid extra data included in " ++ name ++ bs " packet: " ++ s
  | SMissingData name s => bs "Missing data in " ++ name ++ bs " packet: " ++ s
  | SInvalidDataJson s => bs "Invalid json in message data: " ++ s ++ bs ", " ++ fm_json_debug fm
  | SInvalidAttachmentCount got want => bs "Wrong number of attachments provided: " ++ dec got ++ bs " instead of " ++ dec want
  end.
(** args/mod.rs:31-41 ([JsonSerError] does not occur in a receiver) *)
Definition args_error_text (fm : formats) (e : aerror) : bytes :=
  match e with
  | ANoNumInPlaceholderObject v => bs "Placeholder object is missing num field: " ++ fm_value fm v
  | APlaceholderIndexOutOfRange i n => bs "Placeholder index out of range: " ++ dec i ++ bs "/" ++ dec n
  | AJsonDeError t => bs "Error deserializing json: " ++ t ++ bs ", " ++ fm_json fm
  end.
(** receiver.rs:18-30; [None] is a panic. *)
Definition receiver_error_text (fm : formats) (e : rerror) : option bytes :=
  match e with
  | REngine e => Some (bs "Error deserializing engine.io protocol: " ++ engine_error_text fm e)
  | RSocket e => Some (bs "Error deserializing socket.io protocol: " ++ socket_error_text fm e)
  | RArgs e => Some (bs "Error deserializing argument: " ++ args_error_text fm e)
  | REventNoArgs p => option_map (fun t => bs "Event packet with no arguments: " ++ t) (debug_packet fm p)
  | RUnexpectedAck p => option_map (fun t => bs "Unexpected ack received: " ++ t) (debug_packet fm p)
  end.
(** lib.rs:47-48 [Error::ProcessingError], as close() returns it. *)
Definition error_text (fm : formats) (e : rerror) : option bytes :=
  option_map (fun t => bs "Error processing packet: " ++ t) (receiver_error_text fm e).
