(** Model of socket-io-protocol/src/engine.rs. *)
From Verif Require Export Json Subslice.

(** [tungstenite::Message] (external): the websocket messages.  The close frame is abstracted
    to an optional byte string. *)
Inductive wsmsg :=
| WText (s : bytes)
| WBinary (d : bytes)
| WPing (d : bytes)
| WPong (d : bytes)
| WClose (frame : option bytes).

(** engine.rs:7-8 *)
Definition MESSAGE_HEADER : byte := "4"%byte.
Definition BINARY_HEADER : byte := x04.

(** engine.rs:19-25 [struct Open] *)
Record open_t := Open { o_sid : bytes; o_timeout : N; o_interval : N }.

(** engine.rs:27-31 [enum Message] *)
Inductive emsg :=
| MText (s : subslice_t)
| MBinary (d : subslice_t).

(** engine.rs:10-17 [enum Packet] *)
Inductive epacket :=
| PktOpen (o : open_t)
| PktClose
| PktPing
| PktPong
| PktMessage (m : emsg).

(** engine.rs:33-47 [enum Error]; [JsonError] is abstracted. *)
Inductive eerror :=
| EInvalidMessage (m : wsmsg)
| EWrongMessageType (m : wsmsg)
| EMessageBeforeOpen
| EMessageAfterClose
| ESecondOpen
| EJsonError.

(** engine.rs:49-59 [State], [Decoder] *)
Inductive dstate := DInitial | DActive | DClosed.

(** engine.rs:61-73 [Decoder::new] *)
Definition decoder_new : dstate := DInitial.

(** A [u64] field of a derived [Deserialize]: only non-negative integer literals. *)
Definition u64_of_raw (r : raw) : option N :=
  match r with
  | RNum n => match num_of n with Some (NPos x) => Some x | _ => None end
  | _ => None
  end.
(** A [String] field. *)
Definition string_of_raw (r : raw) : option bytes :=
  match r with RStr b => unescape b | _ => None end.

(** Fields of the derived map visitor of [Open]: each at most once, unknown keys ignored
    (their values are only scanned laxly). *)
Record open_acc := OpenAcc { oa_sid : option bytes; oa_timeout : option N; oa_interval : option N }.
Fixpoint open_fields (l : list (bytes * raw)) (a : open_acc) : option open_acc :=
  match l with
  | [] => Some a
  | (k, v) :: l' =>
      match unescape k with
      | None => None
      | Some k' =>
          if bytes_eqb k' (bs "sid") then
            match oa_sid a, string_of_raw v with
            | None, Some s => open_fields l' (OpenAcc (Some s) (oa_timeout a) (oa_interval a))
            | _, _ => None
            end
          else if bytes_eqb k' (bs "pingTimeout") then
            match oa_timeout a, u64_of_raw v with
            | None, Some n => open_fields l' (OpenAcc (oa_sid a) (Some n) (oa_interval a))
            | _, _ => None
            end
          else if bytes_eqb k' (bs "pingInterval") then
            match oa_interval a, u64_of_raw v with
            | None, Some n => open_fields l' (OpenAcc (oa_sid a) (oa_timeout a) (Some n))
            | _, _ => None
            end
          else open_fields l' a
      end
  end.
(** engine.rs:148-150 [parse_open]: [serde_json::from_str::<Open>]; the derived visitor accepts an
    object or an array of exactly the three fields in declaration order. *)
Definition parse_open (text : bytes) : option open_t :=
  match scan_doc text with
  | Some (RObj l) =>
      match open_fields l (OpenAcc None None None) with
      | Some (OpenAcc (Some s) (Some t) (Some i)) => Some (Open s t i)
      | _ => None
      end
  | Some (RArr [a; b; c]) =>
      match string_of_raw a, u64_of_raw b, u64_of_raw c with
      | Some s, Some t, Some i => Some (Open s t i)
      | _, _, _ => None
      end
  | _ => None
  end.

(** engine.rs:86-130 [decode_text].  Returns the new state and the result.  [&text[1..]] in the
    '0' branch cannot panic: byte 0 is ASCII and [text] is valid UTF-8, so it is [tl]. *)
Definition decode_text (st : dstate) (text : bytes) : dstate * res eerror epacket :=
  match text with
  | [] => (st, Err (EInvalidMessage (WText text)))
  | typ :: rest =>
      if typ =b "0" then
        match st with
        | DInitial =>
            match parse_open rest with
            | Some o => (DActive, Ok (PktOpen o))
            | None => (st, Err EJsonError)
            end
        | _ => (st, Err ESecondOpen)
        end
      else if typ =b "1" then
        match st with
        | DInitial => (st, Err EMessageBeforeOpen)
        | _ => (DClosed, Ok PktClose)
        end
      else if typ =b "2" then
        match st with
        | DInitial => (st, Err EMessageBeforeOpen)
        | _ => (st, Ok PktPing)
        end
      else if typ =b "3" then
        match st with
        | DInitial => (st, Err EMessageBeforeOpen)
        | _ => (st, Ok PktPong)
        end
      else if typ =b "4" then
        (st, Ok (PktMessage (MText (sub_new text (1, length text)))))
      else (st, Err (EInvalidMessage (WText text)))
  end.

(** engine.rs:132-145 [decode_binary]. *)
Definition decode_binary (st : dstate) (data : bytes) : dstate * res eerror epacket :=
  match st with
  | DInitial => (st, Err EMessageBeforeOpen)
  | _ =>
      match data with
      | [] => (st, Err (EInvalidMessage (WBinary data)))
      | h :: _ =>
          if negb (h =b x04) then (st, Err (EInvalidMessage (WBinary data)))
          else (st, Ok (PktMessage (MBinary (sub_new data (1, length data)))))
      end
  end.

(** engine.rs:74-84 [Decoder::decode]. *)
Definition decode (st : dstate) (msg : wsmsg) : dstate * res eerror epacket :=
  match st with
  | DClosed => (st, Err EMessageAfterClose)
  | _ =>
      match msg with
      | WPing _ | WPong _ | WClose _ => (st, Err (EWrongMessageType msg))
      | WText text => decode_text st text
      | WBinary data => decode_binary st data
      end
  end.

(** engine.rs:159-167 [package_message]: asserts the first byte; [None] is a panic. *)
Definition package_message (text : bytes) : option wsmsg :=
  match text with
  | c :: _ => if c =b MESSAGE_HEADER then Some (WText text) else None
  | [] => None
  end.
(** engine.rs:187-195 [package_binary]. *)
Definition package_binary (data : bytes) : option wsmsg :=
  match data with
  | c :: _ => if c =b BINARY_HEADER then Some (WBinary data) else None
  | [] => None
  end.
(** engine.rs:153-155 [encode_message]. *)
Definition encode_message (text : bytes) : option wsmsg := package_message (MESSAGE_HEADER :: text).
(** engine.rs:170-175 [encode_binary]. *)
Definition encode_binary (data : bytes) : option wsmsg := package_binary (x04 :: data).
(** engine.rs:177-183 [encode_ping], [encode_pong]. *)
Definition encode_ping : wsmsg := WText (bs "2").
Definition encode_pong : wsmsg := WText (bs "3").
