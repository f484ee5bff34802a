(** Model of socket-io-protocol/src/socket/ser.rs and the serialising half of
    socket/args/mod.rs:123-133. *)
From Verif Require Export SocketDe SerModel.

(** ser.rs:19-27 [enum Approach] *)
Inductive approach :=
| ANormal
| ABinary (k : pkind) (namespace : bytes) (id : option N) (attachments : list wsmsg).
(** ser.rs:13-17 [struct PacketBuilder] *)
Record builder := Builder { b_buffer : bytes; b_approach : approach; b_first : bool }.
(** ser.rs:29-32 [enum Kind] *)
Inductive skind := SKEvent | SKAck.

(** ser.rs:166-173 *)
Definition kind_char (k : pkind) : byte :=
  match k with
  | PKConnect => "0" | PKDisconnect => "1" | PKEvent => "2"
  | PKAck => "3" | PKBinaryEvent => "5" | PKBinaryAck => "6"
  end.
(** ser.rs:159-185 [serialize_header] *)
Definition serialize_header (k : pkind) (attachments : option N) (namespace : bytes)
  (id : option N) : bytes :=
  MESSAGE_HEADER :: kind_char k ::
  match attachments with Some n => dec n ++ ["-"%byte] | None => [] end
  ++ (if bytes_eqb namespace (bs "/") then [] else namespace ++ [","%byte])
  ++ match id with Some n => dec n | None => [] end.

(** socket/args/mod.rs:31-41 [enum Error], serialising part: only [JsonSerError]. *)
Inductive ser_error := JsonSerError.

(** ser.rs:95-124 [serialize_arg], with args/mod.rs:123-133 inlined. *)
Definition serialize_arg (b : builder) (arg : sval) : builder * res ser_error unit :=
  let start_pos := length (b_buffer b) in
  let buf0 := b_buffer b ++ (if b_first b then ["["%byte] else [","%byte]) in
  (* [self.first = false] is executed before the result is known (line 104) *)
  match b_approach b with
  | ANormal =>
      match json_ser arg buf0 with
      | (buf, OOk) => (Builder buf ANormal false, Ok tt)
      | (buf, OErr) => (Builder (firstn start_pos buf) ANormal false, Err JsonSerError)
      | (buf, OPanic) => (Builder buf ANormal false, Panic)
      end
  | ABinary k ns id atts =>
      let attachment_start := length atts in
      match wrap_ser arg (buf0, atts) with
      | ((buf, atts'), OOk) => (Builder buf (ABinary k ns id atts') false, Ok tt)
      | ((buf, atts'), OErr) =>
          (Builder (firstn start_pos buf) (ABinary k ns id (firstn attachment_start atts')) false,
           Err JsonSerError)
      | ((buf, atts'), OPanic) => (Builder buf (ABinary k ns id atts') false, Panic)
      end
  end.

(** ser.rs:52-90 [PacketBuilder::new] *)
Definition builder_new (namespace : bytes) (id : option N) (binary : bool) (k : skind) : builder :=
  let pk := match binary, k with
            | false, SKEvent => PKEvent
            | false, SKAck => PKAck
            | true, SKEvent => PKBinaryEvent
            | true, SKAck => PKBinaryAck
            end in
  if negb binary then Builder (serialize_header pk None namespace id) ANormal true
  else Builder [] (ABinary pk namespace id []) true.

(** ser.rs:35-46 [new_event]; [None] is the panic of [expect]. *)
Definition new_event (event namespace : bytes) (id : option N) (binary : bool) : option builder :=
  match serialize_arg (builder_new namespace id binary SKEvent) (SStr event) with
  | (b, Ok _) => Some b
  | _ => None
  end.
(** ser.rs:48-50 [new_ack] *)
Definition new_ack (namespace : bytes) (id : N) (binary : bool) : builder :=
  builder_new namespace (Some id) binary SKAck.

(** ser.rs:126-148 [finish]; [None] is the panic of [package_message]. *)
Definition finish (b : builder) : option (list wsmsg) :=
  let s := b_buffer b ++ (if b_first b then [] else ["]"%byte]) in
  match b_approach b with
  | ANormal =>
      match package_message s with Some m => Some [m] | None => None end
  | ABinary k ns id atts =>
      let header := serialize_header k (Some (N.of_nat (length atts))) ns id ++ s in
      match package_message header with Some m => Some (m :: atts) | None => None end
  end.

(** ser.rs:151-157 [serialize_connect], [serialize_disconnect]: an *engine message*, although the
    header already contains the engine prefix. *)
Definition serialize_connect (namespace : bytes) : emsg :=
  MText (sub_from (serialize_header PKConnect None namespace None)).
Definition serialize_disconnect (namespace : bytes) : emsg :=
  MText (sub_from (serialize_header PKDisconnect None namespace None)).

(** A run of [serialize_arg] calls, ignoring their results (as [arg_ref] callers may). *)
Definition serialize_args (b : builder) (l : list sval) : builder :=
  fold_left (fun b v => fst (serialize_arg b v)) l b.
