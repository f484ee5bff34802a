(** Model of a connection whose two directions hold a limited number of bytes (the buffers of the
    sockets and of the network between): connection.rs:127-162, where the task awaits
    [sink.send(msg)] (line 152) within the branch of [select!] and so does not read meanwhile.

    One client of System.v and one server.  A frame is written when all its bytes have entered the
    pipe ([SinkExt::send] flushes); the client takes bytes out of the other pipe only while it waits
    for the next message (connection.rs:129, 170).  The server writes one frame after another; it may
    read at any time or only while it is not writing.

    Not modelled: TLS records, the bytes of the handshake, and the frames that tungstenite sends by
    itself (answers to websocket pings and to a close frame). *)
From Verif Require Export System.

(** Sizes of frames on the wire (RFC 6455, 5.2): two bytes, the extended length, the mask of a client,
    the payload. *)
Definition payload (m : wsmsg) : bytes :=
  match m with WText t => t | WBinary d => d | WPing d => d | WPong d => d | WClose None => [] | WClose (Some d) => d end.
Definition frame_bytes (masked : bool) (m : wsmsg) : N :=
  let n := N.of_nat (length (payload m)) in
  (2 + (if n <? 126 then 0 else if n <? 65536 then 2 else 8) + (if masked then 4 else 0) + n)%N.

(** How many bytes each direction holds; whether the server reads while it is writing. *)
Record pipes := Pipes { cap_up : N; cap_down : N; reads_while_writing : bool }.

Record net := Net {
  n_client : state;
  n_part : N;                       (* bytes of the frame being written that have entered the pipe *)
  n_up : N;                         (* bytes on the way to the server *)
  n_server : option (wsmsg * N);    (* the frame the server is writing; how much of it has entered the pipe *)
  n_down : N;                       (* bytes on the way to the client *)
  n_got : N;                        (* bytes taken out of the pipe, of frames not read yet *)
  n_frames : list wsmsg             (* frames the server has begun to write and the client has not read *)
}.
Definition net_init : net := Net init 0 0 None 0 0 [].

Inductive nlabel :=
| NClient (l : label)               (* a step of the client other than reading *)
| NRead                             (* the client reads the next message *)
| NPut (k : N)                      (* [k] bytes of the client's frame enter the pipe *)
| NFetch (k : N)                    (* the client takes [k] bytes out of the pipe *)
| NTake (k : N)                     (* the server does *)
| NBegin (m : wsmsg)                (* the server begins to write a frame *)
| NServe (k : N)                    (* [k] bytes of it enter the pipe *)
| NDone.                            (* it is written *)

(** The size of the frame that the client is writing: connection.rs:152, 167 ([close(None)]). *)
Definition outgoing (s : state) : option N :=
  match s_phase s with
  | PSending (m :: _) => Some (frame_bytes true m)
  | PClosing => Some (frame_bytes true (WClose None))
  | _ => None
  end.
(** The client waits for a message: connection.rs:129, 170. *)
Definition listening (s : state) : bool := match s_phase s with PLoop | PReading => true | _ => false end.
(** A frame is written when all of it is in the pipe. *)
Definition complete (n : net) : bool :=
  match outgoing (n_client n) with Some size => (n_part n =? size)%N | None => false end.
Definition client_may (n : net) (l : label) : bool :=
  match l with LRead _ => false | LWrite | LCloseFrame true => complete n | _ => true end.
(** A new frame begins. *)
Definition part_after (l : label) (part : N) : N := match l with LWrite | LCloseFrame _ => 0%N | _ => part end.

Definition nstep (cfg : pipes) (log_info : bool) (n : net) (l : nlabel) : option (net * list obs) :=
  let '(Net c part up srv down got frames) := n in
  match l with
  | NClient l =>
      if client_may n l then
        match step log_info c l with
        | Some (c', o) => Some (Net c' (part_after l part) up srv down got frames, o)
        | None => None
        end
      else None
  | NRead =>
      match frames with
      | m :: frames' =>
          if (frame_bytes false m <=? got)%N then
            match step log_info c (LRead m) with
            | Some (c', o) => Some (Net c' part up srv down (got - frame_bytes false m) frames', o)
            | None => None
            end
          else None
      | [] => None
      end
  | NPut k =>
      match outgoing c with
      | Some size =>
          if ((0 <? k) && (part + k <=? size) && (up + k <=? cap_up cfg))%N%bool
          then Some (Net c (part + k) (up + k) srv down got frames, []) else None
      | None => None
      end
  | NFetch k =>
      if ((0 <? k) && (k <=? down))%N%bool && listening c
      then Some (Net c part up srv (down - k) (got + k) frames, []) else None
  | NTake k =>
      if ((0 <? k) && (k <=? up))%N%bool && (reads_while_writing cfg || match srv with None => true | Some _ => false end)
      then Some (Net c part (up - k) srv down got frames, []) else None
  | NBegin m =>
      match srv with
      | None => Some (Net c part up (Some (m, 0%N)) down got (frames ++ [m]), [])
      | Some _ => None
      end
  | NServe k =>
      match srv with
      | Some (m, done) =>
          if ((0 <? k) && (done + k <=? frame_bytes false m) && (down + k <=? cap_down cfg))%N%bool
          then Some (Net c part up (Some (m, done + k)%N) (down + k) got frames, []) else None
      | None => None
      end
  | NDone =>
      match srv with
      | Some (m, done) =>
          if (done =? frame_bytes false m)%N then Some (Net c part up None down got frames, []) else None
      | None => None
      end
  end.

Fixpoint nexecute (cfg : pipes) (log_info : bool) (n : net) (ls : list nlabel) : option (net * list obs) :=
  match ls with
  | [] => Some (n, [])
  | l :: ls' =>
      match nstep cfg log_info n l with
      | Some (n1, o1) =>
          match nexecute cfg log_info n1 ls' with
          | Some (n2, o2) => Some (n2, o1 ++ o2)
          | None => None
          end
      | None => None
      end
  end.
