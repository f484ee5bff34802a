(** Model of socket-io-client/src/connection.rs, of [Client] (lib.rs) and of sending (emit.rs): a
    labelled transition system of the connecting future, the connection task, any number of user
    threads, and the callbacks.

    Every ready branch of a [select!] may be taken; the other side of the websocket, the executor
    and the timers may do anything.  What a user callback does is arbitrary: while it runs, any of
    the labels for callbacks may occur.  Steps of user threads are finer than the code needs (a
    [send] is split at the release of the mutex) and may interleave arbitrarily.

    Modelled from outside: [futures] mpsc and oneshot channels, [RemoteHandle] (dropping it cancels
    the task at its next poll; awaiting it returns the result or resumes the panic), [std] mutexes
    (not reentrant, poisoned by a panic). *)
From Verif Require Export Receiver Utf8.

(** How the connection task ends: connection.rs:137, 173 | 142, 171 | 143, 155, 172 | a panic |
    dropped because its [RemoteHandle] was | dropped by the executor (when it shuts down). *)
Inductive ending := EndOk | EndErr (e : rerror) | EndWs | EndPanic | EndCancelled | EndAborted.

(** Where the connection task (connection.rs:124-176) is. *)
Inductive phase :=
| PUnborn                                  (* not spawned yet *)
| PLoop                                    (* waiting in the select, lines 128-162 *)
| PSending (rest : list wsmsg)             (* in the loop of lines 151-157 *)
| PClosing                                 (* line 167 *)
| PReading                                 (* lines 169-175 *)
| PCalling (closing : bool) (c : call)     (* a callback runs; the table is locked *)
| PStuck                                   (* the callback waits for the table, which the task holds *)
| PEnded (e : ending).

(** Where connecting (connection.rs:32-85) is; what it returned. *)
Inductive conn_error := CWebsocket | CHandshakeTimeout | CSpawn | COpenTimeout.
Inductive conn :=
| CHandshake                               (* lines 52-55 *)
| COpening                                 (* lines 72-75 *)
| CConnected (sid : bytes)
| CFailed (e : conn_error)
| CPanicked                                (* [open.unwrap()], line 73 *)
| CAbandoned.                              (* the user dropped the future *)

(** The [handle] and [close] fields of [Connection] (always both present or both absent). *)
Inductive handle_t :=
| HHeld
| HClosing                                 (* taken by a running [close()] *)
| HGone.                                   (* dropped *)

(** A [send()] with an ack request under way in some thread, and whether the ack callback has been
    registered already. *)
Record inflight := Inflight {
  f_ns : bytes; f_id : N; f_cb : cb; f_registered : bool; f_packet : list wsmsg }.

Record state := State {
  s_conn : conn;
  s_open : option open_t;          (* content of the oneshot for Open *)
  s_phase : phase;
  s_receiver : receiver;
  s_table : callbacks;
  s_poisoned : bool;               (* the mutex of the table *)
  s_chan : list (list wsmsg);      (* the mpsc channel *)
  s_chan_closed : bool;            (* closed by a user: [send] is a public field of [Client] *)
  s_next_id : N;
  s_handle : handle_t;
  s_signal : bool;                 (* the oneshot for closing was sent or its sender dropped *)
  s_client : bool;                 (* the [Client] exists *)
  s_inflight : list inflight;
  s_acks : list (bytes * N)        (* ack builders handed to callbacks and not used up *)
}.

Definition init : state :=
  State CHandshake None PUnborn receiver_new callbacks_new false [] false 0 HHeld false false [] [].

(** Operations on the callback table: lib.rs:65-98, 187-204. *)
Inductive tableop :=
| SetEvent (ns ev : bytes) (f : cb)
| ClearEvent (ns ev : bytes)
| SetFallback (ns : bytes) (f : cb)
| ClearFallback (ns : bytes).
Definition table_op (o : tableop) (c : callbacks) : callbacks :=
  match o with
  | SetEvent ns ev f => set_event c ns ev f
  | ClearEvent ns ev => clear_event c ns ev
  | SetFallback ns f => set_fallback c ns f
  | ClearFallback ns => clear_fallback c ns
  end.

(** A complete use of an [EventBuilder]. *)
Record emission := Emission {
  em_ns : bytes; em_event : bytes; em_calls : list bcall; em_args : list sval }.

Inductive label :=
(* the connecting future *)
| LHandshake (e : option conn_error)   (* handshake and spawn succeed, or an error *)
| LOpenSeen                            (* the branch of line 73 *)
| LOpenTimeout                         (* the branch of line 74 *)
| LConnectDrop                         (* the user drops the future *)
(* the connection task *)
| LRead (m : wsmsg) | LReadErr | LReadEnd
| LTake | LWrite | LWriteErr
| LClosed | LCloseFrame (ok : bool)
| LCancel | LAbort
(* the running callback *)
| LCbTable (o : tableop)
| LCbEmit (e : emission)
| LCbAck (i : nat) (binary : bool) (args : list sval)
| LCbReturn | LCbPanic
(* user threads *)
| LTable (o : tableop)
| LBuild (e : emission)                (* a builder that is never sent *)
| LEmit (e : emission)                 (* everything up to line 92 of emit.rs *)
| LRegister (i : nat)                  (* lines 93-99 *)
| LPush (i : nat)                      (* line 100 *)
| LAck (i : nat) (binary : bool) (args : list sval)  (* the i-th ack builder is used *)
| LRaw (fs : list wsmsg)               (* [client.send] used directly *)
| LCloseChannel                        (* [client.send.close_channel()] *)
| LCloseCall | LCloseReturn | LCloseTimeout | LCloseDrop
| LDropClient.

Inductive close_result := CloseOk | CloseErr (e : ending) | ClosePanic | CloseTimeout | CloseAlready.

(** What can be observed of a step. *)
Inductive origin := ByReceiver | ByEmit (ns : bytes) (id : option N) | ByAck (ns : bytes) (id : N) | ByUser.
Inductive obs :=
| ORead (m : wsmsg)                    (* a websocket message is processed *)
| OCall (p : packet) (c : call)        (* a callback is called, on account of the packet p *)
| OEnd (e : ending)                    (* the task ends *)
| OWrite (m : wsmsg)                   (* a frame is handed to the websocket *)
| OCloseFrame                          (* the close frame *)
| OQueued (o : origin) (fs : list wsmsg)
| OLost (o : origin) (fs : list wsmsg) (* [unbounded_send] failed; the error is ignored *)
| OTable (o : tableop)
| ORequest (id : N)                    (* an ack id is allotted by [callback()] *)
| ORegister (ns : bytes) (id : N) (f : cb)
| OOpened (o : open_t)
| OConnect (c : conn)
| OCloseCalled                         (* [close()] has sent the signal *)
| OClose (r : close_result)
| OChannelClosed                       (* a user closes the channel *)
| OUserPanic                           (* a user thread panics *)
| OBlocked.                            (* the callback blocks for ever *)

(** Updates of single fields. *)
Definition set_conn x s := State x (s_open s) (s_phase s) (s_receiver s) (s_table s) (s_poisoned s) (s_chan s) (s_chan_closed s) (s_next_id s) (s_handle s) (s_signal s) (s_client s) (s_inflight s) (s_acks s).
Definition set_open x s := State (s_conn s) x (s_phase s) (s_receiver s) (s_table s) (s_poisoned s) (s_chan s) (s_chan_closed s) (s_next_id s) (s_handle s) (s_signal s) (s_client s) (s_inflight s) (s_acks s).
Definition set_phase x s := State (s_conn s) (s_open s) x (s_receiver s) (s_table s) (s_poisoned s) (s_chan s) (s_chan_closed s) (s_next_id s) (s_handle s) (s_signal s) (s_client s) (s_inflight s) (s_acks s).
Definition set_receiver x s := State (s_conn s) (s_open s) (s_phase s) x (s_table s) (s_poisoned s) (s_chan s) (s_chan_closed s) (s_next_id s) (s_handle s) (s_signal s) (s_client s) (s_inflight s) (s_acks s).
Definition set_table x s := State (s_conn s) (s_open s) (s_phase s) (s_receiver s) x (s_poisoned s) (s_chan s) (s_chan_closed s) (s_next_id s) (s_handle s) (s_signal s) (s_client s) (s_inflight s) (s_acks s).
Definition set_poisoned x s := State (s_conn s) (s_open s) (s_phase s) (s_receiver s) (s_table s) x (s_chan s) (s_chan_closed s) (s_next_id s) (s_handle s) (s_signal s) (s_client s) (s_inflight s) (s_acks s).
Definition set_chan x s := State (s_conn s) (s_open s) (s_phase s) (s_receiver s) (s_table s) (s_poisoned s) x (s_chan_closed s) (s_next_id s) (s_handle s) (s_signal s) (s_client s) (s_inflight s) (s_acks s).
Definition set_chan_closed x s := State (s_conn s) (s_open s) (s_phase s) (s_receiver s) (s_table s) (s_poisoned s) (s_chan s) x (s_next_id s) (s_handle s) (s_signal s) (s_client s) (s_inflight s) (s_acks s).
Definition set_next_id x s := State (s_conn s) (s_open s) (s_phase s) (s_receiver s) (s_table s) (s_poisoned s) (s_chan s) (s_chan_closed s) x (s_handle s) (s_signal s) (s_client s) (s_inflight s) (s_acks s).
Definition set_handle x s := State (s_conn s) (s_open s) (s_phase s) (s_receiver s) (s_table s) (s_poisoned s) (s_chan s) (s_chan_closed s) (s_next_id s) x (s_signal s) (s_client s) (s_inflight s) (s_acks s).
Definition set_signal x s := State (s_conn s) (s_open s) (s_phase s) (s_receiver s) (s_table s) (s_poisoned s) (s_chan s) (s_chan_closed s) (s_next_id s) (s_handle s) x (s_client s) (s_inflight s) (s_acks s).
Definition set_client x s := State (s_conn s) (s_open s) (s_phase s) (s_receiver s) (s_table s) (s_poisoned s) (s_chan s) (s_chan_closed s) (s_next_id s) (s_handle s) (s_signal s) x (s_inflight s) (s_acks s).
Definition set_inflight x s := State (s_conn s) (s_open s) (s_phase s) (s_receiver s) (s_table s) (s_poisoned s) (s_chan s) (s_chan_closed s) (s_next_id s) (s_handle s) (s_signal s) (s_client s) x (s_acks s).
Definition set_acks x s := State (s_conn s) (s_open s) (s_phase s) (s_receiver s) (s_table s) (s_poisoned s) (s_chan s) (s_chan_closed s) (s_next_id s) (s_handle s) (s_signal s) (s_client s) (s_inflight s) x.

(** Whether the task holds the mutex of the table: edition 2018 keeps the guard of receiver.rs:145
    and 150-154 until the end of the [if let], so during the call. *)
Definition locked (s : state) : bool :=
  match s_phase s with PCalling _ _ | PStuck => true | _ => false end.
Definition task_ended (s : state) : bool :=
  match s_phase s with PEnded _ => true | _ => false end.

(** The task ends: its half of the channel and everything queued is dropped. *)
Definition end_task (e : ending) (s : state) : state := set_chan [] (set_phase (PEnded e) s).
(** [handle] and [close] are dropped: cancellation, and the oneshot for closing resolves. *)
Definition drop_handle (s : state) : state := set_signal true (set_handle HGone s).

(** [unbounded_send] *)
Definition push (o : origin) (fs : list wsmsg) (s : state) : state * list obs :=
  if s_chan_closed s || task_ended s then (s, [OLost o fs])
  else (set_chan (s_chan s ++ [fs]) s, [OQueued o fs]).

(** connection.rs:151-157: the next frame, or back to the select. *)
Definition sending (rest : list wsmsg) : phase :=
  match rest with [] => PLoop | _ => PSending rest end.

(** The ack builder handed to a callback (not [Clone]; using it consumes it). *)
Definition given (c : call) : list (bytes * N) :=
  match c with EventCall _ _ (Some a) => [(ab_ns a, ab_id a)] | _ => [] end.

(** connection.rs:142, 171: [receiver.process_websocket_packet(msg)?] *)
Definition read_step (log_info : bool) (closing : bool) (m : wsmsg) (s : state) : state * list obs :=
  let r := process_websocket_packet log_info (s_poisoned s) (s_receiver s) (s_table s) m in
  let s1 := set_table (pr_callbacks r) (set_receiver (pr_receiver r) s) in
  let (s2, o2) := match pr_open r with
                  | Some o => (set_open (Some o) s1, [OOpened o])
                  | None => (s1, [])
                  end in
  let (s3, o3) := match pr_queue r with
                  | Some fs => push ByReceiver fs s2
                  | None => (s2, [])
                  end in
  let (s4, o4) := match pr_outcome r with
                  | Return (Ok _) => (s3, [])
                  | Return (Err e) => (end_task (EndErr e) s3, [OEnd (EndErr e)])
                  | Return Panic => (end_task EndPanic s3, [OEnd EndPanic])
                  | CallOf p c =>
                      (set_acks (s_acks s3 ++ given c) (set_phase (PCalling closing c) s3), [OCall p c])
                  end in
  (s4, ORead m :: o2 ++ o3 ++ o4).

(** The ids that a list of builder calls takes. *)
Fixpoint requests (next_id : N) (l : list bcall) : list obs :=
  match l with
  | [] => []
  | SetBinary _ :: l' => requests next_id l'
  | SetCallback _ :: l' => ORequest next_id :: requests (next_u64 next_id) l'
  end.
(** The builder of an emission after all its calls, and the client's [next_id]. *)
Definition emission_builder (s : state) (e : emission) : N * event_builder :=
  builder_calls (s_next_id s) (event_builder_new (em_event e) (em_ns e)) (em_calls e).

(** A text message is a [String]. *)
Definition ws_valid (m : wsmsg) : bool := match m with WText t => utf8_valid t | _ => true end.

Definition is_connected (s : state) : bool :=
  match s_conn s with CConnected _ => true | _ => false end.
(** [Client] methods need the client; all of them need it connected. *)
Definition usable_client (s : state) : bool := is_connected s && s_client s.

Fixpoint list_update {A} (i : nat) (x : A) (l : list A) : list A :=
  match l, i with
  | [], _ => []
  | _ :: l', O => x :: l'
  | y :: l', S j => y :: list_update j x l'
  end.
Fixpoint list_delete {A} (i : nat) (l : list A) : list A :=
  match l, i with
  | [], _ => []
  | _ :: l', O => l'
  | y :: l', S j => y :: list_delete j l'
  end.

Definition emit_origin (e : event_builder) : origin := ByEmit (eb_ns e) (option_map snd (eb_callback e)).

(** One step; [None]: the label is not possible in this state. *)
Definition step (log_info : bool) (s : state) (l : label) : option (state * list obs) :=
  match l with
  (* connection.rs:52-70 *)
  | LHandshake None =>
      match s_conn s with
      | CHandshake => Some (set_conn COpening (set_phase PLoop s), [])
      | _ => None
      end
  | LHandshake (Some COpenTimeout) => None
  | LHandshake (Some e) =>
      match s_conn s with
      | CHandshake => Some (set_conn (CFailed e) s, [OConnect (CFailed e)])
      | _ => None
      end
  (* connection.rs:72-84, lib.rs:160-166; the oneshot resolves with an error when the task, and with
     it the sender, is gone *)
  | LOpenSeen =>
      match s_conn s, s_open s with
      | COpening, Some o => Some (set_client true (set_conn (CConnected (o_sid o)) s), [OConnect (CConnected (o_sid o))])
      | COpening, None =>
          if task_ended s then Some (drop_handle (set_conn CPanicked s), [OConnect CPanicked]) else None
      | _, _ => None
      end
  | LOpenTimeout =>
      match s_conn s with
      | COpening => Some (drop_handle (set_conn (CFailed COpenTimeout) s), [OConnect (CFailed COpenTimeout)])
      | _ => None
      end
  | LConnectDrop =>
      match s_conn s with
      | CHandshake | COpening => Some (drop_handle (set_conn CAbandoned s), [OConnect CAbandoned])
      | _ => None
      end
  (* connection.rs:129-145 and 169-175 *)
  | LRead m =>
      if negb (ws_valid m) then None
      else match s_phase s with
           | PLoop => Some (read_step log_info false m s)
           | PReading => Some (read_step log_info true m s)
           | _ => None
           end
  | LReadErr =>
      match s_phase s with
      | PLoop | PReading => Some (end_task EndWs s, [OEnd EndWs])
      | _ => None
      end
  | LReadEnd =>
      match s_phase s with
      | PLoop | PReading => Some (end_task EndOk s, [OEnd EndOk])
      | _ => None
      end
  (* connection.rs:146-150; the receiver holds a sender, so the channel ends only when a user
     closes it *)
  | LTake =>
      match s_phase s, s_chan s with
      | PLoop, fs :: rest => Some (set_chan rest (set_phase (sending fs) s), [])
      | PLoop, [] => if s_chan_closed s then Some (end_task EndPanic s, [OEnd EndPanic]) else None
      | _, _ => None
      end
  (* connection.rs:151-157 *)
  | LWrite =>
      match s_phase s with
      | PSending (m :: rest) => Some (set_phase (sending rest) s, [OWrite m])
      | _ => None
      end
  | LWriteErr =>
      match s_phase s with
      | PSending _ => Some (end_task EndWs s, [OEnd EndWs])
      | _ => None
      end
  (* connection.rs:159-161 *)
  | LClosed =>
      match s_phase s with
      | PLoop => if s_signal s then Some (set_phase PClosing s, []) else None
      | _ => None
      end
  (* connection.rs:164-167; the result of [close] is ignored *)
  | LCloseFrame ok =>
      match s_phase s with
      | PClosing => Some (set_phase PReading s, if ok then [OCloseFrame] else [])
      | _ => None
      end
  | LCancel =>
      match s_handle s, s_phase s with
      | HGone, (PLoop | PSending _ | PClosing | PReading) => Some (end_task EndCancelled s, [OEnd EndCancelled])
      | _, _ => None
      end
  (* the executor drops the task between two polls *)
  | LAbort =>
      match s_phase s with
      | PLoop | PSending _ | PClosing | PReading => Some (end_task EndAborted s, [OEnd EndAborted])
      | _ => None
      end
  (* the callback: receiver.rs:146, 156 *)
  | LCbTable o =>
      match s_phase s with
      | PCalling _ _ => if usable_client s then Some (set_phase PStuck s, [OBlocked]) else None
      | _ => None
      end
  | LCbEmit e =>
      match s_phase s with
      | PCalling _ _ =>
          if usable_client s then
            let (n, b) := emission_builder s e in
            let s1 := set_next_id n s in
            let o1 := requests (s_next_id s) (em_calls e) in
            match event_packets b (em_args e) with
            | None => Some (set_poisoned true (end_task EndPanic s1), o1 ++ [OEnd EndPanic])
            | Some fs =>
                match eb_callback b with
                | Some _ => Some (set_phase PStuck s1, o1 ++ [OBlocked])
                | None => let (s2, o2) := push (emit_origin b) fs s1 in Some (s2, o1 ++ o2)
                end
            end
          else None
      | _ => None
      end
  | LCbAck i binary args =>
      match s_phase s, nth_error (s_acks s) i with
      | PCalling _ _, Some (ns, id) =>
          let a := ack_binary binary (ack_builder_new ns id) in
          let s1 := set_acks (list_delete i (s_acks s)) s in
          match ack_packets a args with
          | None => Some (set_poisoned true (end_task EndPanic s1), [OEnd EndPanic])
          | Some fs => Some (push (ByAck ns id) fs s1)
          end
      | _, _ => None
      end
  | LCbReturn =>
      match s_phase s with
      | PCalling closing _ => Some (set_phase (if closing then PReading else PLoop) s, [])
      | _ => None
      end
  | LCbPanic =>
      match s_phase s with
      | PCalling _ _ => Some (set_poisoned true (end_task EndPanic s), [OEnd EndPanic])
      | _ => None
      end
  (* lib.rs:74; waits while the table is locked *)
  | LTable o =>
      if usable_client s then
        if s_poisoned s then Some (s, [OUserPanic])
        else if locked s then None
        else Some (set_table (table_op o (s_table s)) s, [OTable o])
      else None
  | LBuild e =>
      if usable_client s then
        let (n, _) := emission_builder s e in
        Some (set_next_id n s, requests (s_next_id s) (em_calls e))
      else None
  (* emit.rs:91-101 *)
  | LEmit e =>
      if usable_client s then
        let (n, b) := emission_builder s e in
        let s1 := set_next_id n s in
        let o1 := requests (s_next_id s) (em_calls e) in
        match event_packets b (em_args e) with
        | None => Some (s1, o1 ++ [OUserPanic])
        | Some fs =>
            match eb_callback b with
            | None => let (s2, o2) := push (emit_origin b) fs s1 in Some (s2, o1 ++ o2)
            | Some (f, id) => Some (set_inflight (s_inflight s1 ++ [Inflight (eb_ns b) id f false fs]) s1, o1)
            end
        end
      else None
  | LRegister i =>
      match nth_error (s_inflight s) i with
      | Some (Inflight ns id f false fs) =>
          if s_poisoned s then Some (set_inflight (list_delete i (s_inflight s)) s, [OUserPanic])
          else if locked s then None
          else Some (set_table (set_ack (s_table s) ns id f)
                       (set_inflight (list_update i (Inflight ns id f true fs) (s_inflight s)) s),
                     [ORegister ns id f])
      | _ => None
      end
  | LPush i =>
      match nth_error (s_inflight s) i with
      | Some (Inflight ns id _ true fs) =>
          Some (push (ByEmit ns (Some id)) fs (set_inflight (list_delete i (s_inflight s)) s))
      | _ => None
      end
  (* emit.rs:104-152 *)
  | LAck i binary args =>
      match nth_error (s_acks s) i with
      | Some (ns, id) =>
          let a := ack_binary binary (ack_builder_new ns id) in
          let s1 := set_acks (list_delete i (s_acks s)) s in
          match ack_packets a args with
          | None => Some (s1, [OUserPanic])
          | Some fs => Some (push (ByAck ns id) fs s1)
          end
      | None => None
      end
  | LRaw fs => if is_connected s then Some (push ByUser fs s) else None
  | LCloseChannel => if is_connected s then Some (set_chan_closed true s, [OChannelClosed]) else None
  (* connection.rs:95-106; awaiting the handle of a task that panicked or was dropped panics *)
  | LCloseCall =>
      if usable_client s then
        match s_handle s with
        | HHeld => Some (set_signal true (set_handle HClosing s), [OCloseCalled])
        | _ => Some (s, [OClose CloseAlready])
        end
      else None
  | LCloseReturn =>
      match s_handle s, s_phase s with
      | HClosing, PEnded e =>
          Some (set_handle HGone s,
                [OClose match e with EndOk => CloseOk | EndPanic | EndAborted => ClosePanic | _ => CloseErr e end])
      | _, _ => None
      end
  | LCloseTimeout =>
      match s_handle s with
      | HClosing => Some (drop_handle s, [OClose CloseTimeout])
      | _ => None
      end
  | LCloseDrop =>
      match s_handle s with
      | HClosing => Some (drop_handle s, [])
      | _ => None
      end
  | LDropClient =>
      if usable_client s then Some (set_client false (drop_handle s), []) else None
  end.

(** A run: labels in order, observations in order. *)
Fixpoint execute (log_info : bool) (s : state) (ls : list label) : option (state * list obs) :=
  match ls with
  | [] => Some (s, [])
  | l :: ls' =>
      match step log_info s l with
      | Some (s1, o1) =>
          match execute log_info s1 ls' with
          | Some (s2, o2) => Some (s2, o1 ++ o2)
          | None => None
          end
      | None => None
      end
  end.
