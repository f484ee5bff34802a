(** What ends a connection, and how that is told. *)
From Verif Require Export SpecFair.

(** The user, or a time-out on their behalf, gives up the connection: the connecting future is
    dropped or times out, [close()] is dropped or times out, or the client is dropped. *)
Definition lets_go (l : label) : Prop :=
  match l with LConnectDrop | LOpenTimeout | LCloseTimeout | LCloseDrop | LDropClient => True | _ => False end.
(** The task waits in one of its selects or for the websocket, not for a callback. *)
Definition waiting (s : state) : Prop :=
  match s_phase s with PLoop | PSending _ | PClosing | PReading => True | _ => False end.

(** What can end the task in which way. *)
Inductive ended_by : label -> ending -> Prop :=
| eb_stream : ended_by LReadEnd EndOk                  (* the stream ended *)
| eb_read : ended_by LReadErr EndWs                    (* the websocket failed *)
| eb_write : ended_by LWriteErr EndWs
| eb_rejected m e : ended_by (LRead m) (EndErr e)      (* a message was rejected *)
| eb_message m : ended_by (LRead m) EndPanic           (* see C48 *)
| eb_channel : ended_by LTake EndPanic
| eb_callback : ended_by LCbPanic EndPanic
| eb_cancel : ended_by LCancel EndCancelled
| eb_abort : ended_by LAbort EndAborted.
(** These always end it. *)
Definition must_end (l : label) : Prop :=
  match l with LReadEnd | LReadErr | LWriteErr | LCbPanic | LCancel | LAbort => True | _ => False end.
