(** Whether a client notices that the server is gone: C72. *)
From Verif Require Export SpecFair SpecDeliver.

(** Something comes from the server, or the connection to it ends. *)
Definition from_server (l : label) : Prop :=
  match l with LRead _ | LReadErr | LReadEnd => True | _ => False end.
(** Nothing comes from the server from the moment [k] on. *)
Definition silent_from (r : life) (k : nat) : Prop :=
  forall j l, k <= j -> does r j = Some l -> ~ from_server l.
(** Nothing the task can do by itself is put off for ever; writes, callbacks and closing end. *)
Definition just (log : bool) (r : life) : Prop :=
  (forall l, own_step l -> fair_to log r l) /\ writes_end r /\ callbacks_end r /\ closing_ends r.
(** The task can do nothing by itself. *)
Definition at_rest (log : bool) (s : state) : Prop := forall l, own_step l -> step log s l = None.
(** The server has said that it closes the connection: the engine's close packet. *)
Definition server_closed (o : list obs) : Prop := closed (data_frames (reads o)).

(** The full statement (false): if the server falls silent, or says that it closes the connection,
    then the connection ends some time. *)
Definition C72_full : Prop := forall log r k, lives log r -> just log r ->
  is_connected (at_time r k) = true -> silent_from r k \/ server_closed (seen r k) ->
  exists j, k <= j /\ over (at_time r j).
