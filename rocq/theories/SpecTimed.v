(** What is said about time and about the errors of connecting: C91-C93. *)
From Verif Require Export Timed SpecClient SpecUrl SpecText.

Definition stamped := list (N * tobs).
Definition stamp (t : N) (l : list tobs) : stamped := map (fun x => (t, x)) l.
(** Something happened that connecting, or an awaited [close()], waits for. *)
Definition opens_or_ends (x : tobs) : Prop := (exists y, x = TSys (OOpened y)) \/ exists e, x = TSys (OEnd e).

(** What is assumed of the executor, and of a user who awaits a future: at most [d] milliseconds after
    the future could go on, it does.  It can go on when its timer has run out; while Open is awaited,
    when Open has arrived or the task has ended; while [close()] is awaited, when the task has ended. *)
Definition prompt (d : N) (o : stamped) (st : stage) (t : N) : Prop :=
  match st with
  | TConn since closing s =>
      (s_conn s = CHandshake \/ s_conn s = COpening -> (t <= since + limit + d)%N) /\
      (s_conn s = COpening -> forall a x, In (a, x) o -> opens_or_ends x -> (t <= a + d)%N) /\
      (s_handle s = HClosing -> forall c, closing = Some c ->
         (t <= c + limit + d)%N /\ forall a e, In (a, TSys (OEnd e)) o -> (t <= N.max a c + d)%N)
  | _ => True
  end.

(** [timed log d w given parsed t0 st t o]: connecting (with [connect] or [from_stream]) was begun at
    [t0]; at the time [t] it is in stage [st], and [o] was observed. *)
Inductive timed (log : bool) (d : N) (w : entry) (given : bytes) (parsed : option url) (t0 : N) : stage -> N -> stamped -> Prop :=
| tm_begin st o : begin w given parsed t0 = (st, o) -> timed log d w given parsed t0 st t0 (stamp t0 o)
| tm_wait st t o t' : timed log d w given parsed t0 st t o -> (t <= t')%N -> prompt d o st t' ->
    timed log d w given parsed t0 st t' o
| tm_step st t o l st' o' : timed log d w given parsed t0 st t o -> tstep log st t l = Some (st', o') ->
    timed log d w given parsed t0 st' t (o ++ stamp t o').

(** What the task and the client did. *)
Definition sys_obs (o : stamped) : list obs :=
  flat_map (fun x => match snd x with TSys y => [y] | _ => [] end) o.
(** Connecting has ended: with a client, an error or a panic, or it was given up. *)
Definition connect_ended (x : tobs) : Prop :=
  (exists e, x = TFail e) \/ x = TFailPanic \/ x = TGiveUp \/ exists c, x = TSys (OConnect c).
(** The full statement (false): connecting is over ten seconds after it was begun. *)
Definition C91_full : Prop := forall log d w given parsed t0 st t o,
  timed log d w given parsed t0 st t o -> (t0 + limit + d < t)%N ->
  exists b x, In (b, x) o /\ connect_ended x /\ (b <= t0 + limit + d)%N.

(** [close()] has returned (not just been refused), or was given up with all the rest. *)
Definition close_ended (x : tobs) : Prop := x = TLetGo \/ exists r, x = TSys (OClose r) /\ r <> CloseAlready.

(** The errors with which connecting ends. *)
Definition connect_error (x : tobs) (e : lib_error) : Prop :=
  x = TFail e \/ exists c, x = TSys (OConnect (CFailed c)) /\ e = conn_lib_error c.
(** The parts of a URL other than the user's name and password. *)
Definition same_but_user (u v : url) : Prop :=
  u_scheme u = u_scheme v /\ u_host u = u_host v /\ u_port u = u_port v /\ u_path u = u_path v /\
  u_query u = u_query v /\ u_fragment u = u_fragment v.
(** The full statement (false): what connecting reports as errors does not depend on the name and
    password in the URL. *)
Definition C93_full : Prop := forall fm lf log d w given given' u u' t0 st t o b x e, parsed_ok u -> same_but_user u u' ->
  timed log d w given (Some u) t0 st t o -> In (b, x) o -> connect_error x e ->
  exists st' o' x' e', timed log d w given' (Some u') t0 st' t o' /\ In (b, x') o' /\ connect_error x' e' /\
    lib_error_text fm lf e' = lib_error_text fm lf e.
(** What else is observed of an attempt does not depend on them either: everything but the text of the
    request. *)
Definition unrequested (x : tobs) : tobs := match x with TRequest _ => TRequest [] | _ => x end.
(** The kinds of errors. *)
Inductive error_kind := KUrlRefused | KWebsocket | KDialing | KSpawning | KPacket | KTimeout | KClosed.
Definition kind_of (e : lib_error) : error_kind :=
  match e with
  | LibUrl _ _ => KUrlRefused
  | LibWebsocket => KWebsocket
  | LibConnection _ => KDialing
  | LibSpawn => KSpawning
  | LibProcessing _ => KPacket
  | LibTimeout _ => KTimeout
  | LibClosed => KClosed
  end.
(** The text of a [url::ParseError] has no colon and no quote, and is not that of [NoHost]. *)
Definition plain_parse_text (lf : lib_formats) : Prop :=
  ~ In ":"%byte (lf_parse lf) /\ ~ In quote (lf_parse lf) /\ lf_parse lf <> bs "No host".
(** A scheme, as [Url::parse] gives it: letters, digits, '+', '-' and '.'. *)
Definition scheme_chars (s : bytes) : Prop :=
  forall c, In c s -> is_digit c = true \/ (97 <= bN c <= 122)%N \/ In c (bs "+-.").
(** What happens after the websocket request. *)
Definition afterwards (x : tobs) : Prop := x = TLetGo \/ exists y, x = TSys y.
