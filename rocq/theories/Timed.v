(** Model of connecting as a whole and of time: lib.rs:36-63 (errors), 103-166 ([Client::connect],
    [Client::from_stream], [Client::new]), and the two timers of connection.rs:46 and 97.

    On top of System.v: before its initial state the URL is checked and, for [connect], the stream is
    awaited; every step happens at a time (in milliseconds), and a time-out only when its timer has
    run out. *)
From Verif Require Export ErrorText Url.

(** lib.rs:37-53.  [LibConnection]: with the text of the error of the user's function. *)
Inductive lib_error :=
| LibUrl (given : bytes) (e : url_error)
| LibWebsocket
| LibConnection (text : bytes)
| LibSpawn
| LibProcessing (e : rerror)
| LibTimeout (what : bytes)
| LibClosed.
(** Texts of the libraries: of a [url::ParseError], of an error of tungstenite, of a [SpawnError]. *)
Record lib_formats := LibFormats { lf_parse : bytes; lf_ws : bytes; lf_spawn : bytes }.
(** lib.rs:55-63 *)
Definition url_error_text (fm : formats) (lf : lib_formats) (e : url_error) : bytes :=
  match e with
  | UrlParse => lf_parse lf
  | UrlInvalidScheme s => bs "Invalid scheme: " ++ debug_str fm s
  | UrlNoHost => bs "No host"
  end.
(** lib.rs:37-53; [None] is a panic. *)
Definition lib_error_text (fm : formats) (lf : lib_formats) (e : lib_error) : option bytes :=
  match e with
  | LibUrl given e => Some (bs "Failed to parse URI " ++ given ++ bs ": " ++ url_error_text fm lf e)
  | LibWebsocket => Some (bs "Websocket error: " ++ lf_ws lf)
  | LibConnection t => Some (bs "Connection error: " ++ t)
  | LibSpawn => Some (bs "Failed to spawn task: " ++ lf_spawn lf)
  | LibProcessing e => error_text fm e
  | LibTimeout what => Some (bs "Connection timed out waiting for " ++ what)
  | LibClosed => Some (bs "Already closed")
  end.
(** connection.rs:53-54, 70, 74: the errors of [Connection::new] *)
Definition conn_lib_error (e : conn_error) : lib_error :=
  match e with
  | CWebsocket => LibWebsocket
  | CHandshakeTimeout => LibTimeout (bs "websocket handshake")
  | CSpawn => LibSpawn
  | COpenTimeout => LibTimeout (bs "engine.io protocol Open message")
  end.
(** connection.rs:95-106: what [close()] returns, if it does not panic.  A task that was cancelled or
    dropped has no result (C61: it is never reported so). *)
Definition close_lib_error (r : close_result) : option lib_error :=
  match r with
  | CloseErr (EndErr e) => Some (LibProcessing e)
  | CloseErr EndWs => Some LibWebsocket
  | CloseTimeout => Some (LibTimeout (bs "close"))
  | CloseAlready => Some LibClosed
  | _ => None
  end.

(** lib.rs:157 [Duration::from_secs(10)] *)
Definition limit : N := 10000.

(** Where an attempt to connect, and then the connection, is. *)
Inductive stage :=
| TDialing (request : bytes)                       (* lib.rs:118-123: the user's future is awaited *)
| TConn (since : N) (closing : option N) (s : state) (* the timers of connection.rs:46 and 97 were started at *)
| TOver.                                           (* connecting ended before [Connection::new] *)
Inductive tobs :=
| TDial (h : bytes) (p : N)                        (* the user's function is called *)
| TStream (error : option bytes)                   (* its future gives a stream, or an error *)
| TRequest (t : bytes)                             (* [Connection::new]; the handshake for this URL begins *)
| TFail (e : lib_error)                            (* connecting ended with this error *)
| TFailPanic
| TGiveUp                                          (* the user drops the future while dialing *)
| TLetGo                                           (* the user drops the future of [close()] or the client *)
| TSys (x : obs).
Inductive tlabel :=
| KStream (error : option bytes)                   (* the user's future gives a stream, or an error *)
| KDrop
| KStep (l : label).
Inductive entry := ByConnect | FromStream.

(** lib.rs:115-123 and 135-139; [parsed]: the result of [Url::parse] for [given]. *)
Definition begin (w : entry) (given : bytes) (parsed : option url) (now : N) : stage * list tobs :=
  match w with
  | ByConnect =>
      match connect_to parsed with
      | Ok (h, p, t) => (TDialing t, [TDial h p])
      | Err e => (TOver, [TFail (LibUrl given e)])
      | Panic => (TOver, [TFailPanic])
      end
  | FromStream =>
      match from_stream_url parsed with
      | Ok t => (TConn now None init, [TRequest t])
      | Err e => (TOver, [TFail (LibUrl given e)])
      | Panic => (TOver, [TFailPanic])
      end
  end.

(** A time-out needs its timer to have run out: connection.rs:54, 74 (one timer for both) and 101. *)
Definition run_out (since now : N) : bool := (since + limit <=? now)%N.
Definition timer_allows (since : N) (closing : option N) (now : N) (l : label) : bool :=
  match l with
  | LHandshake (Some CHandshakeTimeout) | LOpenTimeout => run_out since now
  | LCloseTimeout => match closing with Some c => run_out c now | None => false end
  | _ => true
  end.
(** connection.rs:97: the timer of [close()] starts when it takes the handle. *)
Definition closing_since (closing : option N) (now : N) (s : state) (l : label) : option N :=
  match l, s_handle s with LCloseCall, HHeld => Some now | _, _ => closing end.
Definition letting_go (l : label) : list tobs :=
  match l with LCloseDrop | LDropClient => [TLetGo] | _ => [] end.

Definition tstep (log_info : bool) (st : stage) (now : N) (l : tlabel) : option (stage * list tobs) :=
  match st, l with
  | TDialing t, KStream None => Some (TConn now None init, [TStream None; TRequest t])        (* lib.rs:125, 142-159 *)
  | TDialing _, KStream (Some e) => Some (TOver, [TStream (Some e); TFail (LibConnection e)])     (* lib.rs:123 *)
  | TDialing _, KDrop => Some (TOver, [TGiveUp])
  | TConn since closing s, KStep l =>
      if timer_allows since closing now l then
        match step log_info s l with
        | Some (s', o) => Some (TConn since (closing_since closing now s l) s', letting_go l ++ map TSys o)
        | None => None
        end
      else None
  | _, _ => None
  end.
