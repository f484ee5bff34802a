(** Model of the two programs in socket-io-client/examples: socketio_test.rs and ws_connect.rs, as users
    of the client of [System.v].

    The main thread and the bodies of the callbacks do what the programs say, in that order; the
    connection task, the server, the executor and the timers do anything that [System.v] allows.

    Simplified: [Opt::from_args], [env_logger] and the waiting for the time given on the command line
    (socketio_test.rs:70-72, ws_connect.rs:54, 66) are left out, so that [close] may come at any time
    after the statements before it.  A line that cannot be formatted, or not be written to the standard
    output, is a panic of [println!] with nothing printed. *)
From Verif Require Export SpecClient.

(** ws_connect takes a namespace on the command line (ws_connect.rs:23-25). *)
Inductive program := SocketioTest | WsConnect (ns : option bytes).

(** The closures of the programs that are given to the client. *)
Definition cb_print : cb := 0%N.      (* socketio_test.rs:49, ws_connect.rs:53 *)
Definition cb_types : cb := 1%N.      (* socketio_test.rs:50-56 *)
Definition cb_reply : cb := 2%N.      (* socketio_test.rs:62-64 *)
Definition cb_named : cb := 3%N.      (* ws_connect.rs:58-60 *)

(** ** The main thread *)
Inductive act :=
| Api (l : label)                     (* a call into the library *)
| ApiTry (l : label)                  (* one whose error is returned from [main] *)
| Say (t : bytes).                    (* [println!] *)

(** socketio_test.rs:59-68: the bytes are a [Vec<u8>], which serialises as a sequence. *)
Definition test_emission : emission :=
  Emission (bs "/") (bs "event") [SetBinary true; SetCallback cb_reply]
    [SSeq [SU8 xde; SU8 xad; SU8 xbe; SU8 xef]; SStr (bs "hello")].
(** ws_connect.rs:63 *)
Definition join_frames (ns : bytes) : list wsmsg := [WText (bs "40" ++ ns ++ bs ",")].
(** socketio_test.rs:49-74, ws_connect.rs:53-68.  [send] is split as in [System.v]. *)
Definition main_acts (p : program) : list act :=
  match p with
  | SocketioTest =>
      [Api (LTable (SetFallback (bs "/") cb_print)); Api (LTable (SetEvent (bs "/") (bs "types") cb_types));
       Say (bs "Callbacks registered"); Api (LEmit test_emission); Api (LRegister 0); Api (LPush 0); Api LCloseCall]
  | WsConnect None => [Api (LTable (SetFallback (bs "/") cb_print)); Api LCloseCall]
  | WsConnect (Some ns) =>
      [Api (LTable (SetFallback (bs "/") cb_print)); Api (LTable (SetFallback ns cb_named));
       ApiTry (LRaw (join_frames ns)); Api LCloseCall]
  end.

Inductive exit := ExitOk | ExitErr | ExitPanic.
Inductive spot :=
| MConnecting                         (* socketio_test.rs:47, ws_connect.rs:51 *)
| MActs (l : list act)
| MClosing                            (* socketio_test.rs:74, ws_connect.rs:68 *)
| MLeaving (e : exit)                 (* the client is about to be dropped *)
| MExited (e : exit).

(** ** The callbacks *)
Inductive bact :=
| BSay (t : option bytes)             (* [println!]; [None]: formatting panics *)
| BAnswer.                            (* socketio_test.rs:54 *)
Definition args_line (prefix : bytes) (a : args_t) : bact :=
  BSay (option_map (fun t => prefix ++ t) (show_args a)).
(** The bodies of the closures: socketio_test.rs:49, 51-55, 63; ws_connect.rs:53, 59. *)
Definition body (p : program) (c : call) : list bact :=
  match c with
  | AckCall _ a => [args_line (bs "event ack received: ") a]
  | EventCall f a ack =>
      match p with
      | SocketioTest =>
          if N.eqb f cb_types then
            args_line (bs "types messaged received: ") a ::
            match ack with Some _ => [BSay (Some (bs "Emitting ack")); BAnswer] | None => [] end
          else [args_line [] a]
      | WsConnect (Some ns) => [args_line (if N.eqb f cb_named then ns ++ bs ": " else []) a]
      | WsConnect None => [args_line [] a]
      end
  end.

(** ** The program *)
Record prog := Prog { g_sys : state; g_main : spot; g_body : list bact }.
Definition prog_init : prog := Prog init MConnecting [].
Inductive who := TheMain | TheCallback.
Inductive gobs :=
| GSys (x : obs)                      (* something observed of the client *)
| GLine (w : who) (t : bytes)         (* a line on the standard output *)
| GNoOutput                           (* the standard output fails *)
| GExit (e : exit).                   (* [main] returns or panics *)
Inductive glabel :=
| GTask (l : label)                   (* a step of connecting, the task, the server, the executor *)
| GMain                               (* the next thing the main thread does *)
| GMainMute                           (* it prints, and the standard output fails *)
| GCloseReturn | GCloseTimeout        (* [close] returns *)
| GBody                               (* the next thing the callback that runs does *)
| GBodyMute.

Definition background (g : prog) (l : label) : bool :=
  match l with
  | LHandshake _ | LOpenSeen | LOpenTimeout => match g_main g with MConnecting => true | _ => false end
  | LRead _ | LReadErr | LReadEnd | LTake | LWrite | LWriteErr | LClosed | LCloseFrame _ | LCancel => true
  | LAbort => match g_main g with MExited _ => true | _ => false end
  | _ => false
  end.
(** What [connect] returned, for the main thread. *)
Definition after_connect (p : program) (m : spot) (s : state) : spot * list gobs :=
  match m, s_conn s with
  | MConnecting, CConnected _ => (MActs (main_acts p), [])
  | MConnecting, CFailed _ => (MExited ExitErr, [GExit ExitErr])
  | MConnecting, CPanicked => (MExited ExitPanic, [GExit ExitPanic])
  | _, _ => (m, [])
  end.
(** The body of the callback that a step of the task has called. *)
Definition after_task (p : program) (b : list bact) (o : list obs) : list bact :=
  fold_left (fun b x => match x with OCall _ c => body p c | _ => b end) o b.
Definition is_panic (x : obs) : bool := match x with OUserPanic => true | _ => false end.
Definition is_lost (x : obs) : bool := match x with OLost _ _ => true | _ => false end.
Definition after_act (a : act) (rest : list act) (o : list obs) : spot :=
  if existsb is_panic o then MLeaving ExitPanic
  else match a with
       | ApiTry _ => if existsb is_lost o then MLeaving ExitErr else MActs rest
       | Api LCloseCall => MClosing
       | _ => MActs rest
       end.
(** What [close] returned: [close().await?]; the panic of the task goes on in [main]. *)
Definition exit_of (r : close_result) : exit :=
  match r with CloseOk => ExitOk | ClosePanic => ExitPanic | _ => ExitErr end.
Definition close_exit (o : list obs) : exit :=
  match o with OClose r :: _ => exit_of r | _ => ExitErr end.

Definition gstep (p : program) (log : bool) (g : prog) (l : glabel) : option (prog * list gobs) :=
  match l with
  | GTask l =>
      if background g l then
        match step log (g_sys g) l with
        | Some (s, o) =>
            let (m, x) := after_connect p (g_main g) s in
            Some (Prog s m (after_task p (g_body g) o), map GSys o ++ x)
        | None => None
        end
      else None
  | GMain =>
      match g_main g with
      | MActs (Say t :: rest) => Some (Prog (g_sys g) (MActs rest) (g_body g), [GLine TheMain t])
      | MActs ((Api l | ApiTry l) as a :: rest) =>
          match step log (g_sys g) l with
          | Some (s, o) => Some (Prog s (after_act a rest o) (g_body g), map GSys o)
          | None => None
          end
      | MLeaving e =>
          match step log (g_sys g) LDropClient with
          | Some (s, o) => Some (Prog s (MExited e) (g_body g), map GSys o ++ [GExit e])
          | None => None
          end
      | _ => None
      end
  | GMainMute =>
      match g_main g with
      | MActs (Say _ :: _) => Some (Prog (g_sys g) (MLeaving ExitPanic) (g_body g), [GNoOutput])
      | _ => None
      end
  | GCloseReturn =>
      match g_main g, step log (g_sys g) LCloseReturn with
      | MClosing, Some (s, o) => Some (Prog s (MLeaving (close_exit o)) (g_body g), map GSys o)
      | _, _ => None
      end
  | GCloseTimeout =>
      match g_main g, step log (g_sys g) LCloseTimeout with
      | MClosing, Some (s, o) => Some (Prog s (MLeaving (close_exit o)) (g_body g), map GSys o)
      | _, _ => None
      end
  | GBody =>
      match s_phase (g_sys g), g_body g with
      | PCalling _ _, BSay (Some t) :: rest => Some (Prog (g_sys g) (g_main g) rest, [GLine TheCallback t])
      | PCalling _ _, BSay None :: _ =>
          match step log (g_sys g) LCbPanic with
          | Some (s, o) => Some (Prog s (g_main g) [], map GSys o)
          | None => None
          end
      | PCalling _ _, BAnswer :: rest =>
          match step log (g_sys g) (LCbAck (length (s_acks (g_sys g)) - 1) false [SStr (bs "message received")]) with
          | Some (s, o) => Some (Prog s (g_main g) rest, map GSys o)
          | None => None
          end
      | PCalling _ _, [] =>
          match step log (g_sys g) LCbReturn with
          | Some (s, o) => Some (Prog s (g_main g) [], map GSys o)
          | None => None
          end
      | _, _ => None
      end
  | GBodyMute =>
      match s_phase (g_sys g), g_body g with
      | PCalling _ _, BSay _ :: _ =>
          match step log (g_sys g) LCbPanic with
          | Some (s, o) => Some (Prog s (g_main g) [], GNoOutput :: map GSys o)
          | None => None
          end
      | _, _ => None
      end
  end.

Fixpoint gexecute (p : program) (log : bool) (g : prog) (ls : list glabel) : option (prog * list gobs) :=
  match ls with
  | [] => Some (g, [])
  | l :: ls' =>
      match gstep p log g l with
      | Some (g1, o1) =>
          match gexecute p log g1 ls' with
          | Some (g2, o2) => Some (g2, o1 ++ o2)
          | None => None
          end
      | None => None
      end
  end.
