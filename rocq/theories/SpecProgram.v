(** What the example programs are for: what statements about their runs are made of. *)
From Verif Require Export Programs SpecFlow SpecPeer.

(** ** Runs *)
Definition prog_run (p : program) (log : bool) (ls : list glabel) (g : prog) (o : list gobs) : Prop :=
  gexecute p log prog_init ls = Some (g, o).
(** What was observed of the client. *)
Definition sys (o : list gobs) : list obs := flat_map (fun x => match x with GSys y => [y] | _ => [] end) o.
(** The lines that the callbacks, or the main thread, have printed. *)
Definition same_who (a b : who) : bool :=
  match a, b with TheMain, TheMain | TheCallback, TheCallback => true | _, _ => false end.
Definition lines (w : who) (o : list gobs) : list bytes :=
  flat_map (fun x => match x with GLine w' t => if same_who w w' then [t] else [] | _ => [] end) o.
(** The calls of callbacks. *)
Definition calls_made (o : list obs) : list call := flat_map (fun x => match x with OCall _ c => [c] | _ => [] end) o.
Definition has_ended (g : prog) : Prop := exists e, g_main g = MExited e.

(** ** Crashes *)
Definition call_args (c : call) : args_t := match c with EventCall _ a _ | AckCall _ a => a end.
(** Why a program can panic: the standard output fails; the server sends something that cannot be
    displayed to a callback; the server makes the task panic (C48); the task ended before the Open
    packet (C40). *)
Inductive crash (log : bool) (o : list gobs) : Prop :=
| cr_output : In GNoOutput o -> crash log o
| cr_display c : In c (calls_made (sys o)) -> show_args (call_args c) = None -> crash log o
| cr_task o1 m o2 : sys o = o1 ++ ORead m :: o2 -> overflow_message o1 m \/ unshowable_message log o1 m -> crash log o
| cr_connect : In (OConnect CPanicked) (sys o) -> crash log o.
(** The full statement: with a working standard output the programs do not panic. *)
Definition C98_full : Prop := forall p log ls g o,
  prog_run p log ls g o -> ~ In GNoOutput o -> ~ In (GExit ExitPanic) o.

(** Steps for which the program needs nobody else: neither the server nor the network. *)
Definition own_step (l : glabel) : bool :=
  match l with
  | GMain | GCloseReturn | GCloseTimeout | GBody | GTask LOpenTimeout | GTask (LHandshake (Some CHandshakeTimeout)) => true
  | _ => false
  end.
Definition main_step (l : glabel) : bool :=
  match l with GMain | GMainMute | GCloseReturn | GCloseTimeout => true | _ => false end.
Definition callback_step (l : glabel) : bool := match l with GBody | GBodyMute => true | _ => false end.

(** ** Lines *)
Definition line (prefix : bytes) (a : args_t) : bytes := prefix ++ match show_args a with Some t => t | None => [] end.
Definition call_lines (p : program) (c : call) : list bytes :=
  match p, c with
  | _, AckCall _ a => [line (bs "event ack received: ") a]
  | SocketioTest, EventCall 1%N a None => [line (bs "types messaged received: ") a]
  | SocketioTest, EventCall 1%N a (Some _) => [line (bs "types messaged received: ") a; bs "Emitting ack"]
  | WsConnect (Some ns), EventCall 3%N a _ => [line (ns ++ bs ": ") a]
  | _, EventCall _ a _ => [line [] a]
  end.
(** The last call is not finished: its callback runs, or has panicked. *)
Definition unfinished (g : prog) : Prop := (exists b c, s_phase (g_sys g) = PCalling b c) \/ s_phase (g_sys g) = PEnded EndPanic.
Definition initial_part {A} (l l' : list A) : Prop := exists r, l' = l ++ r.

(** ** Answers *)
(** The events with an id that were given to the callback for "types". *)
Definition questions (o : list obs) : list (bytes * N) :=
  flat_map (fun x => match x with OCall _ (EventCall 1%N _ (Some a)) => [(ab_ns a, ab_id a)] | _ => [] end) o.
(** The acks given to the channel. *)
Definition replies (o : list obs) : list (bytes * N * list wsmsg) :=
  flat_map (fun x => match x with OQueued (ByAck ns id) fs | OLost (ByAck ns id) fs => [(ns, id, fs)] | _ => [] end) o.
Definition answer_to (q : bytes * N) : bytes * N * list wsmsg :=
  (q, [WText (bs "43" ++ dec (snd q) ++ bs "[""message received""]")]).
(** The events emitted. *)
Definition asked_for (o : list obs) : list (bytes * option N * list wsmsg) :=
  flat_map (fun x => match x with OQueued (ByEmit ns id) fs | OLost (ByEmit ns id) fs => [(ns, id, fs)] | _ => [] end) o.
Definition the_question : bytes * option N * list wsmsg :=
  (bs "/", Some 0%N, [WText (bs "451-0[""event"",{""_placeholder"":true,""num"":0},""hello""]"); WBinary [x04; xde; xad; xbe; xef]]).
(** What the users of the channel have given to it directly. *)
Definition raw_sent (o : list obs) : list (list wsmsg) :=
  flat_map (fun x => match x with OQueued ByUser fs | OLost ByUser fs => [fs] | _ => [] end) o.
Definition is_reply (x : obs) : bool := match x with OCall _ (AckCall _ _) => true | _ => false end.

(** ** Joining a namespace *)
(** The peer takes the frame for a request to join the namespace, without a payload. *)
Definition peer_joins (ns : bytes) (fs : list wsmsg) : Prop :=
  exists t, fs = [WText ("4"%byte :: t)] /\ sio_decode t = Some (Sio SConnect 0%N ns None None).
(** The full statement: whatever the namespace, ws_connect asks to join it. *)
Definition C100_full : Prop := forall ns, peer_joins ns (join_frames ns).

(** ** Which callback an event goes to *)
(** The callbacks of the program have been set. *)
Definition callbacks_set (p : program) (o : list obs) : Prop :=
  match p with
  | SocketioTest => In (OTable (SetEvent (bs "/") (bs "types") cb_types)) o
  | WsConnect None => In (OTable (SetFallback (bs "/") cb_print)) o
  | WsConnect (Some ns) => In (OTable (SetFallback ns cb_named)) o
  end.
Definition goes_to (p : program) (ns name : bytes) : option cb :=
  match p with
  | SocketioTest => if bytes_eqb ns (bs "/") then Some (if bytes_eqb name (bs "types") then cb_types else cb_print) else None
  | WsConnect None => if bytes_eqb ns (bs "/") then Some cb_print else None
  | WsConnect (Some n) => if bytes_eqb ns n then Some cb_named else if bytes_eqb ns (bs "/") then Some cb_print else None
  end.
