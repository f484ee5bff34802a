(** Runs with a clock and with what the server has sent: how soon that is handled. *)
From Verif Require Export SpecPace.

(** A run with a clock: the state, the time, the time since which the task has been doing what it
    does, how often something to read has been passed over since something was last read, the messages
    that have arrived and not been read, all that have arrived, and what has been observed. *)
Record desk := Desk { e_state : state; e_now : nat; e_since : nat; e_passed : nat;
  e_inbox : list wsmsg; e_came : list wsmsg; e_seen : list (nat * obs) }.
(** The task has something to do: a frame to hand to the websocket, a callback to finish, to close the
    websocket, or something to read (connection.rs:126-175). *)
Definition occupied (s : state) (inbox : list wsmsg) : bool :=
  match s_phase s, inbox with
  | PSending _, _ | PCalling _ _, _ | PClosing, _ | PLoop, _ :: _ | PReading, _ :: _ => true
  | _, _ => false
  end.
(** [select!] takes a message from the channel although there is something to read. *)
Definition passes_reading (inbox : list wsmsg) (l : label) : bool :=
  match l, inbox with LTake, _ :: _ => true | _, _ => false end.
(** What a step leaves of what has arrived. *)
Definition reads_from (inbox : list wsmsg) (l : label) (inbox' : list wsmsg) : Prop :=
  match l with LRead m => inbox = m :: inbox' | _ => inbox' = inbox end.

(** Time goes on, but a task with something to do does its next step within [d]; messages arrive at any
    time once there is a websocket; and [select!] passes reading over at most [k] times in a row. *)
Inductive turns (log : bool) (d k : nat) : desk -> desk -> Prop :=
| tn_wait s t t' a n i h o : t <= t' -> (occupied s i = true -> t' <= a + d) ->
    turns log d k (Desk s t a n i h o) (Desk s t' a n i h o)
| tn_arrive s t a n i h o m : s_phase s <> PUnborn -> ws_valid m = true ->
    turns log d k (Desk s t a n i h o) (Desk s t (if occupied s i then a else t) n (i ++ [m]) (h ++ [m]) o)
| tn_step s t a n i h o l s' o' i' : step log s l = Some (s', o') -> reads_from i l i' -> (passes_reading i l = true -> n < k) ->
    turns log d k (Desk s t a n i h o)
      (Desk s' t (if by_task l || negb (occupied s i) then t else a)
        (if passes_reading i l then S n else match l with LRead _ => 0 | _ => n end)
        i' h (o ++ map (pair t) o')).
Inductive onward (log : bool) (d k : nat) (c : desk) : desk -> Prop :=
| on_here : onward log d k c c
| on_turn c1 c2 : onward log d k c c1 -> turns log d k c1 c2 -> onward log d k c c2.
Definition attended (log : bool) (d k : nat) (c : desk) : Prop := exists t, onward log d k (Desk init t t 0 [] [] []) c.

Definition noticed (c : desk) : list obs := map snd (e_seen c).
Definition noticed_until (t : nat) (c : desk) : list obs := map snd (filter (fun x => fst x <=? t) (e_seen c)).
(** The steps until all that has arrived is read, when no message in the channel has more than [f]
    frames: what is in hand, one to leave the main loop (if the close frame comes first), and for each
    message the reading, the callback, and [k] messages of the channel taken and written before. *)
Definition steps_to_read (k f : nat) (c : desk) : nat := 1 + in_hand (e_state c) + length (e_inbox c) * (2 + k * (f + 1)).

(** Reading [m] after the messages [q] completes the packet [p] (as [completes] in SpecClient.v, for the
    messages alone). *)
Definition brings (q : list wsmsg) (m : wsmsg) (p : packet) : Prop :=
  is_data m = true /\ exists x ps rest, engine_answer q m (Ok (PktMessage x)) /\
    assembled (messages q) ps rest /\ assembled (messages q ++ [x]) (ps ++ [p]) [].
