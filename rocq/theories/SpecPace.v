(** Runs with a clock: how soon what is queued is written, when the task is never held up for long. *)
From Verif Require Export SpecFair.

(** The task has something to do that does not depend on the server or on a user: a frame to hand to
    the websocket, a callback to finish, a message to take from the channel, or to close the websocket
    when it has been told to (connection.rs:126-167). *)
Definition busy (s : state) : bool :=
  match s_phase s with
  | PSending _ | PCalling _ _ | PClosing => true
  | PLoop => s_signal s || match s_chan s with [] => false | _ => true end
  | _ => false
  end.
(** The steps of the task, and of the callback it runs, as opposed to those of the users. *)
Definition by_task (l : label) : bool :=
  match l with
  | LRead _ | LReadErr | LReadEnd | LTake | LWrite | LWriteErr | LClosed | LCloseFrame _ | LCancel
  | LAbort | LCbReturn | LCbPanic => true
  | _ => false
  end.
(** [select!] takes something read although a message waits in the channel. *)
Definition passes (s : state) (l : label) : bool :=
  match l, s_phase s, s_chan s with LRead _, PLoop, _ :: _ => true | _, _, _ => false end.

(** [select!] goes on although the task has been told to close. *)
Definition passes_close (s : state) (l : label) : bool :=
  match l, s_phase s with (LRead _ | LTake), PLoop => s_signal s | _, _ => false end.

(** A run with a clock: the state, the time, the time since which the task has been doing what it
    does, how often the channel has been passed over since it was last taken from, how often the
    signal to close has been passed over, and what has been observed, with the time of each. *)
Record clock := Clock { k_state : state; k_now : nat; k_since : nat; k_passed : nat; k_told : nat; k_seen : list (nat * obs) }.
(** Time goes on, but a task that is busy does its next step within [d]; and [select!] passes the
    channel over at most [k] times in a row, and likewise the signal to close. *)
Inductive ticks (log : bool) (d k : nat) : clock -> clock -> Prop :=
| tk_wait s t t' a n c o : t <= t' -> (busy s = true -> t' <= a + d) ->
    ticks log d k (Clock s t a n c o) (Clock s t' a n c o)
| tk_step s t a n c o l s' o' : step log s l = Some (s', o') ->
    (passes s l = true -> n < k) -> (passes_close s l = true -> c < k) ->
    ticks log d k (Clock s t a n c o)
      (Clock s' t (if by_task l || negb (busy s) then t else a)
        (if passes s l then S n else match l with LTake => 0 | _ => n end)
        (if passes_close s l then S c else c)
        (o ++ map (pair t) o')).
Inductive later (log : bool) (d k : nat) (c : clock) : clock -> Prop :=
| lt_here : later log d k c c
| lt_tick c1 c2 : later log d k c c1 -> ticks log d k c1 c2 -> later log d k c c2.
Definition paced (log : bool) (d k : nat) (c : clock) : Prop := exists t, later log d k (Clock init t t 0 0 []) c.

(** What has been observed, and what of it up to the time [t]. *)
Definition observed (c : clock) : list obs := map snd (k_seen c).
Definition seen_until (t : nat) (c : clock) : list obs := map snd (filter (fun x => fst x <=? t) (k_seen c)).

(** The frames that have been queued and not written; and the time their writing may take: each takes
    a step, as does each taking of a message, each of the [k] readings before it, each callback
    called by one of those, and the callback running now. *)
Definition unwritten (c : clock) : nat := length (concat (queued (observed c))) - length (writes (observed c)).
Definition steps_needed (k : nat) (c : clock) : nat :=
  1 + unwritten c + (2 * k + 1) * length (s_chan (k_state c)).

(** The frames of the message the task is sending, or the callback it is in. *)
Definition in_hand (s : state) : nat :=
  match s_phase s with PSending rest => length rest | PCalling _ _ => 1 | _ => 0 end.
(** The steps until the close frame is sent, when no message has more than [f] frames: those of what is
    in hand, of what is done each time the signal is passed over, and two to close. *)
Definition steps_to_close (k f : nat) (c : clock) : nat := 2 + in_hand (k_state c) + k * (f + 1).
(** The task has left its main loop and has done with sending the close frame. *)
Definition past_closing (s : state) : Prop :=
  match s_phase s with PReading | PCalling true _ | PStuck | PEnded _ => True | _ => False end.
