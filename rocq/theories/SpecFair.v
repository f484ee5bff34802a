(** Runs that go on for ever, and what must happen in them when nobody is starved. *)
From Verif Require Export SpecFlow.

(** A life of a client: its state at each moment, and what happens and is observed there (possibly
    nothing). *)
Record life := Life { at_time : nat -> state; does : nat -> option label; sees : nat -> list obs }.
Definition lives (log : bool) (r : life) : Prop :=
  at_time r 0 = init /\
  forall k, match does r k with
            | Some l => step log (at_time r k) l = Some (at_time r (S k), sees r k)
            | None => at_time r (S k) = at_time r k /\ sees r k = []
            end.
(** All that is observed before the moment [k]. *)
Fixpoint seen (r : life) (k : nat) : list obs :=
  match k with O => [] | S k' => seen r k' ++ sees r k' end.

(** [select!] chooses at random among the branches that are ready, so none is passed over for ever:
    from any moment on, [l] happens or is, from some moment on, never possible any more. *)
Definition fair_to (log : bool) (r : life) (l : label) : Prop :=
  forall k, exists j, k <= j /\ (does r j = Some l \/ forall i, j <= i -> step log (at_time r i) l = None).
(** Every frame handed to the websocket is sent or refused some time. *)
Definition writes_end (r : life) : Prop :=
  forall k rest, s_phase (at_time r k) = PSending rest -> exists j, k <= j /\ s_phase (at_time r j) <> PSending rest.
(** Every callback returns, panics or blocks on the table some time. *)
Definition callbacks_end (r : life) : Prop :=
  forall k b c, s_phase (at_time r k) = PCalling b c -> exists j, k <= j /\ s_phase (at_time r j) <> PCalling b c.
(** Closing the websocket returns some time. *)
Definition closing_ends (r : life) : Prop :=
  forall k, s_phase (at_time r k) = PClosing -> exists j, k <= j /\ s_phase (at_time r j) <> PClosing.
(** A server that is sent a close frame ends the stream (or the stream fails). *)
Definition server_ends (r : life) : Prop :=
  forall k, s_phase (at_time r k) = PReading ->
    exists j, k <= j /\ (does r j = Some LReadEnd \/ does r j = Some LReadErr \/
      s_phase (at_time r j) = PStuck \/ task_ended (at_time r j) = true).

(** The task has left its main loop for good. *)
Definition past_loop (s : state) : Prop :=
  match s_phase s with PClosing | PReading | PCalling true _ | PStuck | PEnded _ => True | _ => False end.
Definition over (s : state) : Prop := s_phase s = PStuck \/ task_ended s = true.

(** A life that follows the labels [pre] and then [cycle] again and again. *)
Definition lasso_label (pre cycle : list label) (k : nat) : option label :=
  if Nat.ltb k (length pre) then nth_error pre k
  else nth_error cycle (Nat.modulo (k - length pre) (length cycle)).
Fixpoint follow (log : bool) (f : nat -> option label) (k : nat) : state :=
  match k with
  | O => init
  | S k' => match f k' with
            | Some l => match step log (follow log f k') l with Some (s, _) => s | None => follow log f k' end
            | None => follow log f k'
            end
  end.
Definition following (log : bool) (f : nat -> option label) : life :=
  Life (follow log f) f
    (fun k => match f k with
              | Some l => match step log (follow log f k) l with Some (_, o) => o | None => [] end
              | None => []
              end).

(** [close()] has returned (for the caller who was first), or they no longer wait for it. *)
Definition close_answered (r : life) (j : nat) : Prop :=
  (exists x, x <> CloseAlready /\ In (OClose x) (seen r j)) \/
  exists i, i < j /\ (does r i = Some LCloseDrop \/ does r i = Some LDropClient).
(** Pong frames. *)
Definition is_pong (m : wsmsg) : bool := match m with WText t => bytes_eqb t (bs "3") | _ => false end.
Definition pongs_written (o : list obs) : nat := length (filter is_pong (writes o)).
