(** Specifications for callbacks that call callbacks. *)
From Verif Require Export Nest.

Definition nest_run (n : nat) (ls : list clabel) (s : nest) (o : list cobs) : Prop := cexecute (nest_init n) ls = Some (s, o).
Definition after (s s' : nest) : Prop := exists ls o, cexecute s ls = Some (s', o).

(** After [o], thread [t] executes the body of [f]: it has begun it, and the run has not ended. *)
Definition executes (o : list cobs) (t : nat) (f : cb) : Prop :=
  exists o1 o2, o = o1 ++ CBegin t f :: o2 /\ forall t' p, ~ In (CEnd t' f p) o2.
(** A panic has passed through a run of [f]. *)
Definition was_passed (o : list cobs) (f : cb) : Prop := exists t, In (CEnd t f true) o.
(** Of the bodies that [t] executes, [f] is the one that began last. *)
Definition innermost (o : list cobs) (t : nat) (f : cb) : Prop :=
  exists o1 o2, o = o1 ++ CBegin t f :: o2 /\ (forall t' p, ~ In (CEnd t' f p) o2) /\ forall g, ~ executes o2 t g.
(** A run of [f] has itself panicked (and not only been passed by the panic of what it called). *)
Definition has_panicked_itself (n : nat) (ls : list clabel) (f : cb) : Prop :=
  exists ls1 t k ls2 s o, ls = ls1 ++ CPanic t k :: ls2 /\ nest_run n ls1 s o /\ innermost o t f.

(** Full statement of a property that turned out to be false: a call is refused only if the body of the callback
    itself has panicked. *)
Definition C96_full : Prop := forall n ls s o t f, nest_run n ls s o -> In (CRefused t f) o -> has_panicked_itself n ls f.
(** Every body catches the panics of the callbacks it calls. *)
Definition bodies_catch (ls : list clabel) : Prop :=
  forall t k, (In (CPanic t k) ls -> k = 1) /\ (In (CRefuse t k) ls -> k = 0).

(** Waiting. *)
Definition calls (s : nest) (t : nat) (f : cb) : Prop :=
  exists fs, nth_error (n_threads s) t = Some (Thread fs (Some f)).
(** [t] waits for a callback that [t'] executes; [o] is what has been observed. *)
Definition awaits (s : nest) (o : list cobs) (t t' : nat) : Prop := exists f, calls s t f /\ executes o t' f.
(** A deadlock with [t] in it, or before it: a set of threads each of which waits for one of them. *)
Definition in_deadlock (s : nest) (o : list cobs) (t : nat) : Prop :=
  exists S : nat -> Prop, S t /\ forall x, S x -> exists y, S y /\ awaits s o x y.

(** No callback is called by itself, directly or by way of others. *)
Definition no_callback_calls_itself (n : nat) (ls : list clabel) : Prop :=
  forall ls1 t f ls2 s o, ls = ls1 ++ CCall t f :: ls2 -> nest_run n ls1 s o -> ~ executes o t f.
(** The full statement (false): then there are no deadlocks. *)
Definition C97_full : Prop := forall n ls s o t,
  nest_run n ls s o -> no_callback_calls_itself n ls -> ~ in_deadlock s o t.
(** Callbacks call only callbacks of smaller rank. *)
Definition calls_descend (rank : cb -> nat) (n : nat) (ls : list clabel) : Prop :=
  forall ls1 t f ls2 s o, ls = ls1 ++ CCall t f :: ls2 -> nest_run n ls1 s o ->
    forall g, innermost o t g -> rank f < rank g.
