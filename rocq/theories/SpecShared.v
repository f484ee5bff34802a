(** Specifications for several clients and threads that share event callbacks. *)
From Verif Require Export Shared SpecFlow.

(** [world_run log n ls w o]: [n] clients; the labels [ls], in this order, lead to [w], and [o] is
    observed. *)
Definition world_run (log : bool) (n : nat) (ls : list wlabel) (w : world) (o : list wobs) : Prop :=
  wexecute log (world_init n) ls = Some (w, o).

(** What one client does and what is observed of it.  To the client, a callback that refuses to run
    is a callback that panics at once. *)
Definition labels_of (i : nat) (ls : list wlabel) : list label :=
  flat_map (fun l => match l with
                     | WClient j x => if Nat.eqb j i then [x] else []
                     | WRefuse j => if Nat.eqb j i then [LCbPanic] else []
                     | _ => []
                     end) ls.
Definition obs_of (i : nat) (o : list wobs) : list obs :=
  flat_map (fun x => match x with WObs j y => if Nat.eqb j i then [y] else [] | _ => [] end) o.

(** After [o], the body of [f] is being run by [r]: it has begun and not ended. *)
Definition ends_run (f : cb) (x : wobs) : Prop := exists r p, x = WEnd r f p.
Definition running (o : list wobs) (f : cb) (r : runner) : Prop :=
  exists o1 o2, o = o1 ++ WBegin r f :: o2 /\ forall x, In x o2 -> ~ ends_run f x.
(** A run of [f] has panicked. *)
Definition has_panicked (o : list wobs) (f : cb) : Prop := exists r, In (WEnd r f true) o.

(** Event callbacks that the receiver of client [i] has called; whose bodies its task has begun; whose
    calls it was refused. *)
Definition calls_of (i : nat) (o : list wobs) : list cb :=
  flat_map (fun x => match x with OCall _ (EventCall f _ _) => [f] | _ => [] end) (obs_of i o).
Definition begun_by (i : nat) (o : list wobs) : list cb :=
  flat_map (fun x => match x with WBegin (RTask j) f => if Nat.eqb j i then [f] else [] | _ => [] end) o.
Definition refused_to (i : nat) (o : list wobs) : list cb :=
  flat_map (fun x => match x with WRefused (RTask j) f => if Nat.eqb j i then [f] else [] | _ => [] end) o.

(** Full statement of a property that turned out to be false: a call of a callback panics without
    running it only if the callback has panicked in the same client. *)
Definition C54_full : Prop := forall log n ls w o i f, world_run log n ls w o ->
  In (WRefused (RTask i) f) o -> In (WEnd (RTask i) f true) o.
