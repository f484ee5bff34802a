(** Model of the mutex inside an [EventCallback] (socket-io-client/src/callbacks.rs:11-39), and with
    it of several clients and threads that share callbacks: [EventCallback] is [Clone], its clones
    share one [Arc<Mutex<dyn FnMut>>], any of them can be set for any event of any client, and
    [EventCallback::call] is public.

    One [System.state] per client.  When the receiver of a client calls an event callback
    (receiver.rs:145-147), the task first waits for the mutex of the callback, holding the callback
    table of its client; only then the body runs.  [lock().unwrap()] panics if an earlier run of the
    body has panicked.  An [AckCallback] is a [Box] and has no mutex (callbacks.rs:41-61). *)
From Verif Require Export System.

(** Who runs the body of a callback: the task of a client, or a user thread. *)
Inductive runner := RTask (i : nat) | RUser (t : N).
(** The mutex of an event callback. *)
Record lock := Lock { l_holder : option runner; l_poisoned : bool }.
Record world := World { w_clients : list state; w_locks : cb -> lock }.

(** [n] clients that begin to connect; no callback has run. *)
Definition world_init (n : nat) : world := World (repeat init n) (fun _ => Lock None false).

Inductive wlabel :=
| WClient (i : nat) (l : label)        (* a step of client [i], its task, callbacks and users *)
| WEnter (i : nat)                     (* its task gets the mutex of the callback it calls *)
| WRefuse (i : nat)                    (* its task finds that mutex poisoned: [unwrap], callbacks.rs:19 *)
| WUserEnter (t : N) (f : cb)          (* a user thread calls the callback itself and gets the mutex *)
| WUserRefuse (t : N) (f : cb)         (* likewise, and finds it poisoned *)
| WUserLeave (t : N) (f : cb) (panics : bool).

Inductive wobs :=
| WObs (i : nat) (x : obs)                           (* an observation of client [i] *)
| WBegin (r : runner) (f : cb)                       (* the body of [f] begins *)
| WEnd (r : runner) (f : cb) (panicked : bool)       (* it ends *)
| WRefused (r : runner) (f : cb).                    (* the call of [f] panics before the body begins *)

(** The event callback that the task of a client is calling (or waiting to call). *)
Definition calling (s : state) : option cb :=
  match s_phase s with PCalling _ (EventCall f _ _) => Some f | _ => None end.
(** Labels that are actions of the body of a callback run by the task. *)
Definition of_body (l : label) : bool :=
  match l with LCbTable _ | LCbEmit _ | LCbAck _ _ _ | LCbReturn | LCbPanic => true | _ => false end.
(** Whether the task is still in the call (perhaps blocked). *)
Definition in_call (s : state) : bool := match s_phase s with PCalling _ _ | PStuck => true | _ => false end.

Definition runner_eqb (a b : runner) : bool :=
  match a, b with RTask i, RTask j => Nat.eqb i j | RUser t, RUser u => N.eqb t u | _, _ => false end.
Definition held_by (r : runner) (k : lock) : bool :=
  match l_holder k with Some r' => runner_eqb r r' | None => false end.
Definition set_lock (f : cb) (k : lock) (m : cb -> lock) : cb -> lock := fun g => if (g =? f)%N then k else m g.

Definition wstep (log : bool) (w : world) (l : wlabel) : option (world * list wobs) :=
  let m := w_locks w in
  match l with
  | WClient i l =>
      match nth_error (w_clients w) i with
      | None => None
      | Some s =>
          match step log s l with
          | None => None
          | Some (s', o) =>
              let cs := list_update i s' (w_clients w) in
              match calling s with
              | Some f =>
                  if of_body l then
                    if held_by (RTask i) (m f) then
                      if in_call s' then Some (World cs m, map (WObs i) o)
                      else (* the guard of the mutex is dropped, by a panic or not *)
                        Some (World cs (set_lock f (Lock None (l_poisoned (m f) || task_ended s')) m),
                              map (WObs i) o ++ [WEnd (RTask i) f (task_ended s')])
                    else None (* the body has not begun *)
                  else Some (World cs m, map (WObs i) o)
              | None => Some (World cs m, map (WObs i) o)
              end
          end
      end
  | WEnter i =>
      match nth_error (w_clients w) i with
      | None => None
      | Some s =>
          match calling s with
          | None => None
          | Some f =>
              match m f with
              | Lock None false => Some (World (w_clients w) (set_lock f (Lock (Some (RTask i)) false) m), [WBegin (RTask i) f])
              | _ => None
              end
          end
      end
  | WRefuse i =>
      match nth_error (w_clients w) i with
      | None => None
      | Some s =>
          match calling s with
          | None => None
          | Some f =>
              match m f with
              | Lock None true =>
                  match step log s LCbPanic with
                  | Some (s', o) => Some (World (list_update i s' (w_clients w)) m, WRefused (RTask i) f :: map (WObs i) o)
                  | None => None
                  end
              | _ => None
              end
          end
      end
  | WUserEnter t f =>
      match m f with
      | Lock None false => Some (World (w_clients w) (set_lock f (Lock (Some (RUser t)) false) m), [WBegin (RUser t) f])
      | _ => None
      end
  | WUserRefuse t f =>
      match m f with
      | Lock None true => Some (w, [WRefused (RUser t) f])
      | _ => None
      end
  | WUserLeave t f p =>
      if held_by (RUser t) (m f)
      then Some (World (w_clients w) (set_lock f (Lock None (l_poisoned (m f) || p)) m), [WEnd (RUser t) f p])
      else None
  end.

Fixpoint wexecute (log : bool) (w : world) (ls : list wlabel) : option (world * list wobs) :=
  match ls with
  | [] => Some (w, [])
  | l :: ls' =>
      match wstep log w l with
      | Some (w1, o1) =>
          match wexecute log w1 ls' with
          | Some (w2, o2) => Some (w2, o1 ++ o2)
          | None => None
          end
      | None => None
      end
  end.
