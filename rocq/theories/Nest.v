(** Model of event callbacks that call event callbacks: [EventCallback::call]
    (socket-io-client/src/callbacks.rs:18-20) is public and takes no lock but the mutex of the callback,
    so the body of a callback can call others (or itself, by a clone).

    [call] locks the mutex, and the guard is a temporary of the expression in callbacks.rs:19: it is
    dropped when the body returns, or when a panic of the body passes.  The standard mutex is poisoned
    by a guard dropped in a panic, [lock().unwrap()] panics if it is poisoned, and a thread that locks
    a mutex it has locked already waits for ever (the standard library says: waits or panics; on Linux
    it waits).

    Here a thread is anything that calls callbacks: a thread of the user or the task of a client
    (receiver.rs:145-147, lib.rs:146).  Not modelled here: what callbacks do to clients (that is [System.v],
    [Shared.v] and [Mesh.v]), callbacks called by destructors while a panic passes. *)
From Verif Require Export Shared.

(** The bodies that a thread is executing, the innermost first; the callback whose mutex it waits for. *)
Record thread := Thread { t_runs : list cb; t_calls : option cb }.
Record mutex := Mutex { x_holder : option nat; x_poisoned : bool }.
Record nest := Nest { n_threads : list thread; n_locks : cb -> mutex }.

(** [n] threads; no callback has been called. *)
Definition nest_init (n : nat) : nest := Nest (repeat (Thread [] None) n) (fun _ => Mutex None false).

Inductive clabel :=
| CCall (t : nat) (f : cb)       (* thread [t] calls [f], from the innermost body it executes, or from outside *)
| CEnter (t : nat)               (* it gets the mutex, and the body begins *)
| CRefuse (t k : nat)            (* it finds the mutex poisoned; the panic passes through [k] bodies and is caught then *)
| CReturn (t : nat)              (* its innermost body returns *)
| CPanic (t k : nat).            (* its innermost body panics; the panic passes through [k] bodies and is caught then *)

Inductive cobs :=
| CBegin (t : nat) (f : cb)                    (* the body of [f] begins *)
| CEnd (t : nat) (f : cb) (panicked : bool)    (* it ends *)
| CRefused (t : nat) (f : cb).                 (* the call of [f] panics before the body begins *)

Definition set_mutex (f : cb) (x : mutex) (m : cb -> mutex) : cb -> mutex := fun g => if (g =? f)%N then x else m g.
(** A panic passes through the bodies of [fs]: their guards are dropped. *)
Fixpoint unwind (fs : list cb) (m : cb -> mutex) : cb -> mutex :=
  match fs with
  | [] => m
  | f :: fs' => unwind fs' (set_mutex f (Mutex None true) m)
  end.

Definition cstep (s : nest) (l : clabel) : option (nest * list cobs) :=
  let go t th m o := Some (Nest (list_update t th (n_threads s)) m, o) in
  let m := n_locks s in
  match l with
  | CCall t f =>
      match nth_error (n_threads s) t with
      | Some (Thread fs None) => go t (Thread fs (Some f)) m []
      | _ => None
      end
  | CEnter t =>
      match nth_error (n_threads s) t with
      | Some (Thread fs (Some f)) =>
          match m f with
          | Mutex None false => go t (Thread (f :: fs) None) (set_mutex f (Mutex (Some t) false) m) [CBegin t f]
          | _ => None
          end
      | _ => None
      end
  | CRefuse t k =>
      match nth_error (n_threads s) t with
      | Some (Thread fs (Some f)) =>
          match m f with
          | Mutex None true =>
              if Nat.leb k (length fs)
              then go t (Thread (skipn k fs) None) (unwind (firstn k fs) m)
                     (CRefused t f :: map (fun g => CEnd t g true) (firstn k fs))
              else None
          | _ => None
          end
      | _ => None
      end
  | CReturn t =>
      match nth_error (n_threads s) t with
      | Some (Thread (f :: fs) None) => go t (Thread fs None) (set_mutex f (Mutex None (x_poisoned (m f))) m) [CEnd t f false]
      | _ => None
      end
  | CPanic t k =>
      match nth_error (n_threads s) t with
      | Some (Thread fs None) =>
          if Nat.leb 1 k && Nat.leb k (length fs)
          then go t (Thread (skipn k fs) None) (unwind (firstn k fs) m) (map (fun g => CEnd t g true) (firstn k fs))
          else None
      | _ => None
      end
  end.

Fixpoint cexecute (s : nest) (ls : list clabel) : option (nest * list cobs) :=
  match ls with
  | [] => Some (s, [])
  | l :: ls' =>
      match cstep s l with
      | Some (s1, o1) =>
          match cexecute s1 ls' with
          | Some (s2, o2) => Some (s2, o1 ++ o2)
          | None => None
          end
      | None => None
      end
  end.
