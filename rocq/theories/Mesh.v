(** Model of how callbacks and threads use clients, on top of [Shared.v]: who has access to a client,
    and what a running callback or a thread waits for.

    All methods of [Client] take [&mut self] (socket-io-client/src/lib.rs:65-98, 168-204), so threads
    and callbacks that use the same client share it behind a mutex (say, [Arc<Mutex<Client>>]); this
    mutex is called the access to the client here.  Methods that touch the callback table
    (lib.rs:74, emit.rs:93-99) then lock the table (callbacks.rs:78), which the task of the client
    holds while a callback runs (receiver.rs:145-157).

    Not modelled: callbacks that call other callbacks themselves; the poisoning of the user's mutex.
    What a callback does to its own client is here done by way of the access, like what it does to
    others; the labels [LCbTable] and [LCbEmit] of [System.v] are not used. *)
From Verif Require Export Shared.

Inductive want :=
| WantClient (j : nat)               (* access to client [j] *)
| WantTable (j : nat) (l : label)    (* the callback table of client [j], for the step [l] *)
| WantCall (f : cb).                 (* a user thread calls an event callback itself: callbacks.rs:18-20 *)

Record mesh := Mesh {
  m_world : world;
  m_owner : nat -> option runner;          (* who has access to a client *)
  m_wants : list (runner * want) }.        (* what somebody waits for *)
Definition mesh_init (n : nat) : mesh := Mesh (world_init n) (fun _ => None) [].

Inductive mlabel :=
| MWorld (l : wlabel)                      (* a step that needs no access to a client *)
| MWant (r : runner) (x : want)            (* begins to wait *)
| MGet (r : runner)                        (* gets what it waits for *)
| MUse (r : runner) (j : nat) (l : label)  (* uses client [j] without touching the table *)
| MRelease (r : runner) (j : nat).

Fixpoint lookup (l : list (runner * want)) (r : runner) : option want :=
  match l with
  | [] => None
  | (r', x) :: l' => if runner_eqb r r' then Some x else lookup l' r
  end.
Definition wants (m : mesh) (r : runner) : option want := lookup (m_wants m) r.
Definition unwant (r : runner) (l : list (runner * want)) : list (runner * want) :=
  filter (fun rx => negb (runner_eqb r (fst rx))) l.
Definition client_at (m : mesh) (j : nat) : option state := nth_error (w_clients (m_world m)) j.

(** Code of [r] is executed: the body of a callback that has begun and not ended; a user thread. *)
Definition acting (w : world) (r : runner) : bool :=
  match r with
  | RUser _ => true
  | RTask i =>
      match nth_error (w_clients w) i with
      | Some s =>
          match s_phase s with
          | PCalling _ (EventCall f _ _) => held_by r (w_locks w f)
          | PCalling _ (AckCall _ _) => true
          | _ => false
          end
      | None => false
      end
  end.
Definition is_none {A} (o : option A) : bool := match o with None => true | Some _ => false end.
(** It is executed and does not wait. *)
Definition free (m : mesh) (r : runner) : bool := acting (m_world m) r && is_none (wants m r).
Definition owns (m : mesh) (r : runner) (j : nat) : bool :=
  match m_owner m j with Some r' => runner_eqb r r' | None => false end.

(** Methods of the client that do not touch the table; those that do: lib.rs:74, emit.rs:93-99. *)
Definition needs_client (l : label) : bool :=
  match l with LBuild _ | LEmit _ | LPush _ | LCloseCall | LDropClient => true | _ => false end.
Definition needs_table (l : label) : bool := match l with LTable _ | LRegister _ => true | _ => false end.
Definition in_mesh (l : label) : bool :=
  match l with LCbTable _ | LCbEmit _ => false | _ => negb (needs_client l) && negb (needs_table l) end.

(** When a callback ends (or panics), its guards are dropped. *)
Definition settle (w : world) (o : nat -> option runner) : nat -> option runner := fun j =>
  match o j with Some r => if acting w r then Some r else None | None => None end.
Definition set_owner (j : nat) (x : option runner) (o : nat -> option runner) : nat -> option runner :=
  fun k => if Nat.eqb k j then x else o k.

Definition may_want (m : mesh) (r : runner) (x : want) : bool :=
  match x with
  | WantClient _ => true
  | WantTable j l =>
      owns m r j &&
      match client_at m j with
      | Some s =>
          usable_client s &&
          match l with
          | LTable _ => true
          | LRegister k => match nth_error (s_inflight s) k with Some fl => negb (f_registered fl) | None => false end
          | _ => false
          end
      | None => false
      end
  | WantCall _ => match r with RUser _ => true | RTask _ => false end
  end.
Definition may_step (m : mesh) (l : wlabel) : bool :=
  match l with
  | WClient i l => in_mesh l && (negb (of_body l) || is_none (wants m (RTask i)))
  | WEnter _ | WRefuse _ => true
  | WUserEnter _ _ | WUserRefuse _ _ => false
  | WUserLeave t _ _ => is_none (wants m (RUser t))
  end.
(** A step of the world, with the access and the waits as given. *)
Definition world_step (log : bool) (m : mesh) (l : wlabel) (ws : list (runner * want)) : option (mesh * list wobs) :=
  match wstep log (m_world m) l with
  | Some (w, o) => Some (Mesh w (settle w (m_owner m)) ws, o)
  | None => None
  end.

Definition mstep (log : bool) (m : mesh) (l : mlabel) : option (mesh * list wobs) :=
  match l with
  | MWorld l => if may_step m l then world_step log m l (m_wants m) else None
  | MWant r x =>
      if free m r && may_want m r x then Some (Mesh (m_world m) (m_owner m) ((r, x) :: m_wants m), []) else None
  | MGet r =>
      let ws := unwant r (m_wants m) in
      match wants m r with
      | None => None
      | Some (WantClient j) =>
          match m_owner m j with
          | None => Some (Mesh (m_world m) (set_owner j (Some r) (m_owner m)) ws, [])
          | Some _ => None
          end
      | Some (WantTable j l) => world_step log m (WClient j l) ws
      | Some (WantCall f) =>
          match r with
          | RUser t => world_step log m (if l_poisoned (w_locks (m_world m) f) then WUserRefuse t f else WUserEnter t f) ws
          | RTask _ => None
          end
      end
  | MUse r j l =>
      if free m r && owns m r j && needs_client l then world_step log m (WClient j l) (m_wants m) else None
  | MRelease r j =>
      if free m r && owns m r j then Some (Mesh (m_world m) (set_owner j None (m_owner m)) (m_wants m), []) else None
  end.

Fixpoint mexecute (log : bool) (m : mesh) (ls : list mlabel) : option (mesh * list wobs) :=
  match ls with
  | [] => Some (m, [])
  | l :: ls' =>
      match mstep log m l with
      | Some (m1, o1) =>
          match mexecute log m1 ls' with
          | Some (m2, o2) => Some (m2, o1 ++ o2)
          | None => None
          end
      | None => None
      end
  end.
