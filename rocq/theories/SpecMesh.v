(** Who waits for whom. *)
From Verif Require Export Mesh SpecShared.

Definition mesh_run (log : bool) (n : nat) (ls : list mlabel) (m : mesh) (o : list wobs) : Prop :=
  mexecute log (mesh_init n) ls = Some (m, o).
Definition later (log : bool) (m m' : mesh) : Prop := exists ls o, mexecute log m ls = Some (m', o).

(** [blocked_by m r r']: [r] waits for something that [r'] has. *)
Inductive blocked_by (m : mesh) : runner -> runner -> Prop :=
| bb_client r j r' : wants m r = Some (WantClient j) -> m_owner m j = Some r' -> blocked_by m r r'
| bb_table r j l s : wants m r = Some (WantTable j l) -> client_at m j = Some s -> locked s = true ->
    blocked_by m r (RTask j)
| bb_call r f r' : wants m r = Some (WantCall f) -> l_holder (w_locks (m_world m) f) = Some r' -> blocked_by m r r'
| bb_event i s f r' : client_at m i = Some s -> calling s = Some f -> l_holder (w_locks (m_world m) f) = Some r' ->
    r' <> RTask i -> blocked_by m (RTask i) r'.
(** [r] waits: for what it wants, or for the mutex of the callback its task is to call. *)
Definition waits (m : mesh) (r : runner) : Prop :=
  wants m r <> None \/
  exists i s f, r = RTask i /\ client_at m i = Some s /\ calling s = Some f /\
    l_holder (w_locks (m_world m) f) <> Some (RTask i).
(** A deadlock with [r] in it, or before it: a set of runners each of which waits for another of them. *)
Definition hopeless (m : mesh) (r : runner) : Prop :=
  exists S : runner -> Prop, S r /\ forall x, S x -> exists y, S y /\ blocked_by m x y.

(** Nobody asks for a client while having one, nobody asks for the table of the client whose callback
    it is (that is C34). *)
Definition one_client_each (log : bool) (n : nat) (ls : list mlabel) : Prop :=
  forall ls1 r j ls2 m o k, ls = ls1 ++ MWant r (WantClient j) :: ls2 -> mesh_run log n ls1 m o -> m_owner m k <> Some r.
Definition not_its_own_table (ls : list mlabel) : Prop :=
  forall j l, ~ In (MWant (RTask j) (WantTable j l)) ls.
(** No thread calls an event callback itself. *)
Definition no_direct_calls (ls : list mlabel) : Prop := forall r f, ~ In (MWant r (WantCall f)) ls.
(** The full statement (false): with these rules there are no deadlocks. *)
Definition C66_full : Prop := forall log n ls m o r,
  mesh_run log n ls m o -> one_client_each log n ls -> not_its_own_table ls -> no_direct_calls ls -> ~ hopeless m r.
(** Callbacks use no clients (except that they may send the acks that came with the event). *)
Definition callbacks_use_no_client (ls : list mlabel) : Prop := forall i x, ~ In (MWant (RTask i) x) ls.
(** Nobody sets or clears callbacks, or emits with a callback for the ack. *)
Definition no_table_methods (ls : list mlabel) : Prop := forall r j l, ~ In (MWant r (WantTable j l)) ls.

(** What runners have, and ask for. *)
Inductive thing := TheClient (j : nat) | TheTable (j : nat) | TheCallback (f : cb).
Definition has (m : mesh) (r : runner) (x : thing) : Prop :=
  match x with
  | TheClient j => m_owner m j = Some r
  | TheTable j => r = RTask j /\ exists s, client_at m j = Some s /\ locked s = true
  | TheCallback f => l_holder (w_locks (m_world m) f) = Some r
  end.
Definition asks_for (x : want) : thing :=
  match x with WantClient j => TheClient j | WantTable j _ => TheTable j | WantCall f => TheCallback f end.
(** Everybody asks only for things of a smaller rank than all it has; that includes the clients, which
    ask for the event callbacks they call while their tables are locked. *)
Definition asks_in_order (rank : thing -> nat) (log : bool) (n : nat) (ls : list mlabel) : Prop :=
  (forall ls1 r x ls2 m o y, ls = ls1 ++ MWant r x :: ls2 -> mesh_run log n ls1 m o -> has m r y -> rank (asks_for x) < rank y) /\
  (forall m o i f, mesh_run log n ls m o -> In f (calls_of i o) -> rank (TheCallback f) < rank (TheTable i)).
(** Callbacks use only clients of lower levels than the client they are called by. *)
Definition uses_lower_levels (level : nat -> nat) (ls : list mlabel) : Prop :=
  forall i j, In (MWant (RTask i) (WantClient j)) ls -> level j < level i.
(** No event callback is called by two clients. *)
Definition not_shared (o : list wobs) (home : cb -> nat) : Prop := forall i f, In f (calls_of i o) -> home f = i.
