(** Histories of operations on the callback table, and what a table with that history must do. *)
From Verif Require Export Callbacks.

(** Everything that can happen to the table. *)
Inductive cop :=
| CSetEvent (ns ev : bytes) (f : cb) | CClearEvent (ns ev : bytes)
| CSetFallback (ns : bytes) (f : cb) | CClearFallback (ns : bytes)
| CSetAck (ns : bytes) (id : N) (f : cb) | CTakeAck (ns : bytes) (id : N).
(** The table after a history, and the answer of each operation. *)
Definition do_op (c : callbacks) (o : cop) : callbacks * option cb :=
  match o with
  | CSetEvent ns ev f => (set_event c ns ev f, None)
  | CClearEvent ns ev => (clear_event c ns ev, None)
  | CSetFallback ns f => (set_fallback c ns f, None)
  | CClearFallback ns => (clear_fallback c ns, None)
  | CSetAck ns id f => (set_ack c ns id f, None)
  | CTakeAck ns id => get_and_clear_ack c ns id
  end.
Definition table_after (h : list cop) : callbacks := fold_left (fun c o => fst (do_op c o)) h callbacks_new.

(** Operations that concern one event, one fallback, one ack. *)
Definition on_event (ns ev : bytes) (o : cop) : Prop :=
  (exists f, o = CSetEvent ns ev f) \/ o = CClearEvent ns ev.
Definition on_fallback (ns : bytes) (o : cop) : Prop :=
  (exists f, o = CSetFallback ns f) \/ o = CClearFallback ns.
Definition on_ack (ns : bytes) (id : N) (o : cop) : Prop :=
  (exists f, o = CSetAck ns id f) \/ o = CTakeAck ns id.
(** [last_of P o h]: [o] is the last operation in [h] that satisfies [P]. *)
Definition last_of (P : cop -> Prop) (o : cop) (h : list cop) : Prop :=
  exists h1 h2, h = h1 ++ o :: h2 /\ P o /\ Forall (fun x => ~ P x) h2.

(** The callback that an event goes to. *)
Definition event_callback_of (h : list cop) (ns ev : bytes) (f : cb) : Prop :=
  last_of (on_event ns ev) (CSetEvent ns ev f) h.
Definition fallback_of (h : list cop) (ns : bytes) (f : cb) : Prop :=
  last_of (on_fallback ns) (CSetFallback ns f) h.
Definition routed (h : list cop) (ns ev : bytes) (f : cb) : Prop :=
  event_callback_of h ns ev f \/
  ((forall g, ~ event_callback_of h ns ev g) /\ fallback_of h ns f).
(** The callback that waits for an ack. *)
Definition awaiting (h : list cop) (ns : bytes) (id : N) (f : cb) : Prop :=
  last_of (on_ack ns id) (CSetAck ns id f) h.

(** [taken_from h i j]: the ack callback registered by the [i]-th operation is what the [j]-th, an
    arriving ack, gets. *)
Definition taken_from (h : list cop) (i j : nat) : Prop :=
  exists ns id f, nth_error h i = Some (CSetAck ns id f) /\ nth_error h j = Some (CTakeAck ns id) /\
    i < j /\ awaiting (firstn j h) ns id f /\
    forall k o, i < k < j -> nth_error h k = Some o -> ~ on_ack ns id o.
