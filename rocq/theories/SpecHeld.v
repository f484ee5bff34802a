(** Which callbacks a client keeps: C67. *)
From Verif Require Export SpecQuestion.

(** The callback [f] is stored somewhere in the table. *)
Definition held (t : callbacks) (f : cb) : Prop :=
  exists ns n, In (ns, n) t /\
    (n_fallback n = Some f \/ (exists ev, In (ev, f) (n_events n)) \/ (exists id, In (id, f) (n_acks n))).
(** It has a use, by what was done to the table: it is the current one of an event, the current
    fallback of a namespace, or it waits for an answer. *)
Definition in_use (h : list cop) (f : cb) : Prop :=
  (exists ns ev, event_callback_of h ns ev f) \/ (exists ns, fallback_of h ns f) \/ (exists ns id, awaiting h ns id f).
(** The full statement (false): once the connection is over, no callback is kept that waits for an
    answer. *)
Definition C67_full : Prop := forall log s o ns id f, trace log s o -> task_ended s = true -> ~ awaiting (table_history o) ns id f.
