(** Model of socket-io-client/src/emit.rs: event and ack builders.  Sending (the effect on the
    callback table and the channel) is in System.v. *)
From Verif Require Export SocketSer Callbacks.

(** emit.rs:9-15 [struct EventBuilder]; the exclusive borrow of the client is reduced to its
    [next_id], which is passed along. *)
Record event_builder := EventBuilder {
  eb_event : bytes; eb_ns : bytes; eb_binary : bool; eb_callback : option (cb * N) }.
(** emit.rs:17-22 [struct EventArgsBuilder] *)
Record event_args_builder := EventArgsBuilder {
  ea_ns : bytes; ea_callback : option (cb * N); ea_builder : builder }.
(** emit.rs:24-29 [struct AckBuilder] *)
Record ack_builder := AckBuilder { ab_ns : bytes; ab_id : N; ab_binary : bool }.

(** emit.rs:37-45, lib.rs:174-180 [namespace_emit] *)
Definition event_builder_new (event namespace : bytes) : event_builder :=
  EventBuilder event namespace false None.
(** emit.rs:47-50 *)
Definition event_binary (b : bool) (e : event_builder) : event_builder :=
  EventBuilder (eb_event e) (eb_ns e) b (eb_callback e).
(** [u64] addition of 1 as in release builds; debug builds panic on overflow. *)
Definition next_u64 (n : N) : N := ((n + 1) mod 2 ^ 64)%N.
(** emit.rs:52-57; the first component is the client's [next_id] afterwards. *)
Definition event_callback (next_id : N) (c : cb) (e : event_builder) : N * event_builder :=
  (next_u64 next_id, EventBuilder (eb_event e) (eb_ns e) (eb_binary e) (Some (c, next_id))).
(** emit.rs:59-72; [None] is a panic in [new_event]. *)
Definition event_args (e : event_builder) : option event_args_builder :=
  match new_event (eb_event e) (eb_ns e) (option_map snd (eb_callback e)) (eb_binary e) with
  | Some b => Some (EventArgsBuilder (eb_ns e) (eb_callback e) b)
  | None => None
  end.
(** emit.rs:84-89 [arg_ref]; [arg] (76-82) is the same and drops the builder on error. *)
Definition event_arg_ref (a : event_args_builder) (v : sval) : event_args_builder * res ser_error unit :=
  let (b, r) := serialize_arg (ea_builder a) v in (EventArgsBuilder (ea_ns a) (ea_callback a) b, r).

(** The calls a user can make on an [EventBuilder] before [args]. *)
Inductive bcall := SetBinary (b : bool) | SetCallback (f : cb).
Fixpoint builder_calls (next_id : N) (e : event_builder) (l : list bcall) : N * event_builder :=
  match l with
  | [] => (next_id, e)
  | SetBinary b :: l' => builder_calls next_id (event_binary b e) l'
  | SetCallback f :: l' => let (n, e') := event_callback next_id f e in builder_calls n e' l'
  end.
(** [args()], any number of [arg_ref] calls, and the first line of [send] (emit.rs:92). *)
Definition event_packets (e : event_builder) (args : list sval) : option (list wsmsg) :=
  match event_args e with
  | Some a => finish (ea_builder (fold_left (fun a v => fst (event_arg_ref a v)) args a))
  | None => None
  end.

(** emit.rs:104-116 *)
Definition ack_builder_new (namespace : bytes) (id : N) : ack_builder := AckBuilder namespace id false.
(** emit.rs:118-121 *)
Definition ack_binary (b : bool) (a : ack_builder) : ack_builder := AckBuilder (ab_ns a) (ab_id a) b.
(** emit.rs:123-152: [args], [arg_ref]s and the first line of [send] (149). *)
Definition ack_packets (a : ack_builder) (args : list sval) : option (list wsmsg) :=
  finish (serialize_args (new_ack (ab_ns a) (ab_id a) (ab_binary a)) args).
