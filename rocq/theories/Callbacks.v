(** Model of socket-io-client/src/callbacks.rs. *)
From Verif Require Export Bytes.

(** A [HashMap] (std): an association list in which [insert] replaces and [remove] deletes.  Only
    lookup results are observable, so the order is irrelevant. *)
Section Map.
  Context {K V : Type} (eqb : K -> K -> bool).
  Definition hmap := list (K * V).
  Fixpoint hget (k : K) (m : hmap) : option V :=
    match m with [] => None | (k', v) :: m' => if eqb k k' then Some v else hget k m' end.
  Fixpoint hremove (k : K) (m : hmap) : hmap :=
    match m with
    | [] => []
    | (k', v) :: m' => if eqb k k' then hremove k m' else (k', v) :: hremove k m'
    end.
  Definition hinsert (k : K) (v : V) (m : hmap) : hmap := (k, v) :: hremove k m.
End Map.
Arguments hmap : clear implicits.

(** callbacks.rs:11-75: an [EventCallback] or [AckCallback] is known by a number; cloning an
    [EventCallback] (an [Arc]) keeps it.  What a callback does when called is left open (System.v). *)
Definition cb := N.

(** callbacks.rs:81-85 [struct Namespace] *)
Record namespace_t := Namespace {
  n_fallback : option cb;
  n_events : hmap bytes cb;
  n_acks : hmap N cb
}.
(** callbacks.rs:77-79 [struct Callbacks] *)
Definition callbacks := hmap bytes namespace_t.

(** callbacks.rs:142-150 [Namespace::new] *)
Definition namespace_new : namespace_t := Namespace None [] [].
(** callbacks.rs:88-92 [Callbacks::new] *)
Definition callbacks_new : callbacks := [].

(** callbacks.rs:94-100 *)
Definition get_event (c : callbacks) (namespace event : bytes) : option cb :=
  match hget bytes_eqb namespace c with
  | None => None
  | Some ns =>
      match hget bytes_eqb event (n_events ns) with
      | Some f => Some f
      | None => n_fallback ns
      end
  end.

(** callbacks.rs:135-139 [get_or_create_namespace] returns a mutable borrow: here the namespace
    itself, to be put back with [hinsert]. *)
Definition get_or_create_namespace (c : callbacks) (namespace : bytes) : namespace_t :=
  match hget bytes_eqb namespace c with Some ns => ns | None => namespace_new end.

(** callbacks.rs:102-106 *)
Definition set_event (c : callbacks) (namespace event : bytes) (f : cb) : callbacks :=
  let ns := get_or_create_namespace c namespace in
  hinsert bytes_eqb namespace
    (Namespace (n_fallback ns) (hinsert bytes_eqb event f (n_events ns)) (n_acks ns)) c.
(** callbacks.rs:108-112 *)
Definition clear_event (c : callbacks) (namespace event : bytes) : callbacks :=
  match hget bytes_eqb namespace c with
  | Some ns =>
      hinsert bytes_eqb namespace
        (Namespace (n_fallback ns) (hremove bytes_eqb event (n_events ns)) (n_acks ns)) c
  | None => c
  end.
(** callbacks.rs:114-116 *)
Definition set_fallback (c : callbacks) (namespace : bytes) (f : cb) : callbacks :=
  let ns := get_or_create_namespace c namespace in
  hinsert bytes_eqb namespace (Namespace (Some f) (n_events ns) (n_acks ns)) c.
(** callbacks.rs:118-122 *)
Definition clear_fallback (c : callbacks) (namespace : bytes) : callbacks :=
  match hget bytes_eqb namespace c with
  | Some ns => hinsert bytes_eqb namespace (Namespace None (n_events ns) (n_acks ns)) c
  | None => c
  end.
(** callbacks.rs:124-127 *)
Definition get_and_clear_ack (c : callbacks) (namespace : bytes) (id : N) : callbacks * option cb :=
  match hget bytes_eqb namespace c with
  | None => (c, None)
  | Some ns =>
      (hinsert bytes_eqb namespace
         (Namespace (n_fallback ns) (n_events ns) (hremove N.eqb id (n_acks ns))) c,
       hget N.eqb id (n_acks ns))
  end.
(** callbacks.rs:129-133 *)
Definition set_ack (c : callbacks) (namespace : bytes) (id : N) (f : cb) : callbacks :=
  let ns := get_or_create_namespace c namespace in
  hinsert bytes_eqb namespace
    (Namespace (n_fallback ns) (n_events ns) (hinsert N.eqb id f (n_acks ns))) c.
