(** What is on the wire determines what was meant: C85. *)
From Verif Require Export SpecBuild.

(** A packet as a program builds it: event or ack, namespace, mode, arguments. *)
Definition parcel := (source * bytes * bool * list sval)%type.
Definition frames_of (x : parcel) : option (list wsmsg) := let '(src, ns, bin, args) := x in build src ns bin args.
(** What the model covers: [usable] and [usable_binary] arguments, a namespace that starts with a slash. *)
Definition parcel_ok (x : parcel) : Prop :=
  let '(src, ns, bin, args) := x in
  ns_ok ns /\ usable (all_args src args) /\ (bin = true -> usable_binary (all_args src args)).
(** The first argument of an ack, if there is one, serialises. *)
Definition parcel_starts (x : parcel) : Prop := let '(src, ns, bin, args) := x in first_ok src args.
(** Sent in this namespace. *)
Definition in_ns (ns : bytes) (x : parcel) : Prop := let '(_, ns', _, _) := x in ns' = ns.
(** What was meant: kind, namespace, mode, id, and the values of the arguments (of an event, the name first). *)
Definition meant (x : parcel) : kind * bytes * bool * option N * list value :=
  let '(src, ns, bin, args) := x in (src_kind src, ns, bin, src_id src, pkt_values bin (all_args src args)).
(** The frames of packets, one packet after the other. *)
Definition on_the_wire (xs : list parcel) (fs : list wsmsg) : Prop :=
  exists fss, Forall2 (fun x f => frames_of x = Some f) xs fss /\ fs = concat fss.

(** The full statement (false): the same frames come from the same packets only. *)
Definition C85_full : Prop := forall xs ys fs, Forall parcel_ok xs -> Forall parcel_ok ys ->
  on_the_wire xs fs -> on_the_wire ys fs -> map meant xs = map meant ys.
